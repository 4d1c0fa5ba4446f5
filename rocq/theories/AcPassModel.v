(** * Several passes of AC coefficients of a group

    Every pass has its own tokens, orders, histogram set and map of counts, and adds to the
    same blocks.  Simplified: the decoder here goes through all blocks of one pass and then
    through the next one, where dec_group.cc:569-590 takes the passes it has for each block
    (the passes do not share anything but the block), as it does when the passes
    arrive one after the other. *)
From Coq Require Import ZArith List Bool.
From Verif Require Import Base AcModel SplitModel.
Import ListNotations.
Local Open Scope Z_scope.

(** TokenizeCoefficients for each pass, enc_frame.cc:1201-1240: the
    pass takes its part of each block (coeffs[c][p], enc_group.cc:514-519); the map of counts
    holds what earlier groups and passes left there. *)
Fixpoint enc_passes (m : bctx) (geo : list (list vblock)) (parts : list (list (Z -> Z))) (fs : nat -> Z -> nzmap) : option (list (list token)) :=
  match geo with
  | [] => Some []
  | vs :: r =>
      match enc_blocks m (combine vs (map (hd zeros) parts)) (fs O), enc_passes m r (map (@tl _) parts) (fun i => fs (S i)) with
      | Some ts, Some tss => Some (ts :: tss)
      | _, _ => None
      end
  end.

(** All blocks of a group in one pass, added to what is there: dec_group.cc:550-590 *)
Fixpoint dec_more (S : Type) (read : S -> Z -> Z * S) (mapsize offset bits shift : Z)
    (m : bctx) (l : list (vblock * (Z -> Z))) (f : Z -> nzmap) (st : S) : res (list (Z -> Z) * S) :=
  match l with
  | [] => Fine ([], st)
  | (v, b) :: r =>
      match dec_block S read mapsize offset bits shift m v (f (v_c v)) b st with
      | Fine (g, b, st) =>
          match dec_more S read mapsize offset bits shift m r (fun c => if c =? v_c v then g else f c) st with
          | Fine (bs, st) => Fine (b :: bs, st)
          | Bad => Bad
          | Stray => Stray
          end
      | Bad => Bad
      | Stray => Stray
      end
  end.

(** Pass after pass; [hists] has the histogram set of each (cur_histogram, dec_group.cc:617-625) *)
Fixpoint dec_passes (m : bctx) (bits num_hist : Z) (shifts hists : list Z) (geo : list (list vblock))
    (tss : list (list token)) (f : Z -> nzmap) (blocks : list (Z -> Z)) : res (list (Z -> Z)) :=
  match shifts, hists, geo, tss with
  | s :: ss, h :: hs, vs :: r, ts :: tss =>
      match dec_more _ (read_token (h * num_ac m)) (num_hist * num_ac m + (zd_limit - zd_count)) (h * num_ac m) bits s
              m (combine vs blocks) f ts with
      | Fine (blocks, _) => dec_passes m bits num_hist ss hs r tss f blocks
      | Bad => Bad
      | Stray => Stray
      end
  | _, _, _, _ => Fine blocks
  end.
