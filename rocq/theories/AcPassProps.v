(** * C60: coefficients in several passes *)
From Coq Require Import ZArith List Bool Lia Permutation.
From Verif Require Import Base AcModel AcSpec AcProofs AcProps SplitModel SplitSpec SplitProps AcPassModel AcPassProofs.
Import ListNotations.
Local Open Scope Z_scope.

(** C60: the blocks of a group (sides X, Y in blocks in canonical order, and coefficients) are
    split into the passes of any refining mode; every pass has its own orders, histogram set
    and map of counts.  The encoder makes tokens for every pass, and a decoder that reads all
    passes has exactly the coefficients, with zeros in the lowest frequencies. *)
Theorem C60_all_passes : forall m bits num_hist ps, usable m -> 1 <= bits <= 32 -> num_hist * num_ac m <= 2 ^ 31 ->
  (2 <= length ps)%nat -> refining 1 0 ps ->
  forall (blocks : list ((Z * Z) * (Z -> Z))) (hists : list Z) (geo : list (list vblock)) fs f,
  length hists = length ps -> length geo = length ps -> Forall (fun h => 0 <= h < num_hist) hists ->
  Forall (fun vs => in_order [] vs) geo ->
  Forall (fun vs => Forall2 (fun v s => well_formed m v /\ full_order v /\
    Z.max (v_cx v) (v_cy v) = fst (fst s) /\ Z.min (v_cx v) (v_cy v) = snd (fst s)) vs blocks) geo ->
  Forall (fun s => forall i, - 2 ^ (bits - 1) <= snd s i < 2 ^ (bits - 1)) blocks ->
  exists tss, enc_passes m geo (map (fun s => split (fst (fst s)) (snd (fst s)) ps (snd s)) blocks) fs = Some tss /\
  exists ds, dec_passes m bits num_hist (header_shifts ps) hists geo tss f (map (fun _ => zeros) blocks) = Fine ds /\
    Forall2 (fun s d => forall i, 0 <= i < fst (fst s) * snd (fst s) * 64 ->
      (in_square (fst (fst s)) (snd (fst s)) 1 i -> d i = 0) /\
      (~ in_square (fst (fst s)) (snd (fst s)) 1 i -> d i = snd s i)) blocks ds.
Proof.
  intros m bits num_hist ps Hu Hbits Hn Hlen Hr blocks hists geo fs f Hlh Hlg Hh Ho Hg Hfit.
  destruct (all_passes m bits num_hist (usable_inv m Hu) Hbits Hn blocks f Hfit ps hists geo 1 1 0
    (map (fun _ => zeros) blocks) fs Ho Hlh Hlg Hh Hg ltac:(lia) ltac:(lia) ltac:(auto) Hr) as (tss & He & ds & Hd & Hds).
  { clear. induction blocks as [|s l IH]; cbn [map]; constructor; auto.
    intros i _. rewrite known_start. reflexivity. }
  destruct ps as [|p [|q r]]; cbn [length] in Hlen; try lia.
  exists tss. split; [exact He|]. exists ds.
  rewrite (last_shift 1 0 p (q :: r) Hr). split; [exact Hd|].
  assert (Hpos : Forall (fun s : shaped => 0 < fst (fst s) /\ 0 < snd (fst s)) blocks).
  { destruct geo as [|vs geo]; [discriminate|]. inversion_clear Hg as [|? ? H1 _]. clear - H1.
    induction H1 as [|v s vs l H _ IH]; constructor; auto. apply (shape_size m v s H). }
  clear - Hds Hpos. induction Hds as [|s d l ds H _ IH]; constructor; inversion_clear Hpos as [|? ? Hp Hpos'].
  - intros i Hi. rewrite (H i Hi). unfold known. split; intros Hq.
    + apply inside_spec in Hq. rewrite Hq. reflexivity.
    + destruct (inside _ _ 1 i) eqn:E1; [exfalso; apply Hq, inside_spec, E1|].
      assert (E8 : inside (fst (fst s)) (snd (fst s)) 8 i = true).
      { apply inside_spec. unfold in_square, row, col. split.
        - apply Z.mod_pos_bound. lia.
        - apply Z.div_lt_upper_bound; lia. }
      rewrite E8. reflexivity.
  - apply IH. assumption.
Qed.
Print Assumptions C60_all_passes.

(** The hypotheses are met by an 8x8 and a 16x8 block in quantization-progressive mode with two
    histogram sets, and the result is as claimed. *)
Example C60_met :
  let b1 := fun i => if i =? 0 then 77 else if i =? 9 then -7 else 0 in
  let b2 := fun i => if i =? 5 then 3 else if i =? 127 then -32768 else 0 in
  let blocks := [((1, 1), b1); ((2, 1), b2)] in
  let geo := [[small; wide]; [small; wide]] in
  Forall (fun vs => in_order [] vs) geo /\
  Forall (fun vs => Forall2 (fun v s => well_formed default_bctx v /\ full_order v /\
    Z.max (v_cx v) (v_cy v) = fst (fst s) /\ Z.min (v_cx v) (v_cy v) = snd (fst s)) vs blocks) geo /\
  match enc_passes default_bctx geo (map (fun s => split (fst (fst s)) (snd (fst s)) mode_qprogressive (snd s)) blocks) (fun _ _ _ _ => 0) with
  | Some tss =>
      match dec_passes default_bctx 16 2 (header_shifts mode_qprogressive) [1; 0] geo tss (fun _ _ _ => 5) [zeros; zeros] with
      | Fine [d1; d2] => d1 0 = 0 /\ d1 9 = -7 /\ d2 5 = 3 /\ d2 127 = -32768
      | _ => False
      end
  | None => False
  end.
Proof.
  cbv zeta. split; [|split].
  - assert (H : in_order [] [small; wide]). { cbn. repeat split; try lia. intros _. left. cbn. lia. }
    constructor; [exact H|]. constructor; [exact H|]. constructor.
  - assert (H : Forall2 (fun v (s : (Z * Z) * (Z -> Z)) => well_formed default_bctx v /\ full_order v /\
      Z.max (v_cx v) (v_cy v) = fst (fst s) /\ Z.min (v_cx v) (v_cy v) = snd (fst s)) [small; wide]
      [((1, 1), fun i => if i =? 0 then 77 else if i =? 9 then -7 else 0); ((2, 1), fun i => if i =? 5 then 3 else if i =? 127 then -32768 else 0)]).
    { constructor; [|constructor; [|constructor]].
      - split; [apply small_ok; [apply usable_inv; left; reflexivity | reflexivity]|]. split; [apply small_full|]. split; reflexivity.
      - split; [apply wide_ok|]. split; [apply wide_ok|]. split; reflexivity. }
    constructor; [exact H|]. constructor; [exact H|]. constructor.
  - vm_compute. repeat split; reflexivity.
Qed.
