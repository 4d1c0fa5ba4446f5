(** * The block context map in the file (entropy_coder.cc, enc_context_map.cc)

    The context map inside of it is written by EncodeContextMap and read by DecodeContextMap
    (C46): here any writes and any reading program. *)
From Coq Require Import ZArith List Bool.
From Verif Require Import Base BitProg FieldsModel AcModel.
Import ListNotations.
Local Open Scope Z_scope.

(** kDCThresholdDist, kQFThresholdDist, entropy_coder.h:37-42 *)
Definition dc_dist : u32enc := U32 (Bits 4) (BitsOffset 8 16) (BitsOffset 16 272) (BitsOffset 32 65808).
Definition qf_dist : u32enc := U32 (Bits 2) (BitsOffset 3 4) (BitsOffset 5 12) (BitsOffset 8 44).

(** The loops entropy_coder.cc:37-39, 42-44 *)
Fixpoint read_list (n : nat) (p : rprog Z) : rprog (list Z) :=
  match n with
  | O => Ret []
  | S n' => let! x := p in let! l := read_list n' p in Ret (x :: l)
  end.
Definition read_dct : rprog (list Z) :=
  let! n := rd 4 in read_list (Z.to_nat n) (let! u := u32_read dc_dist in Ret (unpack_signed u)).
Definition read_qft : rprog (list Z) :=
  let! n := rd 4 in read_list (Z.to_nat n) (let! u := u32_read qf_dist in Ret (w32 (u + 1))).

(** DecodeBlockCtxMap, entropy_coder.cc:25-60 *)
Definition bm_read (read_map : Z -> rprog (option (list Z * Z))) : rprog (option bctx) :=
  let! d := rd 1 in
  if d =? 1 then Ret (Some default_bctx) else
  let! d0 := read_dct in
  let! d1 := read_dct in
  let! d2 := read_dct in
  let! q := read_qft in
  let n := (zlen d0 + 1) * (zlen d1 + 1) * (zlen d2 + 1) in
  if n * (zlen q + 1) >? 64 then Ret None else
  let! r := read_map (3 * num_orders * n * (zlen q + 1)) in
  match r with
  | None => Ret None
  | Some (map, k) => if k >? 16 then Ret None else Ret (Some (Bctx d0 d1 d2 q map k n))
  end.

(** The loops enc_context_map.cc:158-168 *)
Fixpoint write_list (e : u32enc) (l : list Z) : option (list (Z * Z)) :=
  match l with
  | [] => Some []
  | v :: r =>
      match u32_write e v, write_list e r with
      | Some a, Some b => Some (a ++ b)
      | _, _ => None
      end
  end.
Definition write_dct (l : list Z) : option (list (Z * Z)) :=
  match write_list dc_dist (map pack_signed l) with Some ws => Some ((4, zlen l) :: ws) | None => None end.
Definition write_qft (l : list Z) : option (list (Z * Z)) :=
  match write_list qf_dist (map (fun i => w32 (i - 1)) l) with Some ws => Some ((4, zlen l) :: ws) | None => None end.

Definition list_eqb (a b : list Z) : bool := if list_eq_dec Z.eq_dec a b then true else false.
Definition empty {A} (l : list A) : bool := match l with [] => true | _ => false end.

(** EncodeBlockCtxMap, enc_context_map.cc:141-173; [wm]: what EncodeContextMap writes.  The
    default is only recognised if the map has 21 entries. *)
Definition bm_write (m : bctx) (wm : list (Z * Z)) : option (list (Z * Z)) :=
  if empty (dct0 m) && empty (dct1 m) && empty (dct2 m) && empty (qft m) && (zlen (cmap m) =? 21) &&
     list_eqb (cmap m) (firstn 21 default_map)
  then Some [(1, 1)]
  else
    match write_dct (dct0 m), write_dct (dct1 m), write_dct (dct2 m), write_qft (qft m) with
    | Some a, Some b, Some c, Some d => Some ((1, 0) :: a ++ b ++ c ++ d ++ wm)
    | _, _, _, _ => None
    end.
