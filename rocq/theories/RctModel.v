(* Model of the reversible colour transforms: lib/jxl/modular/transform/rct.cc,
   lib/jxl/modular/transform/enc_rct.cc, and PixelAdd of modular/transform/transform.h. *)
From Verif Require Import Base.

(* A channel is the list of its rows. *)
Definition channel := list (list Z).
Definition chans := (channel * channel * channel)%type.

(* modular/encoding/context_predict.h:385-402: ClampedGradient *)
Definition clamped_gradient (n w l : Z) : Z :=
  let m := Z.min n w in
  let M := Z.max n w in
  let grad := s32 (w32 (w32 (w32 n + w32 w) - w32 l)) in
  let grad_clamp_M := if l <? m then M else grad in
  if M <? l then m else grad_clamp_M.

(* modular/transform/transform.h: PixelAdd (addition as uint32, cast back) *)
Definition pixel_add (a b : Z) : Z := s32 (w32 (w32 a + w32 b)).

(* hwy Add/Sub/ShiftRight<1> on int32 lanes: two's complement wraparound *)
Definition v_add (a b : Z) : Z := s32 (a + b).
Definition v_sub (a b : Z) : Z := s32 (a - b).
Definition v_shr1 (a : Z) : Z := Z.shiftr a 1.

(* rct.cc:72-101: the scalar remainder loop of InvRCTRow<transform>, one pixel *)
Definition inv_px_scalar (t : Z) (p : Z * Z * Z) : Z * Z * Z :=
  let '(i0, i1, i2) := p in
  if t =? 6 then
    let tmp := pixel_add i0 (- Z.shiftr i2 1) in
    let G := pixel_add i2 tmp in
    let B := pixel_add tmp (- Z.shiftr i1 1) in
    let R := pixel_add B i1 in
    (R, G, B)
  else
    let second := Z.shiftr t 1 in
    let third := Z.land t 1 in
    let i2' := if third =? 1 then pixel_add i2 i0 else i2 in
    let i1' := if second =? 1 then pixel_add i1 i0
               else if second =? 2 then pixel_add i1 (Z.shiftr (pixel_add i0 i2') 1)
               else i1 in
    (i0, i1', i2').

(* rct.cc:41-71: the vector loop of InvRCTRow<transform>, one lane *)
Definition inv_px_simd (t : Z) (p : Z * Z * Z) : Z * Z * Z :=
  let '(i0, i1, i2) := p in
  if t =? 6 then
    let Y := v_sub i0 (v_shr1 i2) in
    let G := v_add i2 Y in
    let Y' := v_sub Y (v_shr1 i1) in
    let R := v_add Y' i1 in
    (R, G, Y')
  else
    let second := Z.shiftr t 1 in
    let third := Z.land t 1 in
    let i2' := if third =? 1 then v_add i2 i0 else i2 in
    let i1' := if second =? 1 then v_add i1 i0
               else if second =? 2 then v_add i1 (v_shr1 (v_add i0 i2'))
               else i1 in
    (i0, i1', i2').

(* rct.cc:29-102: InvRCTRow<transform> on a row of pixel triples, for vectors of [lanes]
   pixels: whole vectors first, the rest one by one.  (Rows of the three channels are
   zipped to one list of triples; all loads of a vector or pixel happen before its
   stores, so that the in-place operation is a map.) *)
Definition inv_row (lanes : nat) (t : Z) (row : list (Z * Z * Z)) : list (Z * Z * Z) :=
  let k := (Nat.div (length row) lanes * lanes)%nat in
  map (inv_px_simd t) (firstn k row) ++ map (inv_px_scalar t) (skipn k row).

(* enc_rct.cc:38-68: FwdRctRow<transform>, scalar target, one pixel.  int arithmetic:
   [None] is signed overflow (undefined behaviour). *)
Definition chk (x : Z) : option Z := if (- 2 ^ 31 <=? x) && (x <? 2 ^ 31) then Some x else None.

Definition obind {A B} (o : option A) (f : A -> option B) : option B :=
  match o with None => None | Some a => f a end.
Notation "'do' x <- o ;; q" := (obind o (fun x => q)) (at level 200, x pattern, o at level 100, q at level 200, right associativity).

Definition fwd_px_scalar (t : Z) (p : Z * Z * Z) : option (Z * Z * Z) :=
  let '(i0, i1, i2) := p in
  if t =? 6 then
    do o1 <- chk (i0 - i2);;
    do tmp <- chk (i2 + Z.shiftr o1 1);;
    do o2 <- chk (i1 - tmp);;
    do o0 <- chk (tmp + Z.shiftr o2 1);;
    Some (o0, o1, o2)
  else
    let second := Z.shiftr t 1 in
    let third := Z.land t 1 in
    do o1 <- (if second =? 1 then chk (i1 - i0)
              else if second =? 2 then do s <- chk (i0 + i2);; chk (i1 - Z.shiftr s 1)
              else Some i1);;
    do o2 <- (if third =? 1 then chk (i2 - i0) else Some i2);;
    Some (i0, o1, o2).

(* enc_rct.cc:69-107: FwdRctRow<transform>, vector targets, one lane *)
Definition fwd_px_simd (t : Z) (p : Z * Z * Z) : Z * Z * Z :=
  let '(i0, i1, i2) := p in
  if t =? 6 then
    let o1 := v_sub i0 i2 in
    let tmp := v_add i2 (v_shr1 o1) in
    let o2 := v_sub i1 tmp in
    let o0 := v_add tmp (v_shr1 o2) in
    (o0, o1, o2)
  else
    let second := Z.shiftr t 1 in
    let third := Z.land t 1 in
    let o1 := if second =? 1 then v_sub i1 i0
              else if second =? 2 then v_sub i1 (v_shr1 (v_add i0 i2))
              else i1 in
    let o2 := if third =? 1 then v_sub i2 i0 else i2 in
    (i0, o1, o2).

Definition sel {A} (c : A * A * A) (i : Z) : A :=
  let '(a, b, d) := c in if i =? 0 then a else if i =? 1 then b else d.
Definition upd {A} (c : A * A * A) (i : Z) (v : A) : A * A * A :=
  let '(a, b, d) := c in if i =? 0 then (v, b, d) else if i =? 1 then (a, v, d) else (a, b, v).

(* the three indices of RctPermute (enc_rct.cc:112-116) and of InvRCT (rct.cc:141-146) *)
Definition perm0 (p : Z) : Z := p mod 3.
Definition perm1 (p : Z) : Z := (p + 1 + p / 3) mod 3.
Definition perm2 (p : Z) : Z := (p + 2 - p / 3) mod 3.

Fixpoint zip3 (a b c : list Z) : list (Z * Z * Z) :=
  match a, b, c with
  | x :: a', y :: b', z :: c' => (x, y, z) :: zip3 a' b' c'
  | _, _, _ => []
  end.
Fixpoint zip_rows (a b c : channel) : list (list (Z * Z * Z)) :=
  match a, b, c with
  | x :: a', y :: b', z :: c' => zip3 x y z :: zip_rows a' b' c'
  | _, _, _ => []
  end.
Definition fst3 (p : Z * Z * Z) : Z := fst (fst p).
Definition snd3 (p : Z * Z * Z) : Z := snd (fst p).
Definition trd3 (p : Z * Z * Z) : Z := snd p.

(* enc_rct.cc:118-197 FwdRctImpl, 213-226 FwdRct on three channels (vector targets);
   type 0 is a no-op (FwdRct reports false and the caller does not add a transform) *)
Definition fwd_rct (rct_type : Z) (c : chans) : chans :=
  if rct_type =? 0 then c
  else
    let p := rct_type / 7 in
    let t := rct_type mod 7 in
    let rows := map (map (fwd_px_simd t)) (zip_rows (sel c (perm0 p)) (sel c (perm1 p)) (sel c (perm2 p))) in
    (map (map fst3) rows, map (map snd3) rows, map (map trd3) rows).

(* rct.cc:104-154: InvRCT.  The permute-only case moves the channels. *)
Definition inv_rct (lanes : nat) (rct_type : Z) (c : chans) : option chans :=
  if rct_type =? 0 then Some c
  else
    let p := rct_type / 7 in
    if negb (p <? 6) then None
    else
      let t := rct_type mod 7 in
      let '(c0, c1, c2) := c in
      if t =? 0 then Some (upd (upd (upd c (perm0 p) c0) (perm1 p) c1) (perm2 p) c2)
      else
        let rows := map (inv_row lanes t) (zip_rows c0 c1 c2) in
        Some (upd (upd (upd c (perm0 p) (map (map fst3) rows))
                     (perm1 p) (map (map snd3) rows))
                (perm2 p) (map (map trd3) rows)).
