(* Squeeze: lib/jxl/modular/transform/squeeze.h, squeeze.cc, enc_squeeze.cc.
   A channel is its width, height and rows of pixel_type (int32) samples.  The forward
   transform computes in int, where overflow is undefined behaviour: [None]. *)
From Verif Require Import Base.

(* squeeze.h:61-80 SmoothTendency.  pixel_type_w is int64, where no intermediate value
   overflows for int32 arguments. *)
Definition smooth_tendency (B a n : Z) : Z :=
  if (a <=? B) && (n <=? a) then
    let diff := Z.quot (4 * B - 3 * n - a + 6) 12 in
    let diff := if 2 * (B - a) <? diff - Z.land diff 1 then 2 * (B - a) + 1 else diff in
    if 2 * (a - n) <? diff + Z.land diff 1 then 2 * (a - n) else diff
  else if (B <=? a) && (a <=? n) then
    let diff := Z.quot (4 * B - 3 * n - a - 6) 12 in
    let diff := if diff + Z.land diff 1 <? 2 * (B - a) then 2 * (B - a) - 1 else diff in
    if diff - Z.land diff 1 <? 2 * (a - n) then 2 * (a - n) else diff
  else 0.

(* int arithmetic: [None] when the result is not an int32 *)
Definition int_ (v : Z) : option Z := if (- 2 ^ 31 <=? v) && (v <? 2 ^ 31) then Some v else None.
Notation "'do' x <- p ; q" := (match p with Some x => q | None => None end)
  (at level 200, x pattern, p at level 100, q at level 200, right associativity).

(* enc_squeeze.cc:25 AVERAGE *)
Definition average (X Y : Z) : option Z :=
  do s <- int_ (X + Y); do s <- int_ (s + (if Y <? X then 1 else 0)); Some (Z.shiftr s 1).
(* enc_squeeze.cc:55-68 and 106-121: the residual of a pair *)
Definition residual (left avg next A B : Z) : option Z :=
  do diff <- int_ (A - B);
  int_ (diff - s32 (smooth_tendency left avg next)).

(* One line of items: a row of samples for the horizontal, a column (a list of rows) for
   the vertical squeeze.  enc_squeeze.cc:46-75 and 97-131: the loops over x and y.
   [left] is the item before the line's current position. *)
Section Line.
Context {T : Type}.
Variable avg2 : T -> T -> option T.
Variable res : T -> T -> T -> T -> T -> option T.
Fixpoint fwd_line (left : option T) (l : list T) : option (list T * list T) :=
  match l with
  | [] => Some ([], [])
  | [a] => Some ([a], [])
  | a :: b :: rest =>
      do av <- avg2 a b;
      do next <- match rest with
                 | [] => Some av
                 | [c] => Some c
                 | c :: d :: _ => avg2 c d
                 end;
      do r <- res (match left with Some l => l | None => av end) av next a b;
      do (avs, rs) <- fwd_line (Some b) rest;
      Some (av :: avs, r :: rs)
  end.
(* squeeze.cc:157-172 and 264-297, 305-312; x: the position in the line *)
Variable unres : nat -> T -> T -> T -> T -> T * T.
Fixpoint inv_line (x : nat) (left : option T) (avs rs : list T) : list T :=
  match rs, avs with
  | r :: rs', av :: avs' =>
      let next := match avs' with n :: _ => n | [] => av end in
      let '(A, B) := unres x (match left with Some l => l | None => av end) av next r in
      A :: B :: inv_line (S x) (Some B) avs' rs'
  | [], [av] => [av]
  | _, _ => []
  end.
End Line.

(* squeeze.cc:161-170 the scalar inverse step; int64 computation, stored as int32 *)
Definition unsqueeze_scalar (left avg next r : Z) : Z * Z :=
  let diff := r + smooth_tendency left avg next in
  let A := avg + Z.quot diff 2 in
  (s32 A, s32 (A - diff)).

(* squeeze.cc:61-127 FastUnsqueeze, one lane; int32 vectors wrap.  MulEven and MulOdd give
   the 64-bit products, of which the high halves are interleaved. *)
Definition vabs (v : Z) : Z := s32 (Z.abs v).
Definition unsqueeze_simd (top avg next r : Z) : Z * Z :=
  let Ba := s32 (top - avg) in
  let an := s32 (avg - next) in
  let nonmono := Z.lxor Ba an in
  let absBa := vabs Ba in
  let absan := vabs an in
  let absBn := vabs (s32 (top - next)) in
  let a3 := Z.shiftr (absBa * 0x55555556) 32 in
  let a3 := s32 (a3 + s32 (absBn + 2)) in
  let absdiff := Z.shiftr a3 2 in
  let skipdiff := negb (Ba =? 0) && negb (an =? 0) && (nonmono <? 0) in
  let absBa2 := s32 (s32 (2 * absBa) + Z.land absdiff 1) in
  let absdiff := if absBa2 <? absdiff then s32 (s32 (2 * absBa) + 1) else absdiff in
  let absan2 := s32 (2 * absan) in
  let absdiff := if absan2 <? s32 (absdiff + Z.land absdiff 1) then absan2 else absdiff in
  let diff1 := if top <? next then s32 (- absdiff) else absdiff in
  let tendency := if skipdiff then 0 else diff1 in
  let diff := s32 (r + tendency) in
  let out := s32 (avg + Z.shiftr (s32 (diff + (if diff <? 0 then 1 else 0))) 1) in
  (out, s32 (out - diff)).

(* Channels *)
Record chan := Chan { cw : nat; chh : nat; rows : list (list Z) }.

Fixpoint mapM {A B} (f : A -> option B) (l : list A) : option (list B) :=
  match l with
  | [] => Some []
  | a :: l' => do b <- f a; do bs <- mapM f l'; Some (b :: bs)
  end.

(* the operations on whole rows, sample by sample: the inner loops over x *)
Fixpoint average_rows (a b : list Z) : option (list Z) :=
  match a, b with
  | x :: a', y :: b' => do v <- average x y; do vs <- average_rows a' b'; Some (v :: vs)
  | _, _ => Some []
  end.
Fixpoint residual_rows (top avg next a b : list Z) : option (list Z) :=
  match top, avg, next, a, b with
  | t :: top', v :: avg', n :: next', x :: a', y :: b' =>
      do r <- residual t v n x y; do rs <- residual_rows top' avg' next' a' b'; Some (r :: rs)
  | _, _, _, _, _ => Some []
  end.
Fixpoint unsqueeze_rows (step : nat -> Z -> Z -> Z -> Z -> Z * Z) (x : nat) (top avg next r : list Z) : list Z * list Z :=
  match top, avg, next, r with
  | t :: top', v :: avg', n :: next', d :: r' =>
      let '(A, B) := step x t v n d in
      let '(As, Bs) := unsqueeze_rows step (S x) top' avg' next' r' in
      (A :: As, B :: Bs)
  | _, _, _, _ => ([], [])
  end.

(* enc_squeeze.cc:27-80 FwdHSqueeze: the averages and the residuals *)
Definition fwd_h (c : chan) : option (chan * chan) :=
  do lines <- mapM (fwd_line average residual None) (rows c);
  let ow := ((cw c + 1) / 2)%nat in
  Some (Chan ow (chh c) (map fst lines), Chan (cw c - ow) (chh c) (map snd lines)).
(* enc_squeeze.cc:82-137 FwdVSqueeze *)
Definition fwd_v (c : chan) : option (chan * chan) :=
  do (avs, rs) <- fwd_line average_rows residual_rows None (rows c);
  let oh := ((chh c + 1) / 2)%nat in
  Some (Chan (cw c) oh avs, Chan (cw c) (chh c - oh) rs).

(* squeeze.cc:181-221: the samples of InvHSqueeze computed by FastUnsqueeze: rows in full
   groups of 8, columns in full groups of 8 while more than 9 are left.
   squeeze.cc:253-285: the same for InvVSqueeze: slices of 64 columns.
   [simd]: false on HWY_SCALAR. *)
Definition h_fast (simd : bool) (rw h y x : nat) : bool :=
  simd && (16 <? rw)%nat && (8 * (y / 8) + 8 <=? h)%nat && (8 * (x / 8) <? rw - 9)%nat.
Definition v_fast (simd : bool) (w x : nat) : bool :=
  let x0 := (64 * (x / 64))%nat in
  let n := (Nat.min (x0 + 64) w - x0)%nat in
  simd && ((x - x0) <? 8 * (n / 8))%nat.
Definition step_at (fast : nat -> bool) (x : nat) : Z -> Z -> Z -> Z -> Z * Z :=
  if fast x then unsqueeze_simd else unsqueeze_scalar.

(* squeeze.cc:131-226 InvHSqueeze; None: JXL_ENSURE fails *)
Definition inv_h (simd : bool) (c r : chan) : option chan :=
  if negb (cw c =? (cw c + cw r + 1) / 2)%nat then None
  else if negb (chh c =? chh r)%nat then None
  else if (cw r =? 0)%nat then Some c
  else Some (Chan (cw c + cw r) (chh c)
    (map (fun '(y, (a, d)) => inv_line (step_at (h_fast simd (cw r) (chh c) y)) 0 None a d)
         (combine (seq 0 (chh c)) (combine (rows c) (rows r))))).
(* squeeze.cc:228-317 InvVSqueeze *)
Definition inv_v (simd : bool) (c r : chan) : option chan :=
  if negb (chh c =? (chh c + chh r + 1) / 2)%nat then None
  else if negb (cw c =? cw r)%nat then None
  else if (chh r =? 0)%nat then Some c
  else Some (Chan (cw c) (chh c + chh r)
    (inv_line (fun _ => unsqueeze_rows (step_at (v_fast simd (cw c))) 0) 0 None (rows c) (rows r))).

(* squeeze_params.h *)
Record sq := Sq { horizontal : bool; in_place : bool; begin_c : Z; num_c : Z }.

(* squeeze.cc:428-437 CheckMetaSqueezeParams; both indices are int *)
Definition check_params (p : sq) (n : nat) : bool :=
  let c1 := s32 (begin_c p) in
  let c2 := s32 (begin_c p + num_c p - 1) in
  negb ((c1 <? 0) || (Z.of_nat n <=? c1) || (c2 <? 0) || (Z.of_nat n <=? c2) || (c2 <? c1)).

Definition insert_at {A} (i : nat) (x : A) (l : list A) : list A := firstn i l ++ x :: skipn i l.
Definition set_at {A} (i : nat) (x : A) (l : list A) : list A := firstn i l ++ x :: skipn (S i) l.

(* enc_squeeze.cc:159-167: the channels c, ..., endc; k: how many are left *)
Fixpoint fwd_loop (h : bool) (offset beginc : nat) (k c : nat) (l : list chan) : option (list chan) :=
  match k with
  | O => Some l
  | S k' =>
      do ch <- nth_error l c;
      do (a, r) <- (if h then fwd_h ch else fwd_v ch);
      fwd_loop h offset beginc k' (S c) (insert_at (offset + c - beginc) r (set_at c a l))
  end.
(* enc_squeeze.cc:146-168 one step of FwdSqueeze *)
Definition fwd_step (p : sq) (l : list chan) : option (list chan) :=
  if negb (check_params p (length l)) then None
  else
    let b := Z.to_nat (begin_c p) in
    let n := Z.to_nat (num_c p) in
    let offset := if in_place p then (b + n)%nat else length l in
    fwd_loop (horizontal p) offset b n b l.
Fixpoint fwd_squeeze (ps : list sq) (l : list chan) : option (list chan) :=
  match ps with [] => Some l | p :: ps' => do l' <- fwd_step p l; fwd_squeeze ps' l' end.

(* squeeze.cc:340-356 the loop over the channels of one step of InvSqueeze *)
Fixpoint inv_loop (simd h : bool) (offset beginc : nat) (k c : nat) (l : list chan) : option (list chan) :=
  match k with
  | O => Some l
  | S k' =>
      let rc := (offset + c - beginc)%nat in
      do a <- nth_error l c;
      do r <- nth_error l rc;
      if (cw a <? cw r)%nat || (chh a <? chh r)%nat then None
      else
        do o <- (if h then inv_h simd a r else inv_v simd a r);
        inv_loop simd h offset beginc k' (S c) (set_at c o l)
  end.
(* squeeze.cc:319-362 InvSqueeze; the image is nb_meta_channels and the channels *)
Definition inv_step (simd : bool) (p : sq) (im : nat * list chan) : option (nat * list chan) :=
  let '(nm, l) := im in
  if negb (check_params p (length l)) then None
  else
    let b := Z.to_nat (begin_c p) in
    let n := Z.to_nat (num_c p) in
    let offset := if in_place p then (b + n)%nat else (length l + b - (b + n - 1) - 1)%nat in
    do nm <- (if (b <? nm)%nat then (if (n <? nm)%nat then Some (nm - n)%nat else None) else Some nm);
    do l <- inv_loop simd (horizontal p) offset b n b l;
    Some (nm, firstn offset l ++ skipn (offset + n) l).
Fixpoint inv_squeeze (simd : bool) (ps : list sq) (im : nat * list chan) : option (nat * list chan) :=
  match ps with [] => Some im | p :: ps' => do im' <- inv_squeeze simd ps' im; inv_step simd p im' end.

(* squeeze.cc:439-497 MetaSqueeze on the dimensions (w, h) of the channels.
   Simplification: the shifts of the channels (and the limit 30 on them) are left out. *)
Fixpoint meta_loop (h : bool) (offset beginc : nat) (k c : nat) (l : list (nat * nat)) : option (list (nat * nat)) :=
  match k with
  | O => Some l
  | S k' =>
      do (cw_, ch_) <- nth_error l c;
      if (cw_ =? 0)%nat || (ch_ =? 0)%nat then None
      else
        let a := if h then (((cw_ + 1) / 2)%nat, ch_) else (cw_, ((ch_ + 1) / 2)%nat) in
        let r := if h then ((cw_ - (cw_ + 1) / 2)%nat, ch_) else (cw_, (ch_ - (ch_ + 1) / 2)%nat) in
        meta_loop h offset beginc k' (S c) (insert_at (offset + c - beginc) r (set_at c a l))
  end.
Definition meta_step (p : sq) (im : nat * list (nat * nat)) : option (nat * list (nat * nat)) :=
  let '(nm, l) := im in
  if negb (check_params p (length l)) then None
  else
    let b := Z.to_nat (begin_c p) in
    let n := Z.to_nat (num_c p) in
    do nm' <- (if (b <? nm)%nat then
                 if (nm <=? b + n - 1)%nat then None
                 else if negb (in_place p) then None else Some (nm + n)%nat
               else Some nm);
    let offset := if in_place p then (b + n)%nat else length l in
    do l' <- meta_loop (horizontal p) offset b n b l;
    Some (nm', l').
Fixpoint meta_squeeze (ps : list sq) (im : nat * list (nat * nat)) : option (nat * list (nat * nat)) :=
  match ps with [] => Some im | p :: ps' => do im' <- meta_step p im; meta_squeeze ps' im' end.
