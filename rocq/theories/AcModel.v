(** * AC coefficients of a group: contexts, tokens and reading them back
    (ac_context.h, entropy_coder.{h,cc}, enc_entropy_coder.cc, dec_group.cc).

    Not modelled: the entropy coding of the tokens (C12, C46), the bits of the block
    context map (numbers and context map are given), vector code (one coefficient at
    a time here), several passes (each pass is read like this, with its shift). *)
From Coq Require Import ZArith List Bool Lia.
From Verif Require Import Base FieldsModel.
Import ListNotations.
Local Open Scope Z_scope.

(** BlockCtxMap, ac_context.h:85-89 *)
Record bctx := Bctx { dct0 : list Z; dct1 : list Z; dct2 : list Z; qft : list Z; cmap : list Z; nctx : Z; ndc : Z }.

(** kDefaultCtxMap and the constructor, ac_context.h:91-96, 145-149 *)
Definition default_map : list Z :=
  [0; 1; 2; 2; 3; 3; 4; 5; 6; 6; 6; 6; 6;
   7; 8; 9; 9; 10; 11; 12; 13; 14; 14; 14; 14; 14;
   7; 8; 9; 9; 10; 11; 12; 13; 14; 14; 14; 14; 14].
Definition default_bctx : bctx := Bctx [] [] [] [] default_map 15 1.

(** kNumOrders, coeff_order_fwd.h:25 *)
Definition num_orders : Z := 13.

(** DecodeBlockCtxMap, entropy_coder.cc:35-59: the thresholds that were read and what
    DecodeContextMap does with a vector of the given size *)
Definition decode_bctx (d0 d1 d2 q : list Z) (read_map : Z -> option (list Z * Z)) : option bctx :=
  let n := 1 * (zlen d0 + 1) * (zlen d1 + 1) * (zlen d2 + 1) in
  if n * (zlen q + 1) >? 64 then None else
  match read_map (3 * num_orders * n * (zlen q + 1)) with
  | None => None
  | Some (map, k) => if k >? 16 then None else Some (Bctx d0 d1 d2 q map k n)
  end.

(** How many thresholds a value is above: ac_context.h:102-105, compressed_dc.cc:278-286 *)
Definition above (v : Z) (ts : list Z) : Z := zlen (filter (fun t => v >? t) ts).

(** The context of the DC values of a block, DequantDC, compressed_dc.cc:251-292, an
    uint8_t *)
Definition dc_bucket (m : bctx) (x y b : Z) : Z :=
  if ndc m <=? 1 then 0 else
  (((above x (dct0 m)) * (zlen (dct2 m) + 1) + above b (dct2 m)) * (zlen (dct1 m) + 1) + above y (dct1 m)) mod 256.

(** BlockCtxMap::Context, ac_context.h:101-111.  None: outside of the vector. *)
Definition context (m : bctx) (dc qf ord c : Z) : option Z :=
  let idx := if c <? 2 then Z.lxor c 1 else 2 in
  let idx := idx * num_orders + ord in
  let idx := idx * (zlen (qft m) + 1) + above (w32 qf) (qft m) in
  let idx := idx * ndc m + dc in
  if idx <? 0 then None else nth_error (cmap m) (Z.to_nat idx).

(** kNonZeroBuckets, kZeroDensityContextCount, kZeroDensityContextLimit: ac_context.h:27, 45, 47 *)
Definition buckets : Z := 37.
Definition zd_count : Z := 458.
Definition zd_limit : Z := 474.

(** ZeroDensityContextsOffset, NumACContexts, NonZeroContext: ac_context.h:114-143 *)
Definition zd_offset (m : bctx) (bc : Z) : Z := w32 (nctx m * buckets + zd_count * bc).
Definition num_ac (m : bctx) : Z := w32 (nctx m * (buckets + zd_count)).
Definition nonzero_context (m : bctx) (nz bc : Z) : Z :=
  let nz := w32 nz in
  let nz := if nz >=? 64 then 64 else nz in
  let ctx := if nz <? 8 then nz else 4 + nz / 2 in
  w32 (ctx * nctx m + bc).

(** kCoeffFreqContext, kCoeffNumNonzeroContext: ac_context.h:29-42 *)
Definition coeff_freq : list Z :=
  [2989; 0; 1; 2; 3; 4; 5; 6; 7; 8; 9; 10; 11; 12; 13; 14;
   15; 15; 16; 16; 17; 17; 18; 18; 19; 19; 20; 20; 21; 21; 22; 22;
   23; 23; 23; 23; 24; 24; 24; 24; 25; 25; 25; 25; 26; 26; 26; 26;
   27; 27; 27; 27; 28; 28; 28; 28; 29; 29; 29; 29; 30; 30; 30; 30].
Definition coeff_nonzero : list Z :=
  [2989; 0; 31; 62; 62; 93; 93; 93; 93; 123; 123; 123; 123;
   152; 152; 152; 152; 152; 152; 152; 152; 180; 180; 180; 180; 180;
   180; 180; 180; 180; 180; 180; 180; 206; 206; 206; 206; 206; 206;
   206; 206; 206; 206; 206; 206; 206; 206; 206; 206; 206; 206; 206;
   206; 206; 206; 206; 206; 206; 206; 206; 206; 206; 206; 206].

(** ZeroDensityContext, ac_context.h:63-83; [cov] is covered_blocks.  None: outside of
    the tables. *)
Definition zd_context (nz k cov prev : Z) : option Z :=
  let nz := (nz + cov - 1) / cov in
  let k := k / cov in
  if (nz <? 0) || (k <? 0) then None else
  match nth_error coeff_nonzero (Z.to_nat nz), nth_error coeff_freq (Z.to_nat k) with
  | Some a, Some b => Some ((a + b) * 2 + prev)
  | _, _ => None
  end.

(** The number of nonzeros of the blocks of a channel so far: column, row *)
Definition nzmap : Type := Z -> Z -> Z.

(** PredictFromTopAndLeft with default 32, entropy_coder.h:25-35; the row above is null
    for row 0 (enc_entropy_coder.cc:178-182, dec_group.cc:557-560) *)
Definition predict (f : nzmap) (x y : Z) : Z :=
  if x =? 0 then (if y =? 0 then 32 else f x (y - 1))
  else if y =? 0 then f (x - 1) y
  else (f x (y - 1) + f (x - 1) y + 1) / 2.

(** enc_entropy_coder.cc:96-100, 142 and dec_group.cc:503-508 *)
Definition fill (f : nzmap) (bx by_ cx cy v : Z) : nzmap :=
  fun x y => if (bx <=? x) && (x <? bx + cx) && (by_ <=? y) && (y <? by_ + cy) then v else f x y.

(** One channel of a block of the group: its place (in units of the channel), the
    blocks it covers, the context of its DC, its quantization, its order bucket and
    the order. *)
Record vblock := VB { v_c : Z; v_x : Z; v_y : Z; v_cx : Z; v_cy : Z; v_dc : Z; v_qf : Z; v_ord : Z; v_order : Z -> Z }.
Definition covered (v : vblock) : Z := v_cx v * v_cy v.
Definition bsize (v : vblock) : Z := covered v * 64.

Definition token : Type := (Z * Z)%type.
Definition zeros : Z -> Z := fun _ => 0.
Definition upd (b : Z -> Z) (i v : Z) : Z -> Z := fun j => if j =? i then v else b j.
Fixpoint range (k : Z) (n : nat) : list Z := match n with O => [] | S n' => k :: range (k + 1) n' end.

(** ** The encoder *)

(** NumNonZeroExceptLLF and NumNonZero8x8ExceptDC, enc_entropy_coder.cc:46-145; [cx], [cy]
    in canonical order.  llf_mask_lanes has -1 in its first four entries and the mask
    of a row starts at entry kMaxCoeffBlocks - cx = 32 - cx. *)
Definition masked (cx cy i : Z) : bool :=
  if cx * cy =? 1 then i =? 0
  else (i / (cx * 8) <? cy) && (32 - cx + i mod (cx * 8) <? 4).
Definition num_nonzero (cx cy : Z) (b : Z -> Z) : Z :=
  zlen (filter (fun i => negb (masked cx cy i) && negb (b i =? 0)) (range 0 (Z.to_nat (cx * cy * 64)))).

(** enc_entropy_coder.cc:229-238, [n] is size - k *)
Fixpoint enc_loop (n : nat) (k nz prev histo cov : Z) (order b : Z -> Z) : option (Z * list token) :=
  match n with
  | O => Some (nz, [])
  | S n' =>
      if nz =? 0 then Some (0, []) else
      let coeff := b (order k) in
      match zd_context nz k cov prev with
      | None => None
      | Some z =>
          let prev := if coeff =? 0 then 0 else 1 in
          match enc_loop n' (k + 1) (nz - prev) prev histo cov order b with
          | None => None
          | Some (nz, ts) => Some (nz, (w32 (histo + z), pack_signed coeff) :: ts)
          end
      end
  end.

(** enc_entropy_coder.cc:204-240: nzeros is stored before the prediction is made.  None:
    JXL_ENSURE fails or a table is read outside. *)
Definition enc_block (m : bctx) (v : vblock) (f : nzmap) (b : Z -> Z) : option (nzmap * list token) :=
  let nz := num_nonzero (Z.max (v_cx v) (v_cy v)) (Z.min (v_cx v) (v_cy v)) b in
  let f := fill f (v_x v) (v_y v) (v_cx v) (v_cy v) ((nz + covered v - 1) / covered v) in
  let p := predict f (v_x v) (v_y v) in
  match context m (v_dc v) (v_qf v) (v_ord v) (v_c v) with
  | None => None
  | Some bc =>
      let prev := if nz >? bsize v / 16 then 0 else 1 in
      match enc_loop (Z.to_nat (bsize v - covered v)) (covered v) nz prev (zd_offset m bc) (covered v) (v_order v) b with
      | None => None
      | Some (left_, ts) =>
          if left_ =? 0 then Some (f, (nonzero_context m p bc, w32 nz) :: ts) else None
      end
  end.

(** The blocks of a group in the order of the loops enc_entropy_coder.cc:170-203, which
    is the order of dec_group.cc:569-590 in the rows of DecodeGroupImpl; [f] has one map
    for each channel. *)
Fixpoint enc_blocks (m : bctx) (l : list (vblock * (Z -> Z))) (f : Z -> nzmap) : option (list token) :=
  match l with
  | [] => Some []
  | (v, b) :: r =>
      match enc_block m v (f (v_c v)) b with
      | None => None
      | Some (g, ts) =>
          match enc_blocks m r (fun c => if c =? v_c v then g else f c) with
          | None => None
          | Some ts' => Some (ts ++ ts')
          end
      end
  end.

(** ** The decoder *)

(** Stray: memory outside of a vector is read or written.  Bad: the file is refused. *)
Inductive res (A : Type) := Fine (a : A) | Bad | Stray.
Arguments Fine {A} _.
Arguments Bad {A}.
Arguments Stray {A}.

Section Decode.
(** ReadHybridUint: any source of 32-bit values *)
Variable S : Type.
Variable read : S -> Z -> Z * S.
(** The size of the context map, ctx_offset of the pass, the bits of a coefficient (16 or
    32) and the shift of the pass *)
Variables mapsize offset bits shift : Z.

(** Adding to an int16_t or int32_t *)
Definition wrap (v : Z) : Z := (v + 2 ^ (bits - 1)) mod 2 ^ bits - 2 ^ (bits - 1).

(** dec_group.cc:514-533 *)
Fixpoint dec_loop (n : nat) (k nz prev histo cov size : Z) (order b : Z -> Z) (st : S) : res (Z * (Z -> Z) * S) :=
  match n with
  | O => Fine (nz, b, st)
  | Datatypes.S n' =>
      if nz =? 0 then Fine (0, b, st) else
      match zd_context nz k cov prev with
      | None => Stray
      | Some z =>
          if mapsize <=? histo + z then Stray else
          let '(u, st) := read st (histo + z) in
          let coeff := unpack_signed u * 2 ^ shift in
          if (order k <? 0) || (size <=? order k) then Stray else
          let b := upd b (order k) (wrap (b (order k) + coeff)) in
          let prev := if u =? 0 then 0 else 1 in
          dec_loop n' (k + 1) (nz - prev) prev histo cov size order b st
      end
  end.

(** DecodeACVarBlock, dec_group.cc:473-542.  nzero_ctx is an int32_t; a negative one is a
    huge size_t. *)
Definition dec_block (m : bctx) (v : vblock) (f : nzmap) (b : Z -> Z) (st : S) : res (nzmap * (Z -> Z) * S) :=
  let p := predict f (v_x v) (v_y v) in
  match context m (v_dc v) (v_qf v) (v_ord v) (v_c v) with
  | None => Stray
  | Some bc =>
      let ctx := s32 (nonzero_context m p bc + offset) in
      if (ctx <? 0) || (mapsize <=? ctx) then Stray else
      let '(nz, st) := read st ctx in
      if nz >? bsize v - covered v then Bad else
      let f := fill f (v_x v) (v_y v) (v_cx v) (v_cy v) ((nz + covered v - 1) / covered v) in
      let histo := offset + zd_offset m bc in
      let prev := if nz >? bsize v / 16 then 0 else 1 in
      match dec_loop (Z.to_nat (bsize v - covered v)) (covered v) nz prev histo (covered v) (bsize v) (v_order v) b st with
      | Fine (left_, b, st) => if left_ =? 0 then Fine (f, b, st) else Bad
      | Bad => Bad
      | Stray => Stray
      end
  end.

(** All blocks of a group, each starting from zeros *)
Fixpoint dec_blocks (m : bctx) (l : list vblock) (f : Z -> nzmap) (st : S) : res (list (Z -> Z) * S) :=
  match l with
  | [] => Fine ([], st)
  | v :: r =>
      match dec_block m v (f (v_c v)) zeros st with
      | Fine (g, b, st) =>
          match dec_blocks m r (fun c => if c =? v_c v then g else f c) st with
          | Fine (bs, st) => Fine (b :: bs, st)
          | Bad => Bad
          | Stray => Stray
          end
      | Bad => Bad
      | Stray => Stray
      end
  end.
End Decode.

(** Reading tokens: the value if the context is the one it was written with *)
Definition read_token (off : Z) (ts : list token) (ctx : Z) : Z * list token :=
  match ts with
  | [] => (0, [])
  | (c, v) :: r => (if c + off =? ctx then v else 0, r)
  end.
