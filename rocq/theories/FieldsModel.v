(* Model of the field coders (lib/jxl/fields.cc, lib/jxl/enc_fields.cc,
   lib/jxl/field_encodings.h) and of PackSigned (lib/jxl/pack_signed.h).
   Writers produce the list of writer->Write(n, v) calls they make. *)
From Verif Require Import Base BitProg.

(* ---- lib/jxl/pack_signed.h ---- *)

(* pack_signed.h:18-22 PackSigned *)
Definition pack_signed (value : Z) : Z :=
  Z.lxor (w32 (Z.shiftl (w32 value) 1))
         (w32 (Z.shiftr (w32 (Z.lnot value)) 31 - 1)).

(* pack_signed.h:29-34 UnpackSigned with a 64-bit size_t argument; the result is
   converted to int32_t (modulo 2^32). *)
Definition unpack_signed (value : Z) : Z :=
  s32 (Z.lxor (Z.shiftr value 1) (w64 (Z.land (w64 (Z.lnot value)) 1 - 1))).

(* ---- lib/jxl/field_encodings.h ---- *)

(* field_encodings.h:44-60 U32Distr, represented by its member d *)
Definition kDirect : Z := 0x80000000.
Definition is_direct (d : Z) : bool := negb (Z.land d kDirect =? 0).
Definition direct (d : Z) : Z := Z.land d (kDirect - 1).
Definition extra_bits (d : Z) : Z := Z.land d 0x1F + 1.
Definition offset (d : Z) : Z := Z.land (Z.shiftr d 5) 0x3FFFFFF.

(* field_encodings.h:63-73 Val, BitsOffset, Bits *)
Definition Val (value : Z) : Z := Z.lor value kDirect.
Definition BitsOffset (bits off : Z) : Z :=
  w32 (Z.land (w32 (bits - 1)) 0x1F + w32 (Z.shiftl (Z.land off 0x3FFFFFF) 5)).
Definition Bits (bits : Z) : Z := BitsOffset bits 0.

(* field_encodings.h:76-90 U32Enc and GetDistr *)
Record u32enc := U32 { d0 : Z; d1 : Z; d2 : Z; d3 : Z }.
Definition get_distr (e : u32enc) (s : Z) : Z :=
  if s =? 0 then d0 e else if s =? 1 then d1 e else if s =? 2 then d2 e else d3 e.

(* field_encodings.h:118-130 EnumValid; [mask] is EnumBits(Enum()) *)
Definition enum_valid (mask v : Z) : bool := (v <? 64) && Z.testbit mask v.

(* ---- BitsCoder ---- *)

(* enc_fields.cc:105-114 BitsCoder::Write, fields.cc:346-354 CanEncode *)
Definition bits_write (bits value : Z) : option (list (Z * Z)) :=
  if Z.shiftl 1 bits <=? value then None else Some [(bits, value)].
Definition bits_can_encode (bits value : Z) : bool * Z :=
  (negb (Z.shiftl 1 bits <=? value), bits).

(* fields.cc:356-358 BitsCoder::Read *)
Definition bits_read (bits : Z) : rprog Z := rd bits.

(* ---- U32Coder ---- *)

(* fields.cc:393-430 ChooseSelector; the state is (selector, total_bits); 64 means no
   feasible selector so far. *)
Fixpoint choose_loop (ds : list Z) (s value : Z) (sel total : Z) : Z * Z :=
  match ds with
  | [] => (sel, total)
  | d :: ds' =>
      if is_direct d then
        if direct d =? value then (s, 2)
        else choose_loop ds' (s + 1) value sel total
      else
        let eb := extra_bits d in
        let off := offset d in
        if (value <? off) || (off + Z.shiftl 1 eb <=? value)
        then choose_loop ds' (s + 1) value sel total
        else if 2 + eb <? total
             then choose_loop ds' (s + 1) value s (2 + eb)
             else choose_loop ds' (s + 1) value sel total
  end.

Definition choose_selector (e : u32enc) (value : Z) : option (Z * Z) :=
  let '(sel, total) := choose_loop [d0 e; d1 e; d2 e; d3 e] 0 value 0 64 in
  if total =? 64 then None else Some (sel, total).

(* fields.cc:373-380 U32Coder::CanEncode *)
Definition u32_can_encode (e : u32enc) (value : Z) : bool * Z :=
  match choose_selector e value with
  | Some (_, total) => (true, total)
  | None => (false, 0)
  end.

(* enc_fields.cc:117-134 U32Coder::Write.  JXL_ENSURE(value >= offset) failing is
   [None] as well. *)
Definition u32_write (e : u32enc) (value : Z) : option (list (Z * Z)) :=
  match choose_selector e value with
  | None => None
  | Some (sel, total) =>
      let d := get_distr e sel in
      if is_direct d then Some [(2, sel)]
      else if value <? offset d then None
      else Some [(2, sel); (total - 2, value - offset d)]
  end.

(* fields.cc:382-390 U32Coder::Read; the sum is converted to uint32_t *)
Definition u32_read (e : u32enc) : rprog Z :=
  let! sel := rd 2 in
  let d := get_distr e sel in
  if is_direct d then Ret (direct d)
  else let! v := rd (extra_bits d) in Ret (w32 (v + offset d)).

(* ---- U64Coder ---- *)

(* enc_fields.cc:156-162, the loop over 8-bit groups; returns the writes, the remaining
   value and the final shift.  The loop runs at most 6 times (shift = 12, 20, .., 52). *)
Fixpoint u64_groups (fuel : nat) (value shift : Z) : list (Z * Z) * Z :=
  match fuel with
  | O => ([], value)
  | S f =>
      if (0 <? value) && (shift <? 60) then
        let '(ws, rest) := u64_groups f (Z.shiftr value 8) (shift + 8) in
        ((1, 1) :: (8, Z.land value 255) :: ws, rest)
      else ([], value)
  end.

(* enc_fields.cc:137-176 U64Coder::Write *)
Definition u64_write (value : Z) : list (Z * Z) :=
  if value =? 0 then [(2, 0)]
  else if value <=? 16 then [(2, 1); (4, value - 1)]
  else if value <=? 272 then [(2, 2); (8, value - 17)]
  else
    let '(ws, rest) := u64_groups 6 (Z.shiftr value 12) 12 in
    [(2, 3); (12, Z.land value 4095)] ++ ws ++
    (if 0 <? rest then [(1, 1); (4, Z.land rest 15)] else [(1, 0)]).

(* fields.cc:461-488 U64Coder::CanEncode (always true; the size) *)
Fixpoint u64_size_groups (fuel : nat) (value shift : Z) : Z * Z :=
  match fuel with
  | O => (0, value)
  | S f =>
      if (0 <? value) && (shift <? 60) then
        let '(n, rest) := u64_size_groups f (Z.shiftr value 8) (shift + 8) in (9 + n, rest)
      else (0, value)
  end.
Definition u64_size (value : Z) : Z :=
  if value =? 0 then 2
  else if value <=? 16 then 2 + 4
  else if value <=? 272 then 2 + 8
  else
    let '(n, rest) := u64_size_groups 6 (Z.shiftr value 12) 12 in
    2 + 12 + n + (if 0 <? rest then 1 + 4 else 1).

(* fields.cc:447-455, the loop reading groups; the loop runs at most 7 times. *)
Fixpoint u64_read_groups (fuel : nat) (result shift : Z) : rprog Z :=
  match fuel with
  | O => Ret result
  | S f =>
      let! b := rd 1 in
      if b =? 0 then Ret result
      else if shift =? 60 then
        let! g := rd 4 in Ret (Z.lor result (w64 (Z.shiftl g shift)))
      else
        let! g := rd 8 in
        u64_read_groups f (Z.lor result (w64 (Z.shiftl g shift))) (shift + 8)
  end.

(* fields.cc:432-458 U64Coder::Read *)
Definition u64_read : rprog Z :=
  let! sel := rd 2 in
  if sel =? 0 then Ret 0
  else if sel =? 1 then let! v := rd 4 in Ret (1 + v)
  else if sel =? 2 then let! v := rd 8 in Ret (17 + v)
  else let! r := rd 12 in u64_read_groups 7 r 12.

(* ---- F16Coder ---- *)

(* A float is represented by its IEEE binary32 bit pattern. *)

(* enc_fields.cc:178-219 F16Coder::Write.  The JXL_ENSUREs are [None] when violated. *)
Definition f16_write (bits32 : Z) : option (list (Z * Z)) :=
  let sign := Z.shiftr bits32 31 in
  let biased_exp32 := Z.land (Z.shiftr bits32 23) 0xFF in
  let mantissa32 := Z.land bits32 0x7FFFFF in
  let exp := biased_exp32 - 127 in
  if 15 <? exp then None
  else if exp <? -24 then Some [(16, 0)]
  else
    let '(biased_exp16, mantissa16) :=
      if exp <? -14 then
        let sub_exp := -14 - exp in
        (0, Z.shiftl 1 (10 - sub_exp) + Z.shiftr mantissa32 (13 + sub_exp))
      else (exp + 15, Z.shiftr mantissa32 13) in
    if mantissa16 <? 1024 then
      let bits16 := Z.lor (Z.lor (Z.shiftl sign 15) (Z.shiftl biased_exp16 10)) mantissa16 in
      if bits16 <? 0x10000 then Some [(16, bits16)] else None
    else None.

(* fields.cc:517-524 F16Coder::CanEncode: not NaN, not infinite, |value| <= 65504.
   Absolute values of finite floats compare like their bit patterns; 65504.0f is
   0x477FE000. *)
Definition f16_can_encode (bits32 : Z) : bool * Z :=
  (Z.land bits32 0x7FFFFFFF <=? 0x477FE000, 16).

(* Bit pattern of the float m * 2^-24 for 0 <= m < 1024.  Models the expression
   (1.0f / 16384) * (mantissa * (1.0f / 1024)) of fields.cc:503; both products are
   exact because all factors but [mantissa] are powers of two. *)
Definition f32_of_subnormal16 (m : Z) : Z :=
  if m =? 0 then 0
  else
    let l := Z.log2 m in
    Z.lor (Z.shiftl (l - 24 + 127) 23) (Z.shiftl (m - Z.shiftl 1 l) (23 - l)).

(* fields.cc:490-515 F16Coder::Read after the 16 bits were read.  [None]: infinity or
   NaN, refused. *)
Definition f16_decode (bits16 : Z) : option Z :=
  let sign := Z.shiftr bits16 15 in
  let biased_exp := Z.land (Z.shiftr bits16 10) 0x1F in
  let mantissa := Z.land bits16 0x3FF in
  if biased_exp =? 31 then None
  else if biased_exp =? 0 then
    Some (Z.lor (Z.shiftl sign 31) (f32_of_subnormal16 mantissa))
  else
    let biased_exp32 := biased_exp + (127 - 15) in
    let mantissa32 := Z.shiftl mantissa (23 - 10) in
    Some (Z.lor (Z.lor (Z.shiftl sign 31) (Z.shiftl biased_exp32 23)) mantissa32).

Definition f16_read : rprog (option Z) := let! b := rd 16 in Ret (f16_decode b).

(* Value of a finite float times 2^149, an integer. *)
Definition f32_scaled (bits32 : Z) : Z :=
  let e := Z.land (Z.shiftr bits32 23) 0xFF in
  let m := Z.land bits32 0x7FFFFF in
  let mag := if e =? 0 then m else Z.shiftl (m + 2 ^ 23) (e - 1) in
  if Z.testbit bits32 31 then - mag else mag.

(* fields.cc:139 |value - default_value| < 1E-6f.  1E-6f is 8796093 * 2^-43.
   Simplification: the difference is taken exactly (the float subtraction rounds, which
   can only matter for differences far from 1E-6). *)
Definition f16_near (v d : Z) : bool :=
  Z.abs (f32_scaled v - f32_scaled d) <? 8796093 * 2 ^ 106.
