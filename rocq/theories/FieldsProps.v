(* Properties C04 and C19, and the transfer of C02 to whole parsing programs. *)
From Verif Require Import Base BitReaderModel BitProg BitProgProofs FieldsModel FieldsSpec FieldsProofs F16Proofs.

(* Any parsing program, run with the BitReader over bytes bs, gives the result it gives
   on the plain bit string; position and bounds check agree. *)
Theorem C02_programs_read_the_bit_string :
  forall (A : Type) (p : rprog A) (bs : list Z) (a : A) (pos' av' : Z),
  bytes_ok bs -> run_bits (bytes_bits bs) 0 0 p = Some (a, (pos', av')) ->
  exists r0 r', reader_init bs = Some r0 /\ run_reader bs r0 p = Some (a, r') /\
    (pos' <= 8 * zlen bs -> total_bits_consumed r' = pos') /\
    all_reads_within_bounds bs r' = (pos' <=? 8 * zlen bs).
Proof. exact @reader_runs_bits. Qed.
Print Assumptions C02_programs_read_the_bit_string.

Example C02_programs_case :
  run_bits (bytes_bits [173; 66; 9]) 0 0 (let! x := rd 3 in Skip 6 (let! y := u64_read in Check (fun b => Ret (x, y, b))))
  = Some ((5, 9, true), (15, 52)).
Proof. reflexivity. Qed.

(* C19: signed/unsigned packing is a bijection between int32 and uint32 *)
Theorem C19_pack_signed_value : forall v, is_i32 v -> pack_signed v = if 0 <=? v then 2 * v else - 2 * v - 1.
Proof. exact pack_signed_spec. Qed.
Print Assumptions C19_pack_signed_value.

Theorem C19_unpack_pack : forall v, is_i32 v -> is_u32 (pack_signed v) /\ unpack_signed (pack_signed v) = v.
Proof. exact (fun v H => conj (pack_signed_range v H) (unpack_pack v H)). Qed.
Print Assumptions C19_unpack_pack.

Theorem C19_pack_small_magnitude : forall v k, is_i32 v -> Z.abs v <= k -> 0 <= pack_signed v <= 2 * k.
Proof. exact pack_signed_small. Qed.
Print Assumptions C19_pack_small_magnitude.

Example C19_small_case : is_i32 (-7) /\ Z.abs (-7) <= 7 /\ pack_signed (-7) = 13.
Proof. unfold is_i32. repeat split; try lia. Qed.

Theorem C19_pack_unpack : forall u, is_u32 u -> is_i32 (unpack_signed u) /\ pack_signed (unpack_signed u) = u.
Proof. exact (fun u H => conj (unpack_signed_range u H) (pack_unpack u H)). Qed.
Print Assumptions C19_pack_unpack.

Example C19_case : pack_signed (- 2 ^ 31) = 2 ^ 32 - 1 /\ is_i32 (- 2 ^ 31) /\ unpack_signed (2 ^ 32 - 1) = - 2 ^ 31.
Proof. repeat split; reflexivity || discriminate. Qed.

(* C04, U32 fields: a value is written with a shortest of its codes and CanEncode
   announces that size; a value without code is refused. *)
Theorem C04_u32_shortest_code_or_refused :
  forall a b c d v,
  distr_ok a -> distr_ok b -> distr_ok c -> distr_ok d ->
  match u32_write (enc4 a b c d) v with
  | Some ws =>
      Forall field_ok ws /\
      u32_code a b c d (fields_bits ws) v /\
      (forall w, u32_code a b c d w v -> zlen (fields_bits ws) <= zlen w) /\
      u32_can_encode (enc4 a b c d) v = (true, zlen (fields_bits ws))
  | None =>
      (forall w, ~ u32_code a b c d w v) /\ fst (u32_can_encode (enc4 a b c d) v) = false
  end.
Proof. exact u32_write_spec. Qed.
Print Assumptions C04_u32_shortest_code_or_refused.

Theorem C04_u32_reads_every_code :
  forall a b c d w v,
  distr_ok a -> distr_ok b -> distr_ok c -> distr_ok d ->
  u32_code a b c d w v -> parses (u32_read (enc4 a b c d)) w (v mod 2 ^ 32).
Proof. exact u32_read_code. Qed.
Print Assumptions C04_u32_reads_every_code.

Theorem C04_u32_round_trip :
  forall a b c d v ws,
  distr_ok a -> distr_ok b -> distr_ok c -> distr_ok d -> is_u32 v ->
  u32_write (enc4 a b c d) v = Some ws ->
  parses (u32_read (enc4 a b c d)) (fields_bits ws) v.
Proof. exact u32_roundtrip. Qed.
Print Assumptions C04_u32_round_trip.

Example C04_u32_case :
  let e := enc4 (DVal 8) (DBits 4 2) (DBits 6 2) (DBits 30 18) in
  u32_write e 17 = Some [(2, 1); (4, 15)] /\ u32_write e 8 = Some [(2, 0)] /\ u32_write e 1 = None.
Proof. repeat split. Qed.

(* C04, U64 fields: every 64-bit value round-trips, with the documented size. *)
Theorem C04_u64_round_trip :
  forall v, is_u64 v ->
  Forall field_ok (u64_write v) /\ parses u64_read (fields_bits (u64_write v)) v.
Proof. exact u64_ok. Qed.
Print Assumptions C04_u64_round_trip.

Theorem C04_u64_size : forall v, is_u64 v -> width_sum (u64_write v) = u64_len v /\ u64_size v = u64_len v.
Proof. exact (fun v H => conj (eq_trans (eq_sym (u64_size_ok v)) (u64_size_len v H)) (u64_size_len v H)). Qed.
Print Assumptions C04_u64_size.

Example C04_u64_case : width_sum (u64_write (2 ^ 64 - 1)) = 73 /\ width_sum (u64_write 272) = 10.
Proof. split; reflexivity. Qed.

(* C04, F16 fields.  Every finite half-precision number other than -0 round-trips;
   infinities and NaNs are refused when reading. *)
Theorem C04_f16_round_trip :
  forall h, 0 <= h < 65536 -> half_finite h = true -> h <> 0x8000 ->
  exists f, f16_decode h = Some f /\ single_scaled f = half_scaled h /\ is_u32 f /\
    fst (f16_can_encode f) = true /\ f16_write f = Some [(16, h)].
Proof. exact f16_roundtrip. Qed.
Print Assumptions C04_f16_round_trip.

Theorem C04_f16_refuses_non_finite :
  forall h, 0 <= h < 65536 -> (f16_decode h = None <-> half_finite h = false).
Proof. exact f16_decode_none. Qed.
Print Assumptions C04_f16_refuses_non_finite.

(* A float accepted by CanEncode is written as the half nearest to it toward zero. *)
Theorem C04_f16_rounds_toward_zero :
  forall f, is_u32 f -> fst (f16_can_encode f) = true ->
  exists h, 0 <= h < 65536 /\ half_finite h = true /\ f16_write f = Some [(16, h)] /\
    0 <= half_scaled h * single_scaled f /\
    Z.abs (half_scaled h) <= Z.abs (single_scaled f) /\
    forall h', 0 <= h' < 65536 -> half_finite h' = true ->
      Z.abs (half_scaled h') <= Z.abs (single_scaled f) -> Z.abs (half_scaled h') <= Z.abs (half_scaled h).
Proof. exact f16_rounds_toward_zero. Qed.
Print Assumptions C04_f16_rounds_toward_zero.

(* The claim "a float that is not a half is refused" is false: 0.1f (0x3DCCCCCD) is
   accepted and altered; and the sign of -0 is lost. *)
Theorem C04_f16_exact_or_refused_refuted :
  exists f h f', fst (f16_can_encode f) = true /\ f16_write f = Some [(16, h)] /\
    f16_decode h = Some f' /\ single_scaled f' <> single_scaled f.
Proof. exact f16_exact_or_refused_refuted. Qed.
Print Assumptions C04_f16_exact_or_refused_refuted.

Example C04_f16_case : f16_decode 0x3C00 = Some 0x3F800000 /\ half_finite 0x3C00 = true /\ f16_decode 0x7C00 = None /\ f16_write 0x3DCCCCCD = Some [(16, 0x2E66)].
Proof. repeat split. Qed.
