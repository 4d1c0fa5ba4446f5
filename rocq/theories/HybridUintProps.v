(* Property C10: hybrid unsigned integers. *)
From Verif Require Import Base BitProg BitProgProofs HybridUintModel HybridUintSpec HybridUintProofs.

(* Splitting any uint32 and reading the announced number of bits back gives the value;
   the bits fit, and the reader never needs more than 31 buffered bits. *)
Theorem C10_hybrid_uint_round_trip : forall c v token nbits bits,
  hconfig_ok c -> is_u32 v -> hybrid_encode c v = (token, nbits, bits) ->
  is_u32 token /\ 0 <= nbits <= 31 /\ 0 <= bits < 2 ^ nbits /\
  parses_buffered nbits (hybrid_read c token) (to_bits (Z.to_nat nbits) bits) v.
Proof. exact hybrid_roundtrip. Qed.
Print Assumptions C10_hybrid_uint_round_trip.

Example C10_round_trip_case :
  hconfig_ok (HC 4 2 1) /\ is_u32 4294967294 /\ hybrid_encode (HC 4 2 1) 4294967294 = (238, 28, 268435455) /\
  hybrid_encode (HC 4 2 0) 65535 = (63, 13, 8191).
Proof. unfold hconfig_ok, is_u32. cbn. repeat split; lia. Qed.

(* Without low bits in the token, tokens are ordered like the values. *)
Theorem C10_tokens_are_monotone : forall c v w,
  hconfig_ok c -> lsb_in_token c = 0 -> is_u32 v -> is_u32 w -> v <= w ->
  fst (fst (hybrid_encode c v)) <= fst (fst (hybrid_encode c w)).
Proof. exact hybrid_token_mono. Qed.
Print Assumptions C10_tokens_are_monotone.

Example C10_monotone_case : hconfig_ok (HC 4 2 0) /\ map (fun v => fst (fst (hybrid_encode (HC 4 2 0) v))) [15; 16; 19; 20; 31; 32; 1000]
  = [15; 16; 16; 17; 19; 20; 39].
Proof. unfold hconfig_ok. cbn. repeat split; lia. Qed.

(* With low bits in the token this is false. *)
Theorem C10_token_order_refuted : exists c v w,
  hconfig_ok c /\ is_u32 v /\ is_u32 w /\ v < w /\
  fst (fst (hybrid_encode c w)) < fst (fst (hybrid_encode c v)).
Proof. exact hybrid_token_order_refuted. Qed.
Print Assumptions C10_token_order_refuted.

(* The configurations themselves survive the bitstream. *)
Theorem C10_configs_round_trip : forall log_alpha_size cs,
  0 <= log_alpha_size <= 24 -> Forall (hconfig_codable log_alpha_size) cs ->
  Forall field_ok (uint_configs_write log_alpha_size cs) /\
  parses (uint_configs_read log_alpha_size (length cs)) (fields_bits (uint_configs_write log_alpha_size cs)) (Some cs).
Proof. exact (fun las cs H => configs_roundtrip las H cs). Qed.
Print Assumptions C10_configs_round_trip.

Example C10_configs_case : Forall (hconfig_codable 8) [HC 4 2 0; HC 8 0 0; HC 0 0 0; HC 7 3 4].
Proof. repeat (apply Forall_cons; [unfold hconfig_codable; cbn; lia|]). apply Forall_nil. Qed.

(* Whatever bits are read, an accepted configuration is valid. *)
Theorem C10_accepted_configs_are_valid : forall log_alpha_size, 0 <= log_alpha_size <= 15 ->
  forall s pos av c pos' av',
  run_bits s pos av (uint_config_read log_alpha_size) = Some (Some c, (pos', av')) ->
  0 <= msb_in_token c /\ 0 <= lsb_in_token c /\
  msb_in_token c + lsb_in_token c <= split_exponent c /\ split_exponent c <= 15.
Proof. exact config_read_valid. Qed.
Print Assumptions C10_accepted_configs_are_valid.

Example C10_accepted_case : run_bits (bytes_bits [69; 7]) 0 0 (uint_config_read 8) = Some (Some (HC 5 4 0), (8, 55)).
Proof. reflexivity. Qed.
