(* Properties C06 and C07, and C09 for the concrete headers. *)
From Verif Require Import Base BitReaderModel BitProg FieldsModel FieldsSpec BundleModel BundleSpec BundleExt
  HeadersModel HeadersSpec HeadersProofs.

(* C06 *)
Theorem C06_headers_round_trip : forall D p, In (D, p) headers -> round_trips D p.
Proof. exact headers_round_trip. Qed.
Print Assumptions C06_headers_round_trip.

(* A palette transform, and a group header with a squeeze of two steps. *)
Definition tr_case (x : Z) : Z := match x with 0 => 1 | 1 => 2 | 3 => 3 | 4 => 1300 | 5 => 7 | 6 => 5 | _ => 0 end.
Example C06_transform_case :
  valid (Transform 0 0) tr_case /\
  bundle_write (Transform 0 0) tr_case = Some (37, [(2, 1); (2, 0); (3, 2); (2, 1); (2, 2); (12, 20); (2, 1); (8, 6); (4, 5)]).
Proof.
  split; [|vm_compute; reflexivity].
  assert (U : forall a b c d, distr_ok a -> distr_ok b -> distr_ok c -> distr_ok d -> coder_ok (CU32 (enc4 a b c d)))
    by (intros a b c d ? ? ? ?; exists a, b, c, d; auto).
  assert (U1 : coder_ok (CU32 (U32 (Val 0) (Val 1) (Val 2) (Val 3)))) by (apply (U (DVal 0) (DVal 1) (DVal 2) (DVal 3)); cbn; lia).
  assert (U2 : coder_ok (CU32 (U32 (Bits 3) (BitsOffset 6 8) (BitsOffset 10 72) (BitsOffset 13 1096))))
    by (apply (U (DBits 3 0) (DBits 6 8) (DBits 10 72) (DBits 13 1096)); cbn; lia).
  assert (U3 : coder_ok (CU32 (U32 (Val 1) (Val 3) (Val 4) (BitsOffset 13 1))))
    by (apply (U (DVal 1) (DVal 3) (DVal 4) (DBits 13 1)); cbn; lia).
  assert (U4 : coder_ok (CU32 (U32 (BitsOffset 8 0) (BitsOffset 10 256) (BitsOffset 12 1280) (BitsOffset 16 5376))))
    by (apply (U (DBits 8 0) (DBits 10 256) (DBits 12 1280) (DBits 16 5376)); cbn; lia).
  assert (U5 : coder_ok (CU32 (U32 (Val 0) (BitsOffset 8 1) (BitsOffset 10 257) (BitsOffset 16 1281))))
    by (apply (U (DVal 0) (DBits 8 1) (DBits 10 257) (DBits 16 1281)); cbn; lia).
  unfold Transform. cbn [valid steps FU32 FBits].
  change (holds (E1 (at_ 0 0 0) (fun t => b2z ((t =? 0) || (t =? 1)))) tr_case) with true.
  change (holds (eqc (at_ 0 0 0) 0) tr_case) with false. change (holds (eqc (at_ 0 0 0) 1) tr_case) with true.
  change (holds (eqc (at_ 0 0 0) 2) tr_case) with false. cbv iota. cbn [valid steps FU32 FBits].
  repeat split; try assumption; cbn; unfold is_u32; try lia; reflexivity.
Qed.

(* C07 *)
Theorem C07_image_dimensions : forall s xsize ysize, 1 <= xsize <= 2 ^ 30 -> 1 <= ysize <= 2 ^ 30 ->
  exists s' total ws, sh_set s xsize ysize = Some s' /\ sh_xsize s' = xsize /\ sh_ysize s' = ysize /\
    bundle_write (SizeHeader 0 0) s' = Some (total, ws) /\
    forall r, exists r', parses_to (bundle_read (SizeHeader 0 0) r) (fields_bits ws) (Loaded r') /\
      sh_xsize r' = xsize /\ sh_ysize r' = ysize.
Proof. exact image_size_round_trip. Qed.
Print Assumptions C07_image_dimensions.

(* the three short forms in use *)
Example C07_cases :
  match sh_set (fun _ => 0) 1920 1080 with Some s => s 3 = 5 /\ s 0 = 0 | None => False end /\
  match sh_set (fun _ => 0) 256 192 with Some s => s 3 = 3 /\ s 0 = 1 | None => False end /\
  match sh_set (fun _ => 0) 72 8 with Some s => s 3 = 0 /\ s 0 = 1 /\ s 4 = 8 | None => False end.
Proof. vm_compute. repeat split. Qed.

(* C09 for the headers *)
Theorem C09_header_prefixes : forall D p r a b, In (D, p) headers -> bytes_ok (a ++ b) ->
  exists o k, decode_bundle p r (a ++ b) = Some (o, k) /\
    (o <> NeedMore -> k <= 8 * zlen (a ++ b)) /\
    ((o <> NeedMore /\ k <= 8 * zlen a /\ decode_bundle p r a = Some (o, k)) \/
     ((o = NeedMore \/ 8 * zlen a < k) /\ exists k', decode_bundle p r a = Some (NeedMore, k'))).
Proof. exact (fun D p r a b H => bundle_prefix p r a b (headers_guarded D p H)). Qed.
Print Assumptions C09_header_prefixes.

Example C09_header_case : In ([31], LoopFilter 0 0) headers /\ bytes_ok ([1; 2; 3] ++ [255]).
Proof. split; [cbn; tauto|]. repeat constructor; unfold is_u8; lia. Qed.
