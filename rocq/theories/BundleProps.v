(* Properties C05, C08 and C09. *)
From Verif Require Import Base BitReaderModel BitProg FieldsModel FieldsSpec BundleModel BundleSpec BundleProofs
  BundleTrunc BundleExt HeadersModel HeadersProofs.

(* A loop filter with custom weights for one pair (0.25, 0.125), used as a case below:
   members as listed at [LoopFilter]. *)
Definition lf_case (x : Z) : Z :=
  match x with
  | 0 | 1 => 1
  | 2 | 4 | 6 => 1048576000 | 3 | 5 | 7 => 1040187392
  | 8 => 0
  | _ => 0
  end.

Example lf_case_valid : valid (LoopFilter 0 0) lf_case.
Proof.
  assert (Q : exact_half 1048576000) by (exists 0x3400; repeat split; vm_compute; congruence).
  assert (E : exact_half 1040187392) by (exists 0x3000; repeat split; vm_compute; congruence).
  unfold LoopFilter. cbn [valid steps f16s app]. repeat split; try (vm_compute; congruence); try exact I.
  all: exact Q || exact E.
Qed.

(* C05 *)
Theorem C05_bundle_round_trip : forall p D,
  well_formed (fun x => In x D) D p -> extensible_at_end p -> round_trips D p.
Proof. exact (fun p D => wf_round_trips D p). Qed.
Print Assumptions C05_bundle_round_trip.

Example C05_case :
  exists total ws, bundle_write (LoopFilter 0 0) lf_case = Some (total, ws) /\ total = 103 /\
    well_formed (fun x => In x [31]) [31] (LoopFilter 0 0) /\ extensible_at_end (LoopFilter 0 0) /\
    determined [31] (LoopFilter 0 0) lf_case = [30; 8; 7; 6; 5; 4; 3; 2; 1; 0; 31].
Proof.
  eexists _, _. split; [vm_compute; reflexivity|]. split; [reflexivity|]. split; [exact loop_filter_wf|].
  split; [right; right; eexists _, _; reflexivity|vm_compute; reflexivity].
Qed.

(* Without the assumption that a float is not a near miss of its default the round trip
   fails: min_nits = 2^-20, exactly representable, is written as all-default and read as 0. *)
Theorem C05_near_default_refuted :
  exists s total ws r',
    exact_half (s 1) /\ bundle_write (ToneMapping 0 0) s = Some (total, ws) /\
    run_bits (fields_bits ws) 0 0 (bundle_read (ToneMapping 0 0) (fun _ => 7)) = Some (Loaded r', (total, 55)) /\
    r' 1 = 0 /\ s 1 = 897581056.
Proof.
  exists (fun x => if x =? 0 then 1132396544 else if x =? 1 then 897581056 else 0). eexists _, _, _.
  split; [exists 16; repeat split; vm_compute; congruence|].
  split; [vm_compute; reflexivity|]. split; [vm_compute; reflexivity|]. split; reflexivity.
Qed.
Print Assumptions C05_near_default_refuted.

(* Without the assumption that the checks made only by readers pass, it fails too: the
   encoder writes a blending with an alpha channel that does not exist, the decoder
   rejects it. *)
Theorem C05_reader_only_check_refuted :
  exists s total ws,
    bundle_write (BlendingInfo 0 0) s = Some (total, ws) /\
    run_bits (fields_bits ws) 0 0 (bundle_read (BlendingInfo 0 0) s) = Some (Invalid, (4, 54)).
Proof.
  exists (fun x => match x with 0 => 2 | 1 => 1 | 4 => 1 | _ => 0 end), 7, [(2, 2); (2, 1); (1, 0); (2, 0)].
  split; vm_compute; reflexivity.
Qed.
Print Assumptions C05_reader_only_check_refuted.

(* C08 *)
Theorem C08_foreign_extensions_skipped : forall p q x D s r total ws v sizes payload,
  p = Seq q (Ext x) \/ (p = AllDef (Seq q (Ext x)) /\ bundle_all_default (Seq q (Ext x)) s = false) ->
  well_formed (fun x => In x D) D p -> valid p s -> agree D s r -> s x = 0 ->
  bundle_write p s = Some (total, ws) ->
  is_u64 v -> v <> 0 -> Forall is_u64 sizes -> length sizes = length (set_bits v) -> zsum sizes = zlen payload ->
  exists known r',
    fields_bits ws = known ++ fields_bits (u64_write 0) /\
    parses_to (bundle_read p r) (known ++ foreign_extension v sizes payload) (Loaded r') /\
    r' x = v /\ forall y, In y (determined D q s) -> y <> x -> r' y = s y.
Proof. exact foreign_extension_skipped. Qed.
Print Assumptions C08_foreign_extensions_skipped.

Example C08_case :
  (exists q, LoopFilter 0 0 = AllDef (Seq q (Ext 30)) /\ bundle_all_default (Seq q (Ext 30)) lf_case = false) /\
  valid (LoopFilter 0 0) lf_case /\ lf_case 30 = 0 /\
  set_bits 9 = [0; 3] /\ zsum [5; 2] = zlen [true; false; true; true; false; true; true].
Proof.
  split; [eexists; split; [reflexivity|vm_compute; reflexivity]|].
  split; [exact lf_case_valid|]. repeat split.
Qed.

(* When an extensible bundle lies within an extensible bundle (a loop filter within a frame
   header), an extension of the inner one makes the decoder reject the stream, although
   the outer one has none. *)
Theorem C08_nested_extension_refuted :
  exists known v sizes payload after r',
    let outer := Seq (LoopFilter 0 0) (Ext 40) in
    run_bits (known ++ fields_bits (u64_write 0) ++ after) 0 0 (bundle_read outer (fun _ => 0)) = Some (Loaded r', (8, 54)) /\
    length sizes = length (set_bits v) /\ zsum sizes = zlen payload /\ after = fields_bits (u64_write 0) /\
    run_bits (known ++ foreign_extension v sizes payload ++ after) 0 0 (bundle_read outer (fun _ => 0)) =
      Some (Invalid, (21, 54)).
Proof.
  exists [false; false; false; false], 1, [3], [true; true; false], [false; false]. eexists. cbv zeta.
  split; [vm_compute; reflexivity|]. split; [vm_compute; reflexivity|]. split; [vm_compute; reflexivity|].
  split; vm_compute; reflexivity.
Qed.
Print Assumptions C08_nested_extension_refuted.

(* C09: a bundle read from a string of bytes and from a prefix of it *)
Theorem C09_prefixes : forall p r a b, guarded p -> bytes_ok (a ++ b) ->
  exists o k, decode_bundle p r (a ++ b) = Some (o, k) /\
    (o <> NeedMore -> k <= 8 * zlen (a ++ b)) /\
    ((o <> NeedMore /\ k <= 8 * zlen a /\ decode_bundle p r a = Some (o, k)) \/
     ((o = NeedMore \/ 8 * zlen a < k) /\ exists k', decode_bundle p r a = Some (NeedMore, k'))).
Proof. exact bundle_prefix. Qed.
Print Assumptions C09_prefixes.

Example C09_case :
  guarded (AnimationHeader 0 0) /\
  (exists s, decode_bundle (AnimationHeader 0 0) (fun _ => 0) [0x18; 0x9A; 0x05] = Some (Loaded s, 18)) /\
  (exists k, decode_bundle (AnimationHeader 0 0) (fun _ => 0) [0x18; 0x9A] = Some (NeedMore, k)).
Proof.
  split; [cbn; lia|]. split; eexists; vm_compute; reflexivity.
Qed.
