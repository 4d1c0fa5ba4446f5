(* Property C43: histograms in the stream. *)
From Verif Require Import Base BitProg BitProgProofs HuffSafe AliasSpec HistoModel HistoSpec HistoProofs HistoTop HistoSafe.

(* The numbers with a variable number of bits, up to 255 and up to 65535. *)
Theorem C43_var_len_roundtrip : forall wide n, 3 <= wide <= 4 -> 0 <= n < 2 ^ 2 ^ wide ->
  Forall field_ok (store_var_len wide n) /\ parses (decode_var_len wide) (fields_bits (store_var_len wide n)) n.
Proof. exact var_len_ok. Qed.
Print Assumptions C43_var_len_roundtrip.

(* Every histogram as normalization leaves it is written without an access out of bounds, and
   read back as what the encoder codes with; the reader ends behind what was written. *)
Theorem C43_histogram_roundtrip : forall h, normalized h ->
  exists fs, encode_histogram h = Some fs /\ Forall field_ok fs /\
    parses read_histogram (fields_bits fs) (Some (Some (coded_with h))).
Proof. exact histogram_roundtrip. Qed.
Print Assumptions C43_histogram_roundtrip.

(* Whatever the bits, the reader comes to an end without undefined behaviour, and what it
   accepts is a histogram: no count is negative and the counts add up to 4096. *)
Theorem C43_any_bits_safe : forall s pos av, 0 <= pos -> 0 <= av <= 56 ->
  exists o pos' av', run_bits s pos av read_histogram = Some (Some o, (pos', av')) /\ pos <= pos' /\ 0 <= av' <= 56 /\
    forall counts, o = Some counts -> 1 <= zlen counts <= 258 /\ Forall (fun c => 0 <= c) counts /\ zsum counts = 4096.
Proof. exact read_histogram_any. Qed.
Print Assumptions C43_any_bits_safe.

(* a general histogram: runs of equal counts and of zeros, the balancing count behind the first run *)
Definition case_counts : list Z := repeat 12 9 ++ [0; 1500; 3; 1024] ++ repeat 0 20 ++ repeat 100 7 ++ [56; 5; 700].
Definition case_hist : ehist := Ehist 12 10 43 22 [0; 1] case_counts.
Example C43_case_normalized : normalized case_hist.
Proof.
  split; [cbn; lia|]. split; [cbn; lia|]. split; [vm_compute; constructor|].
  split; [unfold case_counts, case_hist; cbn; repeat constructor; lia|]. split; [reflexivity|]. split; [reflexivity|]. right.
  split; [cbn; lia|]. split; [reflexivity|].
  split; [intros k Hk _; assert (k = 0 \/ k = 1) as [->| ->] by lia; reflexivity|].
  intros _. split; [cbn; lia|]. split; [reflexivity|].
  assert (A : forallb (fun i => (cnt case_counts i <? 2048) && (cnt case_counts i mod 2 ^ (Z.log2 (cnt case_counts i) - population_precision (Z.log2 (cnt case_counts i)) 11) =? 0)) (zseq 0 43) = true) by (vm_compute; reflexivity).
  split; intros i Hi; [|intros _ _]; pose proof (proj1 (forallb_forall _ _) A i (in_zseq 43 0 i ltac:(cbn in *; lia))) as B; cbv beta in B; apply andb_prop in B as (B1 & B2).
  - apply Z.ltb_lt. exact B1.
  - apply Z.eqb_eq. exact B2.
Qed.
Example C43_case_decodes :
  match encode_histogram case_hist with
  | Some fs => run_bits (fields_bits fs) 0 0 read_histogram = Some (Some (Some case_counts), (width_sum fs, 47))
  | None => False
  end.
Proof. vm_compute. reflexivity. Qed.
