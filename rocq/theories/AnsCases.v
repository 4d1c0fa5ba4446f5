(* Concrete tables used by the examples of AnsProps.v: two flat histograms over 16 symbols,
   copies enabled from symbol 10 on, distances in the second histogram. *)
From Verif Require Import Base HybridUintModel HybridUintSpec AliasModel AliasSpec AliasProofs AnsModel AnsSpec AnsProofs AnsTop TokProg.

Definition case_hist : list Z := repeat 256 16.
Definition mem1 (_ : Z) : entry := Entry 1 2 3 4 5.
Definition mem2 (_ : Z) : entry := Entry 9 8 7 6 5.
Definition case_table m : Z -> entry := match init_alias_table case_hist 5 m with Some t => t | None => mem1 end.
Definition case_infos : list sym_info := match build_info_table 5 (case_table mem2) case_hist with Some l => l | None => [] end.
Definition case_lz (c : Z) : lz77_params := LZ77 true 10 3 (HC 0 0 0) c.
Definition case_codes : enc_codes := EncCodes [case_infos; case_infos] false [HC 4 2 0; HC 4 1 1] (case_lz 2) [0; 1; 1].
Definition case_dec : ans_code := AnsCode [case_table mem1; case_table mem1] [] false 5 [HC 4 2 0; HC 4 1 1] (case_lz 1).
Definition case_tokens : list token :=
  [Token false 0 3; Token false 1 5; Token true 0 4; Token false 2 1; Token false 0 9].

Lemma case_is_histogram : is_histogram case_hist.
Proof. split; [repeat constructor; lia|reflexivity]. Qed.
Lemma case_table_ok m : init_alias_table case_hist 5 m = Some (case_table m).
Proof.
  unfold case_table. destruct (alias_table_right case_hist 5 m) as (t & E & _); [lia|apply case_is_histogram|vm_compute; discriminate|].
  now rewrite E.
Qed.
Opaque case_table init_alias_table.
Lemma case_infos_ok : build_info_table 5 (case_table mem2) case_hist = Some case_infos.
Proof.
  unfold case_infos. destruct (alias_table_right case_hist 5 mem2) as (t & E & S); [lia|apply case_is_histogram|vm_compute; discriminate|].
  rewrite case_table_ok in E. assert (t = case_table mem2) by congruence. subst t. clear E.
  destruct (build_info_right case_hist 5 (case_table mem2) S) as (i & E & _); [repeat constructor; lia|discriminate|]. now rewrite E.
Qed.
Opaque case_infos build_info_table.
Lemma case_codable j s : 0 <= j < 2 -> 0 <= s < 16 -> codable case_codes case_dec j s.
Proof.
  intros Hj Hs. apply built_tables_match with (h := case_hist) (mem := mem1) (mem' := mem2) (t := case_table mem1) (t' := case_table mem2) (infos := case_infos) (f := 256).
  - cbn; lia.
  - apply case_is_histogram.
  - apply case_table_ok.
  - assert (j = 0 \/ j = 1) as [->| ->] by lia; reflexivity.
  - apply case_table_ok.
  - apply case_infos_ok.
  - assert (j = 0 \/ j = 1) as [->| ->] by lia; reflexivity.
  - unfold znth. replace (s <? 0) with false by lia. apply nth_error_repeat. lia.
  - lia.
Qed.
Lemma case_matches : codes_match case_codes case_dec.
Proof.
  assert (H : hconfig_ok (HC 4 2 0) /\ hconfig_ok (HC 4 1 1) /\ hconfig_ok (HC 0 0 0)) by (unfold hconfig_ok; cbn; lia).
  destruct H as (H1 & H2 & H3). unfold codes_match. cbn. repeat split; try lia; try apply H3. constructor; [exact H1|]. constructor; [exact H2|constructor].
Qed.
Lemma case_tokens_ok : tokens_ok case_codes case_dec 0 case_tokens.
Proof.
  unfold case_tokens.
  assert (L : forall c j v, znth [0; 1; 1] c = Some j -> 0 <= v < 16 -> 0 <= j < 2 -> coded_token case_codes case_dec 0 (Token false c v) j v).
  { intros c j v Hc Hv Hj. split; [unfold is_u32; cbn; lia|]. split; [exact Hc|].
    assert (exists cfg, znth [HC 4 2 0; HC 4 1 1] j = Some cfg /\ split_token cfg = 16) as (cfg & E & E').
    { assert (j = 0 \/ j = 1) as [->| ->] by lia; eexists; split; reflexivity. }
    exists cfg, v, 0, 0. cbn [is_lz77_length value e_uint_config case_codes]. split; [exact E|]. unfold hybrid_encode. rewrite E'.
    replace (v <? 16) with true by lia. split; [reflexivity|]. split; [lia|]. split; [lia|]. now apply case_codable. }
  apply ok_literal with (j := 0) (s := 3); [apply L; [reflexivity|lia|lia]|cbn; lia|].
  apply ok_literal with (j := 1) (s := 5); [apply L; [reflexivity|lia|lia]|cbn; lia|].
  apply ok_copy with (j := 0) (s := 13) (s' := 1).
  - reflexivity.
  - split; [unfold is_u32; cbn; lia|]. split; [reflexivity|]. exists (HC 0 0 0), 3, 2, 0.
    repeat split; try reflexivity; try (cbn; lia). apply case_codable; lia.
  - cbn; lia.
  - apply L; [reflexivity|lia|cbn; lia].
  - apply ok_literal with (j := 0) (s := 9); [apply L; [reflexivity|lia|lia]|cbn; lia|constructor].
Qed.
Lemma case_safe : reader_safe case_dec (context_map case_codes).
Proof.
  assert (S : forall j, 0 <= j < 2 -> cluster_safe case_dec j).
  { intros j Hj. split.
    - apply ans_safe with (h := case_hist) (mem := mem1) (t := case_table mem1).
      + reflexivity.
      + cbn; lia.
      + apply case_is_histogram.
      + vm_compute; discriminate.
      + apply case_table_ok.
      + assert (j = 0 \/ j = 1) as [->| ->] by lia; reflexivity.
    - assert (j = 0 \/ j = 1) as [->| ->] by lia; eexists; reflexivity. }
  split; [|intros _; split; [apply S; cbn; lia|cbn; lia]]. cbn [context_map case_codes].
  apply Forall_cons; [apply S; lia|]. apply Forall_cons; [apply S; lia|]. apply Forall_cons; [apply S; lia|]. constructor.
Qed.
Transparent case_table init_alias_table case_infos build_info_table.
