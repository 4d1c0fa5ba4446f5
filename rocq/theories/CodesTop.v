(* The theorems about the description of an entropy code, in the form in which they are stated
   as properties. *)
From Verif Require Import Base HuffRle BitReaderModel BitReaderSpec BitProg BitProgProofs HeadersModel HybridUintModel HuffSafe CodesModel
  AnsSpec AnsTop MtfSpec MtfProofs CodesSpec CodesSafe CodesRound.

(* A code is read from any bits whatever, then values are read with it. *)
Definition code_then {A} (M : machine) (n : nat) (disallow : bool) (dm : Z) (p : tprog A) : rprog (option (option (decoded * A))) :=
  let! h := decode_histograms M 3 n disallow in
  match h with
  | None => Ret None
  | Some None => Ret (Some None)
  | Some (Some d) =>
      let! r := run_stream (d_code d) (d_map d) dm p in
      Ret (match r with Some (a, _) => Some (Some (d, a)) | None => None end)
  end.

Lemma contexts_more {A} m m' (p : tprog A) : m <= m' -> contexts_below m p -> contexts_below m' p.
Proof. intros L. induction 1 as [a|ctx k Hc _ IH]; constructor; [lia|exact IH]. Qed.
Lemma toks_more {A} m m' (p : tprog A) : m <= m' -> contexts_below m p -> forall l, run_toks m' p l = run_toks m p l.
Proof.
  intros L. induction 1 as [a|ctx k Hc _ IH]; intros l; cbn [run_toks]; [reflexivity|]. destruct l as [|(c, v) l]; [reflexivity|].
  replace (ctx <? m') with true by lia. replace (ctx <? m) with true by lia. destruct (_ && _ && _); [apply IH|reflexivity].
Qed.

Theorem any_code_any_values {A} M n disallow dm (p : tprog A) : lane_count (m_lanes M) -> (0 < n)%nat -> 0 <= dm < 2 ^ 28 -> contexts_below (Z.of_nat n) p ->
  forall s pos av, 0 <= pos -> 0 <= av <= 56 ->
  exists o pos' av', run_bits s pos av (code_then M n disallow dm p) = Some (Some o, (pos', av')) /\ pos <= pos' /\ 0 <= av' <= 56 /\
    forall d a, o = Some (d, a) -> exists vs, run_toks (Z.of_nat n) p (unplaced vs) = Some (a, []) /\
      Forall (fun v => 0 <= v < 2 ^ max_num_bits d) vs.
Proof.
  intros HL Hn Hdm Hp s pos av Hpos Hav. unfold code_then. rewrite run_bits_bind.
  destruct (decode_histograms_ends M n disallow HL Hn s pos av Hpos Hav) as (r & pos1 & av1 & E & (o & -> & Ho) & L1 & A1). rewrite E.
  destruct o as [d|]. 2:{ cbn [run_bits]. exists None, pos1, av1. split; [reflexivity|]. split; [lia|]. split; [lia|discriminate]. }
  destruct (Ho d eq_refl) as (Hm & _ & _ & _ & Hb & _ & Hw & _).
  assert (Lm : Z.of_nat n <= zlen (d_map d)) by (rewrite Hm; destruct (lz_enabled (lz77 (d_code d))); cbn; lia).
  rewrite run_bits_bind. destruct (stream_within (below (max_num_bits d)) (d_code d) (d_map d) dm p) with (s := s) (pos := pos1) (av := av1) as (a & r' & pos2 & av2 & vs & E2 & R & F & L2 & A2); auto.
  - split; [lia|]. apply Z.pow_pos_nonneg; lia.
  - now apply (contexts_more (Z.of_nat n)).
  - lia.
  - rewrite E2. cbn [run_bits]. exists (Some (d, a)), pos2, av2. split; [reflexivity|]. split; [lia|]. split; [lia|].
    intros d' a' X. apply Some_eq in X. injection X as <- <-. exists vs. split; [|exact F]. rewrite <- R. symmetry. now apply toks_more.
Qed.

Corollary any_code_safe {A} M n disallow dm (p : tprog A) : lane_count (m_lanes M) -> (0 < n)%nat -> 0 <= dm < 2 ^ 28 -> contexts_below (Z.of_nat n) p ->
  forall s pos av, 0 <= pos -> 0 <= av <= 56 ->
  exists o pos' av', run_bits s pos av (code_then M n disallow dm p) = Some (Some o, (pos', av')) /\ pos <= pos' /\ 0 <= av' <= 56 /\
    forall d a, o = Some (d, a) -> exists vs, run_toks (Z.of_nat n) p (unplaced vs) = Some (a, []).
Proof.
  intros HL Hn Hdm Hp s pos av Hpos Hav. destruct (any_code_any_values M n disallow dm p HL Hn Hdm Hp s pos av Hpos Hav) as (o & pos' & av' & E & L & A' & H).
  exists o, pos', av'. split; [exact E|]. split; [exact L|]. split; [exact A'|]. intros d a Ho. destruct (H d a Ho) as (vs & R & _). eauto.
Qed.

(* what an accepted code is *)
Theorem accepted_code M n disallow : lane_count (m_lanes M) -> (0 < n)%nat ->
  forall s pos av, 0 <= pos -> 0 <= av <= 56 ->
  exists o pos' av', run_bits s pos av (decode_histograms M 3 n disallow) = Some (Some o, (pos', av')) /\
    forall d, o = Some d ->
      zlen (d_map d) = Z.of_nat n + b2z (lz_enabled (lz77 (d_code d))) /\
      map_onto (d_map d) (zlen (uint_config (d_code d))) /\
      Forall config_valid (uint_config (d_code d)) /\
      zlen (degenerate d) = zlen (uint_config (d_code d)) /\
      forall j, In j (d_map d) -> znth (degenerate d) j = Some (-1) \/
        exists x, znth (degenerate d) j = Some x /\ symbol_in (d_code d) j (fun sym => sym = x).
Proof.
  intros HL Hn s pos av Hpos Hav.
  destruct (decode_histograms_ends M n disallow HL Hn s pos av Hpos Hav) as (r & pos1 & av1 & E & (o & -> & Ho) & L1 & A1). exists o, pos1, av1. split; [exact E|].
  intros d Hd. destruct (Ho d Hd) as (H1 & H2 & H3 & H4 & _ & H6 & _ & H8). split; [exact H1|]. split; [split; [exact H3|]; intros h; symmetry; apply H2|]. auto.
Qed.

(* from bytes, with the BitReader: a code and the values coded with it *)
Theorem code_and_tokens_bytes {A} M mem mp n p disallow off dm ts (prog : tprog A) l a :
  lane_count (m_lanes M) -> plan_ok n p -> (disallow = true -> lz_enabled (p_lz p) = false) ->
  (1 < zlen (p_map p) -> map_plan_ok mp (p_map p) (zlen (p_configs p))) ->
  planned p off ts -> 0 <= dm < 2 ^ 28 -> expand (min_length (p_lz p)) dm off [] ts = Some l -> zlen l < 2 ^ 32 ->
  run_toks (zlen (p_map p)) prog l = Some (a, []) ->
  exists fs codes ws, encode_histograms mem mp p = Some (fs, codes) /\ write_tokens codes off ts = Some ws /\ Forall field_ok (fs ++ ws) /\
    forall bs pad, bytes_ok bs -> bytes_bits bs = fields_bits (fs ++ ws) ++ pad ->
    exists r0 r1 d, reader_init bs = Some r0 /\
      run_reader bs r0 (code_then M n disallow dm prog) = Some (Some (Some (d, a)), r1) /\ d_map d = p_map p /\
      total_bits_consumed r1 = zlen (fields_bits (fs ++ ws)) /\ all_reads_within_bounds bs r1 = true.
Proof.
  intros HL Hp Hd Hmp Hts Hdm Hx Hlen Hrun.
  destruct (histograms_roundtrip M mem mp n p disallow HL Hp Hd Hmp) as (fs & codes & d & E & F & P & C).
  pose proof C as (Cm & Cx & Dx & _ & Cl & _ & _).
  destruct (LzProofs.write_read codes (d_code d) off dm ts prog l a Cm (planned_tokens _ _ _ _ _ C Hts) Hdm) as (ws & r & Ew & Fw & Pw & Cf & Cu & _).
  { now rewrite Cl. } { exact Hlen. } { now rewrite Cx. }
  exists fs, codes, ws. split; [exact E|]. split; [exact Ew|]. split; [apply Forall_app; split; assumption|]. intros bs pad Hok Hb.
  assert (Pc : parses (code_then M n disallow dm prog) (fields_bits (fs ++ ws)) (Some (Some (d, a)))).
  { rewrite FieldsProofs.fields_bits_app. unfold code_then. eapply parses_bind; [exact P|]. cbv beta iota. rewrite Dx, <- Cx. eapply parses_bind_nil; [exact Pw|]. apply parses_ret. }
  destruct (parses_reader _ _ _ bs pad Hok Hb Pc) as (r0 & r1 & A1 & A2 & A3 & A4). exists r0, r1, d. auto.
Qed.

(* context maps *)
Theorem context_map_roundtrip M mem mp cmap nh : lane_count (m_lanes M) -> map_onto cmap nh -> map_plan_ok mp cmap nh ->
  exists mf, encode_map mem mp cmap nh = Some mf /\ Forall field_ok mf /\
    parses (decode_context_map M (decode_histograms M 2 1) (length cmap)) (fields_bits mf) (Some (Some (cmap, nh))).
Proof.
  intros HL Ho Hmp. apply map_rt; auto. intros um q ts mp' _ Hq Hq2 Hq3. apply level_two; [exact HL|exact Hq| |exact Hq3]. intros E. apply Hq2. apply Z.leb_le in E. exact E.
Qed.

Theorem any_context_map M n : lane_count (m_lanes M) -> (0 < n)%nat -> forall s pos av, 0 <= pos -> 0 <= av <= 56 ->
  exists o pos' av', run_bits s pos av (decode_context_map M (decode_histograms M 2 1) n) = Some (Some o, (pos', av')) /\ pos <= pos' /\ 0 <= av' <= 56 /\
    forall l nh, o = Some (l, nh) -> length l = n /\ map_onto l nh.
Proof.
  intros HL Hn s pos av Hpos Hav.
  assert (H1 : forall f, ends (decode_histograms M (S f) 1 true) (code_or_error 1)).
  { intros f. cbn [decode_histograms]. apply decode_codes_ends; [lia|]. intros n' [->|(_ & E)]; [lia|discriminate]. }
  assert (H2 : forall b, ends (decode_histograms M 2 1 b) (code_or_error 1)).
  { intros b. cbn [decode_histograms]. apply decode_codes_ends; [lia|]. intros n' [->|(-> & _)] L; [lia|]. apply map_ends; [exact HL|lia|]. change (Z.of_nat 2 <=? 2) with true. apply (H1 0%nat). }
  destruct (map_ends M (decode_histograms M 2 1) n HL Hn (H2 _) s pos av Hpos Hav) as (r & pos1 & av1 & E & (o & -> & Ho) & L1 & A1).
  exists o, pos1, av1. split; [exact E|]. split; [exact L1|]. split; [exact A1|]. intros l nh X. destruct (Ho l nh X) as (B1 & B2 & B3 & B4).
  split; [exact B1|]. split; [exact B2|]. intros h. split; [|apply B4]. intros Hin. now apply (proj1 (Forall_forall _ _) B3).
Qed.
