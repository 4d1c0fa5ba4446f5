(* Corollaries about whole token streams, and safety of the reader on any input. *)
From Verif Require Import Base BitReaderModel BitProg BitProgProofs ListAux HybridUintModel HybridUintSpec HybridUintProofs
  FieldsProofs AliasModel AliasSpec AliasProofs AnsModel AnsSpec AnsProofs AnsStream TokProg Wrap LzProofs.

(* ---- tables built from the same histogram on both sides ---- *)
Lemma info_for_ext h s s' infos : (forall v, s v = s' v) -> encoder_info_for h s infos -> encoder_info_for h s' infos.
Proof.
  intros E (L & I). split; [exact L|]. intros k f Hk. destruct (I k f Hk) as (e & H1 & H2 & H3 & H4). exists e.
  repeat split; auto. intros o v Hv Hs. apply H4; auto. now rewrite E.
Qed.

Lemma hist_range h : is_histogram h -> Forall (fun v => 0 <= v <= 4096) h.
Proof.
  intros (Hn & Hs). apply Forall_forall. intros x Hx. rewrite Forall_forall in Hn. split; [now apply Hn|].
  apply in_split in Hx. destruct Hx as (a & b & ->). rewrite <- Hs.
  assert (forall l, Forall (fun v => 0 <= v) l -> 0 <= zsum l) as Z0.
  { induction 1; cbn; [lia|]. unfold zsum in *. lia. }
  unfold zsum. rewrite fold_right_app. cbn [fold_right]. fold (zsum b).
  assert (forall l c, Forall (fun v => 0 <= v) l -> c <= fold_right Z.add c l) as Z1.
  { clear. induction 1; cbn; [lia|]. lia. }
  assert (0 <= zsum b) by (apply Z0; apply Forall_forall; intros y Hy; apply Hn; apply in_or_app; right; right; exact Hy).
  pose proof (Z1 a (x + zsum b) ltac:(apply Forall_forall; intros y Hy; apply Hn; apply in_or_app; left; exact Hy)). lia.
Qed.

Theorem built_tables_match codes dc j h mem mem' t t' infos s f :
  4 <= log_alpha_size dc <= 8 -> is_histogram h ->
  init_alias_table h (log_alpha_size dc) mem = Some t -> znth (alias_tables dc) j = Some t ->
  init_alias_table h (log_alpha_size dc) mem' = Some t' -> build_info_table (log_alpha_size dc) t' h = Some infos ->
  znth (encoding_info codes) j = Some infos -> znth h s = Some f -> 0 < f ->
  ans_codable codes dc j s.
Proof.
  intros Hla Hh Ht Hj Ht' Hb Hi Hs Hf. pose proof Hh as (Hn & Hsum).
  destruct (alias_table_memory h _ mem' mem t' Hla Hn ltac:(lia) Ht') as (t2 & E2 & X).
  assert (t2 = t) by congruence. subst t2.
  assert (Hl : zlen (pop_trailing_zeros h) <= 2 ^ log_alpha_size dc).
  { unfold init_alias_table in Ht. rewrite Z.shiftl_1_l in Ht.
    destruct (negb (2 ^ log_alpha_size dc <=? ANS_TAB_SIZE)); [discriminate|].
    destruct (pop_trailing_zeros h) as [|z l] eqn:Ep; [change (zlen []) with 0; apply Z.pow_nonneg; lia|].
    destruct (negb (zlen (z :: l) <=? 2 ^ log_alpha_size dc)) eqn:G; [discriminate|]. lia. }
  destruct (alias_table_right h _ mem Hla Hh Hl) as (t3 & E3 & S3). assert (t3 = t) by congruence. subst t3.
  destruct (alias_table_right h _ mem' Hla Hh Hl) as (t3 & E3' & S3'). assert (t3 = t') by congruence. subst t3.
  destruct (build_info_right h _ t' S3' (hist_range h Hh)) as (infos' & E4 & I4).
  { intros ->. cbn in Hsum. lia. }
  assert (infos' = infos) by congruence. subst infos'.
  exists h, f, t, infos. repeat split; try assumption; try apply S3.
  - destruct (info_for_ext h _ _ infos X I4) as (L & _). exact L.
  - destruct (info_for_ext h _ _ infos X I4) as (_ & K). exact K.
Qed.

(* ---- literals only ---- *)
Definition literal (t : token) : Prop := is_lz77_length t = false.
Lemma expand_literals ml dm off : forall ts hist, Forall literal ts ->
  expand ml dm off hist ts = Some (map (fun t => (Some (off + context t), value t)) ts).
Proof.
  induction ts as [|[b c v] ts IH]; intros hist H; [reflexivity|]. inversion H as [|x y H1 H2]; subst. unfold literal in H1. cbn in H1. subst b.
  cbn [expand]. rewrite IH by exact H2. reflexivity.
Qed.
Lemma run_tbind {A B} n (p : tprog A) (f : A -> tprog B) : forall l, run_toks n (tbind p f) l =
  match run_toks n p l with Some (a, l') => run_toks n (f a) l' | None => None end.
Proof.
  induction p as [a|ctx k IH]; intros l; cbn [tbind run_toks]; [reflexivity|].
  destruct l as [|[c v] l]; [reflexivity|]. destruct (_ && _ && _); [apply IH|reflexivity].
Qed.
Lemma run_read_list n : forall (l : list (Z * Z)), Forall (fun x => 0 <= fst x < n) l ->
  run_toks n (read_list (map fst l)) (map (fun x => (Some (fst x), snd x)) l) = Some (map snd l, []).
Proof.
  induction l as [|[c v] l IH]; intros H; [reflexivity|]. inversion H; subst. cbn [map fst snd read_list run_toks] in *.
  replace ((0 <=? c) && (c <? n) && (c =? c)) with true by (cbn in *; lia). rewrite run_tbind, IH by assumption. reflexivity.
Qed.
Lemma ok_contexts codes dc off ts : tokens_ok codes dc off ts ->
  Forall (fun t => 0 <= off + context t < zlen (context_map codes)) ts.
Proof.
  induction 1 as [|c v j s ts (_ & J & _) T H IH|c n j s c' d s' ts Hz (_ & J & _) N (_ & J' & _) H IH]; [constructor| |].
  - constructor; [now apply znth_bound in J|exact IH].
  - constructor; [now apply znth_bound in J|]. constructor; [now apply znth_bound in J'|exact IH].
Qed.

Theorem literals_round_trip codes dc off ts :
  codes_match codes dc -> tokens_ok codes dc off ts -> Forall literal ts -> zlen ts < 2 ^ 32 ->
  exists fs r, write_tokens codes off ts = Some fs /\ Forall field_ok fs /\
    parses (run_stream dc (context_map codes) 0 (read_list (map (fun t => off + context t) ts)))
      (fields_bits fs) (Some (map value ts, r)) /\
    check_final_state r = true /\ unhealthy r = false.
Proof.
  intros M T L N.
  destruct (write_read codes dc off 0 ts (read_list (map (fun t => off + context t) ts))
              (map (fun t => (Some (off + context t), value t)) ts) (map value ts) M T ltac:(lia)) as (fs & r & H1 & H2 & H3 & H4 & H5 & _).
  - now apply expand_literals.
  - unfold zlen in *. now rewrite map_length.
  - pose proof (run_read_list (zlen (context_map codes)) (map (fun t => (off + context t, value t)) ts)) as R.
    rewrite !map_map in R. cbn [fst snd] in R. apply R. pose proof (ok_contexts _ _ _ _ T) as C.
    clear -C. induction C; constructor; auto.
  - exists fs, r. auto.
Qed.

(* from bytes, with the BitReader *)
Theorem write_read_bytes {A} codes dc off dm ts (p : tprog A) l a :
  codes_match codes dc -> tokens_ok codes dc off ts -> 0 <= dm < 2 ^ 28 ->
  expand (min_length (e_lz77 codes)) dm off [] ts = Some l -> zlen l < 2 ^ 32 ->
  run_toks (zlen (context_map codes)) p l = Some (a, []) ->
  exists fs, write_tokens codes off ts = Some fs /\
    forall bs pad, bytes_ok bs -> bytes_bits bs = fields_bits fs ++ pad ->
    exists r0 r1 r, reader_init bs = Some r0 /\
      run_reader bs r0 (run_stream dc (context_map codes) dm p) = Some (Some (a, r), r1) /\
      total_bits_consumed r1 = zlen (fields_bits fs) /\ all_reads_within_bounds bs r1 = true /\
      check_final_state r = true /\ unhealthy r = false.
Proof.
  intros M T Hd X L E. destruct (write_read codes dc off dm ts p l a M T Hd X L E) as (fs & r & H1 & H2 & H3 & H4 & H5 & _).
  exists fs. split; [exact H1|]. intros bs pad Hb Hp.
  destruct (parses_reader _ _ _ bs pad Hb Hp H3) as (r0 & r1 & K1 & K2 & K3 & K4). exists r0, r1, r. repeat split; assumption.
Qed.

(* ---- safety on any input ---- *)

(* a symbol of histogram [h] can be read from any bits in any state: no access outside the
   tables, and the symbol satisfies P *)
Definition symbol_in (dc : ans_code) (h : Z) (P : Z -> Prop) : Prop :=
  forall st s pos av, 0 <= pos -> 16 <= av <= 56 -> 0 <= st < 2 ^ 32 ->
  exists sym st' pos' av', run_bits s pos av (read_symbol dc h st) = Some (Some (sym, st'), (pos', av')) /\
    P sym /\ 0 <= st' < 2 ^ 32 /\ av - 16 <= av' <= 56 /\ pos <= pos'.
Definition symbol_safe (dc : ans_code) (h : Z) : Prop := symbol_in dc h (fun sym => 0 <= sym < 2 ^ 20).
Definition cluster_safe (dc : ans_code) (h : Z) : Prop :=
  symbol_safe dc h /\ exists cfg, znth (uint_config dc) h = Some cfg.
Definition reader_safe (dc : ans_code) (cmap : list Z) : Prop :=
  Forall (cluster_safe dc) cmap /\
  (lz_enabled (lz77 dc) = true -> cluster_safe dc (distance_context (lz77 dc)) /\ 1 <= min_length (lz77 dc) < 2 ^ 32 /\ 0 <= min_symbol (lz77 dc)).

(* the values that the token [tok] can stand for satisfy V *)
Definition values_in (V : Z -> Prop) (cfg : hconfig) (tok : Z) : Prop :=
  forall s pos av v r, run_bits s pos av (hybrid_read cfg tok) = Some (v, r) -> V v.
Definition threshold_of (dc : ans_code) : Z := if lz_enabled (lz77 dc) then min_symbol (lz77 dc) else 2 ^ 20.
(* in addition every value that is not copied satisfies V *)
Definition cluster_within (V : Z -> Prop) (dc : ans_code) (h : Z) : Prop :=
  exists P cfg, symbol_in dc h P /\ znth (uint_config dc) h = Some cfg /\
    forall sym, P sym -> 0 <= sym < 2 ^ 20 /\ (sym < threshold_of dc -> values_in V cfg sym).
Definition reader_within (V : Z -> Prop) (dc : ans_code) (cmap : list Z) : Prop :=
  Forall (cluster_within V dc) cmap /\
  (lz_enabled (lz77 dc) = true -> cluster_safe dc (distance_context (lz77 dc)) /\ 1 <= min_length (lz77 dc) < 2 ^ 32 /\ 0 <= min_symbol (lz77 dc)).

Inductive contexts_below {A} (n : Z) : tprog A -> Prop :=
| cb_ret a : contexts_below n (TRet a)
| cb_read ctx k : 0 <= ctx < n -> (forall v, contexts_below n (k v)) -> contexts_below n (TRead ctx k).

Lemma symbol_in_weaken dc h (P Q : Z -> Prop) : (forall s, P s -> Q s) -> symbol_in dc h P -> symbol_in dc h Q.
Proof.
  intros W H st s pos av H1 H2 H3. destruct (H st s pos av H1 H2 H3) as (sym & st' & pos' & av' & E & K & R).
  exists sym, st', pos', av'. split; [exact E|]. split; [now apply W|exact R].
Qed.

Lemma ans_symbols dc h j mem t : use_prefix_code dc = false -> 4 <= log_alpha_size dc <= 8 -> is_histogram h ->
  init_alias_table h (log_alpha_size dc) mem = Some t -> znth (alias_tables dc) j = Some t ->
  symbol_in dc j (fun sym => exists f, znth h sym = Some f /\ 0 < f).
Proof.
  intros Hp Hla Hh Ht Hj st s pos av Hpos Hav Hst.
  assert (Hl2 : zlen (pop_trailing_zeros h) <= 2 ^ log_alpha_size dc).
  { unfold init_alias_table in Ht. rewrite Z.shiftl_1_l in Ht.
    destruct (negb (2 ^ log_alpha_size dc <=? ANS_TAB_SIZE)); [discriminate|].
    destruct (pop_trailing_zeros h) as [|z l] eqn:Ep; [change (zlen []) with 0; apply Z.pow_nonneg; lia|].
    destruct (negb (zlen (z :: l) <=? 2 ^ log_alpha_size dc)) eqn:G; [discriminate|]. lia. }
  destruct (alias_table_right h _ mem Hla Hh Hl2) as (t3 & E3 & (S1 & _)). assert (t3 = t) by congruence. subst t3.
  unfold read_symbol. rewrite Hp, Hj. unfold ans_read.
  assert (R : Z.land st (ANS_TAB_SIZE - 1) = st mod 4096).
  { change (ANS_TAB_SIZE - 1) with (Z.ones 12). rewrite Z.land_ones by lia. reflexivity. }
  rewrite R. destruct (S1 (st mod 4096) ltac:(apply Z.mod_pos_bound; lia)) as (sym & o & f & -> & Hz & Ho).
  cbn zeta. set (st2 := w32 (f * Z.shiftr st ANS_LOG_TAB_SIZE + o)).
  assert (H2 : 0 <= st2 < 2 ^ 32) by (unfold st2, w32; apply Z.mod_pos_bound; lia).
  assert (Hf : exists f0, znth h sym = Some f0 /\ 0 < f0) by (exists f; split; [exact Hz|lia]).
  cbn [run_bits]. replace ((0 <=? 16) && (16 <=? av)) with true by lia.
  assert (Hb : 0 <= bits_at s pos 16 < 2 ^ 16) by (apply bits_at_range; lia).
  exists sym. destruct (Z.ltb_spec st2 (Z.shiftl 1 16)).
  - replace ((0 <=? 16) && (16 <=? av)) with true by lia. do 3 eexists. split; [reflexivity|]. split; [exact Hf|]. split; [|lia].
    change (Z.shiftl 1 16) with (2 ^ 16) in *.
    replace (w32 (Z.shiftl st2 16)) with (st2 * 2 ^ 16) by (rewrite Z.shiftl_mul_pow2 by lia; unfold w32; rewrite Z.mod_small; lia).
    rewrite lor_add_pow by lia. lia.
  - replace ((0 <=? 0) && (0 <=? av)) with true by lia. do 3 eexists. split; [reflexivity|]. split; [exact Hf|]. split; [exact H2|lia].
Qed.

Lemma ans_safe dc h j mem t : use_prefix_code dc = false -> 4 <= log_alpha_size dc <= 8 -> is_histogram h -> zlen h <= 2 ^ 20 ->
  init_alias_table h (log_alpha_size dc) mem = Some t -> znth (alias_tables dc) j = Some t -> symbol_safe dc j.
Proof.
  intros Hp Hla Hh Hl Ht Hj. eapply symbol_in_weaken; [|eapply ans_symbols; eassumption].
  intros sym (f & Hz & _). apply znth_bound in Hz. lia.
Qed.

Lemma hybrid_safe cfg tok s pos av : 31 <= av <= 56 -> is_u32 tok ->
  exists v pos' av', run_bits s pos av (hybrid_read cfg tok) = Some (v, (pos', av')) /\ is_u32 v /\ 0 <= av' <= 56 /\ pos <= pos'.
Proof.
  intros Hav Ht. unfold hybrid_read. destruct (tok <? split_token cfg); [cbn [run_bits]; do 3 eexists; split; [reflexivity|split; [exact Ht|lia]]|].
  cbn zeta. cbn [run_bits].
  assert (0 <= hybrid_nbits cfg tok <= 31).
  { unfold hybrid_nbits. match goal with |- context [Z.land ?x 31] => pose proof (Z.land_ones x 5 ltac:(lia)) as L; change (Z.ones 5) with 31 in L; rewrite L; pose proof (Z.mod_pos_bound x (2 ^ 5) ltac:(lia)) end. lia. }
  replace ((0 <=? hybrid_nbits cfg tok) && (hybrid_nbits cfg tok <=? av)) with true by lia.
  do 3 eexists. split; [reflexivity|]. split; [|lia]. unfold hybrid_assemble, w32, is_u32. cbn zeta. apply Z.mod_pos_bound. lia.
Qed.
Lemma values_u32 cfg tok : is_u32 tok -> values_in is_u32 cfg tok.
Proof.
  intros Ht s pos av v r. unfold hybrid_read. destruct (tok <? split_token cfg); [cbn [run_bits]; intros [= <- _]; exact Ht|].
  cbn zeta. cbn [run_bits]. destruct (_ && _); [|discriminate]. intros [= <- _].
  unfold hybrid_assemble, w32, is_u32. cbn zeta. apply Z.mod_pos_bound. lia.
Qed.

(* the window is initialised where a copy may read; C is the number of values read so far *)
Definition sinv (V : Z -> Prop) (r : sreader) (C : Z) : Prop :=
  0 <= C /\ num_decoded r = C mod 2 ^ 32 /\ 0 <= num_to_copy r < 2 ^ 32 /\ 0 <= state r < 2 ^ 32 /\ 0 <= copy_pos r < 2 ^ 32 /\
  (forall i, 0 <= i < Z.min C (2 ^ 20) -> window r i <> None) /\
  (0 < num_to_copy r -> C < 2 ^ 20 ->
     copy_pos r < C \/ (copy_pos r = C /\ forall i, 0 <= i < Z.min (C + num_to_copy r) (2 ^ 20) -> window r i <> None)) /\
  (forall i v, window r i = Some v -> V v).

Lemma copy_step_safe V r C : sinv V r C -> 0 < num_to_copy r ->
  exists v r', copy_step r = Some (v, r') /\ V v /\ sinv V r' (C + 1).
Proof.
  intros (H0 & H1 & H2 & H3 & H4 & H5 & H6 & H7) Hk. unfold copy_step. rewrite !mask_mod.
  pose proof (Z.mod_pos_bound (copy_pos r) (2 ^ 20) ltac:(lia)) as B.
  assert (E : window r (copy_pos r mod 2 ^ 20) <> None).
  { destruct (Z_lt_le_dec C (2 ^ 20)) as [L|L].
    - destruct (H6 Hk L) as [P|(P & W)].
      + apply H5. rewrite Z.mod_small by lia. lia.
      + apply W. rewrite P, Z.mod_small by lia. lia.
    - apply H5. lia. }
  destruct (window r (copy_pos r mod 2 ^ 20)) as [v|] eqn:Ev; [|congruence]. do 2 eexists. split; [reflexivity|].
  assert (Vv : V v) by (eapply H7; exact Ev). split; [exact Vv|].
  unfold sinv. cbn [state num_to_copy num_decoded copy_pos window unhealthy].
  assert (HW : forall m, (forall i, 0 <= i < Z.min m (2 ^ 20) -> window r i <> None \/ (m = C + 1 /\ i = C)) ->
            forall i, 0 <= i < Z.min m (2 ^ 20) -> (if i =? num_decoded r mod 2 ^ 20 then Some v else window r i) <> None).
  { intros m Hm i Hi. destruct (Z.eqb_spec i (num_decoded r mod 2 ^ 20)) as [|N]; [discriminate|].
    destruct (Hm i Hi) as [|(-> & ->)]; [assumption|]. exfalso. apply N. rewrite H1. rewrite (Z.mod_small C (2 ^ 32)), Z.mod_small by lia. reflexivity. }
  split; [lia|]. split; [rewrite H1; unfold w32; rewrite Zplus_mod_idemp_l; reflexivity|].
  split; [unfold w32; apply Z.mod_pos_bound; lia|]. split; [exact H3|]. split; [unfold w32; apply Z.mod_pos_bound; lia|].
  split; [|split].
  - apply HW. intros i Hi. destruct (Z_lt_le_dec i C) as [L|L]; [left; apply H5; lia|right; lia].
  - replace (w32 (num_to_copy r - 1)) with (num_to_copy r - 1) by (unfold w32; rewrite Z.mod_small; lia).
    intros Hk' L. replace (w32 (copy_pos r + 1)) with (copy_pos r + 1) by (destruct (H6 Hk ltac:(lia)) as [?|(? & _)]; unfold w32; rewrite Z.mod_small; lia).
    destruct (H6 Hk ltac:(lia)) as [P|(P & W)]; [left; lia|right]. split; [lia|].
    intros i Hi. destruct (i =? num_decoded r mod 2 ^ 20); [discriminate|]. apply W. lia.
  - intros i x. destruct (i =? num_decoded r mod 2 ^ 20); [intros [= <-]; exact Vv|apply H7].
Qed.

Section Safe.
Variables (V : Z -> Prop) (dc : ans_code) (cmap : list Z) (dm : Z).
Hypothesis V0 : V 0.
Hypothesis HS : reader_within V dc cmap.
Hypothesis Hdm : 0 <= dm < 2 ^ 28.

Lemma start_copy_safe r C n d : sinv V r C -> num_to_copy r = 0 -> 1 <= min_length (lz77 dc) < 2 ^ 32 -> is_u32 d ->
  exists v r', start_copy dc dm r n d = Some (v, r') /\ V v /\ exists C', sinv V r' C'.
Proof.
  intros (H0 & H1 & H2 & H3 & H4 & H5 & H6 & H7) Hk Hm Hd. unfold start_copy. cbn zeta.
  rewrite distance_decode by assumption. pose proof (distance_pos dm d Hd) as Hx. set (x := distance_of dm d) in *.
  set (len := w32 (n + min_length (lz77 dc))). assert (Hlen : 0 <= len < 2 ^ 32) by (unfold len, w32; apply Z.mod_pos_bound; lia).
  set (d1 := if num_decoded r <? x then num_decoded r else x). set (d2 := if kWindowSize <? d1 then kWindowSize else d1).
  assert (Hnd : 0 <= num_decoded r < 2 ^ 32) by (rewrite H1; apply Z.mod_pos_bound; lia).
  assert (Hd2 : d2 = Z.min x (Z.min (num_decoded r) (2 ^ 20))).
  { unfold d2, d1. change kWindowSize with (2 ^ 20). destruct (Z.ltb_spec (num_decoded r) x).
    - destruct (Z.ltb_spec (2 ^ 20) (num_decoded r)); lia.
    - destruct (Z.ltb_spec (2 ^ 20) x); lia. }
  set (w := if d2 =? 0 then (fun i => if (0 <=? i) && (i <? Z.min len kWindowSize) then Some 0 else window r i) else window r).
  assert (HW : forall i, 0 <= i < Z.min C (2 ^ 20) -> w i <> None).
  { intros i Hi. unfold w. destruct (d2 =? 0); [destruct (_ && _); [discriminate|]|]; apply H5; exact Hi. }
  assert (HV : forall i v, w i = Some v -> V v).
  { intros i v. unfold w. destruct (d2 =? 0); [destruct (_ && _); [intros [= <-]; exact V0|]|]; apply H7. }
  assert (Hcp : w32 (num_decoded r - d2) = num_decoded r - d2) by (unfold w32; rewrite Z.mod_small; lia). rewrite Hcp.
  destruct (Z.ltb_spec len (min_length (lz77 dc))) as [L|L].
  - do 2 eexists. split; [reflexivity|]. split; [exact V0|]. exists C. unfold sinv. cbn [state num_to_copy num_decoded copy_pos window].
    split; [exact H0|]. split; [exact H1|]. split; [lia|]. split; [exact H3|]. split; [lia|]. split; [exact HW|]. split; [lia|exact HV].
  - destruct (copy_step_safe V (SReader (state r) (num_decoded r) len (num_decoded r - d2) w (unhealthy r)) C) as (v & r' & E & Vv & I).
    + unfold sinv. cbn [state num_to_copy num_decoded copy_pos window].
      split; [exact H0|]. split; [exact H1|]. split; [lia|]. split; [exact H3|]. split; [lia|]. split; [exact HW|]. split; [|exact HV].
      intros _ HC. rewrite H1, (Z.mod_small C) in * by lia. destruct (Z.eq_dec d2 0) as [E0|N0]; [|left; lia].
      assert (C = 0) by lia.
      right. split; [lia|]. intros i Hi. unfold w. rewrite E0. change (0 =? 0) with true. cbn iota.
      change kWindowSize with (2 ^ 20). cbv beta. replace ((0 <=? i) && (i <? Z.min len (2 ^ 20))) with true by lia. discriminate.
    + cbn. lia.
    + exists v, r'. split; [exact E|]. split; [exact Vv|]. exists (C + 1). exact I.
Qed.

Lemma read_safe r C ctx s pos av : sinv V r C -> 0 <= ctx < zlen cmap -> 0 <= pos -> 0 <= av <= 56 ->
  exists v r' pos' av', run_bits s pos av (read_hybrid dc cmap dm r ctx) = Some (Some (v, r'), (pos', av')) /\
    V v /\ pos <= pos' /\ 0 <= av' <= 56 /\ exists C', sinv V r' C'.
Proof.
  intros I Hc Hpos Hav. destruct HS as (HF & HL). unfold read_hybrid. destruct (znth_in cmap ctx Hc) as (h & Eh). rewrite Eh.
  assert (Hh : cluster_within V dc h).
  { rewrite Forall_forall in HF. apply HF. unfold znth in Eh. destruct (ctx <? 0); [discriminate|]. eapply nth_error_In; eauto. }
  destruct Hh as (P & cfg & Hs & Hcfg & HP). unfold read_hybrid_clustered. destruct (Z.ltb_spec 0 (num_to_copy r)) as [K|K].
  - destruct (copy_step_safe V r C I K) as (v & r' & -> & Vv & I'). cbn [run_bits]. exists v, r', pos, av. split; [reflexivity|]. split; [exact Vv|]. split; [lia|]. split; [lia|eauto].
  - pose proof I as (H0 & H1 & H2 & H3 & H4 & H5 & H6 & H7). assert (K0 : num_to_copy r = 0) by lia.
    cbn [run_bits]. rewrite run_bits_bind.
    destruct (Hs (state r) s pos 56 Hpos ltac:(lia) H3) as (sym & st' & pos1 & av1 & -> & B0 & B2 & B3 & B4). cbn zeta.
    destruct (HP sym B0) as (B1 & BV).
    assert (I1 : sinv V (set_state r st') C).
    { unfold sinv, set_state; cbn [state num_to_copy num_decoded copy_pos window].
      split; [exact H0|]. split; [exact H1|]. split; [exact H2|]. split; [exact B2|]. split; [exact H4|]. split; [exact H5|]. split; [exact H6|exact H7]. }
    destruct (Z.leb_spec (if lz_enabled (lz77 dc) then min_symbol (lz77 dc) else Z.shiftl 1 20) sym) as [T|T].
    + destruct (lz_enabled (lz77 dc)) eqn:Hlz; [|change (Z.shiftl 1 20) with (2 ^ 20) in T; lia].
      destruct (HL eq_refl) as ((Hs2 & cfg2 & Hcfg2) & Hm & M0). rewrite run_bits_bind.
      destruct (hybrid_safe (length_uint_config (lz77 dc)) (sym - min_symbol (lz77 dc)) s pos1 av1 ltac:(lia) ltac:(unfold is_u32; lia)) as (n & pos2 & av2 & -> & _ & _ & L2).
        cbn [run_bits]. rewrite run_bits_bind. change (state (set_state r st')) with st'.
        destruct (Hs2 st' s pos2 56 ltac:(lia) ltac:(lia) B2) as (sym2 & st2 & pos3 & av3 & -> & D1 & D2 & D3 & D4). rewrite Hcfg2, run_bits_bind.
        destruct (hybrid_safe cfg2 sym2 s pos3 av3 ltac:(lia) ltac:(unfold is_u32; lia)) as (d & pos4 & av4 & -> & Ud & A4 & L4). cbn [run_bits].
        destruct (start_copy_safe (set_state (set_state r st') st2) C n d) as (v & r' & -> & Vv & I'); auto.
        { unfold sinv, set_state; cbn [state num_to_copy num_decoded copy_pos window].
          split; [exact H0|]. split; [exact H1|]. split; [exact H2|]. split; [exact D2|]. split; [exact H4|]. split; [exact H5|]. split; [exact H6|exact H7]. }
        exists v, r', pos4, av4. split; [reflexivity|]. split; [exact Vv|]. split; [lia|]. split; [lia|exact I'].
    + rewrite Hcfg, run_bits_bind.
      destruct (hybrid_safe cfg sym s pos1 av1 ltac:(lia) ltac:(unfold is_u32; lia)) as (v & pos2 & av2 & Ev & _ & A2 & L2).
      assert (Vv : V v).
      { eapply BV; [|exact Ev]. unfold threshold_of. change (Z.shiftl 1 20) with (2 ^ 20) in T. exact T. }
      rewrite Ev. cbn [run_bits].
      do 4 eexists. split; [reflexivity|]. split; [exact Vv|]. split; [lia|]. split; [lia|]. destruct (lz_enabled (lz77 dc)); [|exists C; exact I1].
      exists (C + 1). unfold sinv, set_state. cbn [state num_to_copy num_decoded copy_pos window]. rewrite mask_mod.
      split; [lia|]. split; [rewrite H1; unfold w32; rewrite Zplus_mod_idemp_l; reflexivity|]. split; [lia|]. split; [exact B2|]. split; [exact H4|].
      split; [|split; [lia|]].
      * intros i Hi. destruct (Z.eqb_spec i (num_decoded r mod 2 ^ 20)) as [|N]; [discriminate|].
        destruct (Z_lt_le_dec i C) as [L|L]; [apply H5; lia|]. exfalso. apply N. assert (i = C) by lia. subst i.
        rewrite H1. rewrite (Z.mod_small C (2 ^ 32)), Z.mod_small by lia. reflexivity.
      * intros i x. destruct (i =? num_decoded r mod 2 ^ 20); [intros [= <-]; exact Vv|apply H7].
Qed.

(* the values that were read *)
Definition unplaced (vs : list Z) : list (option Z * Z) := map (fun v => (None, v)) vs.

Theorem run_sym_safe {A} (p : tprog A) : contexts_below (zlen cmap) p -> forall r C s pos av, sinv V r C -> 0 <= pos -> 0 <= av <= 56 ->
  exists a r' pos' av' vs, run_bits s pos av (run_sym dc cmap dm p r) = Some (Some (a, r'), (pos', av')) /\
    run_toks (zlen cmap) p (unplaced vs) = Some (a, []) /\ Forall V vs /\ pos <= pos' /\ 0 <= av' <= 56.
Proof.
  induction 1 as [a|ctx k Hc _ IH]; intros r C s pos av I Hpos Hav; cbn [run_sym].
  - cbn [run_bits]. exists a, r, pos, av, []. split; [reflexivity|]. split; [reflexivity|]. split; [constructor|lia].
  - rewrite run_bits_bind. destruct (read_safe r C ctx s pos av I Hc Hpos Hav) as (v & r' & pos' & av' & -> & Vv & Lp & A' & C' & I').
    destruct (IH v r' C' s pos' av' I' ltac:(lia) A') as (a & r2 & pos2 & av2 & vs & E & R & F & Lp2 & A2).
    exists a, r2, pos2, av2, (v :: vs). split; [exact E|]. split; [|split; [now constructor|lia]].
    cbn [unplaced map run_toks]. replace ((0 <=? ctx) && (ctx <? zlen cmap) && true) with true by lia. exact R.
Qed.
End Safe.

Theorem stream_within {A} (V : Z -> Prop) dc cmap dm (p : tprog A) : V 0 -> reader_within V dc cmap -> 0 <= dm < 2 ^ 28 -> contexts_below (zlen cmap) p ->
  forall s pos av, 0 <= pos -> 0 <= av <= 56 ->
  exists a r pos' av' vs, run_bits s pos av (run_stream dc cmap dm p) = Some (Some (a, r), (pos', av')) /\
    run_toks (zlen cmap) p (unplaced vs) = Some (a, []) /\ Forall V vs /\ pos <= pos' /\ 0 <= av' <= 56.
Proof.
  intros V0 HS Hdm Hp s pos av Hpos Hav. unfold run_stream, reader_create. destruct (use_prefix_code dc).
  - cbn [bind]. apply (run_sym_safe V dc cmap dm V0 HS Hdm p Hp _ 0); auto. unfold sinv. cbn [state num_to_copy num_decoded copy_pos window].
    repeat split; try lia; try discriminate; vm_compute; discriminate.
  - rewrite !run_bits_bind. cbn [rd run_bits]. change ((0 <=? 32) && (32 <=? 56)) with true. cbn iota.
    pose proof (bits_at_range s pos 32 ltac:(lia)).
    destruct (run_sym_safe V dc cmap dm V0 HS Hdm p Hp (SReader (bits_at s pos 32) 0 0 0 (fun _ => None) false) 0 s (pos + 32) (56 - 32)) as (a & r & pos' & av' & vs & E & R & F & L & A'); try lia.
    + unfold sinv. cbn [state num_to_copy num_decoded copy_pos window]. repeat split; try lia; discriminate.
    + exists a, r, pos', av', vs. split; [exact E|]. split; [exact R|]. split; [exact F|lia].
Qed.

Lemma safe_within dc cmap : reader_safe dc cmap -> reader_within is_u32 dc cmap.
Proof.
  intros (H1 & H2). split; [|exact H2]. eapply Forall_impl; [|exact H1]. intros h (Hs & cfg & Hc).
  exists (fun sym => 0 <= sym < 2 ^ 20), cfg. split; [exact Hs|]. split; [exact Hc|]. intros sym Hsym. split; [exact Hsym|].
  intros _. apply values_u32. unfold is_u32. lia.
Qed.

Theorem stream_safe {A} dc cmap dm (p : tprog A) : reader_safe dc cmap -> 0 <= dm < 2 ^ 28 -> contexts_below (zlen cmap) p ->
  forall s pos av, 0 <= pos -> 0 <= av <= 56 ->
  exists a r pos' av' vs, run_bits s pos av (run_stream dc cmap dm p) = Some (Some (a, r), (pos', av')) /\
    run_toks (zlen cmap) p (unplaced vs) = Some (a, []) /\ Forall is_u32 vs /\ pos <= pos' /\ 0 <= av' <= 56.
Proof. intros HS. apply stream_within; [unfold is_u32; lia|now apply safe_within]. Qed.
