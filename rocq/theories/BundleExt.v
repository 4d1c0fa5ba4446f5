(* Extension words replaced by foreign extensions, and bundles read from bytes. *)
From Verif Require Import Base ListAux BitIOProofs BitReaderModel BitProg BitProgProofs FieldsModel FieldsSpec FieldsProofs BundleModel BundleSpec BundleProofs BundleTrunc.

Lemma written_no_ext q x s total ws : valid (Seq q (Ext x)) s -> s x = 0 ->
  bundle_write (Seq q (Ext x)) s = Some (total, ws) -> no_extensions q s = true.
Proof.
  intros Hv E0 Hwr. apply bundle_parts in Hwr as (st & k & eb & Hce & -> & Hok & Heb & Ht & Hwr).
  destruct (written_inner_ext_zero q x s eb (ce_bits st) (CE s true 0 0 0) [] Hv eq_refl ltac:(cbn; lia) eq_refl) as (Hn & _); auto.
  - rewrite Hce. auto.
  - destruct (write _ _ _) as [wt kw]. tauto.
Qed.

Lemma written_no_ext_ad q x s total ws : valid (Seq q (Ext x)) s -> s x = 0 ->
  bundle_all_default (Seq q (Ext x)) s = false ->
  bundle_write (AllDef (Seq q (Ext x))) s = Some (total, ws) -> no_extensions q s = true.
Proof.
  intros Hv E0 Ead Hwr. apply bundle_parts in Hwr as (st & k & eb & Hce & -> & Hok & Heb & Ht & Hwr).
  cbn [can_encode write ce_env wr_env] in Hce, Hwr. rewrite Ead in Hce, Hwr.
  rewrite ce_field_add in Hce. rewrite wr_field_add in Hwr.
  destruct (written_inner_ext_zero q x s eb (ce_bits st) (ce_add (CE s true 0 0 0) [(CBits 1, 0)]) [(1, 0)] Hv eq_refl ltac:(cbn; lia) eq_refl) as (Hn & _); auto.
  - cbn [can_encode]. rewrite Hce. auto.
  - cbn [write]. replace (WR s [(1, 0)] true) with (wr_add (WR s [] true) [(CBits 1, 0)]) by reflexivity.
    destruct (let '(st1, k) := write eb q _ in _) as [wt kw]. tauto.
Qed.

Theorem foreign_extension_skipped p q x D s r total ws v sizes payload :
  p = Seq q (Ext x) \/ (p = AllDef (Seq q (Ext x)) /\ bundle_all_default (Seq q (Ext x)) s = false) ->
  well_formed (fun x => In x D) D p -> valid p s -> agree D s r -> s x = 0 ->
  bundle_write p s = Some (total, ws) ->
  is_u64 v -> v <> 0 -> Forall is_u64 sizes -> length sizes = length (set_bits v) -> zsum sizes = zlen payload ->
  exists known r',
    fields_bits ws = known ++ fields_bits (u64_write 0) /\
    parses_to (bundle_read p r) (known ++ foreign_extension v sizes payload) (Loaded r') /\
    r' x = v /\ forall y, In y (determined D q s) -> y <> x -> r' y = s y.
Proof.
  intros Hp Hw Hv Ha H0 Hwr Hvu Hv0 Hs Hl Hz.
  assert (Hq : well_formed (fun x => In x D) D q /\ valid q s).
  { destruct Hp as [->|(-> & _)]; cbn [well_formed valid] in *; tauto. }
  destruct Hq as (Hwq & Hvq).
  assert (Hn : no_extensions q s = true).
  { destruct Hp as [->|(-> & Ead)]; [eapply written_no_ext|eapply written_no_ext_ad]; eauto. }
  assert (Hn' : no_extensions p s = true).
  { destruct Hp as [->|(-> & Ead)]; cbn [no_extensions]; rewrite Hn, H0; cbn; [reflexivity|apply orb_true_r]. }
  destruct (bundle_write_plain p s total ws Hv Hn' Hwr) as (Hok & _ & ->).
  assert (Hok' : woks (fields q s) = true).
  { destruct Hp as [->|(-> & Ead)]; cbn [fields] in Hok.
    - rewrite woks_app in Hok. now apply andb_prop in Hok.
    - rewrite Ead in Hok. cbn [woks forallb] in Hok. apply andb_prop in Hok as (_ & Hok).
      fold (woks (fields q s ++ [(CU64, s x)])) in Hok.
      rewrite woks_app in Hok. now apply andb_prop in Hok. }
  destruct (foreign_round_trip q x _ D s r v sizes payload Hwq (fun _ h => h) Ha Hvq Hn Hok' Hvu Hv0 Hs Hl Hz)
    as (r' & Ha' & Hr1 & Hr2).
  assert (Hend : upd r' x v x = v /\ forall y, In y (determined D q s) -> y <> x -> upd r' x v y = s y).
  { unfold upd. rewrite Z.eqb_refl. split; [reflexivity|]. intros y Hy Hyx.
    destruct (Z.eqb_spec y x); [contradiction|]. symmetry. now apply Ha'. }
  assert (Hu : outs [(CU64, s x)] = u64_write 0).
  { rewrite H0. reflexivity. }
  destruct Hp as [->|(-> & Ead)]; cbn [fields].
  - exists (fields_bits (outs (fields q s))), (upd r' x v). rewrite (outs_app (fields q s)), (fields_bits_app (outs (fields q s))), Hu.
    split; [reflexivity|]. split; [exact Hr1|exact Hend].
  - exists ([false] ++ fields_bits (outs (fields q s))), (upd r' x v). rewrite Ead.
    change ((CBits 1, 0) :: (fields q s ++ [(CU64, s x)])) with ([(CBits 1, 0)] ++ (fields q s ++ [(CU64, s x)])).
    rewrite !outs_app, !fields_bits_app, Hu. replace (fields_bits (outs [(CBits 1, 0)])) with [false] by reflexivity.
    split; [now rewrite <- app_assoc|]. split; [|exact Hend]. now rewrite <- app_assoc.
Qed.

(* Programs that stay within s do not see what follows s. *)
Lemma run_bits_ge {A} (p : rprog A) : forall s pos av a pos' av',
  run_bits s pos av p = Some (a, (pos', av')) -> pos <= pos'.
Proof.
  induction p as [a|n k IH|n k IH|k IH|k IH|k IH|k IH|n k IH|n k IH]; intros s pos av x pos' av'; cbn [run_bits].
  - intros [= _ <- _]. lia.
  - destruct (Z.leb_spec 0 n); [|discriminate]. destruct (n <=? 56); [|discriminate]. cbn [andb]. intros H1%IH. lia.
  - destruct (Z.leb_spec 0 n); [|discriminate]. intros H1%IH. lia.
  - intros H1%IH. pose proof (Z.mod_pos_bound (- pos) 8 ltac:(lia)). lia.
  - apply IH.
  - destruct (pos <=? zlen s); [apply IH|discriminate].
  - apply IH.
  - destruct ((0 <=? n) && (n <=? av)); [apply IH|discriminate].
  - destruct (Z.leb_spec 0 n); [|discriminate]. destruct (n <=? av); [|discriminate]. cbn [andb]. intros H1%IH. lia.
Qed.

Fixpoint peekless {A} (p : rprog A) : Prop :=
  match p with
  | Ret _ => True
  | Read _ k => forall v, peekless (k v)
  | Skip _ k | Refill k | Consume _ k => peekless k
  | Jump k | Check k => forall b, peekless (k b)
  | Pos k => forall v, peekless (k v)
  | Peek _ _ => False
  end.

Lemma run_bits_prefix {A} (p : rprog A) : forall s t pos av a pos' av', peekless p -> 0 <= pos ->
  run_bits (s ++ t) pos av p = Some (a, (pos', av')) -> pos' <= zlen s ->
  run_bits s pos av p = Some (a, (pos', av')).
Proof.
  induction p as [a|n k IH|n k IH|k IH|k IH|k IH|k IH|n k IH|n k IH]; intros s t pos av x pos' av' Hp H0 Hr Hz;
    cbn [run_bits peekless] in *; auto.
  - destruct (Z.leb_spec 0 n); [|discriminate]. destruct (n <=? 56); [|discriminate]. cbn [andb] in *.
    pose proof (run_bits_ge _ _ _ _ _ _ _ Hr). rewrite bits_at_app in Hr by lia.
    eapply IH; eauto. lia.
  - destruct (Z.leb_spec 0 n); [|discriminate]. eapply IH; eauto. lia.
  - pose proof (run_bits_ge _ _ _ _ _ _ _ Hr). pose proof (Z.mod_pos_bound (- pos) 8 ltac:(lia)).
    rewrite bits_at_app in Hr by lia. eapply IH; eauto. lia.
  - pose proof (run_bits_ge _ _ _ _ _ _ _ Hr). rewrite zlen_app in Hr. pose proof (zlen_nonneg t).
    replace (pos <=? zlen s + zlen t) with true in Hr by lia. replace (pos <=? zlen s) with true by lia.
    eapply IH; eauto.
  - destruct (pos <=? zlen (s ++ t)); [|discriminate]. pose proof (run_bits_ge _ _ _ _ _ _ _ Hr).
    replace (pos <=? zlen s) with true by lia. eapply IH; eauto.
  - eapply IH; eauto.
  - contradiction.
  - destruct (Z.leb_spec 0 n); [|discriminate]. destruct (n <=? av); [|discriminate]. cbn [andb] in *.
    eapply IH; eauto. lia.
Qed.

Lemma peekless_bind {A B} (p : rprog A) (k : A -> rprog B) : peekless p -> (forall a, peekless (k a)) -> peekless (bind p k).
Proof.
  intros Hp Hk. induction p as [a|n f IH|n f IH|f IH|f IH|f IH|f IH|n f IH|n f IH]; cbn [peekless bind] in *; auto.
Qed.

Lemma peekless_groups fuel : forall r sh, peekless (u64_read_groups fuel r sh).
Proof.
  induction fuel as [|f IH]; intros r sh; cbn [u64_read_groups]; [exact I|]. apply peekless_bind; [exact (fun _ => I)|].
  intros b. destruct (b =? 0); [exact I|]. destruct (sh =? 60); (apply peekless_bind; [exact (fun _ => I)|]); intros; [exact I|apply IH].
Qed.

Lemma peekless_u64 : peekless u64_read.
Proof.
  unfold u64_read. apply peekless_bind; [exact (fun _ => I)|]. intros sel.
  destruct (sel =? 0); [exact I|]. destruct (sel =? 1); [exact (fun _ => I)|].
  destruct (sel =? 2); [exact (fun _ => I)|]. apply peekless_bind; [exact (fun _ => I)|]. intros. apply peekless_groups.
Qed.

Lemma peekless_u32 e : peekless (u32_read e).
Proof.
  unfold u32_read. apply peekless_bind; [exact (fun _ => I)|]. intros sel. destruct (is_direct _); [exact I|].
  apply peekless_bind; exact (fun _ => I).
Qed.

Lemma peekless_checked {A} (q : rprog A) k : peekless q -> (forall a, peekless (k a)) -> peekless (checked q k).
Proof. intros Hq Hk. apply peekless_bind; [exact Hq|]. intros v. cbn. intros [|]; [apply Hk|exact I]. Qed.

Lemma peekless_end s st : peekless (end_extensions s st).
Proof.
  unfold end_extensions. destruct (r_pos st =? 0); [exact I|]. cbn [peekless]. intros v.
  destruct (2 ^ 64 <=? _); [exact I|]. destruct (_ <? _); [exact I|]. destruct (_ =? 0); [exact I|].
  cbn [peekless]. intros [|]; exact I.
Qed.

Lemma peekless_ext_sizes bits : forall total k, (forall v, peekless (k v)) -> peekless (ext_sizes bits total k).
Proof.
  induction bits as [|b bits IH]; intros total k Hk; cbn [ext_sizes]; [apply Hk|].
  apply peekless_checked; [apply peekless_u64|]. intros n. destruct (_ <? _); [now apply IH|exact I].
Qed.

Lemma peekless_read p : forall r st, peekless (read p r st).
Proof.
  induction p as [|c d x cx tow fromw|p IHp q IHq|c p IHp q IHq|c p IHp q IHq|p IHp|x|c|c|x e|n body IH];
    intros r st; cbn [read]; try exact I.
  - destruct c as [n|e| |]; cbn [read_field]; apply peekless_checked; try (intros; exact I).
    + exact (fun _ => I).
    + apply peekless_u32.
    + apply peekless_u64.
    + exact (fun _ => I).
    + intros [v|]; exact I.
  - apply peekless_bind; [apply IHp|]. intros [s1 st1| |]; [apply IHq|exact I|exact I].
  - destruct (holds c r); auto.
  - destruct (holds c r); auto.
  - apply peekless_bind; [exact (fun _ => I)|]. intros v. cbn [peekless]. intros b. destruct (b && (v =? 1)); [exact I|apply IHp].
  - unfold read_ext. apply peekless_checked; [apply peekless_u64|]. intros v. destruct (v =? 0); [apply peekless_end|].
    apply peekless_ext_sizes. intros total. cbn [peekless]. intros pos. destruct (pos =? 0); [exact I|apply peekless_end].
  - generalize (Z.to_nat (ev n r)) as m. intros m. generalize 0 as i. revert r st.
    induction m as [|m IHm]; intros r st i; cbn [rloop]; [exact I|].
    apply peekless_bind; [apply IH|]. intros [s1 st1| |]; [apply IHm|exact I|exact I].
Qed.

Lemma bundle_short p r s t o pos av :
  run_bits (s ++ t) 0 0 (bundle_read p r) = Some (o, (pos, av)) -> pos <= zlen s ->
  run_bits s 0 0 (bundle_read p r) = Some (o, (pos, av)).
Proof.
  intros Hr Hz. eapply run_bits_prefix; eauto; [|lia].
  unfold bundle_read. apply peekless_bind; [apply peekless_read|]. intros; exact I.
Qed.

Lemma decode_run p r bs o pos av : bytes_ok bs -> run_bits (bytes_bits bs) 0 0 (bundle_read p r) = Some (o, (pos, av)) ->
  exists k, decode_bundle p r bs = Some (o, k) /\ (pos <= 8 * zlen bs -> k = pos).
Proof.
  intros Hb Hr. destruct (reader_runs_bits _ bs o pos av Hb Hr) as (r0 & r' & H1 & H2 & H3 & _).
  exists (total_bits_consumed r'). unfold decode_bundle. rewrite H1, H2. auto.
Qed.

Theorem bundle_prefix p r a b : guarded p -> bytes_ok (a ++ b) ->
  exists o k, decode_bundle p r (a ++ b) = Some (o, k) /\
    (o <> NeedMore -> k <= 8 * zlen (a ++ b)) /\
    ((o <> NeedMore /\ k <= 8 * zlen a /\ decode_bundle p r a = Some (o, k)) \/
     ((o = NeedMore \/ 8 * zlen a < k) /\ exists k', decode_bundle p r a = Some (NeedMore, k'))).
Proof.
  intros Hg Hb. assert (Hba : bytes_ok a) by (unfold bytes_ok in *; now apply Forall_app in Hb).
  destruct (bundle_read_total p r (bytes_bits (a ++ b)) Hg) as (o & pos & av & Hr & Ho).
  destruct (decode_run p r (a ++ b) o pos av Hb Hr) as (k & Hd & Hk).
  exists o, k. split; [exact Hd|]. rewrite zlen_bytes_bits in Ho.
  assert (Hkp : o <> NeedMore -> k = pos /\ pos <= 8 * zlen (a ++ b)).
  { intros Hn. destruct (Ho Hn) as (Hle & _). auto. }
  split; [intros Hn; destruct (Hkp Hn); lia|].
  destruct (bundle_read_total p r (bytes_bits a) Hg) as (o' & pos' & av' & Hr' & Ho').
  rewrite zlen_bytes_bits in Ho'.
  destruct (decode_run p r a o' pos' av' Hba Hr') as (k' & Hd' & Hk').
  assert (Hdec : o' = NeedMore \/ o' <> NeedMore) by (destruct o'; auto; right; discriminate).
  destruct Hdec as [->|Hn'].
  - right. split; [|eauto].
    assert (Hdec : o = NeedMore \/ o <> NeedMore) by (destruct o; auto; right; discriminate).
    destruct Hdec as [->|Hn]; [auto|]. right. destruct (Hkp Hn) as (-> & Hle).
    destruct (Z.le_gt_cases pos (8 * zlen a)) as [Hl|Hl]; [|lia]. exfalso.
    rewrite bytes_bits_app in Hr. rewrite (bundle_short p r (bytes_bits a) (bytes_bits b) o pos av Hr) in Hr'.
    + injection Hr' as -> _ _. now apply Hn.
    + rewrite zlen_bytes_bits. exact Hl.
  - left. destruct (Ho' Hn') as (Hle & Hm). specialize (Hm (bytes_bits b)). rewrite <- bytes_bits_app, Hr in Hm.
    injection Hm as -> -> ->. destruct (Hkp Hn') as (-> & _). specialize (Hk' Hle). subst k'. auto.
Qed.
