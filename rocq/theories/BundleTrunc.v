(* Proofs about reading bundles from truncated streams. *)
From Verif Require Import Base ListAux BitIOProofs BitReaderModel BitProg BitProgProofs FieldsModel FieldsSpec FieldsProofs BundleModel BundleSpec.

Fixpoint reads_only {A} (q : rprog A) : Prop :=
  match q with
  | Ret _ => True
  | Read n k => 0 <= n <= 56 /\ forall v, 0 <= v < 2 ^ n -> reads_only (k v)
  | _ => False
  end.

Lemma reads_only_bind {A B} (q : rprog A) (k : A -> rprog B) :
  reads_only q -> (forall a, reads_only (k a)) -> reads_only (bind q k).
Proof.
  induction q as [a|n f IH|n f IH|f IH|f IH|f IH|f IH|n f IH|n f IH]; cbn [reads_only bind]; intros Hq Hk; try tauto.
  - apply Hk.
  - destruct Hq as (Hn & Hf). split; [exact Hn|]. intros v Hv. apply IH; auto.
Qed.

Lemma reads_only_rd n : 0 <= n <= 56 -> reads_only (rd n).
Proof. intros Hn. cbn. auto. Qed.

Lemma reads_only_total {A} (q : rprog A) : reads_only q -> forall s pos av,
  exists a pos' av', run_bits s pos av q = Some (a, (pos', av')) /\ pos <= pos' /\
    (0 <= pos -> pos' <= zlen s -> forall t, run_bits (s ++ t) pos av q = Some (a, (pos', av'))).
Proof.
  induction q as [a|n f IH|n f IH|f IH|f IH|f IH|f IH|n f IH|n f IH]; cbn [reads_only run_bits]; intros Hq s pos av; try tauto.
  - exists a, pos, av. repeat split; lia.
  - destruct Hq as (Hn & Hf). replace ((0 <=? n) && (n <=? 56)) with true by lia.
    destruct (IH (bits_at s pos n) (Hf _ (bits_at_range s pos n ltac:(lia))) s (pos + n) (56 - n)) as (a & pos' & av' & Hr & Hle & Ht).
    exists a, pos', av'. split; [exact Hr|]. split; [lia|]. intros Hp Hz t.
    rewrite bits_at_app by lia. apply Ht; lia.
Qed.

Lemma reads_only_u32 e : reads_only (u32_read e).
Proof.
  unfold u32_read. apply reads_only_bind; [apply reads_only_rd; lia|]. intros sel.
  destruct (is_direct _); [exact I|]. apply reads_only_bind; [|intros; exact I].
  apply reads_only_rd. unfold extra_bits. change 0x1F with (Z.ones 5). rewrite Z.land_ones by lia.
  pose proof (Z.mod_pos_bound (get_distr e sel) (2 ^ 5) ltac:(lia)). lia.
Qed.

Lemma reads_only_groups fuel : forall r sh, reads_only (u64_read_groups fuel r sh).
Proof.
  induction fuel as [|f IH]; intros r sh; cbn [u64_read_groups]; [exact I|].
  apply reads_only_bind; [apply reads_only_rd; lia|]. intros b. destruct (b =? 0); [exact I|].
  destruct (sh =? 60).
  - apply reads_only_bind; [apply reads_only_rd; lia|intros; exact I].
  - apply reads_only_bind; [apply reads_only_rd; lia|intros; apply IH].
Qed.

Lemma reads_only_u64 : reads_only u64_read.
Proof.
  unfold u64_read. apply reads_only_bind; [apply reads_only_rd; lia|]. intros sel.
  destruct (sel =? 0); [exact I|]. destruct (sel =? 1).
  { apply reads_only_bind; [apply reads_only_rd; lia|intros; exact I]. }
  destruct (sel =? 2).
  { apply reads_only_bind; [apply reads_only_rd; lia|intros; exact I]. }
  apply reads_only_bind; [apply reads_only_rd; lia|]. intros. apply reads_only_groups.
Qed.

Lemma reads_only_f16 : reads_only f16_read.
Proof. unfold f16_read. apply reads_only_bind; [apply reads_only_rd; lia|intros; exact I]. Qed.

(* a visit behaves well from position pos on *)
Definition lives (q : rprog rres) : Prop := forall s pos av, 0 <= pos <= zlen s ->
  exists res pos' av', run_bits s pos av q = Some (res, (pos', av')) /\ pos <= pos' /\
    (res <> RShort -> pos' <= zlen s /\ forall t, run_bits (s ++ t) pos av q = Some (res, (pos', av'))).
Definition dies (q : rprog rres) (must may : Prop) : Prop := forall s pos av, 0 <= pos -> zlen s < pos ->
  exists res pos' av', run_bits s pos av q = Some (res, (pos', av')) /\ pos <= pos' /\
    (must -> res = RShort) /\ (may -> res <> RFail).

Lemma lives_ret r : lives (Ret r).
Proof. intros s pos av Hp. exists r, pos, av. cbn [run_bits]. repeat split; [lia|lia]. Qed.

Lemma lives_checked {A} (q : rprog A) k : reads_only q -> (forall a, lives (k a)) -> lives (checked q k).
Proof.
  intros Hq Hk s pos av Hp. unfold checked. rewrite run_bits_bind.
  destruct (reads_only_total q Hq s pos av) as (a & pos1 & av1 & -> & Hle & Ht). cbn [run_bits].
  destruct (Z.leb_spec pos1 (zlen s)) as [Hin|Hout].
  - destruct (Hk a s pos1 av1 ltac:(lia)) as (res & pos' & av' & Hr & Hle' & Hres).
    exists res, pos', av'. split; [exact Hr|]. split; [lia|]. intros Hn. destruct (Hres Hn) as (Hz & Hmore).
    split; [exact Hz|]. intros t. rewrite run_bits_bind, Ht by lia. cbn [run_bits].
    replace (pos1 <=? zlen (s ++ t)) with true by (rewrite zlen_app; pose proof (zlen_nonneg t); lia). apply Hmore.
  - exists RShort, pos1, av1. cbn [run_bits]. split; [reflexivity|]. split; [lia|]. intros []. reflexivity.
Qed.

Lemma dies_checked {A} (q : rprog A) k must may : reads_only q -> dies (checked q k) must may.
Proof.
  intros Hq s pos av Hp Hz. unfold checked. rewrite run_bits_bind.
  destruct (reads_only_total q Hq s pos av) as (a & pos1 & av1 & -> & Hle & _). cbn [run_bits].
  destruct (Z.leb_spec pos1 (zlen s)); [lia|]. cbn [run_bits].
  exists RShort, pos1, av1. repeat split; [lia|discriminate].
Qed.

Lemma lives_end s0 st : lives (end_extensions s0 st).
Proof.
  unfold end_extensions. destruct (r_pos st =? 0); [apply lives_ret|].
  intros s pos av Hp. cbn [run_bits].
  assert (Hcomm : forall s : list bool, pos <= zlen s -> (pos <=? zlen s) = true) by (intros; lia).
  rewrite Hcomm by lia.
  assert (Hext : forall t, (pos <=? zlen (s ++ t)) = true) by (intros t; rewrite zlen_app; pose proof (zlen_nonneg t); lia).
  destruct (2 ^ 64 <=? r_pos st + r_total st) eqn:E1.
  { cbn [run_bits]. exists RFail, pos, av. repeat split; [lia|lia|]. intros t. now rewrite Hext. }
  destruct (Z.ltb_spec (r_pos st + r_total st) pos) as [E2|E2].
  { cbn [run_bits]. exists RFail, pos, av. repeat split; [lia|lia|]. intros t. now rewrite Hext. }
  destruct (Z.eqb_spec (r_pos st + r_total st - pos) 0) as [E3|E3].
  { cbn [run_bits]. exists (RGo s0 st), pos, av. repeat split; [lia|lia|]. intros t. now rewrite Hext. }
  cbn [run_bits]. replace (0 <=? r_pos st + r_total st - pos) with true by lia.
  set (q := pos + (r_pos st + r_total st - pos)).
  destruct (Z.leb_spec q (zlen s)) as [E4|E4]; cbn [run_bits].
  - exists (RGo s0 st), q, 0. repeat split; [lia|lia|]. intros t. rewrite Hext.
    replace (q <=? zlen (s ++ t)) with true by (rewrite zlen_app; pose proof (zlen_nonneg t); lia). reflexivity.
  - exists RShort, q, 0. repeat split; [lia|congruence|congruence].
Qed.

Lemma lives_pos (k : Z -> rprog rres) : (forall v, lives (k v)) -> lives (Pos k).
Proof.
  intros Hk s pos av Hp. cbn [run_bits]. replace (pos <=? zlen s) with true by lia.
  destruct (Hk pos s pos av Hp) as (res & pos' & av' & Hr & Hle & Hres).
  exists res, pos', av'. split; [exact Hr|]. split; [lia|]. intros Hn. destruct (Hres Hn) as (Hz & Hmore).
  split; [exact Hz|]. intros t. replace (pos <=? zlen (s ++ t)) with true by (rewrite zlen_app; pose proof (zlen_nonneg t); lia).
  apply Hmore.
Qed.

Lemma lives_ext_sizes bits : forall total k, (forall v, lives (k v)) -> lives (ext_sizes bits total k).
Proof.
  induction bits as [|b bits IH]; intros total k Hk; cbn [ext_sizes]; [apply Hk|].
  apply lives_checked; [apply reads_only_u64|]. intros n. destruct (_ <? _); [now apply IH|apply lives_ret].
Qed.

Lemma lives_read_ext x s st : lives (read_ext x s st).
Proof.
  unfold read_ext. apply lives_checked; [apply reads_only_u64|]. intros v.
  destruct (v =? 0); [apply lives_end|]. apply lives_ext_sizes. intros total. apply lives_pos. intros pos.
  destruct (pos =? 0); [apply lives_ret|apply lives_end].
Qed.

Lemma lives_bind (q : rprog rres) (k : env -> rst -> rprog rres) :
  lives q -> (forall s st, lives (k s st)) ->
  lives (let! r := q in match r with RGo s st => k s st | _ => Ret r end).
Proof.
  intros Hq Hk s pos av Hp. rewrite run_bits_bind.
  destruct (Hq s pos av Hp) as (res & pos1 & av1 & -> & Hle & Hres).
  destruct res as [s1 st1| |].
  - destruct (Hres ltac:(discriminate)) as (Hz & Hmore).
    destruct (Hk s1 st1 s pos1 av1 ltac:(lia)) as (res & pos' & av' & Hr & Hle' & Hres').
    exists res, pos', av'. split; [exact Hr|]. split; [lia|]. intros Hn. destruct (Hres' Hn) as (Hz' & Hmore').
    split; [exact Hz'|]. intros t. rewrite run_bits_bind, Hmore. apply Hmore'.
  - destruct (Hres ltac:(discriminate)) as (Hz & Hmore). cbn [run_bits].
    exists RFail, pos1, av1. split; [reflexivity|]. split; [lia|]. intros _. split; [lia|].
    intros t. rewrite run_bits_bind, Hmore. reflexivity.
  - cbn [run_bits]. exists RShort, pos1, av1. split; [reflexivity|]. split; [lia|]. intros []. reflexivity.
Qed.

Lemma dies_bind (q : rprog rres) (k : env -> rst -> rprog rres) must1 may1 must2 may2 :
  dies q must1 may1 -> (forall s st, dies (k s st) must2 may2) ->
  dies (let! r := q in match r with RGo s st => k s st | _ => Ret r end)
    (must1 \/ (may1 /\ must2)) (may1 /\ may2).
Proof.
  intros Hq Hk s pos av Hp Hz. rewrite run_bits_bind.
  destruct (Hq s pos av Hp Hz) as (res & pos1 & av1 & -> & Hle & H1 & H2).
  destruct res as [s1 st1| |].
  - destruct (Hk s1 st1 s pos1 av1 ltac:(lia) ltac:(lia)) as (res & pos' & av' & Hr & Hle' & H3 & H4).
    exists res, pos', av'. split; [exact Hr|]. split; [lia|]. split; [|tauto].
    intros [Hm|(_ & Hm)]; [specialize (H1 Hm); discriminate|auto].
  - cbn [run_bits]. exists RFail, pos1, av1. split; [reflexivity|]. split; [lia|]. split.
    + intros [Hm|(Hm & _)]; [auto|]. now destruct (H2 Hm).
    + intros (Hm & _). auto.
  - cbn [run_bits]. exists RShort, pos1, av1. repeat split; [lia|discriminate].
Qed.

Lemma dies_weaken q (must may must' may' : Prop) : dies q must may -> (must' -> must) -> (may' -> may) -> dies q must' may'.
Proof.
  intros H Hm Hy s pos av Hp Hz. destruct (H s pos av Hp Hz) as (res & pos' & av' & Hr & Hle & H1 & H2).
  exists res, pos', av'. repeat split; auto.
Qed.

Lemma dies_ret r : dies (Ret r) (r = RShort) (r <> RFail).
Proof. intros s pos av Hp Hz. exists r, pos, av. cbn [run_bits]. repeat split; auto; lia. Qed.

Lemma read_dies p : forall r st, guarded p -> dies (read p r st) (needs_input p) (quiet p).
Proof.
  induction p as [|c d x cx tow fromw|p IHp q IHq|c p IHp q IHq|c p IHp q IHq|p IHp|x|c|c|x e|n body IH];
    intros r st Hg; cbn [guarded read needs_input quiet] in *.
  - eapply dies_weaken; [apply dies_ret|tauto|discriminate].
  - destruct c as [n|e| |]; cbn [read_field]; apply dies_checked.
    + apply reads_only_rd; lia.
    + apply reads_only_u32.
    + apply reads_only_u64.
    + apply reads_only_f16.
  - apply dies_bind; [apply IHp; tauto|intros; apply IHq; tauto].
  - destruct (holds c r); (eapply dies_weaken; [(apply IHp || apply IHq); tauto|tauto|tauto]).
  - destruct (holds c r); (eapply dies_weaken; [(apply IHp || apply IHq); tauto|tauto|tauto]).
  - intros s pos av Hp Hz. rewrite run_bits_bind.
    destruct (reads_only_total (bits_read 1) (reads_only_rd 1 ltac:(lia)) s pos av) as (a & pos1 & av1 & -> & Hle & _).
    cbn [run_bits]. replace (pos1 <=? zlen s) with false by lia. cbn [andb].
    destruct (IHp r st (proj1 Hg) s pos1 av1 ltac:(lia) ltac:(lia)) as (res & pos' & av' & Hr & Hle' & H1 & H2).
    exists res, pos', av'. repeat split; auto. lia.
  - unfold read_ext. apply dies_checked. apply reads_only_u64.
  - eapply dies_weaken; [apply dies_ret|tauto|tauto].
  - eapply dies_weaken; [apply dies_ret|tauto|tauto].
  - eapply dies_weaken; [apply dies_ret|tauto|discriminate].
  - generalize (Z.to_nat (ev n r)) as m. intros m. generalize 0 as i. revert r st.
    induction m as [|m IHm]; intros r st i; cbn [rloop].
    + eapply dies_weaken; [apply dies_ret|tauto|discriminate].
    + eapply dies_weaken; [apply (dies_bind _ _ _ _ _ _ (IH i r st (Hg i)) (fun s st => IHm s st (i + 1)))|tauto|].
      intros Hq. split; auto.
Qed.

Lemma read_lives p : forall r st, guarded p -> lives (read p r st).
Proof.
  induction p as [|c d x cx tow fromw|p IHp q IHq|c p IHp q IHq|c p IHp q IHq|p IHp|x|c|c|x e|n body IH];
    intros r st Hg; cbn [guarded read] in *.
  - apply lives_ret.
  - destruct c as [n|e| |]; cbn [read_field]; apply lives_checked; try (intros; apply lives_ret).
    + apply reads_only_rd; lia.
    + apply reads_only_u32.
    + apply reads_only_u64.
    + apply reads_only_f16.
    + intros [v|]; apply lives_ret.
  - apply lives_bind; [apply IHp; tauto|intros; apply IHq; tauto].
  - destruct (holds c r); [apply IHp|apply IHq]; tauto.
  - destruct (holds c r); [apply IHp|apply IHq]; tauto.
  - destruct Hg as (Hg & Hn). intros s pos av Hp. rewrite run_bits_bind.
    destruct (reads_only_total (bits_read 1) (reads_only_rd 1 ltac:(lia)) s pos av) as (a & pos1 & av1 & -> & Hle & Ht).
    cbn [run_bits]. destruct (Z.leb_spec pos1 (zlen s)) as [Hin|Hout]; cbn [andb].
    + assert (Hl : lives (if a =? 1 then Ret (RGo (fst (set_default p r)) st) else read p r st)).
      { destruct (a =? 1); [apply lives_ret|apply IHp; exact Hg]. }
      destruct (Hl s pos1 av1 ltac:(lia)) as (res & pos' & av' & Hr & Hle' & Hres).
      exists res, pos', av'. split; [exact Hr|]. split; [lia|]. intros Hne. destruct (Hres Hne) as (Hz & Hmore).
      split; [exact Hz|]. intros t. rewrite run_bits_bind, Ht by lia. cbn [run_bits].
      replace (pos1 <=? zlen (s ++ t)) with true by (rewrite zlen_app; pose proof (zlen_nonneg t); lia).
      cbn [andb]. apply Hmore.
    + destruct (read_dies p r st Hg s pos1 av1 ltac:(lia) ltac:(lia)) as (res & pos' & av' & Hr & Hle' & H1 & _).
      exists res, pos', av'. split; [exact Hr|]. split; [lia|]. intros Hne. exfalso. apply Hne. auto.
  - apply lives_read_ext.
  - destruct (holds c r); apply lives_ret.
  - destruct (holds c r); apply lives_ret.
  - apply lives_ret.
  - generalize (Z.to_nat (ev n r)) as m. intros m. generalize 0 as i. revert r st.
    induction m as [|m IHm]; intros r st i; cbn [rloop]; [apply lives_ret|].
    apply lives_bind; [apply IH, Hg|intros; apply IHm].
Qed.

(* ---- whole bundles ---- *)

Lemma bundle_read_total p r s : guarded p ->
  exists o pos av, run_bits s 0 0 (bundle_read p r) = Some (o, (pos, av)) /\
    (o <> NeedMore -> pos <= zlen s /\ forall t, run_bits (s ++ t) 0 0 (bundle_read p r) = Some (o, (pos, av))).
Proof.
  intros Hg. unfold bundle_read.
  destruct (read_lives p r (RS 0 0 true) Hg s 0 0 ltac:(pose proof (zlen_nonneg s); lia)) as (res & pos & av & Hr & _ & Hres).
  rewrite run_bits_bind, Hr. cbn [run_bits]. do 3 eexists. split; [reflexivity|]. intros Hn.
  assert (Hne : res <> RShort) by (intros ->; now apply Hn).
  destruct (Hres Hne) as (Hz & Hmore). split; [exact Hz|]. intros t. rewrite run_bits_bind, Hmore. reflexivity.
Qed.

Lemma bundle_truncated p r s t o pos av : guarded p ->
  run_bits (s ++ t) 0 0 (bundle_read p r) = Some (o, (pos, av)) -> o <> NeedMore -> zlen s < pos ->
  exists pos' av', run_bits s 0 0 (bundle_read p r) = Some (NeedMore, (pos', av')).
Proof.
  intros Hg Hr Ho Hz. destruct (bundle_read_total p r s Hg) as (o' & pos' & av' & Hr' & Hmore).
  destruct o' as [s'| |].
  - destruct (Hmore ltac:(discriminate)) as (Hz' & Hm). rewrite Hm in Hr. injection Hr as _ <- _. lia.
  - destruct (Hmore ltac:(discriminate)) as (Hz' & Hm). rewrite Hm in Hr. injection Hr as _ <- _. lia.
  - exists pos', av'. exact Hr'.
Qed.

Lemma bytes_bits_app a b : bytes_bits (a ++ b) = bytes_bits a ++ bytes_bits b.
Proof. unfold bytes_bits. rewrite flat_map_app. reflexivity. Qed.
