(* The table of contents: what is written is read back; reading any bits is safe. *)
From Verif Require Import Base HuffRle HuffSafe BitReaderModel BitProg BitProgProofs BitIOProofs FieldsModel FieldsSpec FieldsProofs TocModel LehmerSpec
  ListAux AliasProofs AnsProofs LzProofs MtfSpec CodesSpec CodesSafe CodesRound TocSpec PermProofs.
Ltac Zify.zify_post_hook ::= idtac.

Lemma toc_dist : kTocDist = enc4 (DBits 10 0) (DBits 14 1024) (DBits 22 17408) (DBits 30 4211712).
Proof. reflexivity. Qed.

(* the number of bits for a size *)
Definition entry_bits (s : Z) : Z := if s <? 1024 then 12 else if s <? 17408 then 16 else if s <? 4211712 then 24 else 32.

Lemma entry_code s : 0 <= s <= max_section ->
  exists ws, u32_write kTocDist s = Some ws /\ Forall field_ok ws /\ parses (u32_read kTocDist) (fields_bits ws) s /\ zlen (fields_bits ws) = entry_bits s.
Proof.
  intros Hs. unfold max_section in Hs. rewrite toc_dist.
  assert (D : distr_ok (DBits 10 0) /\ distr_ok (DBits 14 1024) /\ distr_ok (DBits 22 17408) /\ distr_ok (DBits 30 4211712)) by (cbn; lia).
  destruct D as (D0 & D1 & D2 & D3).
  assert (C : exists w, u32_code (DBits 10 0) (DBits 14 1024) (DBits 22 17408) (DBits 30 4211712) w s).
  { assert (Dc : forall n off, off <= s < off + 2 ^ n -> distr_code (DBits n off) (to_bits (Z.to_nat n) (s - off)) s).
    { intros n off H. pose proof (dc_bits n off (s - off) ltac:(lia)) as G. now replace (off + (s - off)) with s in G by lia. }
    destruct (Z_lt_le_dec s 1024); [eexists; apply uc0; apply Dc; change (2 ^ 10) with 1024; lia|].
    destruct (Z_lt_le_dec s 17408); [eexists; apply uc1; apply Dc; change (2 ^ 14) with 16384; lia|].
    destruct (Z_lt_le_dec s 4211712); [eexists; apply uc2; apply Dc; change (2 ^ 22) with 4194304; lia|].
    eexists; apply uc3; apply Dc; lia. }
  destruct (u32_some _ _ _ _ s D0 D1 D2 D3 ltac:(unfold is_u32; lia) C) as (ws & n & E & _ & F & P). exists ws. split; [exact E|]. split; [exact F|]. split; [exact P|].
  pose proof (u32_write_spec _ _ _ _ s D0 D1 D2 D3) as W. rewrite E in W. destruct W as (_ & W & _ & _). clear -W.
  assert (B : forall n off w v, 0 <= n -> distr_code (DBits n off) w v -> zlen w = n /\ off <= v < off + 2 ^ n).
  { intros n off w v Hn H. inversion H; subst. unfold zlen. rewrite length_to_bits. lia. }
  unfold entry_bits. inversion W as [w v H|w v H|w v H|w v H]; subst; apply B in H; try lia; destruct H as (L & R); rewrite !zlen_cons, L.
  - change (2 ^ 10) with 1024 in R. replace (s <? 1024) with true by lia. reflexivity.
  - change (2 ^ 14) with 16384 in R. replace (s <? 1024) with false by lia. replace (s <? 17408) with true by lia. reflexivity.
  - change (2 ^ 22) with 4194304 in R. replace (s <? 1024) with false by lia. replace (s <? 17408) with false by lia. replace (s <? 4211712) with true by lia. reflexivity.
  - replace (s <? 1024) with false by lia. replace (s <? 17408) with false by lia. replace (s <? 4211712) with false by lia. reflexivity.
Qed.

Definition sizes_ok (sizes : list Z) : Prop := Forall (fun s => 0 <= s <= max_section) sizes.

Lemma sizes_code sizes : sizes_ok sizes ->
  exists fs, write_sizes sizes = Some fs /\ Forall field_ok fs /\ parses (toc_sizes (length sizes)) (fields_bits fs) sizes /\
    zlen (fields_bits fs) = total_of (map entry_bits sizes).
Proof.
  induction 1 as [|s sizes Hs _ (fs & E & F & P & L)].
  - exists []. split; [reflexivity|]. split; [constructor|]. split; [apply parses_ret|reflexivity].
  - destruct (entry_code s Hs) as (ws & E1 & F1 & P1 & L1). cbn [write_sizes]. rewrite w32_id by (unfold max_section in Hs; lia). rewrite E1, E.
    eexists. split; [reflexivity|]. split; [apply Forall_app; split; assumption|]. rewrite fields_bits_app. split.
    + cbn [length toc_sizes]. eapply parses_bind; [exact P1|]. cbv beta. eapply parses_bind_nil; [exact P|]. apply parses_ret.
    + cbn [map total_of fold_right]. fold (total_of (map entry_bits sizes)). rewrite zlen_app. lia.
Qed.
Lemma entry_min s : 12 <= entry_bits s.
Proof. unfold entry_bits. destruct (s <? 1024), (s <? 17408), (s <? 4211712); lia. Qed.
Lemma entries_min sizes : 12 * zlen sizes <= total_of (map entry_bits sizes).
Proof.
  induction sizes as [|s sizes IH]; [reflexivity|]. cbn [map total_of fold_right]. fold (total_of (map entry_bits sizes)). rewrite zlen_cons. pose proof (entry_min s). lia.
Qed.

(* ---- programs whose behaviour depends on the position ---- *)
Definition parses_at {A} (pre : list bool) (p : rprog A) (e post : list bool) (a : A) : Prop :=
  forall av, 0 <= av <= 56 -> exists av', run_bits (pre ++ e ++ post) (zlen pre) av p = Some (a, (zlen pre + zlen e, av')) /\ 0 <= av' <= 56.

Lemma at_of {A} pre (p : rprog A) e post a : parses p e a -> parses_at pre p e post a.
Proof. intros H av Hav. exact (H pre post av Hav). Qed.
Lemma at_bind {A B} pre (p : rprog A) (f : A -> rprog B) e1 e2 post a b :
  parses_at pre p e1 (e2 ++ post) a -> parses_at (pre ++ e1) (f a) e2 post b -> parses_at pre (bind p f) (e1 ++ e2) post b.
Proof.
  intros H1 H2 av Hav. rewrite run_bits_bind. destruct (H1 av Hav) as (av1 & E1 & A1). rewrite <- app_assoc, E1.
  destruct (H2 av1 A1) as (av2 & E2 & A2). rewrite <- !app_assoc, zlen_app in E2. rewrite E2. exists av2. split; [|exact A2]. rewrite zlen_app. do 3 f_equal. lia.
Qed.
Lemma at_check {A} pre (k : bool -> rprog A) e post a : parses_at pre (k true) e post a -> parses_at pre (Check k) e post a.
Proof.
  intros H av Hav. cbn [run_bits]. replace (zlen pre <=? zlen (pre ++ e ++ post)) with true; [now apply H|]. symmetry. apply Z.leb_le. rewrite zlen_app. pose proof (zlen_nonneg (e ++ post)). lia.
Qed.
Lemma at_pos {A} pre (k : Z -> rprog A) e post a : parses_at pre (k (zlen pre)) e post a -> parses_at pre (Pos k) e post a.
Proof.
  intros H av Hav. cbn [run_bits]. replace (zlen pre <=? zlen (pre ++ e ++ post)) with true; [now apply H|]. symmetry. apply Z.leb_le. rewrite zlen_app. pose proof (zlen_nonneg (e ++ post)). lia.
Qed.
Lemma pad_ok pos : Forall field_ok (zero_pad pos).
Proof.
  unfold zero_pad. pose proof (Z.mod_pos_bound (- pos) 8 ltac:(lia)). destruct (Z.eqb_spec ((- pos) mod 8) 0); constructor; [|constructor].
  split; cbn [fst snd]; [lia|]. split; [lia|]. apply Z.pow_pos_nonneg; lia.
Qed.
Lemma zlen_pad pos : zlen (fields_bits (zero_pad pos)) = (- pos) mod 8.
Proof.
  unfold zero_pad. pose proof (Z.mod_pos_bound (- pos) 8 ltac:(lia)). destruct (Z.eqb_spec ((- pos) mod 8) 0) as [->|]; [reflexivity|].
  cbn [fields_bits flat_map]. rewrite app_nil_r. unfold zlen. rewrite length_to_bits. cbn [fst]. lia.
Qed.
Lemma at_jump {A} pre (k : bool -> rprog A) e post a :
  parses_at (pre ++ fields_bits (zero_pad (zlen pre))) (k true) e post a -> parses_at pre (Jump k) (fields_bits (zero_pad (zlen pre)) ++ e) post a.
Proof.
  intros H av Hav. cbn [run_bits]. set (pad := fields_bits (zero_pad (zlen pre))) in *.
  assert (L : zlen pad = (- zlen pre) mod 8) by apply zlen_pad.
  assert (B : bits_at (pre ++ (pad ++ e) ++ post) (zlen pre) ((- zlen pre) mod 8) = 0).
  { subst pad. unfold zero_pad. pose proof (Z.mod_pos_bound (- zlen pre) 8 ltac:(lia)). destruct (Z.eqb_spec ((- zlen pre) mod 8) 0) as [->|].
    - pose proof (bits_at_range (pre ++ (fields_bits [] ++ e) ++ post) (zlen pre) 0 ltac:(lia)) as R. change (2 ^ 0) with 1 in R. lia.
    - cbn [fields_bits flat_map fst snd]. rewrite app_nil_r, <- app_assoc. apply bits_at_exact; [lia|]. split; [lia|]. apply Z.pow_pos_nonneg; lia. }
  rewrite B, Z.eqb_refl. destruct (H 0 ltac:(lia)) as (av' & E & A'). rewrite <- !app_assoc, zlen_app in E. rewrite <- L, <- app_assoc, E. exists av'. split; [|exact A'].
  rewrite zlen_app. do 3 f_equal. lia.
Qed.
Lemma at_budget pre total n k e post a : zlen (pre ++ e ++ post) = 8 * total -> 12 * n <= zlen e + zlen post ->
  parses_at pre k e post a -> parses_at pre (check_bit_budget total n k) e post a.
Proof.
  intros Ht Hn H. unfold check_bit_budget. cbv zeta. apply at_check. apply at_pos. rewrite !zlen_app in Ht. replace (n * (2 + 10) <=? total * 8 - zlen pre) with true by lia. exact H.
Qed.
Lemma at_ret {A} pre (a : A) post : parses_at pre (Ret a) [] post a.
Proof. apply at_of. apply parses_ret. Qed.

(* ---- reading what was written ---- *)
Lemma sizes_at pre total sizes perm post fs : sizes_ok sizes -> write_toc_sizes (zlen pre + (- zlen pre) mod 8) sizes = Some fs ->
  let e := fields_bits (zero_pad (zlen pre)) ++ fields_bits fs in
  zlen (pre ++ e ++ post) = 8 * total ->
  parses_at pre (read_toc_sizes total (length sizes) perm) e post (Some (TocOk sizes perm)).
Proof.
  intros Hs E e Ht. destruct (sizes_code sizes Hs) as (ws & Ew & Fw & Pw & Lw). unfold write_toc_sizes in E. rewrite Ew in E. apply Some_eq in E. subst fs. subst e.
  rewrite fields_bits_app in *. unfold read_toc_sizes. apply at_jump. cbn [negb].
  set (pre1 := pre ++ fields_bits (zero_pad (zlen pre))).
  assert (L1 : zlen pre1 = zlen pre + (- zlen pre) mod 8) by (unfold pre1; rewrite zlen_app, zlen_pad; reflexivity).
  assert (Lf : width_sum ws = zlen (fields_bits ws)) by (symmetry; apply zlen_fields_bits; exact Fw).
  apply at_budget; [unfold pre1; rewrite <- Ht, !zlen_app; lia| |].
  { rewrite zlen_app, Lw. pose proof (entries_min sizes). pose proof (zlen_nonneg post). pose proof (zlen_nonneg (fields_bits (zero_pad (zlen pre + (- zlen pre) mod 8 + width_sum ws)))).
    fold (zlen sizes). lia. }
  eapply at_bind; [apply at_of; exact Pw|]. cbv beta.
  replace (zlen pre + (- zlen pre) mod 8 + width_sum ws) with (zlen (pre1 ++ fields_bits ws)) by (rewrite zlen_app; lia).
  rewrite <- (app_nil_r (fields_bits (zero_pad (zlen (pre1 ++ fields_bits ws))))). apply at_jump. cbn [negb].
  apply at_budget; [|pose proof (zlen_nonneg (@nil bool)); pose proof (zlen_nonneg post); lia|apply at_ret].
  replace (zlen pre + (- zlen pre) mod 8 + width_sum ws) with (zlen (pre1 ++ fields_bits ws)) in Ht by (rewrite zlen_app; lia).
  rewrite <- Ht. f_equal. unfold pre1. rewrite <- !app_assoc. reflexivity.
Qed.

Theorem toc_roundtrip M mem mp p ts pre post total av perm sizes coded :
  lane_count (m_lanes M) -> 0 < zlen sizes <= 65536 -> sizes_ok sizes ->
  (perm = [] \/ is_permutation (zlen sizes) perm /\ exists raw, tokenize_permutation perm 0 = Some raw /\ coding_of kPermutationContexts mp p ts raw /\
     coded = encode_with_plan mem mp p ts) ->
  0 <= av <= 56 ->
  exists fs, write_toc (zlen pre) perm coded sizes = Some fs /\ Forall field_ok fs /\ (zlen pre + zlen (fields_bits fs)) mod 8 = 0 /\
    (zlen (pre ++ fields_bits fs ++ post) = 8 * total ->
     exists av', run_bits (pre ++ fields_bits fs ++ post) (zlen pre) av (read_toc M total (length sizes)) =
       Some (Some (TocOk sizes perm), (zlen pre + zlen (fields_bits fs), av')) /\ 0 <= av' <= 56).
Proof.
  intros HL Hn Hs Hperm Hav. destruct (sizes_code sizes Hs) as (ws & Ew & Fw & Pw & Lw).
  assert (Lf : width_sum ws = zlen (fields_bits ws)) by (symmetry; apply zlen_fields_bits; exact Fw).
  (* the permutation *)
  assert (HP : exists b cs, write_toc_permutation (zlen pre) perm coded = Some ((1, b) :: cs ++ zero_pad (zlen pre + 1 + width_sum cs)) /\ 0 <= b <= 1 /\ Forall field_ok cs /\
    (b = 0 -> perm = [] /\ cs = []) /\ (b = 1 -> parses (decode_permutation M 0 (zlen sizes)) (fields_bits cs) (Some (Some perm)))).
  { destruct Hperm as [->|(Hp & raw & Et & HC & ->)].
    - exists 0, []. split; [cbn; do 3 f_equal; lia|]. split; [lia|]. split; [constructor|]. split; [auto|lia].
    - destruct (permutation_roundtrip M mem mp p ts perm 0 (zlen sizes) HL ltac:(lia) Hp ltac:(lia)) as (raw' & E1 & E2). { intros i Hi. lia. }
      assert (raw' = raw) by congruence. subst raw'. destruct (E2 HC) as (cs & E3 & F3 & P3). exists 1, cs. rewrite E3. unfold write_toc_permutation.
      destruct perm as [|v perm]; [destruct Hp as (Z0 & _); change (zlen (@nil Z)) with 0 in Z0; lia|]. split; [reflexivity|]. split; [lia|]. split; [exact F3|]. split; [lia|auto]. }
  destruct HP as (b & cs & Ep & Hb & Fc & H0 & H1).
  assert (Lc : width_sum cs = zlen (fields_bits cs)) by (symmetry; apply zlen_fields_bits; exact Fc).
  set (q := zlen pre + 1 + width_sum cs) in *.
  unfold write_toc. rewrite Ep.
  assert (W1 : width_sum ((1, b) :: cs ++ zero_pad q) = 1 + width_sum cs + (- q) mod 8).
  { cbn [width_sum fold_right fst]. fold (width_sum (cs ++ zero_pad q)). rewrite width_sum_app. rewrite <- (zlen_fields_bits (zero_pad q)) by apply pad_ok. rewrite zlen_pad. lia. }
  rewrite W1. replace (zlen pre + (1 + width_sum cs + (- q) mod 8)) with (q + (- q) mod 8) by (unfold q; lia).
  destruct (write_toc_sizes (q + (- q) mod 8) sizes) as [sf|] eqn:Es; [|unfold write_toc_sizes in Es; rewrite Ew in Es; discriminate].
  eexists. split; [reflexivity|].
  assert (Fb : field_ok (1, b)) by (split; cbn [fst snd]; [lia|change (2 ^ 1) with 2; lia]).
  assert (Fsf : Forall field_ok sf /\ zlen (fields_bits sf) = zlen (fields_bits ws) + (- (q + (- q) mod 8 + width_sum ws)) mod 8 ).
  { unfold write_toc_sizes in Es. rewrite Ew in Es. apply Some_eq in Es. subst sf. split; [apply Forall_app; split; [exact Fw|apply pad_ok]|]. rewrite fields_bits_app, zlen_app, zlen_pad. reflexivity. }
  destruct Fsf as (Fsf & Lsf).
  split. { cbn [app]. constructor; [exact Fb|]. apply Forall_app. split; [|exact Fsf]. apply Forall_app. split; [exact Fc|apply pad_ok]. }
  set (b1 := to_bits 1 b).
  assert (EF : fields_bits (((1, b) :: cs ++ zero_pad q) ++ sf) = b1 ++ fields_bits cs ++ fields_bits (zero_pad q) ++ fields_bits sf).
  { cbn [app]. rewrite fields_bits_cons, !fields_bits_app. rewrite <- !app_assoc. reflexivity. }
  rewrite EF.
  assert (L1 : zlen b1 = 1) by reflexivity.
  split.
  { rewrite !zlen_app, zlen_pad, Lsf, L1. rewrite <- Lf, <- Lc. unfold q. clear.
    replace (zlen pre + (1 + (width_sum cs + ((- (zlen pre + 1 + width_sum cs)) mod 8 + (width_sum ws + (- (zlen pre + 1 + width_sum cs + (- (zlen pre + 1 + width_sum cs)) mod 8 + width_sum ws)) mod 8)))))
      with ((zlen pre + 1 + width_sum cs + (- (zlen pre + 1 + width_sum cs)) mod 8 + width_sum ws) + (- (zlen pre + 1 + width_sum cs + (- (zlen pre + 1 + width_sum cs)) mod 8 + width_sum ws)) mod 8) by lia.
    match goal with |- (?x + (- ?x) mod 8) mod 8 = 0 => generalize x end. intros x. rewrite Z.add_mod_idemp_r by lia. now replace (x + - x) with 0 by lia. }
  intros Ht.
  assert (P : parses_at pre (read_toc M total (length sizes)) (b1 ++ fields_bits cs ++ fields_bits (zero_pad q) ++ fields_bits sf) post (Some (TocOk sizes perm))).
  2:{ exact (P av Hav). }
  unfold read_toc. fold (zlen sizes). replace (65536 <? zlen sizes) with false by lia. apply at_check. cbn [negb]. apply at_pos.
  pose proof (zlen_nonneg (fields_bits cs ++ fields_bits (zero_pad q) ++ fields_bits sf)). pose proof (zlen_nonneg post).
  pose proof Ht as Ht0. rewrite zlen_app, zlen_app, zlen_app in Ht0. replace (total * 8 <=? zlen pre) with false by lia. replace (zlen sizes =? 0) with false by lia.
  apply at_bind with (a := b). { apply at_of. change (parses (rd 1) (to_bits (Z.to_nat 1) b) b). apply parses_rd; [lia|]. change (2 ^ 1) with 2. lia. } cbv beta.
  assert (SZ : parses_at ((pre ++ b1) ++ fields_bits cs) (read_toc_sizes total (length sizes) perm) (fields_bits (zero_pad q) ++ fields_bits sf) post (Some (TocOk sizes perm))).
  { assert (Eq : zlen ((pre ++ b1) ++ fields_bits cs) = q) by (rewrite !zlen_app, L1; unfold q; lia).
    rewrite <- Eq. apply sizes_at; [exact Hs|rewrite Eq; exact Es|]. rewrite Eq. rewrite <- Ht. f_equal. rewrite <- !app_assoc. reflexivity. }
  destruct (Z.eqb_spec b 1) as [->|].
  - apply at_budget.
    + rewrite <- Ht. f_equal. rewrite <- !app_assoc. reflexivity.
    + rewrite !zlen_app, Lsf, Lw. pose proof (entries_min sizes). pose proof (zlen_nonneg (fields_bits cs)). pose proof (zlen_nonneg (fields_bits (zero_pad q))).
      pose proof (Z.mod_pos_bound (- (q + (- q) mod 8 + width_sum ws)) 8 ltac:(lia)). lia.
    + eapply at_bind; [apply at_of; apply H1; reflexivity|]. cbv beta iota. exact SZ.
  - assert (b = 0) by lia. destruct (H0 ltac:(lia)) as (-> & ->). change (fields_bits []) with (@nil bool) in *. rewrite app_nil_r in SZ. exact SZ.
Qed.

(* ---- any bits ---- *)
Lemma entry_ends : ends (u32_read kTocDist) (fun v => 0 <= v <= max_section).
Proof.
  unfold u32_read. apply ends_bind with (Q := fun v => 0 <= v < 2 ^ 2); [apply ends_rd; lia|]. intros sel Hsel.
  assert (G : forall n off, 0 <= n <= 56 -> 0 <= off -> off + 2 ^ n - 1 <= max_section -> ends (let! v := rd n in Ret (w32 (v + off))) (fun v => 0 <= v <= max_section)).
  { intros n off Hn Ho Hm. apply ends_bind with (Q := fun v => 0 <= v < 2 ^ n); [apply ends_rd; exact Hn|]. intros v Hv. apply ends_ret. rewrite w32_id; [lia|]. unfold max_section in Hm. lia. }
  change (2 ^ 2) with 4 in Hsel. assert (sel = 0 \/ sel = 1 \/ sel = 2 \/ sel = 3) as [->|[->|[->| ->]]] by lia; unfold max_section in *.
  - apply (G 10 0); [lia|lia|change (2 ^ 10) with 1024; lia].
  - apply (G 14 1024); [lia|lia|change (2 ^ 14) with 16384; lia].
  - apply (G 22 17408); [lia|lia|change (2 ^ 22) with 4194304; lia].
  - apply (G 30 4211712); lia.
Qed.
Lemma sizes_end n : ends (toc_sizes n) (fun l => length l = n /\ sizes_ok l).
Proof.
  induction n as [|n IH]; cbn [toc_sizes]; [apply ends_ret; split; [reflexivity|constructor]|].
  apply ends_bind with (Q := fun v => 0 <= v <= max_section); [apply entry_ends|]. intros v Hv.
  apply ends_bind with (Q := fun l => length l = n /\ sizes_ok l); [exact IH|]. intros l (L & F). apply ends_ret. split; [cbn; lia|]. constructor; assumption.
Qed.

Definition good_toc (s : list bool) (n : nat) (o : toc_result) (pos' : Z) : Prop :=
  forall sizes perm, o = TocOk sizes perm ->
    0 < Z.of_nat n <= 65536 /\ length sizes = n /\ sizes_ok sizes /\ (perm = [] \/ is_permutation (Z.of_nat n) perm) /\ pos' mod 8 = 0 /\ pos' <= zlen s.
Definition reads_toc (s : list bool) (n : nat) (p : rprog (option toc_result)) (pos av : Z) : Prop :=
  exists o pos' av', run_bits s pos av p = Some (Some o, (pos', av')) /\ pos <= pos' /\ 0 <= av' <= 56 /\ good_toc s n o pos'.

Lemma reads_short s n pos av o : 0 <= av <= 56 -> (o = TocShort \/ o = TocFail) -> reads_toc s n (Ret (Some o)) pos av.
Proof. intros Hav Ho. exists o, pos, av. split; [reflexivity|]. split; [lia|]. split; [lia|]. intros sizes perm ->. destruct Ho; discriminate. Qed.
Lemma reads_budget s n total m k pos av : 0 <= av <= 56 -> (pos <= zlen s -> reads_toc s n k pos av) -> reads_toc s n (check_bit_budget total m k) pos av.
Proof.
  intros Hav H. unfold reads_toc, check_bit_budget. cbv zeta. cbn [run_bits]. destruct (Z.leb_spec pos (zlen s)) as [L|L].
  - cbn [run_bits]. replace (pos <=? zlen s) with true by lia. destruct (_ <=? _); [apply H; lia|]. apply reads_short; auto.
  - apply reads_short; auto.
Qed.
Lemma reads_mono s n p pos pos0 av : pos0 <= pos -> reads_toc s n p pos av -> exists o pos' av', run_bits s pos av p = Some (Some o, (pos', av')) /\ pos0 <= pos' /\ 0 <= av' <= 56 /\ good_toc s n o pos'.
Proof. intros L (o & pos' & av' & E & L' & A & G). exists o, pos', av'. split; [exact E|]. split; [lia|auto]. Qed.

Lemma aligned_jump pos : (pos + (- pos) mod 8) mod 8 = 0.
Proof. rewrite Z.add_mod_idemp_r by lia. now replace (pos + - pos) with 0 by lia. Qed.

Lemma read_sizes_any s total n perm pos av : 0 <= pos -> 0 < Z.of_nat n <= 65536 -> (perm = [] \/ is_permutation (Z.of_nat n) perm) ->
  reads_toc s n (read_toc_sizes total n perm) pos av.
Proof.
  intros Hpos Hn Hp. unfold read_toc_sizes, reads_toc. cbn [run_bits]. pose proof (Z.mod_pos_bound (- pos) 8 ltac:(lia)).
  destruct (bits_at s pos ((- pos) mod 8) =? 0); cbn [negb].
  2:{ apply reads_mono with (1 := ltac:(lia) : pos <= pos + (- pos) mod 8). apply reads_short; [lia|auto]. }
  apply reads_mono with (1 := ltac:(lia) : pos <= pos + (- pos) mod 8). apply reads_budget; [lia|]. intros L. unfold reads_toc. rewrite run_bits_bind.
  destruct (sizes_end n s (pos + (- pos) mod 8) 0 ltac:(lia) ltac:(lia)) as (sizes & pos1 & av1 & E & (Ln & Fs) & L1 & A1). rewrite E. cbn [run_bits].
  pose proof (Z.mod_pos_bound (- pos1) 8 ltac:(lia)).
  destruct (bits_at s pos1 ((- pos1) mod 8) =? 0); cbn [negb].
  2:{ apply reads_mono with (1 := ltac:(lia) : pos + (- pos) mod 8 <= pos1 + (- pos1) mod 8). apply reads_short; [lia|auto]. }
  apply reads_mono with (1 := ltac:(lia) : pos + (- pos) mod 8 <= pos1 + (- pos1) mod 8). apply reads_budget; [lia|]. intros L2.
  exists (TocOk sizes perm), (pos1 + (- pos1) mod 8), 0. split; [reflexivity|]. split; [lia|]. split; [lia|]. intros sizes' perm' X. injection X as <- <-.
  split; [exact Hn|]. split; [exact Ln|]. split; [exact Fs|]. split; [exact Hp|]. split; [apply aligned_jump|exact L2].
Qed.

Theorem toc_any M total n : lane_count (m_lanes M) -> forall s pos av, 0 <= pos -> 0 <= av <= 56 -> reads_toc s n (read_toc M total n) pos av.
Proof.
  intros HL s pos av Hpos Hav. unfold read_toc. destruct (Z.ltb_spec 65536 (Z.of_nat n)); [apply reads_short; auto|].
  unfold reads_toc. cbn [run_bits]. destruct (Z.leb_spec pos (zlen s)); cbn [negb]; [|apply reads_short; auto].
  cbn [run_bits]. replace (pos <=? zlen s) with true by lia. destruct (total * 8 <=? pos); [apply reads_short; auto|].
  destruct (Z.eqb_spec (Z.of_nat n) 0); [apply reads_short; auto|]. rewrite run_bits_bind. cbn [rd run_bits].
  change ((0 <=? 1) && (1 <=? 56)) with true. cbn iota. destruct (bits_at s pos 1 =? 1).
  - apply reads_mono with (1 := ltac:(lia) : pos <= pos + 1). apply reads_budget; [lia|]. intros _. unfold reads_toc. rewrite run_bits_bind.
    destruct (decode_permutation_ends M 0 (Z.of_nat n) HL ltac:(lia) ltac:(lia) s (pos + 1) (56 - 1) ltac:(lia) ltac:(lia)) as (r & pos1 & av1 & E & (o & -> & Ho) & L1 & A1). rewrite E.
    destruct o as [perm|]; [|apply reads_mono with (1 := L1); apply reads_short; auto]. apply reads_mono with (1 := L1). apply read_sizes_any; [lia|lia|]. right. now apply Ho.
  - apply reads_mono with (1 := ltac:(lia) : pos <= pos + 1). apply read_sizes_any; [lia|lia|now left].
Qed.
