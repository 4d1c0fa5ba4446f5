(* Reading the description of an entropy code from arbitrary bits. *)
From Verif Require Import Base ListAux Wrap BitProg BitProgProofs FieldsModel BundleModel HeadersModel HybridUintModel HybridUintProofs CodesModel
  HuffSpec HuffSimple HuffSafe HuffRle HuffTreeTop HistoTop HistoSafe AliasSpec AliasProofs AnsSpec AnsTop MtfSpec MtfProofs CodesSpec.
Ltac Zify.zify_post_hook ::= idtac.

(* ---- small readers ---- *)

Lemma ends_check {A} (k : bool -> rprog A) Q : (forall b, ends (k b) Q) -> ends (Check k) Q.
Proof. intros H s pos av Hp Ha. cbn [run_bits]. apply H; assumption. Qed.
Lemma ends_refill {A} (k : rprog A) Q : ends k Q -> ends (Refill k) Q.
Proof. intros H s pos av Hp Ha. cbn [run_bits]. apply H; [assumption|lia]. Qed.

Lemma ends_read {A} n (k : Z -> rprog A) Q : 0 <= n <= 56 -> (forall v, 0 <= v < 2 ^ n -> ends (k v) Q) -> ends (Read n k) Q.
Proof. intros Hn H. change (Read n k) with (bind (rd n) k). eapply ends_bind; [apply ends_rd; exact Hn|exact H]. Qed.
Lemma znth_cons {A} (x : A) l j : 0 < j -> znth (x :: l) j = znth l (j - 1).
Proof.
  intros H. unfold znth. replace (j <? 0) with false by lia. replace (j - 1 <? 0) with false by lia.
  replace (Z.to_nat j) with (S (Z.to_nat (j - 1))) by lia. reflexivity.
Qed.

Lemma config_ends las : 0 <= las <= 15 -> ends (uint_config_read las) (fun o => forall c, o = Some c -> config_valid c).
Proof.
  intros Hlas. assert (L : forall x, 1 <= x <= 16 -> 0 <= ceil_log2 x <= 4).
  { intros x Hx. destruct (ceil_log2_spec x ltac:(lia)) as (_ & A & B). split; [exact A|]. apply B; [lia|]. change (2 ^ 4) with 16. lia. }
  unfold uint_config_read. apply ends_refill. pose proof (L (las + 1) ltac:(lia)) as L1. eapply ends_bind; [apply ends_rd; lia|]. intros se Hse. cbv beta in Hse.
  assert (Hse2 : 0 <= se <= 15). { assert (2 ^ ceil_log2 (las + 1) <= 2 ^ 4) by (apply Z.pow_le_mono_r; lia). change (2 ^ 4) with 16 in *. lia. }
  destruct (Z.eqb_spec se las) as [->|N]. { apply ends_ret. intros c E. apply Some_eq in E. subst c. unfold config_valid. cbn. lia. }
  pose proof (L (se + 1) ltac:(lia)) as L2. eapply ends_bind; [apply ends_rd; lia|]. intros msb Hm. cbv beta in Hm.
  destruct (Z.ltb_spec se msb) as [_|Hm2]; [apply ends_ret; discriminate|].
  pose proof (L (se - msb + 1) ltac:(lia)) as L3. eapply ends_bind; [apply ends_rd; lia|]. intros lsb Hl. cbv beta in Hl.
  destruct (Z.ltb_spec se (lsb + msb)) as [_|Hl2]; [apply ends_ret; discriminate|].
  apply ends_ret. intros c E. apply Some_eq in E. subst c. unfold config_valid. cbn. lia.
Qed.

Lemma configs_ends las n : 0 <= las <= 15 -> ends (uint_configs_read las n) (fun o => forall l, o = Some l -> length l = n /\ Forall config_valid l).
Proof.
  intros Hlas. induction n as [|n IH]; cbn [uint_configs_read].
  - apply ends_ret. intros l E. apply Some_eq in E. subst l. split; [reflexivity|constructor].
  - eapply ends_bind; [apply config_ends; exact Hlas|]. intros [c|] Hc; [|apply ends_ret; discriminate].
    eapply ends_bind; [exact IH|]. intros [l|] Hl; [|apply ends_ret; discriminate]. apply ends_ret. intros l' E. apply Some_eq in E. subst l'.
    destruct (Hl l eq_refl) as (A & B). split; [cbn; lia|]. constructor; auto.
Qed.

Lemma lz_ends s0 : ends (bundle_read LZ77Params s0) (fun o => forall s, o = Loaded s -> s 0 <> 0 -> 0 <= s 1 < 2 ^ 16 /\ 1 <= s 2 < 2 ^ 32).
Proof.
  unfold bundle_read. eapply ends_bind with (Q := fun r => forall s st, r = RGo s st -> s 0 <> 0 -> 0 <= s 1 < 2 ^ 16 /\ 1 <= s 2 < 2 ^ 32).
  2:{ intros r Hr. apply ends_ret. intros s E N. destruct r as [s1 st| |]; try discriminate. destruct (r_ok st); [|discriminate]. injection E as <-. eapply Hr; [reflexivity|exact N]. }
  unfold LZ77Params. cbn [steps]. unfold FBool, FU32. cbn [read read_field]. unfold checked, bits_read.
  eapply ends_bind with (Q := fun r => forall s st, r = RGo s st -> s = upd s0 0 0 \/ s = upd s0 0 1).
  { eapply ends_bind; [apply ends_rd; lia|]. intros v Hv. cbv beta in Hv. change (2 ^ 1) with 2 in Hv. apply ends_check. intros [|]; apply ends_ret; [|discriminate].
    intros s st E. injection E as <- _. unfold stored, idw. assert (v = 0 \/ v = 1) as [->| ->] by lia; auto. }
  intros [s1 st1| |] H1; [|apply ends_ret; discriminate|apply ends_ret; discriminate].
  destruct (H1 s1 st1 eq_refl) as [->| ->].
  { replace (holds (isset 0) (upd s0 0 0)) with false by reflexivity. apply ends_ret. intros s st E N. injection E as <- _. unfold upd in N. cbn in N. lia. }
  replace (holds (isset 0) (upd s0 0 1)) with true by reflexivity.
  eapply ends_bind with (Q := fun r => forall s st, r = RGo s st -> exists v, s = upd (upd s0 0 1) 1 v /\ 0 <= v < 2 ^ 16).
  { unfold u32_read. eapply ends_bind with (Q := fun v => 0 <= v < 2 ^ 16).
    - eapply ends_bind; [apply ends_rd; lia|]. intros sel Hs. cbv beta in Hs. change (2 ^ 2) with 4 in Hs.
      assert (sel = 0 \/ sel = 1 \/ sel = 2 \/ sel = 3) as [->|[->|[->| ->]]] by lia; cbn; try (apply ends_ret; lia).
      apply ends_read; [lia|]. intros v Hv. cbv beta in Hv. apply ends_ret. unfold w32. rewrite Z.mod_small by (change (2 ^ 15) with 32768 in Hv; lia). change (2 ^ 15) with 32768 in Hv. change (2 ^ 16) with 65536. lia.
    - intros v Hv. apply ends_check. intros [|]; apply ends_ret; [|discriminate]. intros s st E. injection E as <- _. exists v. split; [reflexivity|exact Hv]. }
  intros [s2 st2| |] H2; [|apply ends_ret; discriminate|apply ends_ret; discriminate]. destruct (H2 s2 st2 eq_refl) as (v & -> & Hv).
  unfold u32_read. eapply ends_bind with (Q := fun v => 1 <= v < 2 ^ 32).
  - eapply ends_bind; [apply ends_rd; lia|]. intros sel Hs. cbv beta in Hs. change (2 ^ 2) with 4 in Hs.
    assert (sel = 0 \/ sel = 1 \/ sel = 2 \/ sel = 3) as [->|[->|[->| ->]]] by lia; cbn; try (apply ends_ret; lia);
      (apply ends_read; [lia|]); intros x Hx; apply ends_ret; unfold w32; rewrite Z.mod_small; first [change (2 ^ 8) with 256 in Hx; lia|change (2 ^ 2) with 4 in Hx; lia].
  - intros x Hx. apply ends_check. intros [|]; apply ends_ret; [|discriminate]. intros s st E N. injection E as <- _. unfold upd, stored, idw. cbn. split; [exact Hv|exact Hx].
Qed.

(* ---- max_num_bits ---- *)

Lemma split_token_valid c : config_valid c -> split_token c = 2 ^ split_exponent c.
Proof.
  intros (A & B & C & D). unfold split_token, w32. rewrite Z.shiftl_1_l. apply Z.mod_small. split; [apply Z.pow_nonneg; lia|]. apply Z.pow_lt_mono_r; lia.
Qed.

(* the number of bits of the values of a token *)
Definition token_bits (c : hconfig) (tok : Z) : Z :=
  if tok <? split_token c then split_exponent c
  else msb_in_token c + lsb_in_token c + w32 (split_exponent c - (msb_in_token c + lsb_in_token c) + Z.shiftr (tok - split_token c) (msb_in_token c + lsb_in_token c)) + 1.
Definition below (m v : Z) : Prop := 0 <= v < 2 ^ m.

Lemma lor_below a b n : 0 <= n -> below n a -> below n b -> below n (Z.lor a b).
Proof.
  intros Hn (A1 & A2) (B1 & B2). split; [now apply Z.lor_nonneg|].
  destruct (Z.eq_dec (Z.lor a b) 0) as [->|N]; [apply Z.pow_pos_nonneg; lia|]. assert (0 <= Z.lor a b) by now apply Z.lor_nonneg.
  assert (Ln : forall x, 0 <= x -> x < 2 ^ n -> Z.log2 x < n \/ x = 0) by (intros x H1 H2; destruct (Z.eq_dec x 0); [now right|left; apply Z.log2_lt_pow2; lia]).
  assert (P0 : n = 0 \/ 0 < n) by lia. destruct P0 as [->|P0]. { change (2 ^ 0) with 1 in *. assert (a = 0) by lia. assert (b = 0) by lia. subst. cbn in N. lia. }
  apply Z.log2_lt_pow2; [lia|]. rewrite Z.log2_lor by assumption.
  destruct (Ln a A1 A2) as [? | ->]; destruct (Ln b B1 B2) as [? | ->]; change (Z.log2 0) with 0; lia.
Qed.

Lemma values_below c tok m : config_valid c -> 0 <= tok < 2 ^ 20 -> token_bits c tok <= m -> values_in (below m) c tok.
Proof.
  intros Hc Ht Hm s pos av v r. pose proof (split_token_valid c Hc) as Es. destruct Hc as (C1 & C2 & C3 & C4). unfold hybrid_read, token_bits in *.
  destruct (Z.ltb_spec tok (split_token c)) as [L|L].
  - cbn [run_bits]. intros E. injection E as <- _. unfold below. assert (2 ^ split_exponent c <= 2 ^ m) by (apply Z.pow_le_mono_r; lia). lia.
  - cbv zeta. cbn [run_bits]. set (k := hybrid_nbits c tok).
    set (e := w32 _) in Hm. assert (Hk : 0 <= k <= 31 /\ k <= e).
    { unfold k, hybrid_nbits. fold e. assert (0 <= e) by (unfold e, w32; apply Z.mod_pos_bound; lia).
      replace (Z.land e 31) with (e mod 2 ^ 5) by (change 31 with (Z.ones 5); now rewrite Z.land_ones by lia). pose proof (Z.mod_pos_bound e (2 ^ 5) ltac:(lia)). pose proof (Z.mod_le e (2 ^ 5) ltac:(lia) ltac:(lia)). change (2 ^ 5) with 32 in *. lia. }
    destruct ((0 <=? k) && (k <=? av)); [|discriminate]. intros E. injection E as <- _. unfold hybrid_assemble. cbv zeta.
    set (M := msb_in_token c) in *. set (l := lsb_in_token c) in *. clearbody e k M l.
    pose proof (bits_at_range s pos k ltac:(lia)) as Hb. set (b := bits_at s pos k) in *. clearbody b.
    assert (Ones : forall x n, 0 <= n -> 0 <= Z.land x (Z.shiftl 1 n - 1) < 2 ^ n).
    { intros x n Hn. rewrite Z.shiftl_1_l. replace (2 ^ n - 1) with (Z.ones n) by (rewrite Z.ones_equiv; lia). rewrite Z.land_ones by lia. apply Z.mod_pos_bound. apply Z.pow_pos_nonneg; lia. }
    assert (WM : forall x n, 0 <= n -> below n x -> below n (w64 x)).
    { intros x n Hn (X1 & X2). unfold w64, below. pose proof (Z.mod_pos_bound x (2 ^ 64) ltac:(lia)). pose proof (Z.mod_le x (2 ^ 64) ltac:(lia) ltac:(lia)). lia. }
    assert (Sh : forall x n k, 0 <= n -> 0 <= k -> below n x -> below (n + k) (Z.shiftl x k)).
    { intros x n k0 Hn Hk0 (X1 & X2). unfold below. rewrite Z.shiftl_mul_pow2 by lia. rewrite Z.pow_add_r by lia. pose proof (Z.pow_pos_nonneg 2 k0 ltac:(lia) ltac:(lia)). nia. }
    assert (Up : forall x n n', 0 <= n <= n' -> below n x -> below n' x).
    { intros x n n' Hn (X1 & X2). split; [exact X1|]. assert (2 ^ n <= 2 ^ n') by (apply Z.pow_le_mono_r; lia). lia. }
    assert (F : below (M + 1 + k + l) (Z.lor (w64 (Z.shiftl (Z.lor (w64 (Z.shiftl (Z.lor (Z.shiftl 1 M) (Z.land (Z.shiftr tok l) (Z.shiftl 1 M - 1))) k)) b) l)) (Z.land tok (Z.shiftl 1 l - 1)))).
    { apply lor_below; [lia| |].
      - apply WM; [lia|]. apply Sh; [lia|lia|]. apply lor_below; [lia| |].
        + apply WM; [lia|]. apply Sh; [lia|lia|]. apply lor_below; [lia| |].
          * rewrite Z.shiftl_1_l. split; [apply Z.pow_nonneg; lia|]. apply Z.pow_lt_mono_r; lia.
          * apply (Up _ M); [lia|]. apply Ones. lia.
        + apply (Up _ k); [lia|]. exact Hb.
      - apply (Up _ l); [lia|]. apply Ones. lia. }
    apply (Up _ (M + 1 + k + l)); [lia|]. destruct F as (F1 & F2). set (x := Z.lor _ _) in *. clearbody x. unfold w32, below.
    pose proof (Z.mod_pos_bound x (2 ^ 32) ltac:(lia)). pose proof (Z.mod_le x (2 ^ 32) ltac:(lia) ltac:(lia)). lia.
Qed.

(* every literal value of the symbols l of the histogram ctx has at most m bits *)
Definition covers (lz : lz77_params) (cfgs : list hconfig) (ctx m : Z) (l : list Z) : Prop :=
  exists cfg, znth cfgs ctx = Some cfg /\
    forall s, In s l -> s < (if lz_enabled lz then min_symbol lz else 2 ^ 20) -> token_bits cfg s <= m.

Lemma update_all_ok lz cfgs ctx cfg : znth cfgs ctx = Some cfg -> forall l maxb,
  exists m, update_all lz cfgs ctx l maxb = Some m /\ maxb <= m /\ covers lz cfgs ctx m l.
Proof.
  intros Hc. induction l as [|s l IH]; intros maxb; cbn [update_all].
  - exists maxb. split; [reflexivity|]. split; [lia|]. exists cfg. split; [exact Hc|]. intros s [].
  - assert (U : exists m1, update_max_num_bits lz cfgs ctx s maxb = Some m1 /\ maxb <= m1 /\ (s < (if lz_enabled lz then min_symbol lz else 2 ^ 20) -> token_bits cfg s <= m1)).
    { unfold update_max_num_bits. rewrite Hc. cbv zeta. set (b := _ && _ && _). destruct b eqn:Eb.
      - destruct (_ <? _); eexists; (split; [reflexivity|]); (split; [apply Z.le_max_l|]); intros L; exfalso; subst b; apply andb_prop in Eb as (Eb & E3); apply andb_prop in Eb as (Eb & _); rewrite Eb in L; lia.
      - unfold token_bits. destruct (_ <? _); eexists; (split; [reflexivity|]); (split; [apply Z.le_max_l|]); intros _; apply Z.le_max_r. }
    destruct U as (m1 & -> & L1 & T1). destruct (IH m1) as (m & -> & L2 & (cfg' & Hc' & C)). exists m. split; [reflexivity|]. split; [lia|].
    assert (cfg' = cfg) by congruence. subst cfg'. exists cfg. split; [exact Hc|]. intros x [<-|Hx] Hl; [specialize (T1 Hl); lia|now apply C].
Qed.

Lemma covers_le lz cfgs ctx m m' l : m <= m' -> covers lz cfgs ctx m l -> covers lz cfgs ctx m' l.
Proof. intros L (cfg & Hc & C). exists cfg. split; [exact Hc|]. intros s Hs Hl. specialize (C s Hs Hl). lia. Qed.

(* ---- prefix codes ---- *)

Lemma huff_symbols dc h n t : use_prefix_code dc = true -> znth (huffman_data dc) h = Some t -> table_safe n t ->
  symbol_in dc h (fun s => 0 <= s < n /\ In s (table_symbols t)).
Proof.
  intros Hp Hz Ht st s pos av Hpos Hav Hst. unfold read_symbol. rewrite Hp, Hz, run_bits_bind.
  destruct (Ht s pos av Hpos ltac:(lia)) as (sym & l & H1 & H2 & E). rewrite E. cbn [run_bits option_map].
  exists sym, st, (pos + l), (av - l). split; [reflexivity|]. split; [split; [exact H1|]|split; [exact Hst|lia]].
  revert E. unfold huff_read, kHuffmanTableBits. cbn [run_bits].
  assert (In_t : forall i n v, get (fst t) (snd t) i = Some (n, v) -> n <= 8 -> In v (table_symbols t)).
  { intros i k v G Hk. unfold get in G. destruct ((0 <=? i) && (i <? fst t)) eqn:B; [|discriminate]. apply Some_eq in G. unfold table_symbols. apply in_map_iff. exists i. rewrite G. split; [reflexivity|].
    apply filter_In. split; [apply in_zseq; lia|]. rewrite G. unfold kHuffmanTableBits. cbn [fst]. lia. }
  destruct ((0 <=? 8) && (8 <=? av)) eqn:B1; [|discriminate].
  destruct (get (fst t) (snd t) (bits_at s pos 8)) as [(nb & v)|] eqn:G1; [|cbn; discriminate].
  destruct (Z.ltb_spec 8 nb) as [L|L]; cbn [run_bits].
  - rewrite B1. destruct ((0 <=? nb - 8) && (nb - 8 <=? av - 8)); [|discriminate]. destruct (get (fst t) (snd t) (bits_at s pos 8 + v + bits_at s (pos + 8) (nb - 8))) as [(nb' & v')|] eqn:G2; [|cbn; discriminate]. cbn [run_bits].
    destruct ((0 <=? nb') && (nb' <=? av - 8)) eqn:B3; [|discriminate]. intros E. injection E as <- E1 E2. eapply In_t; [exact G2|]. lia.
  - destruct ((0 <=? nb) && (nb <=? av)); [|discriminate]. intros E. injection E as <- E1 E2. eapply In_t; [exact G1|]. lia.
Qed.

Lemma sizes_ends n mx : ends (read_sizes n mx) (fun o => forall l, o = Some l -> length l = n /\ Forall (fun x => 0 <= x < 2 ^ 16) l).
Proof.
  induction n as [|n IH]; cbn [read_sizes].
  - apply ends_ret. intros l E. apply Some_eq in E. subst l. split; [reflexivity|constructor].
  - eapply ends_bind; [apply (var_len_ends 4); lia|]. intros v Hv. cbv beta in Hv. cbv zeta. assert (Hw : 0 <= w16 (v + 1) < 2 ^ 16) by (unfold w16; apply Z.mod_pos_bound; lia).
    destruct (mx <? w16 (v + 1)); [apply ends_ret; discriminate|]. eapply ends_bind; [exact IH|]. intros [l|] Hl; [|apply ends_ret; discriminate].
    apply ends_ret. intros l' E. apply Some_eq in E. subst l'. destruct (Hl l eq_refl) as (A & B). split; [cbn; lia|]. now constructor.
Qed.

Definition table_at (lz : lz77_params) (cfgs : list hconfig) (ctx m : Z) (t : htable) : Prop :=
  table_safe (2 ^ 20) t /\ covers lz cfgs ctx m (table_symbols t).

Lemma tables_ends M lz cfgs : forall sizes c maxb, 0 <= c -> c + zlen sizes <= zlen cfgs -> Forall (fun x => 0 <= x < 2 ^ 16) sizes ->
  ends (read_tables M lz cfgs sizes c maxb) (fun r => exists o, r = Some o /\ forall ts m, o = Some (ts, m) ->
    length ts = length sizes /\ maxb <= m /\ forall j t, znth ts j = Some t -> table_at lz cfgs (c + j) m t).
Proof.
  induction sizes as [|n sizes IH]; intros c maxb Hc Hl HF; cbn [read_tables].
  - apply ends_ret. exists (Some ([], maxb)). split; [reflexivity|]. intros ts m E. injection E as <- <-. split; [reflexivity|]. split; [lia|]. intros j t Ht. apply znth_bound in Ht. change (zlen (@nil htable)) with 0 in Ht. lia.
  - inversion HF as [|? ? Hn HF']; subst. rewrite zlen_cons in Hl. pose proof (zlen_nonneg sizes).
    eapply ends_bind with (Q := fun r => exists o, r = Some o /\ forall t, o = Some t -> table_safe (2 ^ 20) t).
    { destruct (Z.ltb_spec 1 n) as [L|L].
      - eapply ends_weaken; [apply read_ends; lia|]. intros r (o & -> & H1). exists o. split; [reflexivity|]. intros t E. specialize (H1 t E).
        intros u pos av Hp Ha. destruct (H1 u pos av Hp Ha) as (s & l & A & B). exists s, l. split; [|exact B]. assert (2 ^ 16 < 2 ^ 20) by reflexivity. lia.
      - apply ends_ret. eexists. split; [reflexivity|]. intros t E. apply Some_eq in E. subst t. apply (short_safe (2 ^ 20)). intros r _. cbn. lia. }
    intros r (o & -> & Ho). destruct o as [t|]; [|apply ends_ret; exists None; split; [reflexivity|discriminate]]. specialize (Ho t eq_refl).
    destruct (znth_in cfgs c ltac:(lia)) as (cfg & Ec).
    destruct (update_all_ok lz cfgs c cfg Ec (table_symbols t) maxb) as (m1 & -> & L1 & C1).
    eapply ends_bind; [apply (IH (c + 1) m1); [lia|lia|exact HF']|]. intros r (o & -> & H2). apply ends_ret. cbn [option_map]. destruct o as [(ts & m)|]; [|exists None; split; [reflexivity|discriminate]].
    eexists. split; [reflexivity|]. intros ts' m' E. cbn [option_map fst snd] in E. injection E as <- <-. destruct (H2 ts m eq_refl) as (A1 & A2 & A3).
    split; [cbn; lia|]. split; [lia|]. intros j t' Hj. pose proof (znth_bound _ _ _ Hj) as Bj. destruct (Z.eq_dec j 0) as [->|N].
    + cbn in Hj. apply Some_eq in Hj. subst t'. rewrite Z.add_0_r. split; [exact Ho|]. eapply covers_le; [|exact C1]. exact A2.
    + rewrite znth_cons in Hj by lia. replace (c + j) with (c + 1 + (j - 1)) by lia. apply A3. exact Hj.
Qed.

(* ---- ANS ---- *)

Lemma zsum_app_zeros l n : zsum (l ++ repeat 0 n) = zsum l.
Proof.
  induction l as [|x l IH]; cbn [app].
  - induction n as [|n IH]; [reflexivity|]. cbn [repeat]. unfold zsum in *. cbn [fold_right] in *. lia.
  - unfold zsum in *. cbn [fold_right]. lia.
Qed.
Lemma pop_histogram h : is_histogram h -> is_histogram (pop_trailing_zeros h) /\ zlen (pop_trailing_zeros h) <= zlen h.
Proof.
  intros (H1 & H2). destruct (pop_spec h) as (n & E). split; [split|].
  - rewrite E in H1. apply Forall_app in H1. apply H1.
  - rewrite E in H2. now rewrite zsum_app_zeros in H2.
  - rewrite E at 2. rewrite zlen_app. pose proof (zlen_nonneg (repeat 0 n)). lia.
Qed.
Lemma pop_pop h : pop_trailing_zeros (pop_trailing_zeros h) = pop_trailing_zeros h.
Proof.
  unfold pop_trailing_zeros. rewrite rev_involutive. f_equal. induction (rev h) as [|x l IH]; [reflexivity|]. cbn [AliasModel.drop_zeros].
  destruct x as [|p|p]; [exact IH|reflexivity|reflexivity].
Qed.
Lemma symbols_of_in h s f : znth h s = Some f -> 0 < f -> In s (symbols_of h).
Proof.
  intros Hz Hf. pose proof (znth_bound _ _ _ Hz) as B. rewrite (znth_some h s 0 B) in Hz. apply Some_eq in Hz.
  unfold symbols_of. apply filter_In. split; [apply in_zseq; unfold zlen in B; lia|]. rewrite Hz. now replace (f =? 0) with false by lia.
Qed.

Definition alias_at (la : Z) (lz : lz77_params) (cfgs : list hconfig) (ctx m : Z) (t : Z -> entry) (d : Z) : Prop :=
  exists h mem, is_histogram h /\ zlen h <= 2 ^ la /\ init_alias_table h la mem = Some t /\ covers lz cfgs ctx m (symbols_of h) /\ d = degenerate_of h /\ pop_trailing_zeros h = h.

Lemma alias_ends M la lz cfgs : 4 <= la <= 8 -> forall n c maxb, 0 <= c -> c + Z.of_nat n <= zlen cfgs ->
  ends (read_alias_tables M la lz cfgs n c maxb) (fun r => exists o, r = Some o /\ forall ts m ds, o = Some (ts, m, ds) ->
    length ts = n /\ length ds = n /\ maxb <= m /\ forall j t d, znth ts j = Some t -> znth ds j = Some d -> alias_at la lz cfgs (c + j) m t d).
Proof.
  intros Hla. induction n as [|n IH]; intros c maxb Hc Hl; cbn [read_alias_tables].
  - apply ends_ret. eexists. split; [reflexivity|]. intros ts m ds E. injection E as <- <- <-. split; [reflexivity|]. split; [reflexivity|]. split; [lia|]. intros j t d Ht. apply znth_bound in Ht. change (zlen (@nil (Z -> entry))) with 0 in Ht. lia.
  - eapply ends_bind; [apply read_histogram_safe|]. intros r (o & -> & Ho). destruct o as [counts|]; [|apply ends_ret; exists None; split; [reflexivity|discriminate]]. destruct (Ho counts eq_refl) as (_ & Hh).
    rewrite Z.shiftl_1_l. destruct (Z.ltb_spec (2 ^ la) (zlen counts)) as [_|Hlen]; [apply ends_ret; exists None; split; [reflexivity|discriminate]|]. cbv zeta.
    destruct (pop_histogram counts Hh) as (Hh2 & Hlen2). destruct (znth_in cfgs c ltac:(lia)) as (cfg & Ec).
    destruct (update_all_ok lz cfgs c cfg Ec (symbols_of (pop_trailing_zeros counts)) maxb) as (m1 & -> & L1 & C1).
    destruct (alias_table_right (pop_trailing_zeros counts) la (m_alias M) Hla Hh2 ltac:(rewrite pop_pop; lia)) as (t & Et & _). rewrite Et.
    eapply ends_bind; [apply (IH (c + 1) m1); lia|]. intros r (o & -> & H2). apply ends_ret. cbn [option_map]. destruct o as [((ts & m) & ds)|]; [|exists None; split; [reflexivity|discriminate]].
    eexists. split; [reflexivity|]. intros ts' m' ds' E. cbn [option_map] in E. injection E as <- <- <-. destruct (H2 ts m ds eq_refl) as (A1 & A2 & A3 & A4).
    split; [cbn; lia|]. split; [cbn; lia|]. split; [lia|]. intros j t' d' Hj Hd. pose proof (znth_bound _ _ _ Hj) as Bj. destruct (Z.eq_dec j 0) as [->|N].
    + cbn in Hj, Hd. apply Some_eq in Hj, Hd. subst t' d'. rewrite Z.add_0_r. exists (pop_trailing_zeros counts), (m_alias M). split; [exact Hh2|]. split; [lia|]. split; [exact Et|]. split; [eapply covers_le; [|exact C1]; exact A3|]. split; [reflexivity|apply pop_pop].
    + rewrite (znth_cons t) in Hj by lia. rewrite (znth_cons (degenerate_of (pop_trailing_zeros counts))) in Hd by lia. replace (c + j) with (c + 1 + (j - 1)) by lia. now apply A4.
Qed.

(* ---- the codes ---- *)

(* the codes are safe for every context map with numbers of histograms, and the values fit *)
Definition lz_valid (lz : lz77_params) : Prop := lz_enabled lz = true -> 0 <= min_symbol lz < 2 ^ 16 /\ 1 <= min_length lz < 2 ^ 32.

Lemma within_clusters V dc n : (forall h, 0 <= h < n -> cluster_within V dc h) -> lz_valid (lz77 dc) -> (forall v, V v -> 0 <= v) ->
  (lz_enabled (lz77 dc) = true -> 0 <= distance_context (lz77 dc) < n) -> forall cmap, Forall (fun h => 0 <= h < n) cmap -> reader_within V dc cmap.
Proof.
  intros H Hlz _ Hd cmap HF. split; [eapply Forall_impl; [|exact HF]; exact H|]. intros E. destruct (Hlz E) as (A & B). split; [|lia].
  destruct (H _ (Hd E)) as (P & cfg & HP & Hc & HW). split; [|eauto]. eapply symbol_in_weaken; [|exact HP]. intros s Hs. now apply HW.
Qed.

Lemma codes_ends M prefix la lz cfgs cmap : (prefix = true \/ 4 <= la <= 8) -> Forall config_valid cfgs -> lz_valid lz ->
  Forall (fun h => 0 <= h < zlen cfgs) cmap -> cmap <> [] -> distance_context lz = last cmap 0 ->
  ends (decode_ans_codes M prefix la lz cfgs cmap) (fun r => exists o, r = Some o /\ forall d, o = Some d ->
    d_map d = cmap /\ uint_config (d_code d) = cfgs /\ lz77 (d_code d) = lz /\ use_prefix_code (d_code d) = prefix /\
    0 <= max_num_bits d /\ zlen (degenerate d) = zlen cfgs /\ reader_within (below (max_num_bits d)) (d_code d) cmap /\
    (forall j, 0 <= j < zlen cfgs -> znth (degenerate d) j = Some (-1) \/
       exists s, znth (degenerate d) j = Some s /\ symbol_in (d_code d) j (fun x => x = s))).
Proof.
  intros Hla Hcfg Hlz Hmap Hne Hdc. unfold decode_ans_codes.
  assert (Hd : 0 <= distance_context lz < zlen cfgs).
  { rewrite Hdc. destruct (exists_last Hne) as (l & x & ->). rewrite last_last. apply Forall_app in Hmap as (_ & Hmap). now inversion Hmap. }
  assert (Lit : forall cfg j m l s, znth cfgs j = Some cfg -> covers lz cfgs j m l -> In s l -> 0 <= s < 2 ^ 20 -> s < (if lz_enabled lz then min_symbol lz else 2 ^ 20) -> values_in (below m) cfg s).
  { intros cfg j m l s Hz (cfg' & Hz' & HC) Hin Hs Ht. assert (cfg' = cfg) by congruence. subst cfg'. apply values_below; [|exact Hs|now apply HC].
    rewrite Forall_forall in Hcfg. apply Hcfg. unfold znth in Hz. destruct (j <? 0); [discriminate|]. eapply nth_error_In; eauto. }
  destruct prefix.
  - eapply ends_bind; [apply sizes_ends|]. intros [sizes|] Hs; [|apply ends_ret; exists None; split; [reflexivity|discriminate]]. destruct (Hs sizes eq_refl) as (S1 & S2).
    eapply ends_bind; [apply (tables_ends M lz cfgs sizes 0 0); [lia|unfold zlen; lia|exact S2]|]. intros r (o & -> & Ho). apply ends_ret. cbn [option_map].
    eexists. split; [reflexivity|]. intros d E. destruct o as [(ts & m)|]; [|discriminate]. cbn [option_map fst snd] in E. apply Some_eq in E. subst d. cbn [d_map d_code max_num_bits degenerate uint_config lz77 use_prefix_code].
    destruct (Ho ts m eq_refl) as (A1 & A2 & A3). split; [reflexivity|]. split; [reflexivity|]. split; [reflexivity|]. split; [reflexivity|]. split; [exact A2|]. split; [unfold zlen; now rewrite repeat_length|]. split.
    + apply within_clusters with (n := zlen cfgs); [|exact Hlz|intros v Hv; apply Hv|intros _; exact Hd|exact Hmap]. intros h Hh.
      destruct (znth_in ts h ltac:(unfold zlen in *; lia)) as (t & Et). destruct (znth_in cfgs h Hh) as (cfg & Ec). destruct (A3 h t Et) as (T1 & T2). rewrite Z.add_0_l in T2.
      eexists _, cfg. split; [apply (huff_symbols _ h (2 ^ 20) t); [reflexivity|exact Et|exact T1]|]. split; [exact Ec|]. intros s (S3 & S4). split; [exact S3|]. unfold threshold_of. cbn [lz77]. intros Ht. eapply Lit; eassumption.
    + intros j Hj. left. rewrite (znth_some _ j (-1)) by (unfold zlen in *; rewrite repeat_length; lia). f_equal. apply nth_repeat.
  - destruct Hla as [|Hla]; [discriminate|].
    eapply ends_bind; [apply (alias_ends M la lz cfgs Hla (length cfgs) 0 0); [lia|unfold zlen; lia]|]. intros r (o & -> & Ho). apply ends_ret. cbn [option_map].
    eexists. split; [reflexivity|]. intros d E. destruct o as [((ts & m) & ds)|]; [|discriminate]. cbn [option_map] in E. apply Some_eq in E. subst d. cbn [d_map d_code max_num_bits degenerate uint_config lz77 use_prefix_code].
    destruct (Ho ts m ds eq_refl) as (A1 & A2 & A3 & A4). split; [reflexivity|]. split; [reflexivity|]. split; [reflexivity|]. split; [reflexivity|]. split; [exact A3|]. split; [unfold zlen; lia|].
    assert (At : forall j, 0 <= j < zlen cfgs -> exists t d, znth ts j = Some t /\ znth ds j = Some d /\ alias_at la lz cfgs j m t d).
    { intros j Hj. destruct (znth_in ts j ltac:(unfold zlen in *; lia)) as (t & Et). destruct (znth_in ds j ltac:(unfold zlen in *; lia)) as (d & Ed). exists t, d. split; [exact Et|]. split; [exact Ed|]. rewrite <- (Z.add_0_l j). apply A4; assumption. }
    split.
    + apply within_clusters with (n := zlen cfgs); [|exact Hlz|intros v Hv; apply Hv|intros _; exact Hd|exact Hmap]. intros h Hh.
      destruct (At h Hh) as (t & d & Et & _ & (hs & mem & B1 & B2 & B3 & B4 & _)). destruct (znth_in cfgs h Hh) as (cfg & Ec).
      eexists _, cfg. split; [apply (ans_symbols _ hs h mem t); [reflexivity|exact Hla|exact B1|exact B3|exact Et]|]. split; [exact Ec|]. intros s (f & S3 & S4). assert (Hs : 0 <= s < 2 ^ 20).
      { apply znth_bound in S3. assert (2 ^ la <= 2 ^ 20) by (apply Z.pow_le_mono_r; lia). lia. }
      split; [exact Hs|]. unfold threshold_of. cbn [lz77]. intros Ht. eapply Lit; try eassumption. eapply symbols_of_in; eassumption.
    + intros j Hj. destruct (At j Hj) as (t & d & Et & Ed & (hs & mem & B1 & B2 & B3 & _ & B5 & B6)). rewrite Ed. unfold degenerate_of in B5. destruct hs as [|x hs]; [destruct B1 as (_ & B1); discriminate|].
      destruct (forallb _ _) eqn:F in B5; [|left; now subst d]. right. exists d. split; [reflexivity|].
      eapply symbol_in_weaken; [|apply (ans_symbols _ (x :: hs) j mem t); [reflexivity|exact Hla|exact B1|exact B3|exact Et]]. intros s (f & S3 & S4).
      pose proof (znth_bound _ _ _ S3) as Bs. destruct (Z.eq_dec s d) as [|N]; [assumption|]. exfalso. rewrite (znth_some _ s 0 Bs) in S3. apply Some_eq in S3.
      rewrite forallb_forall in F. assert (Hin : In f (firstn (Z.to_nat (zlen (x :: hs) - 1)) (x :: hs))).
      { rewrite <- S3. rewrite <- (firstn_skipn (Z.to_nat (zlen (x :: hs) - 1)) (x :: hs)) at 1. rewrite app_nth1; [apply nth_In|]; rewrite firstn_length; unfold zlen in *; lia. }
      specialize (F f Hin). cbv beta in F. lia.
Qed.

(* ---- the context map ---- *)

Definition map_or_error (n : nat) (r : option (option (list Z * Z))) : Prop :=
  exists o, r = Some o /\ forall l nh, o = Some (l, nh) ->
    length l = n /\ 1 <= nh <= 256 /\ Forall (fun h => 0 <= h < nh) l /\ forall h, 0 <= h < nh -> In h l.

Lemma distinct_nodup l : forall seen, exists k, NoDup k /\ incl k l /\ (forall x, In x k -> ~ In x seen) /\ zlen k = count_distinct seen l.
Proof.
  induction l as [|x l IH]; intros seen; cbn [count_distinct].
  - exists []. split; [constructor|]. split; [intros y []|]. split; [intros y []|reflexivity].
  - destruct (existsb (Z.eqb x) seen) eqn:E.
    + destruct (IH seen) as (k & A & B & C & D). exists k. split; [exact A|]. split; [intros y Hy; right; now apply B|]. auto.
    + destruct (IH (x :: seen)) as (k & A & B & C & D). exists (x :: k). split; [constructor; [intros Hx; apply (C x Hx); now left|exact A]|].
      split; [intros y [<-|Hy]; [now left|right; now apply B]|]. split; [|rewrite zlen_cons; lia].
      intros y [<-|Hy] Hs; [|apply (C y Hy); now right].
      assert (existsb (Z.eqb x) seen = true) by (apply existsb_exists; exists x; split; [exact Hs|apply Z.eqb_refl]). congruence.
Qed.

Lemma finish_map_ok n l : length l = n -> (0 < n)%nat -> Forall (fun h => 0 <= h < 256) l -> map_or_error n (finish_map l).
Proof.
  intros Hl Hn HF. unfold finish_map. cbv zeta. set (nh := fold_right Z.max 0 l + 1).
  assert (Hnh : 1 <= nh <= 256).
  { unfold nh. clear -HF. induction HF as [|x l Hx HF IH]; cbn [fold_right]; lia. }
  destruct (verify_context_map l nh) eqn:V; eexists; (split; [reflexivity|]); [|discriminate]. intros l' nh' E. injection E as <- <-.
  split; [exact Hl|]. split; [exact Hnh|]. unfold verify_context_map in V. apply andb_prop in V as (V1 & V2).
  assert (F2 : Forall (fun h => 0 <= h < nh) l).
  { rewrite forallb_forall in V1. apply Forall_forall. intros x Hx. specialize (V1 x Hx). rewrite Forall_forall in HF. specialize (HF x Hx). cbv beta in *. lia. }
  split; [exact F2|]. intros h Hh. destruct (distinct_nodup l []) as (k & A & B & _ & D).
  assert (Len : (length (zseq 0 (Z.to_nat nh)) <= length k)%nat) by (rewrite length_zseq; unfold zlen in D; lia).
  assert (I : incl (zseq 0 (Z.to_nat nh)) k).
  { apply NoDup_length_incl; [exact A|exact Len|]. intros x Hx. apply B in Hx. rewrite Forall_forall in F2. specialize (F2 x Hx). apply in_zseq. lia. }
  apply B, I. apply in_zseq. lia.
Qed.

Lemma entries_ends n b : 0 <= b <= 8 -> ends (read_entries n b) (fun l => length l = n /\ Forall (fun h => 0 <= h < 256) l).
Proof.
  intros Hb. induction n as [|n IH]; cbn [read_entries]; [apply ends_ret; split; [reflexivity|constructor]|].
  eapply ends_bind; [apply ends_rd; lia|]. intros v Hv. cbv beta in Hv. eapply ends_bind; [exact IH|]. intros l (A & B). apply ends_ret. split; [cbn; lia|]. constructor; [|exact B].
  assert (2 ^ b <= 2 ^ 8) by (apply Z.pow_le_mono_r; lia). change (2 ^ 8) with 256 in *. lia.
Qed.

(* an accepted code for n contexts *)
Definition code_or_error (n : nat) (r : option (option decoded)) : Prop :=
  exists o, r = Some o /\ forall d, o = Some d ->
    zlen (d_map d) = Z.of_nat n + b2z (lz_enabled (lz77 (d_code d))) /\ (forall h, 0 <= h < zlen (uint_config (d_code d)) <-> In h (d_map d)) /\
    1 <= zlen (uint_config (d_code d)) <= 256 /\ Forall config_valid (uint_config (d_code d)) /\
    0 <= max_num_bits d /\ zlen (degenerate d) = zlen (uint_config (d_code d)) /\ reader_within (below (max_num_bits d)) (d_code d) (d_map d) /\
    (forall j, In j (d_map d) -> znth (degenerate d) j = Some (-1) \/
       exists s, znth (degenerate d) j = Some s /\ symbol_in (d_code d) j (fun x => x = s)).

Lemma within_safe V dc cmap : reader_within V dc cmap -> reader_safe dc cmap.
Proof.
  intros (H1 & H2). split; [|exact H2]. eapply Forall_impl; [|exact H1]. intros h (P & cfg & HP & Hc & HW). split; [|eauto].
  eapply symbol_in_weaken; [|exact HP]. intros s Hs. now apply HW.
Qed.

Lemma below_read_list n cs : Forall (fun c => 0 <= c < n) cs -> contexts_below n (read_list cs).
Proof.
  assert (B : forall A B (p : tprog A) (f : A -> tprog B), contexts_below n p -> (forall a, contexts_below n (f a)) -> contexts_below n (tbind p f)).
  { intros A B p f Hp Hf. induction Hp as [a|ctx k Hc Hk IH]; cbn [tbind]; [apply Hf|]. constructor; [exact Hc|exact IH]. }
  induction 1 as [|c cs Hc _ IH]; cbn [read_list]; constructor; [exact Hc|]. intros v. apply B; [exact IH|]. intros a. constructor.
Qed.
Lemma read_list_values n cs : forall vs a, run_toks n (read_list cs) (unplaced vs) = Some (a, []) -> a = vs /\ length vs = length cs.
Proof.
  assert (G : forall A cs (f : list Z -> tprog A) vs a, run_toks n (tbind (read_list cs) f) (unplaced vs) = Some (a, []) ->
    exists l1 l2, vs = l1 ++ l2 /\ length l1 = length cs /\ run_toks n (f l1) (unplaced l2) = Some (a, [])).
  { intros A cs'. induction cs' as [|c cs' IH]; intros f vs a H; cbn [read_list tbind] in H.
    - exists [], vs. split; [reflexivity|]. split; [reflexivity|exact H].
    - destruct vs as [|v vs]; cbn [unplaced map run_toks] in H; [discriminate|]. destruct (_ && _ && _); [|discriminate].
      assert (H' : run_toks n (tbind (read_list cs') (fun l => f (v :: l))) (unplaced vs) = Some (a, [])).
      { rewrite <- H. change (map (fun v => (None, v)) vs) with (unplaced vs). clear. generalize (unplaced vs) as l. generalize (read_list cs') as p. fix IHp 1. intros [x|ctx k] l; cbn [tbind run_toks]; [reflexivity|].
        destruct l as [|(o & w) l]; [reflexivity|]. destruct (_ && _ && _); [apply IHp|reflexivity]. }
      destruct (IH _ _ _ H') as (l1 & l2 & -> & L & R). exists (v :: l1), l2. split; [reflexivity|]. split; [cbn; lia|exact R]. }
  intros vs a H. assert (H' : run_toks n (tbind (read_list cs) TRet) (unplaced vs) = Some (a, [])).
  { rewrite <- H. clear. generalize (unplaced vs) as l. generalize (read_list cs) as p. fix IHp 1. intros [x|ctx k] l; cbn [tbind run_toks]; [reflexivity|].
    destruct l as [|(o & w) l]; [reflexivity|]. destruct (_ && _ && _); [apply IHp|reflexivity]. }
  destruct (G _ cs TRet vs a H') as (l1 & l2 & -> & L & R). cbn [run_toks] in R. injection R as -> R. destruct l2; [|discriminate]. rewrite app_nil_r. auto.
Qed.

Lemma recall_length : forall is l, length (recall l is) = length is.
Proof. induction is as [|i is IH]; intros l; cbn [recall length]; [reflexivity|]. now rewrite IH. Qed.

Lemma map_ends M hists n : lane_count (m_lanes M) -> (0 < n)%nat -> ends (hists (Z.of_nat n <=? 2)) (code_or_error 1) ->
  ends (decode_context_map M hists n) (map_or_error n).
Proof.
  intros HL Hn Hh. unfold decode_context_map. assert (Bad : ends (Ret (Some None)) (map_or_error n)) by (apply ends_ret; exists None; split; [reflexivity|discriminate]).
  eapply ends_bind; [apply ends_rd; lia|]. intros simple _. destruct (simple =? 1).
  - eapply ends_bind; [apply ends_rd; lia|]. intros b Hb. cbv beta in Hb. change (2 ^ 2) with 4 in Hb. destruct (Z.eqb_spec b 0) as [->|_].
    + apply ends_ret. apply finish_map_ok; [apply repeat_length|exact Hn|]. apply Forall_forall. intros x Hx. apply repeat_spec in Hx. lia.
    + eapply ends_bind; [apply entries_ends; lia|]. intros l (A & B). apply ends_ret. now apply finish_map_ok.
  - eapply ends_bind; [apply ends_rd; lia|]. intros mtf _. eapply ends_bind; [exact Hh|]. intros r (o & -> & Ho). destruct o as [d|]; [|exact Bad].
    destruct (Ho d eq_refl) as (D1 & _ & _ & _ & _ & _ & D7 & _).
    eapply ends_bind with (Q := fun r => exists l reader, r = Some (l, reader) /\ length l = n /\ Forall is_u32 l).
    { intros s pos av Hp Ha. assert (Hz : 1 <= zlen (d_map d)) by (destruct (lz_enabled _); cbn [b2z] in D1; lia).
      destruct (stream_safe (d_code d) (d_map d) 0 (read_list (repeat 0 n)) ltac:(eapply within_safe; exact D7) ltac:(lia)) with (s := s) (pos := pos) (av := av) as (l & rr & pos' & av' & vs & E & R & F & Lp & La); [|exact Hp|exact Ha|].
      { apply below_read_list. apply Forall_forall. intros x Hx. apply repeat_spec in Hx. lia. }
      apply read_list_values in R as (-> & R). rewrite repeat_length in R. exists (Some (vs, rr)), pos', av'. split; [exact E|]. split; [|lia]. exists vs, rr. auto. }
    intros r (l & reader & -> & Hl & HF). destruct (existsb _ l) eqn:E8; [exact Bad|]. destruct (negb _); [exact Bad|].
    assert (F8 : Forall (fun h => 0 <= h < 256) (map w8 l)).
    { apply Forall_forall. intros x Hx. apply in_map_iff in Hx as (y & <- & _). unfold w8. change (2 ^ 8) with 256. apply Z.mod_pos_bound. lia. }
    apply ends_ret. destruct (mtf =? 1); [|apply finish_map_ok; [now rewrite map_length|exact Hn|exact F8]].
    rewrite (inverse_recall _ _ _ HL F8). apply finish_map_ok; [rewrite recall_length; now rewrite map_length|exact Hn|].
    apply recall_bytes; [apply bytes_byte_list|reflexivity|exact F8].
Qed.

Lemma decode_codes_ends M maps n disallow : (0 < n)%nat ->
  (forall n', (n' = n \/ (n' = S n /\ disallow = false)) -> (1 < n')%nat -> ends (maps n') (map_or_error n')) ->
  ends (decode_codes M maps n disallow) (code_or_error n).
Proof.
  intros Hn Hmaps. unfold decode_codes. assert (Bad : ends (Ret (Some None)) (code_or_error n)) by (apply ends_ret; exists None; split; [reflexivity|discriminate]).
  eapply ends_bind; [apply lz_ends|]. intros [s| |] Hs; [|exact Bad|exact Bad]. specialize (Hs s eq_refl). cbv zeta.
  eapply ends_bind with (Q := fun _ => True). { destruct (negb (s 0 =? 0)); [eapply ends_weaken; [apply config_ends; lia|]; auto|apply ends_ret; exact I]. }
  intros [lc|] _; [|exact Bad]. destruct (negb (s 0 =? 0) && disallow) eqn:Ed; [exact Bad|].
  set (en := negb (s 0 =? 0)) in *. set (n' := if en then S n else n).
  eapply ends_bind with (Q := map_or_error n').
  { destruct (Z.ltb_spec 1 (Z.of_nat n')) as [L|L].
    - apply Hmaps; [|lia]. unfold n'. destruct en; [right; split; [reflexivity|exact Ed]|now left].
    - apply ends_ret. eexists. split; [reflexivity|]. intros l nh E. injection E as <- <-. split; [apply repeat_length|]. split; [lia|]. assert (n' = 1%nat) as -> by (unfold n' in *; destruct en; lia). split; [repeat constructor; lia|]. intros h Hh. left. lia. }
  intros r (o & -> & Ho). destruct o as [(cmap & nh)|]; [|exact Bad]. destruct (Ho cmap nh eq_refl) as (M1 & M2 & M3 & M4).
  eapply ends_bind; [apply ends_rd; lia|]. intros pf _.
  eapply ends_bind with (Q := fun la => 0 <= la <= 15 /\ (pf =? 1 = true \/ 4 <= la <= 8)).
  { destruct (pf =? 1); [apply ends_ret; split; [lia|now left]|]. eapply ends_bind; [apply ends_rd; lia|]. intros b Hb. cbv beta in Hb. change (2 ^ 2) with 4 in Hb. apply ends_ret. split; [lia|right; lia]. }
  intros la (La & Lb). eapply ends_bind; [apply configs_ends; exact La|]. intros [cfgs|] Hc; [|exact Bad]. destruct (Hc cfgs eq_refl) as (C1 & C2).
  assert (Zc : zlen cfgs = nh) by (unfold zlen; lia). rewrite <- Zc in *.
  eapply ends_weaken; [apply codes_ends; [exact Lb|exact C2| |exact M3| |reflexivity]|].
  - intros E. cbn in E. cbn. unfold en in E. apply Bool.negb_true_iff, Z.eqb_neq in E. now apply Hs.
  - intros ->. unfold n' in M1. destruct en; cbn in M1; lia.
  - intros r (o & -> & H). exists o. split; [reflexivity|]. intros d E. destruct (H d E) as (D1 & D2 & D3 & D4 & D5 & D6 & D7 & D8). rewrite D1, D2, D3. cbn [lz_enabled].
    split; [unfold zlen; rewrite M1; unfold n'; destruct en; cbn [b2z]; lia|].
    split. { intros h. split; [apply M4|]. intros Hh. rewrite Forall_forall in M3. now apply M3. }
    split; [lia|]. split; [exact C2|]. split; [exact D5|]. split; [exact D6|]. split; [exact D7|].
    intros j Hj. apply D8. rewrite Forall_forall in M3. now apply M3.
Qed.

Theorem decode_histograms_ends M n disallow : lane_count (m_lanes M) -> (0 < n)%nat -> ends (decode_histograms M 3 n disallow) (code_or_error n).
Proof.
  intros HL Hn.
  assert (H1 : forall f, ends (decode_histograms M (S f) 1 true) (code_or_error 1)).
  { intros f. cbn [decode_histograms]. apply decode_codes_ends; [lia|]. intros n' [->|(_ & E)]; [lia|discriminate]. }
  assert (H2 : forall f b, ends (decode_histograms M (S (S f)) 1 b) (code_or_error 1)).
  { intros f b. cbn [decode_histograms]. apply decode_codes_ends; [lia|]. intros n' [->|(-> & _)] L; [lia|]. apply map_ends; [exact HL|lia|]. change (Z.of_nat 2 <=? 2) with true. apply (H1 f). }
  change (decode_histograms M 3 n disallow) with (decode_codes M (decode_context_map M (decode_histograms M 2 1)) n disallow).
  apply decode_codes_ends; [exact Hn|]. intros n' _ L. apply map_ends; [exact HL|lia|]. apply (H2 0%nat).
Qed.
