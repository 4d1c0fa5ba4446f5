(* The description of an entropy code: what the encoder writes is read back. *)
From Verif Require Import Base ListAux Wrap BitProg BitProgProofs FieldsModel FieldsSpec FieldsProofs BundleModel HeadersModel HybridUintModel HybridUintSpec HybridUintProofs CodesModel
  HuffSpec HuffSimple HuffRle HuffTreeTop HistoSpec HistoProofs HistoTop AliasSpec AliasProofs AnsSpec AnsProofs LzProofs AnsTop MtfSpec MtfProofs CodesSpec CodesSafe.
Ltac Zify.zify_post_hook ::= idtac.

(* ---- LZ77Params ---- *)

Lemma u32_some a b c d v : distr_ok a -> distr_ok b -> distr_ok c -> distr_ok d -> is_u32 v -> (exists w, u32_code a b c d w v) ->
  exists ws n, u32_write (enc4 a b c d) v = Some ws /\ u32_can_encode (enc4 a b c d) v = (true, n) /\ Forall field_ok ws /\
    parses (u32_read (enc4 a b c d)) (fields_bits ws) v.
Proof.
  intros Ha Hb Hc Hd Hv (w & Hw). pose proof (u32_write_spec a b c d v Ha Hb Hc Hd) as Hs. destruct (u32_write (enc4 a b c d) v) as [ws|] eqn:E.
  - destruct Hs as (F & _ & _ & C). exists ws, (zlen (fields_bits ws)). split; [reflexivity|]. split; [exact C|]. split; [exact F|]. now apply u32_roundtrip.
  - destruct Hs as (N & _). now apply N in Hw.
Qed.

Lemma lz_roundtrip lz s0 : lz_ok lz -> exists total fs s, bundle_write LZ77Params (lz_env lz) = Some (total, fs) /\ Forall field_ok fs /\
  parses (bundle_read LZ77Params s0) (fields_bits fs) (Loaded s) /\ s 0 = b2z (lz_enabled lz) /\
  (lz_enabled lz = true -> s 1 = min_symbol lz /\ s 2 = min_length lz).
Proof.
  intros Hlz. unfold lz_ok in Hlz. destruct (lz_enabled lz) eqn:En.
  - destruct (Hlz eq_refl) as (H1 & H2 & _).
    destruct (u32_some (DVal 224) (DVal 512) (DVal 4096) (DBits 15 8) (min_symbol lz)) as (w1 & n1 & E1 & C1 & F1 & P1); try (cbn; lia).
    { unfold is_u32. change (2 ^ 15) with 32768 in *. lia. }
    { eexists. apply uc3. replace (min_symbol lz) with (8 + (min_symbol lz - 8)) by lia. apply dc_bits. lia. }
    destruct (u32_some (DVal 3) (DVal 4) (DBits 2 5) (DBits 8 9) (min_length lz)) as (w2 & n2 & E2 & C2 & F2 & P2); try (cbn; lia).
    { unfold is_u32. change (2 ^ 8) with 256 in *. lia. }
    { destruct (Z.eq_dec (min_length lz) 3) as [->|]; [eexists; apply uc0; apply dc_val|]. destruct (Z.eq_dec (min_length lz) 4) as [->|]; [eexists; apply uc1; apply dc_val|].
      destruct (Z_lt_le_dec (min_length lz) 9).
      - eexists. apply uc2. replace (min_length lz) with (5 + (min_length lz - 5)) by lia. apply dc_bits. change (2 ^ 2) with 4. lia.
      - eexists. apply uc3. replace (min_length lz) with (9 + (min_length lz - 9)) by lia. apply dc_bits. lia. }
    exists (1 + n1 + n2), ((1, 1) :: w1 ++ w2), (upd (upd (upd s0 0 1) 1 (min_symbol lz)) 2 (min_length lz)).
    assert (L0 : lz_env lz 0 = 1) by (unfold lz_env; cbn [Z.eqb]; now rewrite En).
    split.
    { unfold bundle_write, bundle_can_encode, LZ77Params. cbn [steps]. unfold FBool, FU32. cbn [can_encode write]. unfold ce_field, wr_field, shown, idw. cbn [map coder_can_encode coder_write ce_env wr_env].
      rewrite L0. change (bits_can_encode 1 1) with (true, 1). change (bits_write 1 1) with (Some [(1, 1)]). cbn [ce_env wr_env ce_ok ce_bits ce_ext ce_pos wr_out wr_ok].
      replace (holds (isset 0) (lz_env lz)) with true by (unfold holds, isset, ev, HeadersModel.E1; cbn; now rewrite En). cbn [can_encode write]. cbn [map coder_can_encode coder_write ce_env wr_env ce_ok ce_bits ce_ext ce_pos wr_out wr_ok].
      change (lz_env lz 1) with (min_symbol lz). change (lz_env lz 2) with (min_length lz).
      change (U32 (Val 224) (Val 512) (Val 4096) (BitsOffset 15 8)) with (enc4 (DVal 224) (DVal 512) (DVal 4096) (DBits 15 8)).
      change (U32 (Val 3) (Val 4) (BitsOffset 2 5) (BitsOffset 8 9)) with (enc4 (DVal 3) (DVal 4) (DBits 2 5) (DBits 8 9)).
      rewrite E1, C1. cbn [ce_env wr_env ce_ok ce_bits ce_ext ce_pos wr_out wr_ok]. change (lz_env lz 2) with (min_length lz). rewrite E2, C2. cbn. reflexivity. }
    split; [constructor; [split; cbn; lia|apply Forall_app; split; assumption]|].
    split; [|split; [reflexivity|intros _; split; reflexivity]].
    rewrite fields_bits_cons, fields_bits_app. cbn [fst snd].
    unfold bundle_read. rewrite <- (app_nil_r (_ ++ _)). eapply (parses_bind _ _ _ _ (RGo (upd (upd (upd s0 0 1) 1 (min_symbol lz)) 2 (min_length lz)) (BundleModel.RS 0 0 true))); [|apply parses_ret].
    unfold LZ77Params. cbn [steps]. unfold FBool, FU32. cbn [read read_field]. unfold checked, bits_read, stored, idw.
    eapply parses_bind. { rewrite <- (app_nil_r (to_bits _ _)). eapply parses_bind; [apply parses_rd; lia|]. apply parses_check. apply parses_ret. }
    cbv beta iota. replace (holds (isset 0) (upd s0 0 1)) with true by reflexivity.
    eapply parses_bind. { rewrite <- (app_nil_r (fields_bits w1)). eapply parses_bind; [exact P1|]. apply parses_check. apply parses_ret. }
    cbv beta iota. rewrite <- (app_nil_r (fields_bits w2)). eapply parses_bind; [exact P2|]. apply parses_check. apply parses_ret.
  - exists 1, [(1, 0)], (upd s0 0 0). assert (L0 : lz_env lz 0 = 0) by (unfold lz_env; cbn [Z.eqb]; now rewrite En).
    split.
    { unfold bundle_write, bundle_can_encode, LZ77Params. cbn [steps]. unfold FBool, FU32. cbn [can_encode write]. unfold ce_field, wr_field, shown, idw. cbn [map coder_can_encode coder_write ce_env wr_env].
      rewrite L0. change (bits_can_encode 1 0) with (true, 1). change (bits_write 1 0) with (Some [(1, 0)]). cbn [ce_env wr_env ce_ok ce_bits ce_ext ce_pos wr_out wr_ok].
      replace (holds (isset 0) (lz_env lz)) with false by (unfold holds, isset, ev, HeadersModel.E1; cbn; now rewrite En). reflexivity. }
    split; [repeat constructor; cbn; lia|]. split; [|split; [reflexivity|discriminate]].
    unfold bundle_read. rewrite <- (app_nil_r (fields_bits _)). eapply (parses_bind _ _ _ _ (RGo (upd s0 0 0) (BundleModel.RS 0 0 true))); [|apply parses_ret].
    unfold LZ77Params. cbn [steps]. unfold FBool, FU32. cbn [read read_field]. unfold checked, bits_read, stored, idw.
    rewrite fields_bits_cons. eapply parses_bind. { cbn [fst snd]. rewrite <- (app_nil_r (to_bits _ _)). eapply parses_bind; [apply parses_rd; lia|]. apply parses_check. apply parses_ret. }
    cbv beta iota. replace (holds (isset 0) (upd s0 0 0)) with false by reflexivity. apply parses_ret.
Qed.

(* ---- prefix codes ---- *)

Lemma pop_firstn l : firstn (Z.to_nat (histogram_size l)) l = pop_trailing_zeros l.
Proof.
  unfold histogram_size. destruct (pop_spec l) as (n & E). rewrite E at 2. unfold zlen. rewrite Nat2Z.id. rewrite firstn_app, Nat.sub_diag, firstn_all. apply app_nil_r.
Qed.
Lemma pop_counted l s : 0 <= s < zlen l -> 0 < cnt l s -> znth (pop_trailing_zeros l) s = Some (cnt l s).
Proof.
  intros Hs Hc. destruct (pop_spec l) as (n & E). destruct (Z_lt_le_dec s (zlen (pop_trailing_zeros l))) as [L|L].
  - rewrite (znth_some _ s 0) by lia. f_equal. unfold cnt. rewrite E at 2. rewrite app_nth1; [reflexivity|]. unfold zlen in L. lia.
  - exfalso. unfold cnt in Hc. rewrite E in Hc. rewrite app_nth2 in Hc by (unfold zlen in L; lia). rewrite nth_repeat in Hc. lia.
Qed.
Lemma filter_pop l : filter (Z.ltb 0) (pop_trailing_zeros l) = filter (Z.ltb 0) l.
Proof.
  destruct (pop_spec l) as (n & E). rewrite E at 2. rewrite filter_app. replace (filter (Z.ltb 0) (repeat 0 n)) with (@nil Z); [now rewrite app_nil_r|].
  clear. induction n as [|n IH]; [reflexivity|]. cbn [repeat filter]. change (0 <? 0) with false. cbv iota. exact IH.
Qed.

(* the encoder's table knows the symbol s by a code word that the decoder's table reads *)
Definition word_of (infos : list sym_info) (t : htable) (s : Z) : Prop :=
  exists info, znth infos s = Some info /\ 0 <= depth info <= 15 /\ 0 <= bits info < 2 ^ depth info /\
    parses_buffered 15 (huff_read t) (to_bits (Z.to_nat (depth info)) (bits info)) (Some s).

Definition read_table (M : machine) (size : Z) : rprog (option (option htable)) :=
  if 1 <? size then read_from_bit_stream (m_huff M) (m_offset M) size
  else Ret (Some (Some (Z.shiftl 1 kHuffmanTableBits, fun _ => (0, 0)))).

Lemma zero_table : parses_buffered 15 (huff_read (Z.shiftl 1 kHuffmanTableBits, fun _ => (0, 0))) [] (Some 0).
Proof.
  intros pre post av Hav. unfold huff_read, kHuffmanTableBits. cbn [fst snd run_bits]. pose proof (bits_at_range (pre ++ [] ++ post) (zlen pre) 8 ltac:(lia)) as R.
  change (2 ^ 8) with 256 in R. replace ((0 <=? 8) && (8 <=? av)) with true by lia. unfold get. change (Z.shiftl 1 8) with 256.
  replace ((0 <=? bits_at (pre ++ [] ++ post) (zlen pre) 8) && (bits_at (pre ++ [] ++ post) (zlen pre) 8 <? 256)) with true by lia.
  change (8 <? 0) with false. cbv iota. cbn [run_bits]. replace ((0 <=? 0) && (0 <=? av)) with true by lia.
  exists (av - 0). change (zlen (@nil bool)) with 0. split; [reflexivity|lia].
Qed.

Lemma znth_combine {A B} (l1 : list A) (l2 : list B) i a b : znth l1 i = Some a -> znth l2 i = Some b -> znth (combine l1 l2) i = Some (a, b).
Proof.
  unfold znth. destruct (i <? 0); [discriminate|]. generalize (Z.to_nat i) as k. clear i. intros k. revert l1 l2.
  induction k as [|k IH]; intros [|x l1] [|y l2]; cbn; try discriminate; [congruence|]. apply IH.
Qed.
Lemma znth_map' {A B} (f : A -> B) l i a : znth l i = Some a -> znth (map f l) i = Some (f a).
Proof.
  unfold znth. destruct (i <? 0); [discriminate|]. apply map_nth_error.
Qed.

Lemma store_prefix_ok M counts : prefix_histogram counts ->
  exists fs infos t, store_prefix counts = Some (fs, infos) /\ Forall field_ok fs /\
    parses (read_table M (Z.max 1 (histogram_size counts))) (fields_bits fs) (Some (Some t)) /\
    forall s, 0 <= s < zlen counts -> 0 < cnt counts s -> word_of infos t s.
Proof.
  intros (Hlen & B & HB & Hu & Hm). unfold store_prefix, read_table. destruct (Z.leb_spec (histogram_size counts) 1) as [L|L].
  - replace (1 <? Z.max 1 (histogram_size counts)) with false by lia. do 3 eexists. split; [reflexivity|]. split; [constructor|]. split; [apply parses_ret|].
    intros s Hs Hc. pose proof (znth_some_inv _ _ _ (pop_counted _ _ Hs Hc)) as R. fold (histogram_size counts) in R. assert (s = 0) by lia. subst s.
    replace (histogram_size counts) with 1 by lia. eexists. split; [reflexivity|]. cbn [depth bits]. split; [lia|]. split; [cbn; lia|]. exact zero_table.
  - rewrite pop_firstn. replace (Z.max 1 (histogram_size counts)) with (histogram_size counts) by lia. replace (1 <? histogram_size counts) with true by lia.
    assert (HP : incl (pop_trailing_zeros counts) counts). { destruct (pop_spec counts) as (n & E). intros x Hx. rewrite E. apply in_or_app. now left. }
    assert (Hl : histogram_size counts <= zlen counts). { destruct (pop_spec counts) as (n & E). rewrite E at 2. rewrite zlen_app. unfold histogram_size. pose proof (zlen_nonneg (repeat 0 n)). lia. }
    destruct (build_and_store_ok (m_huff M) (m_offset M) (pop_trailing_zeros counts) B) as (fs & dep & bts & t & E & Ff & Ld & Lb & P & D).
    + unfold histogram_size in *. lia.
    + apply Forall_forall. intros x Hx. apply (proj1 (Forall_forall _ _) HB). now apply HP.
    + now rewrite filter_pop.
    + now rewrite filter_pop.
    + rewrite E. do 3 eexists. split; [reflexivity|]. split; [exact Ff|]. split; [exact P|].
      intros s Hs Hc. destruct (D s _ (pop_counted _ _ Hs Hc) Hc) as (l & v & E1 & E2 & H1 & H2 & HP2).
      eexists. split; [apply (znth_map' _ _ _ (l, v)); apply znth_combine; eassumption|]. cbn [depth bits fst snd]. split; [exact H1|].
      destruct (Z.eqb_spec l 0) as [->|N]; [|split; assumption]. change (2 ^ 0) with 1 in *. split; [lia|]. now replace 0 with v at 2 by lia.
Qed.

Lemma sizes_rt sizes : Forall (fun x => 1 <= x <= 2 ^ 15) sizes ->
  Forall field_ok (flat_map (fun x => store_var_len 4 (x - 1)) sizes) /\
  parses (read_sizes (length sizes) (2 ^ 15)) (fields_bits (flat_map (fun x => store_var_len 4 (x - 1)) sizes)) (Some sizes).
Proof.
  induction 1 as [|x l Hx _ (IF & IP)]; cbn [flat_map length read_sizes]; [split; [constructor|apply parses_ret]|].
  destruct (var_len_ok 4 (x - 1) ltac:(lia)) as (F & P). { change (2 ^ 2 ^ 4) with 65536. change (2 ^ 15) with 32768 in *. lia. }
  split; [apply Forall_app; split; assumption|]. rewrite fields_bits_app. eapply parses_bind; [exact P|]. cbv beta zeta.
  replace (w16 (x - 1 + 1)) with x. 2:{ unfold w16. rewrite Z.mod_small; [lia|]. change (2 ^ 16) with 65536. change (2 ^ 15) with 32768 in *. lia. }
  replace (2 ^ 15 <? x) with false by lia. eapply parses_bind_nil; [exact IP|]. apply parses_ret.
Qed.

Lemma tables_rt M lz cfgs : forall hists c maxb, Forall prefix_histogram hists -> 0 <= c -> c + zlen hists <= zlen cfgs ->
  exists fs infos ts m, store_all store_prefix hists = Some (fs, infos) /\ Forall field_ok fs /\
    parses (read_tables M lz cfgs (map (fun h => Z.max 1 (histogram_size h)) hists) c maxb) (fields_bits fs) (Some (Some (ts, m))) /\
    forall j counts, znth hists j = Some counts -> exists info t, znth infos j = Some info /\ znth ts j = Some t /\
      forall s, 0 <= s < zlen counts -> 0 < cnt counts s -> word_of info t s.
Proof.
  induction hists as [|h hists IH]; intros c maxb HF Hc Hl; cbn [store_all map read_tables].
  - do 4 eexists. split; [reflexivity|]. split; [constructor|]. split; [apply parses_ret|]. intros j counts Hj. apply znth_bound in Hj. change (zlen (@nil (list Z))) with 0 in Hj. lia.
  - inversion HF as [|? ? Hh HF']; subst. rewrite zlen_cons in Hl. pose proof (zlen_nonneg hists).
    destruct (store_prefix_ok M h Hh) as (f1 & i1 & t1 & E1 & F1 & P1 & W1). destruct (znth_in cfgs c ltac:(lia)) as (cfg & Ec).
    destruct (update_all_ok lz cfgs c cfg Ec (table_symbols t1) maxb) as (m1 & Eu & _).
    destruct (IH (c + 1) m1 HF' ltac:(lia) ltac:(lia)) as (fs & infos & ts & m & E & F & P & W).
    rewrite E1, E. do 4 eexists. split; [reflexivity|]. split; [apply Forall_app; split; assumption|]. split.
    + rewrite fields_bits_app. eapply parses_bind; [exact P1|]. cbv beta iota. rewrite Eu. eapply parses_bind_nil; [exact P|]. apply parses_ret.
    + cbn [fst snd]. intros j counts Hj. pose proof (znth_bound _ _ _ Hj) as Bj. destruct (Z.eq_dec j 0) as [->|N].
      * change (Some h = Some counts) in Hj. apply Some_eq in Hj. subst counts. exists i1, t1. split; [reflexivity|]. split; [reflexivity|exact W1].
      * rewrite znth_cons in Hj by lia. destruct (W (j - 1) counts Hj) as (info & t & A & B & C). exists info, t. rewrite !znth_cons by lia. auto.
Qed.

(* ---- ANS ---- *)

Lemma init_pop a b la mem : pop_trailing_zeros a = pop_trailing_zeros b -> init_alias_table a la mem = init_alias_table b la mem.
Proof. intros E. unfold init_alias_table. now rewrite E. Qed.

Lemma pop_app_zeros l n : pop_trailing_zeros (l ++ repeat 0 n) = pop_trailing_zeros l.
Proof.
  unfold pop_trailing_zeros. rewrite rev_app_distr. f_equal. replace (rev (repeat 0 n)) with (repeat 0 n).
  - induction n as [|n IH]; [reflexivity|]. cbn [repeat app AliasModel.drop_zeros]. exact IH.
  - clear. induction n as [|n IH]; [reflexivity|]. cbn [repeat rev]. rewrite <- IH. clear. induction n as [|n IH]; [reflexivity|]. cbn [repeat app]. now f_equal.
Qed.
Lemma pop_last_pos l x : x <> 0 -> pop_trailing_zeros (l ++ [x]) = l ++ [x].
Proof.
  intros N. unfold pop_trailing_zeros. rewrite rev_app_distr. cbn [rev app]. replace (AliasModel.drop_zeros (x :: rev l)) with (x :: rev l).
  - cbn [rev]. now rewrite rev_involutive.
  - destruct x; [contradiction|reflexivity|reflexivity].
Qed.
Lemma all_zeros l : Forall (fun c => c = 0) l -> l = repeat 0 (length l).
Proof. induction 1 as [|x l -> _ IH]; [reflexivity|]. cbn. now rewrite <- IH. Qed.

Lemma normalized_coded h : normalized h -> 0 < alphabet_size h ->
  is_histogram (coded_with h) /\ zlen (coded_with h) = alphabet_size h /\ pop_trailing_zeros (coded_with h) = coded_with h /\
  pop_trailing_zeros (e_counts h) = coded_with h /\
  forall s, 0 <= s < zlen (e_counts h) -> 0 < cnt (e_counts h) s -> znth (coded_with h) s = Some (cnt (e_counts h) s).
Proof.
  intros (Hn & Hlen & Hz & Hnn & Hsum & Hlast & _) Hp. specialize (Hsum Hp). specialize (Hlast Hp). unfold coded_with. replace (alphabet_size h =? 0) with false by lia.
  set (n := alphabet_size h) in *. set (counts := e_counts h) in *. set (a := firstn (Z.to_nat n) counts).
  assert (Ec : counts = a ++ repeat 0 (length (skipn (Z.to_nat n) counts))). { rewrite <- (all_zeros _ Hz). symmetry. apply firstn_skipn. }
  assert (La : zlen a = n). { unfold zlen, a in *. rewrite firstn_length. lia. }
  assert (Pa : pop_trailing_zeros a = a).
  { destruct (@exists_last _ a) as (l & x & Ea). { intros E. rewrite E in La. change (zlen (@nil Z)) with 0 in La. lia. }
    rewrite Ea. apply pop_last_pos. unfold cnt in Hlast. rewrite Ec, Ea in Hlast. rewrite <- app_assoc in Hlast. assert (Ll : Z.to_nat (n - 1) = length l). { rewrite Ea in La. unfold zlen in La. rewrite app_length in La. cbn in La. lia. }
    rewrite Ll, app_nth2, Nat.sub_diag in Hlast by lia. cbn in Hlast. lia. }
  split; [split|].
  - rewrite Ec in Hnn. apply Forall_app in Hnn. apply Hnn.
  - rewrite Ec in Hsum. rewrite <- Hsum. symmetry. apply zsum_app_zeros.
  - split; [exact La|]. split; [exact Pa|]. split; [rewrite Ec, pop_app_zeros; exact Pa|]. intros s Hs Hc.
    rewrite <- (pop_counted _ _ Hs Hc). f_equal. rewrite Ec, pop_app_zeros. now rewrite Pa.
Qed.

Lemma store_ans_ok mem mem' la h : 4 <= la <= 8 -> normalized h -> 0 < alphabet_size h <= 2 ^ la ->
  exists fs infos t t', store_ans mem la h = Some (fs, infos) /\ Forall field_ok fs /\
    parses read_histogram (fields_bits fs) (Some (Some (coded_with h))) /\
    init_alias_table (coded_with h) la mem' = Some t /\ init_alias_table (coded_with h) la mem = Some t' /\ build_info_table la t' (coded_with h) = Some infos.
Proof.
  intros Hla Hn Hs. destruct (normalized_coded h Hn ltac:(lia)) as (Hh & Hl & P1 & P2 & _). destruct (histogram_roundtrip h Hn) as (fs & E & F & P).
  assert (Hl2 : zlen (pop_trailing_zeros (coded_with h)) <= 2 ^ la) by (rewrite P1; lia).
  destruct (alias_table_right (coded_with h) la mem' Hla Hh Hl2) as (t & Et & _). destruct (alias_table_right (coded_with h) la mem Hla Hh Hl2) as (t' & Et' & Sl).
  destruct (build_info_right (coded_with h) la t' Sl) as (infos & Ei & _).
  - destruct Hh as (H1 & H2). apply Forall_forall. intros v Hv. split; [now apply (proj1 (Forall_forall _ _) H1)|]. rewrite <- H2. clear -H1 Hv. revert Hv. induction H1 as [|x l Hx Hl IH]; intros []; unfold zsum in *; cbn [fold_right].
    + subst. enough (0 <= fold_right Z.add 0 l) by lia. clear -Hl. induction Hl; cbn [fold_right]; lia.
    + specialize (IH H). lia.
  - intros E0. rewrite E0 in Hl. change (zlen (@nil Z)) with 0 in Hl. lia.
  - exists fs, infos, t, t'. split; [|auto]. unfold store_ans. rewrite (init_pop (e_counts h) (coded_with h)) by now rewrite P1. rewrite Et'. replace (alphabet_size h <=? 0) with false by lia.
    unfold coded_with in Ei. replace (alphabet_size h =? 0) with false in Ei by lia. now rewrite Ei, E.
Qed.

Lemma alias_rt M mem la lz cfgs : 4 <= la <= 8 -> forall hs c maxb, Forall (fun h => normalized h /\ 0 < alphabet_size h <= 2 ^ la) hs -> 0 <= c -> c + zlen hs <= zlen cfgs ->
  exists fs infos ts m ds, store_all (store_ans mem la) hs = Some (fs, infos) /\ Forall field_ok fs /\
    parses (read_alias_tables M la lz cfgs (length hs) c maxb) (fields_bits fs) (Some (Some (ts, m, ds))) /\
    forall j h, znth hs j = Some h -> exists info t t', znth infos j = Some info /\ znth ts j = Some t /\
      init_alias_table (coded_with h) la (m_alias M) = Some t /\ init_alias_table (coded_with h) la mem = Some t' /\ build_info_table la t' (coded_with h) = Some info.
Proof.
  intros Hla. induction hs as [|h hs IH]; intros c maxb HF Hc Hl; cbn [store_all length read_alias_tables].
  - do 5 eexists. split; [reflexivity|]. split; [constructor|]. split; [apply parses_ret|]. intros j h Hj. apply znth_bound in Hj. change (zlen (@nil ehist)) with 0 in Hj. lia.
  - inversion HF as [|? ? (Hh & Hs) HF']; subst. rewrite zlen_cons in Hl. pose proof (zlen_nonneg hs).
    destruct (store_ans_ok mem (m_alias M) la h Hla Hh Hs) as (f1 & i1 & t1 & t1' & E1 & F1 & P1 & T1 & T1' & B1). destruct (normalized_coded h Hh ltac:(lia)) as (_ & Lc & Pc & _ & _).
    destruct (znth_in cfgs c ltac:(lia)) as (cfg & Ec). destruct (update_all_ok lz cfgs c cfg Ec (symbols_of (coded_with h)) maxb) as (m1 & Eu & _).
    destruct (IH (c + 1) m1 HF' ltac:(lia) ltac:(lia)) as (fs & infos & ts & m & ds & E & F & P & W).
    rewrite E1, E. do 5 eexists. split; [reflexivity|]. split; [apply Forall_app; split; assumption|]. split.
    + rewrite fields_bits_app. eapply parses_bind; [exact P1|]. cbv beta iota zeta. rewrite Z.shiftl_1_l. replace (2 ^ la <? zlen (coded_with h)) with false by lia. rewrite Pc, Eu, T1.
      eapply parses_bind_nil; [exact P|]. apply parses_ret.
    + intros j h' Hj. pose proof (znth_bound _ _ _ Hj) as Bj. destruct (Z.eq_dec j 0) as [->|N].
      * change (Some h = Some h') in Hj. apply Some_eq in Hj. subst h'. exists i1, t1, t1'. auto.
      * rewrite znth_cons in Hj by lia. destruct (W (j - 1) h' Hj) as (info & t & t' & A). exists info, t, t'. rewrite !znth_cons by lia. exact A.
Qed.

(* ---- context maps ---- *)

Lemma distinct_all l : forall seen, exists k, NoDup k /\ zlen k = count_distinct seen l /\ forall x, In x k <-> In x l /\ ~ In x seen.
Proof.
  induction l as [|x l IH]; intros seen; cbn [count_distinct].
  - exists []. split; [constructor|]. split; [reflexivity|]. intros x; split; [intros []|intros ([] & _)].
  - destruct (existsb (Z.eqb x) seen) eqn:E.
    + apply existsb_exists in E as (y & Hy & E). apply Z.eqb_eq in E. subst y. destruct (IH seen) as (k & A & B & C). exists k. split; [exact A|]. split; [exact B|].
      intros y. rewrite C. split; intros (H1 & H2); split; auto; [now right|]. destruct H1 as [<-|H1]; [contradiction|exact H1].
    + assert (N : ~ In x seen). { intros H. assert (T : existsb (Z.eqb x) seen = true) by (apply existsb_exists; exists x; split; [exact H|apply Z.eqb_refl]). congruence. }
      destruct (IH (x :: seen)) as (k & A & B & C). exists (x :: k). split; [constructor; [|exact A]|].
      * intros H. apply C in H as (_ & H). apply H. now left.
      * split; [rewrite zlen_cons; lia|]. intros y. split.
        -- intros [<-|H]; [split; [now left|exact N]|]. apply C in H as (H1 & H2). split; [now right|]. intros H. apply H2. now right.
        -- intros ([<-|H1] & H2); [now left|]. destruct (Z.eq_dec x y) as [<-|D]; [now left|]. right. apply C. split; [exact H1|]. intros [H|H]; contradiction.
Qed.

Lemma finish_onto l n : map_onto l n -> finish_map l = Some (Some (l, n)).
Proof.
  intros (Hn & Ho). assert (Em : fold_right Z.max 0 l + 1 = n).
  { assert (A : forall x, In x l -> x <= fold_right Z.max 0 l). { clear. intros x. induction l as [|y l IH]; intros []; cbn [fold_right]; [subst; lia|specialize (IH H); lia]. }
    assert (B : fold_right Z.max 0 l <= n - 1). { assert (F : forall x, In x l -> x <= n - 1) by (intros x Hx; apply Ho in Hx; lia). clear -F Hn. induction l as [|y l IH]; cbn [fold_right]; [lia|]. pose proof (F y (or_introl eq_refl)). specialize (IH (fun x Hx => F x (or_intror Hx))). lia. }
    assert (C : In (n - 1) l) by (apply Ho; lia). specialize (A _ C). lia. }
  unfold finish_map. rewrite Em. replace (verify_context_map l n) with true; [reflexivity|]. symmetry. unfold verify_context_map. apply andb_true_intro. split.
  - apply forallb_forall. intros x Hx. apply Ho in Hx. lia.
  - destruct (distinct_all l []) as (k & A & B & C). rewrite <- B. apply Z.eqb_eq.
    assert (Nz : forall m z, NoDup (zseq z m)). { clear. intros m. induction m as [|m IH]; intros z; cbn [zseq]; [constructor|]. constructor; [|apply IH]. intros H. apply zseq_in in H. lia. }
    assert (L1 : (length k <= length (zseq 0 (Z.to_nat n)))%nat). { apply NoDup_incl_length; [exact A|]. intros x Hx. apply C in Hx as (Hx & _). apply Ho in Hx. apply in_zseq. lia. }
    assert (L2 : (length (zseq 0 (Z.to_nat n)) <= length k)%nat). { apply NoDup_incl_length; [apply Nz|]. intros x Hx. apply zseq_in in Hx. apply C. split; [apply Ho; lia|intros []]. }
    rewrite length_zseq in *. unfold zlen. lia.
Qed.

Lemma entries_rt b l : 0 <= b <= 8 -> Forall (fun e => 0 <= e < 2 ^ b) l ->
  Forall field_ok (map (fun e => (b, e)) l) /\ parses (read_entries (length l) b) (fields_bits (map (fun e => (b, e)) l)) l.
Proof.
  intros Hb. induction 1 as [|e l He _ (IF & IP)]; cbn [map length read_entries]; [split; [constructor|apply parses_ret]|].
  split; [constructor; [split; cbn [fst snd]; lia|exact IF]|]. rewrite fields_bits_cons. cbn [fst snd]. eapply parses_bind; [apply parses_rd; lia|].
  eapply parses_bind_nil; [exact IP|]. apply parses_ret.
Qed.

(* ---- the whole description ---- *)

(* The tables on both sides belong together, for all symbols that were counted. *)
Definition code_for (p : plan) (codes : enc_codes) (d : decoded) : Prop :=
  codes_match codes (d_code d) /\ context_map codes = p_map p /\ d_map d = p_map p /\ e_uint_config codes = p_configs p /\ e_lz77 codes = p_lz p /\
  distance_context (lz77 (d_code d)) = last (p_map p) 0 /\ forall j s, counted p j s -> codable codes (d_code d) j s.

Lemma planned_tokens p codes d off ts : code_for p codes d -> planned p off ts -> tokens_ok codes (d_code d) off ts.
Proof.
  intros (_ & Ec & _ & Eu & El & Ed & Hc).
  assert (T : forall t j s, planned_token p off t j s -> coded_token codes (d_code d) off t j s).
  { intros t j s (A & B & cfg & tok & nb & b & H1 & H2 & H3 & H4 & H5). split; [exact A|]. rewrite Ec, El, Eu. split; [exact B|]. exists cfg, tok, nb, b. split; [exact H1|]. split; [exact H2|]. split; [exact H3|]. split; [exact H4|]. now apply Hc. }
  induction 1 as [|c v j s ts Ht Hs _ IH|c n j s c' dd s' ts Hl Ht Hn Ht' _ IH].
  - constructor.
  - econstructor; [apply T; exact Ht|rewrite El; exact Hs|exact IH].
  - econstructor; [now rewrite El|apply T; exact Ht|now rewrite El|rewrite Ed; apply T; exact Ht'|exact IH].
Qed.

Lemma onto_single l n : map_onto l n -> zlen l <= 1 -> l = repeat 0 1 /\ n = 1.
Proof.
  intros (Hn & Ho) Hl. destruct l as [|x [|y l]].
  - exfalso. apply (proj2 (Ho 0) ltac:(lia)).
  - assert (x = 0). { destruct (proj2 (Ho 0) ltac:(lia)) as [E|[]]. exact E. } subst x. split; [reflexivity|].
    destruct (Z.eq_dec n 1) as [E|N]; [exact E|]. destruct (proj2 (Ho 1) ltac:(lia)) as [E|[]]. discriminate.
  - rewrite !zlen_cons in Hl. pose proof (zlen_nonneg l). lia.
Qed.

Lemma ans_codes_rt M mem p lz : Forall (hconfig_codable (p_log_alpha p)) (p_configs p) -> histograms_ok p -> lz = lz -> exists fs infos d,
  (if p_prefix p then store_all store_prefix (p_histograms p) else store_all (store_ans mem (p_log_alpha p)) (p_normalized p)) = Some (fs, infos) /\
  (let sizes := if p_prefix p then flat_map (fun c => store_var_len 4 (Z.max 1 (histogram_size c) - 1)) (p_histograms p) else [] in
   Forall field_ok (sizes ++ fs) /\
   parses (decode_ans_codes M (p_prefix p) (p_log_alpha p) lz (p_configs p) (p_map p)) (fields_bits (sizes ++ fs)) (Some (Some d))) /\
  use_prefix_code (d_code d) = p_prefix p /\ uint_config (d_code d) = p_configs p /\ lz77 (d_code d) = lz /\ d_map d = p_map p /\
  forall j s codes, encoding_info codes = infos -> e_use_prefix codes = p_prefix p -> counted p j s -> codable codes (d_code d) j s.
Proof.
  intros Hcfg Hh _. unfold histograms_ok in Hh. unfold decode_ans_codes, counted. destruct (p_prefix p) eqn:Hp.
  - destruct Hh as (Hla & Hn & HF). destruct (tables_rt M lz (p_configs p) (p_histograms p) 0 0 HF ltac:(lia) ltac:(lia)) as (fs & infos & ts & m & E & F & P & W).
    set (szs := map (fun h => Z.max 1 (histogram_size h)) (p_histograms p)) in *.
    destruct (sizes_rt szs) as (F2 & P2).
    { unfold szs. apply Forall_forall. intros x Hx. apply in_map_iff in Hx as (h & <- & Hin). pose proof (proj1 (Forall_forall _ _) HF h Hin) as (HL & _).
      destruct (pop_spec h) as (k & Ek). assert (histogram_size h <= zlen h) by (rewrite Ek at 2; rewrite zlen_app; unfold histogram_size; pose proof (zlen_nonneg (repeat 0 k)); lia). change (2 ^ 15) with 32768 in *. lia. }
    assert (Ef : flat_map (fun c => store_var_len 4 (Z.max 1 (histogram_size c) - 1)) (p_histograms p) = flat_map (fun x => store_var_len 4 (x - 1)) szs).
    { unfold szs. clear. induction (p_histograms p) as [|h l IH]; [reflexivity|]. cbn [flat_map map]. now rewrite IH. }
    exists fs, infos, (Decoded (AnsCode [] ts true (p_log_alpha p) (p_configs p) lz) (p_map p) m (repeat (-1) (length (p_configs p)))).
    split; [exact E|]. cbv zeta. rewrite Ef. split; [split; [apply Forall_app; split; assumption|]|].
    + rewrite fields_bits_app. replace (length (p_configs p)) with (length szs) at 1. 2:{ unfold szs. rewrite map_length. unfold zlen in Hn. lia. }
      rewrite Hla, Z.shiftl_1_l. eapply parses_bind; [exact P2|]. cbv beta iota. eapply parses_bind_nil; [exact P|]. apply parses_ret.
    + cbn [d_code d_map use_prefix_code uint_config lz77]. do 4 (split; [reflexivity|]). intros j s codes Ei Eu (counts & Hj & Hs & Hc). unfold codable. rewrite Eu.
      destruct (W j counts Hj) as (info & t & A & B & C). destruct (C s Hs Hc) as (i & I1 & I2 & I3 & I4). exists info, i, t. rewrite Ei. cbn [huffman_data]. auto 10.
  - destruct Hh as (Hla & Hn & HF). destruct (alias_rt M mem (p_log_alpha p) lz (p_configs p) ltac:(lia) (p_normalized p) 0 0 HF ltac:(lia) ltac:(lia)) as (fs & infos & ts & m & ds & E & F & P & W).
    exists fs, infos, (Decoded (AnsCode ts [] false (p_log_alpha p) (p_configs p) lz) (p_map p) m ds).
    split; [exact E|]. cbv zeta. cbn [app]. split; [split; [exact F|]|].
    + replace (length (p_configs p)) with (length (p_normalized p)) by (unfold zlen in Hn; lia). eapply parses_bind_nil; [exact P|]. apply parses_ret.
    + cbn [d_code d_map use_prefix_code uint_config lz77]. do 4 (split; [reflexivity|]). intros j s codes Ei Eu (h & Hj & Hs & Hc). unfold codable. rewrite Eu.
      destruct (W j h Hj) as (info & t & t' & A & B & C & D & G). assert (Hin : In h (p_normalized p)) by (unfold znth in Hj; destruct (j <? 0); [discriminate|]; eapply nth_error_In; exact Hj).
      destruct (proj1 (Forall_forall _ _) HF h Hin) as (N1 & N2). destruct (normalized_coded h N1 ltac:(lia)) as (Hh & _ & _ & _ & Hz).
      eapply built_tables_match; cbn [log_alpha_size alias_tables]; [lia|exact Hh|exact C|exact B|exact D|exact G|now rewrite Ei|apply Hz; assumption|exact Hc].
Qed.

Lemma codes_rt M mem wm maps n p disallow : plan_ok n p -> (disallow = true -> lz_enabled (p_lz p) = false) ->
  (1 < zlen (p_map p) -> exists mf, wm (p_map p) (zlen (p_configs p)) = Some mf /\ Forall field_ok mf /\
     parses (maps (length (p_map p))) (fields_bits mf) (Some (Some (p_map p, zlen (p_configs p))))) ->
  exists fs codes d, encode_codes mem wm p = Some (fs, codes) /\ Forall field_ok fs /\
    parses (decode_codes M maps n disallow) (fields_bits fs) (Some (Some d)) /\ code_for p codes d.
Proof.
  intros (Hlz & Hmap & Honto & Hcfg & Hh) Hdis Hwm.
  assert (Hla : 0 <= p_log_alpha p <= 15). { unfold histograms_ok in Hh. destruct (p_prefix p); lia. }
  destruct (lz_roundtrip (p_lz p) (lz_env lz_init) Hlz) as (total & f1 & s & E1 & F1 & P1 & S0 & S12).
  set (en := lz_enabled (p_lz p)) in *.
  assert (S0' : negb (s 0 =? 0) = en) by (rewrite S0; now destruct en).
  set (f2 := if en then uint_config_write 8 (length_uint_config (p_lz p)) else []).
  set (lc := if en then length_uint_config (p_lz p) else length_uint_config lz_init).
  assert (P2 : Forall field_ok f2 /\ parses (if en then uint_config_read 8 else Ret (Some (length_uint_config lz_init))) (fields_bits f2) (Some lc)).
  { unfold f2, lc, lz_ok in *. fold en in Hlz. destruct en; [|split; [constructor|apply parses_ret]]. apply config_roundtrip; [lia|]. now destruct (Hlz eq_refl) as (_ & _ & Hc). }
  set (n' := if en then S n else n). assert (Hn' : length (p_map p) = n'). { unfold n', zlen in *. destruct en; cbn [b2z] in Hmap; lia. }
  assert (M3 : exists f3, (if 1 <? zlen (p_map p) then wm (p_map p) (zlen (p_configs p)) else Some []) = Some f3 /\ Forall field_ok f3 /\
     parses (if 1 <? Z.of_nat n' then maps n' else Ret (Some (Some (repeat 0 n', 1)))) (fields_bits f3) (Some (Some (p_map p, zlen (p_configs p))))).
  { assert (Ez : Z.of_nat n' = zlen (p_map p)) by (unfold zlen; lia). rewrite Ez. destruct (Z.ltb_spec 1 (zlen (p_map p))) as [L|L].
    - rewrite <- Hn'. now apply Hwm.
    - exists []. split; [reflexivity|]. split; [constructor|]. destruct (onto_single _ _ Honto L) as (A & B). rewrite B. replace n' with 1%nat. 2:{ rewrite <- Hn', A. reflexivity. } rewrite A. apply parses_ret. }
  destruct M3 as (f3 & E3 & F3 & P3).
  set (lz := LZ77 en (s 1) (s 2) lc (last (p_map p) 0)).
  destruct (ans_codes_rt M mem p lz Hcfg Hh eq_refl) as (f4 & infos & d & E4 & (F4 & P4) & D1 & D2 & D3 & D4 & D5).
  set (sizes := if p_prefix p then flat_map (fun c => store_var_len 4 (Z.max 1 (histogram_size c) - 1)) (p_histograms p) else []) in *.
  set (kind := (1, b2z (p_prefix p)) :: (if p_prefix p then [] else [(2, p_log_alpha p - 5)])).
  destruct (configs_roundtrip (p_log_alpha p) ltac:(lia) (p_configs p) Hcfg) as (F5 & P5).
  exists (f1 ++ f2 ++ f3 ++ kind ++ uint_configs_write (p_log_alpha p) (p_configs p) ++ sizes ++ f4), (EncCodes infos (p_prefix p) (p_configs p) (p_lz p) (p_map p)), d.
  split.
  { unfold encode_codes. rewrite E1. cbv zeta. replace (if p_prefix p then zlen (p_histograms p) else zlen (p_normalized p)) with (zlen (p_configs p)).
    2:{ unfold histograms_ok in Hh. destruct (p_prefix p); lia. } rewrite E3, E4. reflexivity. }
  split.
  { apply Forall_app; split; [exact F1|]. apply Forall_app; split; [apply P2|]. apply Forall_app; split; [exact F3|]. apply Forall_app; split; [|apply Forall_app; split; assumption].
    unfold kind, histograms_ok in *. destruct (p_prefix p); (constructor; [split; cbn; lia|]); constructor; [|constructor]. split; cbn [fst snd]; [lia|]. change (2 ^ 2) with 4. lia. }
  split.
  - rewrite !fields_bits_app. unfold decode_codes. eapply parses_bind; [exact P1|]. cbv beta iota zeta. rewrite S0'. eapply parses_bind; [apply P2|]. cbv beta iota.
    replace (en && disallow) with false. 2:{ destruct disallow; [|now destruct en]. rewrite (Hdis eq_refl). reflexivity. } cbv iota. fold n'.
    eapply parses_bind; [exact P3|]. cbv beta iota. fold lz. unfold kind. rewrite fields_bits_cons, <- app_assoc. cbn [fst snd].
    eapply parses_bind; [apply parses_rd; [lia|destruct (p_prefix p); cbn; lia]|]. cbv beta.
    replace (b2z (p_prefix p) =? 1) with (p_prefix p) by now destruct (p_prefix p).
    eapply (parses_bind _ _ _ _ (p_log_alpha p)).
    + unfold histograms_ok in Hh. destruct (p_prefix p). { replace (p_log_alpha p) with 15 by lia. apply parses_ret. }
      rewrite fields_bits_cons. cbn [fst snd]. eapply parses_bind; [apply parses_rd; [lia|change (2 ^ 2) with 4; lia]|]. cbv beta. replace (p_log_alpha p - 5 + 5) with (p_log_alpha p) by lia. apply parses_ret.
    + replace (Z.to_nat (zlen (p_configs p))) with (length (p_configs p)) by (unfold zlen; lia). eapply parses_bind; [exact P5|]. cbv beta iota. rewrite <- fields_bits_app. exact P4.
  - assert (HO : forall las c, las <= 15 -> hconfig_codable las c -> hconfig_ok c). { intros las c Hl (A & B & C & D & _). unfold hconfig_ok. lia. }
    split; [|split; [reflexivity|]; split; [exact D4|]; split; [reflexivity|]; split; [reflexivity|]; split; [now rewrite D3|]; intros j s' Hc; apply D5; auto].
    unfold codes_match. cbn [e_use_prefix e_uint_config e_lz77 context_map]. rewrite D1, D2, D3. split; [reflexivity|]. split; [reflexivity|].
    split; [eapply Forall_impl; [|exact Hcfg]; intros c; apply HO; lia|]. split; [reflexivity|]. split.
    + intros En. fold en in En. destruct (S12 En) as (Q1 & Q2). unfold lz_ok in Hlz. fold en in Hlz. destruct (Hlz En) as (L1 & L2 & L3). unfold lz. cbn [min_symbol min_length length_uint_config]. rewrite Q1, Q2.
      unfold lc. rewrite En. change (2 ^ 16) with 65536. change (2 ^ 15) with 32768 in *. change (2 ^ 8) with 256 in *. repeat (split; [first [reflexivity|lia]|]). apply (HO 8); [lia|exact L3].
    + intros L. destruct (onto_single _ _ Honto L) as (A & _). rewrite A. repeat constructor.
Qed.

Lemma run_zeros n : 0 < n -> forall l, Forall (fun x : option Z * Z => fst x = Some 0 \/ fst x = None) l ->
  run_toks n (read_list (repeat 0 (length l))) l = Some (map snd l, []).
Proof.
  intros Hn l HF. assert (G : forall A l2 (f : list Z -> tprog A), run_toks n (tbind (read_list (repeat 0 (length l))) f) (l ++ l2) = run_toks n (f (map snd l)) l2).
  { intros A l2. induction HF as [|(c, v) l Hc _ IH]; intros f; cbn [length repeat read_list tbind map app]; [reflexivity|]. cbn [run_toks fst snd] in *.
    replace ((0 <=? 0) && (0 <? n) && match c with Some c0 => c0 =? 0 | None => true end) with true by (replace (0 <? n) with true by lia; destruct Hc as [-> | ->]; reflexivity).
    rewrite <- (IH (fun vs => f (v :: vs))). clear. generalize (l ++ l2) as l'. generalize (read_list (repeat 0 (length l))) as q. fix IHq 1. intros [x|ctx k] l'; cbn [tbind run_toks]; [reflexivity|].
    destruct l' as [|(c', v') l']; [reflexivity|]. destruct (_ && _ && _); [|reflexivity]. apply IHq. }
  specialize (G _ [] TRet). rewrite app_nil_r in G. cbn [run_toks] in G. rewrite <- G. clear. generalize (read_list (repeat 0 (length l))) as q. revert l.
  fix IHq 2. intros l [x|ctx k]; cbn [tbind run_toks]; [reflexivity|]. destruct l as [|(c', v') l']; [reflexivity|]. destruct (_ && _ && _); [|reflexivity]. apply IHq.
Qed.

Lemma map_rt M mem hists mp cmap nh : lane_count (m_lanes M) -> map_onto cmap nh -> map_plan_ok mp cmap nh ->
  (forall um q ts mp', mp = MCoded um q ts mp' -> plan_ok 1 q -> (zlen cmap <= 2 -> lz_enabled (p_lz q) = false) ->
     (1 < zlen (p_map q) -> map_plan_ok mp' (p_map q) (zlen (p_configs q))) ->
     exists fs codes d, encode_codes mem (encode_map mem mp') q = Some (fs, codes) /\ Forall field_ok fs /\
       parses (hists (Z.of_nat (length cmap) <=? 2)) (fields_bits fs) (Some (Some d)) /\ code_for q codes d) ->
  exists mf, encode_map mem mp cmap nh = Some mf /\ Forall field_ok mf /\
    parses (decode_context_map M hists (length cmap)) (fields_bits mf) (Some (Some (cmap, nh))).
Proof.
  intros HL Honto Hmp Hh. pose proof Honto as (Hnh & Ho).
  assert (Hbytes : Forall (fun x => 0 <= x < 256) cmap) by (apply Forall_forall; intros x Hx; apply Ho in Hx; lia).
  destruct (Z.eq_dec nh 1) as [E1|N1].
  - exists [(1, 1); (2, 0)]. split; [destruct mp; cbn [encode_map]; rewrite E1; reflexivity|]. split; [repeat constructor; cbn; lia|].
    rewrite !fields_bits_cons. cbn [fst snd]. unfold decode_context_map. eapply parses_bind; [apply (parses_rd 1 1); lia|]. cbv beta. change (1 =? 1) with true. cbv iota.
    eapply parses_bind; [apply (parses_rd 2 0); lia|]. cbv beta. change (0 =? 0) with true. cbv iota.
    replace (repeat 0 (length cmap)) with cmap. { rewrite (finish_onto _ _ Honto). apply parses_ret. }
    assert (F : Forall (fun x => x = 0) cmap) by (apply Forall_forall; intros x Hx; apply Ho in Hx; lia). clear -F. induction F as [|x l -> _ IH]; [reflexivity|]. cbn. now rewrite <- IH.
  - destruct mp as [|um q ts mp']; cbn [encode_map]; replace (nh =? 1) with false by lia; cbn [map_plan_ok] in Hmp; (destruct Hmp as [E|Hmp]; [contradiction|]).
    + destruct (ceil_log2_spec nh ltac:(lia)) as (C1 & C2 & C3). assert (C4 : ceil_log2 nh <= 3) by (apply C3; [lia|change (2 ^ 3) with 8; lia]).
      assert (C5 : 1 <= ceil_log2 nh). { destruct (Z.eq_dec (ceil_log2 nh) 0) as [E|]; [|lia]. rewrite E in C1. change (2 ^ 0) with 1 in C1. lia. }
      destruct (entries_rt (ceil_log2 nh) cmap ltac:(lia)) as (F & P). { apply Forall_forall. intros x Hx. apply Ho in Hx. lia. }
      eexists. split; [reflexivity|]. split; [constructor; [split; cbn; lia|]; constructor; [split; cbn [fst snd]; [lia|change (2 ^ 2) with 4; lia]|exact F]|].
      rewrite !fields_bits_cons. cbn [fst snd]. unfold decode_context_map. eapply parses_bind; [apply (parses_rd 1 1); lia|]. cbv beta. change (1 =? 1) with true. cbv iota.
      eapply parses_bind; [apply parses_rd; [lia|change (2 ^ 2) with 4; lia]|]. cbv beta. replace (ceil_log2 nh =? 0) with false by lia.
      eapply parses_bind_nil; [exact P|]. cbv beta. rewrite (finish_onto _ _ Honto). apply parses_ret.
    + destruct Hmp as (Hq & Hq2 & Hq3 & Hpl & l & Hx & Hlen & Hctx & Hval).
      destruct (Hh um q ts mp' eq_refl Hq Hq2 Hq3) as (fs & codes & d & E & F & P & C). rewrite E. pose proof C as (Cm & Cx & Dx & _ & Cl & _ & _).
      assert (Hsyms : length (map snd l) = length cmap /\ Forall (fun x => 0 <= x < 256) (map snd l) /\
                (if um then inverse_mtf (m_lanes M) (m_mtf M) (map snd l) = Some cmap else map snd l = cmap)).
      { destruct um.
        - destruct (mtf_round_trip (m_lanes M) (m_mtf M) cmap HL Hbytes) as (is & T1 & T2 & T3 & T4). rewrite T1 in Hval. apply Some_eq in Hval. rewrite Hval. auto.
        - apply Some_eq in Hval. rewrite Hval. auto. }
      destruct Hsyms as (Hl & Hb & Hinv). rewrite map_length in Hl.
      assert (Hpos : 0 < zlen (context_map codes)). { rewrite Cx. destruct Hq as (_ & -> & _). destruct (lz_enabled (p_lz q)); cbn; lia. }
      destruct (write_read codes (d_code d) 0 0 ts (read_list (repeat 0 (length cmap))) l (map snd l) Cm (planned_tokens _ _ _ _ _ C Hpl) ltac:(lia)) as (ws & r & Ew & Fw & Pw & Cf & _ & _).
      * rewrite Cl. exact Hx.
      * exact Hlen.
      * rewrite <- Hl. now apply run_zeros.
      * rewrite Ew. eexists. split; [reflexivity|]. split.
        { constructor; [split; cbn; lia|]. constructor; [split; cbn [fst snd]; [lia|destruct um; cbn; lia]|]. apply Forall_app; split; assumption. }
        rewrite !fields_bits_cons, fields_bits_app. cbn [fst snd]. unfold decode_context_map. eapply parses_bind; [apply (parses_rd 1 0); lia|]. cbv beta. change (0 =? 1) with false. cbv iota.
        eapply parses_bind; [apply parses_rd; [lia|destruct um; cbn; lia]|]. cbv beta. eapply parses_bind; [exact P|]. cbv beta iota. rewrite Dx, <- Cx.
        eapply parses_bind_nil; [exact Pw|]. cbv beta iota. replace (existsb (fun sym => 256 <=? sym) (map snd l)) with false.
        2:{ symmetry. clear -Hb. induction Hb as [|x l' Hx _ IH]; [reflexivity|]. cbn [existsb]. rewrite IH. replace (256 <=? x) with false by lia. reflexivity. }
        rewrite Cf. cbn [negb]. replace (map w8 (map snd l)) with (map snd l).
        2:{ clear -Hb. induction Hb as [|x l' Hx _ IH]; [reflexivity|]. cbn [map]. rewrite <- IH. f_equal. unfold w8. rewrite Z.mod_small; [reflexivity|lia]. }
        destruct um; cbn [b2z]; [change (1 =? 1) with true|change (0 =? 1) with false]; cbv iota; rewrite Hinv; rewrite (finish_onto _ _ Honto); apply parses_ret.
Qed.

(* the functions call each other at most three deep *)
Lemma level_one M mem mp p f disallow : plan_ok 1 p -> lz_enabled (p_lz p) = false ->
  exists fs codes d, encode_histograms mem mp p = Some (fs, codes) /\ Forall field_ok fs /\
    parses (decode_histograms M (S f) 1 disallow) (fields_bits fs) (Some (Some d)) /\ code_for p codes d.
Proof.
  intros Hp El. unfold encode_histograms. cbn [decode_histograms]. apply codes_rt; [exact Hp|auto|]. intros L. destruct Hp as (_ & E & _). rewrite E, El in L. cbn in L. lia.
Qed.

Lemma level_two M mem mp p f disallow : lane_count (m_lanes M) -> plan_ok 1 p -> (disallow = true -> lz_enabled (p_lz p) = false) ->
  (1 < zlen (p_map p) -> map_plan_ok mp (p_map p) (zlen (p_configs p))) ->
  exists fs codes d, encode_histograms mem mp p = Some (fs, codes) /\ Forall field_ok fs /\
    parses (decode_histograms M (S (S f)) 1 disallow) (fields_bits fs) (Some (Some d)) /\ code_for p codes d.
Proof.
  intros HL Hp Hd Hmp. unfold encode_histograms.
  change (decode_histograms M (S (S f)) 1 disallow) with (decode_codes M (decode_context_map M (decode_histograms M (S f) 1)) 1 disallow).
  apply codes_rt; [exact Hp|exact Hd|]. intros L. apply map_rt; [exact HL|apply Hp|auto|].
  intros um q ts mp' _ Hq Hq2 Hq3. apply level_one; [exact Hq|]. apply Hq2. destruct Hp as (_ & E & _). rewrite E. destruct (lz_enabled (p_lz p)); cbn; lia.
Qed.

Theorem histograms_roundtrip M mem mp n p disallow : lane_count (m_lanes M) -> plan_ok n p -> (disallow = true -> lz_enabled (p_lz p) = false) ->
  (1 < zlen (p_map p) -> map_plan_ok mp (p_map p) (zlen (p_configs p))) ->
  exists fs codes d, encode_histograms mem mp p = Some (fs, codes) /\ Forall field_ok fs /\
    parses (decode_histograms M 3 n disallow) (fields_bits fs) (Some (Some d)) /\ code_for p codes d.
Proof.
  intros HL Hp Hd Hmp. unfold encode_histograms.
  change (decode_histograms M 3 n disallow) with (decode_codes M (decode_context_map M (decode_histograms M 2 1)) n disallow).
  apply codes_rt; [exact Hp|exact Hd|]. intros L. apply map_rt; [exact HL|apply Hp|auto|].
  intros um q ts mp' _ Hq Hq2 Hq3. apply level_two; [exact HL|exact Hq| |exact Hq3]. intros E. apply Hq2. apply Z.leb_le in E. exact E.
Qed.

(* an entropy code and what is coded with it *)
Theorem code_and_tokens {A} M mem mp n p disallow off dm ts (prog : tprog A) l a :
  lane_count (m_lanes M) -> plan_ok n p -> (disallow = true -> lz_enabled (p_lz p) = false) ->
  (1 < zlen (p_map p) -> map_plan_ok mp (p_map p) (zlen (p_configs p))) ->
  planned p off ts -> 0 <= dm < 2 ^ 28 -> expand (min_length (p_lz p)) dm off [] ts = Some l -> zlen l < 2 ^ 32 ->
  run_toks (zlen (p_map p)) prog l = Some (a, []) ->
  exists fs codes ws d r, encode_histograms mem mp p = Some (fs, codes) /\ write_tokens codes off ts = Some ws /\ Forall field_ok (fs ++ ws) /\
    parses (decode_histograms M 3 n disallow) (fields_bits fs) (Some (Some d)) /\
    parses (run_stream (d_code d) (d_map d) dm prog) (fields_bits ws) (Some (a, r)) /\ check_final_state r = true /\ unhealthy r = false.
Proof.
  intros HL Hp Hd Hmp Hts Hdm Hx Hlen Hrun. destruct (histograms_roundtrip M mem mp n p disallow HL Hp Hd Hmp) as (fs & codes & d & E & F & P & C).
  pose proof C as (Cm & Cx & Dx & _ & Cl & _ & _).
  destruct (write_read codes (d_code d) off dm ts prog l a Cm (planned_tokens _ _ _ _ _ C Hts) Hdm) as (ws & r & Ew & Fw & Pw & Cf & Cu & _).
  - now rewrite Cl.
  - exact Hlen.
  - now rewrite Cx.
  - exists fs, codes, ws, d, r. rewrite Dx, <- Cx. split; [exact E|]. split; [exact Ew|]. split; [apply Forall_app; split; assumption|]. auto.
Qed.
