(* The jxlp boxes: what was taken from the file is the codestream up to a part boundary, plus
   the parts put aside. *)
From Coq Require Import Permutation.
From Verif Require Import Base ListAux OMap ContainerSpec InpModel InpSpec InpWin.
Ltac Zify.zify_post_hook ::= idtac.

Definition idx (x : part) : Z := fst (fst x).
Definition tot (m : list (Z * (list Z * bool))) : Z := fold_right (fun e a => zlen (fst (snd e)) + a) 0 m.

Section Jxlp.
Variable pieces : list (list Z).
Variable ver : Z.
Let n := zlen pieces.
Let C := concat pieces.

Definition piece (i : Z) : list Z := nth (Z.to_nat i) pieces [].
Definition startp (i : Z) : Z := zlen (concat (firstn (Z.to_nat i) pieces)).

Record JP (j : jxlp) (is_last : bool) (todo : list box) (suf : list Z) : Prop := mkJP {
  jp_next : 0 <= j_next j <= n;
  jp_last : is_last = (j_next j =? n);
  jp_rest : exists xs, parts todo xs /\ NoDup (map idx xs ++ map fst (j_ooo j)) /\
     (forall x, In x xs -> j_next j <= idx x < n /\ x = (idx x, idx x =? n - 1, piece (idx x))) /\
     (forall i, j_next j <= i < n -> In i (map idx xs) \/ In i (map fst (j_ooo j))) /\
     (ver = 0 -> j_ooo j = [] /\ map idx xs = zseq (j_next j) (Z.to_nat (n - j_next j)));
  jp_ooo : forall e, In e (j_ooo j) -> j_next j <= fst e < n /\ snd (snd e) = (fst e =? n - 1) /\
     fst (snd e) ++ (if fst e =? j_buf j then suf else []) = piece (fst e);
  jp_tot : j_total j = tot (j_ooo j)
}.

Lemma tot_nonneg m : 0 <= tot m.
Proof. induction m as [|e m IH]; cbn; [lia|]. fold (tot m). pose proof (zlen_nonneg (fst (snd e))). lia. Qed.

Lemma startp_succ i : 0 <= i < n -> startp (i + 1) = startp i + zlen (piece i).
Proof.
  intros H. unfold startp, piece. replace (Z.to_nat (i + 1)) with (S (Z.to_nat i)) by lia.
  assert (Hl : (Z.to_nat i < length pieces)%nat) by (unfold n, zlen in H; lia).
  revert Hl. generalize (Z.to_nat i) as k. clear H. induction pieces as [|a l IH]; intros k Hl; [cbn in Hl; lia|].
  destruct k as [|k]; [cbn [firstn concat nth]; rewrite app_nil_r; unfold zlen; cbn [length]; lia|].
  cbn [length] in Hl. specialize (IH k ltac:(lia)). cbn [firstn concat nth] in *. rewrite !zlen_app. cbn [firstn] in IH. lia.
Qed.
Lemma startp_0 : startp 0 = 0. Proof. reflexivity. Qed.
Lemma startp_n : startp n = zlen C.
Proof. unfold startp, C. rewrite firstn_all2; [reflexivity|unfold n, zlen; lia]. Qed.
Lemma startp_le i : 0 <= i -> startp i <= zlen C.
Proof.
  intros H. unfold startp, C. rewrite <- (firstn_skipn (Z.to_nat i) pieces) at 2. rewrite concat_app, zlen_app.
  pose proof (zlen_nonneg (concat (skipn (Z.to_nat i) pieces))). lia.
Qed.
Lemma startp_nonneg i : 0 <= startp i. Proof. apply zlen_nonneg. Qed.

Lemma piece_cut i : 0 <= i < n -> piece i = cut C (startp i) (startp (i + 1)).
Proof.
  intros H. unfold cut. rewrite startp_succ by exact H. replace (startp i + zlen (piece i) - startp i) with (zlen (piece i)) by lia.
  unfold C. assert (Hl : (Z.to_nat i < length pieces)%nat) by (unfold n, zlen in H; lia).
  assert (Ed : drop (startp i) (concat pieces) = concat (skipn (Z.to_nat i) pieces)).
  { transitivity (drop (startp i) (concat (firstn (Z.to_nat i) pieces ++ skipn (Z.to_nat i) pieces))); [rewrite firstn_skipn; reflexivity|].
    rewrite concat_app, drop_app2 by (unfold startp; lia). unfold startp. rewrite Z.sub_diag. apply drop_0. }
  rewrite Ed.
  assert (E : skipn (Z.to_nat i) pieces = piece i :: skipn (S (Z.to_nat i)) pieces).
  { unfold piece. clear Ed. revert Hl. generalize (Z.to_nat i). clear H. clear. induction pieces as [|a l IH]; intros k Hl; [cbn in Hl; lia|].
    destruct k as [|k]; [reflexivity|]. cbn [length] in Hl. specialize (IH k ltac:(lia)). exact IH. }
  rewrite E. cbn [concat]. rewrite take_app1 by lia. rewrite take_all by lia. reflexivity.
Qed.

Lemma tot_app a b : tot (a ++ b) = tot a + tot b.
Proof. unfold tot. induction a as [|e a IH]; cbn [app fold_right]; lia. Qed.


Lemma parts_inv_jxlp b todo xs : b_type b = JXLP -> parts (b :: todo) xs ->
  exists x ys, xs = x :: ys /\ holds_part b x /\ (b_unb b = true -> snd (fst x) = true) /\ parts todo ys.
Proof.
  intros E H. inversion H; subst; [|congruence]. eexists. eexists. split; [reflexivity|]. auto.
Qed.
Lemma parts_inv_other b todo xs : b_type b <> JXLP -> parts (b :: todo) xs -> b_type b <> JXLC /\ parts todo xs.
Proof. intros E H. inversion H; subst; [congruence|]. auto. Qed.

Lemma find_none m k : ~ In k (map fst m) -> ooo_find m k = None.
Proof.
  intros H. unfold ooo_find. destruct (find (fun e => fst e =? k) m) as [e|] eqn:E; [|reflexivity].
  exfalso. apply find_some in E. destruct E as [Hin He]. apply H. apply Z.eqb_eq in He. subst k. apply in_map, Hin.
Qed.
Lemma find_some_in m k e : ooo_find m k = Some e -> In (k, e) m.
Proof.
  unfold ooo_find. destruct (find (fun e => fst e =? k) m) as [[k' e']|] eqn:E; [|discriminate].
  intros H. cbn in H. apply find_some in E. destruct E as [Hin He]. cbn in He. apply Z.eqb_eq in He. subst k'. congruence.
Qed.
Lemma find_none_inv m k : ooo_find m k = None -> ~ In k (map fst m).
Proof.
  unfold ooo_find. destruct (find (fun e => fst e =? k) m) as [e|] eqn:E; [discriminate|]. intros _ H.
  apply in_map_iff in H. destruct H as (e & Hk & Hin). pose proof (List.find_none _ _ E e Hin) as F. cbn in F. apply Z.eqb_neq in F. congruence.
Qed.

Lemma bounded_length (l : list Z) a m : NoDup l -> (forall x, In x l -> a <= x < a + Z.of_nat m) -> (length l <= m)%nat.
Proof.
  intros H1 H2. rewrite <- (zseq_length a m). apply NoDup_incl_length; [exact H1|]. intros x Hx. apply in_zseq, H2, Hx.
Qed.

(* the box read next holds a part that was not taken yet *)
Lemma JP_front j l b todo : JP j l (b :: todo) [] -> b_type b = JXLP ->
  exists i, j_next j <= i < n /\ holds_part b (i, i =? n - 1, piece i) /\ (b_unb b = true -> i = n - 1) /\ l = false /\
    ooo_find (j_ooo j) i = None /\ zlen (j_ooo j) < n /\ (i <> j_next j -> ver <> 0) /\
    (i = j_next j -> forall v, JP (mkJxlp v (j_next j + 1) (j_ooo j) (j_total j) (j_buf j)) (i =? n - 1) todo []) /\
    (i <> j_next j -> forall v, JP (mkJxlp v (j_next j) (j_ooo j ++ [(i, ([], i =? n - 1))]) (j_total j) i) false todo (piece i)).
Proof.
  intros [Hn Hl (xs & Hp & Hd & Hx & Hc & Hv) Ho Ht] Eb.
  destruct (parts_inv_jxlp _ _ _ Eb Hp) as (x & ys & -> & Hh & Hu & Hp').
  pose proof (Hx x (or_introl eq_refl)) as [Hi Ex]. exists (idx x). set (i := idx x) in *.
  cbn [map app] in Hd. fold i in Hd. apply NoDup_cons_iff in Hd. destruct Hd as [Hni Hd'].
  assert (Hno : ~ In i (map fst (j_ooo j))) by (intros A; apply Hni, in_or_app; right; exact A).
  assert (Hny : ~ In i (map idx ys)) by (intros A; apply Hni, in_or_app; left; exact A).
  assert (Hlf : (j_next j =? n) = false) by (apply Z.eqb_neq; lia).
  split; [exact Hi|]. split; [rewrite <- Ex; exact Hh|].
  split. { intros U. specialize (Hu U). rewrite Ex in Hu. cbn in Hu. apply Z.eqb_eq in Hu. exact Hu. }
  split; [rewrite Hl; exact Hlf|]. split; [apply find_none; exact Hno|].
  split.
  { pose proof (bounded_length (i :: map fst (j_ooo j)) 0 (Z.to_nat n)) as B. cbn [length] in B. rewrite map_length in B.
    unfold zlen at 1. enough ((S (length (j_ooo j)) <= Z.to_nat n)%nat) by lia. apply B.
    - constructor; [exact Hno|]. clear -Hd'. induction (map idx ys) as [|a r IH]; [exact Hd'|]. cbn in Hd'. inversion Hd'; auto.
    - intros k [<-|Hk]; [lia|]. apply in_map_iff in Hk. destruct Hk as (e & <- & He). destruct (Ho e He) as [? _]. lia. }
  split. { intros Ne E0. destruct (Hv E0) as [_ Hs]. cbn [map] in Hs. fold i in Hs.
    replace (Z.to_nat (n - j_next j)) with (S (Z.to_nat (n - j_next j - 1))) in Hs by lia. cbn [zseq] in Hs. congruence. }
  split.
  - intros Ei v. constructor; cbn [j_next j_ooo j_total j_buf].
    + lia.
    + destruct (Z.eqb_spec i (n - 1)); symmetry; [apply Z.eqb_eq|apply Z.eqb_neq]; lia.
    + exists ys. split; [exact Hp'|]. split; [exact Hd'|]. split; [|split].
      * intros y Hy. destruct (Hx y (or_intror Hy)) as [Hyi Ey]. split; [|exact Ey].
        assert (idx y <> i) by (intros A; apply Hny; rewrite <- A; apply in_map, Hy). lia.
      * intros k Hk. destruct (Hc k ltac:(lia)) as [[A|A]|A]; [exfalso; fold i in A; lia|left; exact A|right; exact A].
      * intros E0. destruct (Hv E0) as [Hoo Hs]. split; [exact Hoo|]. cbn [map] in Hs. fold i in Hs.
        replace (Z.to_nat (n - j_next j)) with (S (Z.to_nat (n - (j_next j + 1)))) in Hs by lia. cbn [zseq] in Hs. congruence.
    + intros e He. destruct (Ho e He) as (Hk & Hf & Hb). split; [|split; [exact Hf|exact Hb]].
      assert (fst e <> i) by (intros A; apply Hno; rewrite <- A; apply in_map, He). lia.
    + exact Ht.
  - intros Ne v. constructor; cbn [j_next j_ooo j_total j_buf].
    + exact Hn.
    + symmetry; exact Hlf.
    + exists ys. split; [exact Hp'|]. split; [|split; [|split]].
      * rewrite map_app. cbn [map fst]. rewrite app_assoc. apply (Permutation_NoDup (l := i :: (map idx ys ++ map fst (j_ooo j)))); [apply Permutation_cons_append|]. constructor; assumption.
      * intros y Hy. exact (Hx y (or_intror Hy)).
      * intros k Hk. rewrite map_app. destruct (Hc k ltac:(lia)) as [[A|A]|A].
        -- right. apply in_or_app. right. left. exact A.
        -- left; exact A.
        -- right. apply in_or_app. left. exact A.
      * intros E0. destruct (Hv E0) as [_ Hs]. cbn [map] in Hs. fold i in Hs.
        replace (Z.to_nat (n - j_next j)) with (S (Z.to_nat (n - j_next j - 1))) in Hs by lia. cbn [zseq] in Hs. congruence.
    + intros e He. apply in_app_or in He. destruct He as [He|[<-|[]]].
      * destruct (Ho e He) as (Hk & Hf & Hb). split; [exact Hk|]. split; [exact Hf|].
        assert (fst e <> i) by (intros A; apply Hno; rewrite <- A; apply in_map, He).
        destruct (Z.eqb_spec (fst e) i); [congruence|]. destruct (fst e =? j_buf j); rewrite app_nil_r in *; exact Hb.
      * cbn. rewrite Z.eqb_refl. split; [lia|]. split; reflexivity.
    + rewrite tot_app. cbn. lia.
Qed.

Lemma JP_other j l b todo suf : JP j l (b :: todo) suf -> b_type b <> JXLP -> b_type b <> JXLC /\ JP j l todo suf.
Proof.
  intros [Hn Hl (xs & Hp & Hr) Ho Ht] Eb. destruct (parts_inv_other _ _ _ Eb Hp) as [Hc Hp']. split; [exact Hc|].
  constructor; try assumption. exists xs. split; [exact Hp'|exact Hr].
Qed.

Lemma JP_ver j v l todo suf : JP j l todo suf -> JP (mkJxlp v (j_next j) (j_ooo j) (j_total j) (j_buf j)) l todo suf.
Proof. intros [Hn Hl Hr Ho Ht]. constructor; assumption. Qed.

Lemma append_keys m k data : map fst (ooo_append m k data) = map fst m.
Proof. unfold ooo_append. rewrite map_map. apply map_ext. intros e. destruct (fst e =? k); reflexivity. Qed.

Lemma tot_append m k data : NoDup (map fst m) -> In k (map fst m) -> tot (ooo_append m k data) = tot m + zlen data.
Proof.
  induction m as [|e m IH]; intros Hd Hin; [destruct Hin|]. cbn [map] in *. inversion Hd as [|? ? Hn Hd']; subst.
  cbn [ooo_append map tot fold_right]. fold (ooo_append m k data) (tot (ooo_append m k data)) (tot m).
  destruct (Z.eqb_spec (fst e) k) as [Ek|Nk].
  - cbn [fst snd]. rewrite zlen_app. assert (E : ooo_append m k data = m).
    { unfold ooo_append. rewrite <- (map_id m) at 2. apply map_ext_in. intros a Ha. destruct (Z.eqb_spec (fst a) k) as [A|]; [|reflexivity].
      exfalso. apply Hn. rewrite Ek, <- A. apply in_map, Ha. }
    rewrite E. lia.
  - destruct Hin as [A|A]; [congruence|]. rewrite IH by assumption. lia.
Qed.

Lemma NoDup_tail {A} (a b : list A) : NoDup (a ++ b) -> NoDup b.
Proof. induction a as [|x a IH]; [auto|]. cbn. intros H. inversion H; auto. Qed.

(* more of the part being put aside *)
Lemma JP_append j l todo data suf : JP j l todo (data ++ suf) -> In (j_buf j) (map fst (j_ooo j)) ->
  forall v, JP (mkJxlp v (j_next j) (ooo_append (j_ooo j) (j_buf j) data) (j_total j + zlen data) (j_buf j)) l todo suf.
Proof.
  intros [Hn Hl (xs & Hp & Hd & Hx & Hc & Hv) Ho Ht] Hin v. constructor; cbn [j_next j_ooo j_total j_buf]; try assumption.
  - exists xs. rewrite append_keys. split; [exact Hp|]. split; [exact Hd|]. split; [exact Hx|]. split; [exact Hc|].
    intros E0. destruct (Hv E0) as [Hoo Hs]. split; [|exact Hs]. rewrite Hoo. reflexivity.
  - intros e He. unfold ooo_append in He. apply in_map_iff in He. destruct He as (e0 & <- & He0). destruct (Ho e0 He0) as (Hk & Hf & Hb).
    destruct (Z.eqb_spec (fst e0) (j_buf j)) as [Ek|Nk].
    + cbn [fst snd]. rewrite <- Ek, Z.eqb_refl. split; [exact Hk|]. split; [exact Hf|].
      rewrite <- app_assoc. exact Hb.
    + destruct (Z.eqb_spec (fst e0) (j_buf j)); [congruence|]. split; [exact Hk|]. split; [exact Hf|exact Hb].
  - rewrite tot_append; [lia|apply (NoDup_tail (map idx xs)), Hd|exact Hin].
Qed.

Lemma tot_erase m k e : NoDup (map fst m) -> In (k, e) m -> tot (ooo_erase m k) = tot m - zlen (fst e).
Proof.
  induction m as [|a m IH]; intros Hd Hin; [destruct Hin|]. cbn [map] in Hd. inversion Hd as [|? ? Hn Hd']; subst.
  cbn [ooo_erase filter]. fold (ooo_erase m k). destruct Hin as [->|Hin].
  - cbn [fst]. rewrite Z.eqb_refl. cbn [negb tot fold_right fst snd]. fold (tot m).
    assert (E : ooo_erase m k = m).
    { clear IH Hd'. unfold ooo_erase. induction m as [|a m IHm]; [reflexivity|]. cbn. cbn in Hn. destruct (Z.eqb_spec (fst a) k) as [A|]; [exfalso; apply Hn; left; exact A|].
      cbn. f_equal. apply IHm; [|intros A; apply Hn; right; exact A]. constructor; [intros A; apply Hn; right; exact A|]. inversion Hd; subst. inversion H2; assumption. }
    rewrite E. fold (tot m). lia.
  - destruct (Z.eqb_spec (fst a) k) as [A|N].
    + exfalso. apply Hn. rewrite A. change k with (fst (k, e)). apply in_map, Hin.
    + cbn [negb tot fold_right]. fold (tot (ooo_erase m k)) (tot m). rewrite IH by assumption. lia.
Qed.
Lemma erase_in m k e : In e (ooo_erase m k) <-> In e m /\ fst e <> k.
Proof. unfold ooo_erase. rewrite filter_In. rewrite negb_true_iff, Z.eqb_neq. tauto. Qed.
Lemma NoDup_erase m k a : NoDup (a ++ map fst m) -> NoDup (a ++ map fst (ooo_erase m k)).
Proof.
  induction a as [|x a IH]; cbn.
  - induction m as [|e m IHm]; cbn; [auto|]. intros H. inversion H as [|? ? Hn Hd]; subst.
    destruct (negb (fst e =? k)); [cbn; constructor; [|apply IHm, Hd]|apply IHm, Hd].
    intros A. apply Hn. apply in_map_iff in A. destruct A as (e' & <- & Hin). fold (ooo_erase m k) in Hin. apply erase_in in Hin. apply in_map. tauto.
  - intros H. inversion H as [|? ? Hn Hd]; subst. constructor; [|apply IH, Hd]. intros A. apply Hn. apply in_app_or in A. apply in_or_app.
    destruct A as [A|A]; [left; exact A|right]. apply in_map_iff in A. destruct A as (e' & <- & Hin). apply erase_in in Hin. apply in_map. tauto.
Qed.

(* the next part was put aside earlier *)
Lemma JP_inject j l todo data fl : JP j l todo [] -> ooo_find (j_ooo j) (j_next j) = Some (data, fl) ->
  l = false /\ j_next j < n /\ data = piece (j_next j) /\ ver <> 0 /\ zlen data <= j_total j /\
  forall v, JP (mkJxlp v (j_next j + 1) (ooo_erase (j_ooo j) (j_next j)) (j_total j - zlen data) (j_buf j)) fl todo [].
Proof.
  intros [Hn Hl (xs & Hp & Hd & Hx & Hc & Hv) Ho Ht] Hf. pose proof (find_some_in _ _ _ Hf) as Hin.
  destruct (Ho _ Hin) as (Hk & Hfl & Hb). cbn [fst snd] in *.
  assert (Hdata : data = piece (j_next j)) by (destruct (j_next j =? j_buf j); rewrite app_nil_r in Hb; exact Hb).
  assert (Hnd : NoDup (map fst (j_ooo j))) by (apply (NoDup_tail (map idx xs)), Hd).
  pose proof (tot_erase _ _ _ Hnd Hin) as Te. cbn [fst] in Te. pose proof (tot_nonneg (ooo_erase (j_ooo j) (j_next j))).
  split; [rewrite Hl; apply Z.eqb_neq; lia|]. split; [lia|]. split; [exact Hdata|].
  split. { intros E0. destruct (Hv E0) as [Hoo _]. rewrite Hoo in Hin. destruct Hin. }
  split; [lia|]. intros v.
  assert (Hnx : ~ In (j_next j) (map idx xs)).
  { clear -Hd Hin. intros A. induction (map idx xs) as [|a r IH]; [destruct A|]. cbn in Hd. inversion Hd as [|? ? Hn Hd']; subst.
    destruct A as [->|A]; [|apply IH; assumption]. apply Hn, in_or_app. right. change (j_next j) with (fst (j_next j, (data, fl))). apply in_map, Hin. }
  constructor; cbn [j_next j_ooo j_total j_buf].
  - lia.
  - rewrite Hfl. destruct (Z.eqb_spec (j_next j) (n - 1)); symmetry; [apply Z.eqb_eq|apply Z.eqb_neq]; lia.
  - exists xs. split; [exact Hp|]. split; [apply NoDup_erase, Hd|]. split; [|split].
    + intros x Hxi. destruct (Hx x Hxi) as [Hi Ex]. split; [|exact Ex]. assert (idx x <> j_next j) by (intros A; apply Hnx; rewrite <- A; apply in_map, Hxi). lia.
    + intros i Hi. destruct (Hc i ltac:(lia)) as [A|A]; [left; exact A|right]. apply in_map_iff in A. destruct A as (e & <- & He).
      apply in_map, erase_in. split; [exact He|lia].
    + intros E0. destruct (Hv E0) as [Hoo _]. rewrite Hoo in Hin. destruct Hin.
  - intros e He. apply erase_in in He. destruct He as [He Hne]. destruct (Ho e He) as (Hk' & Hf' & Hb'). split; [lia|]. split; assumption.
  - lia.
Qed.

(* nothing left to come *)
Lemma JP_end j l todo suf : JP j l todo suf -> parts todo [] -> ooo_find (j_ooo j) (j_next j) = None -> j_next j = n.
Proof.
  intros [Hn Hl (xs & Hp & Hd & Hx & Hc & Hv) Ho Ht] Hp0 Hf.
  assert (xs = []). { clear -Hp Hp0. revert xs Hp. remember [] as ys eqn:E. induction Hp0; intros zs Hz; inversion Hz; subst; try congruence; try reflexivity; auto. }
  subst xs. destruct (Z.eq_dec (j_next j) n) as [|Ne]; [assumption|]. destruct (Hc (j_next j) ltac:(lia)) as [[]|A].
  exfalso. exact (find_none_inv _ _ Hf A).
Qed.

Lemma JP_start bs xs : parts bs xs -> Permutation xs (numbered 0 pieces) -> (ver = 0 -> xs = numbered 0 pieces) -> pieces <> [] ->
  JP (mkJxlp 0 0 [] 0 0) false bs [].
Proof.
  intros Hp Hperm Hv Hne.
  assert (Hnum : forall ps i, (forall x, In x (numbered i ps) -> i <= idx x < i + zlen ps /\
             x = (idx x, idx x =? i + zlen ps - 1, nth (Z.to_nat (idx x - i)) ps [])) /\ map idx (numbered i ps) = zseq i (length ps)).
  { induction ps as [|a ps IH]; intros i; [split; [intros x []|reflexivity]|]. cbn [numbered length zseq map idx fst].
    destruct (IH (i + 1)) as [IH1 IH2]. split; [|f_equal; exact IH2]. rewrite zlen_cons. intros x [<-|Hx].
    - cbn [idx fst]. pose proof (zlen_nonneg ps). split; [lia|]. rewrite Z.sub_diag. cbn [Z.to_nat nth].
      f_equal. f_equal. destruct ps as [|b ps]; [rewrite zlen_nil; symmetry; apply Z.eqb_eq; lia|].
      rewrite zlen_cons. pose proof (zlen_nonneg ps). symmetry. apply Z.eqb_neq. lia.
    - destruct (IH1 x Hx) as [Hi Ex]. split; [lia|]. replace (i + (1 + zlen ps) - 1) with (i + 1 + zlen ps - 1) by lia.
      replace (Z.to_nat (idx x - i)) with (S (Z.to_nat (idx x - (i + 1)))) by lia. exact Ex. }
  destruct (Hnum pieces 0) as [H1 H2]. fold n in H1. pose proof (zlen_nonneg pieces).
  assert (0 < n). { unfold n. destruct pieces as [|q qs]; [congruence|]. rewrite zlen_cons. pose proof (zlen_nonneg qs). lia. }
  constructor; cbn [j_next j_ooo j_total j_buf].
  - unfold n. lia.
  - symmetry. apply Z.eqb_neq. lia.
  - exists xs. rewrite app_nil_r. split; [exact Hp|].
    assert (Hpi : Permutation (map idx xs) (zseq 0 (length pieces))) by (rewrite <- H2; apply Permutation_map, Hperm).
    split; [|split; [|split]].
    + apply (Permutation_NoDup (Permutation_sym Hpi)). clear. assert (G : forall k z, NoDup (zseq z k)); [|apply G].
      induction k as [|k IH]; intros z; [constructor|]. cbn [zseq]. constructor; [|apply IH]. intros A. apply zseq_in in A. lia.
    + intros x Hx. apply (Permutation_in _ Hperm) in Hx. destruct (H1 x Hx) as [Hi Ex]. split; [lia|].
      unfold piece. replace (idx x - 0) with (idx x) in Ex by lia. replace (0 + n - 1) with (n - 1) in Ex by lia. exact Ex.
    + intros i Hi. left. apply (Permutation_in _ (Permutation_sym Hpi)). apply in_zseq. unfold n, zlen in Hi. lia.
    + intros E0. split; [reflexivity|]. rewrite (Hv E0), H2. f_equal. unfold n, zlen. lia.
  - intros e [].
  - reflexivity.
Qed.
End Jxlp.

(* What is left of the codestream C when the boxes todo are to be read: the boxes before them
   gave its first E bytes, and the parts put aside.  suf: what is still missing from the part
   being put aside. *)
Inductive J (C : list Z) (ver : Z) (j : jxlp) (l : bool) (todo : list box) (suf : list Z) (E : Z) : Prop :=
| J_before before b after : todo = before ++ b :: after -> parts before [] -> parts after [] -> b_type b = JXLC -> b_data b = C ->
    j_next j = 0 -> j_ooo j = [] -> j_total j = 0 -> l = false -> suf = [] -> E = 0 -> J C ver j l todo suf E
| J_after : parts todo [] -> j_ooo j = [] -> j_total j = 0 -> l = true -> suf = [] -> E = zlen C -> J C ver j l todo suf E
| J_parts pieces : C = concat pieces -> zlen pieces <= 2 ^ 20 -> JP pieces ver j l todo suf -> E = startp pieces (j_next j) -> J C ver j l todo suf E.

Section JLemmas.
Variable C : list Z.
Variable ver : Z.

Lemma J_start bs : carries ver bs C -> J C ver (mkJxlp 0 0 [] 0 0) false bs [] 0.
Proof.
  intros H. inversion H; subst.
  - eapply J_before; eauto.
  - eapply (J_parts _ _ _ _ _ _ _ pieces); eauto. eapply JP_start; eauto.
Qed.
Lemma J_ver j v l todo suf E : J C ver j l todo suf E -> J C ver (mkJxlp v (j_next j) (j_ooo j) (j_total j) (j_buf j)) l todo suf E.
Proof.
  intros [before b after|?|pieces ? ? HJ ?].
  - eapply J_before; eauto.
  - eapply J_after; eauto.
  - eapply (J_parts _ _ _ _ _ _ _ pieces); eauto. apply JP_ver, HJ.
Qed.
Lemma J_range j l todo suf E : J C ver j l todo suf E -> 0 <= E <= zlen C /\ 0 <= j_total j.
Proof.
  intros [before b after|?|pieces HC Hn HJ ->].
  - subst. pose proof (zlen_nonneg (b_data b)). lia.
  - subst. pose proof (zlen_nonneg C). lia.
  - pose proof (jp_next _ _ _ _ _ _ HJ). pose proof (startp_le pieces (j_next j) ltac:(lia)). pose proof (startp_nonneg pieces (j_next j)).
    rewrite HC. rewrite (jp_tot _ _ _ _ _ _ HJ). pose proof (tot_nonneg pieces (j_ooo j)). lia.
Qed.
Lemma J_last j todo suf E : J C ver j true todo suf E -> E = zlen C.
Proof.
  intros [before b after|?|pieces HC Hn HJ ->]; try congruence.
  pose proof (jp_last _ _ _ _ _ _ HJ) as A. symmetry in A. apply Z.eqb_eq in A. rewrite A, HC. apply startp_n.
Qed.

Lemma J_jxlc j l b todo E : J C ver j l (b :: todo) [] E -> b_type b = JXLC ->
  l = false /\ E = 0 /\ b_data b = C /\ J C ver j true todo [] (zlen C) /\ ooo_find (j_ooo j) (j_next j) = None.
Proof.
  intros H Eb. assert (Hne : JXLC <> JXLP) by discriminate. inversion H as [before b0 after Et Hp Ha Eb0 Ed Hn Ho Ht Hl Hs HE|Hp Ho Ht Hl Hs HE|pieces HC Hn HJ HE].
  - destruct before as [|b1 before].
    + cbn in Et. injection Et as -> ->. split; [exact Hl|]. split; [exact HE|]. split; [exact Ed|]. split; [|rewrite Ho; reflexivity].
      apply J_after; auto.
    + cbn in Et. injection Et as -> ->. destruct (parts_inv_other b1 before [] ltac:(congruence) Hp) as [A _]. congruence.
  - destruct (parts_inv_other b todo [] ltac:(congruence) Hp) as [A _]. congruence.
  - destruct (JP_other _ _ _ _ _ _ _ HJ ltac:(congruence)) as [A _]. congruence.
Qed.

Lemma J_other j l b todo suf E : J C ver j l (b :: todo) suf E -> b_type b <> JXLP -> b_type b <> JXLC -> J C ver j l todo suf E.
Proof.
  intros H Np Nc. inversion H as [before b0 after Et Hp Ha Eb0 Ed Hn Ho Ht Hl Hs HE|Hp Ho Ht Hl Hs HE|pieces HC Hn HJ HE].
  - destruct before as [|b1 before].
    + cbn in Et. injection Et as -> ->. congruence.
    + cbn in Et. injection Et as -> ->. destruct (parts_inv_other b1 before [] Np Hp) as [_ A]. eapply J_before; eauto.
  - destruct (parts_inv_other b todo [] Np Hp) as [_ A]. apply J_after; auto.
  - destruct (JP_other _ _ _ _ _ _ _ HJ Np) as [_ A]. eapply (J_parts _ _ _ _ _ _ _ pieces); eauto.
Qed.

Lemma J_jxlp j l b todo E : J C ver j l (b :: todo) [] E -> b_type b = JXLP ->
  exists (i : Z) (fl : bool) (n bytes : list Z), length n = 4%nat /\ b_data b = n ++ bytes /\ 0 <= i < 2 ^ 31 /\ big_endian n = i + (if fl then 2 ^ 31 else 0) /\
    l = false /\ j_next j <= i /\ ooo_find (j_ooo j) i = None /\ zlen (j_ooo j) < 2 ^ 20 /\ (i <> j_next j -> ver <> 0) /\
    (b_unb b = true -> fl = true) /\
    (i = j_next j -> bytes = cut C E (E + zlen bytes) /\
       forall v, J C ver (mkJxlp v (j_next j + 1) (j_ooo j) (j_total j) (j_buf j)) fl todo [] (E + zlen bytes)) /\
    (i <> j_next j -> forall v,
       J C ver (mkJxlp v (j_next j) (j_ooo j ++ [(i, ([], fl))]) (j_total j) i) false todo bytes E) /\
    (todo = [] -> ooo_find (j_ooo j) (j_next j) = None -> i = j_next j).
Proof.
  intros H Eb. inversion H as [before b0 after Et Hp Ha Eb0 Ed Hn Ho Ht Hl Hs HE|Hp Ho Ht Hl Hs HE|pieces HC Hn HJ HE].
  - destruct before as [|b1 before].
    + cbn in Et. injection Et as -> ->. rewrite Eb in Eb0. discriminate.
    + cbn in Et. injection Et as -> ->. destruct (parts_inv_jxlp b1 before [] Eb Hp) as (x & ys & A & _). discriminate.
  - destruct (parts_inv_jxlp b todo [] Eb Hp) as (x & ys & A & _). discriminate.
  - destruct (JP_front _ _ _ _ _ _ HJ Eb) as (i & Hi & (nb & Hl4 & Ed & Hi31 & Ebe) & Hu & Hl & Hf & Hz & Hv & H1 & H2).
    pose proof (jp_next _ _ _ _ _ _ HJ) as Hnx.
    exists i, (i =? zlen pieces - 1), nb, (piece pieces i). split; [exact Hl4|]. split; [exact Ed|]. split; [exact Hi31|]. split; [exact Ebe|].
    split; [exact Hl|]. split; [lia|]. split; [exact Hf|]. split; [lia|]. split; [exact Hv|].
    split; [intros U; apply Z.eqb_eq, Hu, U|]. split; [|split].
    + intros Ei. pose proof (startp_succ pieces (j_next j) ltac:(lia)) as Es. pose proof (piece_cut pieces (j_next j) ltac:(lia)) as Ec.
      rewrite HE, Ei, <- Es. split; [rewrite HC; exact Ec|]. intros v. eapply (J_parts _ _ _ _ _ _ _ pieces); [exact HC|exact Hn| |reflexivity].
      rewrite Ei in H1. apply H1. reflexivity.
    + intros Ne v. eapply (J_parts _ _ _ _ _ _ _ pieces); [exact HC|exact Hn|apply H2; exact Ne|exact HE].
    + intros -> Hnone. destruct (Z.eq_dec i (j_next j)) as [|Ne]; [assumption|]. specialize (H2 Ne 0).
      pose proof (JP_end _ _ _ _ _ _ H2 parts_nil) as A. cbn in A. unfold zlen in *. 
      assert (Hnn : ooo_find (j_ooo j ++ [(i, ([], i =? zlen pieces - 1))]) (j_next j) = None).
      { apply find_none. apply find_none_inv in Hnone. rewrite map_app. intros B. apply in_app_or in B. destruct B as [B|[B|[]]]; [contradiction|cbn in B; congruence]. }
      specialize (A Hnn). lia.
Qed.

Lemma J_append j l todo data suf E : J C ver j l todo (data ++ suf) E -> In (j_buf j) (map fst (j_ooo j)) ->
  forall v, J C ver (mkJxlp v (j_next j) (ooo_append (j_ooo j) (j_buf j) data) (j_total j + zlen data) (j_buf j)) l todo suf E.
Proof.
  intros H Hin v. inversion H as [before b0 after Et Hp Ha Eb0 Ed Hn Ho Ht Hl Hs HE|Hp Ho Ht Hl Hs HE|pieces HC Hn HJ HE].
  - rewrite Ho in Hin. destruct Hin.
  - rewrite Ho in Hin. destruct Hin.
  - eapply (J_parts _ _ _ _ _ _ _ pieces); [exact HC|exact Hn|apply JP_append; assumption|exact HE].
Qed.

Lemma J_inject j l todo data fl E : J C ver j l todo [] E -> ooo_find (j_ooo j) (j_next j) = Some (data, fl) ->
  l = false /\ data = cut C E (E + zlen data) /\ ver <> 0 /\ zlen data <= j_total j /\ 
  forall v, J C ver (mkJxlp v (j_next j + 1) (ooo_erase (j_ooo j) (j_next j)) (j_total j - zlen data) (j_buf j)) fl todo [] (E + zlen data).
Proof.
  intros H Hf. inversion H as [before b0 after Et Hp Ha Eb0 Ed Hn Ho Ht Hl Hs HE|Hp Ho Ht Hl Hs HE|pieces HC Hn HJ HE].
  - rewrite Ho in Hf. discriminate.
  - rewrite Ho in Hf. discriminate.
  - destruct (JP_inject _ _ _ _ _ _ _ HJ Hf) as (Hl & Hlt & Hd & Hv & Hz & HJ'). pose proof (jp_next _ _ _ _ _ _ HJ) as Hnx.
    pose proof (startp_succ pieces (j_next j) ltac:(lia)) as Es. pose proof (piece_cut pieces (j_next j) ltac:(lia)) as Ec.
    rewrite <- Hd in Es. rewrite HE, <- Es. split; [exact Hl|]. split; [rewrite HC, <- Ec; exact Hd|]. split; [exact Hv|]. split; [exact Hz|].
    intros v. eapply (J_parts _ _ _ _ _ _ _ pieces); [exact HC|exact Hn|apply HJ'|reflexivity].
Qed.

Lemma J_end j l suf E : J C ver j l [] suf E -> ooo_find (j_ooo j) (j_next j) = None -> E = zlen C.
Proof.
  intros H Hf. inversion H as [before b0 after Et Hp Ha Eb0 Ed Hn Ho Ht Hl Hs HE|Hp Ho Ht Hl Hs HE|pieces HC Hn HJ HE].
  - destruct before; discriminate.
  - exact HE.
  - rewrite HE, (JP_end _ _ _ _ _ _ HJ parts_nil Hf), HC. apply startp_n.
Qed.

(* the codestream fits in the boxes *)
Lemma parts_size bs xs : parts bs xs -> fold_right (fun (x : part) a => zlen (snd x) + a) 0 xs <= zlen (layout bs).
Proof.
  unfold layout. induction 1 as [|b x bs xs Hb Hh _ _ IH|b bs xs _ _ _ IH]; cbn [fold_right map concat]; rewrite ?zlen_app; [unfold zlen; cbn; lia| |].
  - destruct x as [[i fl] bytes]. destruct Hh as (n & _ & -> & _). rewrite zlen_app. cbn [snd]. pose proof (zlen_nonneg n). pose proof (zlen_nonneg (b_head b)). lia.
  - pose proof (zlen_nonneg (b_data b)). pose proof (zlen_nonneg (b_head b)). lia.
Qed.
Lemma carries_size bs : carries ver bs C -> zlen C <= zlen (layout bs).
Proof.
  intros H. inversion H as [before b after Hb Ha Et|bs0 xs pieces Hp Hne Hz Hperm Hv]; subst.
  - unfold layout. rewrite map_app, concat_app. cbn [map concat]. rewrite !zlen_app.
    pose proof (zlen_nonneg (concat (map (fun b => b_head b ++ b_data b) before))). pose proof (zlen_nonneg (b_head b)).
    pose proof (zlen_nonneg (concat (map (fun b => b_head b ++ b_data b) after))). lia.
  - pose proof (parts_size _ _ Hp) as A. enough (fold_right (fun (x : part) a => zlen (snd x) + a) 0 xs = zlen (concat pieces)) by lia.
    transitivity (fold_right (fun (x : part) a => zlen (snd x) + a) 0 (numbered 0 pieces)).
    + clear - Hperm. induction Hperm; cbn; lia.
    + clear. generalize 0 at 2. induction pieces as [|a l IH]; intros z; [reflexivity|]. cbn [numbered fold_right concat snd]. rewrite zlen_app, IH. reflexivity.
Qed.
End JLemmas.
