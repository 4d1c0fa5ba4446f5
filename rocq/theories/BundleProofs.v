(* Proofs about bundles. *)
From Verif Require Import Base ListAux BitIOProofs BitProg BitProgProofs FieldsModel FieldsSpec FieldsProofs F16Proofs BundleModel BundleSpec.

(* ---- the sequence of fields a writer visits ---- *)

Fixpoint fields (p : prog) (s : env) : list (coder * Z) :=
  match p with
  | Fld c d x cx tow fromw => [(c, shown s x cx tow)]
  | Seq p q => fields p s ++ fields q s
  | If c p q | Branch c p q => if holds c s then fields p s else fields q s
  | AllDef p =>
      if bundle_all_default p s then [(CBits 1, 1)] else (CBits 1, 0) :: fields p s
  | Ext x => [(CU64, s x)]
  | For n body => flat_map (fun i => fields (body i) s) (zrange (Z.to_nat (ev n s)) 0)
  | _ => []
  end.

Definition out1 (cv : coder * Z) : list (Z * Z) :=
  match coder_write (fst cv) (snd cv) with Some ws => ws | None => [] end.
Definition wok1 (cv : coder * Z) : bool :=
  match coder_write (fst cv) (snd cv) with Some _ => true | None => false end.
Definition outs (fs : list (coder * Z)) : list (Z * Z) := flat_map out1 fs.
Definition woks (fs : list (coder * Z)) : bool := forallb wok1 fs.
Definition coks (fs : list (coder * Z)) : bool := forallb (fun cv => fst (coder_can_encode (fst cv) (snd cv))) fs.
Definition cbits (fs : list (coder * Z)) : Z := zsum (map (fun cv => snd (coder_can_encode (fst cv) (snd cv))) fs).

Lemma outs_app a b : outs (a ++ b) = outs a ++ outs b.
Proof. apply flat_map_app. Qed.
Lemma woks_app a b : woks (a ++ b) = woks a && woks b.
Proof. apply forallb_app. Qed.
Lemma coks_app a b : coks (a ++ b) = coks a && coks b.
Proof. apply forallb_app. Qed.
Lemma zsum_app a b : zsum (a ++ b) = zsum a + zsum b.
Proof. unfold zsum. induction a as [|x a IH]; cbn [app fold_right]; lia. Qed.
Lemma cbits_app a b : cbits (a ++ b) = cbits a + cbits b.
Proof. unfold cbits. rewrite map_app. apply zsum_app. Qed.

Lemma assign_same s x : assign s x (s x) = s.
Proof. unfold assign. now rewrite Z.eqb_refl. Qed.

Lemma zrange_in n : forall i x, In x (zrange n i) <-> i <= x < i + Z.of_nat n.
Proof.
  induction n as [|n IH]; intros i x; cbn [zrange In]; [lia|].
  rewrite IH. lia.
Qed.

Lemma zrange_snoc n : forall i, zrange (S n) i = zrange n i ++ [i + Z.of_nat n].
Proof.
  induction n as [|n IH]; intros i.
  - cbn. f_equal. lia.
  - change (zrange (S (S n)) i) with (i :: zrange (S n) (i + 1)). rewrite IH.
    cbn [zrange app]. f_equal. f_equal. f_equal. lia.
Qed.

(* ---- each visitor leaves a valid bundle as it is ---- *)

Lemma floop_fold {S} (f : Z -> S -> S * bool) (g : S -> Z -> S) (P : S -> Prop) n : forall lo s,
  (forall i s, lo <= i < lo + Z.of_nat n -> P s -> f i s = (g s i, true) /\ P (g s i)) -> P s ->
  floop f n lo s = (fold_left g (zrange n lo) s, true) /\ P (fold_left g (zrange n lo) s).
Proof.
  induction n as [|n IH]; intros lo s Hf HP; cbn [floop zrange fold_left]; [auto|].
  destruct (Hf lo s ltac:(lia) HP) as (-> & HP'). apply IH; auto.
  intros i s' Hi. apply Hf. lia.
Qed.

Lemma fold_pair_and (s : env) (g : Z -> bool) l : forall acc,
  fold_left (fun st i => (fst st, snd st && g i)) l (s, acc) = (s, acc && forallb g l).
Proof.
  induction l as [|x l IH]; intros acc; cbn [fold_left forallb fst snd]; [now rewrite andb_true_r|].
  rewrite IH. now rewrite andb_assoc.
Qed.

Lemma all_default_valid p : forall s acc, valid p s ->
  all_default p (s, acc) = ((s, acc && bundle_all_default p s), true).
Proof.
  induction p as [|c d x cx tow fromw|p IHp q IHq|c p IHp q IHq|c p IHp q IHq|p IHp|x|c|c|x e|n body IH];
    intros s acc Hv; unfold bundle_all_default; cbn [valid all_default] in *.
  - cbn. now rewrite andb_true_r.
  - reflexivity.
  - destruct Hv as (Hp & Hq). rewrite !IHp by exact Hp. rewrite !IHq by exact Hq. cbn [fst snd].
    now rewrite andb_assoc.
  - destruct (holds c s); [rewrite IHp by exact Hv|rewrite IHq by exact Hv]; reflexivity.
  - destruct (holds c s); [rewrite IHp by exact Hv|rewrite IHq by exact Hv]; reflexivity.
  - rewrite IHp by exact Hv. reflexivity.
  - reflexivity.
  - rewrite Hv. cbn. now rewrite andb_true_r.
  - cbn. now rewrite andb_true_r.
  - rewrite <- Hv, assign_same. cbn. now rewrite andb_true_r.
  - assert (H : forall acc, floop (fun i st => all_default (body i) st) (Z.to_nat (ev n s)) 0 (s, acc) =
      ((s, acc && forallb (fun i => bundle_all_default (body i) s) (zrange (Z.to_nat (ev n s)) 0)), true)).
    { intros a.
      destruct (floop_fold (fun i st => all_default (body i) st)
        (fun st i => (fst st, snd st && bundle_all_default (body i) s)) (fun st => fst st = s)
        (Z.to_nat (ev n s)) 0 (s, a)) as (-> & _); [|reflexivity|].
      - intros i [s' a'] Hi Hs. cbn [fst snd] in *. subst s'. split; [|reflexivity].
        apply IH. apply Hv. lia.
      - now rewrite fold_pair_and. }
    rewrite !H. reflexivity.
Qed.

Lemma bundle_all_default_seq p q s : valid p s -> valid q s ->
  bundle_all_default (Seq p q) s = bundle_all_default p s && bundle_all_default q s.
Proof.
  intros Hp Hq. unfold bundle_all_default at 1. cbn [all_default].
  rewrite all_default_valid by exact Hp. rewrite all_default_valid by exact Hq. reflexivity.
Qed.

Definition ce_add (st : ce) (fs : list (coder * Z)) : ce :=
  CE (ce_env st) (ce_ok st && coks fs) (ce_bits st + cbits fs) (ce_ext st) (ce_pos st).

Lemma ce_add_nil st : ce_add st [] = st.
Proof. destruct st. unfold ce_add. cbn. rewrite andb_true_r, Z.add_0_r. reflexivity. Qed.
Lemma ce_add_app st a b : ce_add st (a ++ b) = ce_add (ce_add st a) b.
Proof. unfold ce_add. cbn. rewrite coks_app, cbits_app, andb_assoc, Z.add_assoc. reflexivity. Qed.
Lemma ce_field_add st c v : ce_field st c v = ce_add st [(c, v)].
Proof.
  unfold ce_field, ce_add, coks, cbits, zsum. cbn [forallb map fold_right fst snd].
  destruct (coder_can_encode c v) as [ok n]. cbn [fst snd]. now rewrite andb_true_r, Z.add_0_r.
Qed.

Lemma ce_add_fold (g : Z -> list (coder * Z)) l : forall st,
  fold_left (fun st i => ce_add st (g i)) l st = ce_add st (flat_map g l).
Proof.
  induction l as [|x l IH]; intros st; cbn [fold_left flat_map]; [now rewrite ce_add_nil|].
  now rewrite IH, ce_add_app.
Qed.

Lemma can_encode_fields p : forall s st, valid p s -> no_extensions p s = true ->
  ce_env st = s -> ce_ext st = 0 ->
  can_encode p st = (ce_add st (fields p s), true).
Proof.
  induction p as [|c d x cx tow fromw|p IHp q IHq|c p IHp q IHq|c p IHp q IHq|p IHp|x|c|c|x e|n body IH];
    intros s st Hv Hx Hs He; cbn [valid no_extensions can_encode fields] in *; rewrite ?Hs.
  - now rewrite ce_add_nil.
  - now rewrite ce_field_add.
  - apply andb_true_iff in Hx as (Hx1 & Hx2). destruct Hv as (Hp & Hq).
    rewrite (IHp s) by auto. rewrite (IHq s) by auto. now rewrite ce_add_app.
  - destruct (holds c s); auto.
  - destruct (holds c s); auto.
  - rewrite ce_field_add. destruct (bundle_all_default p s) eqn:Ea; cbn [orb] in Hx; [reflexivity|].
    rewrite (IHp s) by auto. change ((CBits 1, 0) :: fields p s) with ([(CBits 1, 0)] ++ fields p s).
    now rewrite ce_add_app.
  - rewrite Hx, ce_field_add. f_equal. unfold ce_add. cbn. now rewrite Hs, He.
  - rewrite Hv. now rewrite ce_add_nil.
  - now rewrite ce_add_nil.
  - rewrite <- Hv, assign_same, ce_add_nil. destruct st; cbn in *. now subst.
  - rewrite forallb_forall in Hx.
    destruct (floop_fold (fun i st => can_encode (body i) st)
      (fun st i => ce_add st (fields (body i) s)) (fun st => ce_env st = s /\ ce_ext st = 0)
      (Z.to_nat (ev n s)) 0 st) as (-> & _); [|auto|].
    + intros i st' Hi (Hs' & He'). split; [|auto].
      apply IH; auto; [apply Hv; lia|apply Hx, zrange_in; lia].
    + now rewrite ce_add_fold.
Qed.

Definition wr_add (st : wr) (fs : list (coder * Z)) : wr :=
  WR (wr_env st) (wr_out st ++ outs fs) (wr_ok st && woks fs).

Lemma wr_add_nil st : wr_add st [] = st.
Proof. destruct st. unfold wr_add. cbn. now rewrite andb_true_r, app_nil_r. Qed.
Lemma wr_add_app st a b : wr_add st (a ++ b) = wr_add (wr_add st a) b.
Proof. unfold wr_add. cbn. now rewrite outs_app, woks_app, andb_assoc, app_assoc. Qed.
Lemma wr_field_add st c v : wr_field st c v = wr_add st [(c, v)].
Proof.
  unfold wr_field, wr_add, outs, woks, out1, wok1. cbn [flat_map forallb fst snd].
  destruct (coder_write c v); cbn [andb]; rewrite ?app_nil_r, ?andb_true_r, ?andb_false_r; reflexivity.
Qed.
Lemma wr_add_fold (g : Z -> list (coder * Z)) l : forall st,
  fold_left (fun st i => wr_add st (g i)) l st = wr_add st (flat_map g l).
Proof.
  induction l as [|x l IH]; intros st; cbn [fold_left flat_map]; [now rewrite wr_add_nil|].
  now rewrite IH, wr_add_app.
Qed.

Lemma write_fields p : forall s st, valid p s -> no_extensions p s = true -> wr_env st = s ->
  write 0 p st = (wr_add st (fields p s), true).
Proof.
  induction p as [|c d x cx tow fromw|p IHp q IHq|c p IHp q IHq|c p IHp q IHq|p IHp|x|c|c|x e|n body IH];
    intros s st Hv Hx Hs; cbn [valid no_extensions write fields] in *; rewrite ?Hs.
  - now rewrite wr_add_nil.
  - now rewrite wr_field_add.
  - apply andb_true_iff in Hx as (Hx1 & Hx2). destruct Hv as (Hp & Hq).
    rewrite (IHp s) by auto. rewrite (IHq s) by auto. now rewrite wr_add_app.
  - destruct (holds c s); auto.
  - destruct (holds c s); auto.
  - rewrite wr_field_add. destruct (bundle_all_default p s) eqn:Ea; cbn [orb] in Hx; [reflexivity|].
    rewrite (IHp s) by auto. change ((CBits 1, 0) :: fields p s) with ([(CBits 1, 0)] ++ fields p s).
    now rewrite wr_add_app.
  - rewrite Hx, wr_field_add. reflexivity.
  - rewrite Hv. now rewrite wr_add_nil.
  - now rewrite wr_add_nil.
  - rewrite <- Hv, assign_same, wr_add_nil. destruct st; cbn in *. now subst.
  - rewrite forallb_forall in Hx.
    destruct (floop_fold (fun i st => write 0 (body i) st)
      (fun st i => wr_add st (fields (body i) s)) (fun st => wr_env st = s)
      (Z.to_nat (ev n s)) 0 st) as (-> & _); [|auto|].
    + intros i st' Hi Hs'. split; [|auto].
      apply IH; auto; [apply Hv; lia|apply Hx, zrange_in; lia].
    + now rewrite wr_add_fold.
Qed.

(* ---- nonzero extension words inside ---- *)

Lemma coder_bits_nonneg c v : coder_ok c -> 0 <= snd (coder_can_encode c v).
Proof.
  destruct c as [n|e| |]; cbn [coder_ok coder_can_encode bits_can_encode f16_can_encode snd]; intros H; try lia.
  - destruct H as (a & b & c & d & Ha & Hb & Hc & Hd & ->).
    pose proof (u32_write_spec a b c d v Ha Hb Hc Hd) as H. destruct (u32_write _ _) as [ws|].
    + destruct H as (_ & _ & _ & ->). cbn. apply zlen_nonneg.
    + destruct H as (_ & H). unfold u32_can_encode in *. destruct (choose_selector _ _) as [[? ?]|]; cbn in *; [discriminate|lia].
  - rewrite u64_size_ok. assert (H' : Forall (fun f => 0 <= fst f) (u64_write v)).
    { unfold u64_write. destruct (v =? 0); [repeat constructor; cbn; lia|].
      destruct (v <=? 16); [repeat constructor; cbn; lia|].
      destruct (v <=? 272); [repeat constructor; cbn; lia|].
      assert (Hg : forall fuel a sh, Forall (fun f : Z * Z => 0 <= fst f) (fst (u64_groups fuel a sh))).
      { induction fuel as [|f IH]; intros a sh; cbn [u64_groups]; [constructor|].
        destruct ((0 <? a) && (sh <? 60)); [|constructor].
        specialize (IH (Z.shiftr a 8) (sh + 8)). destruct (u64_groups f _ _). cbn [fst] in *.
        repeat constructor; cbn; try lia; auto. }
      specialize (Hg 6%nat (Z.shiftr v 12) 12). destruct (u64_groups _ _ _) as [ws rest]. cbn [fst] in Hg.
      apply Forall_app. split; [repeat constructor; cbn; lia|]. apply Forall_app. split; [auto|].
      destruct (0 <? rest); repeat constructor; cbn; lia. }
    clear H. induction H' as [|f l Hf Hl IHl]; cbn [width_sum fold_right]; [lia|]. unfold width_sum in IHl. lia.
Qed.

Definition ce_step (b : bool) (st st' : ce) : Prop :=
  ce_env st' = ce_env st /\ ce_bits st <= ce_bits st' /\
  (if b then ce_pos st' = ce_pos st else ce_pos st = 0 /\ 0 < ce_pos st' <= ce_bits st').

Lemma ce_step_trans b1 b2 st1 st2 st3 : ce_step b1 st1 st2 -> ce_step b2 st2 st3 -> ce_step (b1 && b2) st1 st3.
Proof.
  intros (E1 & B1 & P1) (E2 & B2 & P2). split; [congruence|]. split; [lia|].
  destruct b1, b2; cbn [andb]; lia.
Qed.

Lemma ce_step_field st c v : coder_ok c -> ce_step true st (ce_field st c v).
Proof.
  intros Hc. rewrite ce_field_add. unfold ce_step, ce_add, cbits, zsum. cbn.
  pose proof (coder_bits_nonneg c v Hc). repeat split; lia.
Qed.

Lemma u64_size_pos v : 2 <= u64_size v.
Proof.
  unfold u64_size. destruct (v =? 0); [lia|]. destruct (v <=? 16); [lia|]. destruct (v <=? 272); [lia|].
  assert (Hg : forall fuel a sh, 0 <= fst (u64_size_groups fuel a sh)).
  { induction fuel as [|f IH]; intros a sh; cbn [u64_size_groups]; [cbn; lia|].
    destruct ((0 <? a) && (sh <? 60)); [|cbn; lia].
    specialize (IH (Z.shiftr a 8) (sh + 8)). destruct (u64_size_groups f _ _). cbn [fst] in *. lia. }
  specialize (Hg 6%nat (Z.shiftr v 12) 12). destruct (u64_size_groups _ _ _) as [n rest]. cbn [fst] in Hg.
  destruct (0 <? rest); lia.
Qed.

Lemma can_encode_step p : forall s st st', valid p s -> ce_env st = s -> 0 <= ce_bits st ->
  can_encode p st = (st', true) -> ce_step (no_extensions p s) st st'.
Proof.
  induction p as [|c d x cx tow fromw|p IHp q IHq|c p IHp q IHq|c p IHp q IHq|p IHp|x|c|c|x e|n body IH];
    intros s st st' Hv Hs Hb; cbn [valid no_extensions can_encode] in *; rewrite ?Hs.
  - intros [= <-]. repeat split; lia.
  - intros [= <-]. apply ce_step_field. apply Hv.
  - destruct (can_encode p st) as [st1 k] eqn:E. destruct k; [|discriminate]. intros H.
    pose proof (IHp s st st1 (proj1 Hv) Hs Hb E) as H1.
    eapply ce_step_trans; [exact H1|]. destruct H1 as (He & Hbb & _).
    apply IHq; auto; try tauto; try congruence; lia.
  - destruct (holds c s); auto.
  - destruct (holds c s); auto.
  - assert (Hc1 : coder_ok (CBits 1)) by (cbn; lia).
    destruct (bundle_all_default p s); cbn [orb].
    + intros [= <-]. now apply ce_step_field.
    + intros H. pose proof (ce_step_field st (CBits 1) 0 Hc1) as H1.
      change (no_extensions p s) with (true && no_extensions p s).
      eapply ce_step_trans; [exact H1|]. destruct H1 as (He & Hbb & _). apply IHp; auto; try congruence; lia.
  - pose proof (ce_step_field st CU64 (s x) I) as (H1 & H2 & H3).
    destruct (s x =? 0) eqn:Ex.
    + intros [= <-]. unfold ce_step. cbn in *. repeat split; try lia; congruence.
    + destruct (negb (ce_pos (ce_field st CU64 (s x)) =? 0)) eqn:E1; [discriminate|].
      destruct (negb (ce_bits (ce_field st CU64 (s x)) =? 0)) eqn:E2; [|discriminate]. intros [= <-].
      rewrite negb_false_iff in E1. rewrite negb_true_iff in E2.
      pose proof (u64_size_pos (s x)). unfold ce_step. cbn in *. repeat split; try congruence; lia.
  - rewrite Hv. intros [= <-]. repeat split; lia.
  - intros [= <-]. repeat split; lia.
  - rewrite <- Hv, assign_same. intros [= <-]. unfold ce_step. cbn. repeat split; try lia; congruence.
  - intros H.
    assert (G : forall m lo st, ce_env st = s -> 0 <= ce_bits st ->
      (forall i, lo <= i < lo + Z.of_nat m -> valid (body i) s) ->
      forall st', floop (fun i st => can_encode (body i) st) m lo st = (st', true) ->
      ce_step (forallb (fun i => no_extensions (body i) s) (zrange m lo)) st st').
    { clear - IH. induction m as [|m IHm]; intros lo st Hs Hb Hv st'; cbn [floop zrange forallb].
      - intros [= <-]. repeat split; lia.
      - destruct (can_encode (body lo) st) as [st1 k] eqn:E. destruct k; [|discriminate]. intros H.
        pose proof (IH lo s st st1 ltac:(apply Hv; lia) Hs Hb E) as H1.
        eapply ce_step_trans; [exact H1|]. destruct H1 as (He & Hbb & _).
        apply IHm; [congruence|lia| |exact H]. intros i Hi. apply Hv. lia. }
    apply G in H; auto. intros i Hi. apply Hv. lia.
Qed.

(* write stops at a zero extension word when extension bits are announced *)
Lemma write_env p : forall s eb st st', valid p s -> wr_env st = s -> write eb p st = (st', true) -> wr_env st' = s.
Proof.
  assert (Hf : forall st c v, wr_env (wr_field st c v) = wr_env st).
  { intros st c v. unfold wr_field. destruct (coder_write c v); reflexivity. }
  induction p as [|c d x cx tow fromw|p IHp q IHq|c p IHp q IHq|c p IHp q IHq|p IHp|x|c|c|x e|n body IH];
    intros s eb st st' Hv Hs; cbn [valid write] in *; rewrite ?Hs.
  - congruence.
  - intros [= <-]. now rewrite Hf.
  - destruct (write eb p st) as [st1 k] eqn:E. destruct k; [|discriminate]. intros H.
    apply (IHq s eb st1 st'); [tauto| |exact H]. eapply IHp; eauto. tauto.
  - destruct (holds c s); eauto.
  - destruct (holds c s); eauto.
  - destruct (bundle_all_default p s).
    + intros [= <-]. now rewrite Hf.
    + intros H. apply (IHp s eb) in H; auto.
  - destruct (s x =? 0).
    + intros H. assert (st' = wr_field st CU64 (s x)) as -> by congruence. now rewrite Hf.
    + intros [= <-]. reflexivity.
  - intros [= <-]. auto.
  - intros [= <-]. auto.
  - rewrite <- Hv, assign_same. intros [= <-]. reflexivity.
  - assert (G : forall m lo st, wr_env st = s ->
      (forall i, lo <= i < lo + Z.of_nat m -> valid (body i) s) ->
      forall st', floop (fun i st => write eb (body i) st) m lo st = (st', true) -> wr_env st' = s).
    { clear - IH. induction m as [|m IHm]; intros lo st Hs Hv st'; cbn [floop].
      - intros [= <-]. auto.
      - destruct (write eb (body lo) st) as [st1 k] eqn:E. destruct k; [|discriminate]. intros H.
        apply (IHm (lo + 1) st1); auto; [eapply IH; eauto; apply Hv; lia|]. intros i Hi. apply Hv. lia. }
    intros H. apply G in H; auto. intros i Hi. apply Hv. lia.
Qed.

(* A written bundle that can be extended at its end: every inner extension word is zero. *)
Lemma written_inner_ext_zero q x s eb total st out :
  valid (Seq q (Ext x)) s -> ce_env st = s -> 0 <= ce_bits st -> ce_pos st = 0 ->
  (let '(st', k) := can_encode (Seq q (Ext x)) st in
   k = true /\ total = ce_bits st' /\ (eb = if ce_pos st' =? 0 then 0 else ce_bits st' - ce_pos st')) ->
  snd (write eb (Seq q (Ext x)) (WR s out true)) = true ->
  no_extensions q s = true /\ eb = 0.
Proof.
  intros (Hq & Hx) Hs Hb Hp. cbn [can_encode write].
  destruct (can_encode q st) as [st1 k] eqn:E. destruct k; [|cbn; intros ([=] & _)].
  pose proof (can_encode_step q s st st1 Hq Hs Hb E) as H1. destruct H1 as (H1 & H2 & H3).
  rewrite H1, Hs, ce_field_add. unfold ce_add, cbits, coks, zsum.
  cbn [map fold_right coder_can_encode fst snd ce_env ce_ok ce_bits ce_ext ce_pos forallb].
  pose proof (u64_size_pos (s x)) as Hu.
  destruct (write eb q (WR s out true)) as [w1 kw] eqn:Ew. destruct kw; [|discriminate].
  assert (Hw1 : wr_env w1 = s) by (eapply write_env; [exact Hq| |exact Ew]; reflexivity).
  rewrite Hw1. destruct (no_extensions q s) eqn:En.
  - destruct (Z.eqb_spec (s x) 0) as [E0|E0]; cbn [ce_bits ce_pos].
    + intros (_ & _ & Heb) _. split; [reflexivity|]. destruct (Z.eqb_spec (ce_pos st1) 0); lia.
    + destruct (negb (ce_pos st1 =? 0)) eqn:En2; [cbn; intros ([=] & _)|]. cbn [ce_bits ce_pos].
      intros (_ & _ & Heb) _. split; [reflexivity|].
      destruct (Z.eqb_spec (ce_bits st1 + (u64_size (s x) + 0)) 0); lia.
  - destruct (Z.eqb_spec (s x) 0) as [E0|E0]; cbn [ce_bits ce_pos].
    + intros (_ & _ & Heb). cbn [snd]. destruct (Z.eqb_spec (ce_pos st1) 0); lia.
    + destruct (Z.eqb_spec (ce_pos st1) 0); [lia|]. cbn. intros ([=] & _).
Qed.

(* ---- single fields ---- *)

Definition coder_read (c : coder) : rprog (option Z) :=
  match c with
  | CBits n => let! v := bits_read n in Ret (Some v)
  | CU32 e => let! v := u32_read e in Ret (Some v)
  | CU64 => let! v := u64_read in Ret (Some v)
  | CF16 => f16_read
  end.

Definition simply_typed (c : coder) (v : Z) : Prop :=
  match c with CBits _ => is_u32 v | CU32 _ => is_u32 v | CU64 => is_u64 v | CF16 => exact_half v end.

Lemma coder_write_ok c v : coder_ok c -> simply_typed c v ->
  match coder_write c v with
  | Some ws => Forall field_ok ws /\ coder_can_encode c v = (true, width_sum ws)
  | None => fst (coder_can_encode c v) = false
  end.
Proof.
  destruct c as [n|e| |]; cbn [coder_ok simply_typed coder_write coder_can_encode]; intros Hc Hv.
  - unfold bits_write, bits_can_encode. rewrite Z.shiftl_1_l. destruct (Z.leb_spec (2 ^ n) v); cbn [negb fst]; [reflexivity|].
    split; [|cbn; f_equal; lia]. constructor; [|constructor]. unfold field_ok, is_u32 in *. cbn. lia.
  - destruct Hc as (a & b & c & d & Ha & Hb & Hc & Hd & ->).
    pose proof (u32_write_spec a b c d v Ha Hb Hc Hd) as H. destruct (u32_write _ _) as [ws|]; [|tauto].
    destruct H as (H1 & _ & _ & ->). split; [exact H1|]. f_equal. now apply zlen_fields_bits.
  - destruct (u64_ok v Hv) as (H & _). split; [exact H|]. now rewrite u64_size_ok.
  - destruct Hv as (h & Hh & Hf & Hn & Hd). destruct (f16_roundtrip h Hh Hf Hn) as (f & E1 & _ & _ & E3 & E4).
    rewrite E1 in Hd. injection Hd as ->. rewrite E4.
    split; [|unfold f16_can_encode in *; cbn in *; congruence].
    constructor; [|constructor]. unfold field_ok. cbn. lia.
Qed.

Lemma coder_read_ok c v ws : coder_ok c -> simply_typed c v -> coder_write c v = Some ws ->
  parses (coder_read c) (fields_bits ws) (Some v).
Proof.
  destruct c as [n|e| |]; cbn [coder_ok simply_typed coder_write coder_read]; intros Hc Hv Hw.
  - unfold bits_write in Hw. rewrite Z.shiftl_1_l in Hw. destruct (Z.leb_spec (2 ^ n) v); [discriminate|].
    injection Hw as <-. eapply parses_bind_nil; [|apply parses_ret]. rewrite fields_bits_cons.
    cbn [fst snd]. change (fields_bits []) with (@nil bool). rewrite app_nil_r.
    apply parses_rd; unfold is_u32 in *; lia.
  - destruct Hc as (a & b & c & d & Ha & Hb & Hc & Hd & ->).
    eapply parses_bind_nil; [|apply parses_ret]. now apply u32_roundtrip.
  - injection Hw as <-. eapply parses_bind_nil; [|apply parses_ret]. now apply u64_ok.
  - destruct Hv as (h & Hh & Hf & Hn & Hd). destruct (f16_roundtrip h Hh Hf Hn) as (f & E1 & _ & _ & E3 & E4).
    rewrite E1 in Hd. injection Hd as ->. rewrite E4 in Hw. injection Hw as <-.
    unfold f16_read. eapply parses_bind_nil with (a := h).
    + rewrite fields_bits_cons. cbn [fst snd]. change (fields_bits []) with (@nil bool). rewrite app_nil_r.
      apply parses_rd; lia.
    + rewrite E1. apply parses_ret.
Qed.

Lemma typed_simply c d v : typed c d v -> simply_typed c v.
Proof. destruct c; cbn; tauto. Qed.

(* [bind] and equality of programs *)
Lemma parses_bind_inv_ret {A B} (p : rprog A) (f : A -> rprog B) (g : rprog B) e b :
  (forall s pos av, run_bits s pos av (bind p f) = run_bits s pos av g) -> parses g e b -> parses (bind p f) e b.
Proof. intros H Hg pre post av Hav. rewrite H. now apply Hg. Qed.

Lemma parses_checked {A} (q : rprog A) k e1 e2 v b :
  parses q e1 v -> parses (k v) e2 b -> parses (checked q k) (e1 ++ e2) b.
Proof. intros H1 H2. unfold checked. eapply parses_bind; [exact H1|]. apply parses_check. exact H2. Qed.

Lemma read_field_ok c x cx fromw r st v ws :
  coder_ok c -> simply_typed c v -> coder_write c v = Some ws ->
  parses (read_field c x cx fromw r st) (fields_bits ws) (RGo (upd r x (stored r cx fromw v)) st).
Proof.
  intros Hc Hv Hw. pose proof (coder_read_ok c v ws Hc Hv Hw) as H.
  rewrite <- (app_nil_r (fields_bits ws)).
  assert (G : forall (q : rprog Z) k, coder_read c = (let! v := q in Ret (Some v)) ->
    parses (k v) [] (RGo (upd r x (stored r cx fromw v)) st) ->
    parses (checked q k) (fields_bits ws ++ []) (RGo (upd r x (stored r cx fromw v)) st)).
  { intros q k Hq Hk. eapply parses_checked; [|exact Hk]. rewrite Hq in H.
    intros pre post av Hav. destruct (H pre post av Hav) as (av' & Hr & Hav').
    rewrite run_bits_bind in Hr. destruct (run_bits _ _ _ q) as [[a [p' a']]|] eqn:Eq; [|discriminate].
    cbn [run_bits] in Hr. injection Hr as -> -> ->. exists av'. auto. }
  destruct c; cbn [read_field coder_read] in *.
  - apply G; [reflexivity|apply parses_ret].
  - apply G; [reflexivity|apply parses_ret].
  - apply G; [reflexivity|apply parses_ret].
  - eapply parses_checked; [exact H|apply parses_ret].
Qed.

(* ---- what the stream determines ---- *)

Lemma inb_iff x l : inb x l = true <-> In x l.
Proof.
  unfold inb. rewrite existsb_exists. split.
  - intros (y & Hy & E). apply Z.eqb_eq in E. now subst.
  - intros H. exists x. split; [exact H|apply Z.eqb_refl].
Qed.
Lemma subset_iff a b : subset a b = true <-> incl a b.
Proof.
  unfold subset. rewrite forallb_forall. split; intros H x Hx; apply inb_iff; auto.
Qed.
Lemma inter_iff x a b : In x (inter a b) <-> In x a /\ In x b.
Proof. unfold inter. rewrite filter_In, inb_iff. tauto. Qed.
Lemma without_iff x y l : In y (without x l) <-> In y l /\ y <> x.
Proof. unfold without. rewrite filter_In, negb_true_iff, Z.eqb_neq. tauto. Qed.

Lemma agree_map D a b l : agree D a b -> incl l D -> map a l = map b l.
Proof. intros H Hl. apply map_ext_in. intros x Hx. apply H, Hl, Hx. Qed.
Lemma agree_ev D a b e : agree D a b -> incl (rds e) D -> ev e a = ev e b.
Proof. intros H He. unfold ev. f_equal. now apply (agree_map D). Qed.
Lemma agree_holds D a b e : agree D a b -> incl (rds e) D -> holds e a = holds e b.
Proof. intros H He. unfold holds. now rewrite (agree_ev D a b e). Qed.
Lemma agree_incl D D' a b : incl D D' -> agree D' a b -> agree D a b.
Proof. intros Hi H x Hx. apply H, Hi, Hx. Qed.
Lemma agree_upd D a b x v : agree D a b -> a x = v -> agree (x :: D) a (upd b x v).
Proof.
  intros H Hv y Hy. unfold upd. destruct (Z.eqb_spec y x) as [->|Hne]; [exact Hv|].
  destruct Hy as [->|Hy]; [congruence|]. now apply H.
Qed.

Lemma surely_determined p : forall D D' s U, well_formed U D p -> incl D D' ->
  incl (surely D p) (determined D' p s).
Proof.
  induction p as [|c d x cx tow fromw|p IHp q IHq|c p IHp q IHq|c p IHp q IHq|p IHp|x|c|c|x e|n body IH];
    intros D D' s U Hw Hi; cbn [surely determined well_formed] in *; auto.
  - intros y [->|Hy]; [now left|right; auto].
  - destruct Hw as (Hw1 & Hw2). eapply IHq; [exact Hw2|]. eapply IHp; eauto.
  - destruct Hw as (_ & Hw1 & Hw2). intros y Hy. apply inter_iff in Hy as (Hy1 & Hy2).
    destruct (holds c s); [eapply IHp|eapply IHq]; eauto.
  - destruct Hw as (_ & Hw1 & Hw2). intros y Hy. apply inter_iff in Hy as (Hy1 & Hy2).
    destruct (holds c s); [eapply IHp|eapply IHq]; eauto.
  - eapply IHp; [apply Hw|auto].
  - intros y [->|Hy]; [now left|right; auto].
  - destruct (subset (rds e) D) eqn:E1.
    + replace (subset (rds e) D') with true.
      * intros y [->|Hy]; [now left|right; auto].
      * symmetry. apply subset_iff. apply subset_iff in E1. eapply incl_tran; eauto.
    + intros y Hy. apply without_iff in Hy as (Hy & Hne). destruct (subset (rds e) D').
      * right. auto.
      * apply without_iff. auto.
  - destruct Hw as (_ & Hw).
    assert (G : forall m, incl (surely_loop D body m) (fold_left (fun D i => determined D (body i) s) (zrange m 0) D')).
    { induction m as [|m IHm]; [exact Hi|]. unfold surely_loop in *. rewrite zrange_snoc, !fold_left_app.
      cbn [fold_left]. eapply IH; [|exact IHm]. destruct (Hw m) as (_ & Hwm). exact Hwm. }
    eapply incl_tran; [|apply G]. apply Hw.
Qed.

Lemma determined_touches p : forall D s x, In x (determined D p s) -> In x D \/ touches p x.
Proof.
  induction p as [|c d x0 cx tow fromw|p IHp q IHq|c p IHp q IHq|c p IHp q IHq|p IHp|x0|c|c|x0 e|n body IH];
    intros D s x; cbn [determined touches]; auto.
  - intros [->|H]; auto.
  - intros H. apply IHq in H as [H|H]; auto. apply IHp in H as [H|H]; auto.
  - destruct (holds c s); intros H; [apply IHp in H|apply IHq in H]; tauto.
  - destruct (holds c s); intros H; [apply IHp in H|apply IHq in H]; tauto.
  - apply IHp.
  - intros [->|H]; auto.
  - destruct (subset (rds e) D).
    + intros [->|H]; auto.
    + intros H. apply without_iff in H. tauto.
  - assert (G : forall l D, (forall i, In i l -> 0 <= i) -> In x (fold_left (fun D i => determined D (body i) s) l D) ->
      In x D \/ exists i, 0 <= i /\ touches (body i) x).
    { induction l as [|i l IHl]; intros D' Hl H; cbn [fold_left] in H; [auto|].
      apply IHl in H; [|intros j Hj; apply Hl; now right]. destruct H as [H|H]; [|auto].
      apply IH in H as [H|H]; [auto|]. right. exists i. split; [apply Hl; now left|exact H]. }
    apply G. intros i Hi. apply zrange_in in Hi. lia.
Qed.

Lemma loop_touches body s (l : list Z) x : forall D,
  In x (fold_left (fun D i => determined D (body i) s) l D) -> In x D \/ exists i, In i l /\ touches (body i) x.
Proof.
  induction l as [|i l IH]; intros D H; cbn [fold_left] in H; [auto|].
  apply IH in H as [H|(j & Hj & H)].
  - apply determined_touches in H as [H|H]; [auto|]. right. exists i. split; [now left|exact H].
  - right. exists j. split; [now right|exact H].
Qed.

(* ---- the round trip of a visit whose extension words are zero ---- *)

Lemma fields_bits_nil : fields_bits [] = [].
Proof. reflexivity. Qed.

Lemma read_round_trip p : forall U D D' s r st,
  well_formed U D p -> incl D D' -> (forall x, In x D' -> U x) -> agree D' s r ->
  valid p s -> no_extensions p s = true -> woks (fields p s) = true -> r_pos st = 0 ->
  exists r', parses (read p r st) (fields_bits (outs (fields p s))) (RGo r' st) /\
    agree (determined D' p s) s r'.
Proof.
  induction p as [|c d x cx tow fromw|p IHp q IHq|c p IHp q IHq|c p IHp q IHq|p IHp|x|c|c|x e|n body IH];
    intros U D D' s r st Hw Hi HU Hag Hv Hx Hok Hpos;
    cbn [well_formed valid no_extensions fields read determined] in *.
  - exists r. split; [apply parses_ret|exact Hag].
  - destruct Hv as (Hc & Ht & Hs). unfold woks, wok1, outs, out1 in *. cbn [forallb flat_map fst snd] in *.
    destruct (coder_write c (shown s x cx tow)) as [ws|] eqn:Ew; [|discriminate]. rewrite app_nil_r.
    exists (upd r x (stored r cx fromw (shown s x cx tow))). split.
    + apply read_field_ok; auto. eapply typed_simply; eauto.
    + apply agree_upd; [exact Hag|]. rewrite <- Hs at 1. unfold stored.
      rewrite (agree_map D' s r cx) by (auto; apply subset_iff in Hw; eapply incl_tran; eauto). reflexivity.
  - destruct Hw as (Hw1 & Hw2). destruct Hv as (Hv1 & Hv2). apply andb_true_iff in Hx as (Hx1 & Hx2).
    rewrite woks_app in Hok. apply andb_true_iff in Hok as (Ho1 & Ho2).
    destruct (IHp U D D' s r st Hw1 Hi HU Hag Hv1 Hx1 Ho1 Hpos) as (r1 & Hr1 & Ha1).
    destruct (IHq _ (surely D p) (determined D' p s) s r1 st Hw2) as (r2 & Hr2 & Ha2); auto.
    + eapply surely_determined; eauto.
    + intros y Hy. apply determined_touches in Hy as [Hy|Hy]; [left; auto|right; auto].
    + exists r2. split; [|exact Ha2]. rewrite outs_app, fields_bits_app. eapply parses_bind; [exact Hr1|exact Hr2].
  - destruct Hw as (Hc & Hw1 & Hw2). apply subset_iff in Hc.
    rewrite <- (agree_holds D' s r c) by (auto; eapply incl_tran; eauto).
    destruct (holds c s); eauto.
  - destruct Hw as (Hc & Hw1 & Hw2). apply subset_iff in Hc.
    rewrite <- (agree_holds D' s r c) by (auto; eapply incl_tran; eauto).
    destruct (holds c s); eauto.
  - destruct Hw as (Hw & Hd). destruct (bundle_all_default p s) eqn:Ea; cbn [orb] in Hx.
    + exists (fst (set_default p r)). split; [|apply (Hd D' s r); auto].
      unfold outs, out1. cbn [flat_map coder_write bits_write fst snd].
      eapply parses_bind_nil with (a := 1); [exact (parses_rd 1 1 ltac:(lia) ltac:(lia))|].
      apply parses_check. apply parses_ret.
    + cbn [woks forallb] in Hok. apply andb_true_iff in Hok as (_ & Hok).
      destruct (IHp U D D' s r st Hw Hi HU Hag Hv Hx Hok Hpos) as (r' & Hr' & Ha').
      exists r'. split; [|exact Ha']. change (outs ((CBits 1, 0) :: fields p s)) with ([(1, 0)] ++ outs (fields p s)).
      rewrite fields_bits_app. eapply parses_bind with (a := 0); [exact (parses_rd 1 0 ltac:(lia) ltac:(lia))|].
      apply parses_check. cbn [andb Z.eqb]. exact Hr'.
  - apply Z.eqb_eq in Hx. exists (upd r x 0). rewrite Hx. split; [|apply agree_upd; auto].
    unfold read_ext. change (outs [(CU64, 0)]) with (u64_write 0). rewrite <- (app_nil_r (fields_bits _)).
    apply parses_checked with (v := 0).
    + apply u64_ok. unfold is_u64. lia.
    + cbn [Z.eqb]. unfold end_extensions. rewrite Hpos. cbn [Z.eqb]. apply parses_ret.
  - apply subset_iff in Hw. rewrite <- (agree_holds D' s r c) by (auto; eapply incl_tran; eauto). rewrite Hv.
    exists r. split; [apply parses_ret|exact Hag].
  - apply subset_iff in Hw. rewrite <- (agree_holds D' s r c) by (auto; eapply incl_tran; eauto). rewrite Hv.
    exists r. split; [apply parses_ret|exact Hag].
  - exists (upd r x (ev e r)). split; [apply parses_ret|]. destruct (subset (rds e) D') eqn:E.
    + apply subset_iff in E. apply agree_upd; [exact Hag|]. rewrite Hv. now apply (agree_ev D').
    + intros y Hy. apply without_iff in Hy as (Hy & Hne). unfold upd.
      destruct (Z.eqb_spec y x); [congruence|]. now apply Hag.
  - destruct Hw as (Hn & Hw). apply subset_iff in Hn.
    rewrite <- (agree_ev D' s r n) by (auto; eapply incl_tran; eauto).
    set (m := Z.to_nat (ev n s)) in *. rewrite forallb_forall in Hx.
    assert (Hv' : forall i, In i (zrange m 0) -> valid (body i) s).
    { intros i Hin. apply Hv. apply zrange_in in Hin. lia. }
    assert (G : forall k j, (k + j <= m)%nat -> forall E' r,
      E' = fold_left (fun D i => determined D (body i) s) (zrange k 0) D' ->
      agree E' s r ->
      exists r', parses (rloop (fun i s st => read (body i) s st) j (Z.of_nat k) r st)
        (fields_bits (outs (flat_map (fun i => fields (body i) s) (zrange j (Z.of_nat k))))) (RGo r' st) /\
        agree (fold_left (fun D i => determined D (body i) s) (zrange j (Z.of_nat k)) E') s r').
    { intros k j. revert k. induction j as [|j IHj]; intros k Hk E' r0 HE Hag0; cbn [rloop zrange flat_map fold_left].
      - exists r0. split; [apply parses_ret|exact Hag0].
      - destruct (Hw k) as (_ & Hwk).
        assert (Hin : In (Z.of_nat k) (zrange m 0)) by (apply zrange_in; lia).
        destruct (IH (Z.of_nat k) _ (surely_loop D body k) E' s r0 st Hwk) as (r1 & Hr1 & Ha1); auto.
        + subst E'. clear - Hi Hw. induction k as [|k IHk]; [exact Hi|]. unfold surely_loop in *.
          rewrite zrange_snoc, !fold_left_app. cbn [fold_left]. eapply surely_determined; [|exact IHk].
          destruct (Hw k) as (_ & Hwk). exact Hwk.
        + intros y Hy. subst E'. apply loop_touches in Hy as [Hy|(i & Hi1 & Hy)]; [left; auto|].
          right. exists i. apply zrange_in in Hi1. split; [lia|exact Hy].
        + unfold woks in Hok |- *. rewrite forallb_forall in *. intros cv Hcv. apply Hok.
          apply in_flat_map. exists (Z.of_nat k). split; auto.
        + destruct (IHj (S k) ltac:(lia) (determined E' (body (Z.of_nat k)) s) r1) as (r2 & Hr2 & Ha2).
          * subst E'. rewrite zrange_snoc, fold_left_app. reflexivity.
          * exact Ha1.
          * replace (Z.of_nat k + 1) with (Z.of_nat (S k)) by lia.
            exists r2. split; [|exact Ha2]. rewrite outs_app, fields_bits_app. eapply parses_bind; [exact Hr1|exact Hr2]. }
    destruct (G 0%nat m ltac:(lia) D' r eq_refl Hag) as (r' & Hr' & Ha'). exists r'. auto.
Qed.

(* ---- extensions ---- *)

Lemma ext_sizes_run sizes : forall bits total k pre post av,
  length bits = length sizes -> Forall is_u64 sizes -> 0 <= total -> total + zsum sizes < 2 ^ 64 -> 0 <= av <= 56 ->
  let fb := fields_bits (concat (map u64_write sizes)) in
  exists av', 0 <= av' <= 56 /\
    run_bits (pre ++ fb ++ post) (zlen pre) av (ext_sizes bits total k) =
    run_bits (pre ++ fb ++ post) (zlen pre + zlen fb) av' (k (total + zsum sizes)).
Proof.
  induction sizes as [|n sizes IH]; intros [|b bits] total k pre post av Hl Hs Ht Hz Hav; try discriminate; cbn zeta.
  - cbn [map concat ext_sizes zsum fold_right]. rewrite fields_bits_nil. change (zlen (@nil bool)) with 0.
    rewrite !Z.add_0_r. exists av. auto.
  - inversion Hs as [|? ? Hn Hs']; subst. cbn [map concat ext_sizes]. rewrite fields_bits_app, <- app_assoc.
    unfold checked. rewrite run_bits_bind.
    assert (Hnn : 0 <= zsum sizes).
    { clear - Hs'. induction Hs' as [|x l Hx Hl IHl]; cbn; [lia|]. unfold is_u64, zsum in *. lia. }
    change (zsum (n :: sizes)) with (n + zsum sizes) in *.
    destruct (u64_ok n Hn) as (_ & Hp).
    destruct (Hp pre (fields_bits (concat (map u64_write sizes)) ++ post) av Hav) as (av1 & -> & Hav1).
    cbn [run_bits].
    set (e1 := fields_bits (u64_write n)) in *. set (e2 := fields_bits (concat (map u64_write sizes))) in *.
    pose proof (zlen_nonneg e1). pose proof (zlen_nonneg e2). pose proof (zlen_nonneg post). pose proof (zlen_nonneg pre).
    replace (zlen pre + zlen e1 <=? zlen (pre ++ e1 ++ e2 ++ post)) with true by (rewrite !zlen_app; lia).
    replace (total + n <? 2 ^ 64) with true by lia.
    destruct (IH bits (total + n) k (pre ++ e1) post av1) as (av2 & Hav2 & Hr); auto; unfold is_u64 in *; try lia.
    fold e2 in Hr. rewrite zlen_app in Hr. rewrite <- app_assoc in Hr. exists av2. split; [exact Hav2|].
    rewrite Hr. rewrite zlen_app. f_equal; [lia|]. f_equal. lia.
Qed.

Lemma u64_write_len v : is_u64 v -> 2 <= zlen (fields_bits (u64_write v)).
Proof.
  intros Hv. destruct (u64_ok v Hv) as (Hf & _). rewrite zlen_fields_bits by exact Hf.
  rewrite <- u64_size_ok. apply u64_size_pos.
Qed.

Lemma read_ext_foreign x r st v sizes payload pre post av :
  is_u64 v -> v <> 0 -> Forall is_u64 sizes -> length sizes = length (set_bits v) -> zsum sizes = zlen payload ->
  r_total st = 0 -> 0 <= av <= 56 ->
  let e := foreign_extension v sizes payload in
  zlen pre + zlen e < 2 ^ 64 ->
  exists st' av', run_bits (pre ++ e ++ post) (zlen pre) av (read_ext x r st)
    = Some (RGo (upd r x v) st', (zlen pre + zlen e, av')) /\ r_ok st' = r_ok st /\ 0 <= av' <= 56.
Proof.
  intros Hv Hv0 Hs Hl Hz Ht Hav e. unfold e, foreign_extension. clear e. rewrite fields_bits_app.
  set (e1 := fields_bits (u64_write v)). set (e2 := fields_bits (concat (map u64_write sizes))).
  rewrite <- !app_assoc. rewrite !zlen_app.
  pose proof (zlen_nonneg e1). pose proof (zlen_nonneg e2). pose proof (zlen_nonneg post). pose proof (zlen_nonneg pre).
  pose proof (zlen_nonneg payload). intros Hb. unfold read_ext, checked. rewrite run_bits_bind.
  destruct (u64_ok v Hv) as (_ & Hp).
  destruct (Hp pre (e2 ++ payload ++ post) av Hav) as (av1 & Hr1 & Hav1). fold e1 in Hr1. rewrite Hr1. cbn [run_bits].
  replace (zlen pre + zlen e1 <=? zlen (pre ++ e1 ++ e2 ++ payload ++ post)) with true by (rewrite !zlen_app; lia).
  destruct (Z.eqb_spec v 0); [lia|].
  destruct (ext_sizes_run sizes (set_bits v) (r_total st)
    (fun total => Pos (fun pos => if pos =? 0 then Ret RFail else end_extensions (upd r x v) (RS total pos (r_ok st))))
    (pre ++ e1) (payload ++ post) av1 (eq_sym Hl) Hs ltac:(lia) ltac:(lia) Hav1) as (av2 & Hav2 & Hr).
  fold e2 in Hr. rewrite zlen_app, <- !app_assoc in Hr. rewrite Hr. clear Hr.
  pose proof (u64_write_len v Hv) as Hlen. fold e1 in Hlen.
  cbn [run_bits].
  replace (zlen pre + zlen e1 + zlen e2 <=? zlen (pre ++ e1 ++ e2 ++ payload ++ post)) with true by (rewrite !zlen_app; lia).
  destruct (Z.eqb_spec (zlen pre + zlen e1 + zlen e2) 0); [lia|].
  unfold end_extensions. cbn [r_pos r_total r_ok].
  destruct (Z.eqb_spec (zlen pre + zlen e1 + zlen e2) 0); [lia|]. cbn [run_bits].
  replace (zlen pre + zlen e1 + zlen e2 <=? zlen (pre ++ e1 ++ e2 ++ payload ++ post)) with true by (rewrite !zlen_app; lia).
  rewrite Ht, Hz, Z.add_0_l.
  destruct (Z.leb_spec (2 ^ 64) (zlen pre + zlen e1 + zlen e2 + zlen payload)); [lia|].
  destruct (Z.ltb_spec (zlen pre + zlen e1 + zlen e2 + zlen payload) (zlen pre + zlen e1 + zlen e2)); [lia|].
  replace (zlen pre + zlen e1 + zlen e2 + zlen payload - (zlen pre + zlen e1 + zlen e2)) with (zlen payload) by lia.
  destruct (Z.eqb_spec (zlen payload) 0) as [Hp0|Hp0].
  - cbn [run_bits]. do 2 eexists. split; [|split].
    + f_equal. f_equal. f_equal. lia.
    + reflexivity.
    + exact Hav2.
  - cbn [run_bits]. destruct (Z.leb_spec 0 (zlen payload)); [|lia].
    replace (zlen pre + zlen e1 + zlen e2 + zlen payload <=? zlen (pre ++ e1 ++ e2 ++ payload ++ post)) with true by (rewrite !zlen_app; lia).
    cbn [run_bits]. do 2 eexists. split; [|split].
    + f_equal. f_equal. f_equal. lia.
    + reflexivity.
    + lia.
Qed.

Lemma parses_parses_to {A} (p : rprog A) e a : parses p e a -> parses_to p e a.
Proof. intros H pre post av Hav _. apply H. exact Hav. Qed.

Lemma run_bundle p r st s pos av s1 st1 pos1 av1 :
  run_bits s pos av (read p r st) = Some (RGo s1 st1, (pos1, av1)) ->
  st = RS 0 0 true -> r_ok st1 = true ->
  run_bits s pos av (bundle_read p r) = Some (Loaded s1, (pos1, av1)).
Proof. intros H -> Hok. unfold bundle_read. rewrite run_bits_bind, H, Hok. reflexivity. Qed.

(* A stream whose final extension word announces extensions. *)
Lemma foreign_round_trip q x U D s r v sizes payload :
  well_formed U D q -> (forall y, In y D -> U y) -> agree D s r -> valid q s ->
  no_extensions q s = true -> woks (fields q s) = true ->
  is_u64 v -> v <> 0 -> Forall is_u64 sizes -> length sizes = length (set_bits v) -> zsum sizes = zlen payload ->
  exists r', agree (determined D q s) s r' /\
    parses_to (bundle_read (Seq q (Ext x)) r) (fields_bits (outs (fields q s)) ++ foreign_extension v sizes payload) (Loaded (upd r' x v)) /\
    parses_to (bundle_read (AllDef (Seq q (Ext x))) r) ([false] ++ fields_bits (outs (fields q s)) ++ foreign_extension v sizes payload) (Loaded (upd r' x v)).
Proof.
  intros Hw HU Ha Hv Hx Hok Hvr Hv0 Hs Hl Hz.
  destruct (read_round_trip q U D D s r (RS 0 0 true) Hw (incl_refl _) HU Ha Hv Hx Hok eq_refl) as (r' & Hr & Ha').
  exists r'. split; [exact Ha'|].
  set (e1 := fields_bits (outs (fields q s))) in *. set (e2 := foreign_extension v sizes payload).
  assert (G : forall pre post av, 0 <= av <= 56 -> zlen pre + zlen (e1 ++ e2) < 2 ^ 64 ->
    exists st' av', run_bits (pre ++ (e1 ++ e2) ++ post) (zlen pre) av (read (Seq q (Ext x)) r (RS 0 0 true)) =
      Some (RGo (upd r' x v) st', (zlen pre + zlen (e1 ++ e2), av')) /\ r_ok st' = true /\ 0 <= av' <= 56).
  { intros pre post av Hav Hb. rewrite zlen_app in *. cbn [read]. rewrite run_bits_bind, <- app_assoc.
    destruct (Hr pre (e2 ++ post) av Hav) as (av1 & -> & Hav1).
    destruct (read_ext_foreign x r' (RS 0 0 true) v sizes payload (pre ++ e1) post av1 Hvr Hv0 Hs Hl Hz eq_refl Hav1)
      as (st' & av' & Hr2 & Ho & Hav').
    - rewrite zlen_app. fold e2. lia.
    - fold e2 in Hr2. rewrite zlen_app, <- app_assoc in Hr2. rewrite Hr2. exists st', av'.
      split; [f_equal; f_equal; f_equal; lia|auto]. }
  split; intros pre post av Hav Hb.
  - destruct (G pre post av Hav Hb) as (st' & av' & Hrun & Ho & Hav'). exists av'. split; [|exact Hav'].
    eapply run_bundle; eauto.
  - change ([false] ++ e1 ++ e2) with ([false] ++ (e1 ++ e2)) in *. rewrite (zlen_app [false]) in *.
    destruct (G (pre ++ [false]) post (56 - 1)) as (st' & av' & Hrun & Ho & Hav'); [lia|rewrite zlen_app; lia|].
    rewrite <- app_assoc, zlen_app in Hrun.
    exists av'. split; [|exact Hav']. eapply run_bundle; [|reflexivity|exact Ho].
    cbn [read]. unfold bits_read, rd. cbn [bind run_bits]. change ((0 <=? 1) && (1 <=? 56)) with true. cbv iota.
    rewrite <- app_assoc. change ([false] ++ (e1 ++ e2) ++ post) with (to_bits (Z.to_nat 1) 0 ++ (e1 ++ e2) ++ post).
    rewrite bits_at_exact by lia.
    replace (zlen pre + 1 <=? zlen (pre ++ to_bits (Z.to_nat 1) 0 ++ (e1 ++ e2) ++ post)) with true.
    2: { rewrite !zlen_app. pose proof (zlen_nonneg e1). pose proof (zlen_nonneg e2). pose proof (zlen_nonneg post).
         change (zlen (to_bits (Z.to_nat 1) 0)) with 1. lia. }
    cbn [andb Z.eqb]. rewrite (Z.add_assoc (zlen pre)) . exact Hrun.
Qed.

(* ---- Bundle::Write followed by Bundle::Read ---- *)

Lemma fields_typed p : forall s, valid p s -> Forall (fun cv => coder_ok (fst cv) /\ simply_typed (fst cv) (snd cv)) (fields p s).
Proof.
  induction p as [|c d x cx tow fromw|p IHp q IHq|c p IHp q IHq|c p IHp q IHq|p IHp|x|c|c|x e|n body IH];
    intros s Hv; cbn [valid fields] in *; try constructor.
  - cbn [fst snd]. destruct Hv as (Hc & Ht & _). split; [exact Hc|]. eapply typed_simply; eauto.
  - constructor.
  - apply Forall_app. split; [apply IHp|apply IHq]; tauto.
  - destruct (holds c s); auto.
  - destruct (holds c s); auto.
  - destruct (bundle_all_default p s).
    + constructor; [|constructor]. cbn. unfold is_u32. lia.
    + constructor; [|auto]. cbn. unfold is_u32. lia.
  - cbn. auto.
  - constructor.
  - apply Forall_flat_map. apply Forall_forall. intros i Hi. apply IH. apply Hv. apply zrange_in in Hi. lia.
Qed.

Lemma typed_sizes fs : Forall (fun cv => coder_ok (fst cv) /\ simply_typed (fst cv) (snd cv)) fs ->
  coks fs = woks fs /\ Forall field_ok (outs fs) /\ (woks fs = true -> width_sum (outs fs) = cbits fs).
Proof.
  induction 1 as [|[c v] fs (Hc & Ht) Hfs (IH1 & IH2 & IH3)]; [repeat split; constructor|].
  cbn [fst snd] in *. pose proof (coder_write_ok c v Hc Ht) as H.
  change (coks ((c, v) :: fs)) with (fst (coder_can_encode c v) && coks fs).
  change (woks ((c, v) :: fs)) with (wok1 (c, v) && woks fs).
  change (outs ((c, v) :: fs)) with (out1 (c, v) ++ outs fs).
  change (cbits ((c, v) :: fs)) with (snd (coder_can_encode c v) + cbits fs).
  unfold wok1, out1. cbn [fst snd]. rewrite IH1.
  destruct (coder_write c v) as [ws|].
  - destruct H as (Hf & ->). cbn [fst snd andb]. split; [reflexivity|]. split; [apply Forall_app; auto|].
    intros Hw. rewrite width_sum_app, IH3 by exact Hw. reflexivity.
  - rewrite H. cbn [andb]. split; [reflexivity|]. split; [exact IH2|discriminate].
Qed.

Lemma ext_free_no_extensions p s : ext_free p -> no_extensions p s = true.
Proof.
  induction p as [|c d x cx tow fromw|p IHp q IHq|c p IHp q IHq|c p IHp q IHq|p IHp|x|c|c|x e|n body IH];
    cbn [ext_free no_extensions]; intros H; try reflexivity.
  - rewrite IHp, IHq by tauto. reflexivity.
  - destruct (holds c s); tauto.
  - destruct (holds c s); tauto.
  - rewrite IHp by exact H. apply orb_true_r.
  - tauto.
  - apply forallb_forall. intros i _. apply IH. apply H.
Qed.

Lemma bundle_write_plain p s total ws : valid p s -> no_extensions p s = true ->
  bundle_write p s = Some (total, ws) ->
  woks (fields p s) = true /\ total = cbits (fields p s) /\ ws = outs (fields p s).
Proof.
  intros Hv Hx. unfold bundle_write, bundle_can_encode.
  rewrite (can_encode_fields p s) by auto. cbn [negb].
  unfold ce_add. cbn [ce_ok ce_bits ce_pos ce_env ce_ext Z.eqb andb].
  destruct (coks (fields p s)); cbn [negb]; [|discriminate].
  rewrite (write_fields p s) by auto. unfold wr_add. cbn [wr_env wr_out wr_ok andb app].
  destruct (woks (fields p s)); [|discriminate]. intros [= <- <-]. auto.
Qed.

Lemma set_bits_nonempty v : is_u64 v -> v <> 0 -> (1 <= length (set_bits v))%nat.
Proof.
  intros Hv Hn. destruct (set_bits v) as [|b l] eqn:E; [|cbn; lia]. exfalso. apply Hn.
  apply Z.bits_inj'. intros i Hi. rewrite Z.bits_0. destruct (Z.testbit v i) eqn:Et; [|reflexivity].
  destruct (Z.ltb_spec i 64).
  - assert (In i (set_bits v)) as H'.
    { unfold set_bits. apply filter_In. split; [|exact Et]. apply in_map_iff. exists (Z.to_nat i).
      split; [lia|]. apply in_seq. lia. }
    rewrite E in H'. destruct H'.
  - rewrite Z.bits_above_log2 in Et; [discriminate|unfold is_u64 in Hv; lia|].
    apply Z.log2_lt_pow2; unfold is_u64 in Hv; [lia|]. apply Z.lt_le_trans with (2 ^ 64); [lia|].
    apply Z.pow_le_mono_r; lia.
Qed.

Definition zero_sizes (v : Z) : list Z := map (fun _ => 0) (set_bits v).

Lemma ext_sizes_out_zero v : is_u64 v -> v <> 0 -> ext_sizes_out 0 v = concat (map u64_write (zero_sizes v)).
Proof.
  intros Hv Hn. pose proof (set_bits_nonempty v Hv Hn) as H. unfold ext_sizes_out, zero_sizes.
  destruct (set_bits v) as [|b l]; [cbn in H; lia|]. cbn [tl map concat]. f_equal. rewrite map_map. reflexivity.
Qed.

Lemma zero_sizes_out v : is_u64 v -> v <> 0 ->
  Forall field_ok (ext_sizes_out 0 v) /\ width_sum (ext_sizes_out 0 v) = 2 + 2 * (zlen (set_bits v) - 1).
Proof.
  intros Hv Hn. rewrite ext_sizes_out_zero by auto. pose proof (set_bits_nonempty v Hv Hn) as H.
  replace (2 + 2 * (zlen (set_bits v) - 1)) with (2 * zlen (set_bits v)) by lia. unfold zero_sizes.
  rewrite map_map. clear. induction (set_bits v) as [|b l (IH1 & IH2)]; [split; [constructor|reflexivity]|].
  cbn [map concat]. split.
  - apply Forall_app. split; [|exact IH1]. repeat constructor; cbn; lia.
  - rewrite width_sum_app, IH2, zlen_cons. change (width_sum (u64_write 0)) with 2. lia.
Qed.

Lemma zsum_zero v : zsum (zero_sizes v) = 0.
Proof. unfold zero_sizes, zsum. induction (set_bits v); cbn; auto. Qed.

Lemma zero_sizes_u64 v : Forall is_u64 (zero_sizes v).
Proof.
  unfold zero_sizes. induction (set_bits v) as [|b l IH]; cbn [map]; constructor; [|exact IH].
  unfold is_u64. lia.
Qed.

(* the extension word at the end is nonzero *)
Lemma write_ext q x s total ws (pre : list (coder * Z)) eb :
  valid (Seq q (Ext x)) s -> s x <> 0 -> woks pre = true ->
  (let '(st, k) := can_encode (Seq q (Ext x)) (ce_add (CE s true 0 0 0) pre) in
   k = true /\ ce_ok st = true /\
   eb = (if ce_pos st =? 0 then 0 else ce_bits st - ce_pos st) /\
   total = (if ce_pos st =? 0 then ce_bits st else
      ce_bits st + u64_size eb + 2 * (zlen (set_bits (ce_ext st)) - 1))) ->
  (let '(st, k) := write eb (Seq q (Ext x)) (wr_add (WR s [] true) pre) in
   k = true /\ wr_ok st = true /\ ws = wr_out st) ->
  Forall (fun cv => coder_ok (fst cv) /\ simply_typed (fst cv) (snd cv)) pre ->
  no_extensions q s = true /\ woks (fields q s) = true /\
  ws = outs (pre ++ fields q s) ++ u64_write (s x) ++ concat (map u64_write (zero_sizes (s x))) /\
  Forall field_ok ws /\ width_sum ws = total.
Proof.
  intros Hv Hx Hpre Hce Hwr Hty. pose proof Hv as Hv'. destruct Hv' as (Hq & Hu). cbn [valid] in Hu.
  assert (Hb : 0 <= cbits pre).
  { clear - Hty. induction Hty as [|[c v] l (Hc & _) Hl IH]; [cbn; lia|].
    change (cbits ((c, v) :: l)) with (snd (coder_can_encode c v) + cbits l).
    pose proof (coder_bits_nonneg c v Hc). lia. }
  assert (Hin : no_extensions q s = true /\ eb = 0).
  { eapply (written_inner_ext_zero q x s eb (ce_bits (fst (can_encode (Seq q (Ext x)) (ce_add (CE s true 0 0 0) pre))))
      (ce_add (CE s true 0 0 0) pre) (wr_out (wr_add (WR s [] true) pre))); auto.
    - destruct (can_encode _ _) as [st k]. cbn [fst]. tauto.
    - replace (WR s (wr_out (wr_add (WR s [] true) pre)) true) with (wr_add (WR s [] true) pre).
      + destruct (write eb _ _) as [st k]. tauto.
      + unfold wr_add. rewrite Hpre. reflexivity. }
  destruct Hin as (Hn & ->). split; [exact Hn|].
  cbn [can_encode write] in Hce, Hwr.
  rewrite (can_encode_fields q s) in Hce by auto. rewrite (write_fields q s) in Hwr by auto.
  rewrite <- ce_add_app in Hce. rewrite <- wr_add_app in Hwr.
  unfold ce_add in Hce. unfold wr_add in Hwr.
  cbn [ce_env ce_ok ce_bits ce_ext ce_pos wr_env wr_out wr_ok andb app ce_field wr_field coder_can_encode coder_write] in Hce, Hwr.
  destruct (Z.eqb_spec (s x) 0); [lia|].
  destruct Hwr as (_ & Hok & ->). cbn [wr_ok wr_out] in *.
  pose proof (Forall_app (fun cv => coder_ok (fst cv) /\ simply_typed (fst cv) (snd cv)) pre (fields q s)) as Hfa.
  pose proof (typed_sizes (pre ++ fields q s) (proj2 Hfa (conj Hty (fields_typed q s Hq)))) as (_ & Hf & Hw).
  specialize (Hw Hok). rewrite woks_app, Hpre in Hok. cbn [andb] in Hok. split; [exact Hok|].
  rewrite <- app_assoc. rewrite ext_sizes_out_zero by auto. split; [reflexivity|].
  rewrite <- ext_sizes_out_zero by auto.
  destruct (zero_sizes_out (s x) Hu n) as (Hz1 & Hz2). destruct (u64_ok (s x) Hu) as (Hu1 & _).
  split; [apply Forall_app; split; [exact Hf|]; apply Forall_app; auto|].
  rewrite !width_sum_app, Hw, Hz2, <- u64_size_ok.
  pose proof (u64_size_pos (s x)).
  cbn [negb Z.eqb ce_pos ce_bits ce_ext] in Hce.
  assert (0 <= cbits (pre ++ fields q s)).
  { rewrite <- Hw. rewrite <- zlen_fields_bits by exact Hf. apply zlen_nonneg. }
  destruct (Z.eqb_spec (0 + cbits (pre ++ fields q s) + u64_size (s x)) 0); [lia|].
  destruct Hce as (_ & _ & _ & ->). change (u64_size 0) with 2. lia.
Qed.

Lemma bundle_parts p s total ws : bundle_write p s = Some (total, ws) ->
  exists st k eb, can_encode p (CE s true 0 0 0) = (st, k) /\ k = true /\ ce_ok st = true /\
   eb = (if ce_pos st =? 0 then 0 else ce_bits st - ce_pos st) /\
   total = (if ce_pos st =? 0 then ce_bits st else
      ce_bits st + u64_size eb + 2 * (zlen (set_bits (ce_ext st)) - 1)) /\
   let '(wt, kw) := write eb p (WR s [] true) in kw = true /\ wr_ok wt = true /\ ws = wr_out wt.
Proof.
  unfold bundle_write, bundle_can_encode. destruct (can_encode p _) as [st k].
  destruct k; [|discriminate]. cbn [negb]. destruct (ce_ok st) eqn:Eo; [|discriminate]. cbn [negb].
  destruct (ce_pos st =? 0) eqn:Ep.
  - intros H. exists st, true, 0. rewrite Ep. repeat split; auto.
    + destruct (write 0 p _) as [wt kw]. destruct (kw && wr_ok wt); [congruence|discriminate].
    + destruct (write 0 p _) as [wt kw]. destruct kw; [|discriminate]. destruct (wr_ok wt); [|discriminate].
      cbn [andb] in H. repeat split; auto; congruence.
  - destruct (ce_bits st <? ce_pos st); [discriminate|]. intros H.
    exists st, true, (ce_bits st - ce_pos st). rewrite Ep. repeat split; auto.
    + destruct (write _ p _) as [wt kw]. destruct (kw && wr_ok wt); [congruence|discriminate].
    + destruct (write _ p _) as [wt kw]. destruct kw; [|discriminate]. destruct (wr_ok wt); [|discriminate].
      cbn [andb] in H. repeat split; auto; congruence.
Qed.

Theorem bundle_round_trip p D s r total ws :
  well_formed (fun x => In x D) D p -> extensible_at_end p -> valid p s -> agree D s r ->
  bundle_write p s = Some (total, ws) ->
  Forall field_ok ws /\ width_sum ws = total /\
  exists r', parses_to (bundle_read p r) (fields_bits ws) (Loaded r') /\ agree (determined D p s) s r'.
Proof.
  intros Hw Hshape Hv Ha Hwr.
  assert (Hplain : no_extensions p s = true -> Forall field_ok ws /\ width_sum ws = total /\
    exists r', parses_to (bundle_read p r) (fields_bits ws) (Loaded r') /\ agree (determined D p s) s r').
  { intros Hx. destruct (bundle_write_plain p s total ws Hv Hx Hwr) as (Hok & -> & ->).
    destruct (typed_sizes (fields p s) (fields_typed p s Hv)) as (_ & Hf & Hs). split; [exact Hf|]. split; [auto|].
    destruct (read_round_trip p _ D D s r (RS 0 0 true) Hw (incl_refl _) (fun _ h => h) Ha Hv Hx Hok eq_refl) as (r' & Hr & Ha').
    exists r'. split; [|exact Ha']. intros pre post av Hav Hb. destruct (Hr pre post av Hav) as (av' & Hrun & Hav').
    exists av'. split; [|exact Hav']. eapply run_bundle; [exact Hrun|reflexivity|reflexivity]. }
  destruct Hshape as [Hs|[(q & x & ->)|(q & x & ->)]].
  - apply Hplain. now apply ext_free_no_extensions.
  - destruct (Z.eq_dec (s x) 0) as [E0|E0].
    + apply Hplain. cbn [no_extensions]. rewrite E0, andb_true_r.
      apply bundle_parts in Hwr as (st & k & eb & Hce & -> & Hok & Heb & Ht & Hwr).
      destruct (written_inner_ext_zero q x s eb (ce_bits st) (CE s true 0 0 0) [] Hv eq_refl ltac:(cbn; lia) eq_refl) as (Hn & _); auto.
      * rewrite Hce. auto.
      * destruct (write _ _ _) as [wt kw]. tauto.
    + apply bundle_parts in Hwr as (st & k & eb & Hce & -> & Hok & Heb & Ht & Hwr).
      destruct (write_ext q x s total ws [] eb Hv E0 eq_refl) as (Hn & Hwk & Hws & Hf & Hsum).
      * rewrite ce_add_nil, Hce. auto.
      * rewrite wr_add_nil. exact Hwr.
      * constructor.
      * split; [exact Hf|]. split; [exact Hsum|]. cbn [app] in Hws.
        cbn [well_formed] in Hw. destruct Hw as (Hw & _). destruct Hv as (Hq & Hu). cbn [valid] in Hu.
        destruct (foreign_round_trip q x _ D s r (s x) (zero_sizes (s x)) [] Hw (fun _ h => h) Ha Hq Hn Hwk Hu E0)
          as (r' & Ha' & Hr & _).
        -- apply zero_sizes_u64.
        -- unfold zero_sizes. apply map_length.
        -- apply zsum_zero.
        -- exists (upd r' x (s x)). split.
           ++ subst ws. rewrite fields_bits_app. unfold foreign_extension in Hr. rewrite app_nil_r in Hr. exact Hr.
           ++ cbn [determined]. now apply agree_upd.
  - assert (Hb : bundle_all_default (Seq q (Ext x)) s = true \/ bundle_all_default (Seq q (Ext x)) s = false)
      by (destruct (bundle_all_default _ _); auto).
    destruct Hb as [Ead|Ead].
    { apply Hplain. cbn [no_extensions]. rewrite Ead. reflexivity. }
    cbn [valid] in Hv.
    assert (Hty : Forall (fun cv => coder_ok (fst cv) /\ simply_typed (fst cv) (snd cv)) [(CBits 1, 0)]).
    { constructor; [|constructor]. cbn. unfold is_u32. lia. }
    apply bundle_parts in Hwr as (st & k & eb & Hce & -> & Hok & Heb & Ht & Hwr).
    cbn [can_encode write ce_env wr_env] in Hce, Hwr. rewrite Ead in Hce, Hwr.
    rewrite ce_field_add in Hce. rewrite wr_field_add in Hwr.
    destruct (Z.eq_dec (s x) 0) as [E0|E0].
    + apply Hplain. cbn [no_extensions]. rewrite E0, andb_true_r. apply orb_true_iff. right.
      destruct (written_inner_ext_zero q x s eb (ce_bits st) (ce_add (CE s true 0 0 0) [(CBits 1, 0)]) [(1, 0)] Hv eq_refl ltac:(cbn; lia) eq_refl) as (Hn & _); auto.
      * cbn [can_encode]. rewrite Hce. auto.
      * cbn [write]. replace (WR s [(1, 0)] true) with (wr_add (WR s [] true) [(CBits 1, 0)]) by reflexivity.
        destruct (let '(st1, k) := write eb q _ in _) as [wt kw]. tauto.
    + destruct (write_ext q x s total ws [(CBits 1, 0)] eb Hv E0 eq_refl) as (Hn & Hwk & Hws & Hf & Hsum).
      * cbn [can_encode]. rewrite Hce. auto.
      * cbn [write]. exact Hwr.
      * exact Hty.
      * split; [exact Hf|]. split; [exact Hsum|].
        cbn [well_formed] in Hw. destruct Hw as ((Hw & _) & _). destruct Hv as (Hq & Hu). cbn [valid] in Hu.
        destruct (foreign_round_trip q x _ D s r (s x) (zero_sizes (s x)) [] Hw (fun _ h => h) Ha Hq Hn Hwk Hu E0)
          as (r' & Ha' & _ & Hr).
        -- apply zero_sizes_u64.
        -- unfold zero_sizes. apply map_length.
        -- apply zsum_zero.
        -- exists (upd r' x (s x)). split.
           ++ subst ws. rewrite fields_bits_app. rewrite outs_app, fields_bits_app. replace (outs [(CBits 1, 0)]) with [(1, 0)] by reflexivity.
              unfold foreign_extension in Hr. rewrite app_nil_r in Hr.
              replace (fields_bits [(1, 0)]) with [false] by reflexivity. rewrite <- app_assoc. exact Hr.
           ++ cbn [determined]. now apply agree_upd.
Qed.
