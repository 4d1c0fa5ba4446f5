(* The decidable criterion for consistent all-default shortcuts. *)
From Verif Require Import Base ListAux BitProg FieldsModel FieldsSpec BundleModel BundleSpec BundleProofs.

(* ---- a decidable criterion for [defaults_ok] ---- *)

(* the value of e when the members in K hold their defaults *)
Definition known (dflt : Z -> option Z) (K : list Z) (e : expr) : option Z :=
  if subset (rds e) K then Some (fn e (map (fun x => match dflt x with Some d => d | None => 0 end) (rds e)))
  else None.
Definition inter_opt (a b : option (list Z)) : option (list Z) :=
  match a, b with Some a, Some b => Some (inter a b) | _, _ => None end.
Definition oloop (f : Z -> list Z -> option (list Z)) :=
  fix go (n : nat) (i : Z) (K : list Z) {struct n} : option (list Z) :=
  match n with
  | O => Some K
  | S n' => match f i K with Some K1 => go n' (i + 1) K1 | None => None end
  end.
Definition oeq (a b : option Z) : bool :=
  match a, b with Some a, Some b => a =? b | _, _ => false end.

(* [dcheck setting dflt R K p]: follow p (with [setting], the way SetDefault does;
   otherwise the way a visit of an all-default bundle does), given that the members K hold
   their default value dflt; every member written must have a default, and lie in R unless
   [setting].  Result: the members that hold their default value afterwards. *)
Fixpoint dcheck (setting : bool) (dflt : Z -> option Z) (R K : list Z) (p : prog) : option (list Z) :=
  match p with
  | Done | FailReading _ => Some K
  | Fld c d x [] _ fromw => if oeq (dflt x) (Some (fromw [] d)) && (setting || inb x R) then Some (x :: K) else None
  | Fld _ _ _ (_ :: _) _ _ => None
  | Seq p q => match dcheck setting dflt R K p with Some K1 => dcheck setting dflt R K1 q | None => None end
  | If c p q =>
      if setting then dcheck setting dflt R K p
      else match known dflt K c with
           | Some v => if v =? 0 then dcheck setting dflt R K q else dcheck setting dflt R K p
           | None => inter_opt (dcheck setting dflt R K p) (dcheck setting dflt R K q)
           end
  | Branch c p q =>
      match known dflt K c with
      | Some v => if v =? 0 then dcheck setting dflt R K q else dcheck setting dflt R K p
      | None => inter_opt (dcheck setting dflt R K p) (dcheck setting dflt R K q)
      end
  | AllDef p => dcheck setting dflt R K p
  | Ext x => if oeq (dflt x) (Some 0) && (setting || inb x R) then Some (x :: K) else None
  | Fail c => if setting then match known dflt K c with Some 0 => Some K | _ => None end else Some K
  | Assign x e => if oeq (known dflt K e) (dflt x) && (setting || inb x R) then Some (x :: K) else None
  | For n body =>
      match known dflt K n with
      | Some v => oloop (fun i K => dcheck setting dflt R K (body i)) (Z.to_nat v) 0 K
      | None => None
      end
  end.

(* The defaults of the members selected by [own], as SetDefault assigns them. *)
Definition defaults_of (own : Z -> bool) (p : prog) (x : Z) : option Z :=
  if own x then Some (fst (set_default p (fun _ => 0)) x) else None.
Definition defaults_check (own : Z -> bool) (p : prog) : bool :=
  match dcheck true (defaults_of own p) [] [] p with
  | Some R => match dcheck false (defaults_of own p) R [] p with Some _ => true | None => false end
  | None => false
  end.


Section Check.
Variable dflt : Z -> option Z.

Definition at_default (s : env) (K : list Z) : Prop := forall x, In x K -> dflt x = Some (s x).

Lemma known_ev K e s v : at_default s K -> known dflt K e = Some v -> ev e s = v.
Proof.
  intros Hd. unfold known. destruct (subset (rds e) K) eqn:E; [|discriminate]. intros H. injection H as <-.
  unfold ev. f_equal. apply map_ext_in. intros x Hx. apply subset_iff in E. rewrite (Hd x (E x Hx)). reflexivity.
Qed.

Lemma oeq_true a b : oeq a b = true -> exists v, a = Some v /\ b = Some v.
Proof.
  destruct a, b; cbn; try discriminate. intros H. apply Z.eqb_eq in H. subst. eauto.
Qed.

Lemma at_default_upd s K x v : at_default s K -> dflt x = Some v -> at_default (upd s x v) (x :: K).
Proof.
  intros H Hv y Hy. unfold upd. destruct (Z.eqb_spec y x) as [->|Hne]; [exact Hv|].
  destruct Hy as [->|Hy]; [congruence|]. now apply H.
Qed.

Lemma inter_opt_some a b K : inter_opt a b = Some K -> exists A B, a = Some A /\ b = Some B /\ K = inter A B.
Proof. destruct a, b; cbn; try discriminate. intros H. injection H as <-. eauto. Qed.

Lemma at_default_inter s A B : at_default s A \/ at_default s B -> at_default s (inter A B).
Proof. intros [H|H] x Hx; apply inter_iff in Hx as (Ha & Hb); auto. Qed.

Definition only_defaults (r r' : env) : Prop := forall x, r' x = r x \/ dflt x = Some (r' x).
Lemma only_refl r : only_defaults r r.
Proof. intros x. now left. Qed.
Lemma only_trans a b c : only_defaults a b -> only_defaults b c -> only_defaults a c.
Proof. intros H1 H2 x. destruct (H2 x) as [->|H]; auto. Qed.
Lemma only_upd r x v : dflt x = Some v -> only_defaults r (upd r x v).
Proof. intros H y. unfold upd. destruct (Z.eqb_spec y x) as [->|]; auto. Qed.

Lemma setting_ok R p : forall K K' r, dcheck true dflt R K p = Some K' -> at_default r K ->
  exists r', set_default p r = (r', true) /\ at_default r' K' /\ only_defaults r r'.
Proof.
  induction p as [|c d x cx tow fromw|p IHp q IHq|c p IHp q IHq|c p IHp q IHq|p IHp|x|c|c|x e|n body IH];
    intros K K' r Hc Hd; cbn [dcheck set_default] in *.
  - injection Hc as <-. exists r. auto using only_refl.
  - destruct cx as [|y cx]; [|discriminate]. cbn [orb] in Hc. rewrite andb_true_r in Hc.
    destruct (oeq _ _) eqn:E; [|discriminate]. apply oeq_true in E as (v & E & E'). injection Hc as <-. injection E' as E'.
    exists (upd r x (stored r [] fromw d)). unfold stored. cbn [map]. rewrite E'.
    auto using at_default_upd, only_upd.
  - destruct (dcheck true dflt R K p) as [K1|] eqn:E1; [|discriminate].
    destruct (IHp _ _ _ E1 Hd) as (r1 & -> & Hd1 & Ho1).
    destruct (IHq _ _ _ Hc Hd1) as (r2 & -> & Hd2 & Ho2). exists r2. eauto using only_trans.
  - eapply IHp; eauto.
  - destruct (known dflt K c) as [v|] eqn:Ek.
    + pose proof (known_ev _ _ _ _ Hd Ek) as Hev. unfold holds. rewrite Hev.
      destruct (v =? 0); cbn [negb]; [eapply IHq|eapply IHp]; eauto.
    + apply inter_opt_some in Hc as (A & B & Ha & Hb & ->).
      destruct (holds c r).
      * destruct (IHp _ _ _ Ha Hd) as (r1 & -> & Hd1 & Ho). exists r1. auto using at_default_inter.
      * destruct (IHq _ _ _ Hb Hd) as (r1 & -> & Hd1 & Ho). exists r1. auto using at_default_inter.
  - eapply IHp; eauto.
  - rewrite andb_true_r in Hc. destruct (oeq _ _) eqn:E; [|discriminate].
    apply oeq_true in E as (v & E & E'). injection E' as <-. injection Hc as <-.
    exists (upd r x 0). auto using at_default_upd, only_upd.
  - destruct (known dflt K c) as [v|] eqn:Ek; [|discriminate]. destruct v; try discriminate. injection Hc as <-.
    pose proof (known_ev _ _ _ _ Hd Ek) as Hev. unfold holds. rewrite Hev. exists r. auto using only_refl.
  - injection Hc as <-. exists r. auto using only_refl.
  - rewrite andb_true_r in Hc. destruct (oeq _ _) eqn:E; [|discriminate].
    apply oeq_true in E as (v & E & E'). injection Hc as <-. pose proof (known_ev _ _ _ _ Hd E) as Hev.
    rewrite Hev. exists (upd r x v). auto using at_default_upd, only_upd.
  - destruct (known dflt K n) as [v|] eqn:Ek; [|discriminate].
    pose proof (known_ev _ _ _ _ Hd Ek) as Hev. rewrite Hev. clear Hev Ek. revert Hc Hd.
    generalize (Z.to_nat v) as m. intros m. generalize 0 as i. revert K r.
    induction m as [|m IHm]; intros K r i Hc Hd; cbn [oloop floop] in *.
    + injection Hc as <-. exists r. auto using only_refl.
    + destruct (dcheck true dflt R K (body i)) as [K1|] eqn:E1; [|discriminate].
      destruct (IH i _ _ _ E1 Hd) as (r1 & -> & Hd1 & Ho1).
      destruct (IHm _ _ _ Hc Hd1) as (r2 & H2 & Hd2 & Ho2). exists r2. eauto using only_trans.
Qed.

Definition from_defaults (R D : list Z) (s : env) (D' : list Z) : Prop :=
  forall x, In x D' -> In x D \/ (dflt x = Some (s x) /\ In x R).
Lemma from_refl R D s : from_defaults R D s D.
Proof. intros x Hx. now left. Qed.
Lemma from_trans R D D1 D2 s : from_defaults R D s D1 -> from_defaults R D1 s D2 -> from_defaults R D s D2.
Proof. intros H1 H2 x Hx. destruct (H2 x Hx); auto. Qed.
Lemma from_cons R D s x : dflt x = Some (s x) -> In x R -> from_defaults R D s (x :: D).
Proof. intros H1 H2 y [<-|Hy]; auto. Qed.

Lemma at_default_cons s K x : at_default s K -> dflt x = Some (s x) -> at_default s (x :: K).
Proof. intros H Hx y [<-|Hy]; auto. Qed.

Lemma bad_if c p q s : bundle_all_default (If c p q) s = if holds c s then bundle_all_default p s else bundle_all_default q s.
Proof. unfold bundle_all_default. cbn [all_default]. now destruct (holds c s). Qed.
Lemma bad_branch c p q s : bundle_all_default (Branch c p q) s = if holds c s then bundle_all_default p s else bundle_all_default q s.
Proof. unfold bundle_all_default. cbn [all_default]. now destruct (holds c s). Qed.

Lemma floop_all_default body s m : forall i acc, (forall j, i <= j < i + Z.of_nat m -> valid (body j) s) ->
  snd (fst (floop (fun i st => all_default (body i) st) m i (s, acc))) = true ->
  acc = true /\ forall j, i <= j < i + Z.of_nat m -> bundle_all_default (body j) s = true.
Proof.
  induction m as [|m IHm]; intros i acc Hv H; cbn [floop] in H.
  - cbn in H. split; [exact H|]. lia.
  - rewrite all_default_valid in H by (apply Hv; lia).
    apply IHm in H as (Ha & Hb); [|intros; apply Hv; lia]. apply andb_prop in Ha as (Ha & Hc).
    split; [exact Ha|]. intros j Hj. destruct (Z.eq_dec j i) as [->|]; [exact Hc|]. apply Hb. lia.
Qed.

Lemma visit_ok R p : forall K K' D s, dcheck false dflt R K p = Some K' -> at_default s K ->
  valid p s -> bundle_all_default p s = true ->
  at_default s K' /\ from_defaults R D s (determined D p s).
Proof.
  induction p as [|c d x cx tow fromw|p IHp q IHq|c p IHp q IHq|c p IHp q IHq|p IHp|x|c|c|x e|n body IH];
    intros K K' D s Hc Hd Hv Hb; cbn [dcheck valid determined] in *.
  - injection Hc as <-. auto using from_refl.
  - destruct cx as [|y cx]; [|discriminate]. cbn [orb] in Hc.
    destruct (_ && _) eqn:E; [|discriminate]. apply andb_prop in E as (E & Er). apply inb_iff in Er.
    apply oeq_true in E as (v & E & E'). injection Hc as <-. injection E' as E'.
    destruct Hv as (_ & Ht & Hs). unfold bundle_all_default in Hb. cbn [all_default fst snd andb] in Hb.
    assert (Hsh : shown s x [] tow = d).
    { unfold is_default in Hb. destruct c; [lia|lia|lia|]. cbn [typed] in Ht. destruct Ht as (_ & Ht). auto. }
    assert (Hdx : dflt x = Some (s x)). { rewrite <- Hs, Hsh. unfold stored. cbn [map]. now rewrite E'. }
    auto using at_default_cons, from_cons.
  - destruct (dcheck false dflt R K p) as [K1|] eqn:E1; [|discriminate]. destruct Hv as (Hv1 & Hv2).
    rewrite bundle_all_default_seq in Hb by assumption. apply andb_prop in Hb as (Hb1 & Hb2).
    destruct (IHp _ _ D _ E1 Hd Hv1 Hb1) as (Hd1 & Hf1).
    destruct (IHq _ _ (determined D p s) _ Hc Hd1 Hv2 Hb2) as (Hd2 & Hf2). eauto using from_trans.
  - rewrite bad_if in Hb. destruct (known dflt K c) as [v|] eqn:Ek.
    + pose proof (known_ev _ _ _ _ Hd Ek) as Hev. unfold holds in *. rewrite Hev in *.
      destruct (v =? 0); cbn [negb] in *; [eapply IHq|eapply IHp]; eauto.
    + apply inter_opt_some in Hc as (A & B & Ha & Hbb & ->).
      destruct (holds c s).
      * destruct (IHp _ _ D _ Ha Hd Hv Hb) as (Hd1 & Ho). auto using at_default_inter.
      * destruct (IHq _ _ D _ Hbb Hd Hv Hb) as (Hd1 & Ho). auto using at_default_inter.
  - rewrite bad_branch in Hb. destruct (known dflt K c) as [v|] eqn:Ek.
    + pose proof (known_ev _ _ _ _ Hd Ek) as Hev. unfold holds in *. rewrite Hev in *.
      destruct (v =? 0); cbn [negb] in *; [eapply IHq|eapply IHp]; eauto.
    + apply inter_opt_some in Hc as (A & B & Ha & Hbb & ->).
      destruct (holds c s).
      * destruct (IHp _ _ D _ Ha Hd Hv Hb) as (Hd1 & Ho). auto using at_default_inter.
      * destruct (IHq _ _ D _ Hbb Hd Hv Hb) as (Hd1 & Ho). auto using at_default_inter.
  - eapply IHp; eauto.
  - cbn [orb] in Hc. destruct (_ && _) eqn:E; [|discriminate]. apply andb_prop in E as (E & Er). apply inb_iff in Er.
    apply oeq_true in E as (v & E & E'). injection E' as <-. injection Hc as <-.
    unfold bundle_all_default in Hb. cbn [all_default fst snd andb] in Hb.
    assert (Hdx : dflt x = Some (s x)) by (rewrite E; f_equal; lia).
    auto using at_default_cons, from_cons.
  - injection Hc as <-. auto using from_refl.
  - injection Hc as <-. auto using from_refl.
  - cbn [orb] in Hc. destruct (_ && _) eqn:E; [|discriminate]. apply andb_prop in E as (E & Er). apply inb_iff in Er.
    apply oeq_true in E as (v & E & E'). injection Hc as <-. pose proof (known_ev _ _ _ _ Hd E) as Hev.
    assert (Hdx : dflt x = Some (s x)) by (rewrite E', Hv, Hev; reflexivity).
    split; [auto using at_default_cons|]. destruct (subset (rds e) D).
    + auto using from_cons.
    + intros y Hy. apply without_iff in Hy as (Hy & _). now left.
  - destruct (known dflt K n) as [v|] eqn:Ek; [|discriminate].
    pose proof (known_ev _ _ _ _ Hd Ek) as Hev. unfold bundle_all_default in Hb. cbn [all_default] in Hb.
    rewrite Hev in *. clear Hev Ek.
    apply floop_all_default in Hb as (_ & Hb); [|intros j Hj; apply Hv; lia].
    assert (Hv' : forall j, 0 <= j < 0 + Z.of_nat (Z.to_nat v) -> valid (body j) s) by (intros j Hj; apply Hv; lia).
    clear Hv. revert Hc Hd Hv' Hb. generalize (Z.to_nat v) as m. intros m. generalize 0 as i. revert K D.
    induction m as [|m IHm]; intros K D i Hc Hd Hv Hb; cbn [oloop zrange fold_left] in *.
    + injection Hc as <-. auto using from_refl.
    + destruct (dcheck false dflt R K (body i)) as [K1|] eqn:E1; [|discriminate].
      destruct (IH i _ _ D _ E1 Hd) as (Hd1 & Hf1); [apply Hv; lia|apply Hb; lia|].
      destruct (IHm _ (determined D (body i) s) _ Hc Hd1) as (Hd2 & Hf2); [intros; apply Hv; lia|intros; apply Hb; lia|].
      eauto using from_trans.
Qed.

End Check.

Theorem defaults_check_ok own p (U : Z -> Prop) (D : list Z) : defaults_check own p = true -> (forall x, U x -> own x = false) -> defaults_ok U D p.
Proof.
  unfold defaults_check. set (dflt := defaults_of own p). intros H HU.
  destruct (dcheck true dflt [] [] p) as [R|] eqn:E1; [|discriminate].
  destruct (dcheck false dflt R [] p) as [K|] eqn:E2; [|discriminate].
  intros D' s r Hi HD Ha Hv Hb.
  destruct (setting_ok dflt [] p [] R r E1) as (r' & Hr & HdR & Ho); [intros x []|].
  destruct (visit_ok dflt R p [] K D' s E2) as (_ & Hf); [intros x []|exact Hv|exact Hb|].
  rewrite Hr. cbn [fst]. intros x Hx. destruct (Hf x Hx) as [Hin|(Hd & HinR)].
  - destruct (Ho x) as [->|Hd]; [now apply Ha|].
    unfold dflt, defaults_of in Hd. rewrite (HU x (HD x Hin)) in Hd. discriminate.
  - pose proof (HdR x HinR) as E. congruence.
Qed.
