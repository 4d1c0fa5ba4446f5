From Verif Require Import Base Arr ListAux OMap SkipModel SkipSpec SkipDeps SkipProofs.
Ltac Zify.zify_post_hook ::= idtac.

Section Calm.
  Variables (c : bool) (fs : list frame).
  Hypothesis (FOK : Forall frame_ok fs) (FLEN : zlen fs < 2 ^ 62).
  Notation st := (stills c fs).

  (* frames that lie ahead and will be decoded *)
  Definition will (d : decoder) (k : Z) : Prop :=
    internal_frames d <= k /\ (target d <= st k \/ ((forall f, znth fs k = Some f -> can_be_referenced f || f_dc f = true) /\ znth (frame_required d) k <> Some false)).
  Definition inv2 (d : decoder) (acc : list event) : Prop :=
    d_full d = true -> forall k, will d k -> forall j, uses fs k j -> (j < internal_frames d -> In (Done j) acc \/ current d = Some j) /\ (internal_frames d <= j -> will d j).

  Lemma inv2_start d acc : internal_frames d = 0 -> external_frames d = 0 -> skip_frames d = 0 -> inv2 d acc.
  Proof.
    intros Hi He Hs _ k _ j U. assert (B := uses_bounds _ _ _ U). split; [lia|]. intros _. split; [lia|]. left. unfold target. rewrite He, Hs. apply stills_range.
  Qed.

  Lemma inv2_skip d acc n d' : inv c fs d acc -> inv2 d acc -> skip_frames d = 0 -> required_ok c fs d' ->
    d' = Dec (d_coalescing d) (d_full d) (skip_frames d + n) (internal_frames d) (external_frames d) (frame_refs d) (external_to_internal d) (frame_required d') (current d) -> inv2 d' acc.
  Proof.
    intros I I2 S0 RO ED F k W j U. assert (B := uses_bounds _ _ _ U). rewrite ED in F. cbn [d_full] in F.
    assert (Ein : internal_frames d' = internal_frames d) by (rewrite ED; reflexivity). assert (Ecu : current d' = current d) by (rewrite ED; reflexivity). rewrite Ein, Ecu.
    destruct W as (W1 & W2). rewrite Ein in W1. destruct (I2 F k) with (j := j) as (A1 & A2); [|exact U|].
    - split; [exact W1|]. left. unfold target. rewrite S0, Z.add_0_r. destruct I. rewrite i_ext. apply stills_mono. lia.
    - split; [exact A1|]. intros Hj. split; [lia|]. assert (CR : forall f, znth fs j = Some f -> can_be_referenced f || f_dc f = true) by (intros f; apply (uses_saved fs FOK k j f U)).
      destruct RO as [R0|(X & X1 & X2 & X3 & X4 & _ & X6)]; [right; split; [exact CR|]; rewrite R0; unfold znth; destruct (j <? 0); [discriminate|]; destruct (Z.to_nat j); discriminate|].
      destruct (Z.ltb_spec j X) as [H|H]; [|left; rewrite <- X3; apply stills_mono; lia].
      right. split; [exact CR|]. rewrite (X6 k j); [discriminate| |exact U|exact H]. destruct W2 as [W2|(_ & W2)]; [right|left; exact W2]. destruct (Z.leb_spec X k); [assumption|]. specialize (X4 k ltac:(lia)). lia.
  Qed.

  Lemma inv2_finish d acc i refs : inv2 d acc -> current d = Some i ->
    inv2 (Dec (d_coalescing d) (d_full d) (skip_frames d) (internal_frames d) (external_frames d) refs (external_to_internal d) (frame_required d) None) (acc ++ [Done i]).
  Proof.
    intros I2 C F k W j U. cbn [d_full] in F. destruct (I2 F k W j U) as (A1 & A2). split; [|exact A2]. cbn [internal_frames]. intros Hj. left. apply in_or_app.
    destruct (A1 Hj) as [K|K]; [left; exact K|right; left; congruence].
  Qed.

  Lemma inv2_header d acc f d' ev : inv c fs d acc -> inv2 d acc -> current d = None -> znth fs (internal_frames d) = Some f -> header f d = Some (d', [ev]) ->
    inv2 d' (since_rewind [ev] acc) /\ (forall b, ev = Started (internal_frames d) b -> forall j, uses fs (internal_frames d) j -> In (Done j) acc).
  Proof.
    intros I I2 C E Eh. destruct (header_ok c fs FOK d acc f I C E) as (d2 & ev2 & Eh2 & I' & ET & Ein & EF & ER & EC & SK & EV & EP). rewrite Eh in Eh2. assert (d2 = d' /\ ev2 = ev) as (-> & ->) by (injection Eh2; auto). clear Eh2.
    assert (HA : forall j, In (Done j) acc -> In (Done j) (since_rewind [ev] acc)).
    { intros j Hj. destruct EV as [->|(-> & _)]; cbn [since_rewind]; apply in_or_app; left; exact Hj. }
    assert (St : 0 <= internal_frames d) by (destruct I; lia). assert (Ex := i_ext _ _ _ _ I). assert (Sk := i_skip _ _ _ _ I).
    assert (TL : forall k, internal_frames d + 1 <= k -> target d' <= st k <-> target d <= st k).
    { intros k Hk. rewrite ET. destruct (Z.ltb_spec 0 (skip_frames d)); [tauto|]. assert (M1 := stills_mono c fs (internal_frames d + 1) k ltac:(lia)). assert (M2 := stills_mono c fs (internal_frames d) k ltac:(lia)). unfold target. lia. }
    split.
    - intros F k W j U. rewrite EF in F. unfold will in *. rewrite Ein, ER in *. destruct W as (W1 & W2). rewrite TL in W2 by assumption.
      destruct (I2 F k) with (j := j) as (A1 & A2); [split; [lia|exact W2]|exact U|]. split.
      + intros Hj. destruct (Z.eq_dec j (internal_frames d)) as [->|Nj]; [|destruct (A1 ltac:(lia)) as [K|K]; [left; apply HA; exact K|congruence]].
        right. rewrite EC. destruct EV as [EV|(-> & _)]; [|reflexivity]. exfalso. destruct (EP EV F) as (P1 & P2). destruct (A2 ltac:(lia)) as (_ & [K|(K1 & K2)]); [unfold target in K; lia|]. apply K2, P2, K1, E.
      + intros Hj. destruct (A2 ltac:(lia)) as (_ & K). split; [exact Hj|]. rewrite TL by exact Hj. exact K.
    - intros b Eb j U. assert (B := uses_bounds _ _ _ U). destruct EV as [EV|(EV & F)]; [congruence|].
      destruct (I2 F (internal_frames d)) with (j := j) as (A1 & _); [|exact U|destruct (A1 ltac:(lia)) as [K|K]; [exact K|congruence]].
      split; [lia|]. assert (ES := Eh). unfold header in ES. cbv zeta in ES.
      destruct (if zlen (external_to_internal d) <=? external_frames d then _ else _) as [e2i|] in ES; [|discriminate]. destruct (if zlen (frame_refs d) <=? internal_frames d then _ else _) as [refs|] in ES; [|discriminate].
      destruct (Z.ltb_spec 0 (skip_frames d)); [|left; unfold target; lia]. cbn [andb] in ES. right.
      destruct (can_be_referenced f || f_dc f) eqn:CR; cbn [andb negb] in ES; [|injection ES; intros K _; congruence].
      split; [intros f' Ef'; congruence|]. intros K. rewrite K in ES. cbn [negb] in ES. injection ES; intros K2 _. congruence.
  Qed.

  Lemma run_calm : forall ops d acc, inv c fs d acc -> inv2 d acc -> Forall (op_ok c) ops -> skip_frames d + total_skip ops < 2 ^ 62 -> calm fs d ops ->
    exists tr, run fs d ops = Some tr /\ forall pre k b post, tr = pre ++ Started k b :: post -> forall j, uses fs k j -> In (Done j) (since_rewind pre acc).
  Proof.
    assert (TS : forall ops, Forall (op_ok c) ops -> 0 <= total_skip ops) by (induction 1 as [|o ops K _ IH]; cbn [total_skip]; [lia|]; destruct o; cbn [op_ok] in K; lia).
    induction ops as [|o ops IH]; intros d acc I I2 F B CA; cbn [run].
    - exists []. split; [reflexivity|]. intros pre k b post E. destruct pre; discriminate.
    - inversion F as [|? ? Fo Fops]; subst. specialize (TS _ Fops). cbn [calm] in CA. destruct CA as (CO & CA). destruct o as [| |n|c' full]; cbn [step] in *.
      + destruct (current d) as [cu|] eqn:EC; [destruct (IH d acc I I2 Fops ltac:(cbn [total_skip] in B; lia) CA) as (tr & E & K); rewrite E; exists tr; split; [reflexivity|exact K]|].
        destruct (znth fs (internal_frames d)) as [f|] eqn:EF; [|destruct (IH d acc I I2 Fops ltac:(cbn [total_skip] in B; lia) CA) as (tr & E & K); rewrite E; exists tr; split; [reflexivity|exact K]].
        destruct (header_ok c fs FOK d acc f I EC EF) as (d' & ev & Eh & I' & _ & _ & _ & _ & _ & Sk & EV & _). rewrite Eh in *.
        destruct (inv2_header d acc f d' ev I I2 EC EF Eh) as (I2' & HU).
        destruct (IH d' _ I' I2' Fops) as (tr & E & K); [cbn [total_skip] in B; lia|exact CA|]. rewrite E. exists (ev :: tr). split; [reflexivity|].
        intros pre k b post ET j Hj. apply one_event in ET. destruct ET as [(-> & ->)|(pre' & -> & ET)].
        * cbn [since_rewind]. destruct EV as [EV|(EV & FU)]; [discriminate|]. injection EV as -> ES. apply (HU b eq_refl j Hj).
        * change (ev :: pre') with ([ev] ++ pre'). rewrite since_app. apply (K pre' k b post ET j Hj).
      + destruct (current d) as [i|] eqn:EC; [|destruct (IH d acc I I2 Fops ltac:(cbn [total_skip] in B; lia) CA) as (tr & E & K); rewrite E; exists tr; split; [reflexivity|exact K]].
        destruct (finish_ok c fs d acc i I EC) as (refs & Ef & I'). rewrite Ef in *. destruct (IH _ _ I' (inv2_finish d acc i refs I2 EC) Fops) as (tr & E & K); [cbn [total_skip skip_frames] in *; lia|exact CA|]. rewrite E. exists (Done i :: tr). split; [reflexivity|].
        intros pre k b post ET j Hj. apply one_event in ET. destruct ET as [(_ & ET)|(pre' & -> & ET)]; [discriminate|]. cbn [since_rewind]. apply (K pre' k b post ET j Hj).
      + cbn [total_skip op_ok] in *. destruct (skip_ok c fs FOK FLEN d acc n I Fo) as (d' & Es & I' & RO & ED); [lia|]. rewrite Es in *. destruct (IH d' acc I' (inv2_skip d acc n d' I I2 CO RO ED) Fops) as (tr & E & K); [rewrite ED; cbn [skip_frames]; lia|exact CA|]. rewrite E. exists tr. split; [reflexivity|exact K].
      + cbn [op_ok] in Fo. subst c'. destruct (IH _ _ (inv_rewind c fs d acc full I) (inv2_start (Dec c full 0 0 0 (frame_refs d) (external_to_internal d) (frame_required d) None) [] eq_refl eq_refl eq_refl) Fops) as (tr & E & K); [cbn [skip_frames total_skip] in *; destruct I; lia|exact CA|]. rewrite E. exists (Rewound :: tr). split; [reflexivity|].
        intros pre k b post ET j Hj. apply one_event in ET. destruct ET as [(_ & ET)|(pre' & -> & ET)]; [discriminate|]. cbn [since_rewind]. apply (K pre' k b post ET j Hj).
  Qed.
End Calm.

Lemma needed_frames c full fs ops : Forall frame_ok fs -> zlen fs < 2 ^ 62 -> history c ops ->
  exists tr, run fs (new_decoder c full) ops = Some tr /\ forall pre k post j, tr = pre ++ Started k true :: post -> needs fs k j -> decoded pre j.
Proof.
  intros F L (H1 & H2). destruct (run_needed c fs F L ops (new_decoder c full) [] (inv_new c fs full) H1) as (tr & E & K); [exact H2|]. exists tr. split; [exact E|]. intros pre k post j ET N. apply (K pre k post ET j N).
Qed.
Lemma calm_frames c full fs ops : Forall frame_ok fs -> zlen fs < 2 ^ 62 -> history c ops -> calm fs (new_decoder c full) ops ->
  exists tr, run fs (new_decoder c full) ops = Some tr /\ forall pre k b post j, tr = pre ++ Started k b :: post -> uses fs k j -> decoded pre j.
Proof.
  intros F L (H1 & H2) C. destruct (run_calm c fs F L ops (new_decoder c full) [] (inv_new c fs full) (inv2_start c fs (new_decoder c full) [] eq_refl eq_refl eq_refl) H1) as (tr & E & K); [exact H2|exact C|]. exists tr. split; [exact E|]. intros pre k b post j ET N. apply (K pre k b post ET j N).
Qed.

(* ---- which frames are shown ---- *)
Section Shown.
  Variables (c : bool) (fs : list frame).
  Hypothesis (FOK : Forall frame_ok fs) (FLEN : zlen fs < 2 ^ 62).
  Notation st := (stills c fs).

  Lemma shown_after n b : forall d acc tr, Forall quiet b -> inv c fs d acc -> d_full d = true -> target d = Z.max n (st (internal_frames d)) -> run fs d b = Some tr ->
    Forall (fun ev => match ev with Started k shown => shown = (n <=? st k) | Passed k => st k < n | _ => True end) tr.
  Proof.
    induction b as [|o b IH]; intros d acc tr Q I F T E; cbn [run] in E; [injection E as <-; constructor|]. inversion Q as [|? ? Qo Qb]; subst.
    destruct o as [| |m|c' full]; cbn [quiet] in Qo; try contradiction; cbn [step] in E.
    - destruct (current d) eqn:EC; [destruct (run fs d b) as [r|] eqn:Er; [injection E as <-; apply (IH d acc r Qb I F T Er)|discriminate]|].
      destruct (znth fs (internal_frames d)) as [f|] eqn:Ef; [|destruct (run fs d b) as [r|] eqn:Er; [injection E as <-; apply (IH d acc r Qb I F T Er)|discriminate]].
      destruct (header_ok c fs FOK d acc f I EC Ef) as (d' & ev & Eh & I' & ET & Ein & EF & _ & _ & _ & EV & EP). rewrite Eh in E. destruct (run fs d' b) as [r|] eqn:Er; [|discriminate]. injection E as <-.
      assert (Ex := i_ext _ _ _ _ I). assert (Sk := i_skip _ _ _ _ I). assert (In := i_int _ _ _ _ I). unfold target in T. rewrite Ex in T.
      constructor.
      + destruct EV as [EV|(EV & _)].
        * destruct (EP EV F) as (P & _). subst ev. lia.
        * subst ev. destruct (Z.eqb_spec (skip_frames d) 0); symmetry; lia.
      + apply (IH d' _ r Qb I'); [congruence| |exact Er]. rewrite ET, Ein. unfold target. rewrite Ex.
        assert (Ei := stills_succ c fs (internal_frames d) f ltac:(lia) Ef). destruct (Z.ltb_spec 0 (skip_frames d)); destruct (last_of_still c f); lia.
    - destruct (current d) as [i|] eqn:EC; [|destruct (run fs d b) as [r|] eqn:Er; [injection E as <-; apply (IH d acc r Qb I F T Er)|discriminate]].
      destruct (finish_ok c fs d acc i I EC) as (refs & Ef & I'). rewrite Ef in E. destruct (run fs _ b) as [r|] eqn:Er; [|discriminate]. injection E as <-. constructor; [exact Logic.I|]. apply (IH _ _ r Qb I' F T Er).
  Qed.

  Lemma shown_run n b : Forall quiet b -> 0 <= n -> n < 2 ^ 62 -> forall ops d acc tr, inv c fs d acc -> Forall (op_ok c) ops -> skip_frames d + total_skip ops < 2 ^ 62 ->
    run fs d (ops ++ Rewind c true :: Skip n :: b) = Some tr ->
    exists before after, tr = before ++ Rewound :: after /\
      Forall (fun ev => match ev with Started k shown => shown = (n <=? st k) | Passed k => st k < n | _ => True end) after.
  Proof.
    intros Q N1 N2. assert (TS : forall ops, Forall (op_ok c) ops -> 0 <= total_skip ops) by (induction 1 as [|o ops K _ IH]; cbn [total_skip]; [lia|]; destruct o; cbn [op_ok] in K; lia).
    induction ops as [|o ops IH]; intros d acc tr I Fo B E.
    - cbn [app run step] in E. destruct (skip_ok c fs FOK FLEN _ [] n (inv_rewind c fs d acc true I) N1) as (d' & Es & I' & _ & ED); [cbn [skip_frames]; lia|]. rewrite Es in E.
      destruct (run fs d' b) as [r|] eqn:Er; [|discriminate]. injection E as <-. exists [], r. split; [reflexivity|].
      apply (shown_after n b d' [] r Q I'); [rewrite ED; reflexivity| |exact Er]. rewrite ED. unfold target. cbn [external_frames skip_frames internal_frames]. change (st 0) with 0. lia.
    - inversion Fo as [|? ? Fo1 Fops]; subst. specialize (TS _ Fops). cbn [app run] in E.
      assert (G : forall d' acc' ev r, inv c fs d' acc' -> skip_frames d' + total_skip ops < 2 ^ 62 -> run fs d' (ops ++ Rewind c true :: Skip n :: b) = Some r -> tr = ev ++ r ->
        exists before after, tr = before ++ Rewound :: after /\ Forall (fun ev => match ev with Started k shown => shown = (n <=? st k) | Passed k => st k < n | _ => True end) after).
      { intros d' acc' ev r I' B' Er ->. destruct (IH d' acc' r I' Fops B' Er) as (be & af & -> & K). exists (ev ++ be), af. split; [rewrite <- app_assoc; reflexivity|exact K]. }
      destruct (step fs d o) as [[d' ev]|] eqn:Es; [|discriminate]. destruct (run fs d' _) as [r|] eqn:Er in E; [|discriminate]. assert (ET : tr = ev ++ r) by (injection E; auto). clear E.
      assert (K : exists acc', inv c fs d' acc' /\ skip_frames d' + total_skip ops < 2 ^ 62); [|destruct K as (acc' & I' & B'); apply (G d' acc' ev r I' B' Er ET)].
      destruct o as [| |m|c' full]; cbn [step total_skip op_ok] in *.
      + destruct (current d) eqn:EC; [injection Es as <- <-; eauto|]. destruct (znth fs (internal_frames d)) as [f|] eqn:Ef; [|injection Es as <- <-; eauto].
        destruct (header_ok c fs FOK d acc f I EC Ef) as (d2 & ev2 & Eh & I' & _ & _ & _ & _ & _ & Sk & _). rewrite Eh in Es. injection Es as <- <-. eexists. split; [exact I'|lia].
      + destruct (current d) as [i|] eqn:EC; [|injection Es as <- <-; eauto]. destruct (finish_ok c fs d acc i I EC) as (refs & Ef & I'). rewrite Ef in Es. injection Es as <- <-. eexists. split; [exact I'|cbn [skip_frames]; lia].
      + destruct (skip_ok c fs FOK FLEN d acc m I Fo1) as (d2 & Ek & I' & _ & ED); [lia|]. rewrite Ek in Es. injection Es as <- <-. eexists. split; [exact I'|]. rewrite ED. cbn [skip_frames]. lia.
      + subst c'. injection Es as <- <-. eexists. split; [apply (inv_rewind c fs d acc full I)|cbn [skip_frames]; destruct I; lia].
  Qed.
End Shown.

Lemma skip_count c full fs ops n b tr : Forall frame_ok fs -> zlen fs < 2 ^ 62 -> history c ops -> 0 <= n < 2 ^ 62 -> Forall quiet b ->
  run fs (new_decoder c full) (ops ++ Rewind c true :: Skip n :: b) = Some tr ->
  exists before after, tr = before ++ Rewound :: after /\
    Forall (fun ev => match ev with Started k shown => shown = (n <=? stills c fs k) | Passed k => stills c fs k < n | _ => True end) after.
Proof.
  intros F L (H1 & H2) N Q E. apply (shown_run c fs F L n b Q (proj1 N) (proj2 N) ops (new_decoder c full) [] tr (inv_new c fs full) H1); [exact H2|exact E].
Qed.
