(* The codestream parser on the window: whatever it does, it is shown the codestream. *)
From Verif Require Import Base ListAux ContainerSpec InpModel InpSpec InpWin.
Ltac Zify.zify_post_hook ::= idtac.

(* ---- traces ---- *)
Lemma parser_at_app os1 : forall p os2, parser_at p (os1 ++ os2) = parser_at (parser_at p os1) os2.
Proof. induction os1 as [|[] r IH]; intros; cbn; auto. Qed.
Lemma spans_ok_app C os1 : forall p os2, spans_ok C p (os1 ++ os2) <-> spans_ok C p os1 /\ spans_ok C (parser_at p os1) os2.
Proof. induction os1 as [|[] r IH]; intros; cbn; rewrite ?IH; tauto. Qed.
Lemma shown_app os1 : forall p sh os2, shown_to p sh (os1 ++ os2) = shown_to (parser_at p os1) (shown_to p sh os1) os2.
Proof. induction os1 as [|[] r IH]; intros; cbn; auto. Qed.
Lemma shown_mono os : forall p sh, sh <= shown_to p sh os.
Proof.
  induction os as [|[] r IH]; intros p sh; cbn; try apply IH; try lia.
  etransitivity; [|apply IH]. lia.
Qed.
Lemma shown_mono2 os : forall p sh sh', sh <= sh' -> shown_to p sh os <= shown_to p sh' os.
Proof. induction os as [|[] r IH]; intros p sh sh' H; cbn; try (apply IH; lia); lia. Qed.

Definition cs_obs (o : obs) : Prop := match o with OSpan _ | OAdv _ => True | _ => False end.
Definition noskip (a : act) : Prop := match a with AStep _ skip _ => skip <= 0 | _ => True end.

Section Parse.
Variable C : list Z.

Lemma get_L d p v rem : L C d p v rem ->
  match get_codestream_input d with
  | GSpan s d' => exists k w, d' = moved d k w /\ 0 <= k <= ac d rem /\ L C d' p (v + k) (rem - k) /\
       s = cut C p (v + ac d rem) /\ zlen s = v + ac d rem - p /\ 0 <= p /\ strict w /\ fresh d' (rem - k) /\ calm w
  | GStop s d' =>
      (s = SNeedInput /\ exists w, d' = moved d (ac d rem) w /\ L C d' p (v + ac d rem) (rem - ac d rem) /\
         v + ac d rem <= p /\ w_unc w = 0 /\ calm w /\ (strict (d_win d) -> strict w)) \/
      (s = SError EInternal /\ d' = d /\ ~ calm (d_win d))
  end.
Proof.
  intros HL. pose proof HL as (HW & HC & HU & HM).
  pose proof (ac_nonneg C _ _ _ HC) as Ha. pose proof (ac_le d rem) as [Hav Har].
  assert (Plain : strict (d_win d) -> get_codestream_input d = get_window d ->
     match get_codestream_input d with
  | GSpan s d' => exists k w, d' = moved d k w /\ 0 <= k <= ac d rem /\ L C d' p (v + k) (rem - k) /\
       s = cut C p (v + ac d rem) /\ zlen s = v + ac d rem - p /\ 0 <= p /\ strict w /\ fresh d' (rem - k) /\ calm w
  | GStop s d' =>
      (s = SNeedInput /\ exists w, d' = moved d (ac d rem) w /\ L C d' p (v + ac d rem) (rem - ac d rem) /\
         v + ac d rem <= p /\ w_unc w = 0 /\ calm w /\ (strict (d_win d) -> strict w)) \/
      (s = SError EInternal /\ d' = d /\ ~ calm (d_win d))
  end).
  { intros Hs ->. pose proof (get_window_L C d p v rem HL Hs) as G. destruct (get_window d) as [s d'|s d'].
    - destruct G as (w & Ed & HL' & Es & Hp & Hz & Hst & Hf & Hc). exists 0, w.
      rewrite Z.add_0_r, Z.sub_0_r. repeat (split; [first [assumption|lia]|]). assumption.
    - destruct G as [(-> & Hz & Hp & w & Ed & HL' & Hu & Hst & Hc)|G]; [left|right; exact G].
      split; [reflexivity|]. exists w. rewrite Hz, Z.add_0_r, Z.sub_0_r.
      repeat (split; [first [assumption|lia]|]). tauto. }
  unfold get_codestream_input in *. destruct (copy_cases (d_win d)) as [E|[En Z0]].
  - rewrite E in *. destruct (Win_nil C _ _ _ E HW) as (U0 & Ep & P0).
    destruct (Z.gtb_spec (w_pos (d_win d)) 0) as [Hgt|Hle].
    2:{ apply Plain; [intros _; lia|reflexivity]. }
    clear Plain. rewrite (available_ac C d v rem HC). set (skip := Z.min (w_pos (d_win d)) (ac d rem)).
    rewrite advance_input_moved by (subst skip; lia).
    change (set_win (moved d skip (d_win d)) ?w) with (moved d skip w).
    set (w2 := mkWin [] (w_unc (d_win d)) (w_pos (d_win d) - skip)).
    assert (HL2 : L C (moved d skip w2) p (v + skip) (rem - skip)).
    { apply (L_moved C d p); [exact HL|subst skip; lia| |subst w2 skip; cbn; lia].
      split; [subst w2 skip; cbn; lia|]. split; [subst w2; cbn; lia|]. subst w2; cbn. lia. }
    assert (A2 : ac (moved d skip w2) (rem - skip) = ac d rem - skip) by (apply (ac_moved C d v); [exact HC|subst skip; lia]).
    destruct (Z.gtb_spec (w_pos (d_win d) - skip) 0) as [Hg2|Hl2].
    + assert (skip = ac d rem) by (subst skip; lia).
      destruct (request_more_L C _ _ _ _ HL2) as (w & Er & HL3 & Hu & Hs3 & Hc3); [intros A; cbn in A; congruence|].
      rewrite Er. left. split; [reflexivity|]. exists w. rewrite A2 in *. rewrite moved_moved in * by lia.
      replace (skip + (ac d rem - skip)) with (ac d rem) in * by lia.
      replace (v + skip + (ac d rem - skip)) with (v + ac d rem) in HL3 by lia.
      replace (rem - skip - (ac d rem - skip)) with (rem - ac d rem) in HL3 by lia.
      split; [reflexivity|]. split; [exact HL3|]. split; [lia|]. split; [exact Hu|]. split.
      * apply Hc3; [intros A; cbn in A; congruence|right; lia].
      * intros Hs. specialize (Hs E). lia.
    + assert (Hs2 : strict (d_win (moved d skip w2))) by (intros _; subst w2 skip; cbn; lia).
      pose proof (get_window_L C _ _ _ _ HL2 Hs2) as G. rewrite A2 in G.
      replace (v + skip + (ac d rem - skip)) with (v + ac d rem) in G by lia.
      destruct (get_window (moved d skip w2)) as [s d'|s d'].
      * destruct G as (w & -> & HL' & Es & Hp & Hz & Hst & Hf & Hc). rewrite moved_moved in * by (subst skip; lia).
        exists (skip + 0), w. replace (skip + 0) with skip in * by lia.
        split; [reflexivity|]. split; [subst skip; lia|]. split; [exact HL'|]. split; [exact Es|]. split; [exact Hz|].
        split; [lia|]. split; [exact Hst|]. split; [exact Hf|exact Hc].
      * destruct G as [(-> & Hz & Hp & w & -> & HL' & Hu & Hst & Hc)|(-> & -> & Hn)]; [left|].
        2:{ exfalso. apply Hn. intros A. subst w2. cbn in A. congruence. }
        split; [reflexivity|]. rewrite moved_moved in * by (subst skip; lia). exists w.
        replace (skip + 0) with (ac d rem) in * by lia. replace skip with (ac d rem) in HL' by lia.
        split; [reflexivity|]. split; [exact HL'|]. split; [lia|]. split; [exact Hu|]. split; [exact Hc|]. intros _. exact Hst.
  - assert (Eg : match w_copy (d_win d) with [] => if w_pos (d_win d) >? 0 then
         match available_codestream d with
         | Some avail =>
             match advance_input d (Z.min (w_pos (d_win d)) avail) with
             | Some d1 =>
                 if w_pos (d_win d) - Z.min (w_pos (d_win d)) avail >? 0
                 then let '(s, d') := request_more_input (set_win d1 (mkWin [] (w_unc (d_win d)) (w_pos (d_win d) - Z.min (w_pos (d_win d)) avail))) in GStop s d'
                 else get_window (set_win d1 (mkWin [] (w_unc (d_win d)) (w_pos (d_win d) - Z.min (w_pos (d_win d)) avail)))
             | None => GStop SCrash d
             end
         | None => GStop SCrash d
         end else get_window d | _ => get_window d end = get_window d).
    { destruct (w_copy (d_win d)); [congruence|reflexivity]. }
    apply Plain; [intros A; congruence|exact Eg].
Qed.

Lemma advance_inside_L inside : forall d p v rem, L C d p v rem -> strict (d_win d) -> fresh d rem -> calm (d_win d) ->
  p <= v + ac d rem ->
  exists k w os, advance_inside d inside (v + ac d rem - p) = Some (moved d k w, os) /\ 0 <= k <= ac d rem /\
    L C (moved d k w) (parser_at p os) (v + k) (rem - k) /\ strict w /\ fresh (moved d k w) (rem - k) /\ calm w /\
    spans_ok C p os /\ Forall cs_obs os /\ parser_at p os <= v + ac d rem /\ (forall sh, shown_to p sh os = sh).
Proof.
  induction inside as [|n rest IH]; intros d p v rem HL Hs Hf Hc Hp.
  - exists 0, (d_win d), []. rewrite moved_0, set_win_same. cbn.
    pose proof HL as (_ & HC & _). pose proof (ac_nonneg C _ _ _ HC).
    rewrite Z.add_0_r, Z.sub_0_r.
    repeat (split; [first [assumption|reflexivity|lia|constructor]|]). intros; reflexivity.
  - cbn [advance_inside]. set (m := Z.min (Z.max 0 n) (v + ac d rem - p)).
    assert (Hm : 0 <= m) by (subst m; lia).
    destruct (advance_codestream_L C d p v rem m HL Hs Hm) as (k & w & E & Hk & HL' & Hc' & Hf' & Hs').
    rewrite E. pose proof HL as (_ & HC & _).
    pose proof (ac_moved C d v k w rem HC Hk) as Ea.
    destruct (IH (moved d k w) (p + m) (v + k) (rem - k)) as (k2 & w2 & os & E2 & Hk2 & HL2 & Hs2 & Hf2 & Hc2 & Hsp & Hob & Hp2 & Hsh).
    + exact HL'.
    + cbn. apply Hs'; [exact Hf|subst m; lia].
    + apply Hf', Hf.
    + cbn. apply Hc', Hc.
    + rewrite Ea. subst m; lia.
    + rewrite Ea in *. replace (v + k + (ac d rem - k) - (p + m)) with (v + ac d rem - p - m) in E2 by lia.
      rewrite E2. exists (k + k2), w2, (OAdv m :: os). rewrite moved_moved in * by lia.
      replace (v + k + k2) with (v + (k + k2)) in HL2 by lia. replace (rem - k - k2) with (rem - (k + k2)) in * by lia.
      cbn [parser_at spans_ok shown_to].
      split; [reflexivity|]. split; [lia|]. split; [exact HL2|]. split; [exact Hs2|]. split; [exact Hf2|]. split; [exact Hc2|].
      split; [split; [lia|exact Hsp]|]. split; [constructor; [exact I|exact Hob]|]. split; [lia|exact Hsh].
Qed.

Definition parse_post (acts : list act) (d : dec) (p v rem : Z) (r : status * dec * list act * list obs) : Prop :=
  let '(s, d', rest, os) := r in
  exists k w dn, d' = set_done (moved d k w) dn /\ 0 <= k <= ac d rem /\
    L C (moved d k w) (parser_at p os) (v + k) (rem - k) /\
    spans_ok C p os /\ Forall cs_obs os /\
    (forall P, Forall P acts -> Forall P rest) /\
    match s with
    | SNeedInput => dn = false /\ k = ac d rem /\ w_unc w = 0 /\ (forall sh, v + k <= Z.max (parser_at p os) (shown_to p sh os))
    | SSuccess => dn = true /\ In ADone acts
    | SEvent | SError EParser => dn = false
    | SError EInternal => dn = false /\ ~ calm (d_win d)
    | _ => False
    end /\
    (calm (d_win d) -> calm w) /\
    (strict (d_win d) -> Forall noskip acts -> strict w).

Lemma process_codestream_L acts : forall d p v rem, L C d p v rem -> d_done d = false ->
  parse_post acts d p v rem (process_codestream acts d).
Proof.
  induction acts as [|a acts IH]; intros d p v rem HL Hd.
  all: pose proof HL as (HW & HC & HU & HM); pose proof (ac_nonneg C _ _ _ HC) as Ha; pose proof (ac_le d rem) as [Hav Har].
  all: assert (Same : forall dn, set_done d dn = set_done (moved d 0 (d_win d)) dn) by (intros; rewrite moved_0, set_win_same; reflexivity).
  all: assert (Sd : d = set_done d false) by (rewrite <- Hd; destruct d; reflexivity).
  all: assert (HL0 : L C (moved d 0 (d_win d)) p (v + 0) (rem - 0)) by (rewrite moved_0, set_win_same, Z.add_0_r, Z.sub_0_r; exact HL).
  - cbn. rewrite Hd. exists 0, (d_win d), false. rewrite <- Same.
    repeat (split; [first [assumption|reflexivity|lia|constructor|tauto]|]). tauto.
  - cbn [process_codestream]. rewrite Hd. destruct a as [inside skip e| |].
    + pose proof (get_L d p v rem HL) as G. destruct (get_codestream_input d) as [span d1|s d1].
      2:{ unfold parse_post. destruct G as [(-> & w & -> & HL' & Hv & Hu & Hc & Hs)|(-> & -> & Hn)].
          - exists (ac d rem), w, false. cbn [parser_at spans_ok shown_to].
            split; [rewrite <- Hd; reflexivity|]. split; [lia|]. split; [exact HL'|].
            split; [exact I|]. split; [constructor|]. split; [intros P F; inversion F; assumption|].
            split; [|split; [tauto|intros A _; apply Hs, A]].
            split; [reflexivity|]. split; [reflexivity|]. split; [exact Hu|]. intros; lia.
          - exists 0, (d_win d), false. rewrite <- Same.
            repeat (split; [first [assumption|reflexivity|lia|constructor|tauto]|]).
            split; [intros P F; inversion F; assumption|]. split; [split; [reflexivity|exact Hn]|]. tauto. }
      destruct G as (k & w & -> & Hk & HL1 & Es & Ez & Hp0 & Hs1 & Hf1 & Hc1).
      pose proof (ac_moved C d v k w rem HC Hk) as Ea.
      destruct (advance_inside_L inside (moved d k w) p (v + k) (rem - k) HL1 Hs1 Hf1 Hc1)
        as (k2 & w2 & os & E2 & Hk2 & HL2 & Hs2 & Hf2 & Hc2 & Hsp & Hob & Hp2 & Hsh).
      { rewrite Ea. pose proof (zlen_nonneg span). lia. }
      rewrite Ea in *. replace (v + k + (ac d rem - k) - p) with (zlen span) in E2 by lia. rewrite E2.
      rewrite moved_moved in * by lia. replace (v + k + k2) with (v + (k + k2)) in HL2 by lia.
      replace (rem - k - k2) with (rem - (k + k2)) in * by lia. set (k3 := k + k2) in *.
      assert (Hk3 : 0 <= k3 <= ac d rem) by (subst k3; lia).
      pose proof (ac_moved C d v k3 w2 rem HC Hk3) as Ea3.
      assert (Hspan : prefix_of span (skipn (Z.to_nat p) C)) by (rewrite Es; apply cut_prefix; lia).
      assert (Hshown : forall sh, v + ac d rem <= shown_to p sh (OSpan span :: os)).
      { intros sh. cbn [shown_to]. rewrite Hsh. lia. }
      assert (More : parse_post (AStep inside skip e :: acts) d p v rem
                (let '(s, d3) := request_more_input (moved d k3 w2) in (s, d3, acts, OSpan span :: os))).
      { destruct (request_more_L C _ _ _ _ HL2 Hf2) as (w3 & Er & HL3 & Hu & Hs3 & Hc3). rewrite Er. rewrite Ea3 in *.
        rewrite moved_moved in * by lia. replace (k3 + (ac d rem - k3)) with (ac d rem) in * by lia.
        replace (v + k3 + (ac d rem - k3)) with (v + ac d rem) in HL3 by lia.
        replace (rem - k3 - (ac d rem - k3)) with (rem - ac d rem) in HL3 by lia.
        exists (ac d rem), w3, false. split; [rewrite <- Hd; reflexivity|]. split; [lia|].
        cbn [parser_at]. split; [exact HL3|]. split; [split; [exact Hspan|exact Hsp]|].
        split; [constructor; [exact I|exact Hob]|]. split; [intros P F; inversion F; assumption|].
        split; [|split; [intros _; apply Hc3; [exact Hc2|left; exact Hs2]|intros _ _; apply Hs3, Hs2]].
        split; [reflexivity|]. split; [reflexivity|]. split; [exact Hu|]. intros sh. specialize (Hshown sh). lia. }
      assert (Adv : exists k4 w4, advance_codestream (moved d k3 w2) (Z.max 0 skip) = Some (moved d k4 w4) /\ 0 <= k4 <= ac d rem /\
                 L C (moved d k4 w4) (parser_at p os + Z.max 0 skip) (v + k4) (rem - k4) /\ calm w4 /\ (skip <= 0 -> strict w4)).
      { destruct (advance_codestream_L C _ _ _ _ (Z.max 0 skip) HL2 Hs2 ltac:(lia)) as (k4 & w4 & E4 & Hk4 & HL4 & Hc4 & Hf4 & Hs4).
        rewrite Ea3 in *. rewrite moved_moved in * by lia. exists (k3 + k4), w4. split; [exact E4|]. split; [lia|].
        replace (v + (k3 + k4)) with (v + k3 + k4) by lia. replace (rem - (k3 + k4)) with (rem - k3 - k4) by lia.
        split; [exact HL4|]. split; [apply Hc4, Hc2|]. intros Hsk. apply Hs4; [exact Hf2|lia]. }
      destruct Adv as (k4 & w4 & E4 & Hk4 & HL4 & Hc4 & Hs4).
      assert (Hob2 : forall os', Forall cs_obs os' -> Forall cs_obs (OSpan span :: os ++ OAdv (Z.max 0 skip) :: os')).
      { intros os' Ho. constructor; [exact I|]. apply Forall_app. split; [exact Hob|]. constructor; [exact I|exact Ho]. }
      assert (Hsp2 : forall os', spans_ok C (parser_at p os + Z.max 0 skip) os' -> spans_ok C p (OSpan span :: os ++ OAdv (Z.max 0 skip) :: os')).
      { intros os' Ho. cbn. split; [exact Hspan|]. apply spans_ok_app. split; [exact Hsp|]. cbn. split; [lia|exact Ho]. }
      assert (Hat : forall os', parser_at p (OSpan span :: os ++ OAdv (Z.max 0 skip) :: os') = parser_at (parser_at p os + Z.max 0 skip) os').
      { intros os'. cbn. rewrite parser_at_app. reflexivity. }
      destruct e.
      * rewrite E4. pose proof (ac_moved C d v k4 w4 rem HC Hk4) as Ea4.
        specialize (IH (moved d k4 w4) _ _ _ HL4 Hd). destruct (process_codestream acts (moved d k4 w4)) as [[[s d5] rest] os5].
        destruct IH as (k5 & w5 & dn & -> & Hk5 & HL5 & Hsp5 & Hob5 & Hr5 & Hst5 & Hc5 & Hs5).
        rewrite Ea4 in *. rewrite moved_moved in * by lia. exists (k4 + k5), w5, dn.
        rewrite Hat. replace (v + k4 + k5) with (v + (k4 + k5)) in * by lia. replace (rem - k4 - k5) with (rem - (k4 + k5)) in * by lia.
        split; [reflexivity|]. split; [lia|]. split; [exact HL5|]. split; [apply Hsp2, Hsp5|]. split; [apply Hob2, Hob5|].
        split; [intros P F; apply Hr5; inversion F; assumption|].
        split; [|split; [intros _; apply Hc5, Hc4|intros Hst F; inversion F; subst; apply Hs5; [apply Hs4; assumption|assumption]]].
        destruct s as [|[]| | | | | | |]; try exact Hst5.
        -- destruct Hst5 as [-> Hin]. split; [reflexivity|right; exact Hin].
        -- destruct Hst5 as [-> Hn]. exfalso. apply Hn, Hc4.
        -- destruct Hst5 as (-> & Hk6 & Hu & Hv). split; [reflexivity|]. split; [lia|]. split; [exact Hu|].
           intros sh. specialize (Hv (shown_to p sh (OSpan span :: os ++ [OAdv (Z.max 0 skip)]))).
           replace (OSpan span :: os ++ OAdv (Z.max 0 skip) :: os5) with ((OSpan span :: os ++ [OAdv (Z.max 0 skip)]) ++ os5) by (cbn; rewrite <- app_assoc; reflexivity).
           rewrite shown_app, Hat. cbn [parser_at]. lia.
      * exact More.
      * rewrite E4. exists k4, w4, false. rewrite Hat. cbn [parser_at].
        split; [rewrite <- Hd; reflexivity|]. split; [lia|]. split; [exact HL4|].
        split; [apply Hsp2; exact I|]. split; [apply Hob2; constructor|]. split; [intros P F; inversion F; assumption|].
        split; [reflexivity|]. split; [intros _; exact Hc4|]. intros _ F. inversion F; subst. apply Hs4. assumption.
    + exists 0, (d_win d), true. rewrite <- Same.
      split; [reflexivity|]. split; [lia|]. split; [exact HL0|]. split; [exact I|]. split; [constructor|].
      split; [intros P F; inversion F; assumption|]. split; [split; [reflexivity|left; reflexivity]|]. tauto.
    + exists 0, (d_win d), false. rewrite <- Same.
      split; [exact Sd|]. split; [lia|]. split; [exact HL0|]. split; [exact I|]. split; [constructor|].
      split; [intros P F; inversion F; assumption|]. split; [reflexivity|]. tauto.
Qed.

End Parse.
