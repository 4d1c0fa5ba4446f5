(* The bytes taken by the parser when nothing is skipped; JxlDecoderProcessInput returns. *)
From Verif Require Import Base ListAux ContainerSpec ContainerModel InpModel InpSpec InpWin InpParse InpJxlp InpInv.
Ltac Zify.zify_post_hook ::= idtac.

(* ---- the bytes taken ---- *)
Fixpoint ins (span : list Z) (os : list obs) : Prop :=
  match os with
  | [] => True
  | OSpan s :: r => ins s r
  | OAdv n :: r => 0 <= n <= zlen span /\ ins (drop n span) r
  | _ :: r => ins span r
  end.

Lemma ins_app a : forall span b, ins span a -> (forall s, ins s b) -> ins span (a ++ b).
Proof.
  induction a as [|o a IH]; intros span b H1 H2; [apply H2|]. destruct o; cbn in *; try (apply IH; assumption). destruct H1. split; [assumption|]. apply IH; assumption.
Qed.

Lemma ins_inside inside : forall d left span, 0 <= left <= zlen span -> match advance_inside d inside left with Some (_, os) => ins span os | None => True end.
Proof.
  induction inside as [|n r IH]; intros d left span H; cbn [advance_inside]; [exact I|].
  destruct (advance_codestream _ _) as [d'|]; [|exact I]. set (m := Z.min (Z.max 0 n) left).
  specialize (IH d' (left - m) (drop m span)). rewrite zlen_drop in IH by lia. specialize (IH ltac:(lia)).
  destruct (advance_inside _ _ _) as [[d2 os]|]; [|exact I]. cbn. split; [lia|exact IH].
Qed.

Lemma ins_process acts : forall d span, Forall noskip acts -> ins span (snd (process_codestream acts d)).
Proof.
  induction acts as [|a acts IH]; intros d span Hn; cbn [process_codestream]; destruct (d_done d); try exact I; destruct a as [inside skip e| |]; try exact I.
  inversion Hn as [|? ? Hs Hn']; subst. cbn in Hs. replace (Z.max 0 skip) with 0 by lia.
  destruct (get_codestream_input d) as [sp d1|s d1]; [|exact I]. pose proof (ins_inside inside d1 (zlen sp) sp ltac:(pose proof (zlen_nonneg sp); lia)) as Hi.
  destruct (advance_inside d1 inside (zlen sp)) as [[d2 os]|]; [|exact I].
  assert (Y : forall os', (forall s, ins s os') -> ins span (OSpan sp :: os ++ OAdv 0 :: os')).
  { intros os' H'. cbn. apply ins_app; [exact Hi|]. intros s. cbn. split; [pose proof (zlen_nonneg s); lia|apply H']. }
  destruct e; [|destruct (request_more_input d2); exact Hi|].
  - destruct (advance_codestream d2 0) as [d3|]; [|exact Hi]. specialize (IH d3). destruct (process_codestream acts d3) as [[[s d4] rest] os'].
    apply Y. intros s0. apply IH, Hn'.
  - destruct (advance_codestream d2 0) as [d3|]; [|exact Hi]. apply Y. intros s0. exact I.
Qed.

Lemma process_rest P acts : forall d, Forall P acts -> Forall P (snd (fst (process_codestream acts d))).
Proof.
  induction acts as [|a acts IH]; intros d H; cbn [process_codestream]; destruct (d_done d); try exact H; try constructor. inversion H as [|? ? H1 H2]; subst.
  destruct a as [inside skip e| |]; try exact H2. destruct (get_codestream_input d) as [sp d1|s d1]; [|exact H2]. destruct (advance_inside d1 inside (zlen sp)) as [[d2 os]|]; [|exact H2].
  destruct e; [|destruct (request_more_input d2); exact H2|].
  - destruct (advance_codestream d2 _) as [d3|]; [|exact H2]. specialize (IH d3 H2). destruct (process_codestream acts d3) as [[[s d4] rest] os']. exact IH.
  - destruct (advance_codestream d2 _); exact H2.
Qed.

Definition step_rest (r : step) : list act := match r with Go _ a _ => a | Stop _ _ a _ => a end.
Lemma stage_ins c acts d : Forall noskip acts -> (forall span, ins span (step_obs (stage_step c acts d))) /\ Forall noskip (step_rest (stage_step c acts d)).
Proof.
  intros Hn. unfold stage_step. destruct (d_stage d).
  - unfold step_header. cbv zeta. repeat match goal with |- context [match ?x with _ => _ end] => destruct x end; (split; [intros; exact I|exact Hn]).
  - unfold step_ftyp. cbv zeta. repeat match goal with |- context [match ?x with _ => _ end] => destruct x end; (split; [intros; exact I|exact Hn]).
  - unfold step_skip. cbv zeta. repeat match goal with |- context [match ?x with _ => _ end] => destruct x end; (split; [intros; exact I|exact Hn]).
  - unfold step_codestream. pose proof (fun span => ins_process acts d span Hn) as H. pose proof (process_rest noskip acts d Hn) as H2. destruct (process_codestream acts d) as [[[s d1] rest] os]. cbn [fst snd] in H, H2.
    destruct s; repeat match goal with |- context [match ?x with _ => _ end] => destruct x end; (split; [exact H|exact H2]).
  - unfold step_partial. cbv zeta. repeat match goal with |- context [match ?x with _ => _ end] => destruct x end; (split; [intros; exact I|exact Hn]).
  - unfold step_buffering. cbv zeta. repeat match goal with |- context [match ?x with _ => _ end] => destruct x end; (split; [intros; exact I|exact Hn]).
Qed.

Lemma preamble_ins c d span : ins span (snd (preamble c d)).
Proof.
  unfold preamble. destruct (is_header _); [exact I|]. destruct (advance_input _ _); [|exact I]. unfold output_box. cbv zeta.
  destruct (_ && o_cur _); [|exact I]. destruct (content_process _ _ _) as [[s o] data]. exact I.
Qed.

Lemma boxes_ins c fuel : forall acts d span, Forall noskip acts -> ins span (snd (handle_boxes c fuel acts d)).
Proof.
  induction fuel as [|fuel IH]; intros acts d span Hn; cbn [handle_boxes]; [exact I|]. pose proof (preamble_ins c d) as H1.
  destruct (preamble c d) as [[s1 d1] os1]. cbn [snd] in H1. destruct s1; try apply H1. destruct (stage_ins c acts d1 Hn) as [H2 H3].
  destruct (stage_step c acts d1) as [d2 rest os2|s d2 rest os2]; cbn [step_obs step_rest] in H2, H3.
  - specialize (IH rest d2). destruct (handle_boxes c fuel rest d2) as [[s d3] os3]. cbn [snd] in *. apply ins_app; [apply H1|]. intros s0. apply ins_app; [apply H2|]. intros s2. apply IH, H3.
  - cbn [snd]. apply ins_app; [apply H1|exact H2].
Qed.

Lemma noskip_acts acts : ~ (exists inside n e, In (AStep inside n e) acts /\ 0 < n) -> Forall noskip acts.
Proof.
  intros H. apply Forall_forall. intros [inside n e| |] Hi; cbn; try exact I. destruct (Z.le_gt_cases n 0) as [|Hgt]; [assumption|]. exfalso. apply H. exists inside, n, e. split; [exact Hi|lia].
Qed.

Lemma run_ins c file ops : forall u span, Forall (fun op => ~ skips op) ops -> ins span (snd (user_run c file u ops)).
Proof.
  induction ops as [|op ops IH]; intros u span H; cbn [user_run]; [exact I|]. inversion H as [|? ? H1 H2]; subst.
  assert (Hop : forall s, ins s (snd (user_step c file u op))).
  { intros s. destruct op as [k|fuel acts| |size| |n]; cbn [user_step].
    - repeat match goal with |- context [match ?x with _ => _ end] => destruct x end; exact I.
    - unfold process_input. pose proof (fun sp => boxes_ins c fuel acts (u_dec u) sp (noskip_acts _ H1)) as Hb. destruct (handle_boxes c fuel acts (u_dec u)) as [[s1 d'] os]. cbn [snd] in *.
      apply ins_app; [apply Hb|]. intros; exact I.
    - exact I.
    - repeat match goal with |- context [match ?x with _ => _ end] => destruct x end; exact I.
    - repeat match goal with |- context [match ?x with _ => _ end] => destruct x end; exact I.
    - exfalso. apply H1. exact I. }
  destruct (user_step c file u op) as [u1 os1]. specialize (IH u1). destruct (user_run c file u1 ops) as [u2 os2]. cbn [snd] in *. apply ins_app; [apply Hop|]. intros s. apply IH, H2.
Qed.

Lemma parser_mono C os : forall p, spans_ok C p os -> p <= parser_at p os.
Proof.
  induction os as [|o os IH]; intros p H; [cbn; lia|]. destruct o; cbn in *; try (apply IH; tauto). destruct H as [H1 H2]. specialize (IH _ H2). lia.
Qed.

Lemma taken_spec C os : forall span p, 0 <= p -> spans_ok C p os -> ins span os -> prefix_of span (drop p C) ->
  taken span os = take (parser_at p os - p) (drop p C).
Proof.
  induction os as [|o os IH]; intros span p Hp HS HI Hpre.
  { cbn. replace (p - p) with 0 by lia. reflexivity. }
  destruct o as [s|n|s|s|s|s]; cbn [taken parser_at spans_ok ins] in *; try (apply IH; assumption).
  - destruct HS as [H1 H2]. apply IH; assumption.
  - destruct HS as [H1 H2]. destruct HI as [H3 H4]. pose proof (parser_mono _ _ _ H2) as Hm. fold (take n span) (drop n span). destruct Hpre as [r Er].
    rewrite (IH (drop n span) (p + n)); [|lia|exact H2|exact H4|].
    + rewrite <- drop_drop by lia. replace (parser_at (p + n) os - p) with (n + (parser_at (p + n) os - (p + n))) by lia.
      rewrite take_split by lia. f_equal. rewrite Er. symmetry. apply take_app1. lia.
    + rewrite <- drop_drop, Er by lia. exists r. apply drop_app1. lia.
Qed.

(* ---- JxlDecoderProcessInput returns ---- *)
Definition keeps (d d' : dec) : Prop := avail_in d' <= avail_in d /\ d_box d' = d_box d /\ d_jx d' = d_jx d /\ d_stage d' = d_stage d.
Lemma keeps_refl d : keeps d d.
Proof. repeat split. lia. Qed.
Lemma keeps_trans d d1 d2 : keeps d d1 -> keeps d1 d2 -> keeps d d2.
Proof. intros (A1 & A2 & A3 & A4) (B1 & B2 & B3 & B4). split; [lia|]. repeat split; congruence. Qed.
Lemma keeps_win d w d' : keeps (set_win d w) d' -> keeps d d'.
Proof. intros H. exact H. Qed.
Lemma keeps_win2 d d' w : keeps d d' -> keeps d (set_win d' w).
Proof. intros H. exact H. Qed.
Lemma keeps_advance d n d' : advance_input d n = Some d' -> keeps d d'.
Proof.
  unfold advance_input. destruct (Z.ltb_spec n 0); [discriminate|]. destruct (Z.ltb_spec (avail_in d) n); [discriminate|]. cbn [orb]. intros E. apply Some_inj in E. subst d'.
  split; [|repeat split]. change (zlen (drop n (i_in (d_in d))) <= avail_in d). rewrite zlen_drop by lia. unfold avail_in in *. lia.
Qed.
Lemma keeps_codestream d n d' : advance_codestream d n = Some d' -> keeps d d'.
Proof.
  unfold advance_codestream. destruct (available_codestream d) as [a|]; [|discriminate]. cbv zeta. destruct (w_copy (d_win d)).
  - destruct (n <=? a); intros E; apply keeps_advance in E; exact E.
  - destruct (_ >=? _); [|intros E; apply Some_inj in E; subst d'; apply keeps_win2, keeps_refl].
    destruct (advance_input d _) as [d1|] eqn:E1; [|discriminate]. intros E. apply Some_inj in E. subst d'. apply keeps_advance in E1. exact E1.
Qed.
Lemma keeps_request d : keeps d (snd (request_more_input d)).
Proof.
  unfold request_more_input. cbv zeta. destruct (w_copy (d_win d)).
  - destruct (available_codestream d) as [a|]; [|apply keeps_refl]. destruct (negb _); [apply keeps_refl|]. destruct (advance_input _ a) as [d2|] eqn:E; [|apply keeps_refl]. apply keeps_advance in E. exact E.
  - destruct (advance_input d _) as [d2|] eqn:E; [|apply keeps_refl]. apply keeps_advance in E. exact E.
Qed.
Lemma keeps_window d : keeps d (got (get_window d)).
Proof.
  unfold get_window. cbv zeta. destruct (_ >? _); [apply keeps_refl|]. destruct (_ >? _); [apply keeps_refl|]. destruct (available_codestream d) as [a|]; [|apply keeps_refl].
  destruct (w_copy (d_win d)).
  - destruct (a =? 0); [|apply keeps_refl]. pose proof (keeps_request d) as H. destruct (request_more_input d). exact H.
  - destruct (negb _); [apply keeps_refl|exact (keeps_win2 _ _ _ (keeps_refl d))].
Qed.
Lemma keeps_get d : keeps d (got (get_codestream_input d)).
Proof.
  unfold get_codestream_input. cbv zeta. destruct (w_copy (d_win d)); [|apply keeps_window]. destruct (_ >? 0); [|apply keeps_window].
  destruct (available_codestream d) as [a|]; [|apply keeps_refl]. destruct (advance_input d _) as [d1|] eqn:E; [|apply keeps_refl]. apply keeps_advance in E. eapply keeps_trans; [exact E|].
  destruct (_ >? 0).
  - match goal with |- context [request_more_input ?x] => pose proof (keeps_request x) as H; destruct (request_more_input x) end. exact H.
  - match goal with |- context [get_window ?x] => pose proof (keeps_window x) as H end. exact H.
Qed.
Lemma keeps_inside inside : forall d left, match advance_inside d inside left with Some (d', _) => keeps d d' | None => True end.
Proof.
  induction inside as [|n r IH]; intros d left; cbn [advance_inside]; [apply keeps_refl|].
  destruct (advance_codestream _ _) as [d'|] eqn:E; [|exact I]. apply keeps_codestream in E. specialize (IH d' (left - Z.min (Z.max 0 n) left)).
  destruct (advance_inside _ _ _) as [[d2 os]|]; [|exact I]. eapply keeps_trans; eauto.
Qed.
Lemma keeps_process acts : forall d, keeps d (snd (fst (fst (process_codestream acts d)))).
Proof.
  induction acts as [|a acts IH]; intros d; cbn [process_codestream]; destruct (d_done d); try apply keeps_refl; destruct a as [inside skip e| |]; try apply keeps_refl; [|exact (keeps_refl d)].
  pose proof (keeps_get d) as Hg. destruct (get_codestream_input d) as [span d1|s d1]; cbn [got] in Hg; [|exact Hg]. pose proof (keeps_inside inside d1 (zlen span)) as Hi.
  destruct (advance_inside d1 inside (zlen span)) as [[d2 os]|]; [|exact Hg].
  pose proof (keeps_trans _ _ _ Hg Hi) as H2. destruct e.
  - destruct (advance_codestream d2 (Z.max 0 skip)) as [d3|] eqn:E; [|exact H2]. apply keeps_codestream in E. specialize (IH d3). destruct (process_codestream acts d3) as [[[s d4] rest] os'].
    cbn [fst snd] in *. eapply keeps_trans; [exact H2|]. eapply keeps_trans; eauto.
  - pose proof (keeps_request d2) as Hr. destruct (request_more_input d2). cbn [fst snd] in *. eapply keeps_trans; eauto.
  - destruct (advance_codestream d2 (Z.max 0 skip)) as [d3|] eqn:E; [|exact H2]. apply keeps_codestream in E. cbn [fst snd]. eapply keeps_trans; eauto.
Qed.

Definition pending (d : dec) : Z := if is_header (d_stage d) then 0 else x_header (d_box d).
Definition weight (s : bstage) : Z := match s with BHeader => 0 | BSkip => 1 | _ => 2 end.
Definition meas (have : bool) (d : dec) : Z :=
  4 * Z.max 0 (avail_in d - pending d) + 4 * zlen (j_ooo (d_jx d)) +
  (if have then weight (d_stage d) else match d_stage d with BHeader => 3 | s => weight s end).

Lemma meas_nonneg h d : 0 <= meas h d.
Proof. unfold meas. pose proof (zlen_nonneg (j_ooo (d_jx d))). destruct h, (d_stage d); cbn [weight]; lia. Qed.

Lemma erase_len m k : ooo_find m k <> None -> zlen (ooo_erase m k) + 1 <= zlen m.
Proof.
  unfold ooo_find, ooo_erase. induction m as [|e m IH]; cbn [find filter option_map]; [congruence|]. rewrite zlen_cons. destruct (fst e =? k) eqn:E; cbn [negb].
  - intros _. enough (zlen (filter (fun e0 => negb (fst e0 =? k)) m) <= zlen m) by lia.
    clear. induction m as [|e m IH]; cbn [filter]; [lia|]. rewrite zlen_cons. destruct (negb _); rewrite ?zlen_cons; lia.
  - intros H. rewrite zlen_cons. specialize (IH H). lia.
Qed.

Lemma append_len m k data : zlen (ooo_append m k data) = zlen m.
Proof. unfold ooo_append, zlen. rewrite map_length. reflexivity. Qed.

Lemma avail_advance d n d' : advance_input d n = Some d' -> avail_in d' = avail_in d - n /\ 0 <= n.
Proof.
  unfold advance_input. destruct (Z.ltb_spec n 0); [discriminate|]. destruct (Z.ltb_spec (avail_in d) n); [discriminate|]. cbn [orb]. intros E. apply Some_inj in E. subst d'.
  split; [|lia]. change (zlen (drop n (i_in (d_in d))) = avail_in d - n). rewrite zlen_drop by lia. unfold avail_in in *. lia.
Qed.

Lemma header_pos s p t h n : parse_box_header s 0 p = Some (BoxOk n t h) -> 8 <= h.
Proof.
  assert (Hd : forall a b c n t h, Some (BoxOk a b c) = Some (BoxOk n t h) -> 8 <= c -> 8 <= h) by (intros; congruence).
  unfold parse_box_header. cbv zeta. repeat match goal with |- context [match ?x with _ => _ end] => destruct x; try discriminate end; intros E; apply Hd in E; (exact E || lia).
Qed.

Definition next_less (h : bool) (d : dec) (r : step) : Prop := match r with Go d2 _ _ => meas h d2 < meas h d | Stop s _ _ _ => s <> SFuel end.


Definition naked_ok (c : config) (d : dec) : Prop :=
  have_container c = false -> x_header (d_box d) = 0 /\ (d_stage d = BHeader \/ (d_stage d = BCodestream /\ x_unb (d_box d) = true)).
Definition go_ok (c : config) (r : step) : Prop := match r with Go d2 _ _ => naked_ok c d2 | Stop _ _ _ _ => True end.

Lemma status_fuel acts : forall d, fst (fst (fst (process_codestream acts d))) <> SFuel.
Proof.
  assert (Hr : forall d, fst (request_more_input d) <> SFuel).
  { intros d. unfold request_more_input. cbv zeta. repeat match goal with |- context [match ?x with _ => _ end] => destruct x end; discriminate. }
  assert (Hg : forall d s d', get_codestream_input d = GStop s d' -> s <> SFuel).
  { assert (Hw : forall d s d', get_window d = GStop s d' -> s <> SFuel).
    { intros d s d'. unfold get_window. cbv zeta. pose proof (Hr d) as H. destruct (request_more_input d) as [s0 d0]. cbn [fst] in H.
      repeat match goal with |- context [match ?x with _ => _ end] => destruct x end; intros E; try discriminate E; injection E; intros; subst; (discriminate || assumption). }
    intros d s d'. unfold get_codestream_input. cbv zeta. destruct (w_copy (d_win d)); [|apply Hw]. destruct (_ >? 0); [|apply Hw].
    destruct (available_codestream d); [|intros E; injection E; intros; subst; discriminate]. destruct (advance_input d _) as [d1|]; [|intros E; injection E; intros; subst; discriminate].
    destruct (_ >? 0); [|apply Hw]. match goal with |- context [request_more_input ?x] => pose proof (Hr x) as H; destruct (request_more_input x) end. intros E; injection E; intros; subst. exact H. }
  induction acts as [|a acts IH]; intros d; cbn [process_codestream]; destruct (d_done d); try discriminate; destruct a as [inside skip e| |]; try discriminate.
  destruct (get_codestream_input d) as [span d1|s d1] eqn:Eg; [|exact (Hg _ _ _ Eg)].
  destruct (advance_inside d1 inside (zlen span)) as [[d2 os]|]; [|discriminate]. destruct e.
  - destruct (advance_codestream d2 (Z.max 0 skip)) as [d3|]; [|discriminate]. specialize (IH d3). destruct (process_codestream acts d3) as [[[s d4] rest] os']. exact IH.
  - pose proof (Hr d2) as H. destruct (request_more_input d2). exact H.
  - destruct (advance_codestream d2 (Z.max 0 skip)); discriminate.
Qed.

Lemma stage_less c acts d : pending d = 0 -> naked_ok c d ->
  next_less (have_container c) d (stage_step c acts d) /\ go_ok c (stage_step c acts d).
Proof.
  intros Hp Hnk. unfold naked_ok in Hnk. pose proof (avail_nonneg d) as Hav. pose proof (zlen_nonneg (j_ooo (d_jx d))) as Hj.
  unfold stage_step. destruct (d_stage d) eqn:Es.
  - unfold step_header. destruct (have_container c) eqn:Hh; cbn [negb].
    + destruct (Z.eqb_spec (avail_in d) 0) as [|Ha]; [repeat match goal with |- context [if ?x then _ else _] => destruct x end; (split; [discriminate|exact I])|]. cbv zeta.
      destruct (_ && same (take 2 _) _); [split; [discriminate|exact I]|]. destruct (parse_box_header _ _ _) as [[r| |bsz t h]|] eqn:Eh; try (split; [discriminate|exact I]).
      apply header_pos in Eh. destruct (same t t_brob && _); [split; [discriminate|exact I]|].
      destruct (_ && same t t_jxl); [split; [discriminate|exact I]|].
      destruct (_ && negb (same t t_ftyp)); [split; [discriminate|exact I]|].
      destruct (same t t_ftyp && _); [split; [discriminate|exact I]|].
      destruct (want_box c); (destruct (same t t_jxlc && _); [split; [discriminate|exact I]|]); [split; [discriminate|exact I]|].
      unfold avail_in, pending in *. rewrite Es in *. split; [|intros A; congruence].
      destruct (same t t_ftyp); [|destruct (same t t_jxlc); [|destruct (same t t_jxlp)]];
        (cbn [next_less]; unfold meas, pending, avail_in; rewrite Es; cbn [set_box set_stage set_count set_last d_stage d_box d_jx d_in is_header x_header weight]; lia).
    + destruct (Hnk eq_refl) as [Hx _]. destruct (d_done d); [split; [discriminate|exact I]|]. split.
      * cbn [next_less]. unfold meas, pending, avail_in in *. rewrite Es. cbn [set_box set_stage d_stage d_box d_jx d_in is_header x_header weight]. rewrite Hx. lia.
      * intros _. split; [exact Hx|]. right. split; reflexivity.
  - unfold step_ftyp. cbv zeta. repeat match goal with |- context [if ?x then Stop _ _ _ _ else _] => destruct x; [split; [discriminate|exact I]|] end.
    destruct (have_container c) eqn:Hh; [|destruct (Hnk eq_refl) as [_ [A|[A _]]]; discriminate A].
    destruct (advance_input _ _) as [d1|] eqn:E; [|split; [discriminate|exact I]]. pose proof (keeps_advance _ _ _ E) as (K1 & K2 & K3 & K4). destruct (avail_advance _ _ _ E) as [Ea _].
    cbn [set_jx d_box d_jx d_stage] in K2, K3, K4. split; [|intros A; congruence]. cbn [next_less]. unfold meas, pending in *. rewrite Es in *. cbn [set_stage d_stage d_box d_jx is_header weight] in *.
    change (avail_in (set_stage d1 BSkip)) with (avail_in d1). rewrite K2, K3, Ea, Hp. cbn [j_ooo].
    match goal with |- context [avail_in ?x] => change (avail_in x) with (avail_in d) end. change (avail_in (set_jx d _)) with (avail_in d). lia.
  - unfold step_skip. destruct (have_container c) eqn:Hh; [|destruct (Hnk eq_refl) as [_ [A|[A _]]]; discriminate A]. cbv zeta.
    destruct (x_unb _).
    { destruct (d_closed d); [split; [discriminate|exact I]|]. destruct (negb _); [split; [discriminate|exact I]|]. destruct (advance_input _ _); split; (discriminate || exact I). }
    destruct (_ <? 0); [split; [discriminate|exact I]|]. destruct (_ <? _); [destruct (advance_input _ _); split; (discriminate || exact I)|].
    destruct (advance_input _ _) as [d1|] eqn:E; [|split; [discriminate|exact I]]. pose proof (keeps_advance _ _ _ E) as (K1 & K2 & K3 & K4).
    split; [|intros A; congruence]. cbn [next_less]. unfold meas, pending in *. rewrite Es in *. cbn [set_stage d_stage d_box d_jx is_header weight] in *.
    change (avail_in (set_stage d1 BHeader)) with (avail_in d1). rewrite K3, Hp. lia.
  - unfold step_codestream. pose proof (keeps_process acts d) as (K1 & K2 & K3 & K4). pose proof (status_fuel acts d) as Hf.
    destruct (process_codestream acts d) as [[[s d1] rest] os]. cbn [fst snd] in *.
    assert (Hx : have_container c = false -> x_unb (d_box d1) = true).
    { intros A. destruct (Hnk A) as [_ [B|[_ B]]]; [discriminate B|]. rewrite K2. exact B. }
    unfold pending in Hp. rewrite Es in Hp. cbn [is_header] in Hp.
    destruct s; try (split; [exact Hf|exact I]); try (split; [discriminate|exact I]).
    + destruct (x_unb (d_box d1)) eqn:Eu; [split; [discriminate|exact I]|]. destruct (have_container c) eqn:Hh; [|discriminate (Hx eq_refl)].
      destruct (want_box c); [|split; [discriminate|exact I]]. split; [|intros A; congruence]. cbn [next_less]. unfold meas, pending. rewrite Es. cbn [set_stage d_stage d_box d_jx is_header weight].
      change (avail_in (set_stage d1 BSkip)) with (avail_in d1). rewrite K2, K3, Hp. lia.
    + destruct (_ =? _); cbn [andb]; [|split; [discriminate|exact I]]. destruct (x_unb (d_box d1)) eqn:Eu; cbn [negb]; [split; [discriminate|exact I]|].
      destruct (have_container c) eqn:Hh; [|discriminate (Hx eq_refl)]. unfold inject_next. cbv zeta. destruct (ooo_find _ _) as [[data fl]|] eqn:Ef.
      * assert (Hl : zlen (ooo_erase (j_ooo (d_jx d1)) (j_next (d_jx d1))) + 1 <= zlen (j_ooo (d_jx d1))) by (apply erase_len; congruence). rewrite K3 in Hl. split; [|intros A; congruence]. cbn [next_less]. unfold meas, pending. rewrite Es.
        destruct fl; cbn [set_jx set_last set_win d_stage d_box d_jx is_header weight]; rewrite K2, K3, K4, Es; cbn [is_header weight j_ooo];
          change (avail_in (set_jx _ _)) with (avail_in d1); rewrite Hp; lia.
      * split; [|intros A; congruence]. cbn [next_less]. unfold meas, pending. rewrite Es. cbn [set_stage d_stage d_box d_jx is_header weight].
        change (avail_in (set_stage d1 BHeader)) with (avail_in d1). rewrite K3, Hp. lia.
  - unfold step_partial. cbv zeta. destruct (have_container c) eqn:Hh; [|destruct (Hnk eq_refl) as [_ [A|[A _]]]; discriminate A].
    repeat match goal with |- context [if ?x then Stop _ _ _ _ else _] => destruct x; [split; [discriminate|exact I]|] end.
    destruct (advance_input _ _) as [d1|] eqn:E; [|split; [discriminate|exact I]]. pose proof (keeps_advance _ _ _ E) as (K1 & K2 & K3 & K4). destruct (avail_advance _ _ _ E) as [Ea _].
    unfold pending in Hp. rewrite Es in Hp. cbn [is_header] in Hp. pose proof (avail_nonneg d1) as Hav1.
    destruct (_ =? _).
    + split; [|intros A; congruence]. cbn [next_less]. unfold meas, pending. rewrite Es.
      destruct (negb _); cbn [set_jx set_last set_stage d_stage d_box d_jx is_header weight j_ooo]; rewrite K2, Hp; change (avail_in (set_stage _ _)) with (avail_in d1); lia.
    + destruct (1 <=? _); [|split; [discriminate|exact I]]. destruct (2 ^ 20 <=? _); [split; [discriminate|exact I]|]. destruct (ooo_find _ _); [split; [discriminate|exact I]|].
      split; [|intros A; congruence]. cbn [next_less]. unfold meas, pending. rewrite Es. cbn [set_jx set_stage d_stage d_box d_jx is_header weight j_ooo]. rewrite K2, Hp, zlen_app.
      change (avail_in (set_stage _ _)) with (avail_in d1). change (zlen [(?a, ?b)]) with 1. lia.
  - unfold step_buffering. destruct (have_container c) eqn:Hh; [|destruct (Hnk eq_refl) as [_ [A|[A _]]]; discriminate A]. cbv zeta.
    destruct (available_codestream d); [|split; [discriminate|exact I]]. destruct (negb (can_add_buffer _ _)); [split; [discriminate|exact I]|].
    destruct (advance_input _ _) as [d1|] eqn:E; [|split; [discriminate|exact I]]. pose proof (keeps_advance _ _ _ E) as (K1 & K2 & K3 & K4).
    destruct (_ && _); [|split; [discriminate|exact I]]. split; [|intros A; congruence]. unfold pending in Hp. rewrite Es in Hp. cbn [is_header] in Hp.
    cbn [set_jx d_box d_jx d_stage] in K2, K3, K4. change (avail_in (set_jx d _)) with (avail_in d) in K1.
    cbn [next_less]. unfold meas, pending. rewrite Es. cbn [set_stage d_stage d_box d_jx is_header weight]. change (avail_in (set_stage d1 BHeader)) with (avail_in d1).
    rewrite K3. cbn [j_ooo]. rewrite append_len, Hp. lia.
Qed.

Lemma preamble_less c d : naked_ok c d ->
  let '(s, d1, _) := preamble c d in s <> SFuel /\ (s = SSuccess -> pending d1 = 0 /\ meas (have_container c) d1 <= meas (have_container c) d /\ naked_ok c d1).
Proof.
  intros Hn. unfold preamble. destruct (is_header (d_stage d)) eqn:Eh.
  - split; [discriminate|]. intros _. unfold pending. rewrite Eh. split; [reflexivity|]. split; [lia|exact Hn].
  - destruct (advance_input _ _) as [d1|] eqn:E; [|split; [discriminate|discriminate]]. pose proof (keeps_advance _ _ _ E) as (K1 & K2 & K3 & K4). destruct (avail_advance _ _ _ E) as [Ea Ex].
    set (d2 := set_box _ _).
    assert (Hm : forall o, pending (set_out d2 o) = 0 /\ meas (have_container c) (set_out d2 o) <= meas (have_container c) d /\ naked_ok c (set_out d2 o)).
    { intros o. assert (P0 : pending (set_out d2 o) = 0) by (unfold pending; change (is_header (d_stage d1)) with (is_header (d_stage (set_out d2 o))); match goal with |- (if ?x then _ else _) = _ => destruct x end; reflexivity). split; [exact P0|]. split.
      - unfold meas. rewrite P0. change (avail_in (set_out d2 o)) with (avail_in d1). change (d_jx (set_out d2 o)) with (d_jx d1). change (d_stage (set_out d2 o)) with (d_stage d1). rewrite K3, K4, Ea. unfold pending. rewrite Eh. lia.
      - intros A. destruct (Hn A) as [H1 H2]. split; [reflexivity|]. change (d_stage (set_out d2 o)) with (d_stage d1). change (x_unb (d_box (set_out d2 o))) with (x_unb (d_box d1)). rewrite K2, K4. exact H2. }
    unfold output_box. cbv zeta. fold d2. destruct (want_box c && o_cur _).
    + destruct (content_process _ _ _) as [[s o] data] eqn:Ec. split; [|intros _; apply Hm].
      assert (s <> SFuel). { revert Ec. unfold content_process. cbv zeta. repeat match goal with |- context [if ?x then _ else _] => destruct x end; intros Ec; injection Ec; intros; subst; discriminate. }
      destruct s; try destruct (want_complete c); congruence.
    + split; [discriminate|]. intros _. apply Hm.
Qed.

Lemma boxes_return c fuel : forall acts d, naked_ok c d -> meas (have_container c) d < Z.of_nat fuel -> fst (fst (handle_boxes c fuel acts d)) <> SFuel.
Proof.
  induction fuel as [|fuel IH]; intros acts d Hn Hm; [pose proof (meas_nonneg (have_container c) d); lia|]. cbn [handle_boxes].
  pose proof (preamble_less c d Hn) as H1. destruct (preamble c d) as [[s1 d1] os1]. destruct H1 as [H1 H1']. destruct s1; try exact H1. destruct (H1' eq_refl) as (P0 & Hm1 & Hn1).
  destruct (stage_less c acts d1 P0 Hn1) as [H2 H3]. destruct (stage_step c acts d1) as [d2 rest os2|s d2 rest os2]; cbn [next_less go_ok] in H2, H3; [|exact H2].
  specialize (IH rest d2 H3 ltac:(lia)). destruct (handle_boxes c fuel rest d2) as [[s d3] os3]. exact IH.
Qed.
