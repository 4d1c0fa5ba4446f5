(* The decoder from the start: container files and naked codestreams. *)
From Coq Require Import Permutation.
From Verif Require Import Base ListAux OMap ContainerModel ContainerSpec ContainerProofs InpModel InpSpec InpWin InpParse InpJxlp InpInv.
Ltac Zify.zify_post_hook ::= idtac.

Lemma layout_bytes l : Forall box_ok l -> bytes_ok (layout l).
Proof.
  induction 1 as [|b l (H1 & H2 & _) _ IH]; [constructor|]. rewrite layout_cons. apply bytes_app. split; [exact H1|]. apply bytes_app. auto.
Qed.

Lemma skipn_split {A} n : forall (l : list A) b t, skipn n l = b :: t -> l = firstn n l ++ b :: t.
Proof. intros l b t E. rewrite <- E. symmetry. apply firstn_skipn. Qed.

Definition start (bs : list box) : delivery := mkDel bs None [] None false.

(* ver0: 0 when the parts come in order *)
Lemma container_start c ver ver0 bs C NS ND : have_container c = true -> zlen (layout bs) < 2 ^ 46 ->
  container ver bs C -> (ver = 0 -> ver0 = 0) -> (ver0 = ver \/ exists sg ft rest, bs = sg :: ft :: rest /\ carries ver0 rest C) ->
  bytes_ok (layout bs) /\ zlen C <= zlen (layout bs) /\ 0 <= ver <= 1 /\
  (forall k b t, 0 <= k -> skipn (Z.to_nat k) bs = b :: t -> box_at ver k b t) /\
  UInv c (layout bs) bs C ver ver0 NS ND (mkUser (init c) 0 0) 0 0 (start bs).
Proof.
  intros Hc Hz HC H0 Hv. destruct HC as [sig ftyp v more rest C S1 S2 S3 F1 F2 F3 F4 F5 F6 F7 Hver R1 R2 R3 R4].
  assert (R0 : carries ver0 rest C).
  { destruct Hv as [->|(sg & ft & rest' & E & H)]; [exact R4|]. injection E as <- <- <-. exact H. }
  assert (Hall : Forall box_ok (sig :: ftyp :: rest)) by (constructor; [exact S1|constructor; [exact F1|exact R1]]).
  split; [apply layout_bytes, Hall|]. split.
  { rewrite !layout_cons, !zlen_app. pose proof (carries_size _ _ _ R4). pose proof (zlen_nonneg (b_head sig)). pose proof (zlen_nonneg (b_data sig)).
    pose proof (zlen_nonneg (b_head ftyp)). pose proof (zlen_nonneg (b_data ftyp)). lia. }
  split; [exact Hver|]. split.
  { intros k b t Hk E. assert (Hin : box_ok b).
    { rewrite Forall_forall in Hall. apply Hall. rewrite (skipn_split _ _ _ _ E). apply in_or_app. right. left. reflexivity. }
    destruct (Z.eq_dec k 0) as [->|N0]; [|destruct (Z.eq_dec k 1) as [->|N1]].
    - change (Z.to_nat 0) with O in E. injection E as <- <-. split; [exact Hin|]. split; [congruence|]. split; [auto|]. split; [lia|lia].
    - change (Z.to_nat 1) with 1%nat in E. injection E as <- <-. split; [exact Hin|]. split; [congruence|]. split; [lia|]. split; [|lia].
      intros _. split; [exact F2|]. split; [exact F3|]. exists v, more. auto.
    - replace (Z.to_nat k) with (S (S (Z.to_nat (k - 2)))) in E by lia. cbn [skipn] in E. pose proof (skipn_split _ _ _ _ E) as Er.
      split; [exact Hin|]. split; [intros U; eapply R3; eauto|]. split; [lia|]. split; [lia|]. intros _. rewrite Forall_forall in R2. apply R2. rewrite Er. apply in_or_app. right. left. reflexivity. }
  split; [|reflexivity]. cbn [u_dec]. set (bs := sig :: ftyp :: rest) in *. exists sig, bs.
  split; [split; [cbn; lia|]; split; [cbn; apply zlen_nonneg|reflexivity]|]. split; [split; [cbn; lia|]; split; reflexivity|].
  split; [|split].
  - exists 0, []. cbn [init d_jx d_last d_stage d_done d_win]. rewrite Hc. cbn [negb]. split; [|split; [reflexivity|]].
    + apply J_cons; [|rewrite S2; discriminate|rewrite S2; discriminate]. apply J_cons; [|rewrite F2; discriminate|rewrite F2; discriminate]. apply J_start, R0.
    + intros _. exists 0. split; [unfold Win; cbn; lia|]. cbn. repeat (split; [lia || reflexivity|]). discriminate.
  - unfold OutOK, start. cbn. destruct (want_box c); [|auto]. repeat (split; [first [reflexivity|discriminate]|]). discriminate.
  - split; [cbn; lia|]. split; [cbn; lia|]. split; [cbn; apply zlen_nonneg|]. split; [|split; reflexivity].
    intros _ _. split; [intros A; cbn in A; congruence|right; intros _; reflexivity].
Qed.

(* ---- a naked codestream ---- *)
Section Naked.
Variable c : config.
Variable C : list Z.
Variable ND : Prop.
Hypothesis Hhave : have_container c = false.
Hypothesis Hsize : zlen C < 2 ^ 46.

Definition NInv (d : dec) (p : Z) : Prop :=
  In_ok C d /\ j_total (d_jx d) = 0 /\ x_header (d_box d) = 0 /\
  (o_event (d_out d) = false /\ o_set (d_out d) = false /\ o_cur (d_out d) = false) /\
  match d_stage d with BHeader => True | BCodestream => x_unb (d_box d) = true | _ => False end /\
  (d_done d = false -> Win C (d_win d) p (file_pos d) /\ w_unc (d_win d) <= avail_in d /\ calm (d_win d)) /\
  (ND -> d_done d = false).

Lemma NInv_L d p : NInv d p -> d_done d = false -> d_stage d = BCodestream -> L C d p (file_pos d) (zlen C - file_pos d) /\ ac d (zlen C - file_pos d) = avail_in d.
Proof.
  intros (HI & HJ & HX & HO & HS & HW & _) Hd Hst. destruct (HW Hd) as (W1 & W2 & W3). pose proof HI as (I0 & I1 & I2). rewrite Hst in HS.
  pose proof (avail_nonneg d). assert (Ea : ac d (zlen C - file_pos d) = avail_in d) by (unfold ac; lia). split; [|exact Ea].
  split; [exact W1|]. split; [|split; [rewrite Ea; exact W2|split; lia]].
  split; [exact I0|]. split; [lia|]. split; [lia|]. split; [rewrite HS; lia|]. fold (ac d (zlen C - file_pos d)). rewrite Ea.
  unfold cut. replace (file_pos d + avail_in d - file_pos d) with (avail_in d) by lia. rewrite <- I2. apply take_all. unfold avail_in. lia.
Qed.

Lemma NInv_moved d p k w dn p' : NInv d p -> 0 <= k <= avail_in d -> d_stage d = BCodestream ->
  (dn = false -> Win C w p' (file_pos d + k) /\ w_unc w <= avail_in d - k /\ calm w) -> (ND -> dn = false) ->
  NInv (set_done (moved d k w) dn) p'.
Proof.
  intros (HI & HJ & HX & HO & HS & HW & _) Hk Hst Hw Hn. split; [apply (In_moved C d k w); assumption|]. split; [exact HJ|]. split; [exact HX|]. split; [exact HO|].
  split; [cbn; rewrite Hst in *; exact HS|]. split; [|exact Hn]. cbn [set_done d_done d_win].
  change (file_pos (set_done (moved d k w) dn)) with (file_pos d + k). change (avail_in (set_done (moved d k w) dn)) with (avail_in (moved d k w)). rewrite avail_moved by lia. exact Hw.
Qed.

Definition nstatus_ok (s : status) (d : dec) (p sh : Z) : Prop :=
  match s with
  | SCrash | SBox | SBoxMoreOutput | SBoxComplete => False
  | SError EParser => True
  | SError _ => False
  | SNeedInput => d_done d = false -> file_pos d + avail_in d = zlen C -> zlen C <= Z.max p sh
  | SSuccess => d_done d = true
  | _ => True
  end.

Lemma naked_codestream fuel acts d p sh : NInv d p -> d_stage d = BCodestream -> (ND -> Forall (fun a => a <> ADone) acts) ->
  let '(s, d', os) := handle_boxes c (S fuel) acts d in
  Forall cs_obs os /\ NInv d' (parser_at p os) /\ spans_ok C p os /\ nstatus_ok s d' (parser_at p os) (shown_to p sh os).
Proof.
  intros HN Hst HND. cbn [handle_boxes].
  pose proof HN as (HI & HJ & HX & (HO1 & HO2 & HO3) & HS & HW & Hnd). rewrite Hst in HS.
  assert (Ep : preamble c d = (SSuccess, d, [])).
  { unfold preamble. rewrite Hst. cbn [is_header]. rewrite HX. rewrite advance_input_moved by (pose proof (avail_nonneg d); lia). rewrite moved_0, set_win_same.
    unfold output_box. cbv zeta.
    assert (Eb : set_box d (mkBox (x_begin (d_box d)) (x_end (d_box d)) (x_size (d_box d)) 0 (x_unb (d_box d))) = d).
    { destruct d as [di [xb xe xs xh xu] dw dj do dst dc dl dd dcl]. cbn in *. subst xh. reflexivity. }
    rewrite Eb. rewrite HO1, andb_false_r. cbn [andb]. rewrite HO3, andb_false_r. destruct d; reflexivity. }
  rewrite Ep. unfold stage_step. rewrite Hst. unfold step_codestream. destruct (d_done d) eqn:Hd.
  { assert (E2 : process_codestream acts d = (SSuccess, d, acts, [])) by (destruct acts; cbn [process_codestream]; rewrite Hd; reflexivity).
    rewrite E2, HS. cbn. split; [constructor|]. split; [exact HN|]. split; [exact I|exact Hd]. }
  destruct (NInv_L d p HN Hd Hst) as [HL Ea].
  pose proof (process_codestream_L C acts d p _ _ HL Hd) as HP. unfold parse_post in HP.
  destruct (process_codestream acts d) as [[[s d1] rest] os]. destruct HP as (k & w & dn & -> & Hk & HL1 & Hsp & Hob & Hrest & Hs1 & Hcalm & Hstrict).
  destruct (HW eq_refl) as (_ & _ & Hcm). pose proof HL1 as (W1 & _ & U1 & _). cbn [moved set_win d_win] in W1, U1. rewrite (ac_moved C d (file_pos d)) in U1 by (try apply HL; exact Hk). rewrite Ea in *.
  assert (HN' : (ND -> dn = false) -> NInv (set_done (moved d k w) dn) (parser_at p os)).
  { intros X. apply (NInv_moved d p); auto. }
  change (x_unb (d_box (set_done (moved d k w) dn))) with (x_unb (d_box d)). rewrite HS. cbn [negb]. rewrite andb_false_r.
  destruct s as [|e| | | | | | |]; try contradiction; cbn [app].
  - destruct Hs1 as [-> Hin]. split; [exact Hob|]. split; [apply HN'; intros X; exfalso; specialize (HND X); rewrite Forall_forall in HND; apply (HND _ Hin); reflexivity|]. split; [exact Hsp|reflexivity].
  - destruct e; try contradiction.
    + exfalso. apply (proj2 Hs1), Hcm.
    + subst dn. split; [exact Hob|]. split; [apply HN'; auto|]. split; [exact Hsp|exact I].
  - destruct Hs1 as (-> & Ek & Uw & Hv). split; [exact Hob|]. split; [apply HN'; auto|]. split; [exact Hsp|]. cbn [nstatus_ok]. intros _ Hw.
    change (file_pos (set_done (moved d k w) false)) with (file_pos d + k) in Hw. change (avail_in (set_done (moved d k w) false)) with (avail_in (moved d k w)) in Hw. rewrite avail_moved in Hw by lia.
    specialize (Hv sh). lia.
  - subst dn. split; [exact Hob|]. split; [apply HN'; auto|]. split; [exact Hsp|exact I].
Qed.

Lemma naked_boxes fuel acts d p sh : NInv d p -> (ND -> Forall (fun a => a <> ADone) acts) ->
  let '(s, d', os) := handle_boxes c fuel acts d in
  Forall cs_obs os /\ NInv d' (parser_at p os) /\ spans_ok C p os /\ nstatus_ok s d' (parser_at p os) (shown_to p sh os).
Proof.
  intros HN HND. destruct fuel as [|fuel]; [cbn; split; [constructor|auto]|]. pose proof HN as (HI & HJ & HX & HO & HS & HW & Hnd).
  destruct (d_stage d) eqn:Hst; try contradiction; [|apply naked_codestream; assumption].
  cbn [handle_boxes]. unfold preamble. rewrite Hst. cbn [is_header]. unfold stage_step. rewrite Hst. unfold step_header. rewrite Hhave. cbn [negb]. destruct (d_done d) eqn:Hd.
  { cbn. split; [constructor|]. split; [exact HN|]. split; [exact I|exact Hd]. }
  cbv zeta. set (d1 := set_box _ _).
  assert (HN1 : NInv d1 p).
  { subst d1. split; [exact HI|]. split; [exact HJ|]. split; [exact HX|]. split; [exact HO|]. split; [reflexivity|]. split; [|cbn; rewrite Hd; auto]. cbn [set_box set_stage d_done d_win]. rewrite Hd. exact HW. }
  destruct fuel as [|fuel]; [cbn; split; [constructor|auto]|]. pose proof (naked_codestream fuel acts d1 p sh HN1 eq_refl HND) as H. destruct (handle_boxes c (S fuel) acts d1) as [[s d3] os3]. exact H.
Qed.

Definition NU (u : user) (p : Z) : Prop := NInv (u_dec u) p /\ u_at u + u_given u = file_pos (u_dec u) + avail_in (u_dec u).

Lemma naked_user u op p sh y NS : NU u p -> op_ok NS ND op -> y_room y = None -> y_on y = false ->
  let '(u', os) := user_step c C u op in
  delivered (want_complete c) y os y /\ NU u' (parser_at p os) /\ spans_ok C p os /\
  Forall (ret_ok 0 NS) os /\ end_ok C C u' (parser_at p os) (shown_to p sh os) os.
Proof.
  intros [HI Hu] Hop Hy1 Hy2. destruct u as [d at_ given]. cbn [u_dec u_at u_given] in *.
  assert (Same : delivered (want_complete c) y [] y /\ NU (mkUser d at_ given) (parser_at p []) /\ spans_ok C p [] /\
       Forall (ret_ok 0 NS) [] /\ end_ok C C (mkUser d at_ given) (parser_at p []) (shown_to p sh []) []).
  { split; [reflexivity|]. split; [split; assumption|]. split; [exact I|]. split; [constructor|]. intros [|? ?] s E; discriminate. }
  pose proof HI as (In & HJ & HX & (HO1 & HO2 & HO3) & HS & HW & Hnd). pose proof In as (I0 & I1 & I2). pose proof (avail_nonneg d) as Hav.
  destruct op as [k|fuel acts| |size| |n]; cbn [user_step u_dec u_at u_given].
  - destruct (d_closed d) eqn:Ec; [exact Same|]. unfold release_input, set_input. cbn [set_in d_closed]. rewrite Ec.
    replace (at_ + given - avail_in d) with (file_pos d) by lia.
    set (chunk := take (avail_in d + Z.max 0 k) (drop (file_pos d) C)).
    assert (Zc : zlen chunk = Z.min (avail_in d + Z.max 0 k) (zlen C - file_pos d)) by (subst chunk; rewrite zlen_take, zlen_drop by lia; lia).
    split; [reflexivity|]. split; [|split; [exact I|split; [constructor|intros [|? ?] s E; discriminate]]].
    split; [|reflexivity]. split; [split; [exact I0|split]|split; [exact HJ|split; [exact HX|split; [auto|split; [exact HS|split; [|exact Hnd]]]]]].
    + change (file_pos d + zlen chunk <= zlen C). lia.
    + change (chunk = take (zlen chunk) (drop (file_pos d) C)). rewrite Zc. subst chunk.
      destruct (Z.le_gt_cases (avail_in d + Z.max 0 k) (zlen C - file_pos d)) as [Hle|Hgt]; [rewrite Z.min_l by lia; reflexivity|rewrite Z.min_r by lia].
      rewrite !take_all; [reflexivity|rewrite zlen_drop by lia; lia|rewrite zlen_drop by lia; lia].
    + intros X. destruct (HW X) as (W1 & W2 & W3). split; [exact W1|]. split; [change (w_unc (d_win d) <= zlen chunk); lia|exact W3].
  - destruct Hop as [HNS HND]. unfold process_input. pose proof (naked_boxes fuel acts d p sh HI HND) as H. pose proof (tot_boxes c fuel acts d) as Htot.
    destruct (handle_boxes c fuel acts d) as [[s d'] os]. destruct H as (Hob & I' & S' & T). cbn [fst snd] in Htot. unfold tot in Htot.
    set (s' := match s with SNeedInput => if d_closed d' then SError EPremature else s | SSuccess => if d_done d' then s else SError ENeverFinished | _ => s end).
    rewrite parser_at_app, shown_app, spans_ok_app. cbn [parser_at shown_to spans_ok]. split; [|split; [|split; [auto|split]]].
    + eapply delivered_app; [apply delivered_cs, Hob|]. apply delivered_ret. subst s'. destruct s as [|e| | | | | | |]; cbn in T; try contradiction; try (apply other_list; exact I).
      * rewrite T. apply other_list; exact I.
      * destruct (d_closed d'); apply other_list; exact I.
    + split; [exact I'|]. cbn [u_dec u_at u_given]. lia.
    + apply Forall_app. split; [revert Hob; apply Forall_impl; intros [ | | | | |] X; try exact I; contradiction|]. constructor; [|constructor].
      subst s'. destruct s as [|e| | | | | | |]; cbn in T |- *; try exact I; try contradiction.
      * rewrite T. exact I.
      * destruct e; try exact I; contradiction.
      * destruct (d_closed d'); exact I.
    + intros os0 s0 E Hd. apply app_inj_tail in E. destruct E as [_ E]. injection E as <-. cbn [u_dec u_at u_given] in *.
      subst s'. destruct s as [|e| | | | | | |]; cbn [nstatus_ok] in T; try exact I; try contradiction.
      * congruence.
      * destruct e; try exact I; contradiction.
      * destruct (d_closed d'); intros A; apply T; auto; lia.
  - split; [reflexivity|]. split; [split; [exact HI|exact Hu]|]. split; [exact I|]. split; [constructor|intros [|? ?] s E; discriminate].
  - unfold set_box_buffer. rewrite HO1, HO2. exact Same.
  - unfold release_box_buffer. rewrite HO2. cbn [negb].
    split; [|split; [split; [exact HI|exact Hu]|split; [exact I|split; [repeat constructor|intros [|? [|? ?]] s E; discriminate]]]].
    destruct y as [yt yc yg yr yo]. cbn [y_room y_on] in *. subst. cbn [delivered]. eexists. split; [apply (del_release yt yc yg None)|split; [reflexivity|exact I]].
  - destruct (d_stage d) eqn:Es; try exact Same. destruct (can_skip d) eqn:Ec; [|exact Same]. clear Same.
    unfold can_skip in Ec. apply andb_true_iff in Ec. destruct Ec as [Ec _]. apply andb_true_iff in Ec. destruct Ec as [Ec Ew]. apply andb_true_iff in Ec. destruct Ec as [Ed _].
    apply negb_true_iff in Ed.
    assert (Hstrict : strict (d_win d)). { intros A. rewrite A in Ew. apply Z.eqb_eq in Ew. exact Ew. }
    destruct (NInv_L d p HI Ed Es) as [HL Ea]. destruct (HW Ed) as (_ & _ & Hcm).
    unfold skip_current_frame. destruct (advance_codestream_L C d p _ _ (Z.max 0 n) HL Hstrict ltac:(lia)) as (k & w & -> & Hk & HL1 & Hcalm & _).
    pose proof HL1 as (W1 & _ & U1 & _). cbn [moved set_win d_win] in W1, U1. rewrite (ac_moved C d (file_pos d)) in U1 by (try apply HL; exact Hk). rewrite Ea in *.
    cbn [parser_at shown_to spans_ok]. split; [cbn [delivered]; eexists; split; [apply del_other; exact I|split; [reflexivity|exact I]]|].
    split; [|split; [split; [lia|exact I]|split; [repeat constructor|intros [|? [|? ?]] s E0; discriminate]]].
    split; [|cbn [u_dec u_at u_given]; rewrite file_pos_moved, avail_moved by lia; lia]. cbn [u_dec].
    replace (moved d k w) with (set_done (moved d k w) false) by (rewrite <- Ed; reflexivity). apply (NInv_moved d p); auto.
Qed.

Lemma naked_start : NU (mkUser (init c) 0 0) 0.
Proof.
  split; [|reflexivity]. cbn [u_dec]. split; [split; [cbn; lia|split; [cbn; apply zlen_nonneg|reflexivity]]|]. split; [reflexivity|]. split; [reflexivity|]. split; [cbn; auto|]. split; [exact I|]. split; [|reflexivity].
  intros _. split; [unfold Win; cbn; lia|]. split; [cbn; lia|]. intros A. cbn in A. congruence.
Qed.

Lemma naked_run ops NS : forall u p sh y, NU u p -> Forall (op_ok NS ND) ops -> y_room y = None -> y_on y = false ->
  let '(u', os) := user_run c C u ops in
  delivered (want_complete c) y os y /\ NU u' (parser_at p os) /\ spans_ok C p os /\
    Forall (ret_ok 0 NS) os /\ (forall o, last ops (UFeed 0) = o -> (exists fuel acts, o = UProcess fuel acts) -> end_ok C C u' (parser_at p os) (shown_to p sh os) os).
Proof.
  induction ops as [|op ops IH]; intros u p sh y HU Hops Y1 Y2; cbn [user_run].
  { split; [reflexivity|]. split; [exact HU|]. split; [exact I|]. split; [constructor|]. intros o <- (? & ? & A). discriminate. }
  inversion Hops as [|? ? Hop Hops']; subst. pose proof (naked_user u op p sh y NS HU Hop Y1 Y2) as H1. destruct (user_step c C u op) as [u1 os1] eqn:E1.
  destruct H1 as (D1 & U1 & S1 & R1 & T1). specialize (IH u1 _ (shown_to p sh os1) y U1 Hops' Y1 Y2). destruct (user_run c C u1 ops) as [u2 os2] eqn:E2.
  destruct IH as (D2 & U2 & S2 & R2 & T2). rewrite parser_at_app, shown_app, spans_ok_app.
  split; [eapply delivered_app; eauto|]. split; [exact U2|]. split; [auto|]. split; [apply Forall_app; auto|].
  intros o El (fuel & acts & ->). destruct ops as [|op2 ops].
  - cbn in El, E2. injection E2 as <- <-. rewrite app_nil_r. exact T1.
  - change (last (op2 :: ops) (UFeed 0) = UProcess fuel acts) in El. specialize (T2 _ El (ex_intro _ fuel (ex_intro _ acts eq_refl))).
    intros os0 s E. destruct os2 as [|o2 os2] using rev_ind.
    + exfalso. eapply run_ends; [exact El|exact E2].
    + clear IHos2. rewrite app_assoc in E. apply app_inj_tail in E. destruct E as [_ ->]. apply (T2 os2). reflexivity.
Qed.
End Naked.
