(* Any file: what holds of the decoder's input whatever bytes it is given. *)
From Verif Require Import Base ListAux ContainerSpec ContainerModel ContainerProofs InpModel InpSpec InpWin InpParse InpJxlp InpInv InpMore.
Ltac Zify.zify_post_hook ::= idtac.

Section Any.
Variable c : config.
Variable file : list Z.
Hypothesis Hfile : bytes_ok file.
Hypothesis Hlen : zlen file < 2 ^ 46.

(* the input is a piece of the file, at the position the decoder thinks it is *)
Definition Inp (d : dec) : Prop :=
  0 <= file_pos d /\ file_pos d + avail_in d <= zlen file /\
  i_in (d_in d) = take (avail_in d) (drop (file_pos d) file).

Lemma inp_moved d n w : Inp d -> 0 <= n <= avail_in d -> Inp (moved d n w).
Proof.
  intros (A & B & E) H. unfold Inp. rewrite avail_moved, file_pos_moved by exact H. split; [lia|]. split; [lia|].
  change (drop n (i_in (d_in d)) = take (avail_in d - n) (drop (file_pos d + n) file)). rewrite E, drop_take by lia. f_equal. rewrite drop_drop by lia. reflexivity.
Qed.
Lemma inp_bytes d : Inp d -> bytes_ok (i_in (d_in d)).
Proof. intros (_ & _ & ->). apply bytes_ok_sub. exact Hfile. Qed.

Definition Wok (w : window) : Prop := (w_copy w = [] -> w_unc w = 0) /\ 0 <= w_unc w /\ 0 <= w_pos w.

(* inside a codestream box *)
Definition Q (d : dec) : Prop :=
  Inp d /\ Wok (d_win d) /\ w_unc (d_win d) <= avail_in d /\
  (x_unb (d_box d) = false -> file_pos d + w_unc (d_win d) <= x_end (d_box d)).

Lemma availQ d : Q d -> exists a, available_codestream d = Some a /\ w_unc (d_win d) <= a <= avail_in d /\ 0 <= a
  /\ (x_unb (d_box d) = false -> file_pos d + a <= x_end (d_box d)).
Proof.
  intros (I1 & (W1 & W2 & W3) & U & B). unfold available_codestream. destruct (x_unb (d_box d)) eqn:E.
  - exists (avail_in d). split; [reflexivity|]. pose proof (avail_nonneg d). split; [lia|]. split; [lia|]. discriminate.
  - specialize (B eq_refl). destruct (Z.ltb_spec (x_end (d_box d)) (file_pos d)); [lia|]. eexists. split; [reflexivity|]. pose proof (avail_nonneg d).
    split; [lia|]. split; [lia|]. intros _. lia.
Qed.

(* moving on by n, with what is left of the window *)
Lemma movedQ d n w : Q d -> 0 <= n <= avail_in d -> Wok w -> w_unc w <= avail_in d - n ->
  (x_unb (d_box d) = false -> file_pos d + n + w_unc w <= x_end (d_box d)) -> Q (moved d n w).
Proof.
  intros (I1 & W & U & B) H Hw Hu Hb. split; [apply inp_moved; assumption|]. split; [exact Hw|]. rewrite avail_moved by exact H. split; [exact Hu|exact Hb].
Qed.

Lemma wok_0 copy pos : 0 <= pos -> Wok (mkWin copy 0 pos).
Proof. intros H. repeat split; cbn; lia. Qed.
Lemma wok_pos copy unc pos : copy <> [] -> 0 <= unc -> 0 <= pos -> Wok (mkWin copy unc pos).
Proof. intros N H1 H2. split; [cbn; congruence|]. cbn. lia. Qed.

Lemma advQ d n : Q d -> 0 <= n -> exists d', advance_codestream d n = Some d' /\ Q d'.
Proof.
  intros H Hn. destruct (availQ d H) as (a & Ea & Ha & Ha0 & Hb). unfold advance_codestream. rewrite Ea. cbv zeta.
  pose proof H as (I1 & (W1 & W2 & W3) & U & B).
  destruct (copy_cases (d_win d)) as [E|[E El]].
  - rewrite E. specialize (W1 E). destruct (Z.leb_spec n a).
    + rewrite advance_input_moved by lia. eexists. split; [reflexivity|]. apply movedQ; [exact H|lia|split; [auto|auto]|lia|]. intros X. specialize (Hb X). lia.
    + rewrite advance_input_moved by (change (avail_in (set_win d (mkWin [] (w_unc (d_win d)) (n - a)))) with (avail_in d); lia). eexists. split; [reflexivity|].
      change (Q (moved d a (mkWin [] (w_unc (d_win d)) (n - a)))). rewrite W1. apply movedQ; [exact H|lia|apply wok_0; lia|cbn; lia|]. intros X. specialize (Hb X). cbn. lia.
  - destruct (w_copy (d_win d)) as [|z cp] eqn:Ec; [congruence|]. rewrite <- Ec in *. set (pos := w_pos (d_win d) + n). assert (Hp : 0 <= pos) by (unfold pos; lia). rewrite Z.geb_leb. destruct (Z.leb_spec (zlen (w_copy (d_win d))) (pos + w_unc (d_win d))) as [Hle|Hlt].
    + set (m := Z.min (w_unc (d_win d)) (w_unc (d_win d) + pos - zlen (w_copy (d_win d)))). assert (Hm : 0 <= m <= w_unc (d_win d)) by (unfold m; lia).
      rewrite advance_input_moved by lia. eexists. split; [reflexivity|]. change (Q (moved d m (mkWin [] 0 (pos - Z.min pos (zlen (w_copy (d_win d))))))).
      apply movedQ; [exact H|lia|apply wok_0; lia|cbn; lia|]. intros X. specialize (B X). cbn. lia.
    + eexists. split; [reflexivity|]. rewrite <- moved_0. apply movedQ; [exact H|lia|apply wok_pos; assumption|cbn; lia|]. intros X. specialize (B X). cbn. lia.
Qed.

Definition calmly (s : status) : Prop := s <> SCrash /\ s <> SSuccess.

Lemma reqQ d : Q d -> let '(s, d') := request_more_input d in calmly s /\ Q d' /\ (s = SNeedInput -> w_unc (d_win d') = 0).
Proof.
  intros H. destruct (availQ d H) as (a & Ea & Ha & Ha0 & Hb). pose proof H as (I1 & (W1 & W2 & W3) & U & B).
  unfold request_more_input. cbv zeta. destruct (w_copy (d_win d)) as [|z cp] eqn:Ec.
  - rewrite Ea. specialize (W1 eq_refl). destruct (negb _); [split; [split; discriminate|split; [exact H|discriminate]]|].
    rewrite advance_input_moved by (match goal with |- _ <= _ <= ?x => change x with (avail_in d) end; lia).
    split; [split; discriminate|]. rewrite W1. match goal with |- Q ?x /\ _ => change x with (moved d a (mkWin (take a (i_in (d_in d))) 0 (w_pos (d_win d)))) end.
    split; [|reflexivity]. apply movedQ; [exact H|lia|apply wok_0; lia|cbn; lia|]. intros X. specialize (Hb X). cbn. lia.
  - rewrite advance_input_moved by lia. split; [split; discriminate|]. match goal with |- Q ?x /\ _ => change x with (moved d (w_unc (d_win d)) (mkWin (z :: cp) 0 (w_pos (d_win d)))) end.
    split; [|reflexivity]. apply movedQ; [exact H|lia|apply wok_0; lia|cbn; lia|]. intros X. specialize (B X). cbn. lia.
Qed.

Definition getting (r : get_result) : Prop :=
  match r with
  | GSpan _ d' => Q d'
  | GStop s d' => calmly s /\ Q d' /\ (s = SNeedInput -> w_unc (d_win d') = 0)
  end.
Lemma winQ d : Q d -> getting (get_window d).
Proof.
  intros H. destruct (availQ d H) as (a & Ea & Ha & Ha0 & Hb). pose proof H as (I1 & (W1 & W2 & W3) & U & B).
  assert (Ee : forall e, getting (GStop (SError e) d)) by (intros e; split; [split; discriminate|split; [exact H|discriminate]]).
  unfold get_window. cbv zeta. destruct (_ >? _); [apply Ee|]. destruct (_ >? _); [apply Ee|]. rewrite Ea.
  destruct (w_copy (d_win d)) as [|z cp] eqn:Ec.
  - destruct (a =? 0); [|exact H]. pose proof (reqQ d H) as R. destruct (request_more_input d) as [s d']. exact R.
  - destruct (negb _); [apply Ee|]. cbn [getting]. rewrite <- moved_0. apply movedQ; [exact H|lia| |cbn; lia|].
    + apply wok_pos; [|exact Ha0|exact W3]. discriminate.
    + intros X. specialize (Hb X). cbn. lia.
Qed.
Lemma getQ d : Q d -> getting (get_codestream_input d).
Proof.
  intros H. destruct (availQ d H) as (a & Ea & Ha & Ha0 & Hb). pose proof H as (I1 & (W1 & W2 & W3) & U & B).
  unfold get_codestream_input. cbv zeta. destruct (w_copy (d_win d)) as [|z cp] eqn:Ec; [|apply winQ; exact H].
  destruct (_ >? 0) eqn:Ep; [|apply winQ; exact H]. rewrite Ea, advance_input_moved by lia. specialize (W1 eq_refl).
  set (d2 := set_win _ _). assert (H2 : Q d2).
  { change d2 with (moved d (Z.min (w_pos (d_win d)) a) (mkWin [] (w_unc (d_win d)) (w_pos (d_win d) - Z.min (w_pos (d_win d)) a))). rewrite W1.
    apply movedQ; [exact H|lia|apply wok_0; lia|cbn; lia|]. intros X. specialize (Hb X). cbn. lia. }
  clear Ep. destruct (_ >? 0); [|apply winQ; exact H2]. pose proof (reqQ d2 H2) as R. destruct (request_more_input d2) as [s d']. exact R.
Qed.
Lemma insideQ inside : forall d left, Q d -> 0 <= left -> exists d' os, advance_inside d inside left = Some (d', os) /\ Q d'.
Proof.
  induction inside as [|n r IH]; intros d left H Hl; cbn [advance_inside]; [eauto|].
  destruct (advQ d (Z.min (Z.max 0 n) left) H ltac:(lia)) as (d' & -> & H'). destruct (IH d' (left - Z.min (Z.max 0 n) left) H' ltac:(lia)) as (d2 & os & -> & H2). eauto.
Qed.

Lemma processQ acts : forall d, Q d -> d_done d = false ->
  let '(s, d1, _, _) := process_codestream acts d in
  s <> SCrash /\ Q d1 /\ (s = SNeedInput -> w_unc (d_win d1) = 0) /\ (s = SSuccess -> d_done d1 = true).
Proof.
  assert (Dc : forall d n d', advance_codestream d n = Some d' -> d_done d' = d_done d).
  { intros d n d'. assert (Di : forall d n d', advance_input d n = Some d' -> d_done d' = d_done d).
    { intros d0 m d0'. unfold advance_input. destruct (_ || _); [discriminate|]. intros E. apply Some_inj in E. subst. reflexivity. }
    unfold advance_codestream. destruct (available_codestream d) as [a|]; [|discriminate]. cbv zeta. destruct (w_copy _); [destruct (_ <=? _); intros E; apply Di in E; exact E|].
    destruct (_ >=? _); [|intros E; apply Some_inj in E; subst; reflexivity]. destruct (advance_input d _) as [d1|] eqn:E1; [|discriminate]. apply Di in E1. intros E. apply Some_inj in E. subst. exact E1. }
  induction acts as [|x acts IH]; intros d H Hd; cbn [process_codestream]; rewrite Hd; [split; [discriminate|]; split; [exact H|]; split; discriminate|].
  destruct x as [inside skip e| |].
  - pose proof (getQ d H) as G. pose proof (keeps_get d) as Kg. destruct (get_codestream_input d) as [span d1|s d1] eqn:Eg; cbn [getting] in G.
    + destruct (insideQ inside d1 (zlen span) G (zlen_nonneg _)) as (d2 & os & E2 & H2). rewrite E2.
      assert (D1 : d_done d1 = false).
      { rewrite <- Hd. clear - Eg. unfold get_codestream_input, get_window in Eg. cbv zeta in Eg.
        repeat match type of Eg with
        | (match ?x with _ => _ end) = _ => let E := fresh in destruct x eqn:E; try discriminate
        | GSpan _ _ = GSpan _ _ => injection Eg as <- <-
        end; try reflexivity;
        match goal with E : advance_input _ _ = Some _ |- _ => unfold advance_input in E; destruct (_ || _) in E; [discriminate|]; apply Some_inj in E; subst; reflexivity end. }
      assert (D2 : d_done d2 = false).
      { rewrite <- D1. clear - E2 Dc. revert d1 d2 os E2. generalize (zlen span). induction inside as [|n r IHr]; intros left d1 d2 os; cbn [advance_inside]; [congruence|].
        destruct (advance_codestream d1 _) as [d'|] eqn:E; [|discriminate]. destruct (advance_inside d' r _) as [[d3 os3]|] eqn:E3; [|discriminate]. intros X. injection X as <- _.
        rewrite (IHr _ _ _ _ E3). exact (Dc _ _ _ E). }
      destruct e.
      * destruct (advQ d2 (Z.max 0 skip) H2 ltac:(lia)) as (d3 & E3 & H3). rewrite E3. specialize (IH d3 H3 ltac:(rewrite (Dc _ _ _ E3); exact D2)).
        destruct (process_codestream acts d3) as [[[s d4] rest] os']. exact IH.
      * pose proof (reqQ d2 H2) as R. destruct (request_more_input d2) as [s d3]. destruct R as ([R1 R2] & R3 & R4). split; [exact R1|]. split; [exact R3|]. split; [exact R4|]. contradiction.
      * destruct (advQ d2 (Z.max 0 skip) H2 ltac:(lia)) as (d3 & E3 & H3). rewrite E3. split; [discriminate|]. split; [exact H3|]. split; discriminate.
    + destruct G as ([G1 G2] & G3 & G4). split; [exact G1|]. split; [exact G3|]. split; [exact G4|]. contradiction.
  - split; [discriminate|]. split; [exact H|]. split; [discriminate|reflexivity].
  - split; [discriminate|]. split; [exact H|]. split; discriminate.
Qed.

(* between calls and between rounds of the loop *)
Record Any (d : dec) : Prop := {
  a_inp : Inp d;
  a_wok : Wok (d_win d);
  a_naked : naked_ok c d;
  a_box : d_stage d <> BHeader -> 0 <= x_header (d_box d) <= avail_in d /\
          (x_unb (d_box d) = false -> file_pos d + x_header (d_box d) <= x_end (d_box d));
  a_fresh : d_stage d = BFtyp \/ d_stage d = BPartial -> x_unb (d_box d) = false ->
            file_pos d + x_header (d_box d) + x_size (d_box d) = x_end (d_box d);
  a_unc : d_done d = true \/ w_unc (d_win d) = 0 \/
          (d_stage d = BCodestream /\ x_header (d_box d) = 0 /\ w_unc (d_win d) <= avail_in d /\
           (x_unb (d_box d) = false -> file_pos d + w_unc (d_win d) <= x_end (d_box d))) }.

Lemma any_Q d : Any d -> d_stage d = BCodestream -> x_header (d_box d) = 0 -> d_done d = false -> Q d.
Proof.
  intros [A1 A2 A3 A4 A5 A6] Es Eh Ed. specialize (A4 ltac:(congruence)). rewrite Eh in A4. pose proof (avail_nonneg d). split; [exact A1|]. split; [exact A2|].
  destruct A6 as [X|[X|(_ & _ & X & Y)]]; [congruence| |split; assumption]. rewrite X. split; [lia|]. intros Eu. destruct A4 as [_ A4]. specialize (A4 Eu). lia.
Qed.
Lemma Q_any d d' : Any d -> d_stage d = BCodestream -> x_header (d_box d) = 0 -> keeps d d' -> Q d' -> Any d'.
Proof.
  intros [A1 A2 A3 A4 A5 A6] Es Eh (K1 & K2 & K3 & K4) (I1 & W & U & B). pose proof (avail_nonneg d'). destruct W as (W1 & W2 & W3).
  constructor; rewrite ?K4, ?K2, ?Es, ?Eh.
  - exact I1.
  - repeat split; assumption.
  - unfold naked_ok in *. rewrite K2, K4. exact A3.
  - intros _. split; [lia|]. rewrite <- K2. intros X. specialize (B X). lia.
  - intros [X|X]; discriminate.
  - right. right. rewrite <- K2. repeat split; assumption.
Qed.
Lemma any_out d o : Any d -> Any (set_out d o).
Proof. intros [A1 A2 A3 A4 A5 A6]. constructor; assumption. Qed.

Definition calm_step (r : step) : Prop :=
  match r with Go d2 _ _ => Any d2 | Stop s d2 _ _ => s <> SCrash /\ ((exists e, s = SError e) \/ Any d2) end.
Lemma stop_same s d acts os : Any d -> s <> SCrash -> calm_step (Stop s d acts os).
Proof. intros A N. split; [exact N|]. right. exact A. Qed.
Lemma stop_err e d acts os : calm_step (Stop (SError e) d acts os).
Proof. split; [discriminate|]. left. eauto. Qed.

Lemma box_ok_parse d : Inp d -> exists r, parse_box_header (i_in (d_in d)) 0 (file_pos d) = Some r /\
  match r with BoxOk n t h => 8 <= h <= avail_in d /\ (n = 0 \/ h <= n) | _ => True end.
Proof.
  intros A. pose proof A as (A1 & A2 & _). destruct (parse_exact (i_in (d_in d)) 0 (file_pos d)) as (r & E & R).
  - apply inp_bytes. exact A.
  - fold (avail_in d). lia.
  - pose proof (avail_nonneg d). unfold avail_in in *. lia.
  - pose proof (avail_nonneg d). lia.
  - exists r. split; [exact E|]. destruct r as [k| |n t h]; [exact I|exact I|]. pose proof (header_pos _ _ _ _ _ E). destruct R as [R1 R2].
    split; [|destruct R2 as (R2 & _); lia]. split; [lia|].
    change (skipn (Z.to_nat 0) (i_in (d_in d))) with (i_in (d_in d)) in R1. unfold avail_in. clear - R1.
    inversion R1 as [sz t0 r0 E L1 L2 _|sz t0 sz64 r0 E L1 L2 L3 _]; rewrite E, !zlen_app; pose proof (zlen_nonneg r0); unfold zlen in *; lia.
Qed.

Lemma header_any acts d : Any d -> d_stage d = BHeader -> calm_step (step_header c acts d).
Proof.
  intros A Es. pose proof A as [A1 A2 A3 A4 A5 A6]. unfold step_header. destruct (have_container c) eqn:Hc; cbn [negb].
  2:{ destruct (d_done d) eqn:Ed; [apply stop_same; [exact A|discriminate]|]. cbn [calm_step]. cbv zeta.
      destruct (A3 Hc) as [Ex _]. pose proof (avail_nonneg d). destruct A6 as [X|[X|(X & _)]]; [congruence| |congruence].
      constructor; cbn [set_box set_stage d_in d_win d_stage d_box d_done x_header x_unb x_begin x_end x_size].
      - exact A1.
      - exact A2.
      - intros _. split; [exact Ex|right; split; reflexivity].
      - intros _. rewrite Ex. split; [match goal with |- _ <= _ <= ?z => change z with (avail_in d) end; lia|discriminate].
      - discriminate.
      - right. left. exact X. }
  assert (U : d_done d = true \/ w_unc (d_win d) = 0) by (destruct A6 as [X|[X|(X & _)]]; [auto|auto|congruence]).
  destruct (avail_in d =? 0); [destruct (negb _); [apply stop_same; [exact A|discriminate]|]; destruct (d_closed d); [apply stop_same; [exact A|discriminate]|]; destruct (negb _); apply stop_same; (exact A || discriminate)|].
  cbv zeta. set (bd := want_box c && d_done d && d_last d). destruct (bd && _ && _); [apply stop_same; [exact A|discriminate]|].
  destruct (box_ok_parse d A1) as (r & E & R). rewrite E. destruct r as [k| |n t h]; [apply stop_same; [exact A|discriminate]|apply stop_err|].
  destruct R as [Rh Rn]. destruct (same t t_brob && _); [apply stop_same; [exact A|discriminate]|].
  set (d0 := set_count d (d_count d + 1)). assert (A0 : Any d0) by (constructor; assumption).
  destruct (bd && same t t_jxl); [apply stop_same; [exact A0|discriminate]|]. destruct ((d_count d0 =? 2) && _); [apply stop_err|]. destruct (same t t_ftyp && _); [apply stop_err|].
  set (d1 := set_box d0 _). set (d2 := if want_box c then _ else d1). destruct (same t t_jxlc && _); [apply stop_err|].
  assert (Ho : exists o, d2 = set_out d1 o) by (unfold d2; destruct (want_box c); [eauto|exists (d_out d1); reflexivity]). clearbody d2. destruct Ho as [o ->].
  set (d3 := if same t t_ftyp then _ else _).
  assert (A9 : Any d3).
  { assert (G : forall st l, Any (set_stage (set_last (set_out d1 o) l) st)).
    { intros st l. constructor; unfold d1, d0; cbn [set_stage set_last set_out set_box set_count d_in d_win d_stage d_box d_done x_header x_unb x_begin x_end x_size].
      - exact A1.
      - exact A2.
      - intros X. congruence.
      - intros _. split; [match goal with |- _ <= _ <= ?z => change z with (avail_in d) end; lia|]. intros X. rewrite X. match goal with |- ?z + _ <= ?y + _ => change z with (file_pos d); change y with (file_pos d) end. destruct (Z.eqb_spec n 0); [discriminate|]. lia.
      - intros _ X. rewrite X. match goal with |- ?z + _ + _ = ?y + _ => change z with (file_pos d); change y with (file_pos d) end. lia.
      - destruct U as [U|U]; [left; exact U|right; left; exact U]. }
    unfold d3. destruct (same t t_ftyp); [exact (G BFtyp (d_last d))|]. destruct (same t t_jxlc); [exact (G BCodestream true)|]. destruct (same t t_jxlp); [exact (G BPartial (d_last d))|exact (G BSkip (d_last d))]. }
  destruct (want_box c); [|exact A9]. apply stop_same; [|discriminate]. apply any_out. exact A9.
Qed.

(* moving on by n bytes of a box that is not at its header *)
Lemma any_moved d n st : Any d -> d_stage d <> BHeader -> d_stage d <> BCodestream -> x_header (d_box d) = 0 -> 0 <= n <= avail_in d ->
  (st <> BHeader -> x_unb (d_box d) = false -> file_pos d + n <= x_end (d_box d)) -> st <> BFtyp -> st <> BPartial -> (have_container c = false -> False) ->
  Any (set_stage (moved d n (d_win d)) st).
Proof.
  intros A Es Ec Eh Hn Hb N1 N2 Hc. pose proof A as [A1 A2 A3 A4 A5 A6].
  assert (U : d_done d = true \/ w_unc (d_win d) = 0) by (destruct A6 as [X|[X|(X & _)]]; [auto|auto|congruence]).
  constructor; cbn [set_stage moved set_win set_in d_in d_win d_stage d_box d_done].
  - apply (inp_moved d n (d_win d)); assumption.
  - exact A2.
  - intros X. destruct (Hc X).
  - intros N. rewrite Eh. match goal with |- (_ <= _ <= ?z) /\ (_ -> ?y + 0 <= _) => change z with (avail_in (moved d n (d_win d))); change y with (file_pos d + n) end.
    rewrite avail_moved by exact Hn. split; [lia|]. intros X. specialize (Hb N X). lia.
  - intros [X|X]; contradiction.
  - destruct U as [U|U]; [left; exact U|right; left; exact U].
Qed.
Lemma container_of d : Any d -> d_stage d <> BHeader -> d_stage d <> BCodestream -> have_container c = false -> False.
Proof. intros A N1 N2 E. destruct (a_naked d A E) as [_ [X|[X _]]]; contradiction. Qed.

Lemma any_jx d j : Any d -> Any (set_jx d j).
Proof. intros [A1 A2 A3 A4 A5 A6]. constructor; assumption. Qed.
Lemma any_last d l : Any d -> Any (set_last d l).
Proof. intros [A1 A2 A3 A4 A5 A6]. constructor; assumption. Qed.

Lemma ftyp_any acts d : Any d -> d_stage d = BFtyp -> x_header (d_box d) = 0 -> calm_step (step_ftyp acts d).
Proof.
  intros A Es Eh. unfold step_ftyp. destruct (Z.ltb_spec (x_size (d_box d)) 12); [apply stop_err|].
  destruct (Z.ltb_spec (avail_in d) 8); [apply stop_same; [exact A|discriminate]|]. destruct (negb _); [apply stop_err|]. cbv zeta. destruct (_ >? 1); [apply stop_err|].
  set (d1 := set_jx d _). assert (A1 : Any d1) by (apply any_jx; exact A). rewrite advance_input_moved by (change (avail_in d1) with (avail_in d); lia). cbn [calm_step].
  apply any_moved; try discriminate; try exact A1.
  - change (d_stage d1) with (d_stage d). congruence.
  - change (d_stage d1) with (d_stage d). congruence.
  - exact Eh.
  - change (avail_in d1) with (avail_in d). lia.
  - intros _ X. pose proof (a_fresh d1 A1 (or_introl Es) X) as F. change (d_box d1) with (d_box d) in *. lia.
  - apply (container_of d A); congruence.
Qed.
Lemma partial_any acts d : Any d -> d_stage d = BPartial -> x_header (d_box d) = 0 -> calm_step (step_partial acts d).
Proof.
  intros A Es Eh. unfold step_partial. destruct (d_last d); [apply stop_err|]. destruct (Z.ltb_spec (avail_in d) 4); [apply stop_same; [exact A|discriminate]|].
  destruct (negb (x_unb (d_box d)) && (x_size (d_box d) <? 4)) eqn:E4; [apply stop_err|]. cbv zeta. destruct (_ <? j_next _); [apply stop_err|].
  assert (M : forall st, st <> BFtyp -> st <> BPartial -> Any (set_stage (moved d 4 (d_win d)) st)).
  { intros st N1 N2. apply any_moved; try assumption; try congruence; try lia.
    - intros _ X. pose proof (a_fresh d A (or_intror Es) X) as F. rewrite X in E4. cbn [negb andb] in E4. destruct (Z.ltb_spec (x_size (d_box d)) 4); [discriminate|]. lia.
    - apply (container_of d A); congruence. }
  rewrite advance_input_moved by lia. destruct (_ =? j_next _).
  - cbn [calm_step]. match goal with |- Any (set_stage (if ?b then _ else ?x) _) => destruct b end.
    + exact (any_last _ true (any_jx _ _ (M BCodestream ltac:(discriminate) ltac:(discriminate)))).
    + exact (any_jx _ _ (M BCodestream ltac:(discriminate) ltac:(discriminate))).
  - destruct (1 <=? _); [|apply stop_err]. destruct (2 ^ 20 <=? _); [apply stop_err|]. destruct (ooo_find _ _); [apply stop_err|].
    exact (any_jx _ _ (M BBuffering ltac:(discriminate) ltac:(discriminate))).
Qed.
Lemma skip_any acts d : Any d -> d_stage d = BSkip -> x_header (d_box d) = 0 -> calm_step (step_skip acts d).
Proof.
  intros A Es Eh. pose proof (avail_nonneg d) as Ha. destruct (a_box d A ltac:(congruence)) as [_ B]. rewrite Eh in B.
  assert (M : forall n st, 0 <= n <= avail_in d -> (x_unb (d_box d) = false -> file_pos d + n <= x_end (d_box d)) -> st = BSkip \/ st = BHeader -> Any (set_stage (moved d n (d_win d)) st)).
  { intros n st Hn Hb Hst. apply any_moved; try assumption; try congruence; try (destruct Hst; congruence); [intros _; exact Hb|]. apply (container_of d A); congruence. }
  assert (MS : forall n, moved d n (d_win d) = set_stage (moved d n (d_win d)) BSkip) by (intros n; unfold moved, set_stage, set_win, set_in; cbn; rewrite <- Es; reflexivity).
  unfold step_skip. destruct (x_unb (d_box d)) eqn:Eu.
  - destruct (d_closed d); [apply stop_same; [exact A|discriminate]|]. destruct (negb _); [apply stop_same; [exact A|discriminate]|].
    rewrite advance_input_moved by lia. rewrite MS. apply stop_same; [|discriminate]. apply M; [lia|discriminate|auto].
  - specialize (B eq_refl). cbv zeta. destruct (Z.ltb_spec (x_end (d_box d) - file_pos d) 0); [lia|]. destruct (Z.ltb_spec (avail_in d) (x_end (d_box d) - file_pos d)).
    + rewrite advance_input_moved by lia. rewrite MS. apply stop_same; [|discriminate]. apply M; [lia|lia|auto].
    + rewrite advance_input_moved by lia. apply M; [lia|lia|auto].
Qed.
Lemma buffering_any acts d : Any d -> d_stage d = BBuffering -> x_header (d_box d) = 0 -> calm_step (step_buffering acts d).
Proof.
  intros A Es Eh. pose proof (avail_nonneg d) as Ha. destruct (a_box d A ltac:(congruence)) as [_ B]. rewrite Eh in B. unfold step_buffering.
  assert (V : exists a, available_codestream d = Some a /\ 0 <= a <= avail_in d /\ (x_unb (d_box d) = false -> file_pos d + a <= x_end (d_box d))).
  { unfold available_codestream. destruct (x_unb (d_box d)); [exists (avail_in d); split; [reflexivity|]; split; [lia|discriminate]|]. specialize (B eq_refl).
    destruct (Z.ltb_spec (x_end (d_box d)) (file_pos d)); [lia|]. eexists. split; [reflexivity|]. split; [lia|]. intros _. lia. }
  destruct V as (a & -> & V1 & V2). destruct (negb (can_add_buffer d a)); [apply stop_err|]. cbv zeta. set (d1 := set_jx d _).
  assert (A1 : Any d1) by (apply any_jx; exact A). rewrite advance_input_moved by (change (avail_in d1) with (avail_in d); lia).
  assert (M : forall st, st = BBuffering \/ st = BHeader -> Any (set_stage (moved d1 a (d_win d1)) st)).
  { intros st Hst. apply any_moved; try exact A1; try (destruct Hst; congruence).
    - change (d_stage d1) with (d_stage d). congruence.
    - change (d_stage d1) with (d_stage d). congruence.
    - exact Eh.
    - exact V1.
    - intros _. exact V2.
    - apply (container_of d A); congruence. }
  destruct (_ && _); [apply M; auto|]. apply stop_same; [|discriminate].
  replace (moved d1 a (d_win d1)) with (set_stage (moved d1 a (d_win d1)) BBuffering); [apply M; auto|]. unfold moved, set_stage, set_win, set_in, d1. cbn. rewrite <- Es. reflexivity.
Qed.
Lemma codestream_any acts d : Any d -> d_stage d = BCodestream -> x_header (d_box d) = 0 -> calm_step (step_codestream c acts d).
Proof.
  intros A Es Eh. unfold step_codestream. pose proof (keeps_process acts d) as K.
  assert (P : let '(s, d1, _, _) := process_codestream acts d in
    s <> SCrash /\ Any d1 /\ (s = SNeedInput -> w_unc (d_win d1) = 0) /\ (s = SSuccess -> d_done d1 = true)).
  { destruct (d_done d) eqn:Ed.
    - destruct acts; cbn [process_codestream]; rewrite Ed; (split; [discriminate|]; split; [exact A|]; split; [discriminate|auto]).
    - pose proof (processQ acts d (any_Q d A Es Eh Ed) Ed) as P. destruct (process_codestream acts d) as [[[s d1] rest] os]. destruct P as (P1 & P2 & P3 & P4).
      split; [exact P1|]. split; [apply (Q_any d); assumption|]. split; assumption. }
  destruct (process_codestream acts d) as [[[s d1] rest] os]. cbn [fst snd] in K. destruct P as (P1 & P2 & P3 & P4). destruct K as (K1 & K2 & K3 & K4).
  destruct s; try (apply stop_same; [exact P2|discriminate]); try contradiction.
  - specialize (P4 eq_refl). destruct (x_unb (d_box d1)) eqn:Eu; [apply stop_same; [exact P2|discriminate]|]. destruct (want_box c); [|apply stop_same; [exact P2|discriminate]].
    cbn [calm_step]. pose proof P2 as [A1 A2 A3 A4 A5 A6]. constructor; cbn [set_stage d_in d_win d_stage d_box d_done]; try assumption.
    + intros X. destruct (A3 X) as [_ [Y|[_ Y]]]; congruence.
    + intros _. apply A4. congruence.
    + intros [X|X]; discriminate.
    + left. exact P4.
  - specialize (P3 eq_refl). destruct (Z.eqb_spec (file_pos d1) (x_end (d_box d1))) as [Ef|Ef]; [|apply stop_same; [exact P2|discriminate]]. destruct (x_unb (d_box d1)) eqn:Eu; [apply stop_same; [exact P2|discriminate]|]. cbn [negb andb].
    assert (Nk : have_container c = false -> False) by (intros X; destruct (a_naked d1 P2 X) as [_ [Y|[_ Y]]]; congruence).
    pose proof P2 as [A1 A2 A3 A4 A5 A6]. unfold inject_next. cbv zeta. destruct (ooo_find _ _) as [[data l]|].
    + cbn [calm_step]. apply any_jx. enough (X : Any (set_win d1 (mkWin (w_copy (d_win d1) ++ data) (w_unc (d_win d1)) (w_pos (d_win d1))))) by (destruct l; [apply any_last|]; exact X).
      constructor; cbn [set_win d_in d_win d_stage d_box d_done]; try assumption.
      rewrite P3. apply wok_0. apply A2.
    + cbn [calm_step]. constructor; cbn [set_stage d_in d_win d_stage d_box d_done]; try assumption.
      * intros X. destruct (Nk X).
      * congruence.
      * intros [X|X]; discriminate.
      * right. left. exact P3.
Qed.
Lemma stage_any acts d : Any d -> pending d = 0 -> calm_step (stage_step c acts d).
Proof.
  intros A P. unfold stage_step, pending in *. destruct (d_stage d) eqn:Es; cbn [is_header] in P.
  - apply header_any; assumption.
  - apply ftyp_any; assumption.
  - apply skip_any; assumption.
  - apply codestream_any; assumption.
  - apply partial_any; assumption.
  - apply buffering_any; assumption.
Qed.
Lemma preamble_any d : Any d -> let '(s, d1, _) := preamble c d in
  s <> SCrash /\ ((exists e, s = SError e) \/ (Any d1 /\ (s = SSuccess -> pending d1 = 0))).
Proof.
  intros A. unfold preamble. destruct (d_stage d) eqn:Es; cbn [is_header];
    [split; [discriminate|]; right; split; [exact A|]; intros _; unfold pending; rewrite Es; reflexivity|..].
  all: assert (N : d_stage d <> BHeader) by congruence; destruct (a_box d A N) as [B1 B2]; rewrite advance_input_moved by lia; set (d1 := set_box _ _).
  all: assert (A1 : Any d1) by (
    pose proof A as [A1 A2 A3 A4 A5 A6]; unfold d1; constructor; cbn [set_box moved set_win set_in d_in d_win d_stage d_box d_done x_header x_unb x_begin x_end x_size];
    [apply (inp_moved d _ (d_win d)); assumption
    |exact A2
    |intros X; destruct (A3 X) as [Y1 Y2]; split; [reflexivity|exact Y2]
    |intros _; match goal with |- (_ <= _ <= ?z) /\ (_ -> ?y + 0 <= _) => change z with (avail_in (moved d (x_header (d_box d)) (d_win d))); change y with (file_pos d + x_header (d_box d)) end;
      rewrite avail_moved by lia; split; [lia|]; intros X; specialize (B2 X); lia
    |intros X Y; specialize (A5 X Y); match goal with |- ?y + 0 + _ = _ => change y with (file_pos d + x_header (d_box d)) end; lia
    |destruct A6 as [X|[X|(X1 & X2 & X3 & X4)]]; [left; exact X|right; left; exact X|right; right];
      match goal with |- _ /\ _ /\ _ <= ?z /\ (_ -> ?y + _ <= _) => change z with (avail_in (moved d (x_header (d_box d)) (d_win d))); change y with (file_pos d + x_header (d_box d)) end;
      rewrite avail_moved by lia; rewrite X2; rewrite Z.sub_0_r, Z.add_0_r; repeat split; assumption]).
  all: assert (P1 : forall o, pending (set_out d1 o) = 0) by (intros o; unfold pending, d1; cbn; destruct (is_header _); reflexivity).
  all: unfold output_box; cbv zeta; destruct (want_box c && o_cur _); [|split; [discriminate|]; right; split; [apply any_out; exact A1|]; intros _; apply P1].
  all: match goal with |- context [content_process ?o ?i ?p] => pose proof (eq_refl (content_process o i p)) as E0; unfold content_process at 1 in E0; destruct (content_process o i p) as [[s o'] data] end.
  all: cbv zeta in E0; repeat match type of E0 with (if ?b then _ else _) = _ => destruct b end; inversion E0; subst; clear E0.
  all: try (split; [discriminate|]; left; eexists; reflexivity).
  all: try destruct (want_complete c); (split; [discriminate|]; right; split; [apply any_out; exact A1|]; intros _; apply P1).
Qed.
Lemma boxes_any fuel : forall acts d, Any d -> let '(s, d1, _) := handle_boxes c fuel acts d in s <> SCrash /\ ((exists e, s = SError e) \/ Any d1).
Proof.
  induction fuel as [|fuel IH]; intros acts d A; cbn [handle_boxes]; [split; [discriminate|right; exact A]|].
  pose proof (preamble_any d A) as P. destruct (preamble c d) as [[s d1] os1]. destruct P as [P1 P2].
  destruct s; try (split; [assumption|]; destruct P2 as [P2|[P2 _]]; [left; exact P2|right; exact P2]).
  destruct P2 as [[e P2]|[P2 P3]]; [discriminate|]. pose proof (stage_any acts d1 P2 (P3 eq_refl)) as S. destruct (stage_step c acts d1) as [d2 rest os2|s2 d2 rest os2].
  - specialize (IH rest d2 S). destruct (handle_boxes c fuel rest d2) as [[s3 d3] os3]. exact IH.
  - exact S.
Qed.

(* the observations of a call before it returns *)
Definition quiet (o : obs) : Prop := match o with ORet _ => False | _ => True end.
Lemma quiet_inside inside : forall d left, match advance_inside d inside left with Some (_, os) => Forall quiet os | None => True end.
Proof.
  induction inside as [|n r IH]; intros d left; cbn [advance_inside]; [constructor|]. destruct (advance_codestream _ _) as [d'|]; [|exact I].
  specialize (IH d' (left - Z.min (Z.max 0 n) left)). destruct (advance_inside _ _ _) as [[d2 os]|]; [|exact I]. constructor; [exact I|exact IH].
Qed.
Lemma quiet_process acts : forall d, Forall quiet (snd (process_codestream acts d)).
Proof.
  induction acts as [|x acts IH]; intros d; cbn [process_codestream]; destruct (d_done d); try constructor. destruct x as [inside skip e| |]; try constructor.
  destruct (get_codestream_input d) as [span d1|s d1]; [|constructor]. pose proof (quiet_inside inside d1 (zlen span)) as Hi. destruct (advance_inside d1 inside (zlen span)) as [[d2 os]|]; [|repeat constructor].
  destruct e.
  - destruct (advance_codestream d2 _) as [d3|]; [|constructor; [exact I|exact Hi]]. specialize (IH d3). destruct (process_codestream acts d3) as [[[s d4] rest] os']. cbn [snd] in *. constructor; [exact I|]. apply Forall_app. split; [exact Hi|]. constructor; [exact I|exact IH].
  - destruct (request_more_input d2). constructor; [exact I|exact Hi].
  - destruct (advance_codestream d2 _) as [d3|]; [|constructor; [exact I|exact Hi]]. constructor; [exact I|]. apply Forall_app. split; [exact Hi|repeat constructor].
Qed.
Lemma quiet_stage acts d : Forall quiet (step_obs (stage_step c acts d)).
Proof.
  unfold stage_step. destruct (d_stage d).
  - unfold step_header. cbv zeta. repeat match goal with |- context [match ?x with _ => _ end] => destruct x; try constructor end.
  - unfold step_ftyp. cbv zeta. repeat match goal with |- context [match ?x with _ => _ end] => destruct x; try constructor end.
  - unfold step_skip. cbv zeta. repeat match goal with |- context [match ?x with _ => _ end] => destruct x; try constructor end.
  - unfold step_codestream. pose proof (quiet_process acts d) as H. destruct (process_codestream acts d) as [[[s d1] rest] os]. cbn [snd] in H.
    repeat match goal with |- context [match ?x with _ => _ end] => destruct x; try exact H end.
  - unfold step_partial. cbv zeta. repeat match goal with |- context [match ?x with _ => _ end] => destruct x; try constructor end.
  - unfold step_buffering. cbv zeta. repeat match goal with |- context [match ?x with _ => _ end] => destruct x; try constructor end.
Qed.
Lemma quiet_preamble d : Forall quiet (snd (preamble c d)).
Proof.
  unfold preamble, output_box. cbv zeta. destruct (is_header _); [constructor|]. destruct (advance_input _ _); [|constructor]. destruct (_ && o_cur _); [|constructor].
  destruct (content_process _ _ _) as [[s o'] data]. repeat constructor.
Qed.
Lemma quiet_boxes fuel : forall acts d, Forall quiet (snd (handle_boxes c fuel acts d)).
Proof.
  induction fuel as [|fuel IH]; intros acts d; cbn [handle_boxes]; [constructor|]. pose proof (quiet_preamble d) as P. destruct (preamble c d) as [[s d1] os1]. cbn [snd] in P.
  destruct s; try exact P. pose proof (quiet_stage acts d1) as S. destruct (stage_step c acts d1) as [d2 rest os2|s2 d2 rest os2]; cbn [step_obs] in S.
  - specialize (IH rest d2). destruct (handle_boxes c fuel rest d2) as [[s3 d3] os3]. cbn [snd] in *. apply Forall_app. split; [exact P|]. apply Forall_app. split; assumption.
  - cbn [snd]. apply Forall_app. split; assumption.
Qed.

(* the end of the input does not move *)
Definition upto (d : dec) : Z := file_pos d + avail_in d.
Lemma whole_advance d n d' : advance_input d n = Some d' -> upto d' = upto d.
Proof.
  intros E. unfold upto. pose proof (avail_advance _ _ _ E) as [A _]. unfold advance_input in E. destruct (_ || _); [discriminate|]. apply Some_inj in E. subst d'. rewrite A. change (file_pos d + n + (avail_in d - n) = file_pos d + avail_in d). lia.
Qed.
Lemma whole_codestream d n d' : advance_codestream d n = Some d' -> upto d' = upto d.
Proof.
  unfold advance_codestream. destruct (available_codestream d) as [a|]; [|discriminate]. cbv zeta. destruct (w_copy (d_win d)).
  - destruct (n <=? a); intros E; apply whole_advance in E; exact E.
  - destruct (_ >=? _); [|intros E; apply Some_inj in E; subst d'; reflexivity].
    destruct (advance_input d _) as [d1|] eqn:E1; [|discriminate]. intros E. apply Some_inj in E. subst d'. apply whole_advance in E1. exact E1.
Qed.
Lemma whole_request d : upto (snd (request_more_input d)) = upto d.
Proof.
  unfold request_more_input. cbv zeta. destruct (w_copy (d_win d)).
  - destruct (available_codestream d) as [a|]; [|reflexivity]. destruct (negb _); [reflexivity|]. destruct (advance_input _ a) as [d2|] eqn:E; [|reflexivity]. apply whole_advance in E. exact E.
  - destruct (advance_input d _) as [d2|] eqn:E; [|reflexivity]. apply whole_advance in E. exact E.
Qed.
Lemma whole_window d : upto (got (get_window d)) = upto d.
Proof.
  unfold get_window. cbv zeta. destruct (_ >? _); [reflexivity|]. destruct (_ >? _); [reflexivity|]. destruct (available_codestream d) as [a|]; [|reflexivity].
  destruct (w_copy (d_win d)).
  - destruct (a =? 0); [|reflexivity]. pose proof (whole_request d) as H. destruct (request_more_input d). exact H.
  - destruct (negb _); reflexivity.
Qed.
Lemma whole_get d : upto (got (get_codestream_input d)) = upto d.
Proof.
  unfold get_codestream_input. cbv zeta. destruct (w_copy (d_win d)); [|apply whole_window]. destruct (_ >? 0); [|apply whole_window].
  destruct (available_codestream d) as [a|]; [|reflexivity]. destruct (advance_input d _) as [d1|] eqn:E; [|reflexivity]. apply whole_advance in E. rewrite <- E.
  destruct (_ >? 0).
  - match goal with |- context [request_more_input ?x] => pose proof (whole_request x) as H; destruct (request_more_input x) end. exact H.
  - match goal with |- context [get_window ?x] => pose proof (whole_window x) as H end. exact H.
Qed.
Lemma whole_inside inside : forall d left, match advance_inside d inside left with Some (d', _) => upto d' = upto d | None => True end.
Proof.
  induction inside as [|n r IH]; intros d left; cbn [advance_inside]; [reflexivity|].
  destruct (advance_codestream _ _) as [d'|] eqn:E; [|exact I]. apply whole_codestream in E. specialize (IH d' (left - Z.min (Z.max 0 n) left)).
  destruct (advance_inside _ _ _) as [[d2 os]|]; [|exact I]. congruence.
Qed.
Lemma whole_process acts : forall d, upto (snd (fst (fst (process_codestream acts d)))) = upto d.
Proof.
  induction acts as [|a acts IH]; intros d; cbn [process_codestream]; destruct (d_done d); try reflexivity; destruct a as [inside skip e| |]; try reflexivity.
  pose proof (whole_get d) as Hg. destruct (get_codestream_input d) as [span d1|s d1]; cbn [got] in Hg; [|exact Hg]. pose proof (whole_inside inside d1 (zlen span)) as Hi.
  destruct (advance_inside d1 inside (zlen span)) as [[d2 os]|]; [|exact Hg]. destruct e.
  - destruct (advance_codestream d2 (Z.max 0 skip)) as [d3|] eqn:E; [|cbn [fst snd]; congruence]. apply whole_codestream in E. specialize (IH d3). destruct (process_codestream acts d3) as [[[s d4] rest] os']. cbn [fst snd] in *. congruence.
  - pose proof (whole_request d2) as Hr. destruct (request_more_input d2). cbn [fst snd] in *. congruence.
  - destruct (advance_codestream d2 (Z.max 0 skip)) as [d3|] eqn:E; [|cbn [fst snd]; congruence]. apply whole_codestream in E. cbn [fst snd]. congruence.
Qed.
Definition step_dec (r : step) : dec := match r with Go d _ _ => d | Stop _ d _ _ => d end.
Lemma whole_stage acts d : upto (step_dec (stage_step c acts d)) = upto d.
Proof.
  unfold stage_step. destruct (d_stage d).
  - unfold step_header. cbv zeta. repeat match goal with |- context [match ?x with _ => _ end] => destruct x; try reflexivity end.
  - unfold step_ftyp. cbv zeta. repeat match goal with |- context [match ?x with _ => _ end] => let E := fresh in destruct x eqn:E; try reflexivity end.
    match goal with E : advance_input _ _ = Some _ |- _ => apply whole_advance in E; exact E end.
  - unfold step_skip. cbv zeta. repeat match goal with |- context [match ?x with _ => _ end] => let E := fresh in destruct x eqn:E; try reflexivity end;
    match goal with E : advance_input _ _ = Some _ |- _ => apply whole_advance in E; exact E end.
  - unfold step_codestream. pose proof (whole_process acts d) as H. destruct (process_codestream acts d) as [[[s d1] rest] os]. cbn [fst snd] in H.
    destruct s; try exact H.
    + destruct (x_unb _); [exact H|]. destruct (want_box c); exact H.
    + destruct (_ && _); [|exact H]. unfold inject_next. cbv zeta. destruct (ooo_find _ _) as [[data l]|]; [destruct l; exact H|exact H].
  - unfold step_partial. cbv zeta. destruct (d_last d); [reflexivity|]. destruct (_ <? 4); [reflexivity|]. destruct (_ && _); [reflexivity|]. destruct (_ <? j_next _); [reflexivity|].
    destruct (advance_input d 4) as [d1|] eqn:E; [|reflexivity]. apply whole_advance in E. repeat match goal with |- context [match ?x with _ => _ end] => destruct x; try exact E end.
  - unfold step_buffering. cbv zeta. destruct (available_codestream d) as [a|]; [|reflexivity]. destruct (negb _); [reflexivity|].
    destruct (advance_input _ a) as [d1|] eqn:E; [|reflexivity]. apply whole_advance in E. destruct (_ && _); exact E.
Qed.
Lemma whole_boxes fuel : forall acts d, upto (snd (fst (handle_boxes c fuel acts d))) = upto d.
Proof.
  induction fuel as [|fuel IH]; intros acts d; cbn [handle_boxes]; [reflexivity|].
  assert (P : upto (snd (fst (preamble c d))) = upto d).
  { unfold preamble, output_box. cbv zeta. destruct (is_header _); [reflexivity|]. destruct (advance_input d _) as [d1|] eqn:E; [|reflexivity]. apply whole_advance in E.
    destruct (_ && o_cur _); [|exact E]. destruct (content_process _ _ _) as [[s o'] data]. exact E. }
  destruct (preamble c d) as [[s d1] os1]. cbn [fst snd] in P. destruct s; try exact P. pose proof (whole_stage acts d1) as S. destruct (stage_step c acts d1) as [d2 rest os2|s2 d2 rest os2]; cbn [step_dec] in S.
  - specialize (IH rest d2). destruct (handle_boxes c fuel rest d2) as [[s3 d3] os3]. cbn [fst snd] in *. congruence.
  - cbn [fst snd]. congruence.
Qed.
Lemma whole_kept fuel acts d s d1 os : process_input c fuel acts d = (s, d1, os) -> upto d1 = upto d.
Proof.
  unfold process_input. pose proof (whole_boxes fuel acts d) as H. destruct (handle_boxes c fuel acts d) as [[s0 d0] os0]. intros E. inversion E; subst. exact H.
Qed.

(* the user *)
Definition Us (u : user) : Prop := Any (u_dec u) /\ u_at u + u_given u = file_pos (u_dec u) + avail_in (u_dec u).
Definition failed (os : list obs) : Prop := exists e, In (ORet (SError e)) os.

Lemma input_any fuel acts d : Any d -> let '(s, d1, os) := process_input c fuel acts d in
  s <> SCrash /\ ((exists e, s = SError e) \/ Any d1) /\ Forall quiet os.
Proof.
  intros A. unfold process_input. pose proof (boxes_any fuel acts d A) as B. pose proof (quiet_boxes fuel acts d) as Qu. destruct (handle_boxes c fuel acts d) as [[s d1] os]. cbn [snd] in Qu. destruct B as [B1 B2].
  split; [|split; [|exact Qu]].
  - destruct s; try discriminate; try assumption; [destruct (d_done d1)|destruct (d_closed d1)]; discriminate.
  - destruct B2 as [[e ->]|B2]; [left; eauto|right; exact B2].
Qed.

Lemma quiet_crash os : Forall quiet os -> ~ In (ORet SCrash) os.
Proof. intros H X. rewrite Forall_forall in H. exact (H _ X). Qed.

Lemma feed_any d k : Any d -> Any (set_in d (mkInput (take (avail_in d + Z.max 0 k) (drop (file_pos d) file)) (file_pos d))).
Proof.
  intros A. pose proof A as [A1 A2 A3 A4 A5 A6]. destruct A1 as (I1 & I2 & I3). set (d' := set_in d _). pose proof (avail_nonneg d) as Ha.
  assert (Ea : avail_in d' = Z.min (avail_in d + Z.max 0 k) (zlen file - file_pos d)).
  { unfold d', avail_in at 1. cbn [set_in d_in i_in]. rewrite zlen_take by lia. rewrite zlen_drop by lia. lia. }
  constructor; change (d_win d') with (d_win d); change (d_stage d') with (d_stage d); change (d_box d') with (d_box d); change (d_done d') with (d_done d); change (file_pos d') with (file_pos d).
  - split; [exact I1|]. change (file_pos d') with (file_pos d). split; [lia|]. rewrite Ea. change (take (avail_in d + Z.max 0 k) (drop (file_pos d) file) = take (Z.min (avail_in d + Z.max 0 k) (zlen file - file_pos d)) (drop (file_pos d) file)).
    destruct (Z.min_spec (avail_in d + Z.max 0 k) (zlen file - file_pos d)) as [[_ ->]|[L ->]]; [reflexivity|]. rewrite !take_all; [reflexivity|rewrite zlen_drop by lia; lia..].
  - exact A2.
  - exact A3.
  - intros N. destruct (A4 N) as [B1 B2]. split; [lia|exact B2].
  - exact A5.
  - destruct A6 as [X|[X|(X1 & X2 & X3 & X4)]]; [left; exact X|right; left; exact X|right; right]. split; [exact X1|]. split; [exact X2|]. split; [lia|exact X4].
Qed.

Lemma user_any u op : Us u -> let '(u', os) := user_step c file u op in failed os \/ (~ In (ORet SCrash) os /\ Us u').
Proof.
  intros [A P]. destruct op as [k|fuel acts| |size| |n]; cbn [user_step].
  - destruct (d_closed (u_dec u)) eqn:Ec; [right; split; [auto|split; assumption]|]. unfold release_input, set_input. cbn [set_in d_closed]. rewrite Ec.
    right. split; [auto|]. replace (u_at u + u_given u - avail_in (u_dec u)) with (file_pos (u_dec u)) by lia. split; [exact (feed_any (u_dec u) k A)|]. reflexivity.
  - pose proof (input_any fuel acts (u_dec u) A) as H. pose proof (eq_refl (process_input c fuel acts (u_dec u))) as Ep. destruct (process_input c fuel acts (u_dec u)) as [[s d1] os] eqn:E. destruct H as (H1 & H2 & H3).
    destruct H2 as [[e ->]|H2]; [left; exists e; apply in_or_app; right; left; reflexivity|]. right. split.
    + intros X. apply in_app_or in X as [X|[X|[]]]; [exact (quiet_crash _ H3 X)|congruence].
    + split; [exact H2|]. cbn [u_dec u_at u_given]. rewrite P. symmetry. exact (whole_kept _ _ _ _ _ _ E).
  - right. split; [auto|]. split; [|exact P]. destruct A. constructor; assumption.
  - unfold set_box_buffer. cbv zeta. destruct (o_set _); [right; split; [auto|split; assumption]|]. destruct (negb _); [right; split; [auto|split; assumption]|].
    right. split; [intros [X|[]]; discriminate|]. split; [apply any_out; exact A|exact P].
  - unfold release_box_buffer. cbv zeta. destruct (negb _); right; (split; [intros [X|[]]; discriminate|]); [split; assumption|]. split; [apply any_out; exact A|exact P].
  - destruct (d_stage (u_dec u)) eqn:Es; try (right; split; [auto|split; assumption]).
    destruct (can_skip (u_dec u)) eqn:Ek; [|right; split; [auto|split; assumption]].
    unfold can_skip in Ek. apply andb_prop in Ek as [Ek _]. apply andb_prop in Ek as [Ek _]. apply andb_prop in Ek as [Ed Eh]. apply negb_true_iff in Ed. apply Z.eqb_eq in Eh.
    pose proof (any_Q _ A Es Eh Ed) as HQ. destruct (advQ _ (Z.max 0 n) HQ ltac:(lia)) as (d' & E & H'). unfold skip_current_frame. rewrite E. right. split; [intros [X|[]]; discriminate|].
    split; [exact (Q_any _ _ A Es Eh (keeps_codestream _ _ _ E) H')|]. cbn [u_dec u_at u_given]. rewrite P. symmetry. exact (whole_codestream _ _ _ E).
Qed.
End Any.
