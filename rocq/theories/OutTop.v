(** * JxlEncoderProcessOutput over whole histories. *)
From Coq Require Import ZArith List Bool Lia Sorted.
From Verif Require Import Base ListAux OMap OutModel OutSpec OutInv OutRuns.
Import ListNotations.
Local Open Scope Z_scope.
Ltac Zify.zify_post_hook ::= idtac.

(** The file that holds exactly the bytes of [L]. *)
Definition whole (L : list Z) : file := fill (fun _ => None) 0 L.

Lemma whole_in L x : 0 <= x < zlen L -> whole L x = znth L x.
Proof. intros H. unfold whole. rewrite fill_in by lia. f_equal. lia. Qed.
Lemma whole_free L x : zlen L <= x -> whole L x = None.
Proof. intros H. unfold whole. rewrite fill_out by lia. reflexivity. Qed.
Lemma whole_full L x : 0 <= x < zlen L -> whole L x <> None.
Proof. intros H. rewrite whole_in by lia. destruct (znth_ex L x H) as [v ->]. discriminate. Qed.
Lemma whole_app L B x : fill (whole L) (zlen L) B x = whole (L ++ B) x.
Proof. exact (fill_app (fun _ => None) 0 L B x). Qed.

(** Everything coded so far is final. *)
Record Settled (L : list Z) (call : Z * Z) (s : wst) : Prop := {
  st_inv : Inv (whole L) call s;
  st_pos : position s = zlen L;
  st_fin : finalized s = zlen L }.

Lemma init_settled : Settled [] (0, 0) (wrapper enc_init).
Proof.
  split; [|reflexivity|reflexivity]. constructor; cbn; try lia; try reflexivity; try contradiction.
  - constructor.
  - intros p H. rewrite whole_free by (rewrite zlen_nil; lia). congruence.
Qed.

Lemma settled_owned L call s k b : Settled L call s -> In (k, b) (bufs s) -> owned b <> [].
Proof.
  intros [I P F] H E. destruct (inv_bufs _ _ _ I k b H) as (H1 & H2 & H3). rewrite E in H3. destruct H3 as [H3 H4].
  destruct (inv_flushed _ _ _ I) as [Fl|Fl]; [|lia].
  apply (covered_some (whole L) call s (k + written b - 1) I); [lia| |apply whole_free; lia].
  exists k, b. split; [exact H|lia].
Qed.

(** A new buffer is set. *)
Lemma set_avail_ok L call s buffer : Settled L call s ->
  exists s', set_avail_out s buffer = Ok s' /\ Settled L (outpos s, zlen buffer) s'.
Proof.
  intros St. assert (I := st_inv _ _ _ St). assert (P := st_pos _ _ _ St). assert (F := st_fin _ _ _ St).
  assert (Ip := inv_pos _ _ _ I). pose proof (zlen_nonneg buffer) as Nb.
  unfold set_avail_out, flush_output. cbn [has_buffer]. rewrite (inv_free _ _ _ I). cbn [negb ensure obind bufs].
  destruct (flush_loop_ok (whole L) (outpos s, zlen buffer) (S (length (bufs s))) (WSt (bufs s) (position s) (finalized s) (outpos s) false buffer 0 (zlen buffer))) as (s' & E' & I' & P' & F');
    cbn [bufs position finalized outpos has_buffer mem nxt avail fst snd]; try lia; try reflexivity.
  - apply (inv_sorted _ _ _ I).
  - intros k b H. destruct (inv_bufs _ _ _ I k b H) as (H1 & H2 & H3). split; [exact H1|]. split; [exact H2|].
    pose proof (settled_owned L call s k b St H) as Ho.
    destruct (owned b) as [|o os]; [congruence|]. exact H3.
  - apply (inv_cover _ _ _ I).
  - apply (inv_full _ _ _ I).
  - exists s'. cbn [position finalized] in *. split; [exact E'|]. split; [exact I'|congruence|congruence].
Qed.

(** One element of the queue is coded. *)
Lemma one_ok L call s i : Settled L call s -> input_ok i ->
  exists s', exec_all s (input_ops (position s) i) = Ok s' /\ Settled (L ++ input_bytes i) call s'.
Proof.
  intros [I P F] Hi. rewrite P. destruct (input_runs i (zlen L) Hi (whole L) (zlen L)) with (start := call) (s := s) as (s' & E & I' & P' & F').
  - lia.
  - apply zlen_nonneg.
  - intros x Hx. apply whole_free. exact Hx.
  - intros x Hx. apply whole_full. exact Hx.
  - exact I.
  - exact P.
  - exact F.
  - exists s'. split; [exact E|]. split; [|rewrite P', zlen_app; reflexivity|rewrite F', zlen_app; reflexivity].
    apply (inv_ext _ _ _ _ (whole_app L (input_bytes i))). exact I'.
Qed.

Lemma resolve_bytes cl q behind : input_bytes (resolve cl q behind) = coded q (cl && negb (existsb is_frame behind)).
Proof. destruct q; reflexivity. Qed.
Lemma resolve_ok cl q behind : queued_ok q -> input_ok (resolve cl q behind).
Proof. destruct q; cbn; intros H; [apply H|exact H]. Qed.
Lemma coded_nonempty q last : queued_ok q -> coded q last <> [].
Proof. destruct q; cbn; intros H; apply input_bytes_nonempty; [apply H|exact H]. Qed.

Lemma loop_ok cl call : forall q s L, Settled L call s -> Forall queued_ok q ->
  exists done flags q' s', process_loop q cl s = Ok (q', s') /\ q = done ++ q' /\ length flags = length done
    /\ Settled (L ++ all_coded done flags) call s'
    /\ all_coded done flags ++ queue_bytes cl q' = queue_bytes cl q
    /\ (avail s' = 0 \/ q' = []).
Proof.
  induction q as [|i q IH]; intros s L St Hq.
  - exists [], [], [], s. cbn. rewrite app_nil_r. repeat (split; [try reflexivity; try exact St|]). right; reflexivity.
  - inversion Hq as [|? ? Hi Hq']; subst. cbn [process_loop]. destruct (Z.eqb_spec (avail s) 0) as [Ez|Ez]; cbn [negb].
    + exists [], [], (i :: q), s. cbn. rewrite app_nil_r. repeat (split; [try reflexivity; try exact St|]). left; exact Ez.
    + destruct (one_ok L call s (resolve cl i q) St (resolve_ok cl i q Hi)) as (s1 & E1 & St1). rewrite E1. cbn [obind].
      destruct (IH s1 _ St1 Hq') as (done & flags & q' & s' & E & Eq & Lf & St' & Eb & Hs).
      exists (i :: done), ((cl && negb (existsb is_frame q)) :: flags), q', s'. split; [exact E|].
      split; [rewrite Eq; reflexivity|]. split; [cbn; congruence|].
      assert (Ea : all_coded (i :: done) ((cl && negb (existsb is_frame q)) :: flags) = coded i (cl && negb (existsb is_frame q)) ++ all_coded done flags) by reflexivity.
      rewrite Ea. split; [|split; [|exact Hs]].
      * rewrite resolve_bytes, <- app_assoc in St'. exact St'.
      * rewrite <- app_assoc, Eb. reflexivity.
Qed.

(** The bytes that are coded and not handed over. *)
Definition Pending (e : enc) (pending : list Z) : Prop :=
  exists L call, Settled L call (wrapper e) /\ pending = skipn (Z.to_nat (outpos (wrapper e))) L.

Lemma init_pending : Pending enc_init [].
Proof. exists [], (0, 0). split; [exact init_settled|reflexivity]. Qed.

Lemma nth_error_ext_len {A} : forall (l r : list A), length l = length r -> (forall n, nth_error l n = nth_error r n) -> l = r.
Proof.
  induction l as [|a l IH]; intros [|b r] H K; try discriminate; [reflexivity|].
  pose proof (K 0%nat) as K0. cbn in K0. inversion K0; subst. f_equal. apply IH; [cbn in H; congruence|]. intros n. apply (K (S n)).
Qed.
Lemma list_eq_znth {A} (l r : list A) : zlen l = zlen r -> (forall i, 0 <= i < zlen l -> znth l i = znth r i) -> l = r.
Proof.
  intros H K. apply nth_error_ext_len; [unfold zlen in H; lia|]. intros n. destruct (Z_lt_dec (Z.of_nat n) (zlen l)) as [L|L].
  - specialize (K (Z.of_nat n) ltac:(lia)). unfold znth in K. destruct (Z.ltb_spec (Z.of_nat n) 0); [lia|]. rewrite Nat2Z.id in K. exact K.
  - unfold zlen in *. assert (nth_error l n = None) by (apply nth_error_None; lia). assert (nth_error r n = None) by (apply nth_error_None; lia). congruence.
Qed.

Lemma process_ok e pending buffer : Pending e pending -> Forall queued_ok (queue e) ->
  let todo := pending ++ queue_bytes (closed e) (queue e) in
  exists e' st done flags pending', process_output e buffer = Ok (e', st, firstn (length buffer) todo)
    /\ Pending e' pending' /\ closed e' = closed e
    /\ queue e = done ++ queue e' /\ length flags = length done
    /\ pending ++ all_coded done flags = firstn (length buffer) todo ++ pending'
    /\ pending' ++ queue_bytes (closed e') (queue e') = skipn (length buffer) todo
    /\ st = match skipn (length buffer) todo with [] => Success | _ => MoreOutput end.
Proof.
  intros (L & call & St & Ep) Hq todo. unfold process_output.
  destruct (set_avail_ok L call (wrapper e) buffer St) as (s1 & E1 & St1). rewrite E1. cbn [obind].
  destruct (loop_ok (closed e) _ (queue e) s1 L St1 Hq) as (done & flags & q' & s' & E2 & Eq & Lf & St2 & Eb & Hs).
  rewrite E2. cbn [obind]. set (L' := L ++ all_coded done flags) in *.
  assert (I := st_inv _ _ _ St2). assert (P2 := st_pos _ _ _ St2). assert (F2 := st_fin _ _ _ St2).
  destruct (inv_mem _ _ _ I) as (M1 & M2 & M3 & M4 & M5). cbn [fst snd] in M4, M5.
  assert (Ip := inv_pos _ _ _ I). assert (Ip0 := inv_pos _ _ _ (st_inv _ _ _ St)). pose proof (st_fin _ _ _ St) as F0.
  set (o := outpos (wrapper e)) in *.
  assert (Etodo : todo = skipn (Z.to_nat o) L' ++ queue_bytes (closed e) q').
  { unfold todo, L'. rewrite Ep, <- Eb. rewrite app_assoc. f_equal. rewrite skipn_app.
    replace (Z.to_nat o - length L)%nat with 0%nat by (unfold zlen in *; lia). reflexivity. }
  set (out := firstn (Z.to_nat (nxt s')) (mem s')).
  assert (Lout : zlen out = nxt s') by (unfold out; rewrite zlen_firstn by lia; lia).
  assert (Eout : out = firstn (Z.to_nat (nxt s')) (skipn (Z.to_nat o) L')).
  { apply list_eq_znth; [rewrite Lout, zlen_firstn, zlen_skipn by lia; lia|]. intros i Hi. rewrite Lout in Hi.
    unfold out. rewrite !znth_firstn by lia. rewrite znth_skipn by lia. rewrite (inv_out _ _ _ I) by lia. cbn [fst]. apply whole_in. lia. }
  set (pend' := skipn (Z.to_nat (outpos s')) L').
  assert (Eskip : skipn (Z.to_nat o) L' = out ++ pend').
  { rewrite Eout. rewrite <- (firstn_skipn (Z.to_nat (nxt s')) (skipn (Z.to_nat o) L')) at 1. f_equal. unfold pend'. rewrite skipn_skipn. f_equal. lia. }
  assert (Elen : length buffer = Z.to_nat (nxt s' + avail s')) by (unfold zlen in *; lia).
  assert (Lout' : length out = Z.to_nat (nxt s')) by (unfold zlen in Lout; lia).
  assert (Cut : firstn (length buffer) todo = out /\ skipn (length buffer) todo = pend' ++ queue_bytes (closed e) q').
  { rewrite Etodo, Eskip, <- app_assoc. rewrite firstn_app, skipn_app. destruct (Z.eq_dec (avail s') 0) as [Ez|Ez].
    - replace (length buffer) with (length out) by lia. rewrite firstn_all, skipn_all, Nat.sub_diag. cbn. rewrite app_nil_r. split; reflexivity.
    - assert (Eq' : q' = []) by (destruct Hs; [contradiction|assumption]).
      assert (Eo : outpos s' = finalized s') by (destruct (inv_flushed _ _ _ I); [assumption|contradiction]).
      assert (Epn : pend' = []) by (unfold pend'; apply skipn_all2; unfold zlen in *; lia).
      rewrite Epn, Eq'. cbn [queue_bytes app]. rewrite firstn_all2, skipn_all2 by lia. rewrite firstn_nil, skipn_nil, app_nil_r. split; reflexivity. }
  destruct Cut as [Cut1 Cut2].
  exists (Enc q' (closed e) s'). eexists. exists done, flags, pend'. cbn [queue closed]. rewrite Cut1. fold out. split; [reflexivity|].
  split; [exists L'; eexists; split; [exact St2|reflexivity]|]. split; [reflexivity|]. split; [exact Eq|]. split; [exact Lf|].
  split; [|split; [symmetry; exact Cut2|]].
  - rewrite <- Eskip. unfold L'. rewrite Ep, skipn_app. replace (Z.to_nat o - length L)%nat with 0%nat by (unfold zlen in *; lia). reflexivity.
  - rewrite Cut2. destruct q' as [|i q'].
    + cbn [queue_bytes]. rewrite app_nil_r. destruct (Z.ltb_spec (outpos s') (finalized s')) as [Lt|Ge].
      * destruct pend' eqn:Epd; [|reflexivity]. exfalso. assert (Z0 : zlen pend' = 0) by (rewrite Epd; reflexivity). unfold pend' in Z0. rewrite zlen_skipn in Z0 by lia. lia.
      * assert (Epn : pend' = []) by (unfold pend'; apply skipn_all2; unfold zlen in *; lia). rewrite Epn. reflexivity.
    + assert (Hi : queued_ok i) by (rewrite Eq in Hq; apply Forall_app in Hq; destruct Hq as [_ Hq]; inversion Hq; assumption).
      destruct (pend' ++ queue_bytes (closed e) (i :: q')) eqn:Epd; [|reflexivity]. exfalso. apply app_eq_nil in Epd. destruct Epd as [_ Epd].
      cbn [queue_bytes] in Epd. apply app_eq_nil in Epd. destruct Epd as [Epd _]. exact (coded_nonempty i _ Hi Epd).
Qed.

(** Any number of calls. *)
Lemma calls_ok : forall buffers e pending, Pending e pending -> Forall queued_ok (queue e) ->
  let todo := pending ++ queue_bytes (closed e) (queue e) in
  exists e' outs, run e (map ECall buffers) = Ok (e', outs)
    /\ map snd outs = cut todo (map (@length Z) buffers)
    /\ map fst outs = statuses todo (map (@length Z) buffers).
Proof.
  induction buffers as [|b bs IH]; intros e pending Hp Hq todo.
  - exists e, []. repeat split.
  - destruct (process_ok e pending b Hp Hq) as (e1 & st & done & flags & p1 & E1 & Hp1 & Hc1 & Hq1 & _ & _ & Et & Es). fold todo in E1, Et, Es.
    assert (Hq1' : Forall queued_ok (queue e1)) by (rewrite Hq1 in Hq; apply Forall_app in Hq; apply Hq).
    destruct (IH e1 p1 Hp1 Hq1') as (e' & outs & E & Eo & Es'). rewrite Et in Eo, Es'.
    exists e', ((st, firstn (length b) todo) :: outs). cbn [map run]. rewrite E1. cbn [obind]. rewrite E. cbn [obind].
    split; [reflexivity|]. cbn [map fst snd cut statuses]. rewrite Eo, Es', Es. split; reflexivity.
Qed.

(** Any history. *)
Lemma history_ok : forall evs e pending, Pending e pending -> Forall queued_ok (queue e) -> Forall event_ok evs ->
  exists e' outs done flags pending', run e evs = Ok (e', outs)
    /\ Pending e' pending' /\ Forall queued_ok (queue e')
    /\ queue e ++ added evs = done ++ queue e' /\ length flags = length done
    /\ concat (map snd outs) ++ pending' = pending ++ all_coded done flags.
Proof.
  induction evs as [|ev evs IH]; intros e pending Hp Hq He.
  - exists e, [], [], [], pending. cbn. rewrite !app_nil_r. repeat (split; [try reflexivity; try assumption|]). reflexivity.
  - inversion He as [|? ? H1 H2]; subst. destruct ev as [q| |b]; cbn [run added].
    + destruct (IH (Enc (queue e ++ [q]) (closed e) (wrapper e)) pending) as (e' & outs & done & flags & p' & E & R); try assumption.
      { cbn [queue]. apply Forall_app. split; [exact Hq|]. constructor; [exact H1|constructor]. }
      exists e', outs, done, flags, p'. split; [exact E|]. cbn [queue] in R. rewrite <- app_assoc in R. exact R.
    + destruct (IH (Enc (queue e) true (wrapper e)) pending) as (e' & outs & done & flags & p' & E & R); try assumption.
      exists e', outs, done, flags, p'. split; [exact E|]. exact R.
    + destruct (process_ok e pending b Hp Hq) as (e1 & st & done & flags & p1 & E1 & Hp1 & Hc1 & Hq1 & Lf & Ec & Et & Es).
      assert (Hq1' : Forall queued_ok (queue e1)) by (rewrite Hq1 in Hq; apply Forall_app in Hq; apply Hq).
      destruct (IH e1 p1 Hp1 Hq1' H2) as (e' & outs & done2 & flags2 & p' & E & Hp' & Hq' & Ha & Lf2 & Ec2).
      eexists e', _, (done ++ done2), (flags ++ flags2), p'. rewrite E1. cbn [obind]. rewrite E. cbn [obind]. split; [reflexivity|].
      split; [exact Hp'|]. split; [exact Hq'|]. split; [rewrite Hq1, <- !app_assoc, Ha; reflexivity|].
      split; [rewrite !app_length; congruence|]. cbn [map snd concat]. rewrite <- app_assoc, Ec2.
      assert (Ecomb : forall (a : list queued) (b' : list bool) c d, length b' = length a -> combine (a ++ c) (b' ++ d) = combine a b' ++ combine c d).
      { clear. induction a as [|x a IHa]; intros [|y b'] c d H; try discriminate; [reflexivity|]. cbn. f_equal. apply IHa. cbn in H. congruence. }
      unfold all_coded. rewrite Ecomb by exact Lf. rewrite map_app, concat_app, !app_assoc. f_equal. symmetry. exact Ec.
Qed.
