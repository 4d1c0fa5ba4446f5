(** * C51: what an output processor gets. *)
From Coq Require Import ZArith List Bool Lia Sorted.
From Verif Require Import Base ListAux OMap OutModel OutSpec OutInv OutRuns OutTop OutProps XOutModel XOutSpec XOutInv XOutStep XOutPiece XOutPlan XOutRuns XOutStop.
Import ListNotations.
Local Open Scope Z_scope.
Ltac Zify.zify_post_hook ::= idtac.

Lemma xinit P : XInv P (whole []) 0 (xwrapper xenc_init) p_init.
Proof.
  assert (N : forall x, whole [] x = None) by (intros x; unfold whole; apply fill_nil).
  assert (C : XC P (xwrapper xenc_init) p_init) by (constructor; cbn; try reflexivity; [apply ob_nil|constructor|contradiction]).
  unfold XInv. destruct (can_seek P); constructor; try exact C; cbn; try lia; try contradiction.
  - intros x. rewrite N. reflexivity.
  - intros x (k & b & [] & _).
  - intros x. rewrite N. destruct (x <? 0); reflexivity.
  - intros x _ H. rewrite N in H. congruence.
Qed.

Lemma xone P L s a i : XInv P (whole L) (zlen L) s a -> x_position s = zlen L -> room_input i ->
  Good P (whole (L ++ input_bytes i)) (zlen (L ++ input_bytes i)) (zlen (L ++ input_bytes i)) (xexec_all P s (input_ops (x_position s) i)).
Proof.
  intros I E R. rewrite E. apply (good_ext P (fill (whole L) (zlen L) (input_bytes i))); [intros x; apply whole_app|].
  rewrite zlen_app. apply (plan_good P (whole L) (zlen L) (zlen L)) with (a := a); [|exact I|exact E].
  apply (input_plan i (zlen L) R); [lia|apply zlen_nonneg|intros x Hx; apply whole_free; exact Hx|intros x Hx; apply whole_full; exact Hx].
Qed.

Lemma resolve_room cl q behind : room_queued q -> room_input (resolve cl q behind).
Proof. destruct q; cbn; intros H; [apply H|exact H]. Qed.

Lemma xflush_good P cl : forall q L s a, XInv P (whole L) (zlen L) s a -> x_position s = zlen L -> Forall room_queued q ->
  Good P (whole (L ++ queue_bytes cl q)) (zlen (L ++ queue_bytes cl q)) (zlen (L ++ queue_bytes cl q)) (xflush_input P q cl s).
Proof.
  induction q as [|i q IH]; intros L s a I E H; cbn [xflush_input queue_bytes].
  - rewrite app_nil_r. left. exists s, a. split; [reflexivity|]. split; assumption.
  - inversion H as [|? ? Hi Hq]; subst. pose proof (xone P L s a (resolve cl i q) I E (resolve_room cl i q Hi)) as G.
    rewrite resolve_bytes in G. destruct G as [(s1 & a1 & R & I1 & P1)|Hh].
    + rewrite R. cbn [xbind]. rewrite app_assoc. exact (IH _ s1 a1 I1 P1 Hq).
    + right. apply (halted_bind P x_trace); [|exact Hh]. intros s'. apply ext_flush_input.
Qed.

(** The bytes of inputs coded with given values of is_last. *)
Lemma queue_coded cl q : exists flags, length flags = length q /\ queue_bytes cl q = all_coded q flags.
Proof.
  induction q as [|i q [flags [L E]]]; [exists []; split; reflexivity|].
  exists ((cl && negb (existsb is_frame q)) :: flags). split; [cbn; congruence|]. cbn [queue_bytes]. rewrite E. reflexivity.
Qed.
Lemma all_coded_app q1 f1 q2 f2 : length f1 = length q1 -> all_coded (q1 ++ q2) (f1 ++ f2) = all_coded q1 f1 ++ all_coded q2 f2.
Proof.
  revert f1. induction q1 as [|i q1 IH]; intros [|b f1] H; try discriminate; [reflexivity|].
  change (coded i b ++ all_coded (q1 ++ q2) (f1 ++ f2) = (coded i b ++ all_coded q1 f1) ++ all_coded q2 f2).
  rewrite IH by (cbn in H; congruence). apply app_assoc.
Qed.

Lemma xrun_good P : forall cs e L a, XInv P (whole L) (zlen L) (xwrapper e) a -> x_position (xwrapper e) = zlen L ->
  Forall room_queued (xqueue e) -> Forall call_ok cs ->
  (exists e' a' done flags, xrun P e cs = XOk e' /\ xqueue e ++ xadded cs = done ++ xqueue e' /\ length flags = length done
     /\ XInv P (whole (L ++ all_coded done flags)) (zlen (L ++ all_coded done flags)) (xwrapper e') a'
     /\ x_position (xwrapper e') = zlen (L ++ all_coded done flags))
  \/ Halted P (seen (xrun P e cs)).
Proof.
  induction cs as [|c cs IH]; intros e L a I E Hq Hc; cbn [xrun].
  - left. exists e, a, [], []. cbn. rewrite !app_nil_r. repeat (split; [try reflexivity; assumption|]). exact E.
  - inversion Hc as [|? ? H1 H2]; subst. destruct c as [q| |]; cbn [call_ok xadded] in *.
    + destruct (IH (XEnc (xqueue e ++ [q]) (xclosed e) (xwrapper e)) L a I E) as [(e' & a' & done & flags & R & A & Lf & X)|Hh]; [|exact H2| |right; exact Hh].
      * cbn. apply Forall_app. split; [exact Hq|]. constructor; [exact H1|constructor].
      * left. exists e', a', done, flags. cbn [xqueue] in A. rewrite <- app_assoc in A. split; [exact R|]. split; [exact A|]. split; [exact Lf|exact X].
    + exact (IH (XEnc (xqueue e) true (xwrapper e)) L a I E Hq H2).
    + destruct (xflush_good P (xclosed e) (xqueue e) L (xwrapper e) a I E Hq) as [(s1 & a1 & R & I1 & P1)|Hh].
      * rewrite R. cbn [xbind]. destruct (queue_coded (xclosed e) (xqueue e)) as (f1 & Lf1 & Ef1). rewrite Ef1 in I1, P1.
        destruct (IH (XEnc [] (xclosed e) s1) (L ++ all_coded (xqueue e) f1) a1) as [(e' & a' & done & flags & R' & A & Lf & X)|Hh]; cbn [xwrapper xqueue]; try assumption; [constructor| |right; exact Hh].
        left. exists e', a', (xqueue e ++ done), (f1 ++ flags). split; [exact R'|]. cbn [xqueue app] in A. rewrite A.
        split; [apply app_assoc|]. split; [rewrite !app_length; congruence|]. rewrite all_coded_app by exact Lf1. rewrite app_assoc. exact X.
      * right. unfold seen. change (Halted P (trace_of (fun e' => x_trace (xwrapper e')) (let? s := xflush_input P (xqueue e) (xclosed e) (xwrapper e) in xrun P (XEnc [] (xclosed e) s) cs))).
        apply (halted_bind P x_trace); [|exact Hh]. intros s'. exact (ext_run P cs (XEnc [] (xclosed e) s')).
Qed.

Lemma inv_final P L s a : XInv P (whole L) (zlen L) s a -> x_position s = zlen L ->
  obeys (can_seek P) p_init (x_trace s) a /\ p_active a = None /\ p_position a = zlen L /\ p_finalized a = zlen L
  /\ forall x, p_file a x = if (0 <=? x) && (x <? zlen L) then znth L x else None.
Proof.
  intros I E. pose proof (zlen_nonneg L) as Ln.
  assert (W : forall x, whole L x = if (0 <=? x) && (x <? zlen L) then znth L x else None)
    by (intros x; unfold whole, fill; rewrite Z.add_0_l, Z.sub_0_r; reflexivity).
  unfold XInv in I. destruct (can_seek P) eqn:Sk.
  - destruct I as [C Out (F1 & F2 & F3) Fl Cov]. destruct C. rewrite Sk in *. repeat (split; [assumption || congruence|]). intros x. rewrite Fl. apply W.
  - destruct I as [C (F1 & F2 & F3 & F4) Fl Full Bufs Cov]. destruct C. rewrite Sk in *. assert (Eo : x_outpos s = zlen L) by lia.
    repeat (split; [assumption || congruence|]). intros x. rewrite Fl, W, Eo. destruct (Z.ltb_spec x (zlen L)); [reflexivity|]. rewrite andb_false_r. reflexivity.
Qed.

(** A processor that never asks to stop.  After any history of queueing frames
    and boxes, closing the frames and flushing: every call succeeded, the
    processor saw only calls it may see, and its file consists of the bytes of
    the inputs that were flushed, each once and in the order queued; all of it
    is final. *)
Theorem C51_every_history : forall P calls, keeps_going P -> Forall call_ok calls ->
  exists e state done flags, xrun P xenc_init calls = XOk e
    /\ xadded calls = done ++ xqueue e /\ length flags = length done
    /\ obeys (can_seek P) p_init (x_trace (xwrapper e)) state
    /\ p_active state = None /\ p_finalized state = zlen (all_coded done flags)
    /\ forall x, p_file state x = if (0 <=? x) && (x <? zlen (all_coded done flags)) then znth (all_coded done flags) x else None.
Proof.
  intros P calls K H. destruct (xrun_good P calls xenc_init [] p_init (xinit P) eq_refl (Forall_nil _) H) as [(e & a & done & flags & R & A & Lf & I & E)|Hh].
  - cbn [app xqueue xenc_init] in *. destruct (inv_final P _ _ _ I E) as (O & Ac & Po & Fi & Fl).
    exists e, a, done, flags. repeat (split; [assumption|]). exact Fl.
  - exfalso. destruct Hh as (t1 & n & t2 & a & _ & N & _). specialize (K t1 n). lia.
Qed.
Print Assumptions C51_every_history.

(** The usual way: everything is queued, the frames are closed, the input is
    flushed. *)
Definition xsession (qs : list queued) : list xcall := map CAdd qs ++ [CClose; CFlush].

Lemma xrun_adds P : forall qs e t, xrun P e (map CAdd qs ++ t) = xrun P (XEnc (xqueue e ++ qs) (xclosed e) (xwrapper e)) t.
Proof.
  induction qs as [|q qs IH]; intros e t; cbn [map app xrun]; [rewrite app_nil_r; destruct e; reflexivity|].
  rewrite IH. cbn [xqueue xclosed xwrapper]. rewrite <- app_assoc. reflexivity.
Qed.

Theorem C51_file : forall P qs, keeps_going P -> Forall room_queued qs ->
  exists e state, xrun P xenc_init (xsession qs) = XOk e
    /\ obeys (can_seek P) p_init (x_trace (xwrapper e)) state
    /\ p_active state = None /\ p_finalized state = zlen (queue_bytes true qs)
    /\ forall x, p_file state x = if (0 <=? x) && (x <? zlen (queue_bytes true qs)) then znth (queue_bytes true qs) x else None.
Proof.
  intros P qs K H. unfold xsession. rewrite xrun_adds. cbn [xrun xqueue xclosed xwrapper xenc_init app].
  destruct (xflush_good P true qs [] (xwrapper xenc_init) p_init (xinit P) eq_refl H) as [(s & a & R & I & E)|Hh].
  - cbn [xwrapper xenc_init app] in *. rewrite R. cbn [xbind]. destruct (inv_final P _ _ _ I E) as (O & Ac & Po & Fi & Fl).
    eexists _, a. split; [reflexivity|]. cbn [xwrapper]. repeat (split; [assumption|]). exact Fl.
  - exfalso. destruct Hh as (t1 & n & t2 & a & _ & N & _). specialize (K t1 n). lia.
Qed.
Print Assumptions C51_file.

(** Without a seek callback, the bytes released one after the other are the
    file. *)
Lemma released_file : forall a t b, obeys false a t b ->
  p_position b = p_position a + zlen (released t)
  /\ forall x, p_file b x = fill (p_file a) (p_position a) (released t) x.
Proof.
  intros a t b H. induction H as [a|p f F asked given t b _ _ _ IH|p f n F bytes t b _ _ _ IH|p f F q t b X _ _ IH|p f F q t b _ _ _ IH]; cbn [released] in *.
  - split; [rewrite zlen_nil; lia|]. intros x. rewrite fill_nil. reflexivity.
  - exact IH.
  - cbn [p_position p_file] in *. destruct IH as [I1 I2]. rewrite zlen_app. split; [lia|]. intros x. rewrite I2. exact (fill_app F p bytes (released t) x).
  - discriminate.
  - exact IH.
Qed.

Theorem C51_stream : forall P qs, keeps_going P -> can_seek P = false -> Forall room_queued qs ->
  exists e, xrun P xenc_init (xsession qs) = XOk e /\ released (x_trace (xwrapper e)) = queue_bytes true qs.
Proof.
  intros P qs K Sk H. destruct (C51_file P qs K H) as (e & a & R & O & _ & _ & Fl). exists e. split; [exact R|].
  rewrite Sk in O. destruct (released_file _ _ _ O) as [_ I2]. cbn [p_position p_file p_init] in I2.
  set (u := released _) in *. set (v := queue_bytes true qs) in *. pose proof (zlen_nonneg u). pose proof (zlen_nonneg v).
  assert (Q : forall x, 0 <= x -> znth u x = znth v x).
  { intros x Hx. specialize (I2 x). rewrite Fl in I2. unfold fill in I2. rewrite Z.add_0_l, Z.sub_0_r in I2.
    destruct (Z.leb_spec 0 x); [|lia]. cbn [andb] in I2.
    destruct (Z.ltb_spec x (zlen v)), (Z.ltb_spec x (zlen u)); [congruence| | |rewrite !znth_none by lia; reflexivity].
    - rewrite I2, znth_none by lia. reflexivity.
    - rewrite <- I2, znth_none by lia. reflexivity. }
  assert (zlen u = zlen v).
  { destruct (Z.lt_trichotomy (zlen u) (zlen v)) as [Lt|[Eq|Lt]]; [|exact Eq|].
    - specialize (Q (zlen u) ltac:(lia)). rewrite znth_none in Q by lia. destruct (znth_ex v (zlen u)) as [w Ew]; [lia|congruence].
    - specialize (Q (zlen v) ltac:(lia)). rewrite (znth_none v) in Q by lia. destruct (znth_ex u (zlen v)) as [w Ew]; [lia|congruence]. }
  apply list_eq_znth; [assumption|]. intros i Hi. apply Q. lia.
Qed.
Print Assumptions C51_stream.

(** Any processor: until it asks to stop for the first time, it sees only what
    it may see.  (So no buffer is active when it asks.) *)
Theorem C51_until_stop : forall P calls, Forall call_ok calls ->
  (exists e state, xrun P xenc_init calls = XOk e /\ obeys (can_seek P) p_init (x_trace (xwrapper e)) state /\ p_active state = None)
  \/ exists before asked given rest state, seen (xrun P xenc_init calls) = before ++ XGet asked given :: rest /\ given <= 0
       /\ obeys (can_seek P) p_init before state /\ p_active state = None.
Proof.
  intros P calls H. destruct (xrun_good P calls xenc_init [] p_init (xinit P) eq_refl (Forall_nil _) H) as [(e & a & done & flags & R & A & Lf & I & E)|Hh].
  - left. destruct (inv_final P _ _ _ I E) as (O & Ac & _). exists e, a. auto.
  - right. destruct Hh as (t1 & n & t2 & a & E & N & O & Ac). exists t1, n, (give P t1 n), t2, a. auto.
Qed.
Print Assumptions C51_until_stop.

(** ** C52: the processor asks to stop. *)

(** Success without a stop means that nothing is missing: what
    [C51_every_history] says about processors that never ask to stop holds for
    every run in which the processor did not. *)
Theorem C52_no_stop_partial : forall P calls, Forall call_ok calls ->
  asked_to_stop (seen (xrun P xenc_init calls)) = false ->
  exists e state done flags, xrun P xenc_init calls = XOk e
    /\ xadded calls = done ++ xqueue e /\ length flags = length done
    /\ obeys (can_seek P) p_init (x_trace (xwrapper e)) state
    /\ p_active state = None /\ p_finalized state = zlen (all_coded done flags)
    /\ forall x, p_file state x = if (0 <=? x) && (x <? zlen (all_coded done flags)) then znth (all_coded done flags) x else None.
Proof.
  intros P calls H N. destruct (xrun_good P calls xenc_init [] p_init (xinit P) eq_refl (Forall_nil _) H) as [(e & a & done & flags & R & A & Lf & I & E)|Hh].
  - cbn [app xqueue xenc_init] in *. destruct (inv_final P _ _ _ I E) as (O & Ac & Po & Fi & Fl).
    exists e, a, done, flags. repeat (split; [assumption|]). exact Fl.
  - exfalso. destruct Hh as (t1 & n & t2 & a & E & G & _). rewrite E in N. unfold asked_to_stop in N. rewrite existsb_app in N. cbn [existsb] in N.
    destruct (Z.leb_spec (give P t1 n) 0); [|lia]. rewrite orb_true_r in N. discriminate.
Qed.
Print Assumptions C52_no_stop_partial.

(** The stop is not forgotten: if calls succeeded although the processor asked
    to stop, the next flush with a frame or box in the queue fails. *)
Theorem C52_next_write_fails_partial : forall P calls e q more, xrun P xenc_init calls = XOk e ->
  asked_to_stop (x_trace (xwrapper e)) = true -> Forall queued_ok (xqueue e ++ [q]) ->
  exists w t, xrun P xenc_init (calls ++ CAdd q :: CFlush :: more) = XBad w t.
Proof.
  intros P calls e q more R S H.
  assert (A : forall cs e0 e1 t, xrun P e0 cs = XOk e1 -> xrun P e0 (cs ++ t) = xrun P e1 t).
  { induction cs as [|c cs IH]; intros e0 e1 t; cbn [xrun app]; [intros X; inversion X; reflexivity|].
    destruct c; [apply IH|apply IH|]. destruct (xflush_input P (xqueue e0) (xclosed e0) (xwrapper e0)); cbn [xbind]; [apply IH|discriminate]. }
  rewrite (A _ _ _ _ R). cbn [xrun xqueue xclosed xwrapper].
  assert (K : x_stop (xwrapper e) = true).
  { pose proof (st_run P calls xenc_init) as X. rewrite R in X. destruct X as [_ X]. apply X; [|exact S]. intros Z0. discriminate Z0. }
  assert (B : bad (xflush_input P (xqueue e ++ [q]) (xclosed e) (xwrapper e))).
  { destruct (xqueue e ++ [q]) as [|i rest] eqn:E; [destruct (xqueue e); discriminate E|]. cbn [xflush_input]. apply bad_bind, all_stopped; [exact K|].
    apply input_writes. inversion H as [|? ? Hi _]; subst. destruct i; cbn in *; [apply Hi|exact Hi]. }
  destruct (xflush_input P (xqueue e ++ [q]) (xclosed e) (xwrapper e)) as [s|w t]; [destruct B|]. cbn [xbind]. exists w, t. reflexivity.
Qed.
Print Assumptions C52_next_write_fails_partial.

(** A processor that answers with the given size until it has seen [k] calls,
    and then asks to stop. *)
Definition stops (k : nat) (seekable : bool) (size : Z) : proc :=
  Proc seekable (fun t _ => if (length t <? k)%nat then size else 0).

(** "If the output processor returns no buffer, the library will return an
    error": it does not, when the stop comes while the library writes out its
    own buffers at the end of an input.  JxlEncoderFlushInput returns
    JXL_ENC_SUCCESS although bytes were not delivered ... *)
Theorem C52_stop_reported_refuted : exists P qs e, Forall room_queued qs
  /\ xrun P xenc_init (xsession qs) = XOk e
  /\ last (x_trace (xwrapper e)) (XFinal 0) = XGet 2 0
  /\ released (x_trace (xwrapper e)) = [] /\ queue_bytes true qs <> [].
Proof.
  exists (stops 2 false 1), [QBox (Input [] (BBox [1; 2] [3; 4; 5]))]. eexists.
  split; [constructor; [|constructor]; split; [split; [constructor|discriminate]|exact I]|].
  split; [vm_compute; reflexivity|]. vm_compute. split; [reflexivity|]. split; [reflexivity|discriminate].
Qed.
Print Assumptions C52_stop_reported_refuted.

(** ... and with a seek callback it even declares bytes final that it never
    wrote: of the five bytes here only three were released. *)
Theorem C52_stop_finalized_refuted : exists P qs e, can_seek P = true /\ Forall room_queued qs
  /\ xrun P xenc_init (xsession qs) = XOk e
  /\ last (x_trace (xwrapper e)) (XSeek 0) = XFinal 5
  /\ zlen (queue_bytes true qs) = 5 /\ zlen (released (x_trace (xwrapper e))) = 3.
Proof.
  exists (stops 11 true 1), [QBox (Input [] (BBox [1; 2] [3; 4; 5]))]. eexists. split; [reflexivity|].
  split; [constructor; [|constructor]; split; [split; [constructor|discriminate]|exact I]|].
  split; [vm_compute; reflexivity|]. vm_compute. repeat split.
Qed.
Print Assumptions C52_stop_finalized_refuted.

(** The hypotheses of [C52_next_write_fails_partial] are met by the run above. *)
Example C52_next_write_case :
  let qs := [QBox (Input [] (BBox [1; 2] [3; 4; 5]))] in
  match xrun (stops 2 false 1) xenc_init (xsession qs) with
  | XOk e => asked_to_stop (x_trace (xwrapper e)) = true /\ Forall queued_ok (xqueue e ++ qs)
  | XBad _ _ => False
  end.
Proof. vm_compute. split; [reflexivity|]. constructor; [|constructor]. split; [constructor|discriminate]. Qed.

(** ** A case: the queue of C42's case, with processors that answer with sizes
    depending on what they saw. *)
Definition odd (seekable : bool) : proc := Proc seekable (fun t n => 1 + (Z.of_nat (length t) * 7 + n) mod 5).

Lemma odd_keeps_going b : keeps_going (odd b).
Proof. intros t n. cbn [give odd]. pose proof (Z.mod_pos_bound (Z.of_nat (length t) * 7 + n) 5). lia. Qed.

Example C51_case_hypotheses : keeps_going (odd true) /\ keeps_going (odd false) /\ Forall room_queued case_queue.
Proof.
  split; [apply odd_keeps_going|]. split; [apply odd_keeps_going|].
  pose proof C42_case_hypotheses as H. unfold case_queue in *. inversion H as [|? ? H1 H2]; subst. inversion H2 as [|? ? H3 _]; subst.
  constructor; [split; [exact H1|exact I]|]. constructor; [|constructor]. intros last. split; [exact (H3 last)|]. cbn. split; [discriminate|reflexivity].
Qed.

Example C51_case :
  match xrun (odd false) xenc_init (xsession case_queue) with
  | XOk e => released (x_trace (xwrapper e)) = queue_bytes true case_queue /\ length (x_trace (xwrapper e)) = 59%nat
  | XBad _ _ => False
  end.
Proof. vm_compute. split; reflexivity. Qed.

(** The start of what the seekable processor sees: the content of the jxlp box
    is written first, and the room before it filled later. *)
Example C51_case_seek :
  match xrun (odd true) xenc_init (xsession case_queue) with
  | XOk e => firstn 11 (x_trace (xwrapper e)) =
               [XGet 3 4; XRelease [74; 88; 76]; XSeek 7; XGet 6 3; XRelease []; XSeek 7; XGet 6 4;
                XRelease [0; 0; 0; 0]; XGet 2 4; XRelease [255; 10]; XSeek 3]
             /\ last (x_trace (xwrapper e)) (XSeek 0) = XFinal 37
  | XBad _ _ => False
  end.
Proof. vm_compute. split; reflexivity. Qed.
