(** * The invariant of the output queue with an output processor. *)
From Coq Require Import ZArith List Bool Lia Sorted.
From Verif Require Import Base ListAux OMap OutModel OutSpec OutInv OutRuns XOutModel XOutSpec.
Import ListNotations.
Local Open Scope Z_scope.
Ltac Zify.zify_post_hook ::= idtac.

Ltac flds := cbn [x_bufs x_position x_finalized x_outpos x_stop x_has x_user x_trace emit set_xbufs set_xhas set_xuser set_xpos set_xfin set_xout set_xstop] in *.

(** ** Traces *)
Lemma obeys_app k a t b u c : obeys k a t b -> obeys k b u c -> obeys k a (t ++ u) c.
Proof. intros H. revert u c. induction H; intros u c K; cbn [app]; [exact K|constructor; auto..]. Qed.

(** The processor asked to stop, and everything was as described until then. *)
Definition Halted (P : proc) (t : list xevent) : Prop :=
  exists t1 asked t2 a, t = t1 ++ XGet asked (give P t1 asked) :: t2 /\ give P t1 asked <= 0
    /\ obeys (can_seek P) p_init t1 a /\ p_active a = None.

Lemma halted_more P t u : Halted P t -> Halted P (t ++ u).
Proof.
  intros (t1 & n & t2 & a & -> & H & O & A). exists t1, n, (t2 ++ u), a. split; [rewrite <- app_assoc; reflexivity|]. auto.
Qed.

(** Calls only add to the trace. *)
Definition Ext {A} (tr : A -> list xevent) (t : list xevent) (r : xres A) : Prop :=
  match r with XOk a => exists u, tr a = t ++ u | XBad _ t' => exists u, t' = t ++ u end.

Lemma ext_bind {A B} (ta : A -> list xevent) (tb : B -> list xevent) t (x : xres A) (f : A -> xres B) :
  Ext ta t x -> (forall a, Ext tb (ta a) (f a)) -> Ext tb t (xbind x f).
Proof.
  intros H K. destruct x as [a|w t']; cbn in *; [|exact H]. destruct H as [u E]. specialize (K a). rewrite E in K.
  destruct (f a) as [b|w t']; cbn in *; destruct K as [v K]; exists (u ++ v); rewrite K, app_assoc; reflexivity.
Qed.
Lemma ext_weaken {A} (tr : A -> list xevent) t u r : Ext tr (t ++ u) r -> Ext tr t r.
Proof. destruct r; cbn; intros [v E]; exists (u ++ v); rewrite E, app_assoc; reflexivity. Qed.
Lemma ext_same {A} (tr : A -> list xevent) a : Ext tr (tr a) (XOk a).
Proof. exists []. rewrite app_nil_r. reflexivity. Qed.
Lemma ext_ensure {A} (tr : A -> list xevent) s b (r : xres A) : Ext tr (x_trace s) r -> Ext tr (x_trace s) (xbind (xensure s b) (fun _ => r)).
Proof. intros H. destruct b; cbn; [exact H|]. exists []. rewrite app_nil_r. reflexivity. Qed.
Lemma ext_bad {A} (tr : A -> list xevent) t w : Ext tr t (XBad w t).
Proof. exists []. rewrite app_nil_r. reflexivity. Qed.
Lemma ext_ok {A} (tr : A -> list xevent) t a : tr a = t -> Ext tr t (XOk a).
Proof. intros <-. apply ext_same. Qed.

Definition tr3 (x : xst * xref * Z) : list xevent := x_trace (fst (fst x)).
Definition tr2 {B} (x : xst * B) : list xevent := x_trace (fst x).

Lemma ext_get_own s m r : Ext tr3 (x_trace s) (xget_own s m r).
Proof.
  unfold xget_own. apply ext_ensure. destruct (find_key _ _); [apply ext_ok; reflexivity|apply ext_bad].
Qed.
Lemma ext_get P s m r : Ext tr3 (x_trace s) (xget_buffer P s m r).
Proof.
  unfold xget_buffer. do 2 apply ext_ensure. destruct (x_stop s); [apply ext_bad|]. do 2 apply ext_ensure.
  destruct (_ =? 0); [|apply ext_get_own]. cbn zeta. destruct (_ <=? 0); [eapply ext_weaken, ext_bad|].
  destruct (_ <? _); [|eapply ext_weaken, ext_ok; reflexivity].
  eapply ext_weaken. eapply ext_weaken. exact (ext_get_own (emit (emit s _) _) _ _).
Qed.
Lemma ext_buffer_append s r n d : Ext x_trace (x_trace s) (xbuffer_append s r n d).
Proof.
  unfold xbuffer_append. apply (ext_bind x_trace).
  - destruct r; [destruct (_ <=? _); [apply ext_ok; reflexivity|apply ext_bad]|].
    destruct (find_key _ _); [|apply ext_bad]. destruct (_ <=? _); [apply ext_ok; reflexivity|apply ext_bad].
  - intros s'. apply ext_ensure, ext_same.
Qed.
Lemma ext_external P s d n : Ext tr2 (x_trace s) (append_external P s d n).
Proof.
  unfold append_external. cbn zeta. destruct (_ <=? 0); [eapply ext_weaken, ext_ok; reflexivity|].
  destruct (_ <=? _); [|eapply ext_weaken, ext_bad]. eapply ext_weaken, ext_weaken, ext_ok; reflexivity.
Qed.
Lemma ext_flush_loop P : forall fuel s, Ext x_trace (x_trace s) (xflush_loop P fuel s).
Proof.
  induction fuel as [|fuel IH]; intros s; cbn [xflush_loop]; [apply ext_bad|].
  destruct (_ <? _); [|apply ext_same]. destruct (x_bufs s) as [|[k b] rest]; [apply ext_bad|]. do 2 apply ext_ensure.
  apply (ext_bind tr2).
  - destruct (owned b); [apply ext_ok; reflexivity|]. apply ext_ensure, ext_external.
  - intros [s' more]. unfold tr2. cbn [fst]. destruct more; [|apply ext_same].
    set (s1 := if _ =? _ then set_xbufs s' rest else s'). assert (E : x_trace s' = x_trace s1) by (unfold s1; destruct (_ =? _); reflexivity).
    rewrite E. destruct (can_seek P); [apply IH|]. eapply ext_weaken. exact (IH (emit s1 _)).
Qed.
Lemma ext_flush P s : Ext x_trace (x_trace s) (xflush_output P s).
Proof. unfold xflush_output. apply ext_ensure, ext_flush_loop. Qed.
Lemma ext_final P s : Ext x_trace (x_trace s) (xset_finalized P s).
Proof.
  unfold xset_finalized. apply ext_ensure. destruct (can_seek P).
  - eapply ext_weaken. exact (ext_flush P (set_xfin (emit s _) _)).
  - exact (ext_flush P (set_xfin s _)).
Qed.
Lemma ext_seek P s p : Ext x_trace (x_trace s) (xseek P s p).
Proof.
  unfold xseek. apply ext_ensure. destruct (can_seek P).
  - eapply ext_weaken. refine (ext_ensure x_trace (set_xout (emit s (XSeek p)) p) _ _ _). apply ext_ok. reflexivity.
  - apply ext_ensure, ext_ok. reflexivity.
Qed.
Lemma ext_write_out P : forall fuel s d n, Ext tr2 (x_trace s) (write_out P fuel s d n).
Proof.
  induction fuel as [|fuel IH]; intros s d n; cbn [write_out]; [apply ext_bad|].
  destruct (_ <? _); [|apply ext_ok; reflexivity]. apply (ext_bind tr2); [apply ext_external|].
  intros [s' more]. unfold tr2 at 2. cbn [fst]. destruct more; [apply IH|apply ext_ok; reflexivity].
Qed.
Lemma ext_release P s n : Ext x_trace (x_trace s) (xrelease_buffer P s n).
Proof.
  unfold xrelease_buffer. apply ext_ensure. cbn zeta. destruct (find_key _ _) as [b|]; [|apply (ext_bad x_trace (x_trace (set_xhas s false)))].
  destruct (n =? 0); [eapply ext_weaken, ext_ok; reflexivity|].
  set (s1 := set_xpos _ _). change (x_trace s) with (x_trace s1). apply ext_ensure.
  destruct (owned b).
  - set (s2 := set_xuser _ _). apply (ext_weaken _ _ [XRelease (firstn (Z.to_nat n) (x_user s1))]).
    change (x_trace s1 ++ [XRelease (firstn (Z.to_nat n) (x_user s1))]) with (x_trace s2). destruct (can_seek P).
    + set (s3 := set_xout _ _). change (x_trace s2) with (x_trace s3). do 2 apply ext_ensure. apply ext_same.
    + apply (ext_bind x_trace); [apply ext_final|]. intros s3. do 2 apply ext_ensure. apply ext_same.
  - destruct (can_seek P); [|apply ext_same]. set (s2 := set_xout _ _). apply (ext_weaken _ _ [XSeek (x_position s1 - n)]).
    change (x_trace s1 ++ [XSeek (x_position s1 - n)]) with (x_trace s2). apply (ext_bind tr2); [apply ext_write_out|].
    intros [s3 all]. unfold tr2. cbn [fst]. destruct all; apply ext_ok; reflexivity.
Qed.
Lemma ext_piece P s m r pick d : Ext tr2 (x_trace s) (xwrite_piece P s m r pick d).
Proof.
  unfold xwrite_piece. apply (ext_bind tr3); [apply ext_get|]. intros [[s1 rf] size]. unfold tr3. cbn [fst].
  apply (ext_bind x_trace); [apply ext_buffer_append|]. intros s2. apply (ext_bind x_trace); [apply ext_release|].
  intros s3. apply ext_ok. reflexivity.
Qed.
Lemma ext_loop P m pick : forall fuel s d, Ext x_trace (x_trace s) (xappend_loop P fuel s m pick d).
Proof.
  induction fuel as [|fuel IH]; intros s d; cbn [xappend_loop]; [apply ext_bad|]. destruct d; [apply ext_same|].
  apply (ext_bind tr2); [apply ext_piece|]. intros [s' rest]. apply IH.
Qed.
Lemma ext_exec P s o : Ext x_trace (x_trace s) (xexec P s o).
Proof.
  destruct o; cbn [xexec].
  - apply ext_seek.
  - apply (ext_bind tr2); [apply ext_piece|]. intros [s' rest]. apply ext_ok. reflexivity.
  - apply ext_loop.
  - apply ext_loop.
  - apply ext_ensure, ext_same.
  - apply ext_final.
Qed.
Lemma ext_exec_all P : forall os s, Ext x_trace (x_trace s) (xexec_all P s os).
Proof.
  induction os as [|o os IH]; intros s; cbn [xexec_all]; [apply ext_same|]. apply (ext_bind x_trace); [apply ext_exec|]. exact IH.
Qed.
Lemma ext_flush_input P cl : forall q s, Ext x_trace (x_trace s) (xflush_input P q cl s).
Proof.
  induction q as [|i q IH]; intros s; cbn [xflush_input]; [apply ext_same|]. apply (ext_bind x_trace); [apply ext_exec_all|]. exact IH.
Qed.
Lemma ext_run P : forall cs e, Ext (fun e => x_trace (xwrapper e)) (x_trace (xwrapper e)) (xrun P e cs).
Proof.
  induction cs as [|c cs IH]; intros e; cbn [xrun]; [apply ext_ok; reflexivity|]. destruct c; [apply (IH (XEnc _ _ _))|apply (IH (XEnc _ _ _))|].
  apply (ext_bind x_trace); [apply ext_flush_input|]. intros s. apply (IH (XEnc _ _ _)).
Qed.

(** What a run comes to: a state as wanted, or the processor asked to stop. *)
Definition trace_of {A} (tr : A -> list xevent) (r : xres A) : list xevent :=
  match r with XOk a => tr a | XBad _ t => t end.
Lemma halted_ext {A} P (tr : A -> list xevent) t r : Ext tr t r -> Halted P t -> Halted P (trace_of tr r).
Proof. destruct r; cbn; intros [u ->] H; apply halted_more; exact H. Qed.
Lemma halted_bind {A B} P (ta : A -> list xevent) (tb : B -> list xevent) (x : xres A) (f : A -> xres B) :
  (forall a, Ext tb (ta a) (f a)) -> Halted P (trace_of ta x) -> Halted P (trace_of tb (xbind x f)).
Proof. intros K H. destruct x as [a|w t]; cbn in *; [|exact H]. apply (halted_ext P tb (ta a)); [apply K|exact H]. Qed.
