(** * After the processor asked to stop: the flag stays set, and nothing more
    can be written. *)
From Coq Require Import ZArith List Bool Lia.
From Verif Require Import Base ListAux OMap OutModel OutSpec XOutModel XOutSpec XOutInv.
Import ListNotations.
Local Open Scope Z_scope.
Ltac Zify.zify_post_hook ::= idtac.

(** The flag does not get lost, and is set whenever a call that succeeded saw
    the processor stop. *)
Definition J (s : xst) : Prop := asked_to_stop (x_trace s) = true -> x_stop s = true.
Definition Rel (s s' : xst) : Prop := (x_stop s = true -> x_stop s' = true) /\ (J s -> J s').
Definition St {A} (f : A -> xst) (s : xst) (r : xres A) : Prop :=
  match r with XOk a => Rel s (f a) | XBad _ _ => True end.

Lemma rel_trans a b c : Rel a b -> Rel b c -> Rel a c.
Proof. intros [A B] [C D]. split; auto. Qed.
Lemma st_bind {A B} (f : A -> xst) (g : B -> xst) s x k : St f s x -> (forall a, St g (f a) (k a)) -> St g s (xbind x k).
Proof.
  destruct x as [a|]; cbn; [|trivial]. intros H K. specialize (K a). destruct (k a); cbn in *; [|trivial]. exact (rel_trans _ _ _ H K).
Qed.
Lemma st_ensure {A} (f : A -> xst) s s0 b r : St f s r -> St f s (xbind (xensure s0 b) (fun _ => r)).
Proof. destruct b; cbn; trivial. Qed.
Lemma st_from {A} (f : A -> xst) s s1 r : Rel s s1 -> St f s1 r -> St f s r.
Proof. destruct r; cbn; [|trivial]. apply rel_trans. Qed.
(** A step that leaves the flag and adds no stop to the trace. *)
Lemma rel_same s s' : x_stop s' = x_stop s -> x_trace s' = x_trace s -> Rel s s'.
Proof. intros E1 E2. unfold Rel, J. rewrite E1, E2. auto. Qed.
Lemma rel_emit s s' e : x_stop s' = x_stop s -> x_trace s' = x_trace s ++ [e] -> asked_to_stop [e] = false -> Rel s s'.
Proof.
  intros E1 E2 E3. unfold Rel, J, asked_to_stop in *. rewrite E1, E2. split; [auto|]. intros H. rewrite existsb_app, E3, orb_false_r. exact H.
Qed.
Lemma rel_stop s s' : x_stop s' = true -> Rel s s'.
Proof. intros E. split; [auto|]. intros _ _. exact E. Qed.

Definition s3 (x : xst * xref * Z) : xst := fst (fst x).
Definition s2 {B} (x : xst * B) : xst := fst x.
Definition s1 (x : xst) : xst := x.

Lemma st_get_own s m r : St s3 s (xget_own s m r).
Proof. unfold xget_own. apply st_ensure. destruct (find_key _ _); cbn; [|trivial]. apply rel_same; reflexivity. Qed.
Lemma st_get P s m r : St s3 s (xget_buffer P s m r).
Proof.
  unfold xget_buffer. do 2 apply st_ensure. destruct (x_stop s); [exact I|]. do 2 apply st_ensure.
  destruct (_ =? 0); [|apply st_get_own]. cbn zeta. destruct (_ <=? 0) eqn:G; [exact I|].
  assert (Rel s (emit s (XGet (Z.max m r) (give P (x_trace s) (Z.max m r))))) as R
    by (eapply rel_emit; [reflexivity|reflexivity|]; unfold asked_to_stop; cbn [existsb]; rewrite G; reflexivity).
  destruct (_ <? _).
  - eapply st_from; [exact R|]. eapply st_from; [|apply st_get_own]. eapply rel_emit; reflexivity.
  - cbn. eapply rel_trans; [exact R|]. apply rel_same; reflexivity.
Qed.
Lemma st_buffer_append s r n d : St s1 s (xbuffer_append s r n d).
Proof.
  unfold xbuffer_append. apply (st_bind s1).
  - destruct r; [destruct (_ <=? _); [apply rel_same; reflexivity|exact I]|].
    destruct (find_key _ _); [|exact I]. destruct (_ <=? _); [apply rel_same; reflexivity|exact I].
  - intros s'. apply st_ensure. apply rel_same; reflexivity.
Qed.
Lemma st_external P s d n : St s2 s (append_external P s d n).
Proof.
  unfold append_external. cbn zeta. destruct (_ <=? 0) eqn:G; [apply rel_stop; reflexivity|].
  destruct (Z.min _ _ <=? _); [|exact I]. apply (rel_trans _ (emit s (XGet n (give P (x_trace s) n)))).
  - eapply rel_emit; [reflexivity|reflexivity|]. unfold asked_to_stop. cbn [existsb]. rewrite G. reflexivity.
  - eapply rel_emit; reflexivity.
Qed.
Lemma st_flush_loop P : forall fuel s, St s1 s (xflush_loop P fuel s).
Proof.
  induction fuel as [|fuel IH]; intros s; cbn [xflush_loop]; [exact I|].
  destruct (_ <? _); [|apply rel_same; reflexivity]. destruct (x_bufs s) as [|[k b] rest]; [exact I|]. do 2 apply st_ensure.
  apply (st_bind s2).
  - destruct (owned b); [apply rel_same; reflexivity|]. apply st_ensure, st_external.
  - intros [s' more]. change (s2 (s', more)) with s'. destruct more; [|apply rel_same; reflexivity]. eapply st_from; [|apply IH].
    cbn zeta. set (u := if _ =? _ then _ else s'). assert (Rel s' u) as R by (unfold u; destruct (_ =? _); apply rel_same; reflexivity).
    apply (rel_trans _ _ _ R). destruct (can_seek P); [apply rel_same; reflexivity|]. eapply rel_emit; reflexivity.
Qed.
Lemma st_flush P s : St s1 s (xflush_output P s).
Proof. unfold xflush_output. apply st_ensure, st_flush_loop. Qed.
Lemma st_final P s : St s1 s (xset_finalized P s).
Proof.
  unfold xset_finalized. apply st_ensure. eapply st_from; [|apply st_flush]. cbn zeta.
  destruct (can_seek P); [eapply rel_emit; reflexivity|apply rel_same; reflexivity].
Qed.
Lemma st_seek P s p : St s1 s (xseek P s p).
Proof.
  unfold xseek. apply st_ensure. cbn zeta. apply st_ensure.
  destruct (can_seek P); [eapply rel_emit; reflexivity|apply rel_same; reflexivity].
Qed.
Lemma st_write_out P : forall fuel s d n, St s2 s (write_out P fuel s d n).
Proof.
  induction fuel as [|fuel IH]; intros s d n; cbn [write_out]; [exact I|].
  destruct (_ <? _); [|apply rel_same; reflexivity]. apply (st_bind s2); [apply st_external|].
  intros [s' more]. change (s2 (s', more)) with s'. destruct more; [apply IH|apply rel_same; reflexivity].
Qed.
Lemma st_release P s n : St s1 s (xrelease_buffer P s n).
Proof.
  unfold xrelease_buffer. apply st_ensure. cbn zeta. destruct (find_key _ _) as [b|]; [|exact I].
  destruct (n =? 0); [eapply rel_emit; reflexivity|]. apply st_ensure. set (u := set_xpos _ _).
  apply (st_from s1 s u); [apply rel_same; reflexivity|]. destruct (owned b).
  - set (v := set_xuser _ _). apply (st_from s1 u v); [eapply rel_emit; reflexivity|]. destruct (can_seek P).
    + do 2 apply st_ensure. apply rel_same; reflexivity.
    + apply (st_bind s1); [apply st_final|]. intros w. do 2 apply st_ensure. apply rel_same; reflexivity.
  - destruct (can_seek P); [|apply rel_same; reflexivity]. set (v := set_xout _ _).
    apply (st_from s1 u v); [eapply rel_emit; reflexivity|]. apply (st_bind s2); [apply st_write_out|].
    intros [w all]. change (s2 (w, all)) with w. destruct all; apply rel_same; reflexivity.
Qed.
Lemma st_piece P s m r pick d : St s2 s (xwrite_piece P s m r pick d).
Proof.
  unfold xwrite_piece. apply (st_bind s3); [apply st_get|]. intros [[u rf] size]. change (s3 (u, rf, size)) with u.
  apply (st_bind s1); [apply st_buffer_append|]. intros v. apply (st_bind s1); [apply st_release|].
  intros w. apply rel_same; reflexivity.
Qed.
Lemma st_loop P m pick : forall fuel s d, St s1 s (xappend_loop P fuel s m pick d).
Proof.
  induction fuel as [|fuel IH]; intros s d; cbn [xappend_loop]; [exact I|]. destruct d; [apply rel_same; reflexivity|].
  apply (st_bind s2); [apply st_piece|]. intros [s' rest]. apply IH.
Qed.
Lemma st_exec P s o : St s1 s (xexec P s o).
Proof.
  destruct o; cbn [xexec].
  - apply st_seek.
  - apply (st_bind s2); [apply st_piece|]. intros [s' rest]. apply rel_same; reflexivity.
  - apply st_loop.
  - apply st_loop.
  - apply st_ensure. apply rel_same; reflexivity.
  - apply st_final.
Qed.
Lemma st_exec_all P : forall os s, St s1 s (xexec_all P s os).
Proof.
  induction os as [|o os IH]; intros s; cbn [xexec_all]; [apply rel_same; reflexivity|]. apply (st_bind s1); [apply st_exec|]. exact IH.
Qed.
Lemma st_flush_input P cl : forall q s, St s1 s (xflush_input P q cl s).
Proof.
  induction q as [|i q IH]; intros s; cbn [xflush_input]; [apply rel_same; reflexivity|]. apply (st_bind s1); [apply st_exec_all|]. exact IH.
Qed.
Lemma st_run P : forall cs e, St xwrapper (xwrapper e) (xrun P e cs).
Proof.
  induction cs as [|c cs IH]; intros e; cbn [xrun]; [apply rel_same; reflexivity|]. destruct c; [apply (IH (XEnc _ _ _))|apply (IH (XEnc _ _ _))|].
  apply (st_bind s1); [apply st_flush_input|]. intros s. apply (IH (XEnc _ _ _)).
Qed.

(** ** Writing after a stop *)
Definition bad {A} (r : xres A) : Prop := match r with XOk _ => False | XBad _ _ => True end.
Lemma bad_bind {A B} (x : xres A) (f : A -> xres B) : bad x -> bad (xbind x f).
Proof. destruct x; cbn; [contradiction|trivial]. Qed.
Lemma get_stopped P s m r : x_stop s = true -> bad (xget_buffer P s m r).
Proof. intros E. unfold xget_buffer. destruct (0 <? m); [|exact I]. destruct (negb _); [|exact I]. cbn. rewrite E. exact I. Qed.

Definition writes (o : op) : Prop :=
  match o with OPut _ => True | OAppend d => d <> [] | OFast _ d => d <> [] | _ => False end.
Lemma exec_stopped P s o : x_stop s = true -> writes o -> bad (xexec P s o).
Proof.
  intros E W. destruct o as [p|d|d|pick d|p|]; cbn [writes xexec xappend_loop] in *; try contradiction.
  - apply bad_bind. unfold xwrite_piece. apply bad_bind, get_stopped, E.
  - destruct d; [congruence|]. apply bad_bind. unfold xwrite_piece. apply bad_bind, get_stopped, E.
  - destruct d; [congruence|]. apply bad_bind. unfold xwrite_piece. apply bad_bind, get_stopped, E.
Qed.
Lemma all_stopped P : forall os s, x_stop s = true -> Exists writes os -> bad (xexec_all P s os).
Proof.
  induction os as [|o os IH]; intros s E H; [inversion H|]. cbn [xexec_all]. pose proof (st_exec P s o) as K.
  inversion H as [? ? W|? ? W]; subst; [apply bad_bind, exec_stopped; assumption|].
  destruct (xexec P s o) as [s'|]; cbn in *; [|exact I]. apply IH; [exact (proj1 K E)|exact W].
Qed.

Lemma appends_write l : concat l <> [] -> Exists writes (appends l).
Proof.
  induction l as [|x l IH]; cbn; [congruence|]. intros H. destruct x as [|z x]; [right; apply IH; exact H|left; cbn; discriminate].
Qed.
Lemma fasts_write pick l : concat l <> [] -> Exists writes (map (OFast pick) l).
Proof.
  induction l as [|x l IH]; cbn; [congruence|]. intros H. destruct x as [|z x]; [right; apply IH; exact H|left; cbn; discriminate].
Qed.
Lemma ex_l {A} (Q : A -> Prop) l1 l2 : Exists Q l1 -> Exists Q (l1 ++ l2).
Proof. intros H. apply Exists_app. left. exact H. Qed.
Lemma ex_r {A} (Q : A -> Prop) l1 l2 : Exists Q l2 -> Exists Q (l1 ++ l2).
Proof. intros H. apply Exists_app. right. exact H. Qed.
Lemma content_writes p c : content_bytes c <> [] -> Exists writes (fst (content_ops p c)).
Proof.
  destruct c as [l|off fh toc dcg pad groups|pick b|pick off h g0 groups]; cbn [content_bytes content_ops fst]; intros H.
  - apply appends_write. exact H.
  - apply ex_r. destruct (concat groups) eqn:G; [|apply ex_l, appends_write; congruence]. apply ex_r.
    rewrite app_nil_r in H. apply Exists_cons_tl. destruct fh; [|left; discriminate].
    apply Exists_cons_tl. destruct toc; [|left; discriminate]. apply Exists_cons_tl. destruct dcg; [|left; discriminate].
    apply Exists_cons_tl. left. exact H.
  - left. exact H.
  - apply ex_r. destruct (concat groups) eqn:G; [|apply ex_l, fasts_write; congruence]. apply ex_r.
    rewrite app_nil_r in H. apply Exists_cons_tl. destruct h; [|left; discriminate]. apply Exists_cons_tl. left. exact H.
Qed.
Lemma input_writes p i : input_ok i -> Exists writes (input_ops p i).
Proof.
  intros [_ B]. unfold input_ops. destruct (pieces_ops p (i_prologue i)) as [o p1]. apply ex_r, ex_r.
  destruct (i_body i) as [before header after c index|h c]; cbn [body_ops body_ok] in *.
  - destruct B as (_ & N & _). match goal with |- context [content_ops ?q c] => pose proof (content_writes q c N) as W; destruct (content_ops q c) as [co e] end.
    apply ex_r, ex_r, ex_r, ex_l. exact W.
  - apply ex_r, ex_r, Exists_cons_tl. left. exact I.
Qed.
