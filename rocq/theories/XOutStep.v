(** * Writing through an output processor keeps the file. *)
From Coq Require Import ZArith List Bool Lia Sorted.
From Verif Require Import Base ListAux OMap OutModel OutSpec OutInv OutRuns XOutModel XOutSpec XOutInv.
Import ListNotations.
Local Open Scope Z_scope.
Ltac Zify.zify_post_hook ::= idtac.

(** The parts common to processors with and without seek. *)
Record XC (P : proc) (s : xst) (a : pst) : Prop := {
  c_obeys : obeys (can_seek P) p_init (x_trace s) a;
  c_active : p_active a = None;
  c_pos : p_position a = x_outpos s;
  c_stop : x_stop s = false;
  c_has : x_has s = false;
  c_sorted : StronglySorted before (x_bufs s);
  c_written : forall k b, In (k, b) (x_bufs s) -> 0 < written b }.

(** With seek: the processor's file is the file. *)
Record XS (P : proc) (F : file) (f : Z) (s : xst) (a : pst) : Prop := {
  xs_c : XC P s a;
  xs_out : x_outpos s = x_position s;
  xs_fin : x_finalized s = f /\ p_finalized a = f /\ 0 <= f <= x_position s;
  xs_file : forall x, p_file a x = F x;
  xs_cov : forall x, covered x (x_bufs s) -> F x <> None }.

(** Without: it is the file up to the output position; the rest is in the
    library's buffers. *)
Record XN (P : proc) (F : file) (f : Z) (s : xst) (a : pst) : Prop := {
  xn_c : XC P s a;
  xn_fin : x_finalized s = x_outpos s /\ p_finalized a = x_outpos s /\ 0 <= f <= x_outpos s /\ x_outpos s <= x_position s;
  xn_file : forall x, p_file a x = if x <? x_outpos s then F x else None;
  xn_full : forall x, 0 <= x < x_outpos s -> F x <> None;
  xn_bufs : forall k b, In (k, b) (x_bufs s) -> x_outpos s < k + written b /\ written b <= zlen (owned b)
    /\ forall p, k <= p < k + written b -> F p = znth (owned b) (p - k);
  xn_cov : forall x, x_outpos s <= x -> F x <> None -> covered x (x_bufs s) }.

Definition XInv (P : proc) (F : file) (f : Z) (s : xst) (a : pst) : Prop :=
  if can_seek P then XS P F f s a else XN P F f s a.

Lemma xinv_ext P F F' f s a : (forall x, F x = F' x) -> XInv P F f s a -> XInv P F' f s a.
Proof.
  intros E. unfold XInv. destruct (can_seek P); intros []; constructor; try assumption.
  - intros x. rewrite <- E. apply xs_file0.
  - intros x. rewrite <- E. apply xs_cov0.
  - intros x. rewrite xn_file0, E. reflexivity.
  - intros x. rewrite <- E. apply xn_full0.
  - intros k b H. destruct (xn_bufs0 k b H) as (H1 & H2 & H3). split; [exact H1|]. split; [exact H2|]. intros p. rewrite <- E. apply H3.
  - intros x. rewrite <- E. apply xn_cov0.
Qed.

Lemma put_fill F a l : put F a l = fill F a l. Proof. reflexivity. Qed.

(** One round of writing to the processor. *)
Lemma external_ok P s a d n :
  obeys (can_seek P) p_init (x_trace s) a -> p_active a = None -> p_position a = x_outpos s ->
  p_finalized a <= x_outpos s -> 0 < n <= zlen d ->
  (exists g m, 1 <= m <= n
     /\ append_external P s d n = XOk (set_xout (emit (emit s (XGet n g)) (XRelease (firstn (Z.to_nat m) d))) (x_outpos s + m), true)
     /\ obeys (can_seek P) p_init ((x_trace s ++ [XGet n g]) ++ [XRelease (firstn (Z.to_nat m) d)])
          (Pst (x_outpos s + m) (p_finalized a) None (fill (p_file a) (x_outpos s) (firstn (Z.to_nat m) d))))
  \/ (exists s', append_external P s d n = XOk (s', false) /\ Halted P (x_trace s')).
Proof.
  intros O A Po Fi N. destruct a as [pp pf pa pF]. cbn in A, Po, Fi. subst pa pp. unfold append_external. cbn zeta.
  destruct (Z.leb_spec (give P (x_trace s) n) 0) as [Hg|Hg].
  - right. eexists. split; [reflexivity|]. flds. exists (x_trace s), n, [], (Pst (x_outpos s) pf None pF). auto.
  - left. set (g := give P (x_trace s) n) in *. exists g, (Z.min g n). split; [lia|].
    destruct (Z.leb_spec (Z.min g n) (zlen d)); [|lia]. split; [reflexivity|].
    assert (L : zlen (firstn (Z.to_nat (Z.min g n)) d) = Z.min g n) by (rewrite zlen_firstn by lia; lia).
    rewrite <- app_assoc. eapply obeys_app; [exact O|]. cbn [app p_finalized p_file].
    apply ob_get; [lia|lia|]. apply ob_release; [lia|lia|]. rewrite L. apply ob_nil.
Qed.

Lemma firstn_chain {A} (d : list A) i m : 0 <= i -> 0 <= m ->
  firstn (Z.to_nat i) d ++ firstn (Z.to_nat m) (skipn (Z.to_nat i) d) = firstn (Z.to_nat (i + m)) d.
Proof.
  intros. rewrite Z2Nat.inj_add by lia. generalize (Z.to_nat i) (Z.to_nat m). clear. intros i m. revert d.
  induction i as [|i IH]; intros d; [reflexivity|]. destruct d as [|x d]; [cbn; rewrite firstn_nil; reflexivity|]. cbn. f_equal. apply IH.
Qed.

(** A buffer of the library is written out at [k]. *)
Lemma write_out_ok P F k d used : can_seek P = true -> 0 < used <= zlen d ->
  forall fuel s a, (Z.to_nat (x_position s - x_outpos s) < fuel)%nat ->
  x_position s = k + used -> k <= x_outpos s <= k + used ->
  obeys (can_seek P) p_init (x_trace s) a -> p_active a = None -> p_position a = x_outpos s -> p_finalized a <= k ->
  (forall x, p_file a x = fill F k (firstn (Z.to_nat (x_outpos s - k)) d) x) ->
  (exists s' a', write_out P fuel s d used = XOk (s', true)
     /\ x_bufs s' = x_bufs s /\ x_position s' = x_position s /\ x_finalized s' = x_finalized s /\ x_outpos s' = k + used
     /\ x_stop s' = x_stop s /\ x_has s' = x_has s
     /\ obeys (can_seek P) p_init (x_trace s') a' /\ p_active a' = None /\ p_position a' = k + used /\ p_finalized a' = p_finalized a
     /\ forall x, p_file a' x = fill F k (firstn (Z.to_nat used) d) x)
  \/ (exists s', write_out P fuel s d used = XOk (s', false) /\ Halted P (x_trace s')).
Proof.
  intros Sk U. induction fuel as [|fuel IH]; intros s a Hf Hp Ho O A Po Fi Fl; [lia|]. cbn [write_out].
  destruct (Z.ltb_spec (x_outpos s) (x_position s)) as [L|L].
  2: { left. exists s, a. split; [reflexivity|]. do 3 (split; [reflexivity|]). split; [lia|]. do 2 (split; [reflexivity|]).
       split; [exact O|]. split; [exact A|]. split; [lia|]. split; [reflexivity|]. intros x. rewrite Fl. repeat f_equal. lia. }
  replace (x_outpos s - x_position s + used) with (x_outpos s - k) by lia.
  destruct (external_ok P s a (skipn (Z.to_nat (x_outpos s - k)) d) (x_position s - x_outpos s) O A Po) as [(g & m & M & E & O')|(s' & E & H)].
  - lia.
  - rewrite zlen_skipn by lia. lia.
  - rewrite E. cbn [xbind]. set (dm := firstn (Z.to_nat m) (skipn (Z.to_nat (x_outpos s - k)) d)) in *.
    set (s1 := set_xout _ _) in *. set (a1 := Pst _ _ _ _) in O'.
    destruct (IH s1 a1) as [(s' & a' & R)|R]; unfold s1, a1; flds; cbn [p_active p_position p_finalized p_file]; try assumption; try lia; try reflexivity.
    + intros x. replace (x_outpos s + m - k) with ((x_outpos s - k) + m) by lia. rewrite <- firstn_chain by lia. fold dm.
      rewrite (fill_cong _ _ _ _ x Fl). rewrite <- fill_app. rewrite zlen_firstn by lia.
      replace (k + Z.min (x_outpos s - k) (zlen d)) with (x_outpos s) by lia. reflexivity.
    + left. exists s', a'. exact R.
    + right. exact R.
  - right. exists s'. rewrite E. cbn [xbind]. split; [reflexivity|exact H].
Qed.

(** The place of a new piece in the map of buffers. *)
Lemma place P s a need : XC P s a -> 0 < need ->
  (forall x, x_position s <= x < x_position s + need -> ~ covered x (x_bufs s)) ->
  exists A B, x_bufs s = A ++ B
    /\ (forall k b, In (k, b) A -> k + written b <= x_position s)
    /\ (forall k b, In (k, b) A -> k < x_position s)
    /\ (forall k b, In (k, b) B -> x_position s + need <= k)
    /\ (forall v, emplace (x_position s) v (x_bufs s) = A ++ (x_position s, v) :: B).
Proof.
  intros I Hn NC. assert (Wr := c_written _ _ _ I).
  destruct (map_split (x_bufs s) (x_position s) (c_sorted _ _ _ I) Wr) as (A & B & E & HA & HB & HE); [apply NC; lia|].
  exists A, B. split; [exact E|]. split; [exact HA|]. split; [|split; [|exact HE]].
  - intros k b H. pose proof (HA k b H). pose proof (Wr k b ltac:(rewrite E; apply in_or_app; left; exact H)). lia.
  - intros k b H. pose proof (HB k b H). destruct (Z_le_dec (x_position s + need) k) as [|N]; [assumption|].
    exfalso. apply (NC k); [lia|]. assert (Hin : In (k, b) (x_bufs s)) by (rewrite E; apply in_or_app; right; exact H).
    exists k, b. split; [exact Hin|]. pose proof (Wr k b Hin). lia.
Qed.

Definition nextk (B : imap) : option Z := match B with [] => None | (k, _) :: _ => Some k end.

(** The library's own buffer. *)
Lemma get_own_ok s A B m r need : 
  (forall k b, In (k, b) A -> k < x_position s) ->
  (forall k b, In (k, b) B -> x_position s + need <= k) ->
  (forall v, emplace (x_position s) v (x_bufs s) = A ++ (x_position s, v) :: B) ->
  0 < need -> 0 < m <= need -> m <= r <= need ->
  xget_own s m r = XOk (set_xhas (set_xbufs s (A ++ (x_position s, IBuf 0 (repeat 0 (Z.to_nat r))) :: B)) true, XOwned, r).
Proof.
  intros HA HB HE Hn Hm Hr. unfold xget_own. rewrite HE. rewrite next_mid; [|exact HA|intros k b H; pose proof (HB k b H); lia].
  rewrite find_mid by exact HA. rewrite assign_mid by exact HA. cbn [written]. destruct B as [|[k b] B]; [reflexivity|].
  pose proof (HB k b (or_introl eq_refl)). rewrite Z.min_l by lia. destruct (Z.leb_spec m r); [reflexivity|lia].
Qed.

(** Bytes put in a buffer. *)
Lemma append_own_ok s A B r d : x_bufs s = A ++ (x_position s, IBuf 0 (repeat 0 (Z.to_nat r))) :: B ->
  (forall k b, In (k, b) A -> k < x_position s) -> zlen d <= r ->
  xbuffer_append s XOwned r d =
  XOk (set_xbufs s (A ++ (x_position s, IBuf 0 (overwrite (repeat 0 (Z.to_nat r)) 0 d)) :: B)).
Proof.
  intros E HA L. pose proof (zlen_nonneg d). unfold xbuffer_append. rewrite E. rewrite find_mid by exact HA. cbn [owned written].
  rewrite zlen_repeat by lia. rewrite assign_mid by exact HA. destruct (Z.leb_spec (zlen d) r); [|lia]. cbn [xbind]. unfold xensure. cbn [xbind]. reflexivity.
Qed.

Lemma overwrite_start r d : zlen d <= r -> firstn (Z.to_nat (zlen d)) (overwrite (repeat 0 (Z.to_nat r)) 0 d) = d.
Proof.
  intros L. unfold overwrite. cbn [Z.to_nat firstn app]. rewrite firstn_app. unfold zlen at 1 2. rewrite Nat2Z.id, firstn_all, Nat.sub_diag. cbn. apply app_nil_r.
Qed.
