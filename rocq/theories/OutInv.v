(** * The invariant of the encoder's output queue. *)
From Coq Require Import ZArith List Bool Lia Sorted.
From Verif Require Import Base ListAux OMap OutModel.
Import ListNotations.
Local Open Scope Z_scope.
Ltac Zify.zify_post_hook ::= idtac.

(** ** Lists by integer index *)
Lemma znth_app {A} (l r : list A) i :
  0 <= i -> znth (l ++ r) i = if i <? zlen l then znth l i else znth r (i - zlen l).
Proof.
  intros H. destruct (Z.ltb_spec i (zlen l)); [apply znth_app_old; lia|].
  unfold znth. destruct (Z.ltb_spec i 0); [lia|]. destruct (Z.ltb_spec (i - zlen l) 0); [lia|].
  rewrite nth_error_app2 by (unfold zlen in *; lia). f_equal. unfold zlen. lia.
Qed.
Lemma zlen_firstn {A} (l : list A) n : 0 <= n -> zlen (firstn (Z.to_nat n) l) = Z.min n (zlen l).
Proof. intros H. unfold zlen. rewrite firstn_length. lia. Qed.
Lemma zlen_skipn {A} (l : list A) n : 0 <= n -> zlen (skipn (Z.to_nat n) l) = Z.max 0 (zlen l - n).
Proof. intros H. unfold zlen. rewrite skipn_length. lia. Qed.
Lemma znth_firstn {A} (l : list A) n i : i < n -> znth (firstn (Z.to_nat n) l) i = znth l i.
Proof. intros H. unfold znth. destruct (Z.ltb_spec i 0); [reflexivity|]. apply nth_error_firstn. lia. Qed.
Lemma znth_skipn {A} (l : list A) n i : 0 <= n -> 0 <= i -> znth (skipn (Z.to_nat n) l) i = znth l (n + i).
Proof.
  intros H K. unfold znth. destruct (Z.ltb_spec i 0); [lia|]. destruct (Z.ltb_spec (n + i) 0); [lia|].
  rewrite nth_error_skipn. f_equal. lia.
Qed.
Lemma zlen_repeat {A} (a : A) n : 0 <= n -> zlen (repeat a (Z.to_nat n)) = n.
Proof. intros H. unfold zlen. rewrite repeat_length. lia. Qed.
Lemma zlen_pos {A} (l : list A) : l <> [] -> 0 < zlen l.
Proof. destruct l; [congruence|]. intros _. rewrite zlen_cons. pose proof (zlen_nonneg l). lia. Qed.

Lemma overwrite_len l off d : 0 <= off -> off + zlen d <= zlen l -> zlen (overwrite l off d) = zlen l.
Proof.
  intros H K. unfold overwrite. pose proof (zlen_nonneg d). rewrite !zlen_app, zlen_firstn, zlen_skipn by lia. lia.
Qed.
Lemma overwrite_in l off d i : 0 <= off -> off + zlen d <= zlen l -> off <= i < off + zlen d ->
  znth (overwrite l off d) i = znth d (i - off).
Proof.
  intros H K L. unfold overwrite. rewrite znth_app by lia. rewrite zlen_firstn, Z.min_l by lia.
  destruct (Z.ltb_spec i off); [lia|]. apply znth_app_old. lia.
Qed.
Lemma overwrite_out l off d i : 0 <= off -> off + zlen d <= zlen l -> i < off \/ off + zlen d <= i ->
  znth (overwrite l off d) i = znth l i.
Proof.
  intros H K L. pose proof (zlen_nonneg d). destruct (Z.ltb_spec i 0) as [N|N].
  { rewrite !znth_none by lia. reflexivity. }
  unfold overwrite. rewrite znth_app by lia. rewrite zlen_firstn, Z.min_l by lia.
  destruct (Z.ltb_spec i off); [apply znth_firstn; lia|]. rewrite znth_app by lia.
  destruct (Z.ltb_spec (i - off) (zlen d)); [lia|]. rewrite znth_skipn by lia. f_equal. lia.
Qed.

(** ** The map of buffers *)
Definition before (x y : Z * ibuf) : Prop := fst x + written (snd x) <= fst y.

Lemma ss_app (A B : imap) : StronglySorted before (A ++ B) ->
  StronglySorted before A /\ StronglySorted before B /\ forall x y, In x A -> In y B -> before x y.
Proof.
  induction A as [|a A IH]; intros H; [split; [constructor|split; [exact H|contradiction]]|].
  cbn in H. apply StronglySorted_inv in H. destruct H as [H1 H2]. destruct (IH H1) as (I1 & I2 & I3).
  rewrite Forall_forall in H2. split; [|split; [exact I2|]].
  - constructor; [exact I1|]. apply Forall_forall. intros x Hx. apply H2, in_or_app. left. exact Hx.
  - intros x y [<-|Hx] Hy; [apply H2, in_or_app; right; exact Hy|apply I3; assumption].
Qed.
Lemma ss_insert (A B : imap) x : StronglySorted before (A ++ B) ->
  (forall y, In y A -> before y x) -> (forall y, In y B -> before x y) ->
  StronglySorted before (A ++ x :: B).
Proof.
  induction A as [|a A IH]; intros H HA HB.
  - cbn in *. constructor; [exact H|]. apply Forall_forall. exact HB.
  - cbn in *. apply StronglySorted_inv in H. destruct H as [H1 H2]. constructor.
    + apply IH; [exact H1| |exact HB]. intros y Hy. apply HA. right. exact Hy.
    + rewrite Forall_forall in *. intros y Hy. apply in_app_or in Hy. destruct Hy as [Hy|[<-|Hy]].
      * apply H2, in_or_app. left. exact Hy.
      * apply HA. left. reflexivity.
      * apply H2, in_or_app. right. exact Hy.
Qed.

Definition covered (p : Z) (m : imap) : Prop :=
  exists k b, In (k, b) m /\ k <= p < k + written b.

(** A position that no buffer covers splits the map. *)
Lemma map_split (m : imap) p : StronglySorted before m ->
  (forall k b, In (k, b) m -> 0 < written b) -> ~ covered p m ->
  exists A B, m = A ++ B
    /\ (forall k b, In (k, b) A -> k + written b <= p)
    /\ (forall k b, In (k, b) B -> p < k)
    /\ (forall v, emplace p v m = A ++ (p, v) :: B).
Proof.
  induction m as [|[k b] m IH]; intros S W C.
  - exists [], []. repeat split; try contradiction.
  - pose proof (W k b (or_introl eq_refl)) as Wk.
    assert (NC : ~ (k <= p < k + written b)) by (intros N; apply C; exists k, b; split; [left; reflexivity|exact N]).
    apply StronglySorted_inv in S. destruct S as [S1 S2]. rewrite Forall_forall in S2.
    destruct (Z.ltb_spec p k) as [L|L].
    + exists [], ((k, b) :: m). split; [reflexivity|]. split; [contradiction|]. split.
      * intros k' b' [E|H]; [inversion E; subst; exact L|]. specialize (S2 _ H). unfold before in S2. cbn in S2. lia.
      * intros v. cbn. destruct (Z.eqb_spec p k); [lia|]. destruct (Z.ltb_spec p k); [reflexivity|lia].
    + destruct (IH S1) as (A & B & E & HA & HB & HE).
      * intros k' b' H. apply (W k' b'). right. exact H.
      * intros (k' & b' & H & R). apply C. exists k', b'. split; [right; exact H|exact R].
      * exists ((k, b) :: A), B. split; [rewrite E; reflexivity|]. split; [|split; [exact HB|]].
        -- intros k' b' [E'|H]; [inversion E'; subst; lia|]. apply (HA k' b' H).
        -- intros v. cbn. destruct (Z.eqb_spec p k); [lia|]. destruct (Z.ltb_spec p k); [lia|]. rewrite HE. reflexivity.
Qed.

Lemma find_mid (A B : imap) p v : (forall k b, In (k, b) A -> k < p) -> find_key p (A ++ (p, v) :: B) = Some v.
Proof.
  induction A as [|[k b] A IH]; intros H; cbn.
  - rewrite Z.eqb_refl. reflexivity.
  - pose proof (H k b (or_introl eq_refl)). destruct (Z.eqb_spec p k); [lia|]. apply IH. intros k' b' I. apply (H k' b'). right. exact I.
Qed.
Lemma assign_mid (A B : imap) p v w : (forall k b, In (k, b) A -> k < p) ->
  assign p w (A ++ (p, v) :: B) = A ++ (p, w) :: B.
Proof.
  induction A as [|[k b] A IH]; intros H; cbn.
  - rewrite Z.eqb_refl. reflexivity.
  - pose proof (H k b (or_introl eq_refl)). destruct (Z.eqb_spec p k); [lia|]. rewrite IH; [reflexivity|]. intros k' b' I. apply (H k' b'). right. exact I.
Qed.
Lemma next_mid (A B : imap) p v : (forall k b, In (k, b) A -> k < p) -> (forall k b, In (k, b) B -> p < k) ->
  next_key p (A ++ (p, v) :: B) = match B with [] => None | (k, _) :: _ => Some k end.
Proof.
  induction A as [|[k b] A IH]; intros H K; cbn.
  - destruct (Z.ltb_spec p p); [lia|]. destruct B as [|[k b] B]; [reflexivity|]. cbn.
    pose proof (K k b (or_introl eq_refl)). destruct (Z.ltb_spec p k); [reflexivity|lia].
  - pose proof (H k b (or_introl eq_refl)). destruct (Z.ltb_spec p k); [lia|]. apply IH; [|exact K]. intros k' b' I. apply (H k' b'). right. exact I.
Qed.

(** ** The file so far, and the invariant *)

(** Which byte, if any, has been written at each position of the file. *)
Definition file := Z -> option Z.

(** Where the byte at [p] of the file is, for the buffer at [k]. *)
Definition buf_ok (F : file) (s : wst) (k : Z) (b : ibuf) : Prop :=
  0 < written b /\ outpos s < k + written b /\
  match owned b with
  | [] => k + written b <= outpos s + avail s
          /\ forall p, outpos s <= p -> k <= p < k + written b -> F p = znth (mem s) (nxt s + (p - outpos s))
  | _ :: _ => written b <= zlen (owned b)
          /\ forall p, k <= p < k + written b -> F p = znth (owned b) (p - k)
  end.

(** [call]: the position of the file at which the caller's buffer starts, and
    the size of that buffer. *)
Record Inv (F : file) (call : Z * Z) (s : wst) : Prop := {
  inv_free : has_buffer s = false;
  inv_sorted : StronglySorted before (bufs s);
  inv_bufs : forall k b, In (k, b) (bufs s) -> buf_ok F s k b;
  inv_pos : 0 <= outpos s <= finalized s /\ finalized s <= position s;
  inv_cover : forall p, outpos s <= p -> F p <> None -> covered p (bufs s);
  inv_full : forall p, 0 <= p < finalized s -> F p <> None;
  inv_mem : 0 <= nxt s /\ 0 <= avail s /\ nxt s + avail s = zlen (mem s) /\ outpos s - nxt s = fst call /\ zlen (mem s) = snd call;
  inv_out : forall i, 0 <= i < nxt s -> znth (mem s) i = F (fst call + i);
  inv_flushed : outpos s = finalized s \/ avail s = 0 }.

Lemma inv_ext F F' (start : Z * Z) s : (forall p, F p = F' p) -> Inv F start s -> Inv F' start s.
Proof.
  intros E I. destruct I. constructor; try assumption.
  - intros k b H. destruct (inv_bufs0 k b H) as (H1 & H2 & H3). split; [exact H1|]. split; [exact H2|].
    destruct (owned b); destruct H3 as [H3 H4]; (split; [exact H3|]); intros p; rewrite <- E; apply H4.
  - intros p. rewrite <- E. apply inv_cover0.
  - intros p. rewrite <- E. apply inv_full0.
  - intros i. rewrite <- E. apply inv_out0.
Qed.

(** Covered positions hold a byte. *)
Lemma covered_some F start s p : Inv F start s -> outpos s <= p -> covered p (bufs s) -> F p <> None.
Proof.
  intros I L (k & b & H & R). destruct (inv_bufs _ _ _ I k b H) as (H1 & H2 & H3).
  destruct (inv_mem _ _ _ I) as (M1 & M2 & M3 & M4 & M5).
  destruct (owned b) as [|o os] eqn:Eo; destruct H3 as [H3 H4].
  - rewrite H4 by lia. destruct (znth_ex (mem s) (nxt s + (p - outpos s))) as [v ->]; [lia|discriminate].
  - rewrite H4 by lia. destruct (znth_ex (o :: os) (p - k)) as [v ->]; [lia|discriminate].
Qed.

Definition fill (F : file) (a : Z) (l : list Z) : file :=
  fun x => if (a <=? x) && (x <? a + zlen l) then znth l (x - a) else F x.
Lemma fill_in F a l x : a <= x < a + zlen l -> fill F a l x = znth l (x - a).
Proof. intros H. unfold fill. destruct (Z.leb_spec a x); [|lia]. destruct (Z.ltb_spec x (a + zlen l)); [reflexivity|lia]. Qed.
Lemma fill_out F a l x : x < a \/ a + zlen l <= x -> fill F a l x = F x.
Proof. intros H. unfold fill. destruct (Z.leb_spec a x); [|reflexivity]. destruct (Z.ltb_spec x (a + zlen l)); [lia|reflexivity]. Qed.

(** The state after a piece of [n] bytes has been written. *)
Definition wrote (F : file) (start : Z * Z) (s : wst) (d : list Z) (s' : wst) : Prop :=
  Inv (fill F (position s) d) start s' /\ position s' = position s + zlen d
  /\ finalized s' = finalized s.

(** Inserting a buffer with the new bytes keeps the invariant. *)
Lemma insert_inv F start s A B nb m' d :
  Inv F start s -> bufs s = A ++ B -> d <> [] ->
  (forall k b, In (k, b) A -> k + written b <= position s) ->
  (forall k b, In (k, b) B -> position s + zlen d <= k) ->
  written nb = zlen d ->
  zlen m' = zlen (mem s) ->
  (forall i, i < nxt s + (position s - outpos s) \/ nxt s + (position s - outpos s) + zlen d <= i -> znth m' i = znth (mem s) i) ->
  buf_ok (fill F (position s) d) (WSt [] 0 0 (outpos s) false m' (nxt s) (avail s)) (position s) nb ->
  wrote F start s d (WSt (A ++ (position s, nb) :: B) (position s + zlen d) (finalized s) (outpos s) false m' (nxt s) (avail s)).
Proof.
  intros I E D HA HB Wn Hm Hout Hnew. pose proof (zlen_pos d D) as Dp.
  destruct I as [Ifree Isort Ibufs Ipos Icov Ifull Imem Iout Ifl].
  split; [|split; [reflexivity|reflexivity]].
  rewrite E in Isort. constructor; cbn [bufs position finalized outpos has_buffer mem nxt avail].
  - reflexivity.
  - apply ss_insert; [exact Isort| |].
    + intros [k b] H. unfold before. cbn. apply (HA k b H).
    + intros [k b] H. unfold before. cbn. rewrite Wn. apply (HB k b H).
  - intros k b H. apply in_app_or in H.
    assert (Old : In (k, b) A \/ In (k, b) B ->
      buf_ok (fill F (position s) d) (WSt (A ++ (position s, nb) :: B) (position s + zlen d) (finalized s) (outpos s) false m' (nxt s) (avail s)) k b).
    { intros H'. assert (Hin : In (k, b) (bufs s)) by (rewrite E; apply in_or_app; exact H').
      destruct (Ibufs k b Hin) as (H1 & H2 & H3).
      assert (Side : k + written b <= position s \/ position s + zlen d <= k)
        by (destruct H' as [H'|H']; [left; apply (HA k b H')|right; apply (HB k b H')]).
      split; [exact H1|]. split; [exact H2|]. destruct (owned b) as [|o os]; destruct H3 as [H3 H4].
      - split; [exact H3|]. cbn [outpos mem nxt]. intros p P1 P2. rewrite fill_out by lia. rewrite H4 by lia.
        rewrite Hout by lia. reflexivity.
      - split; [exact H3|]. intros p P2. rewrite fill_out by lia. apply H4. exact P2. }
    destruct H as [H|[H|H]]; [apply Old; left; exact H| |apply Old; right; exact H].
    inversion H; subst k b. exact Hnew.
  - lia.
  - intros p P1 P2. destruct (Z_lt_dec p (position s)) as [L|L]; [|destruct (Z_lt_dec p (position s + zlen d)) as [L2|L2]].
    + rewrite fill_out in P2 by lia. destruct (Icov p P1 P2) as (k & b & H & R). exists k, b. split; [|exact R].
      rewrite E in H. apply in_app_or in H. apply in_or_app. destruct H as [H|H]; [left; exact H|right; right; exact H].
    + exists (position s), nb. split; [apply in_or_app; right; left; reflexivity|]. lia.
    + rewrite fill_out in P2 by lia. destruct (Icov p P1 P2) as (k & b & H & R). exists k, b. split; [|exact R].
      rewrite E in H. apply in_app_or in H. apply in_or_app. destruct H as [H|H]; [left; exact H|right; right; exact H].
  - intros p P. rewrite fill_out by lia. apply Ifull. exact P.
  - rewrite Hm. exact Imem.
  - intros i P. rewrite Hout by lia. rewrite fill_out by lia. apply Iout. exact P.
  - exact Ifl.
Qed.

Lemma write_piece_ok F start s min_size requested pick data :
  Inv F start s -> data <> [] -> 1 <= min_size -> requested <= zlen data -> Z.max min_size requested >= zlen data ->
  (forall x, position s <= x < position s + Z.max min_size (zlen data) -> F x = None) ->
  (forall size, min_size <= size -> 1 <= pick size <= Z.min (zlen data) size) ->
  exists n s', 1 <= n <= zlen data
    /\ write_piece s min_size requested pick data = Ok (s', skipn (Z.to_nat n) data)
    /\ wrote F start s (firstn (Z.to_nat n) data) s'.
Proof.
  intros I D Hmin Hreq Hreq' None_ Hpick.
  assert (Epos := inv_pos _ _ _ I). assert (Emem := inv_mem _ _ _ I).
  assert (Wr : forall k b, In (k, b) (bufs s) -> 0 < written b) by (intros k b H; apply (inv_bufs _ _ _ I k b H)).
  assert (NC : forall x, position s <= x < position s + Z.max min_size (zlen data) -> ~ covered x (bufs s)).
  { intros x Hx C. apply (covered_some F start s x I); [lia|exact C|]. apply None_. exact Hx. }
  pose proof (zlen_pos data D) as Dp.
  destruct (map_split (bufs s) (position s) (inv_sorted _ _ _ I) Wr) as (A & B & E & HA & HB & HE); [apply NC; lia|].
  assert (HA' : forall k b, In (k, b) A -> k < position s).
  { intros k b H. pose proof (HA k b H). pose proof (Wr k b ltac:(rewrite E; apply in_or_app; left; exact H)). lia. }
  assert (HB' : forall k b, In (k, b) B -> position s + Z.max min_size (zlen data) <= k).
  { intros k b H. pose proof (HB k b H). destruct (Z_le_dec (position s + Z.max min_size (zlen data)) k) as [|N]; [assumption|].
    exfalso. apply (NC k); [lia|]. assert (Hin : In (k, b) (bufs s)) by (rewrite E; apply in_or_app; right; exact H).
    exists k, b. split; [exact Hin|]. pose proof (Wr k b Hin). lia. }
  unfold write_piece, get_buffer. rewrite (inv_free _ _ _ I).
  destruct (Z.ltb_spec 0 min_size); [|lia]. cbn [ensure negb obind].
  destruct (Z.leb_spec (outpos s) (position s)); [|lia]. cbn [ensure obind].
  destruct (Z.ltb_spec (min_size + (position s - outpos s)) (avail s)) as [Fit|Fit].
  - (* in the caller's memory *)
    cbn [obind]. set (size := avail s - (position s - outpos s)).
    destruct (Hpick size) as [P1 P2]; [unfold size; lia|]. set (n := pick size) in *.
    set (d := firstn (Z.to_nat n) data).
    assert (Ld : zlen d = n) by (unfold d; rewrite zlen_firstn by lia; lia).
    assert (Dn : d <> []) by (intros Ed; rewrite Ed, zlen_nil in Ld; lia).
    assert (Nle : n <= size) by lia.
    eexists n, _. split; [lia|]. rewrite HE.
    unfold buffer_append, set_bufs. cbn [mem position bufs has_buffer nxt avail outpos finalized].
    destruct (Z.leb_spec 0 (nxt s + (position s - outpos s))); [|lia].
    destruct (Z.leb_spec (nxt s + (position s - outpos s) + zlen d) (zlen (mem s))); [|lia].
    cbn [andb obind]. destruct (Z.leb_spec (zlen d) size); [|lia]. cbn [ensure obind].
    unfold release_buffer. cbn [has_buffer ensure obind position bufs]. rewrite find_mid by exact HA'.
    destruct (Z.eqb_spec n 0); [lia|]. cbn [owned]. rewrite assign_mid by exact HA'. rewrite next_mid by assumption.
    assert (En : (match (match B with [] => None | (k, _) :: _ => Some k end) with Some k => position s + n <=? k | None => true end) = true).
    { destruct B as [|[k b] B]; [reflexivity|]. pose proof (HB' k b (or_introl eq_refl)). apply Z.leb_le. lia. }
    rewrite En. cbn [ensure obind mem nxt avail outpos finalized]. split; [reflexivity|].
    fold d. rewrite <- Ld. apply insert_inv; try assumption.
    + intros k b Hk. pose proof (HB' k b Hk). lia.
    + reflexivity.
    + apply overwrite_len; lia.
    + intros i Hi. apply overwrite_out; lia.
    + split; [cbn; lia|]. split; [cbn; lia|]. cbn [owned written outpos avail mem nxt]. split; [lia|].
      intros p Q1 Q2. rewrite fill_in by lia. rewrite overwrite_in by lia. f_equal. lia.
  - (* in a buffer of our own *)
    rewrite HE. rewrite next_mid by assumption. rewrite find_mid by exact HA'. rewrite assign_mid by exact HA'.
    set (alloc := match (match B with [] => None | (k, _) :: _ => Some k end) with Some k => Z.min (Z.max min_size requested) (k - position s) | None => Z.max min_size requested end).
    assert (Ealloc : alloc = Z.max min_size requested).
    { unfold alloc. destruct B as [|[k b] B]; [reflexivity|]. pose proof (HB' k b (or_introl eq_refl)). lia. }
    assert (En : (match (match B with [] => None | (k, _) :: _ => Some k end) with Some _ => min_size <=? alloc | None => true end) = true).
    { destruct B as [|[k b] B]; [reflexivity|]. apply Z.leb_le. lia. }
    rewrite En. cbn [ensure obind]. rewrite Ealloc. clear En. clearbody alloc. subst alloc.
    set (size := Z.max min_size requested). destruct (Hpick size) as [P1 P2]; [lia|]. set (n := pick size) in *.
    set (d := firstn (Z.to_nat n) data).
    assert (Ld : zlen d = n) by (unfold d; rewrite zlen_firstn by lia; lia).
    assert (Dn : d <> []) by (intros Ed; rewrite Ed, zlen_nil in Ld; lia).
    eexists n, _. split; [lia|].
    unfold buffer_append, set_bufs. cbn [mem position bufs has_buffer nxt avail outpos finalized].
    rewrite find_mid by exact HA'. cbn [owned written]. rewrite zlen_repeat by lia.
    destruct (Z.leb_spec (zlen d) size); [|lia]. cbn [obind ensure]. rewrite assign_mid by exact HA'.
    destruct (Z.leb_spec (zlen d) size); [|lia]. cbn [ensure obind].
    unfold release_buffer. cbn [has_buffer ensure obind position bufs]. rewrite find_mid by exact HA'.
    destruct (Z.eqb_spec n 0); [lia|]. cbn [owned]. rewrite assign_mid by exact HA'. rewrite next_mid by assumption.
    assert (En : (match (match B with [] => None | (k, _) :: _ => Some k end) with Some k => position s + n <=? k | None => true end) = true).
    { destruct B as [|[k b] B]; [reflexivity|]. pose proof (HB' k b (or_introl eq_refl)). apply Z.leb_le. lia. }
    rewrite En. cbn [ensure obind mem nxt avail outpos finalized]. split; [reflexivity|].
    fold d. rewrite <- Ld. apply insert_inv; try assumption.
    + intros k b Hk. pose proof (HB' k b Hk). lia.
    + reflexivity.
    + reflexivity.
    + reflexivity.
    + assert (Lo : zlen (overwrite (repeat 0 (Z.to_nat size)) 0 d) = size) by (rewrite overwrite_len; [apply zlen_repeat; lia|lia|rewrite zlen_repeat; lia]).
      split; [cbn; lia|]. split; [cbn; lia|]. cbn [owned written].
      destruct (overwrite (repeat 0 (Z.to_nat size)) 0 d) as [|o os] eqn:Eo; [rewrite zlen_nil in Lo; lia|].
      split; [lia|]. intros p Q. rewrite fill_in by lia. rewrite <- Eo. rewrite overwrite_in; [f_equal; lia|lia|rewrite zlen_repeat; lia|lia].
Qed.

(** ** Flushing *)
Lemma flush_loop_ok F (start : Z * Z) : forall fuel s, (length (bufs s) < fuel)%nat ->
  has_buffer s = false -> StronglySorted before (bufs s) ->
  (forall k b, In (k, b) (bufs s) -> buf_ok F s k b) ->
  0 <= outpos s <= finalized s -> finalized s <= position s ->
  (forall p, outpos s <= p -> F p <> None -> covered p (bufs s)) ->
  (forall p, 0 <= p < finalized s -> F p <> None) ->
  0 <= nxt s -> 0 <= avail s -> nxt s + avail s = zlen (mem s) -> outpos s - nxt s = fst start -> zlen (mem s) = snd start ->
  (forall i, 0 <= i < nxt s -> znth (mem s) i = F (fst start + i)) ->
  exists s', flush_loop (S fuel) s = Ok s' /\ Inv F start s' /\ position s' = position s /\ finalized s' = finalized s.
Proof.
  induction fuel as [|fuel IH]; intros s Hf Hfree Hs Hb Hp1 Hp2 Hc Hfull Hn Ha Hm Hst Hsz Hout; [lia|].
  remember (S fuel) as f1 eqn:Ef1. cbn [flush_loop]. destruct ((outpos s <? finalized s) && (0 <? avail s)) eqn:C.
  2: { exists s. split; [reflexivity|]. split; [|split; reflexivity]. constructor; try assumption; try lia. }
  apply andb_true_iff in C. destruct C as [C1 C2]. apply Z.ltb_lt in C1, C2.
  destruct (Hc (outpos s) ltac:(lia) (Hfull (outpos s) ltac:(lia))) as (k0 & b0 & Hin0 & R0).
  destruct (bufs s) as [|[k b] rest] eqn:Eb; [contradiction|].
  assert (Kle : k <= outpos s).
  { destruct Hin0 as [Hin0|Hin0]; [inversion Hin0; subst; lia|].
    apply StronglySorted_inv in Hs. destruct Hs as [_ Hs]. rewrite Forall_forall in Hs. specialize (Hs _ Hin0). unfold before in Hs. cbn in Hs.
    destruct (Hb k b (or_introl eq_refl)) as (W1 & _ & _). lia. }
  destruct (Z.leb_spec k (outpos s)); [|lia]. cbn [ensure obind].
  destruct (Hb k b (or_introl eq_refl)) as (W1 & W2 & W3).
  destruct (Z.eqb_spec (written b) 0) as [Wz|Wz]; [lia|]. cbn [negb ensure obind].
  assert (Srt := Hs). apply StronglySorted_inv in Hs. destruct Hs as [Hs1 Hs2]. rewrite Forall_forall in Hs2.
  set (num := Z.min (k + written b) (finalized s) - outpos s).
  (* both ways of advancing by n bytes *)
  assert (Step : forall n m', 0 < n -> n <= num -> n <= avail s -> (n = num \/ n = avail s) ->
    zlen m' = zlen (mem s) ->
    (forall i, 0 <= i < nxt s -> znth m' i = znth (mem s) i) ->
    (forall i, nxt s + n <= i -> znth m' i = znth (mem s) i) ->
    (forall i, 0 <= i < n -> znth m' (nxt s + i) = F (outpos s + i)) ->
    (owned b = [] -> m' = mem s) ->
    exists s', flush_loop f1
      (if k + written b =? outpos s + n
       then WSt rest (position s) (finalized s) (outpos s + n) false m' (nxt s + n) (avail s - n)
       else WSt ((k, b) :: rest) (position s) (finalized s) (outpos s + n) false m' (nxt s + n) (avail s - n)) = Ok s'
      /\ Inv F start s' /\ position s' = position s /\ finalized s' = finalized s).
  { intros n m' N1 N2 N3 N4 Lm M1 M2 M3 Own.
    assert (Bufs : forall k' b', In (k', b') ((k, b) :: rest) -> outpos s + n < k' + written b' ->
      forall bs, buf_ok F (WSt bs (position s) (finalized s) (outpos s + n) false m' (nxt s + n) (avail s - n)) k' b').
    { intros k' b' Hin Lt bs. destruct (Hb k' b' Hin) as (B1 & B2 & B3). split; [exact B1|]. split; [exact Lt|].
      destruct (owned b') eqn:Eo; destruct B3 as [B3 B4].
      - cbn [outpos avail mem nxt]. split; [lia|]. intros p Q1 Q2. rewrite B4 by lia.
        rewrite M2 by lia. f_equal. lia.
      - split; [exact B3|exact B4]. }
    destruct (Z.eqb_spec (k + written b) (outpos s + n)) as [El|El].
    - destruct (IH (WSt rest (position s) (finalized s) (outpos s + n) false m' (nxt s + n) (avail s - n))) as (s' & E' & I' & P' & F').
      all: cbn [bufs has_buffer outpos finalized position nxt avail mem].
      + cbn in Hf. lia.
      + reflexivity.
      + exact Hs1.
      + intros k' b' Hin. apply Bufs; [right; exact Hin|].
        specialize (Hs2 _ Hin). unfold before in Hs2. cbn in Hs2. destruct (Hb k' b' (or_intror Hin)) as (B1 & _ & _). lia.
      + lia.
      + exact Hp2.
      + intros p Q1 Q2. destruct (Hc p ltac:(lia) Q2) as (k' & b' & [Hin|Hin] & R).
        * inversion Hin; subst. lia.
        * exists k', b'. split; assumption.
      + exact Hfull.
      + lia.
      + lia.
      + lia.
      + lia.
      + lia.
      + intros i Q. destruct (Z_lt_dec i (nxt s)) as [L|L]; [rewrite M1 by lia; apply Hout; lia|].
        replace i with (nxt s + (i - nxt s)) by lia. rewrite M3 by lia. f_equal. lia.
      + subst f1. exists s'. split; [exact E'|]. split; [exact I'|]. split; assumption.
    - set (s2 := WSt ((k, b) :: rest) (position s) (finalized s) (outpos s + n) false m' (nxt s + n) (avail s - n)).
      assert (Stop : outpos s + n = finalized s \/ avail s - n = 0) by (unfold num in *; lia).
      exists s2. split; [|split; [|split; reflexivity]].
      + subst f1. cbn [flush_loop]. unfold s2 at 1 2 3. cbn [outpos finalized avail].
        destruct (Z.ltb_spec (outpos s + n) (finalized s)); destruct (Z.ltb_spec 0 (avail s - n)); try reflexivity. lia.
      + constructor; unfold s2; cbn [bufs has_buffer outpos finalized position nxt avail mem]; try assumption; try lia.
        * intros k' b' Hin. apply Bufs; [exact Hin|]. destruct Hin as [Hin|Hin].
          -- inversion Hin; subst. unfold num in *. lia.
          -- specialize (Hs2 _ Hin). unfold before in Hs2. cbn in Hs2. destruct (Hb k' b' (or_intror Hin)) as (B1 & _ & _). unfold num in *. lia.
        * intros p Q1 Q2. apply Hc; [lia|exact Q2].
        * intros i Q. destruct (Z_lt_dec i (nxt s)) as [L|L]; [rewrite M1 by lia; apply Hout; lia|].
          replace i with (nxt s + (i - nxt s)) by lia. rewrite M3 by lia. f_equal. lia. }
  destruct (owned b) as [|o os] eqn:Eo; destruct W3 as [W3 W4].
  - cbn [obind]. destruct (Step num (mem s)) as (s' & E' & I' & P' & F'); unfold num in *; try lia; try reflexivity.
    { intros i Q. rewrite W4 by lia. f_equal. lia. }
    exists s'. split; [|split; [exact I'|split; assumption]]. rewrite <- E'. unfold set_bufs. rewrite Hfree. cbn [outpos position finalized has_buffer mem nxt avail].
    destruct (k + written b =? _); reflexivity.
  - destruct (Z.ltb_spec (outpos s) (k + written b)); [|lia]. cbn [ensure obind]. fold num.
    set (n := Z.min num (avail s)).
    assert (N : 0 < n <= num /\ n <= avail s) by (unfold n, num in *; lia).
    destruct (Z.leb_spec (outpos s - k + n) (zlen (o :: os))) as [L1|L1]; [|unfold num in *; lia].
    destruct (Z.leb_spec (nxt s + n) (zlen (mem s))) as [L2|L2]; [|lia]. cbn [andb obind].
    set (d := firstn (Z.to_nat n) (skipn (Z.to_nat (outpos s - k)) (o :: os))).
    assert (Ld : zlen d = n) by (unfold d; rewrite zlen_firstn, zlen_skipn by lia; lia).
    destruct (Step n (overwrite (mem s) (nxt s) d)) as (s' & E' & I' & P' & F'); try (unfold n in *; lia).
    { apply overwrite_len; lia. }
    { intros i Q. apply overwrite_out; lia. }
    { intros i Q. apply overwrite_out; lia. }
    { intros i Q. rewrite overwrite_in by lia. unfold d. rewrite znth_firstn by lia. rewrite znth_skipn by lia. rewrite W4 by (unfold num in *; lia). f_equal. lia. }
    { discriminate. }
    exists s'. split; [|split; [exact I'|split; assumption]]. rewrite <- E'. unfold set_bufs. rewrite Hfree. cbn [outpos position finalized has_buffer mem nxt avail].
    destruct (k + written b =? _); reflexivity.
Qed.
