(** * What the encoder's calls on its output queue do to the file. *)
From Coq Require Import ZArith List Bool Lia.
From Verif Require Import Base ListAux OMap OutModel OutSpec OutInv.
Import ListNotations.
Local Open Scope Z_scope.
Ltac Zify.zify_post_hook ::= idtac.

(** A list of calls turns a file, a position and a finalized position into
    others, from every state of the queue that stands for them. *)
Definition Runs (F : file) (p f : Z) (os : list op) (F' : file) (p' f' : Z) : Prop :=
  forall start s, Inv F start s -> position s = p -> finalized s = f ->
    exists s', exec_all s os = Ok s' /\ Inv F' start s' /\ position s' = p' /\ finalized s' = f'.

Lemma runs_nil F p f : Runs F p f [] F p f.
Proof. intros start s I P Q. exists s. split; [reflexivity|]. split; [exact I|]. split; assumption. Qed.

Lemma exec_all_app s os1 os2 : exec_all s (os1 ++ os2) = (let! s' := exec_all s os1 in exec_all s' os2).
Proof.
  revert s. induction os1 as [|o t IH]; intros s; [reflexivity|]. cbn [app exec_all].
  destruct (exec s o); cbn [obind]; [apply IH|reflexivity|reflexivity|reflexivity].
Qed.

Lemma runs_app F p f os1 F1 p1 f1 os2 F2 p2 f2 :
  Runs F p f os1 F1 p1 f1 -> Runs F1 p1 f1 os2 F2 p2 f2 -> Runs F p f (os1 ++ os2) F2 p2 f2.
Proof.
  intros H1 H2 start s I P Q. destruct (H1 start s I P Q) as (s1 & E1 & I1 & P1 & Q1).
  destruct (H2 start s1 I1 P1 Q1) as (s2 & E2 & I2 & P2 & Q2). exists s2. rewrite exec_all_app, E1. cbn [obind].
  split; [exact E2|]. split; [exact I2|]. split; assumption.
Qed.

Lemma runs_ext F p f os F1 F2 p' f' : (forall x, F1 x = F2 x) -> Runs F p f os F1 p' f' -> Runs F p f os F2 p' f'.
Proof.
  intros E H start s I P Q. destruct (H start s I P Q) as (s1 & E1 & I1 & P1 & Q1). exists s1.
  split; [exact E1|]. split; [apply (inv_ext F1); assumption|]. split; assumption.
Qed.

Lemma runs_one F p f o F' p' f' :
  (forall start s, Inv F start s -> position s = p -> finalized s = f ->
    exists s', exec s o = Ok s' /\ Inv F' start s' /\ position s' = p' /\ finalized s' = f') ->
  Runs F p f [o] F' p' f'.
Proof.
  intros H start s I P Q. destruct (H start s I P Q) as (s1 & E1 & R). exists s1. cbn [exec_all]. rewrite E1. cbn [obind].
  split; [reflexivity|exact R].
Qed.

Lemma runs_seek F p f p' : f <= p' -> Runs F p f [OSeek p'] F p' f.
Proof.
  intros H. apply runs_one. intros start s I P Q. cbn [exec]. unfold seek. rewrite (inv_free _ _ _ I). cbn [negb ensure obind].
  rewrite Q. destruct (Z.leb_spec f p'); [|lia]. cbn [ensure obind]. eexists. split; [reflexivity|]. cbn [position finalized].
  split; [|split; [reflexivity|reflexivity]]. destruct I. constructor; cbn [bufs position finalized outpos has_buffer mem nxt avail]; rewrite <- ?Q; try assumption; try reflexivity. lia.
Qed.

Lemma runs_check F p f : Runs F p f [OCheck p] F p f.
Proof.
  apply runs_one. intros start s I P Q. cbn [exec]. rewrite P, Z.eqb_refl. cbn [ensure obind]. exists s.
  split; [reflexivity|]. split; [exact I|]. split; assumption.
Qed.

Lemma runs_final F p f : (forall x, 0 <= x < p -> F x <> None) -> Runs F p f [OFinal] F p p.
Proof.
  intros H. apply runs_one. intros start s I P Q. cbn [exec]. unfold set_finalized_position, flush_output.
  rewrite (inv_free _ _ _ I). cbn [negb ensure obind has_buffer].
  destruct I. destruct inv_mem as (M1 & M2 & M3 & M4 & M5).
  destruct (flush_loop_ok F start (S (length (bufs s))) (WSt (bufs s) (position s) (position s) (outpos s) false (mem s) (nxt s) (avail s))) as (s' & E & I' & P' & Q');
    cbn [bufs position finalized outpos has_buffer mem nxt avail]; try assumption; try lia.
  { rewrite P. exact H. }
  exists s'. split; [exact E|]. split; [exact I'|]. cbn [position finalized] in *. split; congruence.
Qed.

Lemma fill_app F a l1 l2 x : fill (fill F a l1) (a + zlen l1) l2 x = fill F a (l1 ++ l2) x.
Proof.
  pose proof (zlen_nonneg l1). pose proof (zlen_nonneg l2). unfold fill. rewrite zlen_app.
  destruct (Z.leb_spec (a + zlen l1) x); destruct (Z.ltb_spec x (a + zlen l1 + zlen l2)); destruct (Z.leb_spec a x);
    destruct (Z.ltb_spec x (a + zlen l1)); destruct (Z.ltb_spec x (a + (zlen l1 + zlen l2))); cbn [andb]; try lia; try reflexivity.
  - rewrite znth_app by lia. destruct (Z.ltb_spec (x - a) (zlen l1)); [lia|]. f_equal. lia.
  - rewrite znth_app by lia. destruct (Z.ltb_spec (x - a) (zlen l1)); [|lia]. reflexivity.
Qed.
Lemma fill_back F a l1 l2 x : fill (fill F (a + zlen l1) l2) a l1 x = fill F a (l1 ++ l2) x.
Proof.
  pose proof (zlen_nonneg l1). pose proof (zlen_nonneg l2). unfold fill. rewrite zlen_app.
  destruct (Z.leb_spec (a + zlen l1) x); destruct (Z.ltb_spec x (a + zlen l1 + zlen l2)); destruct (Z.leb_spec a x);
    destruct (Z.ltb_spec x (a + zlen l1)); destruct (Z.ltb_spec x (a + (zlen l1 + zlen l2))); cbn [andb]; try lia; try reflexivity.
  - rewrite znth_app by lia. destruct (Z.ltb_spec (x - a) (zlen l1)); [lia|]. f_equal. lia.
  - rewrite znth_app by lia. destruct (Z.ltb_spec (x - a) (zlen l1)); [|lia]. reflexivity.
Qed.
Lemma fill_nil F a x : fill F a [] x = F x.
Proof. apply fill_out. rewrite zlen_nil. lia. Qed.
Lemma fill_cong F F' a l x : (forall y, F y = F' y) -> fill F a l x = fill F' a l x.
Proof. intros H. unfold fill. rewrite H. reflexivity. Qed.

(** Nothing is written in [a, b). *)
Definition empty (F : file) (a b : Z) : Prop := forall x, a <= x < b -> F x = None.

Lemma append_loop_ok min_size pick : 1 <= min_size -> (min_size = 1 \/ min_size = 32) ->
  (forall left size, 0 < left -> min_size <= size -> 1 <= pick left size <= Z.min left size) ->
  forall fuel data F start s, (length data < fuel)%nat -> Inv F start s ->
  (data <> [] -> empty F (position s) (position s + zlen data + (min_size - 1))) ->
  exists s', append_loop fuel s min_size pick data = Ok s' /\ wrote F start s data s'.
Proof.
  intros Hm Hm' Hp. induction fuel as [|fuel IH]; intros data F start s Hf I E; [lia|].
  destruct data as [|a data].
  - exists s. split; [reflexivity|]. split; [apply (inv_ext F); [intros x; symmetry; apply fill_nil|exact I]|].
    rewrite zlen_nil. split; lia.
  - cbn [append_loop]. set (D := a :: data) in *. assert (Dn : D <> []) by discriminate.
    pose proof (zlen_pos D Dn) as Dp.
    destruct (write_piece_ok F start s min_size (zlen D) (pick (zlen D)) D I Dn) as (n & s1 & N & W & I1 & P1 & Q1); try lia.
    + intros x Hx. apply (E Dn). lia.
    + intros size Hs. apply Hp; lia.
    + rewrite W. cbn [obind].
      assert (L1 : zlen (firstn (Z.to_nat n) D) = n) by (rewrite zlen_firstn by lia; lia).
      destruct (IH (skipn (Z.to_nat n) D) (fill F (position s) (firstn (Z.to_nat n) D)) start s1) as (s2 & E2 & I2 & P2 & Q2).
      * rewrite skipn_length. unfold zlen in N. lia.
      * exact I1.
      * intros _ x Hx. rewrite P1, L1, zlen_skipn in Hx by lia. rewrite fill_out by lia. apply (E Dn). lia.
      * exists s2. split; [exact E2|]. split; [|split; [|congruence]].
        -- apply (inv_ext _ _ _ _ (fun x => eq_trans (f_equal (fun q => fill (fill F (position s) (firstn (Z.to_nat n) D)) q (skipn (Z.to_nat n) D) x) P1) (fill_app F (position s) _ _ x))) in I2.
           rewrite firstn_skipn in I2. exact I2.
        -- rewrite P2, P1, L1, zlen_skipn by lia. lia.
Qed.

Lemma runs_append F p f d : empty F p (p + zlen d) -> Runs F p f [OAppend d] (fill F p d) (p + zlen d) f.
Proof.
  intros H. apply runs_one. intros start s I P Q. cbn [exec].
  destruct (append_loop_ok 1 Z.min ltac:(lia) ltac:(lia) ltac:(intros; lia) (S (length d)) d F start s) as (s' & E & I' & P' & Q'); try lia; [exact I| |].
  - intros _ x Hx. apply H. lia.
  - exists s'. subst p. split; [exact E|]. split; [exact I'|]. split; congruence.
Qed.

Lemma runs_fast F p f pick d : pick_ok pick -> (forall x, p <= x -> F x = None) ->
  Runs F p f [OFast pick d] (fill F p d) (p + zlen d) f.
Proof.
  intros K H. apply runs_one. intros start s I P Q. cbn [exec].
  destruct (append_loop_ok 32 pick ltac:(lia) ltac:(lia) K (S (length d)) d F start s) as (s' & E & I' & P' & Q'); try lia; [exact I| |].
  - intros _ x Hx. apply H. lia.
  - exists s'. subst p. split; [exact E|]. split; [exact I'|]. split; congruence.
Qed.

Lemma runs_put F p f d : d <> [] -> empty F p (p + zlen d) -> Runs F p f [OPut d] (fill F p d) (p + zlen d) f.
Proof.
  intros Dn H. apply runs_one. intros start s I P Q. cbn [exec]. pose proof (zlen_pos d Dn).
  destruct (write_piece_ok F start s (zlen d) 0 (fun _ => zlen d) d I Dn) as (n & s1 & N & W & I1 & P1 & Q1); try lia.
  - intros x Hx. apply H. lia.
  - assert (En : n = zlen d).
    { unfold write_piece in W. destruct (get_buffer s (zlen d) 0) as [[[? ?] ?]| | |]; try discriminate. cbn [obind] in W.
      destruct (buffer_append w b z _); try discriminate. cbn [obind] in W. destruct (release_buffer _ _); try discriminate. cbn [obind] in W.
      assert (X : skipn (Z.to_nat (zlen d)) d = skipn (Z.to_nat n) d) by congruence.
      apply (f_equal zlen) in X. rewrite !zlen_skipn in X by lia. lia. }
    subst n. rewrite W. cbn [obind]. exists s1. split; [reflexivity|].
    assert (X : firstn (Z.to_nat (zlen d)) d = d) by (unfold zlen; rewrite Nat2Z.id; apply firstn_all). rewrite X in *.
    subst p. split; [exact I1|]. split; congruence.
Qed.

Lemma total_nil : total [] = 0. Proof. reflexivity. Qed.
Lemma total_cons d l : total (d :: l) = zlen d + total l.
Proof. unfold total. cbn [concat]. apply zlen_app. Qed.
Lemma total_nonneg l : 0 <= total l. Proof. apply zlen_nonneg. Qed.

Lemma runs_appends l : forall F p f, empty F p (p + total l) ->
  Runs F p f (appends l) (fill F p (concat l)) (p + total l) f.
Proof.
  induction l as [|d l IH]; intros F p f H.
  - rewrite total_nil, Z.add_0_r. apply (runs_ext F p f [] F); [intros x; symmetry; apply fill_nil|apply runs_nil].
  - rewrite total_cons in *. pose proof (total_nonneg l). pose proof (zlen_nonneg d).
    change (appends (d :: l)) with ([OAppend d] ++ appends l).
    apply (runs_ext _ _ _ _ (fill (fill F p d) (p + zlen d) (concat l))); [intros x; apply fill_app|].
    replace (p + (zlen d + total l)) with (p + zlen d + total l) by lia.
    eapply runs_app; [apply runs_append; intros x Hx; apply H; lia|].
    apply IH. intros x Hx. rewrite fill_out by lia. apply H. lia.
Qed.

Lemma runs_fasts pick l : pick_ok pick -> forall F p f, (forall x, p <= x -> F x = None) ->
  Runs F p f (map (OFast pick) l) (fill F p (concat l)) (p + total l) f.
Proof.
  intros K. induction l as [|d l IH]; intros F p f H.
  - rewrite total_nil, Z.add_0_r. apply (runs_ext F p f [] F); [intros x; symmetry; apply fill_nil|apply runs_nil].
  - rewrite total_cons in *. pose proof (total_nonneg l). pose proof (zlen_nonneg d).
    change (map (OFast pick) (d :: l)) with ([OFast pick d] ++ map (OFast pick) l).
    apply (runs_ext _ _ _ _ (fill (fill F p d) (p + zlen d) (concat l))); [intros x; apply fill_app|].
    replace (p + (zlen d + total l)) with (p + zlen d + total l) by lia.
    eapply runs_app; [apply runs_fast; [exact K|exact H]|].
    apply IH. intros x Hx. rewrite fill_out by lia. apply H. lia.
Qed.

(** The calls add [bytes] at the end of the file and leave the position behind
    them. *)
Definition Adds (os : list op) (p : Z) (bytes : list Z) : Prop :=
  forall F f, f <= p -> (forall x, p <= x -> F x = None) ->
    Runs F p f os (fill F p bytes) (p + zlen bytes) f.

(** The same, and everything is final afterwards, if it was written before. *)
Definition AddsFinal (os : list op) (p : Z) (bytes : list Z) : Prop :=
  forall F f, f <= p -> 0 <= p -> (forall x, p <= x -> F x = None) -> (forall x, 0 <= x < p -> F x <> None) ->
    Runs F p f os (fill F p bytes) (p + zlen bytes) (p + zlen bytes).

Lemma fill_full F p l x : (forall x, 0 <= x < p -> F x <> None) -> 0 <= x < p + zlen l -> fill F p l x <> None.
Proof.
  intros H Hx. destruct (Z_lt_dec x p); [rewrite fill_out by lia; apply H; lia|]. rewrite fill_in by lia.
  destruct (znth_ex l (x - p)) as [v ->]; [lia|discriminate].
Qed.
Lemma fill_free F p l x : (forall x, p <= x -> F x = None) -> p + zlen l <= x -> fill F p l x = None.
Proof. intros H Hx. pose proof (zlen_nonneg l). rewrite fill_out by lia. apply H. lia. Qed.

Lemma adds_appends l p : Adds (appends l) p (concat l).
Proof. intros F f Hf H. apply runs_appends. intros x Hx. apply H. lia. Qed.

Lemma adds_app os1 os2 p b1 b2 : Adds os1 p b1 -> Adds os2 (p + zlen b1) b2 -> Adds (os1 ++ os2) p (b1 ++ b2).
Proof.
  intros H1 H2 F f Hf HF. pose proof (zlen_nonneg b1). rewrite zlen_app, Z.add_assoc.
  apply (runs_ext _ _ _ _ (fill (fill F p b1) (p + zlen b1) b2)); [intros x; apply fill_app|].
  eapply runs_app; [apply H1; assumption|]. apply H2; [lia|]. intros x Hx. apply fill_free; assumption.
Qed.

(** A box: the contents first, then the header before them. *)
Lemma box_ok p h (contents : list op) c : h <> [] -> Adds contents (p + zlen h) c ->
  AddsFinal (append_box p h contents (zlen c)) p (h ++ c).
Proof.
  intros Hn HC F f Hf Hp0 HF Hfull. unfold append_box. pose proof (zlen_nonneg h). pose proof (zlen_nonneg c).
  rewrite zlen_app, Z.add_assoc.
  apply (runs_ext _ _ _ _ (fill (fill F (p + zlen h) c) p h)); [intros x; apply fill_back|].
  apply (runs_app F p f _ F (p + zlen h) f); [apply runs_seek; lia|].
  eapply runs_app; [apply HC; [lia|intros x Hx; apply HF; lia]|].
  apply (runs_app _ _ _ [OSeek p] (fill F (p + zlen h) c) p f); [apply runs_seek; lia|].
  apply (runs_app _ _ _ [OPut h] (fill (fill F (p + zlen h) c) p h) (p + zlen h) f).
  - apply runs_put; [exact Hn|]. intros x Hx. rewrite fill_out by lia. apply HF. lia.
  - apply (runs_app _ _ _ [OSeek (p + zlen h + zlen c)] (fill (fill F (p + zlen h) c) p h) (p + zlen h + zlen c) f); [apply runs_seek; lia|].
    apply runs_final. intros x Hx. rewrite fill_back. apply fill_full; [exact Hfull|]. rewrite zlen_app. lia.
Qed.

Lemma content_ok_runs p c : content_ok c -> Adds (fst (content_ops p c)) p (content_bytes c)
  /\ snd (content_ops p c) = p + zlen (content_bytes c).
Proof.
  destruct c as [l|off fh toc dcg pad groups|pick b|pick off h g0 groups]; cbn [content_ok content_ops fst snd content_bytes]; intros H.
  - split; [apply adds_appends|reflexivity].
  - split; [|rewrite !zlen_app, H; unfold total; lia].
    intros F f Hf HF. set (hd := fh ++ toc ++ dcg ++ pad).
    assert (Lh : zlen hd = off) by (unfold hd; rewrite !zlen_app; lia).
    pose proof (zlen_nonneg hd). pose proof (total_nonneg groups).
    replace (fh ++ toc ++ dcg ++ pad ++ concat groups) with (hd ++ concat groups) by (unfold hd; rewrite !app_assoc; reflexivity).
    rewrite zlen_app. fold (total groups).
    apply (runs_ext _ _ _ _ (fill (fill F (p + zlen hd) (concat groups)) p hd)); [intros x; apply fill_back|].
    rewrite Lh. set (G := fill F (p + off) (concat groups)).
    assert (GE : empty G p (p + off)) by (intros x Hx; unfold G; rewrite fill_out by lia; apply HF; lia).
    apply (runs_app F p f _ F (p + off) f); [apply runs_seek; lia|].
    apply (runs_app _ _ _ _ G (p + off + total groups) f); [apply runs_appends; intros x Hx; apply HF; lia|].
    apply (runs_app _ _ _ [OSeek p] G p f); [apply runs_seek; lia|].
    apply (runs_app _ _ _ (appends [fh; toc; dcg; pad]) (fill G p hd) (p + off) f).
    { replace hd with (concat [fh; toc; dcg; pad]) by (cbn; rewrite app_nil_r; reflexivity).
      replace off with (total [fh; toc; dcg; pad]) by (unfold total; cbn [concat]; rewrite !zlen_app, zlen_nil; lia).
      apply runs_appends. intros x Hx. apply GE. rewrite !total_cons, total_nil in Hx. lia. }
    apply (runs_app _ _ _ [OCheck (p + off)] (fill G p hd) (p + off) f); [apply runs_check|].
    replace (p + off + total groups) with (p + (off + total groups)) by lia. apply runs_seek. lia.
  - split; [|reflexivity]. intros F f Hf HF. apply runs_fast; assumption.
  - destruct H as [K H]. split; [|rewrite !zlen_app; unfold total; lia].
    intros F f Hf HF. set (hd := h ++ g0).
    assert (Lh : zlen hd = off) by (unfold hd; rewrite !zlen_app; lia).
    pose proof (zlen_nonneg hd). pose proof (total_nonneg groups).
    replace (h ++ g0 ++ concat groups) with (hd ++ concat groups) by (unfold hd; rewrite !app_assoc; reflexivity).
    rewrite zlen_app. fold (total groups).
    apply (runs_ext _ _ _ _ (fill (fill F (p + zlen hd) (concat groups)) p hd)); [intros x; apply fill_back|].
    rewrite Lh. set (G := fill F (p + off) (concat groups)).
    assert (GE : empty G p (p + off)) by (intros x Hx; unfold G; rewrite fill_out by lia; apply HF; lia).
    apply (runs_app F p f _ F (p + off) f); [apply runs_seek; lia|].
    apply (runs_app _ _ _ _ G (p + off + total groups) f); [apply runs_fasts; [exact K|intros x Hx; apply HF; lia]|].
    apply (runs_app _ _ _ [OSeek p] G p f); [apply runs_seek; lia|].
    apply (runs_app _ _ _ (appends [h; g0]) (fill G p hd) (p + off) f).
    { replace hd with (concat [h; g0]) by (cbn; rewrite app_nil_r; reflexivity).
      replace off with (total [h; g0]) by (unfold total; cbn [concat]; rewrite !zlen_app, zlen_nil; lia).
      apply runs_appends. intros x Hx. apply GE. rewrite !total_cons, total_nil in Hx. lia. }
    replace (p + off + total groups) with (p + (off + total groups)) by lia. apply runs_seek. lia.
Qed.

Lemma final_of os p b : Adds os p b -> AddsFinal (os ++ [OFinal]) p b.
Proof.
  intros H F f Hf H0 HF Hfull. eapply runs_app; [apply H; assumption|]. apply runs_final.
  intros x Hx. apply fill_full; assumption.
Qed.

(** The same from a file that is final up to its end. *)
Definition AddsMore (os : list op) (p : Z) (bytes : list Z) : Prop :=
  forall F, 0 <= p -> (forall x, p <= x -> F x = None) -> (forall x, 0 <= x < p -> F x <> None) ->
    Runs F p p os (fill F p bytes) (p + zlen bytes) (p + zlen bytes).
Lemma adds_more os p b : AddsFinal os p b -> AddsMore os p b.
Proof. intros H F H0 HF Hfull. apply H; try assumption. lia. Qed.
Lemma more_nil p : AddsMore [] p [].
Proof.
  intros F H0 HF Hfull. rewrite zlen_nil, Z.add_0_r. apply (runs_ext F p p [] F); [intros x; symmetry; apply fill_nil|apply runs_nil].
Qed.
Lemma mores_app os1 os2 p b1 b2 : AddsMore os1 p b1 -> AddsMore os2 (p + zlen b1) b2 -> AddsMore (os1 ++ os2) p (b1 ++ b2).
Proof.
  intros H1 H2 F H0 HF Hfull. pose proof (zlen_nonneg b1). rewrite zlen_app, Z.add_assoc.
  apply (runs_ext _ _ _ _ (fill (fill F p b1) (p + zlen b1) b2)); [intros x; apply fill_app|].
  eapply runs_app; [apply H1; assumption|]. apply H2; [lia| |].
  - intros x Hx. apply fill_free; assumption.
  - intros x Hx. apply fill_full; assumption.
Qed.
Lemma finals_app os1 os2 p b1 b2 : AddsFinal os1 p b1 -> AddsMore os2 (p + zlen b1) b2 -> AddsFinal (os1 ++ os2) p (b1 ++ b2).
Proof.
  intros H1 H2 F f Hf H0 HF Hfull. pose proof (zlen_nonneg b1). rewrite zlen_app, Z.add_assoc.
  apply (runs_ext _ _ _ _ (fill (fill F p b1) (p + zlen b1) b2)); [intros x; apply fill_app|].
  eapply runs_app; [apply H1; assumption|]. apply H2; [lia| |].
  - intros x Hx. apply fill_free; assumption.
  - intros x Hx. apply fill_full; assumption.
Qed.

(** A frame in its box, or without one. *)
Lemma framed_ok p header after c : content_ok c ->
  let hs := zlen (opt_bytes header) in
  let e := snd (content_ops (p + hs + total after) c) in
  Adds (match header with Some _ => [OSeek (p + hs)] | None => [] end
        ++ appends after ++ fst (content_ops (p + hs + total after) c)
        ++ match header with
           | Some h => [OSeek p; OAppend h; OCheck (p + hs); OSeek e]
           | None => []
           end) p (opt_bytes header ++ concat after ++ content_bytes c)
  /\ e = p + zlen (opt_bytes header ++ concat after ++ content_bytes c).
Proof.
  intros K hs e. destruct (content_ok_runs (p + hs + total after) c K) as [HC He]. fold e in He.
  assert (Inner : Adds (appends after ++ fst (content_ops (p + hs + total after) c)) (p + hs) (concat after ++ content_bytes c)).
  { apply adds_app; [apply adds_appends|]. exact HC. }
  assert (Ee : e = p + zlen (opt_bytes header ++ concat after ++ content_bytes c)).
  { rewrite He. rewrite !zlen_app. unfold total, hs. lia. }
  split; [|exact Ee]. set (inner := concat after ++ content_bytes c) in *. pose proof (zlen_nonneg inner).
  destruct header as [h|]; cbn [opt_bytes] in *.
  - intros F f Hf HF. pose proof (zlen_nonneg h). rewrite <- Ee.
    apply (runs_ext _ _ _ _ (fill (fill F (p + zlen h) inner) p h)); [intros x; apply fill_back|].
    apply (runs_app F p f _ F (p + hs) f); [apply runs_seek; unfold hs; lia|]. rewrite (app_assoc (appends after)).
    eapply runs_app; [apply Inner; [unfold hs; lia|intros x Hx; apply HF; unfold hs in *; lia]|].
    fold hs. set (G := fill F (p + hs) inner).
    apply (runs_app _ _ _ [OSeek p] G p f); [apply runs_seek; lia|].
    apply (runs_app _ _ _ [OAppend h] (fill G p h) (p + hs) f).
    { apply runs_append. intros x Hx. unfold G. rewrite fill_out by (unfold hs; lia). apply HF. lia. }
    apply (runs_app _ _ _ [OCheck (p + hs)] (fill G p h) (p + hs) f); [apply runs_check|].
    apply runs_seek. rewrite Ee, zlen_app. lia.
  - cbn [app]. rewrite app_nil_r. unfold hs in *. cbn [opt_bytes] in *. rewrite zlen_nil, Z.add_0_r in *. exact Inner.
Qed.

Lemma body_runs p b : body_ok b -> AddsFinal (body_ops p b) p (body_bytes b).
Proof.
  destruct b as [before header after c index|h c]; cbn [body_ok body_ops body_bytes]; intros H.
  - destruct H as (K & _ & Ki). set (hs := match header with Some h => zlen h | None => 0 end).
    assert (Ehs : hs = zlen (opt_bytes header)) by (unfold hs; destruct header; reflexivity).
    set (p1 := p + total before).
    destruct (framed_ok p1 header after c K) as [HA He]. rewrite <- Ehs in HA, He.
    destruct (content_ops (p1 + hs + total after) c) as [co e] eqn:Ec. cbn [fst snd] in *.
    set (fr := opt_bytes header ++ concat after ++ content_bytes c) in *.
    set (idx := match index with Some (h, ic) => h ++ ic | None => [] end).
    replace (concat before ++ opt_bytes header ++ concat after ++ content_bytes c ++ idx) with ((concat before ++ fr) ++ idx)
      by (unfold fr; rewrite <- !app_assoc; reflexivity).
    set (bts := concat before ++ fr). set (io := match index with Some (h, c0) => append_box e h [OAppend c0] (zlen c0) | None => [] end).
    rewrite !app_assoc. unfold bts, io, idx. clear bts io idx.
    apply finals_app.
    + apply final_of. rewrite <- !app_assoc. apply adds_app; [apply adds_appends|]. exact HA.
    + rewrite zlen_app. replace (p + (zlen (concat before) + zlen fr)) with e by (rewrite He; unfold p1, total; lia).
      destruct index as [[ih ic]|].
      * apply adds_more, box_ok; [exact Ki|]. intros F f Hf HF. apply runs_append. intros x Hx. apply HF. lia.
      * apply more_nil.
  - apply box_ok; [exact H|]. intros F f Hf HF. apply runs_append. intros x Hx. apply HF. lia.
Qed.

(** The prologue: what it leaves unfinished is finished by the call of
    SetFinalizedPosition after it. *)
Lemma pieces_end xs : forall p, snd (pieces_ops p xs) = p + zlen (concat (map piece_bytes xs)).
Proof.
  induction xs as [|x xs IH]; intros p; [cbn [pieces_ops snd map concat]; rewrite zlen_nil; lia|].
  cbn [pieces_ops]. destruct (piece_ops p x) as [o1 p1] eqn:E1. destruct (pieces_ops p1 xs) as [o2 p2] eqn:E2.
  pose proof (IH p1) as H. rewrite E2 in H. cbn [snd] in *. rewrite H. cbn [map concat]. rewrite zlen_app.
  assert (p1 = p + zlen (piece_bytes x)) by (destruct x; cbn [piece_ops] in E1; inversion E1; cbn [piece_bytes]; rewrite ?zlen_app; lia). lia.
Qed.

Lemma pieces_ok xs : Forall piece_ok xs -> forall p,
  AddsFinal (fst (pieces_ops p xs) ++ [OFinal]) p (concat (map piece_bytes xs)).
Proof.
  induction xs as [|x xs IH]; intros H p.
  - cbn [pieces_ops fst map concat]. apply final_of. intros F f Hf HF. rewrite zlen_nil, Z.add_0_r.
    apply (runs_ext F p f [] F); [intros x; symmetry; apply fill_nil|apply runs_nil].
  - inversion H as [|? ? Hx Hxs]; subst. cbn [pieces_ops map concat].
    assert (Ep : snd (piece_ops p x) = p + zlen (piece_bytes x)) by (destruct x; cbn; rewrite ?zlen_app; lia).
    destruct (piece_ops p x) as [o1 p1] eqn:E1. cbn [snd] in Ep. subst p1.
    specialize (IH Hxs (p + zlen (piece_bytes x))). destruct (pieces_ops (p + zlen (piece_bytes x)) xs) as [o2 p2] eqn:E2.
    cbn [fst] in *. rewrite <- app_assoc. destruct x as [b|h c|h c]; cbn [piece_ops piece_bytes piece_ok] in *; inversion E1; subst o1.
    + intros F f Hf H0 HF Hfull. pose proof (zlen_nonneg b). rewrite zlen_app, Z.add_assoc.
      apply (runs_ext _ _ _ _ (fill (fill F p b) (p + zlen b) (concat (map piece_bytes xs)))); [intros x; apply fill_app|].
      eapply runs_app; [apply runs_append; intros x Hx'; apply HF; lia|]. apply IH; [lia|lia| |].
      * intros x Hx'. apply fill_free; assumption.
      * intros x Hx'. apply fill_full; assumption.
    + apply finals_app; [|apply adds_more, IH]. apply box_ok; [apply Hx|]. intros F f Hf HF. apply runs_put; [apply Hx|]. intros x Hx'. apply HF. lia.
    + apply finals_app; [|apply adds_more, IH]. apply box_ok; [apply Hx|]. intros F f Hf HF. apply runs_append. intros x Hx'. apply HF. lia.
Qed.

(** One element of the queue. *)
Lemma input_runs i p : input_ok i -> AddsFinal (input_ops p i) p (input_bytes i).
Proof.
  intros [H1 H2]. unfold input_ops, input_bytes. pose proof (pieces_end (i_prologue i) p) as E. pose proof (pieces_ok (i_prologue i) H1 p) as P.
  destruct (pieces_ops p (i_prologue i)) as [o p1]. cbn [fst snd] in *. subst p1. rewrite app_assoc. apply finals_app; [exact P|].
  apply adds_more, body_runs. exact H2.
Qed.

Lemma input_bytes_nonempty i : input_ok i -> input_bytes i <> [].
Proof.
  intros [_ H] E. unfold input_bytes in E. apply app_eq_nil in E. destruct E as [_ E].
  destruct (i_body i) as [before header after c index|h c]; cbn [body_ok body_bytes] in *.
  - destruct H as (_ & H & _). apply app_eq_nil in E. destruct E as [_ E]. apply app_eq_nil in E. destruct E as [_ E].
    apply app_eq_nil in E. destruct E as [_ E]. apply app_eq_nil in E. destruct E as [E _]. contradiction.
  - apply app_eq_nil in E. destruct E as [E _]. contradiction.
Qed.

