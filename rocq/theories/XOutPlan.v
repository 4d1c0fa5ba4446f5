(** * The encoder's calls on its output queue, as changes of a file.

    [Plan F p f os F' p' f']: the calls [os] are such that a file, a position and
    a finalized position [F], [p], [f] become [F'], [p'], [f'].  The rules say
    what the calls rely on: bytes are written to places where none are, seeking
    goes to such a place, and only what is written is made final. *)
From Coq Require Import ZArith List Bool Lia.
From Verif Require Import Base ListAux OMap OutModel OutSpec OutInv OutRuns OutTop XOutModel XOutSpec.
Import ListNotations.
Local Open Scope Z_scope.
Ltac Zify.zify_post_hook ::= idtac.

Inductive Plan : file -> Z -> Z -> list op -> file -> Z -> Z -> Prop :=
| plan_nil : forall F p f, Plan F p f [] F p f
| plan_seek : forall F p f p', f <= p' -> F p' = None -> Plan F p f [OSeek p'] F p' f
| plan_check : forall F p f, Plan F p f [OCheck p] F p f
| plan_final : forall F p f, (forall x, 0 <= x < p -> F x <> None) -> Plan F p f [OFinal] F p p
| plan_append : forall F p f d, empty F p (p + zlen d) ->
    Plan F p f [OAppend d] (fill F p d) (p + zlen d) f
| plan_fast : forall F p f pick d, pick_ok pick -> (forall x, p <= x -> F x = None) ->
    Plan F p f [OFast pick d] (fill F p d) (p + zlen d) f
| plan_put : forall F p f d, d <> [] -> empty F p (p + zlen d) ->
    Plan F p f [OPut d] (fill F p d) (p + zlen d) f
| plan_app : forall F p f os1 F1 p1 f1 os2 F2 p2 f2,
    Plan F p f os1 F1 p1 f1 -> Plan F1 p1 f1 os2 F2 p2 f2 -> Plan F p f (os1 ++ os2) F2 p2 f2
| plan_ext : forall F p f os F1 F2 p' f',
    (forall x, F1 x = F2 x) -> Plan F p f os F1 p' f' -> Plan F p f os F2 p' f'.

(** A place where nothing is written. *)
Ltac hole :=
  repeat match goal with G := fill _ _ _ |- _ => unfold G in *; clear G end;
  repeat (rewrite fill_out by lia);
  match goal with H : forall x, _ <= x -> ?F x = None |- _ => apply H; lia end.

Lemma plan_appends l : forall F p f, empty F p (p + total l) ->
  Plan F p f (appends l) (fill F p (concat l)) (p + total l) f.
Proof.
  induction l as [|d l IH]; intros F p f H.
  - rewrite total_nil, Z.add_0_r. apply (plan_ext F p f [] F); [intros x; symmetry; apply fill_nil|apply plan_nil].
  - rewrite total_cons in *. pose proof (total_nonneg l). pose proof (zlen_nonneg d).
    change (appends (d :: l)) with ([OAppend d] ++ appends l).
    apply (plan_ext _ _ _ _ (fill (fill F p d) (p + zlen d) (concat l))); [intros x; apply fill_app|].
    replace (p + (zlen d + total l)) with (p + zlen d + total l) by lia.
    eapply plan_app; [apply plan_append; intros x Hx; apply H; lia|].
    apply IH. intros x Hx. rewrite fill_out by lia. apply H. lia.
Qed.

Lemma plan_fasts pick l : pick_ok pick -> forall F p f, (forall x, p <= x -> F x = None) ->
  Plan F p f (map (OFast pick) l) (fill F p (concat l)) (p + total l) f.
Proof.
  intros K. induction l as [|d l IH]; intros F p f H.
  - rewrite total_nil, Z.add_0_r. apply (plan_ext F p f [] F); [intros x; symmetry; apply fill_nil|apply plan_nil].
  - rewrite total_cons in *. pose proof (total_nonneg l). pose proof (zlen_nonneg d).
    change (map (OFast pick) (d :: l)) with ([OFast pick d] ++ map (OFast pick) l).
    apply (plan_ext _ _ _ _ (fill (fill F p d) (p + zlen d) (concat l))); [intros x; apply fill_app|].
    replace (p + (zlen d + total l)) with (p + zlen d + total l) by lia.
    eapply plan_app; [apply plan_fast; [exact K|exact H]|].
    apply IH. intros x Hx. rewrite fill_out by lia. apply H. lia.
Qed.

(** The calls add [bytes] at the end of the file and leave the position behind
    them. *)
Definition Adds (os : list op) (p : Z) (bytes : list Z) : Prop :=
  forall F f, f <= p -> (forall x, p <= x -> F x = None) ->
    Plan F p f os (fill F p bytes) (p + zlen bytes) f.

(** The same, and everything is final afterwards, if it was written before. *)
Definition AddsFinal (os : list op) (p : Z) (bytes : list Z) : Prop :=
  forall F f, f <= p -> 0 <= p -> (forall x, p <= x -> F x = None) -> (forall x, 0 <= x < p -> F x <> None) ->
    Plan F p f os (fill F p bytes) (p + zlen bytes) (p + zlen bytes).

Lemma adds_appends l p : Adds (appends l) p (concat l).
Proof. intros F f Hf H. apply plan_appends. intros x Hx. apply H. lia. Qed.

Lemma adds_app os1 os2 p b1 b2 : Adds os1 p b1 -> Adds os2 (p + zlen b1) b2 -> Adds (os1 ++ os2) p (b1 ++ b2).
Proof.
  intros H1 H2 F f Hf HF. pose proof (zlen_nonneg b1). rewrite zlen_app, Z.add_assoc.
  apply (plan_ext _ _ _ _ (fill (fill F p b1) (p + zlen b1) b2)); [intros x; apply fill_app|].
  eapply plan_app; [apply H1; assumption|]. apply H2; [lia|]. intros x Hx. apply fill_free; assumption.
Qed.

(** A box: the contents first, then the header before them. *)
Lemma box_ok p h (contents : list op) c : h <> [] -> Adds contents (p + zlen h) c ->
  AddsFinal (append_box p h contents (zlen c)) p (h ++ c).
Proof.
  intros Hn HC F f Hf Hp0 HF Hfull. unfold append_box. pose proof (zlen_pos h Hn). pose proof (zlen_nonneg h). pose proof (zlen_nonneg c).
  rewrite zlen_app, Z.add_assoc.
  apply (plan_ext _ _ _ _ (fill (fill F (p + zlen h) c) p h)); [intros x; apply fill_back|].
  apply (plan_app F p f _ F (p + zlen h) f); [apply plan_seek; [lia|hole]|].
  eapply plan_app; [apply HC; [lia|intros x Hx; apply HF; lia]|].
  apply (plan_app _ _ _ [OSeek p] (fill F (p + zlen h) c) p f); [apply plan_seek; [lia|hole]|].
  apply (plan_app _ _ _ [OPut h] (fill (fill F (p + zlen h) c) p h) (p + zlen h) f).
  - apply plan_put; [exact Hn|]. intros x Hx. rewrite fill_out by lia. apply HF. lia.
  - apply (plan_app _ _ _ [OSeek (p + zlen h + zlen c)] (fill (fill F (p + zlen h) c) p h) (p + zlen h + zlen c) f); [apply plan_seek; [lia|hole]|].
    apply plan_final. intros x Hx. rewrite fill_back. apply fill_full; [exact Hfull|]. rewrite zlen_app. lia.
Qed.

Lemma content_ok_runs p c : content_ok c -> room_content c -> Adds (fst (content_ops p c)) p (content_bytes c)
  /\ snd (content_ops p c) = p + zlen (content_bytes c).
Proof.
  destruct c as [l|off fh toc dcg pad groups|pick b|pick off h g0 groups]; cbn [content_ok content_ops fst snd content_bytes room_content]; intros H R.
  - split; [apply adds_appends|reflexivity].
  - split; [|rewrite !zlen_app, H; unfold total; lia].
    intros F f Hf HF. set (hd := fh ++ toc ++ dcg ++ pad).
    assert (Lh : zlen hd = off) by (unfold hd; rewrite !zlen_app; lia).
    pose proof (zlen_nonneg hd). pose proof (total_nonneg groups).
    replace (fh ++ toc ++ dcg ++ pad ++ concat groups) with (hd ++ concat groups) by (unfold hd; rewrite !app_assoc; reflexivity).
    rewrite zlen_app. fold (total groups).
    apply (plan_ext _ _ _ _ (fill (fill F (p + zlen hd) (concat groups)) p hd)); [intros x; apply fill_back|].
    rewrite Lh. set (G := fill F (p + off) (concat groups)).
    assert (GE : empty G p (p + off)) by (intros x Hx; unfold G; rewrite fill_out by lia; apply HF; lia).
    apply (plan_app F p f _ F (p + off) f); [apply plan_seek; [lia|hole]|].
    apply (plan_app _ _ _ _ G (p + off + total groups) f); [apply plan_appends; intros x Hx; apply HF; lia|].
    apply (plan_app _ _ _ [OSeek p] G p f); [apply plan_seek; [lia|hole]|].
    apply (plan_app _ _ _ (appends [fh; toc; dcg; pad]) (fill G p hd) (p + off) f).
    { replace hd with (concat [fh; toc; dcg; pad]) by (cbn; rewrite app_nil_r; reflexivity).
      replace off with (total [fh; toc; dcg; pad]) by (unfold total; cbn [concat]; rewrite !zlen_app, zlen_nil; lia).
      apply plan_appends. intros x Hx. apply GE. rewrite !total_cons, total_nil in Hx. lia. }
    apply (plan_app _ _ _ [OCheck (p + off)] (fill G p hd) (p + off) f); [apply plan_check|].
    replace (p + off + total groups) with (p + (off + total groups)) by lia. apply plan_seek; [lia|unfold total in *; hole].
  - split; [|reflexivity]. intros F f Hf HF. apply plan_fast; assumption.
  - destruct H as [K H]. split; [|rewrite !zlen_app; unfold total; lia].
    intros F f Hf HF. set (hd := h ++ g0).
    assert (Lh : zlen hd = off) by (unfold hd; rewrite !zlen_app; lia).
    pose proof (zlen_nonneg hd). pose proof (total_nonneg groups).
    replace (h ++ g0 ++ concat groups) with (hd ++ concat groups) by (unfold hd; rewrite !app_assoc; reflexivity).
    rewrite zlen_app. fold (total groups).
    apply (plan_ext _ _ _ _ (fill (fill F (p + zlen hd) (concat groups)) p hd)); [intros x; apply fill_back|].
    rewrite Lh. set (G := fill F (p + off) (concat groups)).
    assert (GE : empty G p (p + off)) by (intros x Hx; unfold G; rewrite fill_out by lia; apply HF; lia).
    apply (plan_app F p f _ F (p + off) f); [apply plan_seek; [lia|hole]|].
    apply (plan_app _ _ _ _ G (p + off + total groups) f); [apply plan_fasts; [exact K|intros x Hx; apply HF; lia]|].
    apply (plan_app _ _ _ [OSeek p] G p f); [apply plan_seek; [lia|hole]|].
    apply (plan_app _ _ _ (appends [h; g0]) (fill G p hd) (p + off) f).
    { replace hd with (concat [h; g0]) by (cbn; rewrite app_nil_r; reflexivity).
      replace off with (total [h; g0]) by (unfold total; cbn [concat]; rewrite !zlen_app, zlen_nil; lia).
      apply plan_appends. intros x Hx. apply GE. rewrite !total_cons, total_nil in Hx. lia. }
    replace (p + off + total groups) with (p + (off + total groups)) by lia. apply plan_seek; [lia|unfold total in *; hole].
Qed.

Lemma final_of os p b : Adds os p b -> AddsFinal (os ++ [OFinal]) p b.
Proof.
  intros H F f Hf H0 HF Hfull. eapply plan_app; [apply H; assumption|]. apply plan_final.
  intros x Hx. apply fill_full; assumption.
Qed.

(** The same from a file that is final up to its end. *)
Definition AddsMore (os : list op) (p : Z) (bytes : list Z) : Prop :=
  forall F, 0 <= p -> (forall x, p <= x -> F x = None) -> (forall x, 0 <= x < p -> F x <> None) ->
    Plan F p p os (fill F p bytes) (p + zlen bytes) (p + zlen bytes).
Lemma adds_more os p b : AddsFinal os p b -> AddsMore os p b.
Proof. intros H F H0 HF Hfull. apply H; try assumption. lia. Qed.
Lemma more_nil p : AddsMore [] p [].
Proof.
  intros F H0 HF Hfull. rewrite zlen_nil, Z.add_0_r. apply (plan_ext F p p [] F); [intros x; symmetry; apply fill_nil|apply plan_nil].
Qed.
Lemma mores_app os1 os2 p b1 b2 : AddsMore os1 p b1 -> AddsMore os2 (p + zlen b1) b2 -> AddsMore (os1 ++ os2) p (b1 ++ b2).
Proof.
  intros H1 H2 F H0 HF Hfull. pose proof (zlen_nonneg b1). rewrite zlen_app, Z.add_assoc.
  apply (plan_ext _ _ _ _ (fill (fill F p b1) (p + zlen b1) b2)); [intros x; apply fill_app|].
  eapply plan_app; [apply H1; assumption|]. apply H2; [lia| |].
  - intros x Hx. apply fill_free; assumption.
  - intros x Hx. apply fill_full; assumption.
Qed.
Lemma finals_app os1 os2 p b1 b2 : AddsFinal os1 p b1 -> AddsMore os2 (p + zlen b1) b2 -> AddsFinal (os1 ++ os2) p (b1 ++ b2).
Proof.
  intros H1 H2 F f Hf H0 HF Hfull. pose proof (zlen_nonneg b1). rewrite zlen_app, Z.add_assoc.
  apply (plan_ext _ _ _ _ (fill (fill F p b1) (p + zlen b1) b2)); [intros x; apply fill_app|].
  eapply plan_app; [apply H1; assumption|]. apply H2; [lia| |].
  - intros x Hx. apply fill_free; assumption.
  - intros x Hx. apply fill_full; assumption.
Qed.

(** A frame in its box, or without one. *)
Lemma framed_ok p header after c : content_ok c -> room_content c -> header <> Some [] ->
  let hs := zlen (opt_bytes header) in
  let e := snd (content_ops (p + hs + total after) c) in
  Adds (match header with Some _ => [OSeek (p + hs)] | None => [] end
        ++ appends after ++ fst (content_ops (p + hs + total after) c)
        ++ match header with
           | Some h => [OSeek p; OAppend h; OCheck (p + hs); OSeek e]
           | None => []
           end) p (opt_bytes header ++ concat after ++ content_bytes c)
  /\ e = p + zlen (opt_bytes header ++ concat after ++ content_bytes c).
Proof.
  intros K KR KH hs e. destruct (content_ok_runs (p + hs + total after) c K KR) as [HC He]. fold e in He.
  assert (Inner : Adds (appends after ++ fst (content_ops (p + hs + total after) c)) (p + hs) (concat after ++ content_bytes c)).
  { apply adds_app; [apply adds_appends|]. exact HC. }
  assert (Ee : e = p + zlen (opt_bytes header ++ concat after ++ content_bytes c)).
  { rewrite He. rewrite !zlen_app. unfold total, hs. lia. }
  split; [|exact Ee]. set (inner := concat after ++ content_bytes c) in *. pose proof (zlen_nonneg inner).
  destruct header as [h|]; cbn [opt_bytes] in *.
  - intros F f Hf HF. assert (0 < zlen h) by (apply zlen_pos; congruence). rewrite <- Ee.
    apply (plan_ext _ _ _ _ (fill (fill F (p + zlen h) inner) p h)); [intros x; apply fill_back|].
    apply (plan_app F p f _ F (p + hs) f); [apply plan_seek; [unfold hs; lia|unfold hs; hole]|]. rewrite (app_assoc (appends after)).
    eapply plan_app; [apply Inner; [unfold hs; lia|intros x Hx; apply HF; unfold hs in *; lia]|].
    fold hs. set (G := fill F (p + hs) inner).
    apply (plan_app _ _ _ [OSeek p] G p f); [apply plan_seek; [lia|hole]|].
    apply (plan_app _ _ _ [OAppend h] (fill G p h) (p + hs) f).
    { apply plan_append. intros x Hx. unfold G. rewrite fill_out by (unfold hs; lia). apply HF. lia. }
    apply (plan_app _ _ _ [OCheck (p + hs)] (fill G p h) (p + hs) f); [apply plan_check|].
    apply plan_seek; [rewrite Ee, zlen_app; lia|rewrite Ee, zlen_app; unfold hs in *; hole].
  - cbn [app]. rewrite app_nil_r. unfold hs in *. cbn [opt_bytes] in *. rewrite zlen_nil, Z.add_0_r in *. exact Inner.
Qed.

Definition room_body (b : body) : Prop :=
  match b with BFrame _ header _ c _ => header <> Some [] /\ room_content c | BBox _ _ => True end.

Lemma body_runs p b : body_ok b -> room_body b -> AddsFinal (body_ops p b) p (body_bytes b).
Proof.
  destruct b as [before header after c index|h c]; cbn [body_ok body_ops body_bytes room_body]; intros H R.
  - destruct H as (K & _ & Ki). set (hs := match header with Some h => zlen h | None => 0 end).
    assert (Ehs : hs = zlen (opt_bytes header)) by (unfold hs; destruct header; reflexivity).
    set (p1 := p + total before).
    destruct (framed_ok p1 header after c K (proj2 R) (proj1 R)) as [HA He]. rewrite <- Ehs in HA, He.
    destruct (content_ops (p1 + hs + total after) c) as [co e] eqn:Ec. cbn [fst snd] in *.
    set (fr := opt_bytes header ++ concat after ++ content_bytes c) in *.
    set (idx := match index with Some (h, ic) => h ++ ic | None => [] end).
    replace (concat before ++ opt_bytes header ++ concat after ++ content_bytes c ++ idx) with ((concat before ++ fr) ++ idx)
      by (unfold fr; rewrite <- !app_assoc; reflexivity).
    set (bts := concat before ++ fr). set (io := match index with Some (h, c0) => append_box e h [OAppend c0] (zlen c0) | None => [] end).
    rewrite !app_assoc. unfold bts, io, idx. clear bts io idx.
    apply finals_app.
    + apply final_of. rewrite <- !app_assoc. apply adds_app; [apply adds_appends|]. exact HA.
    + rewrite zlen_app. replace (p + (zlen (concat before) + zlen fr)) with e by (rewrite He; unfold p1, total; lia).
      destruct index as [[ih ic]|].
      * apply adds_more, box_ok; [exact Ki|]. intros F f Hf HF. apply plan_append. intros x Hx. apply HF. lia.
      * apply more_nil.
  - apply box_ok; [exact H|]. intros F f Hf HF. apply plan_append. intros x Hx. apply HF. lia.
Qed.

Lemma pieces_ok xs : Forall piece_ok xs -> forall p,
  AddsFinal (fst (pieces_ops p xs) ++ [OFinal]) p (concat (map piece_bytes xs)).
Proof.
  induction xs as [|x xs IH]; intros H p.
  - cbn [pieces_ops fst map concat]. apply final_of. intros F f Hf HF. rewrite zlen_nil, Z.add_0_r.
    apply (plan_ext F p f [] F); [intros x; symmetry; apply fill_nil|apply plan_nil].
  - inversion H as [|? ? Hx Hxs]; subst. cbn [pieces_ops map concat].
    assert (Ep : snd (piece_ops p x) = p + zlen (piece_bytes x)) by (destruct x; cbn; rewrite ?zlen_app; lia).
    destruct (piece_ops p x) as [o1 p1] eqn:E1. cbn [snd] in Ep. subst p1.
    specialize (IH Hxs (p + zlen (piece_bytes x))). destruct (pieces_ops (p + zlen (piece_bytes x)) xs) as [o2 p2] eqn:E2.
    cbn [fst] in *. rewrite <- app_assoc. destruct x as [b|h c|h c]; cbn [piece_ops piece_bytes piece_ok] in *; inversion E1; subst o1.
    + intros F f Hf H0 HF Hfull. pose proof (zlen_nonneg b). rewrite zlen_app, Z.add_assoc.
      apply (plan_ext _ _ _ _ (fill (fill F p b) (p + zlen b) (concat (map piece_bytes xs)))); [intros x; apply fill_app|].
      eapply plan_app; [apply plan_append; intros x Hx'; apply HF; lia|]. apply IH; [lia|lia| |].
      * intros x Hx'. apply fill_free; assumption.
      * intros x Hx'. apply fill_full; assumption.
    + apply finals_app; [|apply adds_more, IH]. apply box_ok; [apply Hx|]. intros F f Hf HF. apply plan_put; [apply Hx|]. intros x Hx'. apply HF. lia.
    + apply finals_app; [|apply adds_more, IH]. apply box_ok; [apply Hx|]. intros F f Hf HF. apply plan_append. intros x Hx'. apply HF. lia.
Qed.

(** One element of the queue. *)
Lemma input_plan i p : room_input i -> AddsFinal (input_ops p i) p (input_bytes i).
Proof.
  intros [[H1 H2] H3]. unfold input_ops, input_bytes. pose proof (pieces_end (i_prologue i) p) as E. pose proof (pieces_ok (i_prologue i) H1 p) as P.
  destruct (pieces_ops p (i_prologue i)) as [o p1]. cbn [fst snd] in *. subst p1. rewrite app_assoc. apply finals_app; [exact P|].
  apply adds_more, body_runs; [exact H2|exact H3].
Qed.

