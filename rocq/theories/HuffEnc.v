(* The encoder's code words: ConvertBitDepthsToSymbols. *)
From Verif Require Import Base ListAux Wrap HuffModel HuffSpec HuffCanon HuffSort HuffRoot HuffSub HuffBuild.
Ltac Zify.zify_post_hook ::= idtac.
Opaque C off.

Lemma count_depths_ok : forall suf pre b, lengths_ok suf -> zlen (pre ++ suf) <= 2 ^ 15 ->
  (forall l, 0 <= l <= 15 -> b l = count_len l pre) ->
  exists b', count_depths suf b = Some b' /\ forall l, 0 <= l <= 15 -> b' l = count_len l (pre ++ suf).
Proof.
  induction suf as [|d suf IH]; intros pre b Hok Hn Hb; cbn [count_depths].
  - rewrite app_nil_r. eauto.
  - inversion Hok as [|? ? Hd Hok']; subst. rewrite get_ok, Hb by lia. rewrite set_ok by lia.
    assert (E : pre ++ d :: suf = (pre ++ [d]) ++ suf) by (rewrite <- app_assoc; reflexivity).
    assert (Hp : zlen pre + 1 <= 2 ^ 15). { rewrite E, !zlen_app in Hn. change (zlen [d]) with 1 in Hn. pose proof (zlen_nonneg suf). lia. }
    rewrite E in *. apply IH; [assumption|assumption|]. intros l Hl. rewrite count_len_app, count_len_cons, count_len_nil.
    pose proof (count_len_le d pre). pose proof (count_len_nonneg d pre).
    destruct (Z.eqb_spec l d) as [->|]; [rewrite w16_small by lia; lia|]. rewrite Hb by lia. lia.
Qed.

Lemma next_code_ok cnt bl : (forall l, 0 <= cnt l) -> C cnt 15 + cnt 15 = 2 ^ 15 -> (forall l, 0 <= l <= 15 -> bl l = cnt l) ->
  forall n i next, 1 <= i -> i + Z.of_nat n = 16 -> (forall l, 1 <= l < i -> next l = C cnt l) ->
  exists next', next_code_loop n bl i (C cnt (i - 1)) next = Some next' /\ forall l, 1 <= l <= 15 -> next' l = C cnt l.
Proof.
  intros Hcnt Hk Hbl. induction n as [|n IH]; intros i next Hi Hn Hnx; cbn [next_code_loop].
  - exists next. split; [reflexivity|]. intros l Hl. apply Hnx. lia.
  - rewrite get_ok, Hbl by lia.
    assert (E : s32 (2 * (C cnt (i - 1) + cnt (i - 1))) = C cnt i).
    { rewrite <- C_succ by lia. replace (i - 1 + 1) with i by lia. pose proof (code_range cnt Hcnt Hk i 0 ltac:(lia) ltac:(split; [lia|apply Hcnt])) as R.
      pose proof (p2_le i 15 ltac:(lia)). unfold s32. rewrite Z.mod_small by lia. lia. }
    rewrite E. rewrite set_ok by lia. pose proof (code_range cnt Hcnt Hk i 0 ltac:(lia) ltac:(split; [lia|apply Hcnt])) as R.
    pose proof (p2_le i 15 ltac:(lia)). rewrite w16_small by lia.
    pose proof (IH (i + 1) (fun j => if j =? i then C cnt i else next j)) as G. replace (i + 1 - 1) with i in G by lia. apply G; [lia|lia|].
    intros l Hl. destruct (Z.eqb_spec l i) as [->|]; [reflexivity|]. apply Hnx. lia.
Qed.

Lemma assign_codes_ok ls : lengths_ok ls -> complete ls -> zlen ls <= 2 ^ 15 -> forall suf pre bits next, ls = pre ++ suf -> zlen bits = zlen suf ->
  (forall l, 1 <= l <= 15 -> next l = C (cntf ls) l + count_len l pre) ->
  exists out, assign_codes suf bits next = Some out /\ zlen out = zlen suf /\
    forall k l, znth suf k = Some l -> if l =? 0 then znth out k = znth bits k else znth out k = Some (key_of ls (zlen pre + k) l).
Proof.
  intros Hok Hc Hn. induction suf as [|d suf IH]; intros pre bits next E Hb Hnx.
  - exists []. cbn. split; [reflexivity|]. split; [reflexivity|]. intros k l H. unfold znth in H. destruct (k <? 0); [discriminate|]. destruct (Z.to_nat k); discriminate.
  - destruct bits as [|b bits]; [unfold zlen in Hb; cbn [length] in Hb; lia|]. assert (Hb' : zlen bits = zlen suf) by (unfold zlen in *; cbn [length] in Hb; lia).
    assert (E' : ls = (pre ++ [d]) ++ suf) by (rewrite <- app_assoc; exact E).
    assert (Hz : zlen (pre ++ [d]) = zlen pre + 1) by (rewrite zlen_app; reflexivity).
    assert (Hd : 0 <= d <= 15). { unfold lengths_ok in Hok. rewrite E in Hok. apply Forall_app in Hok. destruct Hok as (_ & H). now inversion H. }
    assert (Hzx : znth ls (zlen pre) = Some d).
    { rewrite E. unfold znth, zlen. replace (Z.of_nat (length pre) <? 0) with false by lia. rewrite Nat2Z.id, nth_error_app2, Nat.sub_diag by lia. reflexivity. }
    assert (Hrx : rank ls (zlen pre) d = count_len d pre).
    { unfold rank. rewrite E. unfold zlen. rewrite Nat2Z.id, firstn_app, Nat.sub_diag, firstn_all. cbn [firstn]. now rewrite app_nil_r. }
    assert (Step : forall k (x : Z) (l : list Z), znth (x :: l) k = if k =? 0 then Some x else znth l (k - 1)).
    { intros k x l. unfold znth. destruct (Z.eqb_spec k 0) as [->|N]; [reflexivity|].
      destruct (Z.ltb_spec k 0); destruct (Z.ltb_spec (k - 1) 0); try lia; [reflexivity|].
      replace (Z.to_nat k) with (S (Z.to_nat (k - 1))) by lia. reflexivity. }
    cbn [assign_codes]. destruct (d =? 0) eqn:D0.
    + destruct (IH (pre ++ [d]) bits next E' Hb') as (out & -> & Hl & Ho).
      { intros l Hl. rewrite Hnx, count_len_app, count_len_cons, count_len_nil by lia. replace (l =? d) with false by lia. lia. }
      eexists. split; [reflexivity|]. split; [unfold zlen in *; cbn [length]; lia|].
      intros k l. rewrite !Step. destruct (Z.eqb_spec k 0) as [->|N].
      * intros [= <-]. rewrite D0. reflexivity.
      * intros H. specialize (Ho (k - 1) l H). rewrite Hz in Ho. replace (zlen pre + 1 + (k - 1)) with (zlen pre + k) in Ho by lia. exact Ho.
    + assert (Hwd : word_of ls (zlen pre) d) by (split; [exact Hzx|lia]). pose proof (word_of_word ls (zlen pre) d Hok Hwd) as (W1 & W2).
      pose proof (code_range_lt (cntf ls) (cntf_nonneg ls) (complete_kraft ls Hok Hc) d (rank ls (zlen pre) d) ltac:(lia) W2) as R.
      rewrite get_ok, Hnx by lia. rewrite Hrx in *. rewrite reverse_ok by lia. rewrite set_ok by lia.
      pose proof (p2_le d 15 ltac:(lia)). rewrite w16_small by lia.
      destruct (IH (pre ++ [d]) bits (fun j => if j =? d then C (cntf ls) d + count_len d pre + 1 else next j) E' Hb') as (out & -> & Hl & Ho).
      { intros l Hl. rewrite count_len_app, count_len_cons, count_len_nil. destruct (Z.eqb_spec l d) as [->|]; [lia|]. rewrite Hnx by lia. lia. }
      eexists. split; [reflexivity|]. split; [unfold zlen in *; cbn [length]; lia|].
      intros k l. rewrite !Step. destruct (Z.eqb_spec k 0) as [->|N].
      * intros [= <-]. rewrite D0. rewrite Z.add_0_r. unfold key_of. now rewrite Hrx.
      * intros H'. specialize (Ho (k - 1) l H'). rewrite Hz in Ho. replace (zlen pre + 1 + (k - 1)) with (zlen pre + k) in Ho by lia. exact Ho.
Qed.

Theorem convert_ok ls bits : lengths_ok ls -> complete ls -> zlen ls <= 2 ^ 15 -> zlen bits = zlen ls ->
  exists out, convert_bit_depths ls bits = Some out /\ zlen out = zlen ls /\
    (forall s l, word_of ls s l -> znth out s = Some (key_of ls s l)) /\
    (forall s, znth ls s = Some 0 -> znth out s = znth bits s).
Proof.
  intros Hok Hc Hn Hb. unfold convert_bit_depths.
  destruct (count_depths_ok ls [] (fun _ => 0) Hok Hn) as (bl & -> & Hbl). { intros l Hl. now rewrite count_len_nil. }
  rewrite set_ok by lia.
  destruct (next_code_ok (cntf ls) (fun j => if j =? 0 then 0 else bl j) (cntf_nonneg ls) (complete_kraft ls Hok Hc)) with (n := 15%nat) (i := 1) (next := fun _ : Z => 0) as (next & E & Hnx).
  { intros l Hl. unfold cntf. destruct (l =? 0); [reflexivity|]. rewrite Hbl by lia. reflexivity. } { lia. } { lia. } { intros; lia. }
  change (1 - 1) with 0 in E. rewrite C_0 in E. rewrite E. clear E.
  destruct (assign_codes_ok ls Hok Hc Hn ls [] bits next eq_refl Hb) as (out & E & Hl & Ho).
  { intros l Hl. rewrite Hnx, count_len_nil by lia. lia. }
  exists out. split; [exact E|]. split; [exact Hl|]. change (zlen []) with 0 in Ho. split.
  - intros s l (H & Hl0). specialize (Ho s l H). replace (l =? 0) with false in Ho by lia. rewrite Z.add_0_l in Ho. exact Ho.
  - intros s H. specialize (Ho s 0 H). exact Ho.
Qed.
