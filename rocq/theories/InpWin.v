(* The codestream window: every operation on it moves along the codestream. *)
From Verif Require Import Base ListAux ContainerSpec OutInv InpModel InpSpec.
Ltac Zify.zify_post_hook ::= idtac.

(* ---- take and drop ---- *)
Lemma zlen_take n (l : list Z) : 0 <= n -> zlen (take n l) = Z.min n (zlen l).
Proof. intros H. unfold take, zlen. rewrite firstn_length. lia. Qed.
Lemma zlen_drop n (l : list Z) : 0 <= n -> zlen (drop n l) = Z.max 0 (zlen l - n).
Proof. intros H. unfold drop, zlen. rewrite skipn_length. lia. Qed.
Lemma take_drop n (l : list Z) : take n l ++ drop n l = l.
Proof. apply firstn_skipn. Qed.
Lemma drop_drop a b (l : list Z) : 0 <= a -> 0 <= b -> drop a (drop b l) = drop (b + a) l.
Proof.
  intros Ha Hb. unfold drop. rewrite Z2Nat.inj_add by lia.
  generalize (Z.to_nat a) as m; generalize (Z.to_nat b) as n; clear. intros n; revert l.
  induction n as [|n IH]; intros l m; [reflexivity|]. destruct l; [destruct m; reflexivity|]. cbn. apply IH.
Qed.
Lemma drop_0 (l : list Z) : drop 0 l = l. Proof. reflexivity. Qed.
Lemma take_0 (l : list Z) : take 0 l = []. Proof. reflexivity. Qed.
Lemma take_all n (l : list Z) : zlen l <= n -> take n l = l.
Proof. intros H. unfold take. apply firstn_all2. unfold zlen in H. lia. Qed.
Lemma drop_all n (l : list Z) : zlen l <= n -> drop n l = [].
Proof. intros H. unfold drop. apply skipn_all2. unfold zlen in H. lia. Qed.
Lemma take_app1 n (a b : list Z) : n <= zlen a -> take n (a ++ b) = take n a.
Proof.
  intros H. unfold take. rewrite firstn_app. unfold zlen in H.
  replace (Z.to_nat n - length a)%nat with O by lia. cbn. apply app_nil_r.
Qed.
Lemma take_app2 n (a b : list Z) : zlen a <= n -> take n (a ++ b) = a ++ take (n - zlen a) b.
Proof.
  intros H. unfold take. rewrite firstn_app. unfold zlen in *. rewrite firstn_all2 by lia.
  f_equal. f_equal. lia.
Qed.
Lemma drop_app1 n (a b : list Z) : n <= zlen a -> drop n (a ++ b) = drop n a ++ b.
Proof.
  intros H. unfold drop. rewrite skipn_app. unfold zlen in H.
  replace (Z.to_nat n - length a)%nat with O by lia. reflexivity.
Qed.
Lemma drop_app2 n (a b : list Z) : zlen a <= n -> drop n (a ++ b) = drop (n - zlen a) b.
Proof.
  intros H. unfold drop. rewrite skipn_app. unfold zlen in *. rewrite skipn_all2 by lia.
  cbn. f_equal. lia.
Qed.
Lemma take_take a b (l : list Z) : take a (take b l) = take (Z.min a b) l.
Proof. unfold take. rewrite firstn_firstn. f_equal. lia. Qed.
Lemma drop_take a b (l : list Z) : 0 <= a -> drop a (take b l) = take (b - a) (drop a l).
Proof.
  intros Ha. unfold take, drop. rewrite skipn_firstn_comm. f_equal. lia.
Qed.
Lemma take_split a b (l : list Z) : 0 <= a -> 0 <= b -> take (a + b) l = take a l ++ take b (drop a l).
Proof.
  intros Ha Hb. rewrite <- (take_drop a (take (a + b) l)), take_take, drop_take by lia.
  rewrite Z.min_l by lia. f_equal. f_equal. lia.
Qed.

(* ---- the state of the window ---- *)
Section Window.
Variable C : list Z.

(* the part of C from i to j *)
Definition cut (i j : Z) : list Z := take (j - i) (drop i C).

Lemma zlen_cut i j : 0 <= i <= j -> j <= zlen C -> zlen (cut i j) = j - i.
Proof. intros H H2. unfold cut. rewrite zlen_take, zlen_drop by lia. lia. Qed.
Lemma cut_app i j k : 0 <= i <= j -> j <= k -> cut i j ++ cut j k = cut i k.
Proof.
  intros H H2. unfold cut. replace (k - i) with ((j - i) + (k - j)) by lia.
  rewrite take_split by lia. rewrite drop_drop by lia. f_equal. f_equal. f_equal. lia.
Qed.
Lemma drop_cut n i j : 0 <= i -> 0 <= n -> drop n (cut i j) = cut (i + n) j.
Proof. intros Hi Hn. unfold cut. rewrite drop_take, drop_drop by lia. f_equal. lia. Qed.
Lemma take_cut n i j : n <= j - i -> take n (cut i j) = cut i (i + n).
Proof. intros H. unfold cut. rewrite take_take. f_equal. lia. Qed.
Lemma cut_nil i j : j <= i -> cut i j = [].
Proof. intros H. unfold cut, take. replace (Z.to_nat (j - i)) with O by lia. reflexivity. Qed.
Lemma cut_prefix i j : 0 <= i -> prefix_of (cut i j) (skipn (Z.to_nat i) C).
Proof. intros H. exists (drop (j - i) (drop i C)). unfold cut. symmetry. apply take_drop. Qed.

(* p: where the parser is; v: how much of C was taken from the input *)
Definition Win (w : window) (p v : Z) : Prop :=
  0 <= w_pos w /\ 0 <= w_unc w /\
  match w_copy w with
  | [] => w_unc w = 0 /\ p = v + w_pos w
  | _ => 0 <= v + w_unc w - zlen (w_copy w) <= v /\ v + w_unc w <= zlen C /\
         p = v + w_unc w - zlen (w_copy w) + w_pos w /\
         w_copy w = cut (v + w_unc w - zlen (w_copy w)) (v + w_unc w)
  end.

(* the input starts with what follows v, up to rem bytes of it *)
Definition Cs (d : dec) (v rem : Z) : Prop :=
  0 <= v /\ 0 <= rem /\ v + rem <= zlen C /\
  (if x_unb (d_box d) then avail_in d <= rem else x_end (d_box d) = file_pos d + rem) /\
  take (Z.min (avail_in d) rem) (i_in (d_in d)) = cut v (v + Z.min (avail_in d) rem).

Definition ac (d : dec) (rem : Z) : Z := Z.min (avail_in d) rem.

Definition Lim (d : dec) : Prop :=
  0 <= j_total (d_jx d) /\ zlen C + j_total (d_jx d) + avail_in d < 2 ^ 48.

Definition L (d : dec) (p v rem : Z) : Prop :=
  Win (d_win d) p v /\ Cs d v rem /\ w_unc (d_win d) <= ac d rem /\ Lim d.

Definition moved (d : dec) (n : Z) (w : window) : dec :=
  set_win (set_in d (mkInput (drop n (i_in (d_in d))) (file_pos d + n))) w.

Lemma moved_moved d n w n' w' : 0 <= n -> 0 <= n' -> moved (moved d n w) n' w' = moved d (n + n') w'.
Proof.
  intros Hn Hn'. unfold moved, file_pos, set_win, set_in. cbn. rewrite drop_drop by lia. do 2 f_equal. lia.
Qed.
Lemma moved_0 d w : moved d 0 w = set_win d w.
Proof. unfold moved, set_win, set_in, file_pos. cbn. rewrite Z.add_0_r. destruct d as [[] ? ? ? ? ? ? ? ? ?]; reflexivity. Qed.
Lemma set_win_same d : set_win d (d_win d) = d.
Proof. destruct d; reflexivity. Qed.
Lemma avail_moved d n w : 0 <= n <= avail_in d -> avail_in (moved d n w) = avail_in d - n.
Proof. intros H. unfold avail_in, moved in *. cbn. rewrite zlen_drop by lia. unfold avail_in in H. lia. Qed.
Lemma file_pos_moved d n w : file_pos (moved d n w) = file_pos d + n.
Proof. reflexivity. Qed.
Lemma avail_nonneg d : 0 <= avail_in d.
Proof. apply zlen_nonneg. Qed.

Lemma advance_input_moved d n : 0 <= n <= avail_in d -> advance_input d n = Some (moved d n (d_win d)).
Proof.
  intros H. unfold advance_input. destruct (Z.ltb_spec n 0); [lia|]. destruct (Z.ltb_spec (avail_in d) n); [lia|].
  cbn. unfold moved, set_win, set_in. reflexivity.
Qed.
Lemma available_ac d v rem : Cs d v rem -> available_codestream d = Some (ac d rem).
Proof.
  intros (Hv & Hr & Hc & He & _). unfold available_codestream, ac. pose proof (avail_nonneg d).
  destruct (x_unb (d_box d)).
  - f_equal. lia.
  - rewrite He. destruct (Z.ltb_spec (file_pos d + rem) (file_pos d)); [lia|]. f_equal. lia.
Qed.

Lemma ac_moved d v n w rem : Cs d v rem -> 0 <= n <= ac d rem -> ac (moved d n w) (rem - n) = ac d rem - n.
Proof.
  intros (_ & Hr & _) H. unfold ac in *. rewrite avail_moved by lia. lia.
Qed.
Lemma Cs_moved d v n w rem : Cs d v rem -> 0 <= n <= ac d rem -> Cs (moved d n w) (v + n) (rem - n).
Proof.
  intros HC Hn. pose proof (ac_moved d v n w rem HC Hn) as Ea. destruct HC as (Hv & Hr & Hc & He & Ht).
  unfold ac in *. split; [lia|]. split; [lia|]. split; [lia|]. split.
  - change (x_unb (d_box (moved d n w))) with (x_unb (d_box d)). rewrite avail_moved, file_pos_moved by lia.
    change (x_end (d_box (moved d n w))) with (x_end (d_box d)). destruct (x_unb (d_box d)); lia.
  - rewrite Ea. cbn.
    replace (take (Z.min (avail_in d) rem - n) (drop n (i_in (d_in d))))
      with (drop n (take (Z.min (avail_in d) rem) (i_in (d_in d)))) by (rewrite drop_take by lia; reflexivity).
    rewrite Ht, drop_cut by lia. f_equal. lia.
Qed.
Lemma Lim_moved d n w : Lim d -> 0 <= n <= avail_in d -> Lim (moved d n w).
Proof. intros (H1 & H2) Hn. split; [exact H1|]. rewrite avail_moved by lia. cbn in *. lia. Qed.

Lemma L_moved d p v rem n w p' : L d p v rem -> 0 <= n <= ac d rem -> Win w p' (v + n) ->
  w_unc w <= ac d rem - n -> L (moved d n w) p' (v + n) (rem - n).
Proof.
  intros (HW & HC & HU & HL) Hn HW' HU'. split; [exact HW'|]. split; [apply Cs_moved; assumption|].
  split; [rewrite (ac_moved d v) by assumption; cbn; lia|]. apply Lim_moved; [exact HL|]. unfold ac in Hn. lia.
Qed.

Lemma copy_cases (w : window) : w_copy w = [] \/ (w_copy w <> [] /\ 0 < zlen (w_copy w)).
Proof. destruct (w_copy w) eqn:E; [left; reflexivity|right]. split; [discriminate|]. rewrite zlen_cons. pose proof (zlen_nonneg l). lia. Qed.

Lemma Win_nil w p v : w_copy w = [] -> Win w p v -> w_unc w = 0 /\ p = v + w_pos w /\ 0 <= w_pos w.
Proof. intros E (H1 & H2 & H3). rewrite E in H3. lia. Qed.
Lemma Win_cons w p v : w_copy w <> [] -> Win w p v ->
  0 <= w_pos w /\ 0 <= w_unc w /\ 0 <= v + w_unc w - zlen (w_copy w) <= v /\ v + w_unc w <= zlen C /\
  p = v + w_unc w - zlen (w_copy w) + w_pos w /\ w_copy w = cut (v + w_unc w - zlen (w_copy w)) (v + w_unc w).
Proof. intros E (H1 & H2 & H3). destruct (w_copy w); [congruence|]. auto. Qed.
Lemma Win_mk copy unc pos p v : 0 <= pos -> 0 <= unc -> copy <> [] ->
  0 <= v + unc - zlen copy <= v -> v + unc <= zlen C -> p = v + unc - zlen copy + pos ->
  copy = cut (v + unc - zlen copy) (v + unc) -> Win (mkWin copy unc pos) p v.
Proof. intros. split; [assumption|]. split; [assumption|]. cbn. destruct copy; [congruence|]. auto. Qed.

(* the parser has gone past everything it could see *)
Definition calm (w : window) : Prop := w_copy w <> [] -> w_pos w <= zlen (w_copy w).
Definition strict (w : window) : Prop := w_copy w = [] -> w_pos w = 0.
(* everything in the input was put in the copy, if there is one *)
Definition fresh (d : dec) (rem : Z) : Prop := w_copy (d_win d) <> [] -> w_unc (d_win d) = ac d rem.

Lemma advance_codestream_L d p v rem n : L d p v rem -> strict (d_win d) -> 0 <= n ->
  exists k w, advance_codestream d n = Some (moved d k w) /\ 0 <= k <= ac d rem /\
    L (moved d k w) (p + n) (v + k) (rem - k) /\
    (calm (d_win d) -> calm w) /\
    (fresh d rem -> fresh (moved d k w) (rem - k)) /\
    (fresh d rem -> p + n <= v + ac d rem -> strict w).
Proof.
  intros HL Hs Hn. pose proof HL as (HW & HC & HU & HM). unfold advance_codestream.
  rewrite (available_ac d v rem HC). assert (Ha : 0 <= ac d rem) by (unfold ac; destruct HC as (_ & ? & _); pose proof (avail_nonneg d); lia).
  assert (Hav : ac d rem <= avail_in d) by (unfold ac; lia).
  destruct (w_copy (d_win d)) as [|x cp] eqn:E.
  - destruct (Win_nil _ _ _ E HW) as (U0 & Ep & P0). specialize (Hs E). destruct (Z.leb_spec n (ac d rem)) as [Hle|Hgt].
    + exists n, (d_win d). rewrite advance_input_moved by lia. split; [reflexivity|]. split; [lia|].
      split; [apply (L_moved d p); [exact HL|lia| |lia]|].
      { split; [lia|]. split; [lia|]. rewrite E. lia. }
      split; [tauto|]. split; [intros _ A; exfalso; apply A; exact E|]. intros _ _ _. exact Hs.
    + exists (ac d rem), (mkWin [] (w_unc (d_win d)) (n - ac d rem)).
      rewrite advance_input_moved by (change (avail_in (set_win d ?w)) with (avail_in d); lia). split; [reflexivity|]. split; [lia|].
      split; [apply (L_moved d p); [exact HL|lia| |cbn; lia]|].
      { split; [cbn; lia|]. split; [cbn; lia|]. cbn. lia. }
      split; [intros _ A; exfalso; apply A; reflexivity|]. split; [intros _ A; exfalso; apply A; reflexivity|].
      intros _ A. lia.
  - assert (En : w_copy (d_win d) <> []) by (rewrite E; discriminate). rewrite <- E.
    destruct (Win_cons _ _ _ En HW) as (P0 & U0 & G0 & G1 & Ep & Ec).
    assert (Z0 : 0 < zlen (w_copy (d_win d))) by (rewrite E, zlen_cons; pose proof (zlen_nonneg cp); lia).
    set (pos := w_pos (d_win d) + n) in *. destruct (Z.geb_spec (pos + w_unc (d_win d)) (zlen (w_copy (d_win d)))) as [Hge|Hlt].
    + set (k := Z.min (w_unc (d_win d)) (w_unc (d_win d) + pos - zlen (w_copy (d_win d)))).
      assert (Hk : 0 <= k <= ac d rem) by (subst k; lia).
      rewrite advance_input_moved by lia. exists k, (mkWin [] 0 (pos - Z.min pos (zlen (w_copy (d_win d))))).
      split; [reflexivity|]. split; [exact Hk|].
      split; [apply (L_moved d p); [exact HL|lia| |cbn; lia]|].
      { split; [cbn; lia|]. split; [cbn; lia|]. cbn. subst k pos. lia. }
      split; [intros _ A; exfalso; apply A; reflexivity|]. split; [intros _ A; exfalso; apply A; reflexivity|].
      intros F A _. specialize (F En). cbn. subst pos. lia.
    + exists 0, (mkWin (w_copy (d_win d)) (w_unc (d_win d)) pos). rewrite moved_0. split; [reflexivity|]. split; [lia|].
      rewrite <- moved_0.
      split; [apply (L_moved d p); [exact HL|lia| |cbn; lia]|].
      { rewrite Z.add_0_r. apply Win_mk; try assumption; subst pos; lia. }
      split; [intros _ _; cbn; lia|]. split; [intros F A|].
      * rewrite (ac_moved d v) by (assumption || lia). cbn in *. specialize (F En). lia.
      * intros _ _ A. cbn in A. congruence.
Qed.

Lemma copy_le w p v : Win w p v -> zlen (w_copy w) <= zlen C.
Proof.
  intros HW. destruct (copy_cases w) as [E|[E _]]; [rewrite E; apply zlen_nonneg|].
  destruct (Win_cons _ _ _ E HW) as (P0 & U0 & G0 & G1 & Ep & Ec).
  lia.
Qed.
Lemma can_add d p v rem n : L d p v rem -> 0 <= n <= avail_in d -> can_add_buffer d n = true.
Proof.
  intros (HW & HC & HU & (H1 & H2)) Hn. unfold can_add_buffer. pose proof (copy_le _ _ _ HW).
  pose proof (zlen_nonneg (w_copy (d_win d))). pose proof (zlen_nonneg C).
  apply andb_true_iff. split; apply Z.ltb_lt; lia.
Qed.

Lemma request_more_L d p v rem : L d p v rem -> fresh d rem ->
  exists w, request_more_input d = (SNeedInput, moved d (ac d rem) w) /\
    L (moved d (ac d rem) w) p (v + ac d rem) (rem - ac d rem) /\ w_unc w = 0 /\
    (strict (d_win d) -> strict w) /\ (calm (d_win d) -> (strict (d_win d) \/ ac d rem = 0) -> calm w).
Proof.
  intros HL HF. pose proof HL as (HW & HC & HU & HM). unfold request_more_input.
  assert (Ha : 0 <= ac d rem) by (unfold ac; destruct HC as (_ & ? & _); pose proof (avail_nonneg d); lia).
  assert (Hav : ac d rem <= avail_in d) by (unfold ac; lia).
  destruct (w_copy (d_win d)) as [|x cp] eqn:E.
  - destruct (Win_nil _ _ _ E HW) as (U0 & Ep & P0). rewrite (available_ac d v rem HC), (can_add d p v rem) by (assumption || lia).
    cbn [negb]. rewrite advance_input_moved by (change (avail_in (set_win d ?w)) with (avail_in d); lia).
    set (cp := take (ac d rem) (i_in (d_in d))).
    assert (Ecp : cp = cut v (v + ac d rem)) by (destruct HC as (_ & _ & _ & _ & Ht); exact Ht).
    assert (Lcp : zlen cp = ac d rem) by (subst cp; rewrite zlen_take by lia; unfold avail_in in Hav; lia).
    eexists. split; [reflexivity|]. change (d_win (set_win d ?w)) with w.
    split; [|split; [exact U0|split]].
    + change (moved (set_win d ?w) ?n ?w) with (moved d n w). apply (L_moved d p); [exact HL|lia| |cbn; lia].
      destruct cp as [|y cp'] eqn:E2.
      * split; [cbn; lia|]. split; [cbn; lia|]. cbn. rewrite zlen_nil in Lcp. lia.
      * rewrite U0, <- E2 in *. destruct HC as (Hv & Hr & Hc & _).
        assert (v + ac d rem <= zlen C) by (unfold ac; lia).
        apply Win_mk; try lia; [rewrite E2; discriminate|].
        rewrite Lcp. replace (v + ac d rem + 0 - ac d rem) with v by lia. rewrite Ecp. f_equal. lia.
    + intros Hs A. cbn in *. apply Hs, E.
    + intros _ [Hs|Hz] A; cbn in *.
      * rewrite (Hs E). apply zlen_nonneg.
      * exfalso. apply A. subst cp. rewrite Hz. reflexivity.
  - assert (En : w_copy (d_win d) <> []) by (rewrite E; discriminate). rewrite <- E. specialize (HF En).
    destruct (Win_cons _ _ _ En HW) as (P0 & U0 & G0 & G1 & Ep & Ec).
    rewrite advance_input_moved by lia. rewrite HF. eexists. split; [reflexivity|].
    change (set_win (moved d (ac d rem) (d_win d)) ?w) with (moved d (ac d rem) w).
    split; [|split; [reflexivity|split]].
    + apply (L_moved d p); [exact HL|lia| |cbn; lia]. apply Win_mk; try lia; [exact En|].
      rewrite HF in Ec. rewrite Ec at 1. f_equal; lia.
    + intros _ A. cbn in A. congruence.
    + intros Hc _ A. cbn in *. apply Hc, En.
Qed.

Lemma ac_le d rem : ac d rem <= avail_in d /\ ac d rem <= rem.
Proof. unfold ac. lia. Qed.
Lemma ac_nonneg d v rem : Cs d v rem -> 0 <= ac d rem.
Proof. intros (_ & ? & _). unfold ac. pose proof (avail_nonneg d). lia. Qed.

Lemma get_window_L d p v rem : L d p v rem -> strict (d_win d) ->
  match get_window d with
  | GSpan s d' => exists w, d' = moved d 0 w /\ L d' p v rem /\ s = cut p (v + ac d rem) /\ 0 <= p <= v + ac d rem /\
                    zlen s = v + ac d rem - p /\ strict w /\ fresh d' rem /\ calm w
  | GStop s d' => (s = SNeedInput /\ ac d rem = 0 /\ p = v /\ (exists w, d' = moved d 0 w /\ L d' p v rem /\ w_unc w = 0 /\ strict w /\ calm w)) \/
                  (s = SError EInternal /\ d' = d /\ ~ calm (d_win d))
  end.
Proof.
  intros HL Hs. pose proof HL as (HW & HC & HU & HM). unfold get_window.
  pose proof (ac_nonneg _ _ _ HC) as Ha. pose proof (ac_le d rem) as [Hav Har].
  destruct (copy_cases (d_win d)) as [E|[En Z0]].
  - rewrite E. specialize (Hs E). rewrite Hs. destruct (Win_nil _ _ _ E HW) as (U0 & Ep & P0). rewrite U0. change (0 >? zlen []) with false. cbv iota.
    rewrite (available_ac d v rem HC). destruct (Z.eqb_spec (ac d rem) 0) as [Hz|Hnz].
    + destruct (request_more_L d p v rem HL) as (w & Er & HL2 & Hu & Hs2 & Hc2); [intros A; congruence|].
      rewrite Er. left. split; [reflexivity|]. split; [exact Hz|]. split; [lia|]. exists w.
      rewrite Hz, Z.add_0_r, Z.sub_0_r in HL2. rewrite Hz. split; [reflexivity|]. split; [exact HL2|]. split; [exact Hu|].
      split; [apply Hs2; intros _; exact Hs|]. apply Hc2; [intros A; congruence|right; exact Hz].
    + exists (d_win d). rewrite moved_0, set_win_same. split; [reflexivity|]. split; [exact HL|].
      destruct HC as (Hv & Hr & Hc & He & Ht). replace p with v by lia. fold (ac d rem) in Ht.
      split; [exact Ht|]. split; [lia|]. rewrite Ht, zlen_cut by lia.
      split; [lia|]. split; [intros _; exact Hs|]. split; [intros A; congruence|intros A; congruence].
  - destruct (Win_cons _ _ _ En HW) as (P0 & U0 & G0 & G1 & Ep & Ec).
    destruct (Z.gtb_spec (w_pos (d_win d)) (zlen (w_copy (d_win d)))) as [Hgt|Hle].
    { right. split; [reflexivity|]. split; [reflexivity|]. intros A. specialize (A En). lia. }
    destruct (Z.gtb_spec (w_unc (d_win d)) (zlen (w_copy (d_win d)))) as [Hgt|_]; [lia|].
    rewrite (available_ac d v rem HC). destruct (w_copy (d_win d)) as [|x cp] eqn:E; [congruence|]. rewrite <- E in *.
    rewrite (can_add d p v rem) by (assumption || lia). cbn [negb].
    assert (Hin : drop (w_unc (d_win d)) (take (ac d rem) (i_in (d_in d))) = cut (v + w_unc (d_win d)) (v + ac d rem)).
    { destruct HC as (Hv & _ & _ & _ & Ht). fold (ac d rem) in Ht. rewrite Ht, drop_cut by lia. reflexivity. }
    rewrite Hin. set (cp2 := w_copy (d_win d) ++ cut (v + w_unc (d_win d)) (v + ac d rem)).
    destruct HC as (Hv & Hr & Hc & He & Ht).
    assert (L2 : zlen cp2 = zlen (w_copy (d_win d)) + (ac d rem - w_unc (d_win d))).
    { subst cp2. rewrite zlen_app, zlen_cut by lia. lia. }
    assert (E2 : cp2 = cut (v + ac d rem - zlen cp2) (v + ac d rem)).
    { rewrite L2. subst cp2. rewrite Ec at 1. rewrite cut_app by lia. f_equal. lia. }
    exists (mkWin cp2 (ac d rem) (w_pos (d_win d))). rewrite moved_0. split; [reflexivity|]. rewrite <- moved_0.
    assert (N2 : cp2 <> []) by (intros A; rewrite A, zlen_nil in L2; lia).
    split; [|split; [|split; [lia|split; [|split; [|split]]]]].
    + replace v with (v + 0) by lia. replace rem with (rem - 0) by lia. rewrite Z.sub_0_r at 1.
      apply (L_moved d p); [exact HL|lia| |cbn; lia].
      rewrite Z.add_0_r. apply Win_mk; try assumption; try lia.
    + rewrite E2, drop_cut by lia. f_equal. lia.
    + rewrite zlen_drop by lia. lia.
    + intros A. cbn in A. congruence.
    + intros _. rewrite moved_0. cbn. reflexivity.
    + intros _. cbn. lia.
Qed.

End Window.
