(* Storing and reading back histograms: all forms. *)
From Verif Require Import Base ListAux Wrap FieldsProofs BitProg BitProgProofs HuffBuild HuffSimple HuffStored HuffSafe AliasSpec HistoModel HistoSpec HistoProofs HistoCounts.
Ltac Zify.zify_post_hook ::= idtac.

Lemma field_one n v : fields_bits [(n, v)] = to_bits (Z.to_nat n) v.
Proof. cbn. apply app_nil_r. Qed.

(* ---- the method ---- *)

Lemma read_log_ok log : 0 <= log <= 3 -> parses (read_log 3 0) (fields_bits ([(log, Z.shiftl 1 log - 1)] ++ (if log =? 3 then [] else [(1, 0)]))) log.
Proof.
  intros H. assert (O : forall (A : Type) (k : Z -> rprog A) b e a, 0 <= b < 2 -> parses (k b) e a -> parses (let! x := rd 1 in k x) (to_bits 1 b ++ e) a).
  { intros A k b e a Hb Hk. eapply parses_bind; [apply (parses_rd 1 b); change (2 ^ 1) with 2; lia|exact Hk]. }
  assert (log = 0 \/ log = 1 \/ log = 2 \/ log = 3) as [->|[->|[->| ->]]] by lia; cbn [read_log].
  - change (fields_bits _) with (to_bits 1 0 ++ []). apply O; [lia|]. apply parses_ret.
  - change (fields_bits _) with (to_bits 1 1 ++ to_bits 1 0 ++ []). apply O; [lia|]. cbv beta. change (1 =? 0) with false. cbv iota. apply O; [lia|]. apply parses_ret.
  - change (fields_bits _) with (to_bits 1 1 ++ to_bits 1 1 ++ to_bits 1 0 ++ []). apply O; [lia|]. cbv beta. change (1 =? 0) with false. cbv iota. apply O; [lia|]. cbv beta. change (1 =? 0) with false. cbv iota. apply O; [lia|]. apply parses_ret.
  - change (fields_bits _) with (to_bits 1 1 ++ to_bits 1 1 ++ to_bits 1 1 ++ []). apply O; [lia|]. cbv beta. change (1 =? 0) with false. cbv iota. apply O; [lia|]. cbv beta. change (1 =? 0) with false. cbv iota. apply O; [lia|]. apply parses_ret.
Qed.
Definition method_check (m : Z) : bool :=
  let l := Z.log2 m in let v := Z.land (Z.shiftl 1 l - 1) m in
  (0 <=? l) && (l <=? 3) && (0 <=? v) && (v <? 2 ^ l) && (Z.lor v (Z.shiftl 1 l) - 1 =? m - 1) && (0 <=? Z.shiftl 1 l - 1) && (Z.shiftl 1 l - 1 <? 2 ^ l).
Lemma methods_check : forallb method_check (zseq 1 12) = true. Proof. reflexivity. Qed.
Lemma method_ok m : 1 <= m <= 12 -> Forall field_ok (store_method m) /\ exists l v e1 e2, fields_bits (store_method m) = e1 ++ e2 /\
  parses (read_log (Z.to_nat (Z.log2 (ANS_LOG_TAB_SIZE + 1))) 0) e1 l /\ parses (rd l) e2 v /\ Z.lor v (Z.shiftl 1 l) - 1 = m - 1.
Proof.
  intros H. pose proof (proj1 (forallb_forall _ _) methods_check m ltac:(apply in_zseq; cbn; lia)) as C. unfold method_check in C. unfold store_method. change (Z.log2 (ANS_LOG_TAB_SIZE + 1)) with 3. set (l := Z.log2 m) in *. set (v := Z.land (Z.shiftl 1 l - 1) m) in *.
  repeat (apply andb_prop in C as (C & ?)). split.
  - apply Forall_app. split; [constructor; [unfold field_ok; cbn [fst snd]; lia|constructor]|]. apply Forall_app. split; [destruct (l =? 3); [constructor|]; constructor; [split; cbn; lia|constructor]|]. constructor; [unfold field_ok; cbn [fst snd]; lia|constructor].
  - exists l, v. rewrite app_assoc, fields_bits_app. eexists _, _. split; [reflexivity|]. split; [apply (read_log_ok l); lia|]. split; [|lia]. rewrite field_one. apply (parses_rd l v); lia.
Qed.

(* ---- sums ---- *)

Lemma length_zseq k : forall z, length (zseq z k) = k.
Proof. induction k as [|k IH]; intros z; cbn; [reflexivity|now rewrite IH]. Qed.

Lemma sum_split (f : Z -> Z) i k : 0 <= i < Z.of_nat k -> zsum (map f (zseq 0 k)) = f i + zsum (map (fun j => if j =? i then 0 else f j) (zseq 0 k)).
Proof.
  assert (G : forall k z, z <= i < z + Z.of_nat k -> zsum (map f (zseq z k)) = f i + zsum (map (fun j => if j =? i then 0 else f j) (zseq z k))).
  { clear k. induction k as [|k IH]; intros z Hz; [lia|]. cbn [zseq map]. unfold zsum in *. cbn [fold_right]. destruct (Z.eqb_spec z i) as [->|N].
    - rewrite Z.add_0_l. f_equal. apply (f_equal (fold_right Z.add 0)). apply map_ext_in. intros j Hj. apply zseq_in in Hj. now replace (j =? i) with false by lia.
    - rewrite IH by lia. lia. }
  intros H. apply G. lia.
Qed.
Lemma sum_nonneg (f : Z -> Z) l : (forall j, In j l -> 0 <= f j) -> 0 <= zsum (map f l).
Proof. unfold zsum. induction l as [|x l IH]; intros H; cbn [map fold_right]; [lia|]. pose proof (H x ltac:(now left)). specialize (IH (fun j Hj => H j (or_intror Hj))). lia. Qed.

Lemma firstn_cnt counts : forall k, (k <= length counts)%nat -> firstn k counts = map (cnt counts) (zseq 0 k).
Proof.
  assert (G : forall k pre l, (k <= length l)%nat -> firstn k l = map (cnt (pre ++ l)) (zseq (zlen pre) k)).
  { induction k as [|k IH]; intros pre l H; [reflexivity|]. destruct l as [|x l]; [cbn in H; lia|]. cbn [firstn zseq map]. f_equal.
    - unfold cnt, zlen. rewrite Nat2Z.id, app_nth2, Nat.sub_diag by lia. reflexivity.
    - specialize (IH (pre ++ [x]) l ltac:(cbn in H; lia)). rewrite <- app_assoc in IH. cbn [app] in IH. rewrite IH. f_equal. f_equal. unfold zlen. rewrite app_length. cbn. lia. }
  intros k H. specialize (G k [] counts H). exact G.
Qed.
Lemma sum_firstn k counts : Forall (fun c => c = 0) (skipn k counts) -> zsum (firstn k counts) = zsum counts.
Proof. intros H. rewrite <- (firstn_skipn k counts) at 2. rewrite sum_app. enough (zsum (skipn k counts) = 0) by lia. unfold zsum. induction H as [|x l -> _ IH]; cbn; lia. Qed.

Lemma occurring_in n counts s : In s (occurring n counts) <-> 0 <= s < n /\ 0 < cnt counts s.
Proof.
  unfold occurring. rewrite filter_In. split.
  - intros (H & C). apply zseq_in in H. lia.
  - intros (H & C). split; [apply in_zseq; lia|lia].
Qed.
Lemma occurring_nodup n counts : NoDup (occurring n counts).
Proof. unfold occurring. apply NoDup_filter, nodup_zseq. Qed.

(* the omitted count is the difference *)
Lemma kept_total n omit counts : 0 <= omit < n -> zsum (map (cnt counts) (zseq 0 (Z.to_nat n))) = cnt counts omit + kept_sum omit counts n.
Proof. intros H. apply (sum_split (cnt counts) omit). lia. Qed.

(* ---- the general form ---- *)

Lemma general_ok h : let n := alphabet_size h in let counts := e_counts h in
  3 <= n <= 256 -> n <= zlen counts -> 0 <= omit_pos h < n -> 0 < cnt counts (omit_pos h) -> (forall i, 0 <= i < n -> 0 <= cnt counts i < 4096) ->
  (forall i, 0 <= i < omit_pos h -> cnt counts i < 2048) -> (forall i, 0 <= i < n -> i <> omit_pos h -> 0 < cnt counts i -> representable (method h - 1) (cnt counts i)) ->
  1 <= method h <= 12 -> 3 <= num_symbols h -> zsum (map (cnt counts) (zseq 0 (Z.to_nat n))) = 4096 ->
  exists fs, encode_histogram h = Some fs /\ Forall field_ok fs /\ parses read_histogram (fields_bits fs) (Some (Some (map (cnt counts) (zseq 0 (Z.to_nat n))))).
Proof.
  intros n counts Hn Hlen Homit Hpos Hcnt Hbefore Hrep Hm Hsym Hsum. set (omit := omit_pos h) in *. set (shift := method h - 1) in *.
  destruct (same_loop_ok n omit counts Hn Hlen Homit (Z.to_nat n) 1 0 (fun _ => 0)) as (same & Es & Hs); [lia|lia|lia|reflexivity| |intros; lia|lia|].
  { intros a. split; lia. }
  destruct (width_loop_ok n omit counts Hn Hlen Hcnt Hbefore (Z.to_nat n) 0 (fun _ => 0) 10) as (bw & ow & Ew & Hbw & How & Hmax); [lia|lia|intros; lia|reflexivity|lia|intros; lia|].
  set (W := fun j => if j =? omit then ow else bw j).
  assert (HWo : W omit = ow) by (unfold W; now rewrite Z.eqb_refl).
  assert (HW : forall i, 0 <= i < n -> i <> omit -> W i = plain_width omit counts i). { intros i Hi N. unfold W. replace (i =? omit) with false by lia. now apply Hbw. }
  assert (HWb : forall i, 0 <= i < omit -> W i < W omit). { intros i Hi. rewrite HWo, HW by lia. specialize (Hmax i ltac:(lia)). replace (i <? omit) with true in Hmax by lia. lia. }
  assert (HWa : forall i, omit < i < n -> W i <= W omit). { intros i Hi. rewrite HWo, HW by lia. specialize (Hmax i ltac:(lia)). replace (i <? omit) with false in Hmax by lia. lia. }
  assert (V0 : vis same 0). { intros a Ha. destruct (Hs a) as (B & S'). destruct (Z_lt_ge_dec (same a) 5); [assumption|]. destruct (S' ltac:(lia)) as (A0 & _). lia. }
  destruct (widths_roundtrip n omit counts Hn Homit Hcnt Hbefore same W Hs HW ltac:(lia) HWb HWa (Z.to_nat n) 0 ltac:(lia) ltac:(lia) V0 (Z.to_nat n) (Z.to_nat n) (Logs (fun _ => 0) (fun _ => 0) (-1) (-1)) ltac:(lia) ltac:(lia)) as (fw & r & Efw & Ffw & Pfw & Hr).
  { split; [intros; lia|]. split; [intros; lia|]. split; [reflexivity|]. cbn [omit_log r_omit]. split; [lia|]. split; [lia|]. rewrite HWo. lia. }
  destruct (mantissas_roundtrip n omit shift counts Hn Hlen Homit Hcnt Hrep ltac:(lia) same W Hs HW r Hr (Z.to_nat n) 0 ltac:(lia) ltac:(lia) V0 (Z.to_nat n) 0 (fun _ => 0) 0 ltac:(lia)) as (fm & c & total & F0 & F1 & F2 & F3 & (C1 & _ & C3)).
  { split; [intros; lia|]. split; [reflexivity|]. reflexivity. }
  destruct (method_ok (method h) Hm) as (Fm & lg & lv & em1 & em2 & Em & Pm1 & Pm2 & Em3). destruct (var_len_ok 3 (n - 3) ltac:(lia)) as (Fv & Pv). { change (2 ^ 2 ^ 3) with 256. lia. }
  exists ([(1, 0); (1, 0)] ++ store_method (method h) ++ store_var_len 3 (n - 3) ++ fw ++ fm).
  split; [|split].
  - unfold encode_histogram. fold n. replace (ANS_MAX_ALPHABET_SIZE <? n) with false by (unfold ANS_MAX_ALPHABET_SIZE; lia). replace (method h =? 0) with false by lia. replace (num_symbols h <=? 2) with false by lia.
    fold counts. fold omit. rewrite Es, Ew. replace (w8 ow) with ow by (unfold w8; rewrite Z.mod_small; lia). rewrite set_ok by (unfold ANS_MAX_ALPHABET_SIZE; lia). fold W. rewrite Efw. fold shift.
    destruct (Z.eqb_spec shift 0) as [S0|S0]; [now rewrite (F0 S0)|now rewrite (F1 S0)].
  - constructor; [split; cbn; lia|]. constructor; [split; cbn; lia|]. apply Forall_app; split; [exact Fm|]. apply Forall_app; split; [exact Fv|]. apply Forall_app; split; assumption.
  - destruct Hr as (O1 & O2 & O3 & O4 & O5 & O6). destruct (O5 ltac:(lia)) as (Ro & _).
    change ([(1, 0); (1, 0)] ++ store_method (method h) ++ store_var_len 3 (n - 3) ++ fw ++ fm) with ([(1, 0)] ++ [(1, 0)] ++ store_method (method h) ++ store_var_len 3 (n - 3) ++ fw ++ fm).
    rewrite !fields_bits_app, !field_one. unfold read_histogram. cbv zeta. eapply parses_bind; [apply (parses_rd 1 0); lia|]. cbv beta. change (0 =? 1) with false. cbv iota.
    eapply parses_bind; [apply (parses_rd 1 0); lia|]. cbv beta. change (0 =? 1) with false. cbv iota.
    rewrite Em, <- app_assoc. eapply parses_bind; [exact Pm1|]. cbv beta. eapply parses_bind; [exact Pm2|]. cbv beta. rewrite Em3.
    fold shift. replace (ANS_LOG_TAB_SIZE + 1 <? shift) with false by (unfold ANS_LOG_TAB_SIZE; lia).
    eapply parses_bind; [exact Pv|]. cbv beta. replace (n - 3 + 3) with n by lia. eapply parses_bind; [exact Pfw|]. cbv beta iota. rewrite Ro. replace (omit <? 0) with false by lia.
    assert (After : exists v, (if omit + 1 <? n then get n (logcounts r) (omit + 1) else Some 0) = Some v /\ (omit + 1 <? n) && (v =? ANS_LOG_TAB_SIZE) = false).
    { destruct (Z.ltb_spec (omit + 1) n) as [L|L]; [|exists 0; split; reflexivity]. rewrite get_ok by lia. eexists. split; [reflexivity|]. rewrite (O2 (omit + 1) ltac:(lia) (vis_omit1 n omit counts same Hs)).
      pose proof (HWa (omit + 1) ltac:(lia)). unfold ANS_LOG_TAB_SIZE. cbn [andb]. lia. }
    destruct After as (v & -> & ->). rewrite <- (app_nil_r (fields_bits fm)). rewrite Z.sub_0_r in F3. eapply parses_bind; [exact F3|]. cbv beta iota. rewrite set_ok by lia.
    pose proof (kept_total n omit counts Homit) as K. change ANS_TAB_SIZE with 4096. assert (Et : 4096 - total = cnt counts omit) by (rewrite C3; clear -K Hsum; lia). rewrite Et. replace (cnt counts omit <=? 0) with false by (clear -Hpos; lia).
    match goal with |- parses (Ret (Some (Some ?x))) _ (Some (Some ?y)) => replace x with y end; [apply parses_ret|].
    apply map_ext_in. intros j Hj. apply zseq_in in Hj. destruct (Z.eqb_spec j omit) as [->|N]; [reflexivity|]. rewrite C1 by lia. unfold kept. now replace (j =? omit) with false by lia.
Qed.

(* ---- all forms ---- *)

Lemma simple_sum counts n l : 0 <= n -> (forall j, 0 <= j < n -> 0 <= cnt counts j) -> NoDup l -> (forall s, In s l -> 0 <= s < n) -> (forall j, 0 <= j < n -> ~ In j l -> cnt counts j = 0) ->
  zsum (map (cnt counts) (zseq 0 (Z.to_nat n))) = zsum (map (cnt counts) l).
Proof.
  intros Hn Hnon. assert (G : forall l (f : Z -> Z), NoDup l -> (forall s, In s l -> 0 <= s < n) -> (forall j, 0 <= j < n -> ~ In j l -> f j = 0) -> zsum (map f (zseq 0 (Z.to_nat n))) = zsum (map f l)).
  { clear l. induction l as [|s l IH]; intros f Hnd Hin Hout.
    - cbn [map]. transitivity (zsum (map (fun _ : Z => 0) (zseq 0 (Z.to_nat n)))).
      + f_equal. apply map_ext_in. intros j Hj. apply zseq_in in Hj. apply Hout; [lia|intros []].
      + clear. unfold zsum. induction (zseq 0 (Z.to_nat n)) as [|x l IH]; cbn in *; lia.
    - inversion Hnd as [|? ? Hs Hnd']; subst. pose proof (Hin s ltac:(now left)) as Rs. rewrite (sum_split f s) by lia.
      rewrite (IH (fun j => if j =? s then 0 else f j)).
      + change (map f (s :: l)) with (f s :: map f l). change (zsum (f s :: map f l)) with (f s + zsum (map f l)). f_equal. f_equal. apply map_ext_in. intros j Hj. destruct (Z.eqb_spec j s) as [->|]; [contradiction|reflexivity].
      + assumption.
      + intros j Hj. apply Hin. now right.
      + intros j Hj Nj. cbv beta. destruct (Z.eqb_spec j s) as [->|N]; [reflexivity|]. apply Hout; [assumption|]. intros [E|E]; [congruence|contradiction]. }
  intros. now apply G.
Qed.

Theorem histogram_roundtrip h : normalized h ->
  exists fs, encode_histogram h = Some fs /\ Forall field_ok fs /\ parses read_histogram (fields_bits fs) (Some (Some (coded_with h))).
Proof.
  intros (Hn & Hlen & Hz & Hnn & Hsum & Hlast & Hm). unfold coded_with. set (n := alphabet_size h) in *. set (counts := e_counts h) in *.
  assert (Hf : firstn (Z.to_nat n) counts = map (cnt counts) (zseq 0 (Z.to_nat n))) by (apply firstn_cnt; unfold zlen in Hlen; lia).
  assert (Hc : forall j, 0 <= cnt counts j). { intros j. unfold cnt. destruct (Nat.lt_ge_cases (Z.to_nat j) (length counts)) as [L|L]; [|rewrite nth_overflow by assumption; lia]. apply (proj1 (Forall_forall _ _) Hnn). now apply nth_In. }
  assert (Hs : 0 < n -> zsum (map (cnt counts) (zseq 0 (Z.to_nat n))) = 4096). { intros P. rewrite <- Hf, sum_firstn by assumption. auto. }
  destruct Hm as [(M0 & Pn & Hflat)|(M & Ns & Sy & Big)].
  - replace (n =? 0) with false by lia. rewrite Hflat. destruct (var_len_ok 3 (n - 1) ltac:(lia)) as (Fv & Pv). { change (2 ^ 2 ^ 3) with 256. lia. }
    exists ([(1, 0); (1, 1)] ++ store_var_len 3 (n - 1)). split; [|split].
    + unfold encode_histogram. fold n. replace (ANS_MAX_ALPHABET_SIZE <? n) with false by (unfold ANS_MAX_ALPHABET_SIZE; lia). rewrite M0. cbn [Z.eqb]. now replace (n <=? 0) with false by lia.
    + constructor; [split; cbn; lia|]. constructor; [split; cbn; lia|]. exact Fv.
    + change ([(1, 0); (1, 1)] ++ store_var_len 3 (n - 1)) with ([(1, 0)] ++ [(1, 1)] ++ store_var_len 3 (n - 1)). rewrite !fields_bits_app, !field_one. unfold read_histogram. cbv zeta.
      eapply parses_bind; [apply (parses_rd 1 0); lia|]. cbv beta. change (0 =? 1) with false. cbv iota.
      eapply parses_bind; [apply (parses_rd 1 1); lia|]. cbv beta. change (1 =? 1) with true. cbv iota. rewrite <- (app_nil_r (fields_bits _)).
      eapply parses_bind; [exact Pv|]. cbv beta. replace (n - 1 + 1) with n by lia. change ANS_TAB_SIZE with 4096. replace (4096 <? n) with false by lia. apply parses_ret.
  - assert (Hoc : forall s, In s (occurring n counts) <-> 0 <= s < n /\ 0 < cnt counts s) by (intros; apply occurring_in).
    pose proof (occurring_nodup n counts) as Hnd.
    destruct (Z_le_gt_dec 3 (num_symbols h)) as [G3|L3].
    + (* three or more *)
      destruct (Big G3) as (Ho & Hop & Hb & Hr).
      assert (N3 : 3 <= n). { pose proof (NoDup_incl_length Hnd (fun s Hin => in_zseq (Z.to_nat n) 0 s ltac:(apply Hoc in Hin; lia))) as L. rewrite length_zseq in L. unfold zlen in Ns. lia. }
      replace (n =? 0) with false by lia. rewrite Hf. apply general_ok; try assumption; try lia; [|apply Hs; lia].
      intros i Hi. fold counts. split; [apply Hc|]. fold n in Hi.
      assert (E : exists s, In s (occurring n counts) /\ s <> i).
      { destruct (occurring n counts) as [|a [|b l]]; [cbn in Ns; lia|cbn in Ns; lia|]. destruct (Z.eq_dec a i) as [->|Na]; [|exists a; split; [now left|assumption]]. exists b. split; [now right; left|]. inversion Hnd as [|? ? Hx _]; subst. intros ->. apply Hx. now left. }
      destruct E as (s & Is & Nsi). apply Hoc in Is. pose proof (Hs ltac:(lia)) as Q. rewrite (sum_split (cnt counts) i) in Q by lia. rewrite (sum_split _ s) in Q by lia. cbv beta in Q. replace (s =? i) with false in Q by lia.
      match type of Q with _ + (_ + zsum (map ?g ?l)) = _ => pose proof (sum_nonneg g l) as P end. assert (0 <= 0) by lia. match type of P with ?A -> _ => assert A as PA end.
      { intros j _. destruct (j =? s); [lia|]. destruct (j =? i); [lia|apply Hc]. } specialize (P PA). lia.
    + (* up to two *)
      assert (Only : forall j, 0 <= j < n -> ~ In j (occurring n counts) -> cnt counts j = 0). { intros j Hj Nj. destruct (Z.eq_dec (cnt counts j) 0); [assumption|]. exfalso. apply Nj, Hoc. split; [assumption|]. specialize (Hc j). lia. }
      assert (Last : 0 < n -> In (n - 1) (occurring n counts)) by (intros P; apply Hoc; split; [lia|auto]).
      assert (Tot : 0 < n -> zsum (map (cnt counts) (occurring n counts)) = 4096). { intros P. rewrite <- (Hs P). symmetry. apply simple_sum; [lia|auto|assumption|intros s Is; apply Hoc in Is; lia|assumption]. }
      unfold encode_histogram. fold n counts. replace (ANS_MAX_ALPHABET_SIZE <? n) with false by (unfold ANS_MAX_ALPHABET_SIZE; lia). replace (method h =? 0) with false by lia. replace (num_symbols h <=? 2) with true by lia.
      destruct (occurring n counts) as [|a [|b [|c l]]]; [| | |cbn in Ns; unfold zlen in Ns; cbn in Ns; lia].
      * change (zlen (@nil Z)) with 0 in Ns. rewrite Ns. cbn [Z.eqb]. assert (N0 : n = 0). { destruct (Z.eq_dec n 0); [assumption|]. destruct (Last ltac:(lia)). } replace (n =? 0) with true by lia.
        destruct (var_len_ok 3 0 ltac:(lia)) as (Fv & Pv). { change (2 ^ 2 ^ 3) with 256. lia. }
        eexists. split; [reflexivity|]. split; [constructor; [split; cbn; lia|]; constructor; [split; cbn; lia|]; exact Fv|].
        change ([(1, 1); (1, 0)] ++ store_var_len 3 0) with ([(1, 1)] ++ [(1, 0)] ++ store_var_len 3 0). rewrite !fields_bits_app, !field_one. unfold read_histogram. cbv zeta.
        eapply parses_bind; [apply (parses_rd 1 1); lia|]. cbv beta. change (1 =? 1) with true. cbv iota.
        eapply parses_bind; [apply (parses_rd 1 0); lia|]. cbv beta. rewrite <- (app_nil_r (fields_bits _)).
        eapply parses_bind; [exact Pv|]. cbv beta. change (0 =? 0) with true. cbv iota. change (map _ _) with [4096]. apply parses_ret.
      * change (zlen [a]) with 1 in Ns. rewrite Ns. cbn [Z.eqb Pos.eqb]. rewrite (Sy 0) by lia. change (znth [a] 0) with (Some a). cbv iota.
        assert (Ra : 0 <= a < n /\ 0 < cnt counts a) by (apply Hoc; now left). destruct (Last ltac:(lia)) as [->|[]]. replace (n =? 0) with false by lia.
        destruct (var_len_ok 3 (n - 1) ltac:(lia)) as (Fv & Pv). { change (2 ^ 2 ^ 3) with 256. lia. }
        eexists. split; [reflexivity|]. split; [constructor; [split; cbn; lia|]; constructor; [split; cbn; lia|]; exact Fv|].
        change ([(1, 1); (1, 0)] ++ store_var_len 3 (n - 1)) with ([(1, 1)] ++ [(1, 0)] ++ store_var_len 3 (n - 1)). rewrite !fields_bits_app, !field_one. unfold read_histogram. cbv zeta.
        eapply parses_bind; [apply (parses_rd 1 1); lia|]. cbv beta. change (1 =? 1) with true. cbv iota.
        eapply parses_bind; [apply (parses_rd 1 0); lia|]. cbv beta. rewrite <- (app_nil_r (fields_bits _)).
        eapply parses_bind; [exact Pv|]. cbv beta. change (0 =? 0) with true. cbv iota. replace (n - 1 + 1) with n by lia. rewrite Hf.
        match goal with |- parses (Ret (Some (Some ?x))) _ (Some (Some ?y)) => replace x with y end; [apply parses_ret|].
        apply map_ext_in. intros j Hj. apply zseq_in in Hj. specialize (Tot ltac:(lia)). unfold zsum in Tot. cbn [map fold_right] in Tot. change ANS_TAB_SIZE with 4096. destruct (Z.eqb_spec j (n - 1)) as [->|N]; [lia|]. apply Only; [lia|]. intros [E|[]]. congruence.
      * change (zlen [a; b]) with 2 in Ns. rewrite Ns. cbn [Z.eqb Pos.eqb]. rewrite (Sy 0), (Sy 1) by lia. change (znth [a; b] 0) with (Some a). change (znth [a; b] 1) with (Some b). cbv iota.
        assert (Ra : 0 <= a < n /\ 0 < cnt counts a) by (apply Hoc; now left). assert (Rb : 0 <= b < n /\ 0 < cnt counts b) by (apply Hoc; now right; left).
        rewrite (znth_some counts a 0) by lia. fold (cnt counts a). replace (n =? 0) with false by lia.
        assert (Nab : a <> b) by (inversion Hnd as [|? ? Hx _]; subst; intros ->; apply Hx; now left).
        assert (Mx : Z.max a b + 1 = n) by (destruct (Last ltac:(lia)) as [E|[E|[]]]; lia).
        destruct (var_len_ok 3 a ltac:(lia)) as (Fa & Pa). { change (2 ^ 2 ^ 3) with 256. lia. }
        destruct (var_len_ok 3 b ltac:(lia)) as (Fb & Pb). { change (2 ^ 2 ^ 3) with 256. lia. }
        specialize (Tot ltac:(lia)). unfold zsum in Tot. cbn [map fold_right] in Tot.
        eexists. split; [reflexivity|]. split; [constructor; [split; cbn; lia|]; constructor; [split; cbn; lia|]; apply Forall_app; split; [exact Fa|]; apply Forall_app; split; [exact Fb|]; constructor; [|constructor]; unfold field_ok, ANS_LOG_TAB_SIZE; cbn [fst snd]; change (2 ^ 12) with 4096; lia|].
        change ([(1, 1); (1, 1)] ++ ?l) with ([(1, 1)] ++ [(1, 1)] ++ l). rewrite !fields_bits_app, !field_one. unfold read_histogram. cbv zeta.
        eapply parses_bind; [apply (parses_rd 1 1); lia|]. cbv beta. change (1 =? 1) with true. cbv iota.
        eapply parses_bind; [apply (parses_rd 1 1); lia|]. cbv beta.
        eapply parses_bind; [exact Pa|]. cbv beta. change (1 =? 0) with false. cbv iota. eapply parses_bind; [exact Pb|]. cbv beta. replace (a =? b) with false by lia.
        rewrite <- (app_nil_r (to_bits _ _)). eapply parses_bind; [apply (parses_rd ANS_LOG_TAB_SIZE (cnt counts a)); unfold ANS_LOG_TAB_SIZE; [lia|change (2 ^ 12) with 4096; lia]|]. cbv beta. rewrite Mx, Hf.
        match goal with |- parses (Ret (Some (Some ?x))) _ (Some (Some ?y)) => replace x with y end; [apply parses_ret|].
        apply map_ext_in. intros j Hj. apply zseq_in in Hj. change ANS_TAB_SIZE with 4096. destruct (Z.eqb_spec j b) as [->|N]; [lia|]. destruct (Z.eqb_spec j a) as [->|N']; [reflexivity|]. apply Only; [lia|]. intros [E|[E|[]]]; congruence.
Qed.
