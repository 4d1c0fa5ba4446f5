From Coq Require Import Permutation.
From Verif Require Import Base ListAux OMap RunnerModel RunnerSpec RunnerProofs.
Ltac Zify.zify_post_hook ::= idtac.

Lemma put_cases {A} (l : list A) i (w : A) k x : 0 <= i < zlen l -> znth (put l i w) k = Some x -> (k = i /\ x = w) \/ (k <> i /\ znth l k = Some x).
Proof.
  intros B E. destruct (Z.eq_dec k i) as [->|Ne]; [left; rewrite put_same in E by exact B; injection E as <-; auto|right; rewrite put_other in E by assumption; auto].
Qed.

Lemma Some_inj {A} (a b : A) : Some a = Some b -> a = b.
Proof. intros E. injection E as ->. reflexivity. Qed.

Lemma NoDup_prefix {A} (l r : list A) : NoDup (l ++ r) -> NoDup l.
Proof. induction l as [|a l IH]; intros H; [constructor|]. cbn [app] in H. inversion H as [|? ? H1 H2]; subst. constructor; [intros K; apply H1, in_or_app; left; exact K|apply IH, H2]. Qed.

Section Work.
  Variables (n : nat) (all : list job).
  Hypothesis (NB : Z.of_nat n < 2 ^ 30) (FIT : Forall (fits n) all).
  Notation N := (Z.of_nat n).
  Notation NT := (Z.max N 1).

  (* in a job *)
  Definition in_job (m : caller) (r : Z) : Prop := m = Barrier true \/ (m = Blocked true /\ r < N).

  Lemma put_count f ws i w w' : znth ws i = Some w -> count f (put ws i w') = count f ws - (if f w then 1 else 0) + (if f w' then 1 else 0).
  Proof. intros E. destruct (put_split ws i w E) as (a & b & -> & _ & P). rewrite P, !count_split. lia. Qed.

  Lemma inv_working s done a cur busy : zlen (workers s) = N -> all = done ++ jobs s -> log s = a ++ cur -> all_served NT done a -> working n s cur -> in_job (main s) (ready s) ->
    replay NT [] (log s) = Some busy -> busy_is (workers s) busy -> inv n all s.
  Proof.
    intros L E1 E2 E3 W M B1 B2. constructor; [exact L| |].
    - exists done, a, cur. split; [exact E1|]. split; [exact E2|]. split; [exact E3|]. unfold phase. destruct M as [->|(-> & R)]; [exact W|split; assumption].
    - exists busy. split; [exact B1|]. unfold calls_now. destruct M as [->|(-> & R)]; exact B2.
  Qed.

  Lemma busy_call ws busy i c t stop : busy_is ws busy -> znth ws i = Some (Before c t stop) -> zlen ws = N ->
    exists busy', replay1 NT busy (Call t i) = Some busy' /\ busy_is (put ws i (Inside c t stop)) busy'.
  Proof.
    intros H E L. assert (B := znth_some_inv _ _ _ E). exists ((t, i) :: busy). unfold replay1. replace (0 <=? i) with true by lia. replace (i <? NT) with true by lia.
    assert (X : existsb (fun p => snd p =? i) busy = false).
    { apply not_true_is_false. intros K. apply existsb_exists in K. destruct K as ((t', th) & K1 & K2). cbn [snd] in K2. apply Z.eqb_eq in K2. subst th. apply H in K1. destruct K1 as (c' & stop' & K1). congruence. }
    rewrite X. split; [reflexivity|]. intros t' th. cbn [In]. destruct (Z.eq_dec th i) as [->|Ne].
    - rewrite put_same by exact B. split.
      + intros [K|K]; [injection K as <-; eauto|]. apply H in K. destruct K as (c' & stop' & K). congruence.
      + intros (c' & stop' & K). injection K as <- <- <-. left. reflexivity.
    - rewrite put_other by assumption. rewrite <- (H t' th). split; [intros [K|K]; [congruence|exact K]|auto].
  Qed.
  Lemma busy_back ws busy i c t stop w' : busy_is ws busy -> znth ws i = Some (Inside c t stop) -> (forall c t stop, w' <> Inside c t stop) ->
    exists busy', replay1 NT busy (Back t i) = Some busy' /\ busy_is (put ws i w') busy'.
  Proof.
    intros H E NI. assert (B := znth_some_inv _ _ _ E). unfold replay1.
    assert (X : existsb (fun p => (fst p =? t) && (snd p =? i)) busy = true).
    { apply existsb_exists. exists (t, i). split; [apply H; eauto|]. cbn [fst snd]. rewrite !Z.eqb_refl. reflexivity. }
    rewrite X. eexists. split; [reflexivity|]. intros t' th. rewrite filter_In. cbn [snd]. destruct (Z.eq_dec th i) as [->|Ne].
    - rewrite put_same by exact B. rewrite Z.eqb_refl. split; [intros (_ & K); discriminate|]. intros (c' & stop' & K). injection K as K. destruct (NI _ _ _ K).
    - rewrite put_other by assumption. rewrite <- (H t' th). replace (th =? i) with false by lia. split; [intros (K & _); exact K|intros K; split; [exact K|reflexivity]].
  Qed.

  Lemma reserve_ok j s i c size : real n j -> worker_ok n j (reserved s) (Loaded c size) -> znth (workers s) i = Some (Loaded c size) -> zlen (workers s) = N ->
    0 <= reserved s <= (j_end j - j_start j) + biggest n j * (1 + count is_done (workers s)) ->
    let begin := c / 2 ^ 32 in let num_tasks := w32 (c mod 2 ^ 32 - begin) in let my_begin := w32 (begin + reserved s) in let my_end := Z.min (w32 (my_begin + size)) (w32 (begin + num_tasks)) in
    let T := j_end j - j_start j in
    w32 (reserved s + size) = reserved s + size /\
    ((reserved s < T /\ my_begin = j_start j + reserved s /\ my_end = j_start j + Z.min (reserved s + size) T /\ (my_end <=? my_begin) = false) \/
     (T <= reserved s /\ (my_end <=? my_begin) = true)).
  Proof.
    intros ((U1 & U2 & F3) & S1 & S2 & S3) (-> & SZ) E L RV. cbv zeta. specialize (F3 S1 ltac:(lia)). fold (biggest n j) in F3.
    destruct (code_range n j U1 U2 S1) as (_ & _ & _ & _ & K5 & K6). rewrite K5, K6.
    assert (CD : count is_done (workers s) <= N - 1). { rewrite <- L. destruct (put_split _ _ _ E) as (a & b & Ew & _ & _). rewrite Ew, count_split, zlen_app, zlen_cons. cbn [is_done]. assert (Ka := count_le is_done a). assert (Kb := count_le is_done b). lia. }
    unfold is_u32 in *. assert (BG : 1 <= biggest n j) by (unfold biggest; lia).
    assert (RB : reserved s + size <= j_end j - j_start j + biggest n j * (N + 1)) by nia.
    assert (W1 : w32 (j_end j - j_start j) = j_end j - j_start j) by (unfold w32; apply Z.mod_small; lia). rewrite W1.
    assert (W2 : w32 (j_start j + reserved s) = j_start j + reserved s) by (unfold w32; apply Z.mod_small; lia). rewrite W2.
    assert (W3 : w32 (j_start j + reserved s + size) = j_start j + reserved s + size) by (unfold w32; apply Z.mod_small; lia). rewrite W3.
    assert (W4 : w32 (j_start j + (j_end j - j_start j)) = j_end j) by (unfold w32; rewrite Z.mod_small; lia). rewrite W4.
    split; [unfold w32; apply Z.mod_small; lia|]. destruct (Z.ltb_spec (reserved s) (j_end j - j_start j)); [left|right]; lia.
  Qed.

  Lemma size_ok j s : real n j -> zlen (workers s) = N -> 0 <= reserved s ->
    let num_tasks := w32 (code_of j mod 2 ^ 32 - code_of j / 2 ^ 32) in let num_remaining := num_tasks - Z.min (reserved s) num_tasks in
    1 <= Z.max (num_remaining / w32 (zlen (workers s) * 4)) 1 <= biggest n j.
  Proof.
    intros ((U1 & U2 & F3) & S1 & S2 & S3) L R. cbv zeta. destruct (code_range n j U1 U2 S1) as (_ & _ & _ & _ & K5 & K6). rewrite K5, K6, L. unfold is_u32 in *.
    assert (W1 : w32 (j_end j - j_start j) = j_end j - j_start j) by (unfold w32; apply Z.mod_small; lia). rewrite W1.
    assert (W2 : w32 (N * 4) = 4 * N) by (unfold w32; rewrite Z.mod_small; lia). rewrite W2. unfold biggest. split; [lia|].
    apply Z.max_le_compat_r. apply Z.div_le_mono; lia.
  Qed.

  Lemma perm_move {A} (r1 r2 p1 p2 q1 q2 z : list A) : Permutation (r1 ++ p1 ++ q1 ++ p2) z -> Permutation (r2 ++ q2) (r1 ++ q1) -> Permutation (r2 ++ p1 ++ q2 ++ p2) z.
  Proof.
    intros H K. rewrite <- H. transitivity ((r2 ++ q2) ++ p1 ++ p2).
    - rewrite <- !app_assoc. apply Permutation_app_head. rewrite !app_assoc. apply Permutation_app_tail. apply Permutation_app_comm.
    - rewrite K. rewrite <- !app_assoc. apply Permutation_app_head. rewrite !app_assoc. apply Permutation_app_tail. apply Permutation_app_comm.
  Qed.

  Lemma job_worker_ok s s' i done a cur busy : zlen (workers s) = N -> all = done ++ jobs s -> log s = a ++ cur -> all_served NT done a -> working n s cur -> in_job (main s) (ready s) ->
    replay NT [] (log s) = Some busy -> busy_is (workers s) busy -> step_worker s i = Some s' -> inv n all s'.
  Proof.
    intros L E1 E2 E3 (j & r & J & RJ & PC & D & WO & R & RV & -> & RC & PE) M B1 B2 E. unfold step_worker in E.
    destruct (znth (workers s) i) as [w|] eqn:Ei; [|discriminate]. assert (Wi := WO i w Ei). assert (Bi := znth_some_inv _ _ _ Ei).
    assert (RJ' := RJ). destruct RJ' as ((U1 & U2 & F3) & S1 & S2 & S3). destruct (code_range n j U1 U2 S1) as (_ & KW & _ & KE & _ & _).
    assert (LP : forall w', zlen (put (workers s) i w') = N) by (intros w'; rewrite put_len; assumption).
    assert (CA := put_count is_asleep (workers s) i w). assert (CD := put_count is_done (workers s) i w).
    assert (BG : 1 <= biggest n j) by (unfold biggest; lia). assert (CN := count_le is_asleep (workers s)). assert (CN2 := count_le is_done (workers s)).
    destruct (put_split (workers s) i w Ei) as (l1 & l2 & EW & _ & PW).
    assert (PEs : Permutation (called r ++ pendings l1 ++ pending w ++ pendings l2) (zseq (j_start j) (Z.to_nat (Z.min (reserved s) (j_end j - j_start j))))) by (rewrite EW, pendings_split in PE; exact PE).
    (* a step that changes only the worker, the counter and the log *)
    assert (G : forall w' res' more busy', worker_ok n j res' w' -> reserved s <= res' -> is_asleep w = false -> is_asleep w' = false ->
      res' <= (j_end j - j_start j) + biggest n j * (1 + count is_done (put (workers s) i w')) ->
      Forall is_call more -> Permutation (called (r ++ more) ++ pendings l1 ++ pending w' ++ pendings l2) (zseq (j_start j) (Z.to_nat (Z.min res' (j_end j - j_start j)))) ->
      replay NT busy more = Some busy' -> busy_is (put (workers s) i w') busy' ->
      inv n all (State (put (workers s) i w') (main s) (ready s) (command s) res' (depth s) (jobs s) (log s ++ more))).
    { intros w' res' more busy' Ww Rr A1 A2 Rb MC PM RM BM. apply (inv_working _ done a (Init NT :: r ++ more) busy'); cbn [workers main ready command reserved depth jobs log].
      - apply LP.
      - exact E1.
      - rewrite E2, <- app_assoc. reflexivity.
      - exact E3.
      - exists j, (r ++ more). cbn [workers main ready command reserved depth jobs log]. split; [exact J|]. split; [exact RJ|]. split; [exact PC|]. split; [exact D|].
        split; [intros k x Ek; cbn [workers reserved] in Ek; destruct (put_cases _ _ _ _ _ Bi Ek) as [(_ & ->)|(_ & Ek2)]; [exact Ww|]; specialize (WO k x Ek2); clear -WO Rr; destruct x; cbn [worker_ok] in *; try exact WO; lia|].
        split; [rewrite (CA w' Ei), A1, A2, R; lia|]. split; [lia|]. split; [reflexivity|]. split; [apply Forall_app; split; assumption|]. rewrite PW, pendings_split. exact PM.
      - exact M.
      - rewrite replay_app, B1. exact RM.
      - exact BM. }
    assert (Gq : forall w' res', worker_ok n j res' w' -> reserved s <= res' -> is_asleep w = false -> is_asleep w' = false ->
      res' <= (j_end j - j_start j) + biggest n j * (1 + count is_done (put (workers s) i w')) ->
      (forall c t stop, w <> Inside c t stop) -> (forall c t stop, w' <> Inside c t stop) ->
      Permutation (called r ++ pendings l1 ++ pending w' ++ pendings l2) (zseq (j_start j) (Z.to_nat (Z.min res' (j_end j - j_start j)))) ->
      inv n all (State (put (workers s) i w') (main s) (ready s) (command s) res' (depth s) (jobs s) (log s))).
    { intros w' res' H1 H2 H3 H4 H5 H6 H7 H8. rewrite <- (app_nil_r (log s)). apply (G w' res' [] busy); try assumption; [constructor|rewrite app_nil_r; exact H8|reflexivity|apply (busy_keep _ _ _ w); assumption]. }
    destruct w as [| | |c|c size|c t stop|c t stop|].
    - (* Fresh *)
      assert (WR : w32 (ready s + 1) = ready s + 1) by (unfold w32; apply Z.mod_small; lia). rewrite WR in E. cbv zeta in E.
      assert (NTN : num_threads s = N) by (unfold num_threads; rewrite L; lia). rewrite NTN in E.
      assert (CF : count is_asleep (workers s) < N).
      { destruct (Z.ltb_spec (count is_asleep (workers s)) N); [assumption|]. assert (X := count_all is_asleep (workers s) ltac:(lia) i Fresh Ei). discriminate. }
      assert (EM : exists m, s' = State (put (workers s) i Asleep) m (ready s + 1) (command s) (reserved s) (depth s) (jobs s) (log s) /\ in_job m (ready s + 1)).
      { destruct M as [M|(M & MR)]; rewrite M in E; injection E as <-; eexists; (split; [reflexivity|]); [left; reflexivity|]. destruct (Z.eqb_spec (ready s + 1) N); [left; reflexivity|right; split; [reflexivity|lia]]. }
      destruct EM as (m & -> & Mm). apply (inv_working _ done a (Init NT :: r) busy); cbn [workers main ready command reserved depth jobs log]; try assumption; [apply LP| |].
      + exists j, r. cbn [workers main ready command reserved depth jobs log]. split; [exact J|]. split; [exact RJ|]. split; [exact PC|]. split; [exact D|].
        split; [intros k x Ek; cbn [workers reserved] in Ek; destruct (put_cases _ _ _ _ _ Bi Ek) as [(_ & ->)|(_ & Ek2)]; [exact Wi|exact (WO k x Ek2)]|].
        split; [rewrite (CA Asleep Ei), R; cbn [is_asleep]; lia|]. split; [rewrite (CD Asleep Ei); cbn [is_done]; lia|]. split; [reflexivity|]. split; [exact RC|]. rewrite PW, pendings_split. exact PEs.
      + apply (busy_keep _ _ _ Fresh); try assumption; discriminate.
    - discriminate.
    - (* Woken *)
      injection E as <-. rewrite PC. replace (code_of j =? worker_wait) with false by lia. replace (code_of j =? worker_exit) with false by lia.
      unfold set_worker. apply Gq; [reflexivity|lia|reflexivity|reflexivity|rewrite (CD _ Ei); cbn [is_done]; lia|discriminate|discriminate|exact PEs].
    - (* Top *)
      injection E as <-. cbn [worker_ok] in Wi. rewrite Wi in *. assert (SZ := size_ok j s RJ L (proj1 RV)). cbv zeta in SZ. unfold set_worker.
      apply Gq; [split; [reflexivity|exact SZ]|lia|reflexivity|reflexivity|rewrite (CD _ Ei); cbn [is_done]; lia|discriminate|discriminate|exact PEs].
    - (* Loaded *)
      apply Some_inj in E. subst s'. cbv zeta. assert (K := reserve_ok j s i c size RJ Wi Ei L RV). cbv zeta in K. destruct K as (K0 & K). rewrite K0. unfold set_worker. cbn [workers main ready command reserved depth jobs log].
      destruct Wi as (-> & SZ). destruct K as [(K1 & K2 & K3 & K4)|(K1 & K4)]; rewrite K4.
      + clear K4. rewrite K3, K2. apply Gq; [cbn [worker_ok]; lia|lia|reflexivity|reflexivity|rewrite (CD _ Ei); cbn [is_done]; nia|discriminate|discriminate|].
        cbn [pending] in *. replace (Z.to_nat (Z.min (reserved s + size) (j_end j - j_start j))) with (Z.to_nat (Z.min (reserved s) (j_end j - j_start j)) + Z.to_nat (j_start j + Z.min (reserved s + size) (j_end j - j_start j) - (j_start j + reserved s)))%nat by lia.
          rewrite zseq_split. replace (j_start j + Z.of_nat (Z.to_nat (Z.min (reserved s) (j_end j - j_start j)))) with (j_start j + reserved s) by lia. rewrite <- PEs. cbn [app]. rewrite <- !app_assoc. do 2 apply Permutation_app_head. apply Permutation_app_comm.
      + apply Gq; [cbn [worker_ok]; lia|lia|reflexivity|reflexivity|rewrite (CD _ Ei); cbn [is_done]; lia|discriminate|discriminate|].
        cbn [pending] in *. rewrite Z.min_r in PEs |- * by lia. exact PEs.
    - (* Before *)
      injection E as <-. unfold add_log, set_worker. cbn [workers main ready command reserved depth jobs log]. destruct (busy_call _ _ _ _ _ _ B2 Ei L) as (busy' & K1 & K2). cbn [worker_ok] in Wi.
      apply (G _ _ _ busy'); [exact Wi|lia|reflexivity|reflexivity|rewrite (CD _ Ei); cbn [is_done]; lia|repeat constructor| |cbn [replay]; rewrite K1; reflexivity|exact K2].
      + apply (perm_move (called r) _ (pendings l1) (pendings l2) (pending (Before c t stop))); [exact PEs|]. rewrite called_app. cbn [called pending].
        replace (Z.to_nat (stop - t)) with (Datatypes.S (Z.to_nat (stop - t - 1))) by lia. cbn [zseq]. rewrite <- app_assoc. apply Permutation_refl.
    - (* Inside *)
      injection E as <-. unfold add_log, set_worker. cbn [workers main ready command reserved depth jobs log]. cbn [worker_ok] in Wi. unfold is_u32 in *.
      assert (WT : w32 (t + 1) = t + 1) by (unfold w32; apply Z.mod_small; lia). rewrite WT.
      destruct (busy_back _ _ _ _ _ _ (if t + 1 <? stop then Before c (t + 1) stop else Top c) B2 Ei) as (busy' & K1 & K2); [intros; destruct (_ <? _); discriminate|].
      apply (G _ _ _ busy'); [destruct (Z.ltb_spec (t + 1) stop); cbn [worker_ok]; [lia|tauto]|lia|reflexivity|destruct (_ <? _); reflexivity|rewrite (CD _ Ei); destruct (_ <? _); cbn [is_done]; lia|repeat constructor| |cbn [replay]; rewrite K1; reflexivity|exact K2].
      + apply (perm_move (called r) _ (pendings l1) (pendings l2) (pending (Inside c t stop))); [exact PEs|]. rewrite called_app. cbn [called]. rewrite app_nil_r. apply Permutation_app_head. destruct (Z.ltb_spec (t + 1) stop); cbn [pending].
        * replace (stop - (t + 1)) with (stop - t - 1) by lia. apply Permutation_refl.
        * replace (Z.to_nat (stop - t - 1)) with 0%nat by lia. apply Permutation_refl.
    - destruct Wi.
  Qed.

  Lemma worker_step_ok s s' i : inv n all s -> step_worker s i = Some s' -> inv n all s'.
  Proof.
    intros I E. destruct I as [L (done & a & cur & E1 & E2 & E3 & P) (busy & B1 & B2)].
    destruct (znth (workers s) i) as [w|] eqn:Ei; [|unfold step_worker in E; rewrite Ei in E; discriminate]. assert (Bi := znth_some_inv _ _ _ Ei).
    assert (LP : forall w', zlen (put (workers s) i w') = N) by (intros w'; rewrite put_len; assumption).
    assert (ASL : all_ws s (eq Asleep) -> False) by (intros A; unfold step_worker in E; rewrite Ei, <- (A i w Ei) in E; discriminate).
    unfold phase in P. unfold calls_now in B2. destruct (main s) as [|t stop|t stop|c|c|b|b| |] eqn:M.
    - destruct (ASL (proj1 P)).
    - destruct P as (j & r & N0 & _). lia.
    - destruct P as ((j & r & N0 & _) & _). lia.
    - destruct (ASL (proj1 P)).
    - destruct P as (P & _). destruct (ASL (proj1 P)).
    - destruct b; [apply (job_worker_ok s s' i done a cur busy); try assumption; left; exact M|].
      destruct P as (AD & R & C & D & -> & NP). assert (Wi := AD i w Ei). unfold step_worker in E. rewrite Ei in E. destruct w; try discriminate.
      assert (CN := count_le is_asleep (workers s)). assert (WR : w32 (ready s + 1) = ready s + 1) by (unfold w32; apply Z.mod_small; lia). rewrite WR, M in E. injection E as <-.
      constructor; cbn [workers main ready command reserved depth jobs log]; [apply LP| |].
      + exists done, a, []. split; [exact E1|]. split; [exact E2|]. split; [exact E3|]. unfold phase. cbn [main]. unfold all_ws. cbn [workers main ready command reserved depth jobs log].
        split; [intros k x Ek; destruct (put_cases _ _ _ _ _ Bi Ek) as [(_ & ->)|(_ & Ek2)]; [reflexivity|apply (AD k x Ek2)]|]. split; [rewrite (put_count is_asleep (workers s) i Fresh Asleep Ei), R; cbn [is_asleep]; lia|]. repeat split; assumption.
      + exists busy. split; [exact B1|]. unfold calls_now. cbn [main workers]. apply (busy_keep _ _ _ Fresh); try assumption; discriminate.
    - destruct b; [destruct P as (P & PR); apply (job_worker_ok s s' i done a cur busy); try assumption; right; split; assumption|].
      destruct P as ((AD & R & C & D & -> & NP) & PR). assert (Wi := AD i w Ei). unfold step_worker in E. rewrite Ei in E. destruct w; try discriminate.
      assert (CN := count_le is_asleep (workers s)). assert (WR : w32 (ready s + 1) = ready s + 1) by (unfold w32; apply Z.mod_small; lia). rewrite WR, M in E. cbv zeta in E.
      assert (NTN : num_threads s = N) by (unfold num_threads; rewrite L; lia). rewrite NTN in E. injection E as <-.
      assert (Q : all_ws (State (put (workers s) i Asleep) (main s) (ready s + 1) (command s) (reserved s) (depth s) (jobs s) (log s)) (fun w => is_done w = true) /\ ready s + 1 = count is_asleep (put (workers s) i Asleep)).
      { split; [intros k x Ek; cbn [workers] in Ek; destruct (put_cases _ _ _ _ _ Bi Ek) as [(_ & ->)|(_ & Ek2)]; [reflexivity|apply (AD k x Ek2)]|]. rewrite (put_count is_asleep (workers s) i Fresh Asleep Ei), R; cbn [is_asleep]; lia. }
      destruct Q as (Q1 & Q2). constructor; cbn [workers main ready command reserved depth jobs log]; [apply LP| |].
      + exists done, a, []. split; [exact E1|]. split; [exact E2|]. split; [exact E3|]. unfold phase. cbn [main]. destruct (Z.eqb_spec (ready s + 1) N); cbn [workers main ready command reserved depth jobs log].
        * split; [exact Q1|]. split; [exact Q2|]. repeat split; assumption.
        * split; [split; [exact Q1|]; split; [exact Q2|]; repeat split; assumption|lia].
      + exists busy. split; [exact B1|]. assert (K : busy_is (put (workers s) i Asleep) busy) by (apply (busy_keep _ _ _ Fresh); try assumption; discriminate). unfold calls_now. cbn [main workers]. destruct (ready s + 1 =? N); exact K.
    - destruct P as (A & C & -> & J). assert (Wi := A i w Ei). unfold step_worker in E. rewrite Ei in E. replace (N =? 0) with false in C by lia.
      destruct Wi as [-> | ->]; [|discriminate]. rewrite C in E. change (worker_exit =? worker_wait) with false in E. change (worker_exit =? worker_exit) with true in E. cbv iota in E. injection E as <-.
      unfold set_worker. constructor; cbn [workers main ready command reserved depth jobs log]; [apply LP| |].
      + exists done, a, []. split; [exact E1|]. split; [exact E2|]. split; [exact E3|]. unfold phase. cbn [main]. rewrite M. unfold all_ws. cbn [workers command jobs]. split; [|replace (N =? 0) with false by lia; repeat split; assumption].
        intros k x Ek. destruct (put_cases _ _ _ _ _ Bi Ek) as [(_ & ->)|(_ & Ek2)]; [right; reflexivity|apply (A k x Ek2)].
      + exists busy. split; [exact B1|]. unfold calls_now. cbn [main workers]. rewrite M. apply (busy_keep _ _ _ Woken); try assumption; discriminate.
    - destruct P as (A & _). unfold step_worker in E. rewrite Ei, <- (A i w Ei) in E. discriminate.
  Qed.

  Lemma run_inv cs : forall s s', inv n all s -> no_spurious cs -> run s cs = Some s' -> inv n all s'.
  Proof.
    induction cs as [|c cs IH]; intros s s' I NS E; cbn [run] in E; [injection E as <-; exact I|]. inversion NS as [|? ? N1 N2]; subst.
    destruct (step s c) as [s1|] eqn:Es; [|discriminate]. apply (IH s1 s'); [|exact N2|exact E]. destruct c; cbn [step] in Es; [apply (main_ok n all FIT s s1 I Es)|apply (worker_step_ok s s1 i I Es)|destruct N1].
  Qed.

  (* what the invariant says to the user *)
  Lemma inv_serves s : inv n all s -> serves NT all (log s).
  Proof.
    intros [L (done & a & cur & E1 & E2 & E3 & P) _]. exists done, (jobs s), a, cur. split; [exact E1|]. split; [exact E2|]. split; [exact E3|].
    assert (K : cur = [] \/ exists j, hd_error (jobs s) = Some j /\ being_served NT j cur).
    { unfold phase in P. assert (WK : working n s cur -> exists j, hd_error (jobs s) = Some j /\ being_served NT j cur).
      { intros (j & r & J & RJ & PC & D & WO & R & RV & -> & RC & PE). exists j. split; [exact J|]. right. exists r. split; [reflexivity|]. split; [exact RC|]. split.
        - apply (NoDup_prefix _ (pendings (workers s))). apply (Permutation_NoDup (Permutation_sym PE)). apply zseq_nodup.
        - intros t Ht. assert (X : In t (zseq (j_start j) (Z.to_nat (Z.min (reserved s) (j_end j - j_start j))))) by (apply (Permutation_in _ PE); apply in_or_app; left; exact Ht). apply zseq_in in X. lia. }
      assert (SR : forall t stop upto, serial n s cur t stop upto -> upto <= stop -> exists j, hd_error (jobs s) = Some j /\ being_served NT j cur).
      { intros t stop upto (j & r & N0 & J & FJ & JI & T1 & T2 & T3 & -> & RC & CR & _) HU. exists j. split; [exact J|]. right. exists r. split; [reflexivity|]. split; [exact RC|]. rewrite CR. split; [apply zseq_nodup|]. intros x Hx. apply zseq_in in Hx. lia. }
      assert (WA : forall s0 c, jobs s0 = jobs s -> waking n s0 cur c -> cur = [] \/ exists j, hd_error (jobs s) = Some j /\ being_served NT j cur).
      { intros s0 c Es0 (_ & _ & _ & [(_ & _ & -> & _)|(j & J & _ & _ & _ & ->)]); [left; reflexivity|right]. exists j. split; [rewrite <- Es0; exact J|]. right. exists []. split; [reflexivity|]. split; [constructor|]. split; [constructor|intros t []]. }
      destruct (main s) as [|t stop|t stop|c|c|[|]|[|]| |].
      - left. tauto.
      - right. apply (SR t stop t P). destruct P as (j & r & K). lia.
      - right. destruct P as (P & H). apply (SR t stop (t + 1) P). lia.
      - refine (WA _ c _ P). reflexivity.
      - refine (WA _ c _ (proj1 P)). reflexivity.
      - right. apply WK. exact P.
      - left. tauto.
      - right. apply WK. tauto.
      - left. tauto.
      - left. tauto.
      - left. tauto. }
    destruct K as [->|(j & J & K)]; [destruct (jobs s); [reflexivity|left; reflexivity]|]. destruct (jobs s) as [|x r]; [discriminate|]. injection J as ->. exact K.
  Qed.
  Lemma inv_over s : inv n all s -> main s = Over -> all_served NT all (log s).
  Proof.
    intros [L (done & a & cur & E1 & E2 & E3 & P) _] M. unfold phase in P. rewrite M in P. destruct P as (_ & -> & J). rewrite E1, E2, J, !app_nil_r. exact E3.
  Qed.

  (* someone can go on, until the pool is gone *)
  Lemma inv_progress s : inv n all s -> main s <> Over -> exists c s', match c with Spurious _ => False | _ => True end /\ step s c = Some s'.
  Proof.
    intros [L (done & a & cur & E1 & E2 & E3 & P) _] M. unfold phase in P.
    assert (WK : forall i w, znth (workers s) i = Some w -> w <> Asleep -> w <> Gone -> exists c s', match c with Spurious _ => False | _ => True end /\ step s c = Some s').
    { intros i w Ei N1 N2. exists (Worker i). cbn [step]. unfold step_worker. rewrite Ei. destruct w; try contradiction; eexists; split; try exact I; reflexivity. }
    assert (MN : forall s', step_main s = Some s' -> exists c s', match c with Spurious _ => False | _ => True end /\ step s c = Some s') by (intros s' E; exists Main, s'; split; [exact I|exact E]).
    unfold step_main in MN. destruct (main s) as [|t stop|t stop|c|c|b|b| |] eqn:EM.
    - destruct (jobs s); eapply MN; reflexivity.
    - eapply MN; reflexivity.
    - eapply MN; reflexivity.
    - eapply MN; reflexivity.
    - eapply MN; reflexivity.
    - destruct (negb _); eapply MN; reflexivity.
    - assert (K : count is_asleep (workers s) < zlen (workers s)) by (destruct b; [destruct P as ((j & r & _ & _ & _ & _ & _ & R & _) & H)|destruct P as ((_ & R & _) & H)]; lia).
      destruct (count_none is_asleep (workers s) K) as (i & w & Ei & Ew). apply (WK i w Ei); [intros ->; discriminate|]. intros ->. destruct b; [destruct P as ((j & r & _ & _ & _ & _ & WO & _) & _); apply (WO i Gone Ei)|destruct P as ((AD & _) & _); specialize (AD i Gone Ei); discriminate].
    - destruct (forallb _ (workers s)) eqn:FA; [eapply MN; reflexivity|]. destruct P as (A & _).
      assert (K : exists i w, znth (workers s) i = Some w /\ w <> Gone).
      { clear -FA. induction (workers s) as [|w ws IH]; [discriminate|]. destruct w; try (exists 0; eexists; split; [apply znth_0|discriminate]). cbn [forallb andb] in FA. destruct (IH FA) as (i & w & E & H). exists (i + 1), w. split; [|exact H]. rewrite znth_succ by (apply znth_some_inv in E; lia). replace (i + 1 - 1) with i by lia. exact E. }
      destruct K as (i & w & Ei & Ew). apply (WK i w Ei); [|exact Ew]. destruct (A i w Ei) as [-> | ->]; discriminate.
    - contradiction.
  Qed.
End Work.
