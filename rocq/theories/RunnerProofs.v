From Coq Require Import Permutation.
From Verif Require Import Base ListAux OMap RunnerModel RunnerSpec.
Ltac Zify.zify_post_hook ::= idtac.

(* ---- lists of workers ---- *)
Lemma put_split {A} (l : list A) i w : znth l i = Some w -> exists a b, l = a ++ w :: b /\ zlen a = i /\ forall w', put l i w' = a ++ w' :: b.
Proof.
  intros E. assert (B := znth_some_inv _ _ _ E). unfold znth in E. destruct (Z.ltb_spec i 0); [discriminate|]. exists (firstn (Z.to_nat i) l), (skipn (Datatypes.S (Z.to_nat i)) l).
  assert (K : forall (n : nat) (l : list A), nth_error l n = Some w -> l = firstn n l ++ w :: skipn (Datatypes.S n) l).
  { clear. induction n as [|n IH]; intros [|x l] E; try discriminate; [injection E as ->; reflexivity|]. cbn [firstn app skipn]. f_equal. apply IH. exact E. }
  split; [apply K; exact E|]. split; [|reflexivity]. unfold zlen in *. rewrite firstn_length. lia.
Qed.

Definition is_asleep (w : worker) : bool := match w with Asleep => true | _ => false end.
Definition is_done (w : worker) : bool := match w with Asleep | Fresh => true | _ => false end.
Definition count (f : worker -> bool) (ws : list worker) : Z := zlen (filter f ws).
Lemma count_split f a w b : count f (a ++ w :: b) = count f a + (if f w then 1 else 0) + count f b.
Proof. unfold count. rewrite filter_app, zlen_app. cbn [filter]. destruct (f w); rewrite ?zlen_cons; lia. Qed.
Lemma count_le f ws : 0 <= count f ws <= zlen ws.
Proof. unfold count. split; [apply zlen_nonneg|]. induction ws as [|w ws IH]; [unfold zlen; cbn; lia|]. cbn [filter]. destruct (f w); rewrite ?zlen_cons; lia. Qed.
Lemma count_all f ws : count f ws = zlen ws -> forall i w, znth ws i = Some w -> f w = true.
Proof.
  intros C i w E. destruct (put_split ws i w E) as (a & b & -> & _ & _). rewrite count_split, zlen_app, zlen_cons in C. assert (Ca := count_le f a). assert (Cb := count_le f b). destruct (f w); [reflexivity|lia].
Qed.
Lemma count_of_all f ws : (forall i w, znth ws i = Some w -> f w = true) -> count f ws = zlen ws.
Proof.
  intros H. unfold count. f_equal. induction ws as [|w ws IH]; [reflexivity|]. cbn [filter]. rewrite (H 0 w (znth_0 _ _)). f_equal. apply IH.
  intros i x E. apply (H (i + 1)). rewrite znth_succ by (apply znth_some_inv in E; lia). replace (i + 1 - 1) with i by lia. exact E.
Qed.
Lemma count_none f ws : count f ws < zlen ws -> exists i w, znth ws i = Some w /\ f w = false.
Proof.
  induction ws as [|x ws IH]; [unfold count, zlen; cbn; lia|]. intros C. destruct (f x) eqn:F; [|exists 0, x; split; [apply znth_0|exact F]].
  destruct IH as (i & w & E & K). { unfold count in *. cbn [filter] in C. rewrite F in C. rewrite !zlen_cons in C. lia. }
  exists (i + 1), w. split; [|exact K]. rewrite znth_succ by (apply znth_some_inv in E; lia). replace (i + 1 - 1) with i by lia. exact E.
Qed.

(* the tasks a worker has taken and not begun *)
Definition pending (w : worker) : list Z :=
  match w with Before _ t stop => zseq t (Z.to_nat (stop - t)) | Inside _ t stop => zseq (t + 1) (Z.to_nat (stop - t - 1)) | _ => [] end.
Definition pendings (ws : list worker) : list Z := flat_map pending ws.
Lemma pendings_split a w b : pendings (a ++ w :: b) = pendings a ++ pending w ++ pendings b.
Proof. unfold pendings. rewrite flat_map_app. reflexivity. Qed.
Lemma pendings_none ws : (forall i w, znth ws i = Some w -> pending w = []) -> pendings ws = [].
Proof.
  intros H. unfold pendings. induction ws as [|w ws IH]; [reflexivity|]. cbn [flat_map]. rewrite (H 0 w (znth_0 _ _)). apply IH.
  intros i x E. apply (H (i + 1)). rewrite znth_succ by (apply znth_some_inv in E; lia). replace (i + 1 - 1) with i by lia. exact E.
Qed.

(* calls in progress *)
Definition busy_is (ws : list worker) (busy : list (Z * Z)) : Prop :=
  forall t th, In (t, th) busy <-> exists c stop, znth ws th = Some (Inside c t stop).
Lemma busy_none ws busy : busy_is ws busy -> (forall i w, znth ws i = Some w -> match w with Inside _ _ _ => False | _ => True end) -> busy = [].
Proof.
  intros H K. destruct busy as [|(t, th) b]; [reflexivity|]. exfalso. destruct (proj1 (H t th) (or_introl eq_refl)) as (c & stop & E). apply (K _ _ E).
Qed.
Lemma busy_keep ws busy i w w' : busy_is ws busy -> znth ws i = Some w -> (forall c t stop, w <> Inside c t stop) -> (forall c t stop, w' <> Inside c t stop) -> busy_is (put ws i w') busy.
Proof.
  intros H E N N' t th. assert (B := znth_some_inv _ _ _ E). rewrite (H t th). destruct (Z.eq_dec th i) as [->|Ne].
  - rewrite put_same by exact B. split; intros (c & stop & K); [rewrite E in K; injection K as K; destruct (N _ _ _ K)|injection K as K; destruct (N' _ _ _ K)].
  - rewrite put_other by assumption. reflexivity.
Qed.

Lemma replay_app n busy l r : replay n busy (l ++ r) = match replay n busy l with Some b => replay n b r | None => None end.
Proof. revert busy. induction l as [|e l IH]; intros busy; [reflexivity|]. cbn [app replay]. destruct (replay1 n busy e); [apply IH|reflexivity]. Qed.
Lemma called_app l r : called (l ++ r) = called l ++ called r.
Proof. induction l as [|[?|? ?|? ?|?] l IH]; cbn [app called]; rewrite ?IH; reflexivity. Qed.

Lemma zseq_split z n m : zseq z (n + m) = zseq z n ++ zseq (z + Z.of_nat n) m.
Proof.
  revert z. induction n as [|n IH]; intros z; cbn [Nat.add zseq app]; [f_equal; lia|]. rewrite IH. replace (z + 1 + Z.of_nat n) with (z + Z.of_nat (Datatypes.S n)) by lia. reflexivity.
Qed.
Lemma zseq_nodup z n : NoDup (zseq z n).
Proof. revert z. induction n as [|n IH]; intros z; cbn [zseq]; constructor; [|apply IH]. intros K. apply zseq_in in K. lia. Qed.

(* ---- the invariant ---- *)
Section Runner.
  Variables (n : nat) (all : list job).
  Hypothesis (NB : Z.of_nat n < 2 ^ 30) (FIT : Forall (fits n) all).
  Notation N := (Z.of_nat n).
  Notation NT := (Z.max N 1).

  Definition biggest (j : job) : Z := Z.max ((j_end j - j_start j) / (4 * N)) 1.
  Definition code_of (j : job) : Z := j_start j * 2 ^ 32 + j_end j.
  (* a job that workers serve *)
  Definition real (j : job) : Prop := fits n j /\ j_start j < j_end j /\ j_init j = success /\ 0 < N.

  Definition worker_ok (j : job) (r : Z) (w : worker) : Prop :=
    match w with
    | Fresh | Asleep => j_end j - j_start j <= r
    | Woken => True
    | Top c => c = code_of j
    | Loaded c size => c = code_of j /\ 1 <= size <= biggest j
    | Before c t stop | Inside c t stop => c = code_of j /\ j_start j <= t < stop /\ stop <= j_end j
    | Gone => False
    end.

  Definition all_ws (s : state) (P : worker -> Prop) : Prop := forall i w, znth (workers s) i = Some w -> P w.
  Definition working (s : state) (cur : list event) : Prop :=
    exists j r, hd_error (jobs s) = Some j /\ real j /\ command s = code_of j /\ depth s = 1 /\
      all_ws s (worker_ok j (reserved s)) /\ ready s = count is_asleep (workers s) /\
      0 <= reserved s <= (j_end j - j_start j) + biggest j * (1 + count is_done (workers s)) /\
      cur = Init NT :: r /\ Forall is_call r /\ Permutation (called r ++ pendings (workers s)) (zseq (j_start j) (Z.to_nat (Z.min (reserved s) (j_end j - j_start j)))).
  Definition waking (s : state) (cur : list event) (c : Z) : Prop :=
    all_ws s (eq Asleep) /\ ready s = 0 /\ reserved s = 0 /\
    ((c = worker_exit /\ depth s = 0 /\ cur = [] /\ jobs s = [] /\ 0 < N) \/
     (exists j, hd_error (jobs s) = Some j /\ real j /\ c = code_of j /\ depth s = 1 /\ cur = [Init NT])).
  Definition serial (s : state) (cur : list event) (t stop upto : Z) : Prop :=
    exists j r, n = 0%nat /\ hd_error (jobs s) = Some j /\ fits n j /\ j_init j = success /\ j_start j <= t <= stop /\ j_start j < stop /\ stop = j_end j /\
      cur = Init NT :: r /\ Forall is_call r /\ called r = zseq (j_start j) (Z.to_nat (upto - j_start j)) /\ ready s = 0 /\ command s = worker_wait /\ depth s = 0.

  Definition phase (s : state) (cur : list event) : Prop :=
    match main s with
    | Idle => all_ws s (eq Asleep) /\ ready s = 0 /\ command s = worker_wait /\ depth s = 0 /\ cur = []
    | Serial t stop => serial s cur t stop t
    | SerialIn t stop => serial s cur t stop (t + 1) /\ t < stop
    | Setting c => waking (State (workers s) (main s) (ready s) c (if c =? worker_exit then 0 else reserved s) (depth s) (jobs s) (log s)) cur c
    | Notifying c => waking (State (workers s) (main s) (ready s) c (if c =? worker_exit then 0 else reserved s) (depth s) (jobs s) (log s)) cur c /\ command s = c
    | Barrier true => working s cur
    | Blocked true => working s cur /\ ready s < N
    | Barrier false => all_ws s (fun w => is_done w = true) /\ ready s = count is_asleep (workers s) /\ command s = worker_wait /\ depth s = 0 /\ cur = [] /\ 0 < N
    | Blocked false => (all_ws s (fun w => is_done w = true) /\ ready s = count is_asleep (workers s) /\ command s = worker_wait /\ depth s = 0 /\ cur = [] /\ 0 < N) /\ ready s < N
    | Joining => all_ws s (fun w => w = Woken \/ w = Gone) /\ command s = (if N =? 0 then worker_wait else worker_exit) /\ cur = [] /\ jobs s = []
    | Over => all_ws s (eq Gone) /\ cur = [] /\ jobs s = []
    end.

  Definition calls_now (s : state) (busy : list (Z * Z)) : Prop :=
    match main s with SerialIn t _ => busy = [(t, 0)] | Serial _ _ => busy = [] | _ => busy_is (workers s) busy end.

  Record inv (s : state) : Prop := {
    v_len : zlen (workers s) = N;
    v_log : exists done a cur, all = done ++ jobs s /\ log s = a ++ cur /\ all_served NT done a /\ phase s cur;
    v_busy : exists busy, replay NT [] (log s) = Some busy /\ calls_now s busy }.

  Lemma inv_start : inv (start n all).
  Proof.
    constructor.
    - unfold start. cbn [workers]. unfold zlen. rewrite repeat_length. reflexivity.
    - exists [], [], []. split; [reflexivity|]. split; [reflexivity|]. split; [constructor|]. unfold phase, start. cbn [main].
      assert (F : forall i w, znth (repeat Fresh n) i = Some w -> w = Fresh) by (intros i w; unfold znth; destruct (i <? 0); [discriminate|]; intros E; apply nth_error_In, repeat_spec in E; exact E).
      destruct (Z.eqb_spec N 0) as [E|E].
      + unfold all_ws. cbn [workers ready command depth]. repeat split; try reflexivity. intros i w Ei. assert (n = 0%nat) by lia. subst n. apply znth_some_inv in Ei. unfold zlen in Ei. cbn in Ei. lia.
      + unfold all_ws. cbn [workers ready command depth]. split; [intros i w Ei; rewrite (F i w Ei); reflexivity|]. split; [|repeat split; lia].
        symmetry. unfold count. replace (filter is_asleep (repeat Fresh n)) with (@nil worker); [reflexivity|]. clear. induction n as [|m IH]; [reflexivity|exact IH].
    - exists []. split; [reflexivity|]. unfold calls_now, start. cbn [main workers].
      assert (K : busy_is (repeat Fresh n) []). { intros t th. split; [intros []|]. intros (c & stop & E). unfold znth in E. destruct (th <? 0); [discriminate|]. apply nth_error_In, repeat_spec in E. discriminate. }
      destruct (N =? 0); exact K.
  Qed.

  Lemma fits_now done s j rest : all = done ++ jobs s -> jobs s = j :: rest -> fits n j.
  Proof. intros E1 E2. rewrite Forall_forall in FIT. apply FIT. rewrite E1, E2. apply in_or_app. right. left. reflexivity. Qed.

  Lemma busy_asleep s busy : all_ws s (eq Asleep) -> busy_is (workers s) busy -> busy = [].
  Proof. intros A B. apply (busy_none (workers s)); [exact B|]. intros i w E. rewrite <- (A i w E). exact I. Qed.
  Lemma asleep_busy ws : (forall i w, znth ws i = Some w -> forall c t stop, w <> Inside c t stop) -> busy_is ws [].
  Proof. intros A t th. split; [intros []|]. intros (c & stop & E). destruct (A _ _ E _ _ _ eq_refl). Qed.

  Lemma inv_return s cur done a j rest code : zlen (workers s) = N -> jobs s = j :: rest -> all = done ++ jobs s -> log s = a ++ cur -> all_served NT done a -> served NT j cur code ->
    all_ws s (eq Asleep) -> ready s = 0 -> command s = worker_wait -> depth s = 0 -> replay NT [] (log s) = Some [] -> inv (return_ s code).
  Proof.
    intros L J E1 E2 E3 SV A R C D B. constructor; unfold return_; cbn [workers main ready command reserved depth jobs log].
    - exact L.
    - exists (done ++ [j]), (a ++ cur ++ [Return code]), []. split; [rewrite J in *; cbn [tl]; rewrite E1, <- app_assoc; reflexivity|]. split; [rewrite E2, app_nil_r, app_assoc; reflexivity|].
      split; [constructor; assumption|]. unfold phase. cbn [main workers ready command depth]. unfold all_ws. cbn [workers]. repeat split; assumption.
    - exists []. split; [rewrite replay_app, B; reflexivity|]. unfold calls_now. cbn [main workers]. apply asleep_busy. intros i w E c t stop. rewrite <- (A i w E). discriminate.
  Qed.

  Lemma code_range j : is_u32 (j_start j) -> is_u32 (j_end j) -> j_start j < j_end j ->
    w64 (w64 (j_start j * 2 ^ 32) + j_end j) = code_of j /\ code_of j <> worker_wait /\ code_of j <> worker_once /\ code_of j <> worker_exit /\
    code_of j / 2 ^ 32 = j_start j /\ code_of j mod 2 ^ 32 = j_end j.
  Proof.
    unfold is_u32, code_of, w64, worker_wait, worker_once, worker_exit. intros H1 H2 H3. rewrite (Z.mod_small (j_start j * 2 ^ 32)) by lia.
    split; [apply Z.mod_small; lia|]. split; [lia|]. split; [lia|]. split; [lia|].
    replace (j_start j * 2 ^ 32 + j_end j) with (j_end j + j_start j * 2 ^ 32) by lia. split; [rewrite Z.div_add, Z.div_small by lia; lia|rewrite Z.mod_add, Z.mod_small by lia; reflexivity].
  Qed.

  Lemma all_asleep_ws s w : all_ws s (eq Asleep) -> forall i, znth (workers s) i = Some w -> w = Asleep.
  Proof. intros A i E. symmetry. apply (A i w E). Qed.

  Lemma idle_ok s j rest : inv s -> main s = Idle -> jobs s = j :: rest -> inv (call_runner s j).
  Proof.
    intros [L (done & a & cur & E1 & E2 & E3 & P) (busy & B1 & B2)] M J. unfold phase in P. rewrite M in P. destruct P as (A & R & C & D & ->). unfold calls_now in B2. rewrite M in B2.
    rewrite (busy_asleep s busy A B2) in *. clear B2. assert (FJ := fits_now done s j rest E1 J). unfold call_runner.
    destruct (Z.ltb_spec (j_end j) (j_start j)) as [H|H].
    { apply (inv_return s [] done a j rest); try assumption. unfold served. replace (j_end j <? j_start j) with true by lia. split; reflexivity. }
    destruct (Z.eqb_spec (j_start j) (j_end j)) as [H2|H2].
    { apply (inv_return s [] done a j rest); try assumption. unfold served. replace (j_end j <? j_start j) with false by lia. replace (j_start j =? j_end j) with true by lia. split; reflexivity. }
    cbv zeta. cbn [add_log workers main ready command reserved depth jobs log].
    assert (BI : replay NT [] (log s ++ [Init NT]) = Some []) by (rewrite replay_app, B1; reflexivity).
    destruct (Z.eqb_spec (j_init j) success) as [H3|H3]; cbn [negb].
    2: { apply (inv_return _ [Init NT] done a j rest); unfold add_log, all_ws; cbn [workers main ready command reserved depth jobs log]; try assumption; [rewrite E2, app_nil_r, L; reflexivity| |rewrite L; exact BI].
      unfold served. replace (j_end j <? j_start j) with false by lia. replace (j_start j =? j_end j) with false by lia. replace (j_init j =? success) with false by lia. split; reflexivity. }
    rewrite L. destruct (Z.eqb_spec N 0) as [H4|H4].
    { unfold set_main, add_log. cbn [workers main ready command reserved depth jobs log]. constructor; cbn [workers main ready command reserved depth jobs log].
      - exact L.
      - exists done, a, [Init NT]. split; [exact E1|]. split; [rewrite E2, app_nil_r; reflexivity|]. split; [exact E3|]. unfold phase. cbn [main]. exists j, []. cbn [jobs ready command depth]. rewrite J.
        split; [lia|]. split; [reflexivity|]. split; [exact FJ|]. split; [exact H3|]. split; [lia|]. split; [lia|]. split; [reflexivity|]. split; [reflexivity|]. split; [constructor|]. split; [|repeat split; assumption].
        replace (j_start j - j_start j) with 0 by lia. reflexivity.
      - exists []. split; [exact BI|reflexivity]. }
    rewrite D. change (negb (0 =? 0)) with false. change (w32 (0 + 1)) with 1. cbv iota.
    destruct FJ as (U1 & U2 & F3). destruct (code_range j U1 U2 ltac:(lia)) as (K1 & K2 & K3 & K4 & _). rewrite K1.
    replace (code_of j =? worker_wait) with false by lia. replace (code_of j =? worker_once) with false by lia. replace (code_of j =? worker_exit) with false by lia. cbn [orb].
    constructor; cbn [workers main ready command reserved depth jobs log].
    - exact L.
    - exists done, a, [Init NT]. split; [exact E1|]. split; [rewrite E2, app_nil_r; reflexivity|]. split; [exact E3|]. unfold phase. cbn [main workers ready command reserved depth jobs log].
      replace (code_of j =? worker_exit) with false by lia. unfold waking, all_ws. cbn [workers ready reserved jobs depth].
      split; [exact A|]. split; [exact R|]. split; [reflexivity|]. right. exists j. rewrite J. split; [reflexivity|]. split; [split; [split; [exact U1|split; [exact U2|exact F3]]|split; [lia|split; [exact H3|lia]]]|]. repeat split; reflexivity.
    - exists []. split; [exact BI|]. unfold calls_now. cbn [main workers]. apply asleep_busy. intros i w E c t stop. rewrite (all_asleep_ws s w A i E). discriminate.
  Qed.

  Lemma calls_busy s busy m : calls_now s busy -> (forall t stop, main s <> Serial t stop /\ main s <> SerialIn t stop) -> (forall t stop, m <> Serial t stop /\ m <> SerialIn t stop) ->
    calls_now (set_main s m) busy.
  Proof.
    unfold calls_now, set_main. cbn [main workers]. intros H N1 N2. assert (K : busy_is (workers s) busy) by (destruct (main s) as [|t stop|t stop|?|?|?|?| |]; try exact H; [destruct (N1 t stop); contradiction|destruct (N1 t stop); contradiction]).
    destruct m as [|t stop|t stop|?|?|?|?| |]; try exact K; destruct (N2 t stop); contradiction.
  Qed.

  Lemma hd_cons (s : state) j : hd_error (jobs s) = Some j -> jobs s = j :: tl (jobs s).
  Proof. destruct (jobs s) as [|x r]; [discriminate|]. intros E. injection E as ->. reflexivity. Qed.

  Lemma main_ok s s' : inv s -> step_main s = Some s' -> inv s'.
  Proof.
    intros I E. assert (I0 := I). destruct I as [L (done & a & cur & E1 & E2 & E3 & P) (busy & B1 & B2)]. unfold step_main in E. unfold phase in P. unfold calls_now in B2. destruct (main s) as [|t stop|t stop|c|c|b|b| |] eqn:M.
    - (* Idle *)
      destruct (jobs s) as [|j rest] eqn:J; injection E as <-; [|apply (idle_ok s j rest I0 M J)].
      destruct P as (A & R & C & D & ->). constructor.
      + exact L.
      + exists done, a, []. unfold set_main. cbn [jobs log]. split; [rewrite E1, J; reflexivity|]. split; [exact E2|]. split; [exact E3|]. rewrite L. unfold phase. destruct (Z.eqb_spec N 0) as [H|H]; cbn [main workers ready command reserved depth jobs log].
        * split; [|repeat split; assumption]. intros i w Ei. cbn [workers] in Ei. exfalso. apply znth_some_inv in Ei. lia.
        * change (worker_exit =? worker_exit) with true. cbv iota. unfold waking, all_ws. cbn [workers ready reserved jobs depth]. split; [exact A|]. split; [exact R|]. split; [reflexivity|]. left. repeat split; try assumption; lia.
      + exists busy. split; [exact B1|]. apply calls_busy; [unfold calls_now; rewrite M; exact B2|intros; rewrite M; split; discriminate|]. intros. destruct (_ =? 0); split; discriminate.
    - (* Serial *)
      subst busy. injection E as <-. destruct P as (j & r & N0 & J & FJ & JI & T1 & T2 & T3 & -> & RC & CR & R0 & C0 & D0).
      destruct (Z.ltb_spec t stop) as [H|H].
      + unfold add_log, set_main. constructor; cbn [workers main ready command reserved depth jobs log].
        * exact L.
        * exists done, a, (Init NT :: r ++ [Call t 0]). split; [exact E1|]. split; [rewrite E2, <- app_assoc; reflexivity|]. split; [exact E3|]. unfold phase. cbn [main]. split; [|exact H]. exists j, (r ++ [Call t 0]). cbn [jobs ready command depth].
          split; [exact N0|]. split; [exact J|]. split; [exact FJ|]. split; [exact JI|]. split; [lia|]. split; [lia|]. split; [exact T3|]. split; [reflexivity|]. split; [apply Forall_app; split; [exact RC|repeat constructor]|].
          split; [|repeat split; assumption]. rewrite called_app, CR. cbn [called]. replace (Z.to_nat (t + 1 - j_start j)) with (Z.to_nat (t - j_start j) + 1)%nat by lia. rewrite zseq_split. cbn [zseq]. repeat f_equal. lia.
        * exists [(t, 0)]. split; [|reflexivity]. rewrite replay_app, B1. cbn [replay replay1 existsb]. replace (0 <? NT) with true by lia. reflexivity.
      + assert (ST : t = stop) by lia. clear H T1. subst t. apply (inv_return s (Init NT :: r) done a j (tl (jobs s))); try assumption; [apply hd_cons; exact J| |].
        * unfold served. subst stop. replace (j_end j <? j_start j) with false by lia. replace (j_start j =? j_end j) with false by lia. rewrite JI. change (negb (success =? success)) with false. cbv iota.
          exists r. split; [reflexivity|]. split; [exact RC|]. split; [reflexivity|]. rewrite CR. apply Permutation_refl.
        * intros i w Ei. exfalso. apply znth_some_inv in Ei. lia.
    - (* SerialIn *)
      subst busy. injection E as <-. destruct P as ((j & r & N0 & J & FJ & JI & T1 & T2 & T3 & -> & RC & CR & R0 & C0 & D0) & H).
      assert (W : w32 (t + 1) = t + 1) by (destruct FJ as (U1 & U2 & _); unfold is_u32 in *; unfold w32; apply Z.mod_small; lia). rewrite W.
      unfold add_log, set_main. constructor; cbn [workers main ready command reserved depth jobs log].
      + exact L.
      + exists done, a, (Init NT :: r ++ [Back t 0]). split; [exact E1|]. split; [rewrite E2, <- app_assoc; reflexivity|]. split; [exact E3|]. unfold phase. cbn [main]. exists j, (r ++ [Back t 0]). cbn [jobs ready command depth].
        split; [exact N0|]. split; [exact J|]. split; [exact FJ|]. split; [exact JI|]. split; [lia|]. split; [lia|]. split; [exact T3|]. split; [reflexivity|]. split; [apply Forall_app; split; [exact RC|repeat constructor]|].
        split; [|repeat split; assumption]. rewrite called_app, CR. cbn [called]. apply app_nil_r.
      + exists []. split; [|reflexivity]. rewrite replay_app, B1. cbn [replay replay1 existsb fst snd]. rewrite !Z.eqb_refl. reflexivity.
    - (* Setting *)
      injection E as <-. constructor; cbn [workers main ready command reserved depth jobs log]; [exact L| |].
      + exists done, a, cur. split; [exact E1|]. split; [exact E2|]. split; [exact E3|]. unfold phase. cbn [workers main ready command reserved depth jobs log]. split; [|reflexivity]. exact P.
      + exists busy. split; [exact B1|exact B2].
    - (* Notifying *)
      injection E as <-. destruct P as (P & PC). unfold waking in P. cbn [workers ready reserved jobs depth] in P. destruct P as (A & R & RV & Q).
      assert (AW : forall i w, znth (map (fun w => match w with Asleep => Woken | w => w end) (workers s)) i = Some w -> w = Woken).
      { intros i w Ei. assert (B := znth_some_inv _ _ _ Ei). unfold zlen in B. rewrite map_length in B. destruct (znth_ex (workers s) i B) as (w0 & E0). assert (E0' := znth_map (fun w => match w with Asleep => Woken | w => w end) _ _ _ E0). rewrite Ei in E0'. injection E0' as ->. rewrite <- (A i w0 E0). reflexivity. }
      assert (LM : zlen (map (fun w => match w with Asleep => Woken | w => w end) (workers s)) = N) by (unfold zlen; rewrite map_length; exact L).
      set (ws := map _ (workers s)) in *.
      constructor; cbn [workers main ready command reserved depth jobs log]; [exact LM| |].
      + exists done, a, cur. split; [exact E1|]. split; [exact E2|]. split; [exact E3|]. unfold phase. cbn [main]. destruct Q as [(-> & D & -> & J & NP)|(j & J & RJ & -> & D & ->)].
        * change (worker_exit =? worker_exit) with true. cbv iota. unfold all_ws. cbn [workers command jobs]. split; [intros i w Ei; left; apply (AW i w Ei)|]. replace (N =? 0) with false by lia. repeat split; assumption.
        * assert (RJ' := RJ). destruct RJ' as ((U1 & U2 & F3) & S1 & S2 & S3). destruct (code_range j U1 U2 S1) as (_ & _ & _ & K4 & _). replace (code_of j =? worker_exit) with false in * by lia. 
          exists j, []. cbn [jobs command depth reserved ready workers]. split; [exact J|]. split; [exact RJ|]. split; [exact PC|]. split; [exact D|].
          split; [intros i w Ei; cbn [workers] in Ei; rewrite (AW i w Ei); exact I|].
          assert (C0 : count is_asleep ws = 0). { assert (K := count_le is_asleep ws). destruct (Z.eq_dec (count is_asleep ws) 0) as [?|Ne]; [assumption|]. exfalso. unfold count in *. destruct (filter is_asleep ws) as [|w f] eqn:EF; [apply Ne; reflexivity|].
            assert (IN : In w (filter is_asleep ws)) by (rewrite EF; left; reflexivity). apply filter_In in IN. destruct IN as (IN & IA). apply In_nth_error in IN. destruct IN as (k & Ek). specialize (AW (Z.of_nat k) w). unfold znth in AW. replace (Z.of_nat k <? 0) with false in AW by lia. rewrite Nat2Z.id in AW. rewrite (AW Ek) in IA. discriminate. }
          split; [rewrite C0; exact R|]. assert (K := count_le is_done ws). split; [rewrite RV; unfold biggest; nia|]. split; [reflexivity|]. split; [constructor|]. rewrite RV. rewrite Z.min_l by lia. cbn [called app].
          replace (pendings ws) with (@nil Z); [constructor|]. symmetry. apply pendings_none. intros i w Ei. rewrite (AW i w Ei). reflexivity.
      + exists busy. split; [exact B1|]. unfold calls_now. cbn [main workers]. assert (K : busy_is ws busy).
        { rewrite (busy_asleep s busy A B2). apply asleep_busy. intros i w Ei c' t stop. rewrite (AW i w Ei). discriminate. }
        destruct (c =? worker_exit); exact K.
    - (* Barrier *)
      rewrite L in E. destruct (Z.eqb_spec (ready s) N) as [H|H]; cbn [negb] in E.
      + destruct b.
        * destruct P as (j & r & J & RJ & PC & D & WO & R & RV & -> & RC & PE). assert (RJ' := RJ). destruct RJ' as (FJ & S1 & S2 & S3).
          assert (AS : all_ws s (eq Asleep)). { intros i w Ei. assert (K := count_all is_asleep (workers s) ltac:(lia) i w Ei). destruct w; try discriminate. reflexivity. }
          rewrite D in E. change (1 =? 1) with true in E. change (w32 (1 - 1)) with 0 in E. cbv iota in E. injection E as <-.
          assert (RT : j_end j - j_start j <= reserved s). { destruct (znth_ex (workers s) 0) as (w & Ew); [lia|]. specialize (WO 0 w Ew). rewrite <- (AS 0 w Ew) in WO. exact WO. }
          apply (inv_return _ (Init NT :: r) done a j (tl (jobs s))); unfold all_ws; cbn [workers main ready command reserved depth jobs log]; try assumption; try reflexivity; [apply hd_cons; exact J| |].
          { unfold served. replace (j_end j <? j_start j) with false by lia. replace (j_start j =? j_end j) with false by lia. rewrite S2. change (negb (success =? success)) with false. cbv iota.
            exists r. split; [reflexivity|]. split; [exact RC|]. split; [reflexivity|]. rewrite pendings_none, app_nil_r, Z.min_r in PE by (lia || (intros i w Ei; rewrite <- (AS i w Ei); reflexivity)). exact PE. }
          { rewrite B1. f_equal. apply (busy_asleep s busy AS B2). }
        * injection E as <-. destruct P as (AD & R & C & D & -> & NP). constructor; cbn [workers main ready command reserved depth jobs log]; [exact L| |].
          { exists done, a, []. split; [exact E1|]. split; [exact E2|]. split; [exact E3|]. unfold phase. cbn [main]. unfold all_ws. cbn [workers ready command depth]. repeat split; try assumption.
            intros i w Ei. assert (K := count_all is_asleep (workers s) ltac:(lia) i w Ei). destruct w; try discriminate. reflexivity. }
          { exists busy. split; [exact B1|exact B2]. }
      + injection E as <-. constructor; [exact L| |].
        * exists done, a, cur. split; [exact E1|]. split; [exact E2|]. split; [exact E3|]. unfold phase, set_main. cbn [main]. assert (LE : forall x, ready s = x -> x <= N -> ready s < N) by (intros; lia). assert (K := count_le is_asleep (workers s)). destruct b.
          { split; [exact P|]. destruct P as (j & r & _ & _ & _ & _ & _ & R & _). cbn [ready]. lia. }
          { split; [exact P|]. destruct P as (_ & R & _). cbn [ready]. lia. }
        * exists busy. split; [exact B1|]. apply calls_busy; [unfold calls_now; rewrite M; exact B2|intros; rewrite M; split; discriminate|intros; split; discriminate].
    - discriminate.
    - (* Joining *)
      destruct (forallb _ (workers s)) eqn:FA; [|discriminate]. injection E as <-. destruct P as (A & C & -> & J). constructor; [exact L| |].
      + exists done, a, []. split; [exact E1|]. split; [exact E2|]. split; [exact E3|]. unfold phase, set_main. cbn [main]. split; [|split; [reflexivity|exact J]].
        intros i w Ei. cbn [workers] in Ei. rewrite forallb_forall in FA. assert (K : In w (workers s)) by (unfold znth in Ei; destruct (i <? 0); [discriminate|apply nth_error_In in Ei; exact Ei]). specialize (FA w K). destruct w; try discriminate. reflexivity.
      + exists busy. split; [exact B1|]. apply calls_busy; [unfold calls_now; rewrite M; exact B2|intros; rewrite M; split; discriminate|intros; split; discriminate].
    - discriminate.
  Qed.
End Runner.
