(* Every schedule comes to an end *)
From Coq Require Import Permutation.
From Verif Require Import Base ListAux OMap RunnerModel RunnerSpec RunnerProofs RunnerWork.
Ltac Zify.zify_post_hook ::= idtac.

Definition wcost (w : worker) : Z :=
  match w with
  | Fresh => 2 | Asleep => 0 | Woken => 5 | Top _ => 4 | Loaded _ _ => 3
  | Before _ t stop => 2 * (stop - t) + 5 | Inside _ t stop => 2 * (stop - t) + 4 | Gone => 0
  end.
Fixpoint wsum (ws : list worker) : Z := match ws with [] => 0 | w :: ws => wcost w + wsum ws end.
Lemma wsum_app a b : wsum (a ++ b) = wsum a + wsum b.
Proof. induction a as [|w a IH]; cbn [app wsum]; lia. Qed.
Lemma wsum_put ws i w w' : znth ws i = Some w -> wsum (put ws i w') = wsum ws - wcost w + wcost w'.
Proof. intros E. destruct (put_split ws i w E) as (a & b & -> & _ & P). rewrite P, !wsum_app. cbn [wsum]. lia. Qed.
Lemma wsum_const ws v : (forall i w, znth ws i = Some w -> wcost w = v) -> wsum ws = v * zlen ws.
Proof.
  induction ws as [|w ws IH]; intros H; [unfold zlen; cbn; lia|]. cbn [wsum]. rewrite zlen_cons, (H 0 w (znth_0 _ _)), IH; [lia|].
  intros i x E. apply (H (i + 1)). rewrite znth_succ by (apply znth_some_inv in E; lia). replace (i + 1 - 1) with i by lia. exact E.
Qed.
Lemma wsum_nonneg ws : (forall i w, znth ws i = Some w -> 0 <= wcost w) -> 0 <= wsum ws.
Proof.
  induction ws as [|w ws IH]; intros H; [cbn; lia|]. cbn [wsum]. assert (K := H 0 w (znth_0 _ _)). enough (0 <= wsum ws) by lia. apply IH.
  intros i x E. apply (H (i + 1)). rewrite znth_succ by (apply znth_some_inv in E; lia). replace (i + 1 - 1) with i by lia. exact E.
Qed.

Section Term.
  Variables (n : nat) (all : list job).
  Hypothesis (NB : Z.of_nat n < 2 ^ 30) (FIT : Forall (fits n) all).
  Notation N := (Z.of_nat n).
  Notation NT := (Z.max N 1).

  Definition tasks (j : job) : Z := Z.max (j_end j - j_start j) 0.
  Definition most (j : job) : Z := tasks j + biggest n j * (N + 1).
  Definition jcost (j : job) : Z := 5 * most j + 5 * N + 2 * tasks j + 10.
  Fixpoint jsum (js : list job) : Z := match js with [] => 5 * N + 6 | j :: js => jcost j + jsum js end.
  Definition left (s : state) : Z := match jobs s with j :: _ => 5 * (most j - reserved s) | [] => 0 end.
  Definition whole (s : state) : Z := match jobs s with j :: _ => 5 * most j | [] => 0 end.
  Definition mcost (s : state) : Z :=
    match main s with
    | Idle => jsum (jobs s)
    | Serial t stop => 2 * (stop - t) + 1 + jsum (tl (jobs s))
    | SerialIn t stop => 2 * (stop - t) + jsum (tl (jobs s))
    | Setting c => if c =? worker_exit then 5 * N + 4 else whole s + 5 * N + 4 + jsum (tl (jobs s))
    | Notifying c => if c =? worker_exit then 5 * N + 3 else whole s + 5 * N + 3 + jsum (tl (jobs s))
    | Barrier true => left s + 1 + jsum (tl (jobs s))
    | Blocked true => left s + jsum (tl (jobs s))
    | Barrier false => 1 + jsum (jobs s)
    | Blocked false => jsum (jobs s)
    | Joining => 1
    | Over => 0
    end.
  Definition mu (s : state) : Z := mcost s + wsum (workers s).

  Lemma biggest_pos j : 1 <= biggest n j. Proof. unfold biggest. lia. Qed.
  Lemma most_pos j : 0 <= most j /\ tasks j <= most j.
  Proof. assert (B := biggest_pos j). unfold most, tasks. nia. Qed.
  Lemma jcost_pos j : 10 <= jcost j /\ 2 * tasks j + 10 <= jcost j /\ 5 * most j + 5 * N + 10 <= jcost j.
  Proof. assert (B := most_pos j). assert (0 <= tasks j) by (unfold tasks; lia). unfold jcost. lia. Qed.
  Lemma jsum_pos js : 6 <= jsum js.
  Proof. induction js as [|j js IH]; cbn [jsum]; [lia|]. assert (B := jcost_pos j). lia. Qed.

  Lemma all_nonneg s cur : inv n all s -> phase n s cur -> forall i w, znth (workers s) i = Some w -> 0 <= wcost w.
  Proof.
    intros I P i w E. assert (WK : working n s cur -> 0 <= wcost w).
    { intros (j & r & _ & _ & _ & _ & WO & _). specialize (WO i w E). destruct w; cbn [worker_ok wcost] in *; lia. }
    assert (AS : all_ws s (eq Asleep) -> 0 <= wcost w) by (intros A; rewrite <- (A i w E); cbn; lia).
    assert (AD : all_ws s (fun w => is_done w = true) -> 0 <= wcost w) by (intros A; specialize (A i w E); destruct w; try discriminate; cbn; lia).
    assert (B := znth_some_inv _ _ _ E). assert (L := v_len _ _ _ I).
    unfold phase in P. destruct (main s) as [|t stop|t stop|c|c|[|]|[|]| |].
    - apply AS, P.
    - destruct P as (j & r & N0 & _). lia.
    - destruct P as ((j & r & N0 & _) & _). lia.
    - apply AS, P.
    - apply AS, P.
    - apply WK, P.
    - apply AD, P.
    - apply WK, P.
    - apply AD, P.
    - destruct P as (A & _). destruct (A i w E) as [-> | ->]; cbn; lia.
    - destruct P as (A & _). rewrite <- (A i w E). cbn. lia.
  Qed.

  Lemma left_pos s cur : working n s cur -> zlen (workers s) = N -> 0 <= left s.
  Proof.
    intros (j & r & J & RJ & _ & _ & _ & _ & RV & _) L. unfold left. destruct (jobs s) as [|j' r']; [discriminate|]. injection J as ->.
    assert (K := count_le is_done (workers s)). assert (B := biggest_pos j). unfold most, tasks. nia.
  Qed.

  Lemma mu_nonneg s : inv n all s -> 0 <= mu s.
  Proof.
    intros I. destruct (v_log _ _ _ I) as (done & a & cur & E1 & E2 & E3 & P). assert (W := wsum_nonneg (workers s) (all_nonneg s cur I P)).
    unfold mu. enough (0 <= mcost s) by lia. assert (J1 := jsum_pos (jobs s)). assert (J2 := jsum_pos (tl (jobs s))). assert (L := v_len _ _ _ I).
    assert (H0 : 0 <= whole s) by (unfold whole; destruct (jobs s) as [|j r]; [lia|]; assert (K := most_pos j); lia).
    unfold mcost, phase in *. destruct (main s) as [|t stop|t stop|c|c|[|]|[|]| |]; try lia.
    - destruct P as (j & r & K). lia.
    - destruct (c =? worker_exit); lia.
    - destruct (c =? worker_exit); lia.
    - assert (K := left_pos s cur P L). lia.
    - assert (K := left_pos s cur (proj1 P) L). lia.
  Qed.

  Lemma asleep_sum s : all_ws s (eq Asleep) -> wsum (workers s) = 0.
  Proof. intros A. rewrite (wsum_const _ 0); [lia|]. intros i w E. rewrite <- (A i w E). reflexivity. Qed.

  Lemma mu_return s code : jobs s <> [] -> mu (return_ s code) = jsum (tl (jobs s)) + wsum (workers s).
  Proof. reflexivity. Qed.

  Lemma main_less s s' : inv n all s -> step_main s = Some s' -> mu s' < mu s.
  Proof.
    intros I E. destruct I as [L (done & a & cur & E1 & E2 & E3 & P) _]. unfold step_main in E. unfold phase in P. unfold mu at 2, mcost. destruct (main s) as [|t stop|t stop|c|c|b|b| |] eqn:M.
    - destruct (jobs s) as [|j rest] eqn:J; apply Some_inj in E; subst s'.
      + unfold set_main, mu, mcost. cbn [main workers jsum]. rewrite L. destruct (N =? 0); [lia|]. change (worker_exit =? worker_exit) with true. cbv iota. lia.
      + cbn [jsum]. assert (K := jcost_pos j). assert (RT : forall s2 code, jobs s2 = jobs s -> workers s2 = workers s -> mu (return_ s2 code) < jcost j + jsum rest + wsum (workers s)).
        { intros s2 code H1 H2. unfold mu, return_, mcost. cbn [main workers jobs]. rewrite H1, H2, J. cbn [tl]. lia. }
        unfold call_runner. destruct (_ <? _) eqn:Q1; [apply RT; reflexivity|]. destruct (_ =? _) eqn:Q2; [apply RT; reflexivity|]. cbv zeta.
        destruct (negb (j_init j =? success)); [apply RT; reflexivity|]. cbn [add_log workers main ready command reserved depth jobs log]. destruct (zlen (workers s) =? 0).
        { unfold mu, set_main, add_log, mcost. cbn [main workers jobs]. rewrite J. cbn [tl]. unfold tasks in K. lia. }
        destruct (negb (depth s =? 0)); [apply RT; reflexivity|]. set (c := w64 _). destruct ((c =? worker_wait) || (c =? worker_once) || (c =? worker_exit)) eqn:Q3; [apply RT; reflexivity|].
        unfold mu, mcost, whole. cbn [main workers jobs]. rewrite J. cbn [tl]. apply orb_false_iff in Q3. destruct Q3 as (_ & ->). lia.
    - apply Some_inj in E. subst s'. destruct (Z.ltb_spec t stop).
      + unfold mu, add_log, set_main, mcost. cbn [main workers jobs]. lia.
      + rewrite mu_return; [destruct P as (j & r & K); lia|]. destruct P as (j & r & _ & J & _). intros X. rewrite X in J. discriminate.
    - apply Some_inj in E. subst s'. destruct P as ((j & r & N0 & J & FJ & JI & T1 & T2 & T3 & _) & H). assert (W : w32 (t + 1) = t + 1) by (destruct FJ as (U1 & U2 & _); unfold is_u32 in *; unfold w32; apply Z.mod_small; lia). rewrite W.
      unfold mu, add_log, set_main, mcost. cbn [main workers jobs]. lia.
    - apply Some_inj in E. subst s'. unfold mu, mcost, whole. cbn [main workers jobs]. destruct (c =? worker_exit); lia.
    - apply Some_inj in E. subst s'. destruct P as (P & PC). unfold waking in P. cbn [workers ready reserved jobs depth] in P. destruct P as (A & R & RV & Q).
      rewrite (asleep_sum s A). assert (WS : wsum (map (fun w => match w with Asleep => Woken | w => w end) (workers s)) = 5 * N).
      { rewrite <- L. rewrite (wsum_const _ 5); [unfold zlen; rewrite map_length; reflexivity|]. intros i w Ei. assert (B := znth_some_inv _ _ _ Ei). unfold zlen in B. rewrite map_length in B. destruct (znth_ex (workers s) i B) as (w0 & E0).
        assert (E0' := znth_map (fun w => match w with Asleep => Woken | w => w end) _ _ _ E0). rewrite Ei in E0'. injection E0' as ->. rewrite <- (A i w0 E0). reflexivity. }
      unfold mu, mcost, whole, left. cbn [main workers jobs reserved]. rewrite WS. destruct (c =? worker_exit); [lia|]. rewrite RV. destruct (jobs s); lia.
    - destruct (negb (ready s =? zlen (workers s))) eqn:Q; apply Some_inj in E; subst s'.
      + unfold mu, set_main, mcost, left. cbn [main workers jobs reserved]. destruct b; lia.
      + destruct b.
        * assert (K := left_pos s cur P L). rewrite mu_return; [cbn [jobs workers]; lia|]. destruct P as (j & r & J & _). cbn [jobs]. intros X. rewrite X in J. discriminate.
        * unfold mu, mcost. cbn [main workers jobs]. lia.
    - discriminate.
    - destruct (forallb _ (workers s)); [|discriminate]. apply Some_inj in E. subst s'. unfold mu, set_main, mcost. cbn [main workers jobs]. lia.
    - discriminate.
  Qed.

  Lemma worker_less s s' i : inv n all s -> step_worker s i = Some s' -> mu s' < mu s.
  Proof.
    intros I E. assert (I0 := I). destruct I as [L (done & a & cur & E1 & E2 & E3 & P) _]. unfold step_worker in E. destruct (znth (workers s) i) as [w|] eqn:Ei; [|discriminate].
    assert (SW : forall w', wsum (put (workers s) i w') = wsum (workers s) - wcost w + wcost w') by (intros w'; apply wsum_put; exact Ei).
    destruct w as [| | |c|c size|c t stop|c t stop|]; cbn [wcost] in SW.
    - apply Some_inj in E. subst s'. cbv zeta. unfold mu, mcost, left, whole. cbn [main workers jobs reserved]. rewrite SW. cbn [wcost].
      destruct (main s) as [|t stop|t stop|c|c|b|b| |]; try lia; try (destruct b; lia). destruct (_ =? num_threads s); destruct b; lia.
    - discriminate.
    - apply Some_inj in E. subst s'. unfold set_worker, mu, mcost, left, whole. cbn [main workers jobs reserved]. rewrite SW. destruct (_ =? worker_wait); [|destruct (_ =? worker_exit)]; cbn [wcost]; destruct (main s) as [|?|?|?|?|b|b| |]; try lia.
    - apply Some_inj in E. subst s'. unfold set_worker, mu, mcost, left, whole. cbn [main workers jobs reserved]. rewrite SW. cbn [wcost]. destruct (main s) as [|?|?|?|?|b|b| |]; try lia.
    - (* Loaded *)
      assert (JB : exists j, hd_error (jobs s) = Some j /\ real n j /\ worker_ok n j (reserved s) (Loaded c size) /\ 0 <= reserved s <= (j_end j - j_start j) + biggest n j * (1 + count is_done (workers s)) /\ (main s = Barrier true \/ main s = Blocked true)).
      { assert (WK : working n s cur -> main s = Barrier true \/ main s = Blocked true -> exists j, hd_error (jobs s) = Some j /\ real n j /\ worker_ok n j (reserved s) (Loaded c size) /\ 0 <= reserved s <= (j_end j - j_start j) + biggest n j * (1 + count is_done (workers s)) /\ (main s = Barrier true \/ main s = Blocked true)).
        { intros (j & r & J & RJ & _ & _ & WO & _ & RV & _) HM. exists j. split; [exact J|]. split; [exact RJ|]. split; [apply (WO i _ Ei)|]. split; [exact RV|exact HM]. }
        assert (B := znth_some_inv _ _ _ Ei). unfold phase in P. destruct (main s) as [|t stop|t stop|c'|c'|[|]|[|]| |].
        - destruct P as (A & _). specialize (A i _ Ei). discriminate.
        - destruct P as (j & r & N0 & _). lia.
        - destruct P as ((j & r & N0 & _) & _). lia.
        - destruct P as (A & _). specialize (A i _ Ei). discriminate.
        - destruct P as ((A & _) & _). specialize (A i _ Ei). discriminate.
        - apply WK; auto.
        - destruct P as (A & _). specialize (A i _ Ei). discriminate.
        - apply WK; [apply P|auto].
        - destruct P as ((A & _) & _). specialize (A i _ Ei). discriminate.
        - destruct P as (A & _). destruct (A i _ Ei); discriminate.
        - destruct P as (A & _). specialize (A i _ Ei). discriminate. }
      destruct JB as (j & J & RJ & WO & RV & HM). assert (K := reserve_ok n j s i c size RJ WO Ei L RV). cbv zeta in K. destruct K as (K0 & K). destruct WO as (Ec & SZ). apply Some_inj in E. subst s'. cbv zeta. rewrite K0.
      unfold set_worker, mu, mcost, left. cbn [main workers jobs reserved]. rewrite SW. destruct (jobs s) as [|j' rest]; [discriminate|]. injection J as ->.
      destruct K as [(K1 & K2 & K3 & K4)|(K1 & K4)]; rewrite K4; cbn [wcost]; [rewrite K3, K2|]; destruct HM as [-> | ->]; lia.
    - apply Some_inj in E. subst s'. unfold add_log, set_worker, mu, mcost, left, whole. cbn [main workers jobs reserved]. rewrite SW. cbn [wcost]. destruct (main s) as [|?|?|?|?|b|b| |]; try lia.
    - apply Some_inj in E. subst s'. unfold add_log, set_worker, mu, mcost, left, whole. cbn [main workers jobs reserved]. rewrite SW.
      assert (TB : t < stop /\ stop < 2 ^ 32 /\ 0 <= t).
      { assert (WK : working n s cur -> t < stop /\ stop < 2 ^ 32 /\ 0 <= t). { intros (j & r & J & ((U1 & U2 & _) & _) & _ & _ & WO & _). specialize (WO i _ Ei). cbn [worker_ok] in WO. unfold is_u32 in *. lia. }
        assert (B := znth_some_inv _ _ _ Ei). unfold phase in P. destruct (main s) as [|t' stop'|t' stop'|c'|c'|[|]|[|]| |].
        - destruct P as (A & _). specialize (A i _ Ei). discriminate.
        - destruct P as (j & r & N0 & _). lia.
        - destruct P as ((j & r & N0 & _) & _). lia.
        - destruct P as (A & _). specialize (A i _ Ei). discriminate.
        - destruct P as ((A & _) & _). specialize (A i _ Ei). discriminate.
        - apply WK; auto.
        - destruct P as (A & _). specialize (A i _ Ei). discriminate.
        - apply WK; apply P.
        - destruct P as ((A & _) & _). specialize (A i _ Ei). discriminate.
        - destruct P as (A & _). destruct (A i _ Ei); discriminate.
        - destruct P as (A & _). specialize (A i _ Ei). discriminate. }
      assert (WT : w32 (t + 1) = t + 1) by (unfold w32; apply Z.mod_small; lia). rewrite WT. destruct (Z.ltb_spec (t + 1) stop); cbn [wcost]; destruct (main s) as [|?|?|?|?|b|b| |]; lia.
    - discriminate.
  Qed.

  Lemma run_bound cs : forall s s', inv n all s -> no_spurious cs -> run s cs = Some s' -> zlen cs + mu s' <= mu s.
  Proof.
    induction cs as [|c cs IH]; intros s s' I NS E; cbn [run] in E; [injection E as <-; unfold zlen; cbn; lia|]. inversion NS as [|? ? N1 N2]; subst.
    destruct (step s c) as [s1|] eqn:Es; [|discriminate]. rewrite zlen_cons. destruct c; cbn [step] in Es; [| |destruct N1].
    - assert (K := main_less s s1 I Es). specialize (IH s1 s' (main_ok n all FIT s s1 I Es) N2 E). lia.
    - assert (K := worker_less s s1 i I Es). specialize (IH s1 s' (worker_step_ok n all NB s s1 i I Es) N2 E). lia.
  Qed.
End Term.
