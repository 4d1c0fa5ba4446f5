(* GetFrameDependencies finds every frame that is needed *)
From Verif Require Import Base Arr ListAux OMap SkipModel SkipSpec.
From Coq Require Import Permutation.
Ltac Zify.zify_post_hook ::= idtac.

(* frame j is the last up to k to be saved in the slot *)
Definition last_saver (refs : list frame_ref) (slot k j : Z) : Prop :=
  0 <= j <= k /\ (exists r, znth refs j = Some r /\ Z.testbit (r_saved_as r) slot = true) /\
  forall i r, j < i <= k -> znth refs i = Some r -> Z.testbit (r_saved_as r) slot = false.

Lemma storage_len slot refs : forall id i, zlen (storage_of slot id i refs) = zlen refs.
Proof. induction refs as [|r refs IH]; intros id i; [reflexivity|]. cbn [storage_of]. rewrite !zlen_cons, IH. reflexivity. Qed.

Lemma storage_quiet slot refs : forall id i k, 0 <= k < zlen refs -> (forall m r, 0 <= m <= k -> znth refs m = Some r -> Z.testbit (r_saved_as r) slot = false) -> znth (storage_of slot id i refs) k = Some id.
Proof.
  induction refs as [|r refs IH]; intros id i k B H; [unfold zlen in B; cbn [length] in B; lia|]. rewrite zlen_cons in B. cbn [storage_of]. cbv zeta. rewrite (H 0 r) by (try lia; apply znth_0).
  destruct (Z.eq_dec k 0) as [->|N]; [apply znth_0|]. rewrite znth_succ by lia. apply IH; [lia|]. intros m r' Bm E. apply (H (m + 1) r'); [lia|]. rewrite znth_succ by lia. replace (m + 1 - 1) with m by lia. exact E.
Qed.

Lemma storage_last slot refs : forall id i k j, k < zlen refs -> last_saver refs slot k j -> znth (storage_of slot id i refs) k = Some (i + j).
Proof.
  induction refs as [|r refs IH]; intros id i k j B (J & (rj & Ej & Tj) & Q); [unfold zlen in B; cbn [length] in B; lia|]. rewrite zlen_cons in B. cbn [storage_of]. cbv zeta.
  destruct (Z.eq_dec j 0) as [->|N].
  - rewrite znth_0 in Ej. injection Ej as ->. rewrite Tj. rewrite Z.add_0_r. destruct (Z.eq_dec k 0) as [->|N]; [apply znth_0|]. rewrite znth_succ by lia. apply storage_quiet; [lia|].
    intros m r' Bm E. apply (Q (m + 1) r'); [lia|]. rewrite znth_succ by lia. replace (m + 1 - 1) with m by lia. exact E.
  - rewrite znth_succ by lia. replace (i + j) with (i + 1 + (j - 1)) by lia. apply IH; [lia|]. split; [lia|]. split.
    + exists rj. split; [rewrite <- Ej; rewrite znth_succ by lia; reflexivity|exact Tj].
    + intros m r' Bm E. apply (Q (m + 1) r'); [lia|]. rewrite znth_succ by lia. replace (m + 1 - 1) with m by lia. exact E.
Qed.

Lemma storage_range slot refs : forall id i k v, znth (storage_of slot id i refs) k = Some v -> v = id \/ i <= v <= i + k.
Proof.
  induction refs as [|r refs IH]; intros id i k v E; [apply znth_some_inv in E; change (zlen (storage_of slot id i [])) with 0 in E; lia|].
  assert (B := znth_some_inv _ _ _ E). cbn [storage_of] in E. cbv zeta in E. destruct (Z.eq_dec k 0) as [->|N].
  - rewrite znth_0 in E. injection E as <-. destruct (Z.testbit _ _); [right; lia|left; reflexivity].
  - rewrite znth_succ in E by lia. apply IH in E. destruct E as [E|E]; [|right; lia]. destruct (Z.testbit _ _); [right; lia|left; exact E].
Qed.

Definition storages (refs : list frame_ref) := map (fun s => storage_of s (zlen refs) 0 refs) (zseq 0 8).

Lemma stored_ok refs i slots : 0 <= i < zlen refs -> (forall s, In s slots -> 0 <= s < 8) ->
  exists found, stored (storages refs) i slots = Some found /\ (forall x, In x found -> x = zlen refs \/ 0 <= x <= i) /\
  (forall s j, In s slots -> last_saver refs s i j -> In j found).
Proof.
  intros B S. unfold stored.
  destruct (omap_ok (fun s => do row <- znth (storages refs) s; znth row i) (fun s v => (v = zlen refs \/ 0 <= v <= i) /\ forall j, last_saver refs s i j -> v = j) slots) as (found & E & F).
  - intros s Hs. specialize (S s Hs). unfold storages. rewrite (znth_map _ _ _ s) by (rewrite znth_zseq by lia; f_equal; lia).
    destruct (znth_ex (storage_of s (zlen refs) 0 refs) i) as (v & Ev); [rewrite storage_len; exact B|]. exists v. split; [exact Ev|]. split.
    + apply storage_range in Ev. lia.
    + intros j Hj. rewrite (storage_last s refs _ 0 i j) in Ev by (try assumption; lia). injection Ev as <-. lia.
  - exists found. split; [exact E|]. clear E. split.
    + induction F as [|a b l r (K & _) _ IH]; intros x []; [subst; exact K|apply IH; try assumption]. intros; apply S; right; assumption.
    + intros s j Hs Hj. induction F as [|a b l r (_ & K) _ IH]; [destruct Hs|]. destruct Hs as [->|Hs]; [left; apply K; exact Hj|right; apply IH; try assumption]. intros; apply S; right; assumption.
Qed.

Lemma push_all_ok invalid size found : forall seen stack result, (forall x, In x found -> x = invalid \/ 0 <= x < size) -> 
  exists seen' new, push_all invalid size found seen stack result = Some (seen', rev new ++ stack, result ++ new) /\
  NoDup new /\ (forall x, In x new -> seen x = false /\ 0 <= x < size) /\
  (forall x, seen' x = true <-> seen x = true \/ In x new) /\ (forall x, In x found -> x <> invalid -> seen' x = true).
Proof.
  induction found as [|y found IH]; intros seen stack result R; cbn [push_all].
  - exists seen, []. rewrite app_nil_r. split; [reflexivity|]. split; [constructor|]. split; [intros x []|]. split; [intros x; cbn [In]; tauto|intros x []].
  - destruct (Z.eqb_spec y invalid) as [E|N].
    + destruct (IH seen stack result) as (seen' & new & P1 & P2 & P3 & P4 & P5); [intros; apply R; right; assumption|]. exists seen', new. split; [exact P1|]. split; [exact P2|]. split; [exact P3|]. split; [exact P4|].
      intros x [<-|Hx] Nx; [contradiction|apply P5; assumption].
    + assert (B : 0 <= y < size) by (destruct (R y (or_introl eq_refl)); [contradiction|assumption]). rewrite get_ok by exact B. destruct (seen y) eqn:S.
      * destruct (IH seen stack result) as (seen' & new & P1 & P2 & P3 & P4 & P5); [intros; apply R; right; assumption|]. exists seen', new. split; [exact P1|]. split; [exact P2|]. split; [exact P3|]. split; [exact P4|].
        intros x [<-|Hx] Nx; [apply P4; left; exact S|apply P5; assumption].
      * rewrite set_ok by exact B. destruct (IH (fun j => if j =? y then true else seen j) (y :: stack) (result ++ [y])) as (seen' & new & P1 & P2 & P3 & P4 & P5); [intros; apply R; right; assumption|].
        exists seen', (y :: new). cbn [rev]. rewrite <- !app_assoc in *. cbn [app] in *. split; [exact P1|]. split.
        { constructor; [|exact P2]. intros K. apply P3 in K. rewrite Z.eqb_refl in K. destruct K; discriminate. }
        split. { intros x [<-|Hx]; [split; assumption|]. apply P3 in Hx. destruct (x =? y); [destruct Hx; discriminate|exact Hx]. }
        assert (P4' : forall x, seen' x = true <-> seen x = true \/ In x (y :: new)).
        { intros x. rewrite P4. cbn [In]. destruct (Z.eqb_spec x y) as [->|Nxy]; [tauto|]. split; [tauto|]. intros [K|[K|K]]; [tauto|congruence|tauto]. }
        split; [exact P4'|]. intros x [<-|Hx] Nx; [apply P4'; right; left; reflexivity|apply P5; assumption].
Qed.

(* all that k refers to has been seen *)
Definition closed_at (refs : list frame_ref) (seen : Z -> Prop) (k : Z) : Prop :=
  forall r s j, znth refs k = Some r -> 0 <= s < 8 -> Z.testbit (reference r) s = true -> last_saver refs s (k - 1) j -> seen j.

Lemma nodup_bound (l : list Z) n : 0 <= n -> NoDup l -> (forall x, In x l -> 0 <= x < n) -> zlen l <= n.
Proof.
  intros Hn D B. assert (K : (length l <= length (zseq 0 (Z.to_nat n)))%nat) by (apply NoDup_incl_length; [exact D|]; intros x Hx; apply in_zseq; specialize (B x Hx); lia).
  rewrite zseq_length in K. unfold zlen. lia.
Qed.

Lemma search_ok refs index : 0 <= index < zlen refs -> forall fuel seen stack result popped,
  seen index = true -> NoDup (popped ++ stack) -> (forall x, seen x = true <-> In x (popped ++ stack)) -> (forall x, seen x = true -> 0 <= x <= index) ->
  (forall x, In x result <-> seen x = true /\ x <> index) -> (forall k, In k popped -> closed_at refs (fun x => seen x = true) k) -> index + 1 <= Z.of_nat fuel + zlen popped ->
  exists result' (all : Z -> Prop), search fuel refs (storages refs) (index + 1) seen stack result = Some result' /\
    (forall x, seen x = true -> all x) /\ (forall x, In x result' <-> all x /\ x <> index) /\ (forall x, all x -> 0 <= x <= index) /\ (forall k, all k -> closed_at refs all k).
Proof.
  intros HI. induction fuel as [|fuel IH]; intros seen stack result popped SI D S R RS C F.
  - destruct stack as [|y stack].
    + exists result, (fun x => seen x = true). cbn [search]. split; [reflexivity|]. split; [auto|]. split; [exact RS|]. split; [exact R|]. intros k Hk. apply C. apply S in Hk. rewrite app_nil_r in Hk. exact Hk.
    + exfalso. assert (L := nodup_bound (popped ++ y :: stack) (index + 1) ltac:(lia) D ltac:(intros x Hx; apply S, R in Hx; lia)). rewrite zlen_app, zlen_cons in L. pose proof (zlen_nonneg stack). lia.
  - destruct stack as [|y stack]; cbn [search].
    + exists result, (fun x => seen x = true). split; [reflexivity|]. split; [auto|]. split; [exact RS|]. split; [exact R|]. intros k Hk. apply C. apply S in Hk. rewrite app_nil_r in Hk. exact Hk.
    + assert (Sy : seen y = true) by (apply S; apply in_or_app; right; left; reflexivity). assert (By := R y Sy).
      assert (E2 : forall A (a : A) l m, (l ++ [a]) ++ m = l ++ a :: m) by (intros; rewrite <- app_assoc; reflexivity).
      destruct (Z.eqb_spec y 0) as [Ey|Ny].
      * apply (IH seen stack result (popped ++ [y])); rewrite ?E2; try assumption; [|rewrite zlen_app, zlen_cons, zlen_nil; lia].
        intros k Hk. apply in_app_or in Hk. destruct Hk as [Hk|[<-|[]]]; [apply C; exact Hk|]. intros r s j _ _ _ (B & _). lia.
      * destruct (znth_ex refs y) as (r & Er); [lia|]. rewrite Er.
        destruct (stored_ok refs (y - 1) (filter (Z.testbit (reference r)) (zseq 0 8))) as (found & Ef & F1 & F2); [lia|intros s Hs; apply filter_In in Hs; destruct Hs as (Hs & _); apply zseq_in in Hs; lia|].
        rewrite Ef. destruct (push_all_ok (zlen refs) (index + 1) found seen stack result) as (seen' & new & P1 & P2 & P3 & P4 & P5); [intros x Hx; apply F1 in Hx; lia|].
        rewrite P1. destruct (IH seen' (rev new ++ stack) (result ++ new) (popped ++ [y])) as (res & all & Q1 & Q2 & Q3 & Q4).
        -- apply P4. left. exact SI.
        -- apply (Permutation_NoDup (Permutation_sym (Permutation_app_swap_app (popped ++ [y]) (rev new) stack))). rewrite E2. apply NoDup_rev in P2.
           assert (P3' : forall x, In x (rev new) -> seen x = false) by (intros x Hx; apply in_rev in Hx; apply P3; exact Hx).
           revert P2 P3'. generalize (rev new). clear -D S. induction l as [|z l IHn]; intros P2 P3; [exact D|]. inversion P2 as [|? ? Z1 Z2]; subst. cbn [app]. constructor.
           ++ intros K. apply in_app_or in K. destruct K as [K|K]; [contradiction|]. apply S in K. rewrite (P3 z (or_introl eq_refl)) in K. discriminate.
           ++ apply IHn; [exact Z2|intros; apply P3; right; assumption].
        -- intros x. rewrite P4, S, E2. rewrite !in_app_iff. cbn [In]. rewrite in_app_iff, <- in_rev. tauto.
        -- intros x Hx. apply P4 in Hx. destruct Hx as [Hx|Hx]; [apply R; exact Hx|]. destruct (P3 x Hx). lia.
        -- intros x. rewrite in_app_iff, RS, P4. split.
           ++ intros [(K1 & K2)|K]; [tauto|]. split; [tauto|]. intros ->. destruct (P3 index K) as (K2 & _). congruence.
           ++ tauto.
        -- intros k Hk. apply in_app_or in Hk. destruct Hk as [Hk|[<-|[]]].
           ++ intros r0 s j E0 Hs Ht Hl. apply P4. left. exact (C k Hk r0 s j E0 Hs Ht Hl).
           ++ intros r0 s j E0 Hs Ht Hl. rewrite Er in E0. injection E0 as <-. assert (Hj : In j found) by (apply (F2 s); [apply filter_In; split; [apply in_zseq; lia|exact Ht]|exact Hl]).
              apply P5; [exact Hj|]. destruct Hl as (Hl & _). lia.
        -- rewrite zlen_app, zlen_cons, zlen_nil. lia.
        -- exists res, all. split; [exact Q1|]. split; [intros x Hx; apply Q2, P4; left; exact Hx|]. split; [exact Q3|exact Q4].
Qed.

(* what is found: all that index refers to, all that is stored after it, and all that these refer to *)
Theorem dependencies_ok refs index : 0 <= index < zlen refs ->
  exists result, get_frame_dependencies index refs = Some result /\ (forall x, In x result -> 0 <= x < index) /\ (forall k, k = index \/ In k result -> closed_at refs (fun x => In x result) k) /\ (forall s j, 0 <= s < 8 -> last_saver refs s index j -> j <> index -> In j result).
Proof.
  intros HI. unfold get_frame_dependencies. fold (storages refs). rewrite set_ok by lia.
  destruct (stored_ok refs index (zseq 0 8)) as (found & Ef & F1 & F2); [exact HI|intros s Hs; apply zseq_in in Hs; lia|]. rewrite Ef.
  set (seen0 := fun j => if j =? index then true else false).
  destruct (push_all_ok (zlen refs) (index + 1) found seen0 [index] []) as (seen' & new & P1 & P2 & P3 & P4 & P5); [intros x Hx; apply F1 in Hx; lia|].
  rewrite P1. cbn [app].
  assert (S0 : forall x, seen0 x = true <-> x = index) by (intros x; unfold seen0; destruct (Z.eqb_spec x index); split; congruence).
  destruct (search_ok refs index HI (Z.to_nat (index + 1)) seen' (rev new ++ [index]) new []) as (res & all & Q1 & Q2 & Q3 & Q4 & Q5).
  - apply P4. left. apply S0. reflexivity.
  - cbn [app]. apply (Permutation_NoDup (Permutation_sym (Permutation_app_comm (rev new) [index]))). cbn [app]. constructor.
    + intros K. apply in_rev, P3 in K. destruct K as (K & _). assert (seen0 index = true) by (apply S0; reflexivity). congruence.
    + apply NoDup_rev. exact P2.
  - intros x. rewrite P4, S0. cbn [app]. rewrite in_app_iff, <- in_rev. cbn [In]. split; intros K; intuition congruence.
  - intros x Hx. apply P4 in Hx. rewrite S0 in Hx. destruct Hx as [->|Hx]; [lia|]. destruct (P3 x Hx). lia.
  - intros x. rewrite P4, S0. split; [|tauto]. intros K. split; [tauto|]. intros ->. destruct (P3 index K) as (K2 & _). assert (seen0 index = true) by (apply S0; reflexivity). congruence.
  - intros k [].
  - rewrite zlen_nil. lia.
  - exists res. split; [exact Q1|]. split; [intros x Hx; apply Q3 in Hx; destruct Hx as (Hx & N); apply Q4 in Hx; lia|]. 
    assert (AI : all index) by (apply Q2, P4; left; apply S0; reflexivity). split.
    + intros k Hk r s j Er Hs Ht Hl. apply Q3. assert (Ak : all k) by (destruct Hk as [->|Hk]; [exact AI|apply Q3; exact Hk]). split; [exact (Q5 k Ak r s j Er Hs Ht Hl)|].
      apply Q4 in Ak. destruct Hl as (Hl & _). lia.
    + intros s j Hs Hl Nj. apply Q3. split; [|exact Nj]. apply Q2, P5; [apply (F2 s); [apply in_zseq; lia|exact Hl]|]. destruct Hl as (Hl & _). lia.
Qed.
