(* Decision trees: what ValidateTree accepts; the decoder on any bits. *)
From Verif Require Import Base HuffRle HuffSafe BitReaderModel BitProg BitProgProofs FieldsModel FieldsProofs HybridUintModel HybridUintProofs
  ListAux LzProofs AliasSpec AliasProofs AnsSpec AnsProofs AnsTop MtfSpec CodesModel CodesSpec CodesSafe CodesRound CodesTop TocSpec PermProofs TocLayout COrderProofs MaModel MaSpec MaProofs.
Ltac Zify.zify_post_hook ::= idtac.

Definition upd (r : Z -> Z * Z) (p : Z) (x : Z * Z) : Z -> Z * Z := fun j => if j =? p then x else r j.
(* what ValidateTree checks, along the tree *)
Fixpoint vcheck (d : Z) (t : mtree) (r : Z -> Z * Z) : bool :=
  (d <? kHeightLimit) &&
  match t with
  | MLeaf _ _ _ _ => true
  | MSplit p v gt le =>
      let '(l, u) := r p in
      (l <=? v) && (v <? u) && vcheck (d + 1) gt (upd r p (v + 1, u)) && vcheck (d + 1) le (upd r p (l, v))
  end.
Lemma upd_ext r r' p x : (forall i, r i = r' i) -> forall i, upd r p x i = upd r' p x i.
Proof. intros H i. unfold upd. now destruct (i =? p). Qed.
Lemma vcheck_ext t : forall d r r', (forall i, r i = r' i) -> vcheck d t r = vcheck d t r'.
Proof.
  induction t as [c p o m|p v gt IHg le IHl]; intros d r r' H; cbn [vcheck]; [reflexivity|]. rewrite (H p). destruct (r' p) as (l, u).
  rewrite (IHg (d + 1) _ (upd r' p (v + 1, u))) by (now apply upd_ext). rewrite (IHl (d + 1) _ (upd r' p (l, v))) by (now apply upd_ext). reflexivity.
Qed.
Lemma vcheck_contexts t : forall t' d r, no_contexts t = no_contexts t' -> vcheck d t r = vcheck d t' r.
Proof.
  induction t as [c p o m|p v gt IHg le IHl]; intros [c' p' o' m'|p' v' gt' le'] d r E; try discriminate; cbn [vcheck]; [reflexivity|].
  cbn [no_contexts] in E. injection E as <- <- E1 E2. destruct (r p) as (l, u). now rewrite (IHg gt'), (IHl le').
Qed.

Fixpoint cost (t : mtree) : nat := match t with MLeaf _ _ _ _ => 1 | MSplit _ _ gt le => 3 + cost gt + cost le end.
Lemma cost_bound t : Z.of_nat (cost t) <= 3 * nodes_of t.
Proof. induction t as [c p o m|p v gt IHg le IHl]; cbn [cost nodes_of]; lia. Qed.
Fixpoint props_below (np : Z) (t : mtree) : Prop :=
  match t with MLeaf _ _ _ _ => True | MSplit p v gt le => 0 <= p < np /\ props_below np gt /\ props_below np le end.

Definition in32 (r : Z -> Z * Z) : Prop := forall i, int32_min <= fst (r i) /\ snd (r i) <= int32_max.
Lemma upd_in32 r p l u : in32 r -> int32_min <= l -> u <= int32_max -> in32 (upd r p (l, u)).
Proof. intros H H1 H2 i. unfold upd. destruct (i =? p); [cbn [fst snd]; lia|apply H]. Qed.

Lemma zlen_cons2 {A} (x : A) l : zlen (x :: l) = zlen l + 1.
Proof. rewrite zlen_cons. lia. Qed.

Lemma validate_step fuel tree np ranges it rest : validate_loop (S fuel) tree np ranges (it :: rest) =
  if kHeightLimit <=? zlen (it :: rest) then Some false
  else
    do node <- znth tree (at_node it);
    match next it with
    | CheckAndGoLeft =>
        let p := nprop node in
        if p =? -1 then validate_loop fuel tree np ranges rest
        else
          let v := splitval node in
          do (l, u) <- get np ranges p;
          if (v <? l) || (u <=? v) then Some false
          else if int32_max <=? v then None
          else
            do ranges <- set np ranges p (v + 1, u);
            validate_loop fuel tree np ranges
              (Item (lchild node) 0 0 CheckAndGoLeft :: Item (at_node it) l u GoRight :: rest)
    | GoRight =>
        do ranges <- set np ranges (nprop node) (orig_l it, splitval node);
        validate_loop fuel tree np ranges
          (Item (rchild node) 0 0 CheckAndGoLeft :: Item (at_node it) (orig_l it) (orig_u it) Pop :: rest)
    | Pop =>
        do (l, _) <- get np ranges (nprop node);
        do ranges <- set np ranges (nprop node) (l, orig_u it);
        validate_loop fuel tree np ranges rest
    end.
Proof. reflexivity. Qed.
Opaque validate_loop.

Lemma validate_run tree np T : props_below np T -> forall i, stored tree i T -> forall r a b rest fuel, in32 r ->
  if vcheck (zlen rest + 1) T r
  then exists r', (forall j, r' j = r j) /\ validate_loop (cost T + fuel) tree np r (Item i a b CheckAndGoLeft :: rest) = validate_loop fuel tree np r' rest
  else validate_loop (cost T + fuel) tree np r (Item i a b CheckAndGoLeft :: rest) = Some false.
Proof.
  induction T as [c p o m|p v gt IHg le IHl]; intros Hp i St r a b rest fuel Hr; inversion St as [? n E1 E2|? n ? ? E1 E2 Sg Sl]; subst.
  - cbn [vcheck cost Nat.add]. rewrite andb_true_r. rewrite validate_step. rewrite zlen_cons2. destruct (Z.ltb_spec (zlen rest + 1) kHeightLimit) as [L|L].
    + exists r. split; [auto|]. replace (kHeightLimit <=? zlen rest + 1) with false by lia. cbn [at_node next]. rewrite E1, E2. reflexivity.
    + replace (kHeightLimit <=? zlen rest + 1) with true by lia. reflexivity.
  - cbn [props_below] in Hp. destruct Hp as (Hp & Hpg & Hpl). pose proof (zlen_nonneg rest) as Hz. pose proof (Hr (nprop n)) as Hrp.
    cbn [vcheck cost Nat.add]. destruct (r (nprop n)) as (l, u) eqn:Er. cbn [fst snd] in Hrp. rewrite validate_step. rewrite zlen_cons2.
    destruct (Z.ltb_spec (zlen rest + 1) kHeightLimit) as [L|L]; cbn [andb].
    2:{ replace (kHeightLimit <=? zlen rest + 1) with true by lia. reflexivity. }
    replace (kHeightLimit <=? zlen rest + 1) with false by lia. cbn [at_node next]. rewrite E1. cbv zeta. replace (nprop n =? -1) with false by lia.
    rewrite get_ok by exact Hp. rewrite Er. destruct (Z.leb_spec l (splitval n)) as [L1|L1]; cbn [andb].
    2:{ replace (splitval n <? l) with true by lia. reflexivity. }
    destruct (Z.ltb_spec (splitval n) u) as [L2|L2]; cbn [andb].
    2:{ replace (u <=? splitval n) with true by lia. now rewrite orb_true_r. }
    replace ((splitval n <? l) || (u <=? splitval n)) with false by lia. replace (int32_max <=? splitval n) with false by (unfold int32_max in *; lia).
    rewrite set_ok by exact Hp. fold (upd r (nprop n) (splitval n + 1, u)).
    specialize (IHg Hpg _ Sg (upd r (nprop n) (splitval n + 1, u)) 0 0 (Item i l u GoRight :: rest) (S (cost le + S fuel)) ltac:(apply upd_in32; [exact Hr|lia|lia])).
    rewrite zlen_cons2 in IHg. replace (S (S (cost gt + cost le + fuel))) with (cost gt + S (cost le + S fuel))%nat by lia.
    destruct (vcheck (zlen rest + 1 + 1) gt _); cbn [andb]; [|exact IHg]. destruct IHg as (r1 & R1 & ->).
    rewrite validate_step. rewrite zlen_cons2. replace (kHeightLimit <=? zlen rest + 1) with false by lia. cbn [at_node next orig_l orig_u]. rewrite E1. rewrite set_ok by exact Hp.
    fold (upd r1 (nprop n) (l, splitval n)).
    assert (X : forall j, upd r1 (nprop n) (l, splitval n) j = upd r (nprop n) (l, splitval n) j). { intros j. unfold upd. destruct (Z.eqb_spec j (nprop n)); [reflexivity|]. rewrite R1. unfold upd. now replace (j =? nprop n) with false by lia. }
    specialize (IHl Hpl _ Sl (upd r1 (nprop n) (l, splitval n)) 0 0 (Item i l u Pop :: rest) (S fuel)).
    assert (I2 : in32 (upd r1 (nprop n) (l, splitval n))). { intros j. rewrite X. apply upd_in32; [exact Hr|lia|lia]. }
    specialize (IHl I2). rewrite zlen_cons2 in IHl. rewrite (vcheck_ext le _ _ _ X) in IHl. destruct (vcheck (zlen rest + 1 + 1) le _); [|exact IHl].
    destruct IHl as (r2 & R2 & ->). rewrite validate_step. rewrite zlen_cons2. replace (kHeightLimit <=? zlen rest + 1) with false by lia. cbn [at_node next orig_l orig_u]. rewrite E1. rewrite get_ok, R2, X by exact Hp.
    unfold upd at 1. rewrite Z.eqb_refl. rewrite set_ok by exact Hp. eexists. split; [|reflexivity]. cbv beta. intros j. destruct (Z.eqb_spec j (nprop n)) as [->|N]; [now rewrite Er|].
    rewrite R2, X. unfold upd. now replace (j =? nprop n) with false by lia.
Qed.

Transparent validate_loop.
Lemma fold_max_props t : forall a, let np := fold_left (fun np node => if np <=? nprop node then nprop node + 1 else np) t a in
  a <= np /\ forall i n, znth t i = Some n -> nprop n < np.
Proof.
  induction t as [|n t IH]; intros a; cbn [fold_left].
  - split; [lia|]. intros i n H. apply znth_bound in H. change (zlen (@nil node)) with 0 in H. lia.
  - specialize (IH (if a <=? nprop n then nprop n + 1 else a)). cbv zeta in IH. destruct IH as (I1 & I2). assert (A : a <= (if a <=? nprop n then nprop n + 1 else a) /\ nprop n < (if a <=? nprop n then nprop n + 1 else a)) by (destruct (Z.leb_spec a (nprop n)); lia).
    split; [lia|]. intros i m H. pose proof (znth_bound _ _ _ H). destruct (Z.eq_dec i 0) as [->|Ni]; [change (znth (n :: t) 0) with (Some n) in H; apply Some_eq in H; subst m; lia|].
    rewrite znth_cons in H by lia. now apply I2 in H.
Qed.
Lemma stored_props t np T : (forall i n, znth t i = Some n -> nprop n < np) -> forall i, stored t i T -> props_below np T.
Proof. intros H. induction T as [c p o m|p v gt IHg le IHl]; intros i St; cbn [props_below]; [exact I|]. inversion St as [|? n ? ? E1 E2 Sg Sl]; subst. split; [split; [exact E2|eauto]|eauto]. Qed.

Definition start : Z -> Z * Z := fun _ => (int32_min, int32_max).
Lemma validate_spec t T : stored t 0 T -> nodes_of T <= zlen t -> validate_tree t = Some (vcheck 1 T start).
Proof.
  intros St Hn. unfold validate_tree. destruct t as [|n t]. { inversion St as [? n E1|? n ? ? E1]; discriminate. }
  set (tr := n :: t) in *. destruct (fold_max_props tr 0) as (_ & P). set (np := fold_left _ tr 0) in *. clearbody np.
  pose proof (cost_bound T) as Cb. replace (3 * length tr)%nat with (cost T + (3 * length tr - cost T))%nat by (unfold zlen in Hn; lia).
  pose proof (validate_run tr np T (stored_props tr np T P 0 St) 0 St start 0 0 [] (3 * length tr - cost T)) as V. change (zlen (@nil item) + 1) with 1 in V.
  assert (I0 : in32 start) by (intros i; cbn; lia). specialize (V I0). unfold start in V at 2 3. destruct (vcheck 1 T start); [|exact V].
  destruct V as (r' & _ & ->). now destruct (3 * length tr - cost T)%nat.
Qed.

(* ---- what it means ---- *)
Definition in_box (r : Z -> Z * Z) (pv : Z -> Z) : Prop := forall i, fst (r i) <= pv i <= snd (r i).
Lemma some_path t : exists path, leaf_path t path.
Proof. induction t as [c p o m|p v gt (q & IHg) le _]; [exists []; exact I|]. exists (true :: q). exact IHg. Qed.
Lemma vcheck_meaning t : forall d r, (forall i, fst (r i) <= snd (r i)) ->
  vcheck d t r = true <-> forall path, leaf_path t path -> zlen path + d < kHeightLimit /\ exists pv, in_box r pv /\ route t pv = path.
Proof.
  induction t as [c p o m|p v gt IHg le IHl]; intros d r Hr; cbn [vcheck].
  - rewrite andb_true_r. split.
    + intros H [|b q] Hq; [|contradiction]. change (zlen (@nil bool)) with 0. split; [lia|]. exists (fun i => fst (r i)). split; [|reflexivity]. intros i. specialize (Hr i). lia.
    + intros H. destruct (H [] I) as (A & _). change (zlen (@nil bool)) with 0 in A. lia.
  - destruct (r p) as (l, u) eqn:Er.
    assert (Bx : forall x y, l <= x -> y <= u -> forall pv, in_box (upd r p (x, y)) pv <-> in_box r pv /\ x <= pv p <= y).
    { intros x y Hx Hy pv. split.
      - intros H. pose proof (H p) as Hp. unfold upd in Hp. rewrite Z.eqb_refl in Hp. cbn [fst snd] in Hp. split; [|exact Hp]. intros i. specialize (H i). unfold upd in H. destruct (Z.eqb_spec i p) as [Ei|Ni]; [rewrite Ei, Er; cbn [fst snd]; lia|exact H].
      - intros (H & Hp) i. unfold upd. destruct (Z.eqb_spec i p) as [Ei|Ni]; [rewrite Ei; exact Hp|apply H]. }
    assert (Ne : forall x y, x <= y -> forall i, fst (upd r p (x, y) i) <= snd (upd r p (x, y) i)). { intros x y Hxy i. unfold upd. destruct (i =? p); [exact Hxy|apply Hr]. }
    split.
    + intros H. assert (L1 : l <= v /\ v < u) by lia. assert (Vg : vcheck (d + 1) gt (upd r p (v + 1, u)) = true) by (destruct (vcheck (d + 1) gt _); [reflexivity|lia]).
      assert (Vl : vcheck (d + 1) le (upd r p (l, v)) = true) by (destruct (vcheck (d + 1) le _); [reflexivity|lia]).
      intros [|[|] q] Hq; [contradiction| |]; cbn [leaf_path] in Hq; rewrite zlen_cons.
      * destruct (proj1 (IHg (d + 1) _ (Ne (v + 1) u ltac:(lia))) Vg q Hq) as (A & pv & B & C). split; [lia|]. exists pv. apply Bx in B; [|lia|lia]. split; [apply B|]. cbn [route]. replace (v <? pv p) with true by lia. now rewrite C.
      * destruct (proj1 (IHl (d + 1) _ (Ne l v ltac:(lia))) Vl q Hq) as (A & pv & B & C). split; [lia|]. exists pv. apply Bx in B; [|lia|lia]. split; [apply B|]. cbn [route]. replace (v <? pv p) with false by lia. now rewrite C.
    + intros H. destruct (some_path gt) as (qg & Hqg). destruct (some_path le) as (ql & Hql).
      destruct (H (true :: qg) Hqg) as (A1 & pg & Bg & Cg). destruct (H (false :: ql) Hql) as (_ & pl & Bl & Cl).
      cbn [route] in Cg, Cl. rewrite zlen_cons in A1. pose proof (zlen_nonneg qg).
      assert (G1 : v < pg p) by (destruct (Z.ltb_spec v (pg p)); [assumption|discriminate]). assert (G2 : pl p <= v) by (destruct (Z.ltb_spec v (pl p)); [discriminate|assumption]).
      pose proof (Bg p) as Bgp. pose proof (Bl p) as Blp. rewrite Er in Bgp, Blp. cbn [fst snd] in Bgp, Blp.
      assert (Vg : vcheck (d + 1) gt (upd r p (v + 1, u)) = true).
      { apply IHg; [apply Ne; lia|]. intros q Hq. destruct (H (true :: q) Hq) as (A & pv & B & C). rewrite zlen_cons in A. split; [lia|]. exists pv. cbn [route] in C. destruct (Z.ltb_spec v (pv p)) as [Lv|]; [|discriminate]. injection C as C.
        split; [|exact C]. apply Bx; [lia|lia|]. split; [exact B|]. specialize (B p). rewrite Er in B. cbn [fst snd] in B. lia. }
      assert (Vl : vcheck (d + 1) le (upd r p (l, v)) = true).
      { apply IHl; [apply Ne; lia|]. intros q Hq. destruct (H (false :: q) Hq) as (A & pv & B & C). rewrite zlen_cons in A. split; [lia|]. exists pv. cbn [route] in C. destruct (Z.ltb_spec v (pv p)) as [|Lv]; [discriminate|]. injection C as C.
        split; [|exact C]. apply Bx; [lia|lia|]. split; [exact B|]. specialize (B p). rewrite Er in B. cbn [fst snd] in B. lia. }
      rewrite Vg, Vl. lia.
Qed.

Lemma validate_meaning t T : stored t 0 T -> nodes_of T <= zlen t -> exists b, validate_tree t = Some b /\ (b = true <-> each_leaf_needed T).
Proof.
  intros St Hn. eexists. split; [apply (validate_spec t T St Hn)|]. rewrite vcheck_meaning by (intros i; cbn; unfold int32_min, int32_max; lia).
  assert (Bi : forall pv, in_box start pv <-> forall i, is_i32 (pv i)). { intros pv. unfold in_box, start, is_i32, int32_min, int32_max. cbn [fst snd]. split; intros H i; specialize (H i); lia. }
  unfold each_leaf_needed, kHeightLimit. split; intros H q Hq; destruct (H q Hq) as (A & pv & B & C); (split; [lia|]); exists pv; (split; [now apply Bi|exact C]).
Qed.

(* ---- any tokens, any bits ---- *)
Definition accepted (limit : Z) (t : list node) : Prop :=
  well_formed t /\ 1 <= zlen t <= limit + 1 /\ exists T, stored t 0 T /\ nodes_of T = zlen t /\ each_leaf_needed T.

Lemma read_tree_all within limit : 0 <= limit <= 2 ^ 22 ->
  tall (read_tree within limit) (fun r => exists o, r = Some o /\ forall t, o = Some t -> accepted limit t).
Proof.
  intros Hl. unfold read_tree. eapply tall_bind; [apply (read_nodes_level within limit Hl); change (zlen (@nil node)) with 0; lia|].
  intros r (o & -> & Ho). destruct o as [t|]; [|cbn [tall]; exists None; split; [reflexivity|discriminate]].
  destruct (Ho t eq_refl) as (l & -> & Lv & Ls). cbn [rev app] in *. change (zlen (@nil node)) with 0 in Lv.
  destruct (tree_of l Lv) as (T & St & Sz). destruct (validate_meaning l T St ltac:(lia)) as (b & -> & Hb). cbn [tall]. eexists. split; [reflexivity|].
  intros t E. destruct b; [|discriminate]. apply Some_eq in E. subst t. split; [now apply level_well_formed|]. split.
  - split; [|exact Ls]. rewrite <- Sz. clear. destruct T; cbn [nodes_of]; [lia|]. assert (P : forall t, 1 <= nodes_of t) by (induction t; cbn [nodes_of]; lia). pose proof (P T1). pose proof (P T2). lia.
  - exists T. split; [exact St|]. split; [exact Sz|]. now apply Hb.
Qed.

Theorem decode_tree_ends M within limit : lane_count (m_lanes M) -> 0 <= limit ->
  ends (decode_tree M within limit) (fun r => exists o, r = Some o /\ forall t, o = Some t -> accepted (Z.min limit kMaxTreeSize) t).
Proof.
  intros HL Hlim. unfold decode_tree. apply ends_bind with (Q := code_or_error kNumTreeContexts). { apply decode_histograms_ends; [exact HL|unfold kNumTreeContexts; lia]. }
  intros r (o & -> & Ho). destruct o as [d|]. 2:{ apply ends_ret. exists None. split; [reflexivity|discriminate]. }
  destruct (Ho d eq_refl) as (Hm & Ht & _ & _ & Hb & Hd & Hw & _).
  assert (Lm : 6 <= zlen (d_map d)) by (rewrite Hm; destruct (lz_enabled (lz77 (d_code d))); unfold kNumTreeContexts; cbn; lia).
  pose proof (znth_some (d_map d) kPropertyContext 0 ltac:(unfold kPropertyContext; lia)) as Ec. unfold kPropertyContext in Ec. set (c := nth _ _ _) in Ec. clearbody c.
  unfold kPropertyContext. rewrite Ec. assert (Hc : 0 <= c < zlen (uint_config (d_code d))) by (apply Ht; apply znth_member in Ec; exact Ec).
  pose proof (znth_some (degenerate d) c 0 ltac:(lia)) as Ed. set (s := nth _ _ _) in Ed. clearbody s. rewrite Ed. destruct (0 <? s); [apply ends_ret; exists None; split; [reflexivity|discriminate]|].
  pose proof (read_tree_all within (Z.min limit kMaxTreeSize) ltac:(unfold kMaxTreeSize; lia)) as Ta. pose proof (tree_contexts within (Z.min limit kMaxTreeSize)) as Tc.
  revert Ta Tc. generalize (read_tree within (Z.min limit kMaxTreeSize)) as prog. intros prog Ta Tc.
  intros st pos av Hpos Hav. rewrite run_bits_bind.
  destruct (stream_within (below (max_num_bits d)) (d_code d) (d_map d) 0 prog) with (s := st) (pos := pos) (av := av) as (a & r' & pos2 & av2 & vs & E2 & R & F & L2 & A2); auto.
  - split; [lia|]. apply Z.pow_pos_nonneg; lia.
  - lia.
  - now apply (contexts_more 6).
  - rewrite E2. assert (F0 : Forall (fun v => 0 <= v) vs) by (eapply Forall_impl; [|exact F]; intros v (Hv & _); exact Hv).
    destruct (tall_run _ _ _ Ta vs a [] F0 R) as (o & -> & Ho2). cbn [run_bits]. eexists _, pos2, av2. split; [reflexivity|]. split; [|split; [exact L2|exact A2]].
    destruct o as [t|]; [|exists None; split; [reflexivity|discriminate]]. destruct (check_final_state r'); [|exists None; split; [reflexivity|discriminate]].
    exists (Some t). split; [reflexivity|]. intros t' E. apply Some_eq in E. subst t'. now apply Ho2.
Qed.

Theorem any_tree : forall M within limit, lane_count (m_lanes M) -> 0 <= limit -> forall s pos av, 0 <= pos -> 0 <= av <= 56 ->
  exists r pos' av', run_bits s pos av (decode_tree M within limit) = Some (Some r, (pos', av')) /\ pos <= pos' /\ 0 <= av' <= 56 /\
    forall t, r = Some t -> well_formed t /\ 1 <= zlen t <= Z.min limit kMaxTreeSize + 1 /\
      exists T, stored t 0 T /\ nodes_of T = zlen t /\ each_leaf_needed T.
Proof.
  intros M within limit HL Hl s pos av Hp Ha. destruct (decode_tree_ends M within limit HL Hl s pos av Hp Ha) as (r & pos1 & av1 & E & (o & -> & Ho) & L1 & A1).
  exists o, pos1, av1. split; [exact E|]. split; [exact L1|]. split; [exact A1|]. exact Ho.
Qed.
