From Verif Require Import Base Arr ListAux OMap SkipModel SkipSpec SkipDeps.
Ltac Zify.zify_post_hook ::= idtac.

Lemma zlen_snoc1 {A} (l : list A) a : zlen (l ++ [a]) = zlen l + 1.
Proof. unfold zlen. rewrite app_length. cbn [length]. lia. Qed.


Lemma firstn_succ {A} (l : list A) i a : 0 <= i -> znth l i = Some a -> firstn (Z.to_nat (i + 1)) l = firstn (Z.to_nat i) l ++ [a].
Proof.
  intros Hi. unfold znth. destruct (Z.ltb_spec i 0); [lia|]. replace (Z.to_nat (i + 1)) with (Datatypes.S (Z.to_nat i)) by lia. generalize (Z.to_nat i) as n. clear.
  induction l as [|x l IH]; intros n E; [destruct n; discriminate|]. destruct n as [|n]; [injection E as ->; reflexivity|]. cbn [firstn app]. f_equal. apply IH. exact E.
Qed.
Lemma ends_still_eq c f : ends_still c f = last_of_still c f.
Proof. unfold ends_still, last_of_still. destruct c; reflexivity. Qed.
Lemma saved_as_bit f s : frame_ok f -> 0 <= s < 8 -> (Z.testbit (saved_as f) s = true <-> saved_in f s).
Proof.
  intros (_ & D & R) Hs. unfold saved_as, saved_in. destruct (f_dc f) eqn:ED.
  - specialize (D eq_refl). replace (Z.shiftl 16 (f_dc_level f - 1)) with (2 ^ (3 + f_dc_level f)) by (rewrite Z.shiftl_mul_pow2 by lia; change 16 with (2 ^ 4); rewrite <- Z.pow_add_r by lia; f_equal; lia).
    rewrite Z.pow2_bits_eqb by lia. rewrite Z.eqb_eq. lia.
  - unfold can_be_referenced. rewrite ED. replace (Z.shiftl 1 (f_save_as_reference f)) with (2 ^ f_save_as_reference f) by (rewrite Z.shiftl_1_l; reflexivity).
    destruct (f_is_last f); cbn [negb andb]; [rewrite Z.testbit_0_l; split; [discriminate|intros (K & _); discriminate]|].
    destruct (Z.eqb_spec (f_duration f) 0); destruct (Z.eqb_spec (f_save_as_reference f) 0); cbn [negb orb]; rewrite ?Z.testbit_0_l, ?Z.pow2_bits_eqb, ?Z.eqb_eq by lia; (split; [intros K; try discriminate; repeat split; lia|intros (_ & K1 & K2); lia]).
Qed.
Lemma saved_as_nobit f s : frame_ok f -> 0 <= s < 8 -> ~ saved_in f s -> Z.testbit (saved_as f) s = false.
Proof. intros F Hs N. destruct (Z.testbit (saved_as f) s) eqn:E; [|reflexivity]. destruct N. apply saved_as_bit; assumption. Qed.
Lemma ok_at fs i f : Forall frame_ok fs -> znth fs i = Some f -> frame_ok f.
Proof. rewrite Forall_forall. intros F E. apply F. unfold znth in E. destruct (i <? 0); [discriminate|]. apply nth_error_In in E. exact E. Qed.

(* the same with the masks *)
Definition uses_bits (fs : list frame) (k j : Z) : Prop :=
  exists slot fk fj, 0 <= slot < 8 /\ znth fs k = Some fk /\ znth fs j = Some fj /\ j < k /\
    Z.testbit (f_refs fk) slot = true /\ Z.testbit (saved_as fj) slot = true /\
    forall i fi, j < i < k -> znth fs i = Some fi -> Z.testbit (saved_as fi) slot = false.
Lemma uses_as_bits fs k j : Forall frame_ok fs -> uses fs k j -> uses_bits fs k j.
Proof.
  intros F (s & fk & fj & Hs & Ek & Ej & B & T & SI & Q). exists s, fk, fj. split; [exact Hs|]. split; [exact Ek|]. split; [exact Ej|]. split; [exact B|]. split; [exact T|].
  split; [apply saved_as_bit; [apply (ok_at fs j); assumption|exact Hs|exact SI]|]. intros i fi Hi Ei. apply saved_as_nobit; [apply (ok_at fs i); assumption|exact Hs|apply (Q i fi Hi Ei)].
Qed.
Lemma stills_succ c fs i f : 0 <= i -> znth fs i = Some f -> stills c fs (i + 1) = stills c fs i + (if last_of_still c f then 1 else 0).
Proof.
  intros Hi E. unfold stills. rewrite (firstn_succ fs i f Hi E), filter_app, zlen_app. cbn [filter]. rewrite ends_still_eq. destruct (last_of_still c f); reflexivity.
Qed.
Lemma stills_mono c fs i k : 0 <= i <= k -> stills c fs i <= stills c fs k.
Proof.
  intros H. unfold stills. replace (firstn (Z.to_nat k) fs) with (firstn (Z.to_nat i) fs ++ skipn (Z.to_nat i) (firstn (Z.to_nat k) fs)).
  - rewrite filter_app, zlen_app. pose proof (zlen_nonneg (filter (ends_still c) (skipn (Z.to_nat i) (firstn (Z.to_nat k) fs)))). lia.
  - rewrite <- (firstn_skipn (Z.to_nat i) (firstn (Z.to_nat k) fs)) at 2. f_equal. rewrite firstn_firstn. f_equal. lia.
Qed.
Lemma stills_range c fs i : 0 <= stills c fs i <= zlen fs.
Proof.
  unfold stills. split; [apply zlen_nonneg|]. assert (K : forall (l : list frame), zlen (filter (ends_still c) l) <= zlen l).
  { induction l as [|a l IH]; [unfold zlen; cbn; lia|]. cbn [filter]. destruct (ends_still c a); rewrite ?zlen_cons; lia. }
  specialize (K (firstn (Z.to_nat i) fs)). unfold zlen in *. rewrite firstn_length in K. lia.
Qed.

(* what the decoder remembers of the frames *)
Definition table_ok (fs : list frame) (refs : list frame_ref) : Prop :=
  zlen refs <= zlen fs /\ forall i r, znth refs i = Some r -> exists f, znth fs i = Some f /\ r_saved_as r = saved_as f /\ (reference r = 255 \/ reference r = f_refs f).

Lemma bits_255 s : 0 <= s < 8 -> Z.testbit 255 s = true.
Proof.
  intros H. assert (K : forallb (Z.testbit 255) (zseq 0 8) = true) by reflexivity. rewrite forallb_forall in K. apply K, in_zseq. lia.
Qed.

Lemma saver_of fs refs s k j : table_ok fs refs -> 0 <= j <= k -> k < zlen refs ->
  (exists f, znth fs j = Some f /\ Z.testbit (saved_as f) s = true) -> (forall i f, j < i <= k -> znth fs i = Some f -> Z.testbit (saved_as f) s = false) -> last_saver refs s k j.
Proof.
  intros (L & T) Hj Hk (f & Ef & Tf) Q. split; [exact Hj|]. split.
  - destruct (znth_ex refs j) as (r & Er); [lia|]. exists r. split; [exact Er|]. destruct (T j r Er) as (f' & Ef' & Es & _). rewrite Es. congruence.
  - intros i r Hi Er. destruct (T i r Er) as (f' & Ef' & Es & _). rewrite Es. apply (Q i f' Hi Ef').
Qed.

Lemma uses_bounds fs k j : uses fs k j -> 0 <= j < k /\ k < zlen fs.
Proof. intros (s & fk & fj & _ & Ek & Ej & B & _). apply znth_some_inv in Ek, Ej. lia. Qed.
Lemma needs_bounds fs k j : needs fs k j -> 0 <= j < k /\ k < zlen fs.
Proof. induction 1 as [j H|i j _ IH H]; apply uses_bounds in H; lia. Qed.

Section Deps.
  Variables (fs : list frame) (refs : list frame_ref) (X : Z) (result : list Z).
  Hypothesis (HF : Forall frame_ok fs) (HT : table_ok fs refs) (HX : 0 <= X < zlen refs)
    (HC : forall k, k = X \/ In k result -> closed_at refs (fun x => In x result) k)
    (HS : forall s j, 0 <= s < 8 -> last_saver refs s X j -> j <> X -> In j result)
    (HR : forall x, In x result -> 0 <= x < X).

  Lemma uses_closed k j : k = X \/ In k result -> uses fs k j -> In j result.
  Proof.
    intros Hk U. apply (uses_as_bits _ _ _ HF) in U. destruct U as (s & fk & fj & Hs & Ek & Ej & B & Tk & Tj & Q). assert (Bk : k <= X) by (destruct Hk as [->|Hk]; [lia|apply HR in Hk; lia]). assert (Bj := znth_some_inv _ _ _ Ej).
    destruct (znth_ex refs k) as (r & Er); [lia|]. apply (HC k Hk r s j Er Hs).
    - destruct (proj2 HT k r Er) as (f' & Ef' & _ & [K|K]); rewrite K; [apply bits_255; exact Hs|congruence].
    - apply (saver_of fs); [exact HT|lia|lia|eauto|]. intros i f Hi. apply Q. lia.
  Qed.
  Lemma uses_across k j : X <= k -> uses fs k j -> j < X -> In j result.
  Proof.
    intros Hk U Bj. destruct (Z.eq_dec k X) as [->|N]; [apply (uses_closed X); [left; reflexivity|exact U]|].
    apply (uses_as_bits _ _ _ HF) in U. destruct U as (s & fk & fj & Hs & Ek & Ej & B & Tk & Tj & Q). assert (Bj2 := znth_some_inv _ _ _ Ej).
    apply (HS s j Hs); [|lia]. apply (saver_of fs); [exact HT|lia|lia|eauto|]. intros i f Hi. apply Q. lia.
  Qed.
  Lemma needs_found k j : X <= k -> needs fs k j -> j < X -> In j result.
  Proof.
    intros Hk. induction 1 as [j H|i j H IH U]; intros B; [apply (uses_across k); assumption|].
    destruct (Z.ltb_spec i X); [apply (uses_closed i); [right; apply IH; assumption|exact U]|apply (uses_across i); assumption].
  Qed.
End Deps.

Lemma require_ok deps : forall req, (forall x, In x deps -> 0 <= x < zlen req) ->
  exists req', require req deps = Some req' /\ zlen req' = zlen req /\ (forall j, In j deps -> znth req' j = Some true) /\ (forall j, ~ In j deps -> znth req' j = znth req j).
Proof.
  induction deps as [|x deps IH]; intros req R; cbn [require]; [exists req; split; [reflexivity|]; split; [reflexivity|]; split; [intros j []|auto]|].
  assert (B := R x (or_introl eq_refl)). replace (x <? zlen req) with true by lia.
  destruct (IH (put req x true)) as (req' & E & L & P & Q); [intros y Hy; rewrite put_len by exact B; apply R; right; exact Hy|]. exists req'. split; [exact E|]. split; [rewrite L; apply put_len; exact B|]. split.
  - intros j Hj. destruct (in_dec Z.eq_dec j deps) as [I|I]; [apply P; exact I|]. destruct Hj as [<-|Hj]; [|contradiction]. rewrite Q by exact I. apply put_same. exact B.
  - intros j Hj. cbn [In] in Hj. rewrite Q by tauto. apply put_other; [exact B|]. intros ->. tauto.
Qed.

Lemma znth_repeat {A} (v : A) n j x : znth (repeat v n) j = Some x -> x = v.
Proof. unfold znth. destruct (j <? 0); [discriminate|]. intros E. apply nth_error_In in E. apply repeat_spec in E. exact E. Qed.

(* ---- the invariant ---- *)
Section Inv.
  Variables (c : bool) (fs : list frame).
  Hypothesis (FOK : Forall frame_ok fs) (FLEN : zlen fs < 2 ^ 62).
  Notation st := (stills c fs).
  Definition target d := external_frames d + skip_frames d.

  (* the frames required are those of a target *)
  Definition required_ok (d : decoder) : Prop :=
    frame_required d = [] \/
    exists X, 0 <= X /\ zlen (frame_required d) = X + 1 /\ st X = target d /\ (forall i, 0 <= i < X -> st i < target d) /\
      (forall j k, 0 <= j < X -> znth (frame_required d) j = Some false -> X <= k -> ~ needs fs k j) /\
      (forall k j, znth (frame_required d) k <> Some false \/ X <= k -> uses fs k j -> j < X -> znth (frame_required d) j = Some true).

  Record inv (d : decoder) (acc : list event) : Prop := {
    i_co : d_coalescing d = c;
    i_int : 0 <= internal_frames d <= zlen fs;
    i_ext : external_frames d = st (internal_frames d);
    i_tab : table_ok fs (frame_refs d);
    i_tablen : internal_frames d <= zlen (frame_refs d);
    i_cur : current d = None \/ (current d = Some (internal_frames d - 1) /\ 0 < internal_frames d);
    i_e2i : forall e X, znth (external_to_internal d) e = Some X -> 0 <= X < zlen (frame_refs d) /\ st X = e /\ forall i, 0 <= i < X -> st i < e;
    i_e2ilen : external_frames d <= zlen (external_to_internal d);
    i_e2inew : zlen (external_to_internal d) <= external_frames d -> forall i, 0 <= i < internal_frames d -> st i < external_frames d;
    i_skip : 0 <= skip_frames d;
    i_req : 0 < skip_frames d -> required_ok d;
    i_done : d_full d = true -> forall j k, 0 <= j < internal_frames d -> internal_frames d <= k -> target d <= st k -> needs fs k j -> In (Done j) acc \/ current d = Some j }.

  Lemma inv_new full : inv (new_decoder c full) [].
  Proof.
    assert (L := zlen_nonneg fs). constructor; unfold new_decoder; cbn [d_coalescing internal_frames external_frames frame_refs current external_to_internal skip_frames frame_required d_full].
    - reflexivity.
    - lia.
    - reflexivity.
    - split; [exact L|]. intros i r E. apply znth_some_inv in E. unfold zlen in E. cbn [length] in E. lia.
    - unfold zlen. cbn [length]. lia.
    - left. reflexivity.
    - intros e X E. apply znth_some_inv in E. unfold zlen in E. cbn [length] in E. lia.
    - unfold zlen. cbn [length]. lia.
    - intros _ i H. lia.
    - lia.
    - lia.
    - intros _ j k H. lia.
  Qed.

  Lemma inv_rewind d acc full : inv d acc -> inv (Dec c full 0 0 0 (frame_refs d) (external_to_internal d) (frame_required d) None) [].
  Proof.
    intros I. assert (L := zlen_nonneg fs). constructor; cbn [d_coalescing internal_frames external_frames frame_refs current external_to_internal skip_frames frame_required d_full].
    - reflexivity.
    - lia.
    - reflexivity.
    - apply (i_tab _ _ I).
    - apply zlen_nonneg.
    - left. reflexivity.
    - apply (i_e2i _ _ I).
    - apply zlen_nonneg.
    - intros _ i H. lia.
    - lia.
    - lia.
    - intros _ j k H. lia.
  Qed.

  Lemma skip_ok d acc n : inv d acc -> 0 <= n -> skip_frames d + n < 2 ^ 63 ->
    exists d', skip d n = Some d' /\ inv d' acc /\ required_ok d' /\
      d' = Dec (d_coalescing d) (d_full d) (skip_frames d + n) (internal_frames d) (external_frames d) (frame_refs d) (external_to_internal d) (frame_required d') (current d).
  Proof.
    intros I Hn Hb. assert (S0 := i_skip _ _ I). assert (RE := stills_range c fs (internal_frames d)). rewrite <- (i_ext _ _ I) in RE.
    unfold skip. assert (E1 : w64 (skip_frames d + n) = skip_frames d + n) by (unfold w64; apply Z.mod_small; lia). rewrite E1.
    assert (E2 : w64 (external_frames d + (skip_frames d + n)) = external_frames d + (skip_frames d + n)) by (unfold w64; apply Z.mod_small; lia). rewrite E2. cbv zeta.
    assert (G : forall req, required_ok (Dec (d_coalescing d) (d_full d) (skip_frames d + n) (internal_frames d) (external_frames d) (frame_refs d) (external_to_internal d) req (current d)) ->
      inv (Dec (d_coalescing d) (d_full d) (skip_frames d + n) (internal_frames d) (external_frames d) (frame_refs d) (external_to_internal d) req (current d)) acc).
    { intros req RO. destruct I. constructor; cbn [d_coalescing internal_frames external_frames frame_refs current external_to_internal skip_frames frame_required d_full]; try assumption; [lia|intros _; exact RO|].
      intros F j k Hj Hk Ht Hnk. apply (i_done0 F j k Hj Hk); [|exact Hnk]. unfold target in *. cbn [external_frames skip_frames] in Ht. lia. }
    assert (G0 : required_ok (Dec (d_coalescing d) (d_full d) (skip_frames d + n) (internal_frames d) (external_frames d) (frame_refs d) (external_to_internal d) [] (current d))) by (left; reflexivity).
    destruct (znth (external_to_internal d) (external_frames d + (skip_frames d + n))) as [X|] eqn:EX.
    - destruct (i_e2i _ _ I _ _ EX) as (BX & SX & FX). replace (X <? zlen (frame_refs d)) with true by lia.
      destruct (dependencies_ok (frame_refs d) X BX) as (result & Er & R1 & R2 & R3). rewrite Er.
      assert (LR : zlen (repeat false (Z.to_nat (X + 1))) = X + 1) by (unfold zlen; rewrite repeat_length; lia).
      destruct (require_ok result (repeat false (Z.to_nat (X + 1)))) as (req & Eq & Lq & Q1 & Q2); [intros x Hx; apply R1 in Hx; lia|]. rewrite Eq.
      set (d' := Dec _ _ _ _ _ _ _ req _).
      assert (RO : required_ok d').
      { right. exists X. subst d'. unfold target. cbn [frame_required external_frames skip_frames]. split; [lia|]. split; [lia|]. split; [exact SX|]. split; [exact FX|]. split.
        - intros j k Hj Ej Hk Nk. assert (K := needs_found fs _ X result FOK (i_tab _ _ I) BX R2 R3 R1 k j Hk Nk (proj2 Hj)). apply Q1 in K. congruence.
        - intros k j Hk U Bj. apply Q1. destruct (Z.ltb_spec k X).
          + apply (uses_closed fs (frame_refs d) X result FOK (i_tab _ _ I) BX R2 R3 R1 k); [right|exact U]. destruct Hk as [Hk|Hk]; [|lia].
            destruct (in_dec Z.eq_dec k result) as [K|K]; [exact K|]. exfalso. apply Hk. assert (UB := uses_bounds _ _ _ U). rewrite Q2 by exact K.
            destruct (znth_ex (repeat false (Z.to_nat (X + 1))) k) as (v & Ev); [lia|]. rewrite Ev. apply znth_repeat in Ev. congruence.
          + apply (uses_across fs (frame_refs d) X result FOK (i_tab _ _ I) BX R2 R3 R1 k); assumption. }
      exists d'. split; [reflexivity|]. split; [apply G; exact RO|]. split; [exact RO|reflexivity].
    - eexists. split; [reflexivity|]. split; [apply G; exact G0|]. split; [exact G0|reflexivity].
  Qed.

  Lemma table_add refs f : table_ok fs refs -> znth fs (zlen refs) = Some f -> table_ok fs (refs ++ [FrameRef 255 (saved_as f)]).
  Proof.
    intros (L & T) E. split; [apply znth_some_inv in E; rewrite zlen_snoc1; lia|]. intros i r Er. destruct (Z.ltb_spec i (zlen refs)).
    - rewrite znth_app_old in Er by assumption. apply T. exact Er.
    - assert (B := znth_some_inv _ _ _ Er). rewrite zlen_snoc1 in B. replace i with (zlen refs) in * by lia. rewrite znth_app_new in Er. injection Er as <-. exists f. split; [exact E|]. split; [reflexivity|left; reflexivity].
  Qed.

  (* a frame saved in no slot is used by none *)
  Lemma not_saved f s : frame_ok f -> Z.testbit (saved_as f) s = true -> can_be_referenced f || f_dc f = true.
  Proof.
    intros _. unfold saved_as. destruct (f_dc f); [intros; apply orb_true_r|]. destruct (can_be_referenced f); [reflexivity|]. rewrite Z.testbit_0_l. discriminate.
  Qed.
  Lemma uses_saved k j f : uses fs k j -> znth fs j = Some f -> can_be_referenced f || f_dc f = true.
  Proof.
    intros U E. apply (uses_as_bits _ _ _ FOK) in U. destruct U as (s & fk & fj & _ & _ & Ej & _ & _ & T & _). rewrite Ej in E. injection E as ->. apply (not_saved f s); [|exact T]. rewrite Forall_forall in FOK. apply FOK.
    unfold znth in Ej. destruct (j <? 0); [discriminate|]. apply nth_error_In in Ej. exact Ej.
  Qed.
  Lemma needs_saved k j f : needs fs k j -> znth fs j = Some f -> can_be_referenced f || f_dc f = true.
  Proof. intros [j' U|i j' _ U]; apply (uses_saved _ _ _ U). Qed.

  Lemma header_ok d acc f : inv d acc -> current d = None -> znth fs (internal_frames d) = Some f ->
    exists d' ev, header f d = Some (d', [ev]) /\ inv d' (since_rewind [ev] acc) /\ target d' = (if 0 <? skip_frames d then target d else st (internal_frames d + 1)) /\
      internal_frames d' = internal_frames d + 1 /\ d_full d' = d_full d /\ frame_required d' = frame_required d /\ current d' = match ev with Started i _ => Some i | _ => None end /\
      skip_frames d' <= skip_frames d /\
      (ev = Passed (internal_frames d) \/ (ev = Started (internal_frames d) (skip_frames d =? 0) /\ d_full d = true)) /\
      (ev = Passed (internal_frames d) -> d_full d = true -> 0 < skip_frames d /\ (can_be_referenced f || f_dc f = true -> znth (frame_required d) (internal_frames d) = Some false)).
  Proof.
    intros I C E. assert (I0 := I). destruct I. unfold header. cbv zeta. set (i := internal_frames d) in *. set (e := external_frames d) in *.
    assert (LZ := zlen_nonneg (external_to_internal d)).
    (* the two tables *)
    assert (K1 : exists e2i, (if zlen (external_to_internal d) <=? e then (if zlen (external_to_internal d ++ [i]) =? e + 1 then Some (external_to_internal d ++ [i]) else None) else Some (external_to_internal d)) = Some e2i /\ e + 1 <= zlen e2i /\
      (zlen e2i = e + 1 \/ e2i = external_to_internal d) /\ forall e' X, znth e2i e' = Some X -> znth (external_to_internal d) e' = Some X \/ (X = i /\ e' = e /\ zlen (external_to_internal d) = e)).
    { destruct (Z.leb_spec (zlen (external_to_internal d)) e) as [H|H].
      - exists (external_to_internal d ++ [i]). rewrite zlen_snoc1. replace (_ =? _) with true by lia. split; [reflexivity|]. split; [lia|]. split; [left; lia|].
        intros e' X EX. destruct (Z.ltb_spec e' (zlen (external_to_internal d))); [left; rewrite znth_app_old in EX by assumption; exact EX|].
        assert (B := znth_some_inv _ _ _ EX). rewrite zlen_snoc1 in B. replace e' with (zlen (external_to_internal d)) in * by lia. rewrite znth_app_new in EX. injection EX as <-. right. split; [reflexivity|lia].
      - exists (external_to_internal d). split; [reflexivity|]. split; [lia|]. split; [right; reflexivity|]. auto. }
    destruct K1 as (e2i & E1 & L1 & N1 & M1). rewrite E1.
    assert (K2 : exists refs, (if zlen (frame_refs d) <=? i then (if zlen (frame_refs d ++ [FrameRef 255 (saved_as f)]) =? i + 1 then Some (frame_refs d ++ [FrameRef 255 (saved_as f)]) else None) else Some (frame_refs d)) = Some refs /\ table_ok fs refs /\ i + 1 <= zlen refs /\ zlen (frame_refs d) <= zlen refs).
    { destruct (Z.leb_spec (zlen (frame_refs d)) i) as [H|H].
      - exists (frame_refs d ++ [FrameRef 255 (saved_as f)]). rewrite zlen_snoc1. replace (_ =? _) with true by lia. split; [reflexivity|]. split; [apply table_add; [assumption|]; replace (zlen (frame_refs d)) with i by lia; exact E|lia].
      - exists (frame_refs d). split; [reflexivity|]. split; [assumption|lia]. }
    destruct K2 as (refs & E2 & T2 & L2 & L3). rewrite E2.
    set (last := last_of_still (d_coalescing d) f). set (n := if (0 <? skip_frames d) && last then skip_frames d - 1 else skip_frames d).
    assert (Ei := stills_succ c fs i f ltac:(lia) E). rewrite <- i_co0 in Ei at 3. fold last in Ei.
    set (e' := if last then e + 1 else e). assert (Ee : e' = st (i + 1)) by (subst e'; rewrite i_ext0 in *; destruct last; lia).
    assert (ET : e' + n = if 0 <? skip_frames d then e + skip_frames d else st (i + 1)) by (subst e' n; destruct last; destruct (Z.ltb_spec 0 (skip_frames d)); cbn [andb]; lia).
    (* what must be shown of the frame itself *)
    assert (G : forall cur acc', (forall j, In (Done j) acc -> In (Done j) acc') -> cur = None \/ cur = Some i ->
      (d_full d = true -> forall k, i + 1 <= k -> e' + n <= st k -> needs fs k i -> cur = Some i) ->
      inv (Dec (d_coalescing d) (d_full d) n (i + 1) e' refs e2i (frame_required d) cur) acc').
    { intros cur acc' HA HC HD. constructor; cbn [d_coalescing internal_frames external_frames frame_refs current external_to_internal skip_frames frame_required d_full].
      - exact i_co0.
      - apply znth_some_inv in E. lia.
      - exact Ee.
      - exact T2.
      - exact L2.
      - replace (i + 1 - 1) with i by lia. destruct HC as [->| ->]; [left; reflexivity|right; split; [reflexivity|lia]].
      - intros e0 X EX. apply M1 in EX. destruct EX as [EX|(-> & -> & EL)].
        + destruct (i_e2i0 e0 X EX) as (B1 & B2 & B3). split; [lia|]. split; assumption.
        + split; [lia|]. split; [symmetry; exact i_ext0|]. apply i_e2inew0. lia.
      - subst e'. destruct last; lia.
      - intros HL i' Hi'. rewrite Ee. subst e'. destruct last eqn:EL.
        + assert (M := stills_mono c fs i' i ltac:(lia)). lia.
        + lia.
      - subst n. destruct (Z.ltb_spec 0 (skip_frames d)); cbn [andb]; destruct last; lia.
      - intros Hn. assert (HS : 0 < skip_frames d) by (subst n; destruct (Z.ltb_spec 0 (skip_frames d)); cbn [andb] in Hn; destruct last; lia).
        specialize (i_req0 HS). unfold required_ok, target in *. cbn [frame_required external_frames skip_frames]. fold e in i_req0. rewrite ET. replace (0 <? skip_frames d) with true by lia. exact i_req0.
      - intros F j k Hj Hk Ht Hnk. unfold target in *. cbn [external_frames skip_frames] in Ht. destruct (Z.eq_dec j i) as [->|Nj]; [right; apply (HD F k); assumption|].
        left. apply HA. destruct (i_done0 F j k) as [K|K]; [lia|lia| |exact Hnk|exact K|congruence].
        fold e. rewrite ET in Ht. destruct (Z.ltb_spec 0 (skip_frames d)); [exact Ht|]. rewrite i_ext0. assert (M := stills_mono c fs i (i + 1) ltac:(lia)). lia. }
    assert (GT : forall cur, target (Dec (d_coalescing d) (d_full d) n (i + 1) e' refs e2i (frame_required d) cur) = if 0 <? skip_frames d then target d else st (i + 1)) by (intros cur; exact ET).
    assert (Hn : n <= skip_frames d) by (subst n; destruct (0 <? skip_frames d); destruct last; cbn [andb]; lia).
    destruct ((0 <? skip_frames d) && negb ((can_be_referenced f || f_dc f) && match znth (frame_required d) i with Some false => false | _ => true end)) eqn:EP.
    - eexists _, (Passed i). split; [reflexivity|]. apply andb_true_iff in EP. destruct EP as (HS & EP). apply negb_true_iff in EP.
      assert (RQ : can_be_referenced f || f_dc f = true -> znth (frame_required d) i = Some false) by (intros K; rewrite K in EP; cbn [andb] in EP; destruct (znth (frame_required d) i) as [[|]|]; [discriminate|reflexivity|discriminate]).
      split.
      { apply G; [intros j Hj; cbn [since_rewind]; apply in_or_app; left; exact Hj|left; reflexivity|]. intros F k Hk Ht Hnk. exfalso.
        assert (CR := needs_saved k i f Hnk E). specialize (RQ CR). rewrite ET, HS in Ht. destruct (i_req0 ltac:(lia)) as [R0|(X & X1 & X2 & X3 & X4 & X5 & _)].
        - rewrite R0 in RQ. apply znth_some_inv in RQ. unfold zlen in RQ. cbn [length] in RQ. lia.
        - unfold target in X3, X4. fold e in X3, X4. assert (Si : st i < st X) by (rewrite X3, <- i_ext0; fold e; lia). assert (BX : i < X) by (destruct (Z.ltb_spec i X); [assumption|]; assert (M := stills_mono c fs X i ltac:(lia)); lia).
          apply (X5 i k ltac:(lia) RQ); [|exact Hnk]. destruct (Z.leb_spec X k); [assumption|]. specialize (X4 k ltac:(lia)). lia. }
      split; [apply GT|]. split; [reflexivity|]. split; [reflexivity|]. split; [reflexivity|]. split; [reflexivity|]. split; [exact Hn|]. split; [left; reflexivity|]. intros _ _. split; [lia|exact RQ].
    - destruct (d_full d) eqn:FU.
      + eexists _, (Started i (negb (0 <? skip_frames d))). split; [reflexivity|]. split; [apply G; [intros j Hj; cbn [since_rewind]; apply in_or_app; left; exact Hj|right; reflexivity|reflexivity]|].
        split; [apply GT|]. split; [reflexivity|]. split; [reflexivity|]. split; [reflexivity|]. split; [reflexivity|]. split; [exact Hn|]. split; [right; split; [f_equal; lia|reflexivity]|intros K; discriminate].
      + eexists _, (Passed i). split; [reflexivity|]. split; [apply G; [intros j Hj; cbn [since_rewind]; apply in_or_app; left; exact Hj|left; reflexivity|discriminate]|].
        split; [apply GT|]. split; [reflexivity|]. split; [reflexivity|]. split; [reflexivity|]. split; [reflexivity|]. split; [exact Hn|]. split; [left; reflexivity|discriminate].
  Qed.

  Lemma finish_ok d acc i : inv d acc -> current d = Some i ->
    exists refs, finish fs d i = Some (Dec (d_coalescing d) (d_full d) (skip_frames d) (internal_frames d) (external_frames d) refs (external_to_internal d) (frame_required d) None, [Done i]) /\
      inv (Dec (d_coalescing d) (d_full d) (skip_frames d) (internal_frames d) (external_frames d) refs (external_to_internal d) (frame_required d) None) (acc ++ [Done i]).
  Proof.
    intros I C. destruct I. destruct i_cur0 as [K|(K & P)]; [congruence|]. assert (Ei : i = internal_frames d - 1) by congruence. unfold finish. rewrite <- Ei.
    destruct (znth_ex fs i) as (f & Ef); [lia|]. destruct (znth_ex (frame_refs d) i) as (r & Er); [lia|]. rewrite Ef, Er.
    assert (LP := put_len (frame_refs d) i (FrameRef (f_refs f) (r_saved_as r)) ltac:(lia)).
    eexists. split; [reflexivity|]. constructor; cbn [d_coalescing internal_frames external_frames frame_refs current external_to_internal skip_frames frame_required d_full]; try assumption.
    - destruct i_tab0 as (L & T). split; [rewrite LP; exact L|]. intros j r' Ej. destruct (Z.eq_dec j i) as [->|N].
      + rewrite put_same in Ej by lia. injection Ej as <-. exists f. split; [exact Ef|]. destruct (T i r Er) as (f' & Ef' & Es & _). split; [cbn [r_saved_as]; congruence|right; reflexivity].
      + rewrite put_other in Ej by lia. apply T. exact Ej.
    - rewrite LP. assumption.
    - left. reflexivity.
    - intros e X EX. rewrite LP. apply (i_e2i0 e X EX).
    - intros F j k Hj Hk Ht Hnk. left. apply in_or_app. destruct (i_done0 F j k Hj Hk Ht Hnk) as [K2|K2]; [left; exact K2|right; left; congruence].
  Qed.
End Inv.

Lemma since_app l r acc : since_rewind (l ++ r) acc = since_rewind r (since_rewind l acc).
Proof. revert acc. induction l as [|e l IH]; intros acc; [reflexivity|]. cbn [app since_rewind]. destruct e; apply IH. Qed.

Lemma one_event (ev : event) r pre e post : ev :: r = pre ++ e :: post -> (pre = [] /\ ev = e) \/ exists pre', pre = ev :: pre' /\ r = pre' ++ e :: post.
Proof.
  destruct pre as [|x pre]; cbn [app]; intros H; [left; injection H as -> _; split; reflexivity|right]. injection H as <- ->. eauto.
Qed.

Lemma run_needed c fs : Forall frame_ok fs -> zlen fs < 2 ^ 62 -> forall ops d acc, inv c fs d acc -> Forall (op_ok c) ops -> skip_frames d + total_skip ops < 2 ^ 62 ->
  exists tr, run fs d ops = Some tr /\ forall pre k post, tr = pre ++ Started k true :: post -> forall j, needs fs k j -> In (Done j) (since_rewind pre acc).
Proof.
  intros FOK FLEN. assert (TS : forall ops, Forall (op_ok c) ops -> 0 <= total_skip ops) by (induction 1 as [|o ops K _ IH]; cbn [total_skip]; [lia|]; destruct o; cbn [op_ok] in K; lia).
  induction ops as [|o ops IH]; intros d acc I F B; cbn [run].
  - exists []. split; [reflexivity|]. intros pre k post E. destruct pre; discriminate.
  - inversion F as [|? ? Fo Fops]; subst. specialize (TS _ Fops). destruct o as [| |n|c' full]; cbn [step].
    + destruct (current d) as [cu|] eqn:EC; [destruct (IH d acc I Fops ltac:(cbn [total_skip] in B; lia)) as (tr & E & K); rewrite E; exists tr; split; [reflexivity|exact K]|].
      destruct (znth fs (internal_frames d)) as [f|] eqn:EF; [|destruct (IH d acc I Fops ltac:(cbn [total_skip] in B; lia)) as (tr & E & K); rewrite E; exists tr; split; [reflexivity|exact K]].
      destruct (header_ok c fs FOK d acc f I EC EF) as (d' & ev & Eh & I' & _ & _ & _ & _ & _ & Sk & EV & _). rewrite Eh.
      destruct (IH d' _ I' Fops) as (tr & E & K); [cbn [total_skip] in B; lia|]. rewrite E. exists (ev :: tr). split; [reflexivity|].
      intros pre k post ET j Hj. apply one_event in ET. destruct ET as [(-> & ->)|(pre' & -> & ET)].
      * cbn [since_rewind]. destruct EV as [EV|(EV & FU)]; [discriminate|]. injection EV as -> ES. destruct I. assert (BJ := needs_bounds _ _ _ Hj).
        destruct (i_done0 FU j (internal_frames d)) as [G|G]; [lia|lia|unfold target; lia|exact Hj|exact G|congruence].
      * change (ev :: pre') with ([ev] ++ pre'). rewrite since_app. apply (K pre' k post ET j Hj).
    + destruct (current d) as [i|] eqn:EC; [|destruct (IH d acc I Fops ltac:(cbn [total_skip] in B; lia)) as (tr & E & K); rewrite E; exists tr; split; [reflexivity|exact K]].
      destruct (finish_ok c fs d acc i I EC) as (refs & Ef & I'). rewrite Ef. destruct (IH _ _ I' Fops) as (tr & E & K); [cbn [total_skip skip_frames] in *; lia|]. rewrite E. exists (Done i :: tr). split; [reflexivity|].
      intros pre k post ET j Hj. apply one_event in ET. destruct ET as [(_ & ET)|(pre' & -> & ET)]; [discriminate|]. cbn [since_rewind]. apply (K pre' k post ET j Hj).
    + cbn [total_skip op_ok] in *. destruct (skip_ok c fs FOK FLEN d acc n I Fo) as (d' & Es & I' & _ & ED); [lia|]. rewrite Es. destruct (IH d' acc I' Fops) as (tr & E & K); [rewrite ED; cbn [skip_frames]; lia|]. rewrite E. exists tr. split; [reflexivity|exact K].
    + cbn [op_ok] in Fo. subst c'. destruct (IH _ _ (inv_rewind c fs d acc full I) Fops) as (tr & E & K); [cbn [skip_frames total_skip] in *; destruct I; lia|]. rewrite E. exists (Rewound :: tr). split; [reflexivity|].
      intros pre k post ET j Hj. apply one_event in ET. destruct ET as [(_ & ET)|(pre' & -> & ET)]; [discriminate|]. cbn [since_rewind]. apply (K pre' k post ET j Hj).
Qed.
