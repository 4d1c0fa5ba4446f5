From Verif Require Import Base BitProg BitProgProofs ListAux HybridUintModel HybridUintSpec HybridUintProofs
  AliasModel AliasSpec AliasProofs AnsModel AnsSpec Wrap.

(* ---- the encoder's tables ---- *)

Lemma nth_error_firstn_lt {A} (l : list A) : forall n i, (i < n)%nat -> nth_error (firstn n l) i = nth_error l i.
Proof. induction l as [|x l IH]; intros [|n] [|i] H; cbn; auto; try lia. apply IH. lia. Qed.
Lemma nth_error_skipn_plus {A} n : forall (l : list A) i, nth_error (skipn n l) i = nth_error l (n + i).
Proof. induction n as [|n IH]; intros [|x l] i; cbn; auto. now destruct i. Qed.

Lemma znth_replace {A} (l : list A) s x y : znth l s = Some y ->
  let l' := firstn (Z.to_nat s) l ++ x :: skipn (S (Z.to_nat s)) l in
  zlen l' = zlen l /\ forall i, znth l' i = if i =? s then Some x else znth l i.
Proof.
  intros H l'. pose proof (znth_bound _ _ _ H) as B.
  assert (L : (Z.to_nat s < length l)%nat) by (unfold zlen in B; lia).
  split.
  - unfold l', zlen. rewrite app_length, firstn_length. cbn [length]. rewrite skipn_length. lia.
  - intros i. unfold l', znth. destruct (Z.ltb_spec i 0); [destruct (Z.eqb_spec i s); [lia|reflexivity]|].
    destruct (Z.eqb_spec i s) as [->|N].
    + rewrite nth_error_app2; rewrite firstn_length; [|lia]. replace (_ - _)%nat with O by lia. reflexivity.
    + destruct (lt_dec (Z.to_nat i) (Z.to_nat s)).
      * rewrite nth_error_app1 by (rewrite firstn_length; lia). now rewrite nth_error_firstn_lt by lia.
      * rewrite nth_error_app2; rewrite firstn_length; [|lia].
        replace (Z.to_nat i - Nat.min (Z.to_nat s) (length l))%nat with (S (Z.to_nat i - S (Z.to_nat s)))%nat by lia.
        cbn [nth_error]. rewrite nth_error_skipn_plus. f_equal. lia.
Qed.

Section Info.
Variables (h : list Z) (la : Z) (t : Z -> entry).
Hypothesis Hm : slot_map_for h (lookup12 la t).
Hypothesis Hh : Forall (fun v => 0 <= v <= 4096) h.

Definition info_inv (i : Z) (infos : list sym_info) : Prop :=
  zlen infos = zlen h /\
  forall s f, znth h s = Some f ->
    exists e, znth infos s = Some e /\ freq e = f /\ (0 < f -> ifreq e = (2 ^ 44 + f - 1) / f) /\
      forall o v, 0 <= v < i -> lookup12 la t v = Some (s, o, f) -> reverse_map e o = v.

Lemma hist_f s f : znth h s = Some f -> 0 <= f <= 4096.
Proof.
  intros H. rewrite Forall_forall in Hh. apply Hh. unfold znth in H. destruct (s <? 0); [discriminate|].
  eapply nth_error_In; eauto.
Qed.

Lemma info_loop_inv : forall n i infos, 0 <= i -> i + Z.of_nat n = 4096 -> info_inv i infos ->
  exists infos', info_loop la t infos (zseq i n) = Some infos' /\ info_inv 4096 infos'.
Proof.
  destruct Hm as (M1 & M2).
  induction n as [|n IH]; intros i infos Hi Hn (L & I); cbn [zseq info_loop].
  - exists infos. replace 4096 with i by lia. split; [reflexivity|split; assumption].
  - destruct (M1 i ltac:(lia)) as (s & o & f & El & Es & Ho).
    destruct (I s f Es) as (e & Ee & Ef & Er & Em). unfold info_step. rewrite El, Ee.
    rewrite set_ok by lia. cbn zeta.
    destruct (znth_replace infos s (SymInfo (freq e) (fun j => if j =? o then w16 i else reverse_map e j) (ifreq e) (depth e) (bits e)) e Ee) as (L' & N').
    apply IH; [lia|lia|]. split; [congruence|]. intros s' f' Es'. rewrite N'.
    destruct (Z.eqb_spec s' s) as [->|Ns].
    + assert (f' = f) by congruence. subst f'. eexists. split; [reflexivity|]. cbn [freq ifreq reverse_map].
      split; [exact Ef|]. split; [exact Er|]. intros o' v Hv El'.
      destruct (Z.eqb_spec o' o) as [->|No].
      * destruct (M2 s f o Es Ho) as (v0 & (_ & _) & U). rewrite (U v) by (assumption || lia). rewrite (U i) by (assumption || lia).
        unfold w16. rewrite Z.mod_small; [reflexivity|]. destruct (M2 s f o Es Ho) as (v1 & (R1 & R2) & U'). rewrite (U v1 R1 R2) in R1. lia.
      * apply Em; [|exact El']. destruct (Z.eq_dec v i); [|lia]. subst v. congruence.
    + destruct (I s' f' Es') as (e' & Ee' & Ef' & Er' & Em'). exists e'. split; [exact Ee'|]. split; [exact Ef'|]. split; [exact Er'|].
      intros o' v Hv El'. apply Em'; [|exact El']. destruct (Z.eq_dec v i); [|lia]. subst v. congruence.
Qed.

Lemma info_start : info_inv 0 (map info_init h).
Proof.
  split; [unfold zlen; now rewrite map_length|]. intros s f H. pose proof (hist_f s f H) as Hf.
  exists (info_init f). split; [|split; [|split]].
  - unfold znth in *. destruct (s <? 0); [discriminate|]. rewrite nth_error_map, H. reflexivity.
  - cbn. unfold w16. apply Z.mod_small. lia.
  - intros P. unfold info_init. cbn [ifreq]. replace (f =? 0) with false by lia.
    replace (w16 f) with f by (unfold w16; rewrite Z.mod_small; lia). reflexivity.
  - intros o v Hv. lia.
Qed.
End Info.

Theorem build_info_right h la t : slot_map_for h (lookup12 la t) -> Forall (fun v => 0 <= v <= 4096) h -> h <> [] ->
  exists infos, build_info_table la t h = Some infos /\ encoder_info_for h (lookup12 la t) infos.
Proof.
  intros Hm Hh N. unfold build_info_table. destruct h as [|h0 h']; [contradiction|].
  destruct (info_loop_inv (h0 :: h') la t Hm 4096 0 _ ltac:(lia) eq_refl (info_start (h0 :: h') la t Hh)) as (infos & E & L & I).
  exists infos. split; [exact E|]. split; [exact L|exact I].
Qed.

Theorem build_info_empty la t : slot_map_for [4096] (lookup12 la t) ->
  exists infos, build_info_table la t [] = Some infos /\ encoder_info_for [4096] (lookup12 la t) infos.
Proof.
  intros Hm. assert (Hh : Forall (fun v => 0 <= v <= 4096) [4096]) by (constructor; [lia|constructor]).
  unfold build_info_table.
  destruct (info_loop_inv [4096] la t Hm 4096 0 _ ltac:(lia) eq_refl (info_start [4096] la t Hh)) as (infos & E & L & I).
  exists infos. split; [exact E|]. split; [exact L|exact I].
Qed.

(* ---- one symbol ---- *)

Lemma reciprocal x f : 0 < f <= 4096 -> 0 <= x < f * 2 ^ 20 ->
  (x * ((2 ^ 44 + f - 1) / f)) / 2 ^ 44 = x / f /\ x * ((2 ^ 44 + f - 1) / f) < 2 ^ 64.
Proof.
  intros Hf Hx. set (q := (2 ^ 44 + f - 1) / f).
  assert (Hq : 2 ^ 44 <= q * f <= 2 ^ 44 + f - 1).
  { pose proof (Z.div_mod (2 ^ 44 + f - 1) f ltac:(lia)) as D. fold q in D. pose proof (Z.mod_pos_bound (2 ^ 44 + f - 1) f ltac:(lia)). lia. }
  set (d := x / f). pose proof (Z.div_mod x f ltac:(lia)) as Dx. fold d in Dx. pose proof (Z.mod_pos_bound x f ltac:(lia)) as Rx.
  assert (Hxe : x * (f - 1) <= 2 ^ 44 - 2 ^ 20).
  { apply Z.le_trans with ((4096 * 2 ^ 20 - 1) * 4095); [|lia]. apply Z.mul_le_mono_nonneg; lia. }
  assert (Hfq : f * (x * q) <= x * 2 ^ 44 + x * (f - 1)).
  { replace (f * (x * q)) with (x * (q * f)) by ring. rewrite <- Z.mul_add_distr_l. apply Z.mul_le_mono_nonneg_l; lia. }
  assert (Hfl : x * 2 ^ 44 <= f * (x * q)).
  { replace (f * (x * q)) with (x * (q * f)) by ring. apply Z.mul_le_mono_nonneg_l; lia. }
  split.
  - symmetry. apply Z.div_unique with (r := x * q - 2 ^ 44 * d); [|ring]. left.
    assert (f * (2 ^ 44 * d) <= f * (x * q)) by lia.
    assert (f * (x * q) < f * (2 ^ 44 * d + 2 ^ 44)).
    { assert (x * 2 ^ 44 <= (f * d + f - 1) * 2 ^ 44) by (apply Z.mul_le_mono_nonneg_r; lia). lia. }
    split.
    + apply Z.le_0_sub. apply Z.mul_le_mono_pos_l with f; lia.
    + apply Z.lt_sub_lt_add_l. apply Z.mul_lt_mono_pos_l with f; lia.
  - apply Z.mul_lt_mono_pos_l with f; [lia|]. assert (x * 2 ^ 44 <= (f * 2 ^ 20 - 1) * 2 ^ 44) by (apply Z.mul_le_mono_nonneg_r; lia). lia.
Qed.

Definition ans_state (x : Z) : Prop := 2 ^ 16 <= x < 2 ^ 32.

Lemma put_read h la t infos s f e x :
  slot_map_for h (lookup12 la t) -> encoder_info_for h (lookup12 la t) infos ->
  znth h s = Some f -> 0 < f <= 4096 -> znth infos s = Some e -> ans_state x ->
  exists b nb x', put_symbol e x = Some (b, nb, x') /\ ans_state x' /\ (nb = 0 \/ nb = 16) /\ 0 <= b < 2 ^ nb /\
    parses_buffered 16 (ans_read la t x') (to_bits (Z.to_nat nb) b) (Some (s, x)).
Proof.
  intros (M1 & M2) (L & I) Hs Hf He Hx. unfold ans_state in *.
  destruct (I s f Hs) as (e' & He' & Ef & Er & Em). assert (e' = e) by congruence. subst e'. clear He'.
  specialize (Er ltac:(lia)).
  (* after renormalisation *)
  set (emit := f <=? x / 2 ^ 20).
  set (y := if emit then x / 2 ^ 16 else x).
  assert (Hy : 16 * f <= y < f * 2 ^ 20 /\ (emit = true -> y < 2 ^ 16) /\ (emit = false -> 2 ^ 16 <= y < 2 ^ 32)).
  { unfold y, emit. destruct (Z.leb_spec f (x / 2 ^ 20)) as [H|H].
    - split; [|split; [intros _|discriminate]].
      + assert (f * 2 ^ 20 <= x) by lia. lia.
      + lia.
    - split; [|split; [discriminate|intros _; lia]]. lia. }
  destruct Hy as (Hy1 & Hy2 & Hy3).
  destruct (reciprocal y f ltac:(lia) ltac:(lia)) as (Rq & Rb).
  set (v := y / f) in *. pose proof (Z.div_mod y f ltac:(lia)) as Dy. fold v in Dy. pose proof (Z.mod_pos_bound y f ltac:(lia)) as Ry.
  assert (Hv : 16 <= v < 2 ^ 20).
  { unfold v. split; [apply Z.div_le_lower_bound; lia|apply Z.div_lt_upper_bound; lia]. }
  destruct (M2 s f (y mod f) Hs ltac:(lia)) as (slot & (Rs & Els) & _).
  exists (if emit then x mod 2 ^ 16 else 0), (if emit then 16 else 0), (v * 4096 + slot).
  assert (Hrange : 2 ^ 16 <= v * 4096 + slot < 2 ^ 32) by lia.
  split; [|split; [exact Hrange|split; [destruct emit; auto|split; [destruct emit; [apply Z.mod_pos_bound; lia|cbn; lia]|]]]].
  - unfold put_symbol. rewrite Ef, Er. unfold ANS_LOG_TAB_SIZE, RECIPROCAL_PRECISION, ANS_LOG_TAB_SIZE.
    rewrite !Z.shiftr_div_pow2 by lia. change (32 - 12) with 20. fold emit.
    pose proof (Z.land_ones x 16 ltac:(lia)) as Lx. change (Z.ones 16) with 65535 in Lx. rewrite Lx.
    assert (Et : (if emit then (x mod 2 ^ 16, 16, x / 2 ^ 16) else (0, 0, x)) = (if emit then x mod 2 ^ 16 else 0, if emit then 16 else 0, y)).
    { unfold y. destruct emit; reflexivity. }
    rewrite Et. cbn iota beta zeta. rewrite !Z.shiftr_div_pow2 by lia. change (32 + 12) with 44.
    replace (w64 (y * ((2 ^ 44 + f - 1) / f))) with (y * ((2 ^ 44 + f - 1) / f)).
    2:{ unfold w64. rewrite Z.mod_small; [reflexivity|]. split; [|lia]. apply Z.mul_nonneg_nonneg; [lia|apply Z.div_pos; lia]. }
    rewrite Rq. replace (w32 v) with v by (unfold w32; rewrite Z.mod_small; lia).
    assert (Hvf : 0 <= v * f <= y) by lia.
    replace (w32 (y - w32 (v * f))) with (y mod f).
    2:{ assert (y < 2 ^ 32) by (destruct emit; [specialize (Hy2 eq_refl)|specialize (Hy3 eq_refl)]; lia).
        unfold w32. rewrite (Z.mod_small (v * f)) by lia. rewrite (Z.mod_small (y - v * f)); lia. }
    rewrite get_ok by lia. rewrite (Em (y mod f) slot Rs Els).
    f_equal. f_equal. rewrite Z.shiftl_mul_pow2 by lia. unfold w32. rewrite (Z.mod_small (v * 2 ^ 12)) by lia. rewrite Z.mod_small; lia.
  - (* the decoder *)
    unfold ans_read. replace (Z.land (v * 4096 + slot) (ANS_TAB_SIZE - 1)) with slot.
    2:{ change (ANS_TAB_SIZE - 1) with (Z.ones 12). rewrite Z.land_ones by lia. change (2 ^ 12) with 4096. rewrite Z.add_comm, Z.mod_add by lia. rewrite Z.mod_small; lia. }
    rewrite Els. cbn zeta.
    replace (Z.shiftr (v * 4096 + slot) ANS_LOG_TAB_SIZE) with v.
    2:{ unfold ANS_LOG_TAB_SIZE. rewrite Z.shiftr_div_pow2 by lia. change (2 ^ 12) with 4096. rewrite Z.div_add_l by lia. rewrite Z.div_small; lia. }
    assert (y < 2 ^ 32) by (destruct emit; [specialize (Hy2 eq_refl)|specialize (Hy3 eq_refl)]; lia).
    replace (w32 (f * v + y mod f)) with y by (unfold w32; rewrite <- Dy, Z.mod_small; lia).
    change (Z.shiftl 1 16) with (2 ^ 16).
    destruct emit eqn:Ee.
    + specialize (Hy2 eq_refl). replace (y <? 2 ^ 16) with true by lia.
      assert (Ex : Z.lor (w32 (Z.shiftl y 16)) (x mod 2 ^ 16) = x).
      { rewrite Z.shiftl_mul_pow2 by lia. replace (w32 (y * 2 ^ 16)) with (y * 2 ^ 16) by (unfold w32; rewrite Z.mod_small; lia).
        rewrite lor_add_pow by (try apply Z.mod_pos_bound; lia). unfold y. lia. }
      pose proof (buffered_peek_consume 16 (x mod 2 ^ 16) (fun b => Ret (Some (s, Z.lor (w32 (Z.shiftl y 16)) b))) [] (Some (s, x)) 0
        ltac:(lia) ltac:(lia) ltac:(apply Z.mod_pos_bound; lia)) as P.
      cbn beta in P. rewrite Ex in P. specialize (P (buffered_ret _)). rewrite app_nil_r in P. exact P.
    + specialize (Hy3 eq_refl). replace (y <? 2 ^ 16) with false by lia. change (to_bits (Z.to_nat 0) 0) with (@nil bool).
      intros pre post av Hav. exists av. cbn [run_bits].
      replace ((0 <=? 16) && (16 <=? av)) with true by lia. replace ((0 <=? 0) && (0 <=? av)) with true by lia.
      cbn. split; [|lia]. f_equal. f_equal. f_equal; lia.
Qed.
