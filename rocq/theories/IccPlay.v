(* Each command of the encoder, read by the decoder, gives back the bytes it stands for *)
From Coq Require Import Ascii String.
From Verif Require Import Base OMap IccModel IccSpec IccAux IccShuffle IccSafe.
Ltac Zify.zify_post_hook ::= idtac.

(* enc contains bs at p *)
Definition has (enc : list Z) (p : Z) (bs : list Z) : Prop := exists a c, enc = a ++ bs ++ c /\ zlen a = p.
Lemma has_app enc p x y : has enc p (x ++ y) <-> has enc p x /\ has enc (p + zlen x) y.
Proof.
  split.
  - intros (a & c & -> & L). split; [exists a, (y ++ c); rewrite <- !app_assoc; auto|]. exists (a ++ x), c. rewrite <- !app_assoc. split; [reflexivity|]. rewrite zlen_app2. lia.
  - intros [(a & c & E & L) (a' & c' & E' & L')]. exists a, c'. split; [|exact L]. rewrite E in E'. assert (K : a' = a ++ x).
    { assert (Z1 : zlen (a ++ x) = zlen a') by (rewrite zlen_app2; lia). rewrite app_assoc in E'. assert (F : firstn (length a') ((a ++ x) ++ c) = firstn (length a') (a' ++ y ++ c')) by (rewrite E'; reflexivity).
      rewrite (firstn_app _ a'), Nat.sub_diag, firstn_all in F. cbn in F. rewrite app_nil_r in F. rewrite <- F. unfold zlen in Z1. assert (Z2 : length a' = length (a ++ x)) by lia. rewrite Z2.
      rewrite firstn_app, Nat.sub_diag, firstn_all. cbn. rewrite app_nil_r. reflexivity. }
    subst a'. rewrite <- !app_assoc in E'. rewrite <- app_assoc. rewrite E. exact E'.
Qed.
Lemma has_range enc p bs : has enc p bs -> 0 <= p /\ p + zlen bs <= zlen enc.
Proof. intros (a & c & -> & L). rewrite !zlen_app2. assert (G := zlen_nonneg a). assert (G2 := zlen_nonneg c). lia. Qed.
Lemma has_slice enc p bs : has enc p bs -> slice enc p (zlen bs) = bs.
Proof. intros (a & c & -> & <-). apply slice_mid. reflexivity. Qed.
Lemma has_reads enc p bs n : has enc p bs -> n = zlen bs -> reads enc p n = Ok bs.
Proof. intros H ->. destruct (has_range _ _ _ H). rewrite reads_ok by (assumption || apply zlen_nonneg). rewrite (has_slice _ _ _ H). reflexivity. Qed.
Lemma has_cons enc p b bs : has enc p (b :: bs) -> at_ enc p = Ok b /\ has enc (p + 1) bs.
Proof.
  intros H. change (b :: bs) with ([b] ++ bs) in H. apply has_app in H. destruct H as [H1 H2]. split; [|exact H2]. apply at_intro. destruct H1 as (a & c & -> & <-).
  unfold znth. assert (G := zlen_nonneg a). destruct (Z.ltb_spec (zlen a) 0); [lia|]. unfold zlen. rewrite Nat2Z.id, nth_error_app2, Nat.sub_diag by lia. reflexivity.
Qed.

(* numbers *)
Lemma lor_128 v : 0 <= v -> Z.lor (Z.land v 127) 128 = v mod 128 + 128 /\ is_u8 (v mod 128 + 128).
Proof.
  intros H. rewrite land_127. assert (M := Z.mod_pos_bound v 128 ltac:(lia)). change 128 with (Z.shiftl 1 7) at 2. rewrite lor_shift; [split; [reflexivity|unfold is_u8; change (2 ^ 8) with 256; lia]|lia|exact M].
Qed.
Lemma encode_varint__spec : forall room v, (1 <= room)%nat -> 0 <= v < 2 ^ (7 * Z.of_nat room) -> exists bs, encode_varint_ room v = Ok bs /\ bytes_ok bs /\ 1 <= zlen bs <= Z.of_nat room /\ (1 <= v -> zlen bs <= v) /\
  forall n input size pos shift ret, (room <= n)%nat -> has input pos bs -> pos + zlen bs <= size -> 0 <= shift -> 0 <= ret < 2 ^ shift -> decode_varint_ n input size pos shift ret = Ok (ret + v * 2 ^ shift, pos + zlen bs).
Proof.
  induction room as [|room IH]; intros v R1 V; [lia|]. cbn [encode_varint_]. destruct (Z.ltb_spec 127 v) as [L|L].
  - assert (DM := Z.div_mod v 128 ltac:(lia)). assert (M := Z.mod_pos_bound v 128 ltac:(lia)). change (2 ^ 7) with 128. destruct (IH (v / 128)) as (bs & E & B & LB & LV & D).
    { destruct room; [cbn in V; lia|lia]. }
    { split; [apply Z.div_pos; lia|]. apply Z.div_lt_upper_bound; [lia|]. replace (7 * Z.of_nat (Datatypes.S room)) with (7 + 7 * Z.of_nat room) in V by lia. rewrite Z.pow_add_r in V by lia. change (2 ^ 7) with 128 in V. lia. }
    rewrite E. cbn [bind]. destruct (lor_128 v ltac:(lia)) as [LO UO]. rewrite LO. eexists. split; [reflexivity|]. rewrite zlen_cons2. split; [constructor; assumption|]. split; [lia|].
    assert (V1 : 1 <= v / 128) by (apply Z.div_le_lower_bound; lia). split; [lia|]. intros n input size pos shift ret N H P S R. destruct n as [|n]; [lia|]. cbn [decode_varint_].
    destruct (has_cons _ _ _ _ H) as [A H2]. assert (G := zlen_nonneg bs). destruct (Z.leb_spec size pos); [lia|]. rewrite A. cbn [bind]. cbv zeta. rewrite testbit_7 by exact UO. destruct (Z.leb_spec 128 (v mod 128 + 128)); [|lia].
    rewrite land_127. assert (M2 : (v mod 128 + 128) mod 128 = v mod 128) by (symmetry; apply Z.mod_unique with 1; lia). rewrite M2. rewrite lor_shift by lia. assert (SP : 0 < 2 ^ shift) by (apply Z.pow_pos_nonneg; lia).
    assert (S7 : 2 ^ (shift + 7) = 2 ^ shift * 128) by (rewrite Z.pow_add_r by lia; reflexivity).
    rewrite D; [|lia|exact H2|lia|lia|].
    + f_equal. f_equal; [|lia]. rewrite S7. rewrite DM at 3. ring.
    + rewrite S7. split; [apply Z.add_nonneg_nonneg; [lia|apply Z.mul_nonneg_nonneg; lia]|]. assert (v mod 128 * 2 ^ shift <= 127 * 2 ^ shift) by (apply Z.mul_le_mono_nonneg_r; lia). lia.
  - rewrite land_127, Z.mod_small by lia. exists [v]. split; [reflexivity|]. assert (U : is_u8 v) by (unfold is_u8; change (2 ^ 8) with 256; lia). split; [constructor; [exact U|constructor]|]. change (zlen [v]) with 1. split; [lia|]. split; [lia|].
    intros n input size pos shift ret N H P S R. destruct n as [|n]; [lia|]. cbn [decode_varint_]. destruct (has_cons _ _ _ _ H) as [A _]. destruct (Z.leb_spec size pos); [lia|]. rewrite A. cbn [bind]. cbv zeta.
    rewrite testbit_7 by exact U. destruct (Z.leb_spec 128 v); [lia|]. rewrite land_127, Z.mod_small by lia. rewrite lor_shift by lia. reflexivity.
Qed.
Lemma encode_varint_spec v : 0 <= v <= 2 ^ 32 -> exists bs, encode_varint v = Ok bs /\ bytes_ok bs /\ 1 <= zlen bs <= 5 /\ (1 <= v -> zlen bs <= v) /\
  forall input size pos, has input pos bs -> pos + zlen bs <= size -> decode_varint input size pos = Ok (v, pos + zlen bs).
Proof.
  intros V. destruct (encode_varint__spec 5 v) as (bs & E & B & L & LV & D); [lia|change (2 ^ (7 * Z.of_nat 5)) with 34359738368; change (2 ^ 32) with 4294967296 in V; lia|].
  exists bs. split; [|split; [exact B|]; split; [exact L|]; split; [exact LV|]].
  - unfold encode_varint. clear -E. change 9%nat with (5 + 4)%nat. revert v bs E. generalize 5%nat. induction n as [|n IH]; intros v bs E; [discriminate|]. cbn [Nat.add encode_varint_] in *. destruct (127 <? v); [|exact E].
    destruct (encode_varint_ n (v / 2 ^ 7)) as [r| | |] eqn:K; cbn in E; try discriminate. rewrite (IH _ _ K). exact E.
  - intros input size pos H P. unfold decode_varint. rewrite D; [f_equal; f_equal; ring|lia|exact H|exact P|lia|cbn; lia].
Qed.

Definition plays (r c d o : list Z) : Prop := c <> [] /\ (zlen c <= 3 * zlen o /\ zlen d <= zlen o) /\
  forall enc cend cpos pos, zlen enc < 2 ^ 63 -> cend <= zlen enc -> has enc cpos c -> has enc pos d -> cpos + zlen c <= cend ->
  unpredict_main enc cend cpos pos r = Ok (cpos + zlen c, pos + zlen d, r ++ o).

Lemma w63_64 x : x < 2 ^ 63 -> x < 2 ^ 64.
Proof. change (2 ^ 63) with 9223372036854775808. change (2 ^ 64) with 18446744073709551616. lia. Qed.
Lemma plays_insert r bs n : encode_varint (zlen bs) = Ok n -> 1 <= zlen bs < 2 ^ 32 -> plays r (cmd_insert :: n) bs bs.
Proof.
  intros E L. destruct (encode_varint_spec (zlen bs) ltac:(lia)) as (n' & E' & _ & L2 & L3 & D). rewrite E in E'. injection E' as <-. split; [discriminate|]. rewrite zlen_cons2. split; [lia|].
  intros enc cend cpos pos S C HC HD P. destruct (has_cons _ _ _ _ HC) as [A HN]. unfold unpredict_main. rewrite A. cbn [bind]. cbv zeta. change (cmd_insert =? cmd_insert) with true. cbn iota.
  destruct (has_range _ _ _ HD). rewrite D by (assumption || lia). cbn [bind]. rewrite check_bounds_ok by (lia || apply w63_64; exact S). cbn [bind]. rewrite (has_reads _ _ _ _ HD eq_refl). cbn [bind]. f_equal. f_equal. f_equal. lia.
Qed.
Lemma plays_shuffle2 r bs d n : encode_varint (zlen bs) = Ok n -> 1 <= zlen bs < 2 ^ 32 -> zlen d = zlen bs -> shuffle d 2 = Ok bs -> plays r (cmd_shuffle2 :: n) d bs.
Proof.
  intros E L LD SH. destruct (encode_varint_spec (zlen bs) ltac:(lia)) as (n' & E' & _ & L2 & L3 & D). rewrite E in E'. injection E' as <-. split; [discriminate|]. rewrite zlen_cons2. split; [lia|].
  intros enc cend cpos pos S C HC HD P. destruct (has_cons _ _ _ _ HC) as [A HN]. unfold unpredict_main. rewrite A. cbn [bind]. cbv zeta. change (cmd_shuffle2 =? cmd_insert) with false. change (cmd_shuffle2 =? cmd_shuffle2) with true. cbn iota. cbn [orb].
  destruct (has_range _ _ _ HD). rewrite D by (assumption || lia). cbn [bind]. rewrite check_bounds_ok by (lia || apply w63_64; exact S). cbn [bind]. rewrite (has_reads _ _ _ _ HD) by lia. cbn [bind]. rewrite SH. cbn [bind]. f_equal. f_equal. f_equal; lia.
Qed.
Lemma plays_XYZ r bs : zlen bs = 12 -> plays r [cmd_XYZ] bs (kw "XYZ " ++ repeat 0 4 ++ bs).
Proof.
  intros L. split; [discriminate|]. rewrite !zlen_app2. split; [change (zlen [cmd_XYZ]) with 1; change (zlen (kw "XYZ ")) with 4; change (zlen (repeat 0 4)) with 4; lia|].
  intros enc cend cpos pos S C HC HD P. destruct (has_cons _ _ _ _ HC) as [A HN]. unfold unpredict_main. rewrite A. cbn [bind]. cbv zeta.
  change (cmd_XYZ =? cmd_insert) with false. change (cmd_XYZ =? cmd_shuffle2) with false. change (cmd_XYZ =? cmd_shuffle4) with false. change (cmd_XYZ =? cmd_predict) with false. change (cmd_XYZ =? cmd_XYZ) with true. cbn iota. cbn [orb].
  destruct (has_range _ _ _ HD). rewrite check_bounds_ok by (lia || apply w63_64; exact S). cbn [bind]. rewrite (has_reads _ _ _ _ HD) by lia. cbn [bind]. rewrite L. reflexivity.
Qed.
Lemma plays_type r i t : znth type_strings i = Some t -> plays r [cmd_type_first + i] [] (t ++ repeat 0 4).
Proof.
  intros E. assert (R := znth_some_inv _ _ _ E). change (zlen type_strings) with 8 in R.
  assert (L : zlen t = 4) by (assert (K := kw_types); rewrite Forall_forall in K; apply K; unfold znth in E; destruct (i <? 0); [discriminate|eapply nth_error_In; eassumption]).
  split; [discriminate|]. rewrite zlen_app2, L. change (zlen (repeat 0 4)) with 4. split; [change (zlen [cmd_type_first + i]) with 1; change (zlen (@nil Z)) with 0; lia|].
  intros enc cend cpos pos S C HC HD P. destruct (has_cons _ _ _ _ HC) as [A HN]. unfold unpredict_main. rewrite A. cbn [bind]. cbv zeta. unfold cmd_insert, cmd_shuffle2, cmd_shuffle4, cmd_predict, cmd_XYZ, cmd_type_first.
  destruct (Z.eqb_spec (16 + i) 1); [lia|]. destruct (Z.eqb_spec (16 + i) 2); [lia|]. destruct (Z.eqb_spec (16 + i) 3); [lia|]. destruct (Z.eqb_spec (16 + i) 4); [lia|]. destruct (Z.eqb_spec (16 + i) 10); [lia|]. cbn [orb].
  change (zlen type_strings) with 8. destruct (Z.leb_spec 16 (16 + i)); [|lia]. destruct (Z.ltb_spec (16 + i) (16 + 8)); [|lia]. cbn [andb]. replace (16 + i - 16) with i by lia. rewrite E. change (zlen [16 + i]) with 1. replace (pos + zlen []) with pos by (cbn; lia). reflexivity.
Qed.

(* prediction *)
Lemma pre_step icc p b : 0 <= p -> znth icc p = Some b -> slice icc 0 (p + 1) = slice icc 0 p ++ [b].
Proof. intros P E. rewrite slice_app by lia. f_equal. rewrite Z.add_0_l. rewrite (slice_cons icc p 1 b) by (assumption || lia). reflexivity. Qed.
Lemma w8_back a p : is_u8 a -> w8 (p + w8 (a - p)) = a.
Proof.
  intros U. unfold w8. rewrite Zplus_mod_idemp_r. replace (p + (a - p)) with a by lia. apply Z.mod_small. exact U.
Qed.
Section Predict.
Variables (icc : list Z) (pos stride width order : Z).
Hypothesis B : bytes_ok icc.
Hypothesis BIG : zlen icc < 2 ^ 63.
Hypothesis W : width = 1 \/ width = 2 \/ width = 4.
Hypothesis WS : width <= stride.
Hypothesis SS : stride * 4 < pos.
Definition residual (i : Z) : res Z := let* predicted := linear_predict icc pos i stride width order in let* b := at_ icc (pos + i) in Ok (w8 (b - predicted)).
Lemma residuals_ok n : forall i, 0 <= i -> pos + i + Z.of_nat n <= zlen icc -> exists r, mapr residual (zseq i n) = Ok r /\ zlen r = Z.of_nat n /\
  unpredict_values r pos i stride width order (slice icc 0 (pos + i)) = Ok (slice icc 0 (pos + i + Z.of_nat n)).
Proof.
  induction n as [|n IH]; intros i I L; [exists []; split; [reflexivity|]; split; [reflexivity|]; cbn [unpredict_values]; do 2 f_equal; lia|].
  cbn [zseq mapr]. assert (P64 := w63_64 _ BIG). destruct (linear_safe pos i stride width I W WS SS ltac:(lia) order icc B ltac:(lia)) as (p & E & _). destruct (at_safe icc (pos + i) B ltac:(lia)) as (b & Eb & Zb & Ub).
  unfold residual at 1. rewrite E, Eb. cbn [bind]. destruct (IH (i + 1) ltac:(lia) ltac:(lia)) as (r & Er & Lr & V). rewrite Er. cbn [bind]. eexists. split; [reflexivity|]. split; [rewrite zlen_cons2; lia|].
  cbn [unpredict_values]. rewrite (linear_ext pos i stride width I W WS SS ltac:(lia) order icc); [|intros q Q; rewrite znth_slice by lia; f_equal; lia]. rewrite E. cbn [bind]. rewrite w8_back by exact Ub.
  rewrite <- pre_step by (assumption || lia). replace (pos + i + 1) with (pos + (i + 1)) by lia. rewrite V. do 2 f_equal. lia.
Qed.
Lemma predict_and_shuffle_ok num : 0 <= num -> pos + num <= zlen icc -> exists d r, predict_and_shuffle stride width order num icc pos = Ok (d, pos + num) /\ zlen d = num /\
  (if 1 <? width then shuffle d width else Ok d) = Ok r /\ unpredict_values r pos 0 stride width order (slice icc 0 pos) = Ok (slice icc 0 (pos + num)).
Proof.
  intros N L. unfold predict_and_shuffle. assert (P64 := w63_64 _ BIG). rewrite check_bounds_ok by lia. cbn [bind]. destruct (Z.eqb_spec pos 0); [lia|]. cbn [orb].
  destruct (Z.ltb_spec ((pos - 1) / 4) stride) as [H|_]; [exfalso; assert (stride <= (pos - 1) / 4) by (apply Z.div_le_lower_bound; lia); lia|]. destruct (Z.ltb_spec pos (stride * 4)); [lia|].
  destruct (residuals_ok (Z.to_nat num) 0 ltac:(lia) ltac:(lia)) as (r & E & Lr & V). unfold residual in E. rewrite E. cbn [bind]. rewrite Z.add_0_r in V. rewrite Z2Nat.id in V, Lr by lia. destruct (1 <? width) eqn:E1.
  - destruct (unshuffle_ok r width ltac:(lia)) as (d & Ed & Ld & SH & _). rewrite Ed. cbn [bind]. exists d, r. split; [reflexivity|]. split; [lia|]. split; assumption.
  - cbn [bind]. exists r, r. auto.
Qed.
Lemma add_predict_ok num last1 cmds data : order = 0 \/ order = 1 -> 1 <= num < 2 ^ 32 -> stride < 2 ^ 32 -> pos + num <= zlen icc -> stride = width \/ 10 <= num ->
  exists c d, add_predict icc stride width order num (AState pos last1 cmds data) = Ok (AState (pos + num) last1 (cmds ++ c) (data ++ d)) /\ plays (slice icc 0 pos) c d (slice icc pos num).
Proof.
  intros O N SB L BR. unfold add_predict. cbv zeta. cbn [a_pos a_last1 a_commands a_data]. destruct (predict_and_shuffle_ok num ltac:(lia) L) as (d & r & Ed & Ld & SH & V).
  destruct (encode_varint_spec num ltac:(lia)) as (n & En & _ & Ln & Ln2 & Dn). destruct (encode_varint_spec stride ltac:(lia)) as (s & Es & _ & Ls & _ & Ds).
  set (st := if stride =? width then [] else s). assert (ES : (if stride =? width then Ok [] else encode_varint stride) = Ok st) by (unfold st; destruct (stride =? width); [reflexivity|exact Es]).
  rewrite ES, En. cbn [bind]. rewrite Ed. cbn [bind]. eexists. exists d. split; [reflexivity|]. set (flags := order * 4 + (width - 1) + (if stride =? width then 0 else 16)).
  assert (LS : zlen st <= 5 /\ (stride = width -> zlen st = 0)) by (unfold st; destruct (Z.eqb_spec stride width); [split; [cbn; lia|reflexivity]|split; [lia|contradiction]]).
  assert (GS := zlen_nonneg st). assert (GN := zlen_nonneg n). assert (P64 := w63_64 _ BIG). split; [discriminate|]. cbn [app]. rewrite !zlen_cons2, zlen_app2. rewrite slice_len by lia. split; [lia|].
  intros enc cend cpos dpos S C HC HD P. destruct (has_cons _ _ _ _ HC) as [A HC2]. destruct (has_cons _ _ _ _ HC2) as [A2 HC3]. apply has_app in HC3. destruct HC3 as [H3 H4]. destruct (has_range _ _ _ HD).
  assert (GC := has_range _ _ _ HC).
  unfold unpredict_main. rewrite A. cbn [bind]. cbv zeta. change (cmd_predict =? cmd_insert) with false. change (cmd_predict =? cmd_shuffle2) with false. change (cmd_predict =? cmd_shuffle4) with false. change (cmd_predict =? cmd_predict) with true. cbn iota. cbn [orb].
  rewrite check_bounds_ok by lia. cbn [bind]. rewrite A2. cbn [bind].
  assert (F : Z.land flags 3 + 1 = width /\ Z.land flags 12 / 4 = order /\ Z.testbit flags 4 = negb (stride =? width)).
  { unfold flags. destruct W as [->|[->| ->]]; destruct O as [->| ->]; destruct (stride =? _); vm_compute; auto. }
  destruct F as (F1 & F2 & F3). rewrite F1, F2, F3. destruct (Z.eqb_spec width 3); [lia|]. destruct (Z.eqb_spec order 3); [lia|].
  assert (DS : (if negb (stride =? width) then (let* (stride, cpos) := decode_varint enc cend (cpos + 1 + 1) in if stride <? width then Fail else Ok (stride, cpos)) else Ok (width, cpos + 1 + 1)) = Ok (stride, cpos + 2 + zlen st)).
  { unfold st in *. destruct (Z.eqb_spec stride width) as [->|NE]; cbn [negb]; [f_equal; f_equal; cbn; lia|]. rewrite Ds by (assumption || lia). cbn [bind]. destruct (Z.ltb_spec stride width); [lia|]. f_equal. f_equal. lia. }
  rewrite DS. cbn [bind]. assert (LP : zlen (slice icc 0 pos) = pos) by (apply slice_len; lia). rewrite LP. destruct (Z.eqb_spec pos 0); [lia|]. cbn [orb].
  destruct (Z.ltb_spec ((pos - 1) / 4) stride) as [Hx|_]; [exfalso; assert (stride <= (pos - 1) / 4) by (apply Z.div_le_lower_bound; lia); lia|].
  replace (cpos + 1 + 1 + zlen st) with (cpos + 2 + zlen st) in H4 by lia. rewrite Dn by (assumption || lia). cbn [bind]. rewrite check_bounds_ok by lia. cbn [bind]. rewrite (has_reads _ _ _ _ HD) by lia. cbn [bind]. rewrite SH. cbn [bind]. rewrite V. cbn [bind].
  f_equal. f_equal; [f_equal; lia|]. rewrite slice_app by lia. f_equal.
Qed.
End Predict.

Inductive plays_all : list Z -> list Z -> list Z -> list Z -> Prop :=
| plays_nil r : plays_all r [] [] []
| plays_cons r c d o cs ds os : plays r c d o -> plays_all (r ++ o) cs ds os -> plays_all r (c ++ cs) (d ++ ds) (o ++ os).
Lemma plays_all_app r c1 d1 o1 c2 d2 o2 : plays_all r c1 d1 o1 -> plays_all (r ++ o1) c2 d2 o2 -> plays_all r (c1 ++ c2) (d1 ++ d2) (o1 ++ o2).
Proof.
  intros H. revert c2 d2 o2. induction H as [r|r c d o cs ds os P H IH]; intros c2 d2 o2 K; [rewrite app_nil_r in K; exact K|]. rewrite <- !app_assoc. constructor; [exact P|]. apply IH. rewrite <- app_assoc. exact K.
Qed.
Lemma plays_one r c d o : plays r c d o -> plays_all r c d o.
Proof. intros H. rewrite <- (app_nil_r c), <- (app_nil_r d), <- (app_nil_r o). constructor; [exact H|constructor]. Qed.
Lemma plays_all_len r c d o : plays_all r c d o -> zlen c <= 3 * zlen o /\ zlen d <= zlen o.
Proof. induction 1 as [|r c d o cs ds os P H IH]; [cbn; lia|]. destruct P as (_ & P & _). rewrite !zlen_app2. lia. Qed.
Lemma plays_all_run enc osize : zlen enc < 2 ^ 63 -> forall r c d o, plays_all r c d o -> forall n cend cpos pos, has enc cpos c -> has enc pos d -> cpos + zlen c = cend -> pos + zlen d = zlen enc ->
  zlen r + zlen o = osize -> zlen c <= Z.of_nat n -> unpredict_content n enc osize cend cpos pos r = Ok (r ++ o).
Proof.
  intros S r c d o H. induction H as [r|r c d o cs ds os P H IH]; intros n cend cpos pos HC HD EC ED EO N.
  - rewrite app_nil_r. rewrite zlen_nil2 in *. destruct n; cbn [unpredict_content];
    (destruct (Z.ltb_spec osize (zlen r)); [lia|]); (destruct (Z.ltb_spec cend cpos); [lia|]); (destruct (Z.eqb_spec cpos cend); [|lia]); (destruct (Z.eqb_spec pos (zlen enc)); [|lia]); (destruct (Z.eqb_spec (zlen r) osize); [|lia]); reflexivity.
  - destruct P as (NE & _ & P). apply has_app in HC. destruct HC as [HC1 HC2]. apply has_app in HD. destruct HD as [HD1 HD2]. rewrite !zlen_app2 in *. assert (G1 := zlen_nonneg cs). assert (G2 := zlen_nonneg os). assert (G3 := zlen_nonneg o).
    assert (1 <= zlen c) by (destruct c; [contradiction|]; rewrite zlen_cons2; assert (G := zlen_nonneg c); lia). destruct (has_range _ _ _ HC2). destruct n as [|n]; [lia|]. cbn [unpredict_content].
    destruct (Z.ltb_spec osize (zlen r)); [lia|]. destruct (Z.ltb_spec cend cpos); [lia|]. destruct (Z.eqb_spec cpos cend); [lia|]. rewrite P by (assumption || lia). cbn [bind].
    rewrite app_assoc. apply IH; [assumption|assumption|lia|lia|lia|lia].
Qed.
