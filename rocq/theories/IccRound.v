(* UnpredictICC undoes PredictICC: the main content *)
From Coq Require Import Ascii String.
From Verif Require Import Base OMap IccModel IccSpec IccAux IccShuffle IccSafe IccPlay.
Ltac Zify.zify_post_hook ::= idtac.

Ltac same := cbn [andb]; eexists; split; [reflexivity|assumption].
Section Content.
Variable icc : list Z.
Hypothesis B : bytes_ok icc.
Hypothesis SZ : zlen icc <= size_limit.
Lemma SZ32 : zlen icc < 2 ^ 32. Proof. unfold size_limit in SZ. change ((2 ^ 32 - 1) / 4) with 1073741823 in SZ. change (2 ^ 32) with 4294967296. lia. Qed.
Lemma SZ63 : zlen icc < 2 ^ 63. Proof. assert (H := SZ32). change (2 ^ 32) with 4294967296 in H. change (2 ^ 63) with 9223372036854775808. lia. Qed.

Definition A_inv (lo : Z) (a : astate) : Prop := lo <= a_last1 a /\ a_last1 a <= a_pos a <= zlen icc /\
  plays_all (slice icc 0 (a_last1 a)) (a_commands a) (a_data a) (slice icc (a_last1 a) (a_pos a - a_last1 a)) /\ (a_empty a = true -> a_pos a = lo /\ a_last1 a = lo).
Lemma A_step lo a c d k : 0 <= lo -> A_inv lo a -> plays_all (slice icc 0 (a_pos a)) c d (slice icc (a_pos a) k) -> c <> [] -> 0 <= k -> a_pos a + k <= zlen icc ->
  A_inv lo (AState (a_pos a + k) (a_last1 a) (a_commands a ++ c) (a_data a ++ d)).
Proof.
  intros L0 (L1 & L2 & P & E) Q NE K R. unfold A_inv. cbn [a_pos a_last1 a_commands a_data]. split; [exact L1|]. split; [lia|]. split.
  - replace (a_pos a + k - a_last1 a) with (a_pos a - a_last1 a + k) by lia. rewrite slice_app by lia. replace (a_last1 a + (a_pos a - a_last1 a)) with (a_pos a) by lia.
    apply plays_all_app; [exact P|]. replace (slice icc 0 (a_last1 a) ++ slice icc (a_last1 a) (a_pos a - a_last1 a)) with (slice icc 0 (a_pos a)); [exact Q|].
    replace (a_pos a) with (a_last1 a + (a_pos a - a_last1 a)) at 1 by lia. rewrite slice_app by lia. reflexivity.
  - unfold a_empty. cbn [a_commands a_data]. destruct (a_commands a) as [|x l]; [|discriminate]. destruct c; [contradiction|discriminate].
Qed.
Lemma A_pos_lo lo a : A_inv lo a -> lo <= a_pos a. Proof. intros (L1 & L2 & _). lia. Qed.

Lemma zeros4 p : 0 <= p -> p + 4 <= zlen icc -> all_zero icc p = Ok true -> slice icc p 4 = repeat 0 4.
Proof.
  intros P L. unfold all_zero. rewrite reads_ok by lia. cbn [bind]. intros H. injection H as H. destruct (slice4_ex icc p P L) as (a & b & c & d & E). rewrite E in *. cbn [forallb] in H. rewrite !andb_true_iff, !Z.eqb_eq in H.
  destruct H as (<- & <- & <- & <- & _). reflexivity.
Qed.
Lemma all_zero_safe p : 0 <= p -> p + 4 <= zlen icc -> exists z, all_zero icc p = Ok z.
Proof. intros P L. unfold all_zero. rewrite reads_ok by lia. cbn [bind]. eauto. Qed.
Lemma zero_u32 p : 0 <= p -> p + 4 <= zlen icc -> decode_u32 icc (zlen icc) p = Ok 0 -> slice icc p 4 = repeat 0 4.
Proof. intros P L H. destruct (decode_u32_ok icc p B P L) as (v & E & _ & S). rewrite H in E. injection E as <-. rewrite <- S. reflexivity. Qed.
Lemma slice8 p t : 0 <= p -> slice icc p 4 = t -> slice icc (p + 4) 4 = repeat 0 4 -> slice icc p 8 = t ++ repeat 0 4.
Proof. intros P <- <-. change 8 with (4 + 4). rewrite slice_app by lia. reflexivity. Qed.

Lemma add_mluc_ok lo tag tagsize a : 128 <= lo -> A_inv lo a -> a_pos a + 4 <= zlen icc -> tag = slice icc (a_pos a) 4 -> exists a', add_mluc icc tag tagsize a = Ok a' /\ A_inv lo a' /\ (tag <> kw "mluc" -> a' = a).
Proof.
  intros LO A R T. unfold add_mluc. cbv zeta. assert (AL := A_pos_lo _ _ A). destruct (tag_eq tag (kw "mluc")) eqn:ET; [|exists a; auto]. apply tag_eq_true in ET. cbn [andb].
  destruct (tag_sane tagsize) eqn:TS; [|exists a; auto]. destruct (Z.leb_spec (a_pos a + tagsize) (zlen icc)) as [L|L]; [|exists a; auto]. cbn [andb]. unfold tag_sane in TS. apply andb_true_iff in TS. rewrite !Z.ltb_lt in TS.
  destruct (all_zero_safe (a_pos a + 4) ltac:(lia) ltac:(lia)) as [z Ez]. rewrite Ez. cbn [bind]. destruct z; [|exists a; auto]. assert (Z4 := zeros4 (a_pos a + 4) ltac:(lia) ltac:(lia) Ez). assert (S32 := SZ32).
  set (num := tagsize - 8). assert (LN : zlen (slice icc (a_pos a + 8) num) = num) by (apply slice_len; lia). destruct (encode_varint_spec num ltac:(lia)) as (n & En & _). rewrite En. cbn [bind].
  rewrite reads_ok by lia. cbn [bind]. destruct (unshuffle_ok (slice icc (a_pos a + 8) num) 2 ltac:(lia)) as (d & Ed & Ld & SH & _). rewrite Ed. cbn [bind]. eexists. split; [reflexivity|]. split; [|congruence].
  replace (a_pos a + 8 + num) with (a_pos a + (8 + num)) by lia. apply A_step; [lia|exact A| |discriminate|lia|lia]. rewrite slice_app by lia.
  change ([cmd_type_first + 3; cmd_shuffle2] ++ n) with ([cmd_type_first + 3] ++ (cmd_shuffle2 :: n)). change d with ([] ++ d). apply plays_all_app; apply plays_one.
  - rewrite (slice8 (a_pos a) (kw "mluc")) by (lia || congruence). apply plays_type. reflexivity.
  - apply plays_shuffle2; [rewrite LN; exact En|lia|exact Ld|exact SH].
Qed.
Lemma add_curv_ok lo tag tagsize a : 128 <= lo -> A_inv lo a -> tag = kw "curv" -> slice icc (a_pos a) 4 = tag -> exists a', add_curv icc tag tagsize a = Ok a' /\ A_inv lo a'.
Proof.
  intros LO A ET T. unfold add_curv. cbv zeta. assert (AL := A_pos_lo _ _ A). subst tag. rewrite tag_eq_refl. cbn [andb].
  destruct (tag_sane tagsize) eqn:TS; [|exists a; auto]. destruct (Z.leb_spec (a_pos a + tagsize) (zlen icc)) as [L|L]; [|exists a; auto]. cbn [andb]. unfold tag_sane in TS. apply andb_true_iff in TS. rewrite !Z.ltb_lt in TS.
  destruct (all_zero_safe (a_pos a + 4) ltac:(lia) ltac:(lia)) as [z Ez]. rewrite Ez. cbn [bind]. destruct z; [|exists a; auto]. assert (Z4 := zeros4 (a_pos a + 4) ltac:(lia) ltac:(lia) Ez). assert (S32 := SZ32). cbn [andb].
  destruct (Z.ltb_spec 16 (tagsize - 8)); [|exists a; auto]. cbn [andb]. destruct (_ && _); [|exists a; auto].
  set (num := tagsize - 8) in *. assert (A1 := A_step lo a [cmd_type_first + 5] [] 8 ltac:(lia) A). rewrite app_nil_r in A1.
  assert (A2 : A_inv lo (AState (a_pos a + 8) (a_last1 a) (a_commands a ++ [cmd_type_first + 5]) (a_data a))).
  { apply A1; [|discriminate|lia|lia]. apply plays_one. rewrite (slice8 (a_pos a) (kw "curv")) by (assumption || lia). apply plays_type. reflexivity. }
  destruct (add_predict_ok icc (a_pos a + 8) 2 2 1 B SZ63 ltac:(lia) ltac:(lia) ltac:(lia) num (a_last1 a) (a_commands a ++ [cmd_type_first + 5]) (a_data a)) as (c & d & E & P); [lia|lia|lia|lia|lia|].
  rewrite E. eexists. split; [reflexivity|]. apply (A_step lo _ c d num ltac:(lia) A2); [apply plays_one; exact P|exact (proj1 P)|lia|cbn [a_pos]; lia].
Qed.
Lemma add_curv_other tag tagsize a : tag <> kw "curv" -> add_curv icc tag tagsize a = Ok a.
Proof. intros H. unfold add_curv. destruct (tag_eq tag (kw "curv")) eqn:E; [apply tag_eq_true in E; contradiction|]. reflexivity. Qed.

Lemma w32_range' x : 0 <= w32 x < 2 ^ 32. Proof. apply Z.mod_pos_bound. reflexivity. Qed.
Lemma plays_all_nil p : plays_all (slice icc 0 p) [] [] (slice icc p 0). Proof. rewrite slice_0. constructor. Qed.
Lemma add_subcurv_ok pos : 128 <= pos <= zlen icc -> exists a', add_subcurv icc (AState pos pos [] []) = Ok a' /\ A_inv pos a'.
Proof.
  intros R. assert (A0 : A_inv pos (AState pos pos [] [])) by (unfold A_inv; cbn [a_pos a_last1 a_commands a_data]; split; [lia|]; split; [lia|]; split; [rewrite Z.sub_diag; apply plays_all_nil|auto]).
  unfold add_subcurv. cbv zeta. cbn [a_pos a_last1 a_commands a_data]. destruct (decode_keyword_safe icc pos ltac:(lia)) as (sub & ->). cbn [bind]. destruct (decode_u32_safe icc (zlen icc) (pos + 4) B ltac:(lia) ltac:(lia)) as (z & -> & _). cbn [bind].
  destruct (Z.ltb_spec (pos + 12) (zlen icc)) as [L|L]; [|same]. cbn [andb]. destruct (_ || _); [|same]. destruct (z =? 0); [|same]. cbn [andb].
  destruct (decode_u32_safe icc (zlen icc) (pos + 8) B ltac:(lia) ltac:(lia)) as (n & -> & _). cbn [bind]. assert (W := w32_range' (n * 2)). set (num := w32 (n * 2)) in *. clearbody num.
  destruct (Z.ltb_spec 16 num); [|same]. cbn [andb]. destruct (num <? 2 ^ 28); [|same]. cbn [andb]. destruct (Z.leb_spec (pos + 12 + num) (zlen icc)); [|same].
  destruct (add_predict_ok icc (pos + 12) 2 2 1 B SZ63 ltac:(lia) ltac:(lia) ltac:(lia) num (pos + 12) [] []) as (c & d & E & P); [lia|lia|lia|lia|lia|]. rewrite E. eexists. split; [reflexivity|].
  unfold A_inv. cbn [a_pos a_last1 a_commands a_data app]. split; [lia|]. split; [lia|]. split; [replace (pos + 12 + num - (pos + 12)) with num by lia; apply plays_one; exact P|].
  unfold a_empty. cbn [a_commands a_data]. destruct c; [destruct P as [P _]; contradiction|discriminate].
Qed.
Lemma clut_values_ok numi clutstart num : 0 <= clutstart -> 0 <= num -> exists r, clut_values icc numi clutstart num = Ok r /\ 0 <= r /\ (num = 0 -> r = 0).
Proof.
  intros C. unfold clut_values. assert (G : forall l, Forall (fun i => 0 <= i) l -> forall num, 0 <= num -> exists r, fold_left (fun num i => let* num := num in if clutstart + i <? zlen icc then let* b := at_ icc (clutstart + i) in Ok (w64 (num * b)) else Ok num) l (Ok num) = Ok r /\ 0 <= r /\ (num = 0 -> r = 0)).
  { induction 1 as [|i l I _ IH]; intros k N; [exists k; auto|]. cbn [fold_left bind]. destruct (Z.ltb_spec (clutstart + i) (zlen icc)); [|apply IH; exact N].
    destruct (at_safe icc (clutstart + i) B ltac:(lia)) as (b & -> & _). cbn [bind]. destruct (IH (w64 (k * b))) as (r & E & R & Z0); [apply Z.mod_pos_bound; reflexivity|]. exists r. split; [exact E|]. split; [exact R|]. intros ->. apply Z0. reflexivity. }
  apply G. apply Forall_forall. intros i I. apply zseq_in in I. lia.
Qed.
Lemma add_clut_ok lo tagstart clutstart a : 128 <= lo -> A_inv lo a -> 0 <= tagstart <= a_pos a -> exists a', add_clut icc tagstart clutstart a = Ok a' /\ A_inv lo a'.
Proof.
  intros LO A TS. unfold add_clut. cbv zeta. assert (AL := A_pos_lo _ _ A). destruct (Z.eqb_spec (a_pos a) clutstart) as [<-|_]; [|same]. cbn [andb]. destruct (Z.ltb_spec (a_pos a + 16) (zlen icc)) as [L|L]; [|same].
  destruct (at_safe icc (tagstart + 8) B ltac:(lia)) as (numi & -> & _). destruct (at_safe icc (tagstart + 9) B ltac:(lia)) as (numo & -> & _ & UO). destruct (at_safe icc (a_pos a + 16) B ltac:(lia)) as (width & -> & _ & UW). cbn [bind].
  apply is_u8_lt in UO. apply is_u8_lt in UW. assert (N0 : 0 <= width * numo) by (apply Z.mul_nonneg_nonneg; lia).
  destruct (clut_values_ok numi (a_pos a) (width * numo) ltac:(lia) N0) as (num & -> & R & R0). cbn [bind]. set (stride := width * numo) in *.
  destruct (((width =? 1) || (width =? 2)) && (64 <? num) && (num <? 2 ^ 28) && (a_pos a + num <=? zlen icc) && (stride * 4 <? a_pos a)) eqn:E; [|same].
  rewrite !andb_true_iff, orb_true_iff, !Z.eqb_eq, !Z.ltb_lt, Z.leb_le in E. destruct E as ((((E1 & E2) & E3) & E4) & E5). change (2 ^ 28) with 268435456 in E3.
  assert (W : width <= stride) by (destruct (Z.eq_dec numo 0) as [->|NZ]; [unfold stride in R0; rewrite Z.mul_0_r in R0; lia|unfold stride; assert (width * 1 <= width * numo) by (apply Z.mul_le_mono_nonneg_l; lia); lia]).
  assert (SB : stride < 2 ^ 32) by (unfold stride; change (2 ^ 32) with 4294967296; assert (width * numo <= 255 * 255) by (apply Z.mul_le_mono_nonneg; lia); lia).
  destruct (add_predict_ok icc (a_pos a) stride width 1 B SZ63 ltac:(lia) W E5 num (a_last1 a) (a_commands a) (a_data a)) as (c & d & E & P); [lia|change (2 ^ 32) with 4294967296; lia|exact SB|exact E4|lia|].
  destruct a as [ap al ac ad]. cbn [a_pos a_last1 a_commands a_data] in *. rewrite E. eexists. split; [reflexivity|]. apply (A_step lo (AState ap al ac ad) c d num ltac:(lia) A); [apply plays_one; exact P|exact (proj1 P)|lia|cbn [a_pos]; lia].
Qed.
Lemma add_gbd_ok lo tag tagstart tagsize a : 128 <= lo -> A_inv lo a -> exists a', add_gbd icc tag tagstart tagsize a = Ok a' /\ A_inv lo a'.
Proof.
  intros LO A. unfold add_gbd. cbv zeta. assert (AL := A_pos_lo _ _ A). destruct (_ && _ && _ && _ && _ && _) eqn:E; [|same]. rewrite !andb_true_iff in E. destruct E as (((((E1 & E2) & E3) & E4) & E5) & E6).
  unfold tag_sane in E3. rewrite andb_true_iff, !Z.ltb_lt in E3. rewrite Z.leb_le in E5. assert (S32 := SZ32). assert (SL : size_limit < 2 ^ 32) by reflexivity.
  destruct (add_predict_ok icc (a_pos a) 4 4 0 B SZ63 ltac:(lia) ltac:(lia) ltac:(lia) (tagsize - 8) (a_last1 a) (a_commands a) (a_data a)) as (c & d & E & P); [lia|lia|lia|lia|lia|].
  destruct a as [ap al ac ad]. cbn [a_pos a_last1 a_commands a_data] in *. rewrite E. eexists. split; [reflexivity|]. apply (A_step lo (AState ap al ac ad) c d (tagsize - 8) ltac:(lia) A); [apply plays_one; exact P|exact (proj1 P)|lia|cbn [a_pos]; lia].
Qed.
Lemma add_XYZ_ok lo a : 128 <= lo -> A_inv lo a -> exists a', add_XYZ icc a = Ok a' /\ A_inv lo a'.
Proof.
  intros LO A. unfold add_XYZ. cbv zeta. assert (AL := A_pos_lo _ _ A). destruct (a_empty a); [|same]. cbn [andb]. destruct (Z.leb_spec (a_pos a + 20) (zlen icc)) as [L|L]; [|same].
  rewrite decode_keyword_ok by lia. cbn [bind]. destruct (decode_u32_safe icc (zlen icc) (a_pos a + 4) B ltac:(lia) ltac:(lia)) as (z & Ez & _). rewrite Ez. cbn [bind].
  destruct (tag_eq (slice icc (a_pos a) 4) (kw "XYZ ")) eqn:ET; [|same]. apply tag_eq_true in ET. destruct (Z.eqb_spec z 0) as [->|]; [|same]. cbn [andb]. apply zero_u32 in Ez; [|lia|lia].
  rewrite reads_ok by lia. cbn [bind]. eexists. split; [reflexivity|]. apply A_step; [lia|exact A| |discriminate|lia|lia]. apply plays_one. change 20 with (8 + 12). rewrite slice_app by lia. rewrite (slice8 (a_pos a) _ ltac:(lia) ET Ez), <- app_assoc.
  apply plays_XYZ. apply slice_len; lia.
Qed.
Lemma find_index_ok f : forall l i j, find_index f l i = Some j -> i <= j /\ exists a, znth l (j - i) = Some a /\ f a = true.
Proof.
  induction l as [|a l IH]; intros i j E; [discriminate|]. cbn [find_index] in E. destruct (f a) eqn:F.
  - injection E as <-. split; [lia|]. rewrite Z.sub_diag. exists a. auto.
  - destruct (IH _ _ E) as (L & b & Eb & Fb). split; [lia|]. exists b. rewrite znth_succ by lia. replace (j - i - 1) with (j - (i + 1)) by lia. auto.
Qed.
Lemma add_type_ok lo a : 128 <= lo -> A_inv lo a -> exists a', add_type icc a = Ok a' /\ A_inv lo a'.
Proof.
  intros LO A. unfold add_type. cbv zeta. assert (AL := A_pos_lo _ _ A). destruct (a_empty a); [|same]. cbn [andb]. destruct (Z.leb_spec (a_pos a + 8) (zlen icc)) as [L|L]; [|same].
  destruct (decode_u32_safe icc (zlen icc) (a_pos a + 4) B ltac:(lia) ltac:(lia)) as (z & Ez & _). rewrite Ez. cbn [bind]. destruct (Z.eqb_spec z 0) as [->|]; [|same]. apply zero_u32 in Ez; [|lia|lia].
  rewrite decode_keyword_ok by lia. cbn [bind]. destruct (find_index (tag_eq (slice icc (a_pos a) 4)) type_strings 0) as [i|] eqn:F; [|same]. destruct (find_index_ok _ _ _ _ F) as (_ & t & Et & TE). rewrite Z.sub_0_r in Et. apply tag_eq_true in TE.
  eexists. split; [reflexivity|]. replace (a_data a) with (a_data a ++ []) by apply app_nil_r. apply A_step; [lia|exact A| |discriminate|lia|lia]. apply plays_one. rewrite (slice8 (a_pos a) _ ltac:(lia) TE Ez). apply plays_type. exact Et.
Qed.

Lemma plays_all_no_commands r c d o : plays_all r c d o -> c = [] -> d = [].
Proof. intros H E. destruct H as [|r c d o cs ds os P _]; [reflexivity|]. destruct P as [P _]. apply app_eq_nil in E. destruct E. contradiction. Qed.

Definition is_lut (tag : list Z) : Prop := tag = kw "mAB " \/ tag = kw "mBA ".
Definition M_inv (m : mstate) : Prop := 128 <= m_last0 m <= m_pos m /\ m_last0 m <= zlen icc /\ (zlen icc < m_pos m -> m_last0 m = zlen icc) /\ 0 <= m_tagstart m /\
  ((is_lut (m_tag m) -> m_tagstart m <= m_pos m) \/ (m_tagstart m + m_tagsize m < m_pos m /\ m_tagsize m < size_limit)).
Lemma predict_main_ok tagmap m : Forall (fun e => 0 <= fst e) tagmap -> M_inv m -> m_pos m <= zlen icc -> exists c d m', predict_main icc tagmap m = Ok (c, d, m') /\ M_inv m' /\ m_pos m < m_pos m' /\ m_last0 m <= m_last0 m' /\
  plays_all (slice icc 0 (m_last0 m)) c d (slice icc (m_last0 m) (m_last0 m' - m_last0 m)).
Proof.
  intros TM (I1 & I2 & _ & I3 & I4) R. unfold predict_main. cbv zeta. set (pos := m_pos m) in *. set (a0 := AState pos pos [] []).
  assert (A0 : A_inv pos a0) by (unfold A_inv, a0; cbn [a_pos a_last1 a_commands a_data]; split; [lia|]; split; [lia|]; split; [rewrite Z.sub_diag; apply plays_all_nil|auto]).
  set (tag1 := if (m_tagstart m + m_tagsize m <? pos) && (m_tagsize m <? size_limit) then [0; 0; 0; 0] else m_tag m).
  assert (T1 : is_lut tag1 -> m_tagstart m <= pos).
  { unfold tag1. destruct (Z.ltb_spec (m_tagstart m + m_tagsize m) pos); [destruct (Z.ltb_spec (m_tagsize m) size_limit)|]; cbn [andb]; intros K; [destruct K; discriminate| |]; (destruct I4 as [I4|I4]; [apply I4; exact K|lia]). }
  clearbody tag1.
  assert (ST1 : exists tag tagstart tagsize a, match find (fun e => fst e =? pos) tagmap with
      | Some (tagstart, tagsize) => if pos + 4 <=? zlen icc then let* tag := decode_keyword icc (zlen icc) pos in let* a := add_mluc icc tag tagsize a0 in let* a := add_curv icc tag tagsize a in Ok (tag, tagstart, tagsize, a)
                                    else Ok (tag1, m_tagstart m, m_tagsize m, a0)
      | None => Ok (tag1, m_tagstart m, m_tagsize m, a0) end = Ok (tag, tagstart, tagsize, a) /\ A_inv pos a /\ 0 <= tagstart /\ (is_lut tag -> tagstart <= pos /\ a = a0)).
  { destruct (find (fun e => fst e =? pos) tagmap) as [[ts tz]|] eqn:F; [|exists tag1, (m_tagstart m), (m_tagsize m), a0; split; [reflexivity|]; split; [exact A0|]; split; [lia|]; intros K0; split; [exact (T1 K0)|reflexivity]]. apply find_some in F. destruct F as [F1 F2]. cbn in F2. apply Z.eqb_eq in F2. subst ts.
    destruct (Z.leb_spec (pos + 4) (zlen icc)) as [L|L]; [|exists tag1, (m_tagstart m), (m_tagsize m), a0; split; [reflexivity|]; split; [exact A0|]; split; [lia|]; intros K0; split; [exact (T1 K0)|reflexivity]]. rewrite decode_keyword_ok by lia. cbn [bind].
    destruct (add_mluc_ok pos (slice icc pos 4) tz a0 ltac:(lia) A0 L eq_refl) as (a1 & -> & A1 & N1). cbn [bind]. destruct (list_eq_dec Z.eq_dec (slice icc pos 4) (kw "curv")) as [EC|EC].
    - assert (a1 = a0) by (apply N1; rewrite EC; discriminate). subst a1. destruct (add_curv_ok pos (slice icc pos 4) tz a0 ltac:(lia) A0 EC eq_refl) as (a2 & -> & A2). cbn [bind].
      exists (slice icc pos 4), pos, tz, a2. split; [reflexivity|]. split; [exact A2|]. split; [lia|]. rewrite EC. intros [K|K]; discriminate.
    - rewrite add_curv_other by exact EC. cbn [bind]. exists (slice icc pos 4), pos, tz, a1. split; [reflexivity|]. split; [exact A1|]. split; [lia|]. intros K. split; [lia|]. apply N1. intros E. rewrite E in K. destruct K; discriminate. }
  destruct ST1 as (tag & tagstart & tagsize & a1 & -> & A1 & TS0 & TS1). cbn [bind].
  assert (ST2 : exists clutstart a, (if tag_eq tag (kw "mAB ") || tag_eq tag (kw "mBA ") then let* a := add_subcurv icc a1 in
      let* clutstart := if (a_pos a =? tagstart + 24) && (a_pos a + 4 <? zlen icc) then let* v := decode_u32 icc (zlen icc) (a_pos a) in Ok (tagstart + v) else Ok (m_clutstart m) in
      let* a := add_clut icc tagstart clutstart a in Ok (clutstart, a) else Ok (m_clutstart m, a1)) = Ok (clutstart, a) /\ A_inv pos a).
  { destruct (tag_eq tag (kw "mAB ") || tag_eq tag (kw "mBA ")) eqn:ET; [|eauto]. assert (LT : is_lut tag) by (apply orb_true_iff in ET; destruct ET as [ET|ET]; apply tag_eq_true in ET; [left|right]; exact ET).
    destruct (TS1 LT) as [TS2 ->]. destruct (add_subcurv_ok pos ltac:(lia)) as (a2 & E2 & A2). unfold a0 in *. rewrite E2. cbn [bind]. assert (AL := A_pos_lo _ _ A2).
    assert (CL : exists clutstart, (if (a_pos a2 =? tagstart + 24) && (a_pos a2 + 4 <? zlen icc) then let* v := decode_u32 icc (zlen icc) (a_pos a2) in Ok (tagstart + v) else Ok (m_clutstart m)) = Ok clutstart).
    { destruct ((a_pos a2 =? tagstart + 24) && (a_pos a2 + 4 <? zlen icc)); [|eauto]. destruct (decode_u32_safe icc (zlen icc) (a_pos a2) B ltac:(lia) ltac:(lia)) as (v & -> & _). cbn [bind]. eauto. }
    destruct CL as (cl & ->). cbn [bind]. destruct (add_clut_ok pos tagstart cl a2 ltac:(lia) A2 ltac:(lia)) as (a3 & -> & A3). cbn [bind]. eauto. }
  destruct ST2 as (clutstart & a2 & -> & A2). cbn [bind]. destruct (add_gbd_ok pos tag tagstart tagsize a2 ltac:(lia) A2) as (a3 & -> & A3). cbn [bind].
  destruct (add_XYZ_ok pos a3 ltac:(lia) A3) as (a4 & -> & A4). cbn [bind]. destruct (add_type_ok pos a4 ltac:(lia) A4) as (a & -> & A). cbn [bind]. clear A0 A1 A2 A3 A4.
  destruct A as (A1 & A2 & A3 & A4).
  assert (PR : a_empty a = false -> pos < a_pos a).
  { intros E. assert (A3' := plays_all_len _ _ _ _ A3). rewrite slice_len in A3' by lia. destruct (Z.eq_dec (a_pos a) (a_last1 a)) as [K|K]; [|lia]. exfalso. assert (zlen (a_commands a) <= 0) by lia.
    unfold a_empty in E. destruct (a_commands a) as [|x l]; [|rewrite zlen_cons2 in *; assert (GL := zlen_nonneg l); lia]. rewrite (plays_all_no_commands _ _ _ _ A3 eq_refl) in E. discriminate. }
  assert (TAGI : forall p l0, pos < p -> is_lut (m_tag (MState p tag tagstart tagsize clutstart l0)) -> tagstart <= p) by (intros p l0 P K; cbn in K; destruct (TS1 K); lia).
  destruct (a_empty a) eqn:EA; cbn [negb orb].
  - destruct (A4 eq_refl) as [P1 P2]. rewrite P1, P2 in *. destruct (Z.eqb_spec pos (zlen icc)) as [PE|PE].
    + assert (FL : exists ci di, (if m_last0 m <? pos then let* n := encode_varint (pos - m_last0 m) in let* d := reads icc (m_last0 m) (pos - m_last0 m) in Ok (cmd_insert :: n, d) else Ok ([], [])) = Ok (ci, di) /\ plays_all (slice icc 0 (m_last0 m)) ci di (slice icc (m_last0 m) (pos - m_last0 m))).
      { destruct (Z.ltb_spec (m_last0 m) pos) as [L|L]; [|exists [], []; split; [reflexivity|]; replace (pos - m_last0 m) with 0 by lia; apply plays_all_nil].
        assert (LN : zlen (slice icc (m_last0 m) (pos - m_last0 m)) = pos - m_last0 m) by (apply slice_len; lia). assert (S32 := SZ32). destruct (encode_varint_spec (pos - m_last0 m) ltac:(lia)) as (n & En & _). rewrite En. cbn [bind]. rewrite reads_ok by lia. cbn [bind].
        eexists. eexists. split; [reflexivity|]. apply plays_one. apply plays_insert; [rewrite LN; exact En|lia]. }
      destruct FL as (ci & di & -> & PL). cbn [bind]. unfold a_empty in EA. destruct (a_commands a); [|discriminate]. destruct (a_data a); [|discriminate]. rewrite !app_nil_r. do 3 eexists. split; [reflexivity|]. cbn [m_pos m_last0].
      split; [|split; [lia|split; [lia|exact PL]]]. unfold M_inv. cbn [m_pos m_last0 m_tagstart m_tagsize]. split; [lia|]. split; [lia|]. split; [lia|]. split; [exact TS0|]. left. apply TAGI. lia.
    + do 3 eexists. split; [reflexivity|]. cbn [m_pos m_last0]. rewrite Z.sub_diag. split; [|split; [lia|split; [lia|apply plays_all_nil]]]. unfold M_inv. cbn [m_pos m_last0 m_tagstart m_tagsize]. split; [lia|]. split; [lia|]. split; [lia|]. split; [exact TS0|]. left. apply TAGI. lia.
  - specialize (PR eq_refl). assert (FL : exists ci di, (if m_last0 m <? a_last1 a then let* n := encode_varint (a_last1 a - m_last0 m) in let* d := reads icc (m_last0 m) (a_last1 a - m_last0 m) in Ok (cmd_insert :: n, d) else Ok ([], [])) = Ok (ci, di) /\ plays_all (slice icc 0 (m_last0 m)) ci di (slice icc (m_last0 m) (a_last1 a - m_last0 m))).
    { destruct (Z.ltb_spec (m_last0 m) (a_last1 a)) as [L|L]; [|exists [], []; split; [reflexivity|]; replace (a_last1 a - m_last0 m) with 0 by lia; apply plays_all_nil].
      assert (LN : zlen (slice icc (m_last0 m) (a_last1 a - m_last0 m)) = a_last1 a - m_last0 m) by (apply slice_len; lia). assert (S32 := SZ32). destruct (encode_varint_spec (a_last1 a - m_last0 m) ltac:(lia)) as (n & En & _). rewrite En. cbn [bind]. rewrite reads_ok by lia. cbn [bind].
      eexists. eexists. split; [reflexivity|]. apply plays_one. apply plays_insert; [rewrite LN; exact En|lia]. }
    destruct FL as (ci & di & -> & PL). cbn [bind]. do 3 eexists. split; [reflexivity|]. cbn [m_pos m_last0]. split; [|split; [lia|split; [lia|]]].
    + unfold M_inv. cbn [m_pos m_last0 m_tagstart m_tagsize]. split; [lia|]. split; [lia|]. split; [lia|]. split; [exact TS0|]. left. apply TAGI. lia.
    + replace (a_pos a - m_last0 m) with ((a_last1 a - m_last0 m) + (a_pos a - a_last1 a)) by lia. rewrite slice_app by lia. replace (m_last0 m + (a_last1 a - m_last0 m)) with (a_last1 a) by lia. apply plays_all_app; [exact PL|].
      replace (slice icc 0 (m_last0 m) ++ slice icc (m_last0 m) (a_last1 a - m_last0 m)) with (slice icc 0 (a_last1 a)); [exact A3|]. replace (a_last1 a) with (m_last0 m + (a_last1 a - m_last0 m)) at 1 by lia. rewrite slice_app by lia. reflexivity.
Qed.
Lemma predict_content_ok tagmap : Forall (fun e => 0 <= fst e) tagmap -> forall n m, M_inv m -> zlen icc < m_pos m + Z.of_nat n -> exists c d, predict_content n icc tagmap m = Ok (c, d) /\
  plays_all (slice icc 0 (m_last0 m)) c d (slice icc (m_last0 m) (zlen icc - m_last0 m)).
Proof.
  intros TM. induction n as [|n IH]; intros m M L; cbn [predict_content]; (destruct (Z.ltb_spec (zlen icc) (m_pos m)) as [K|K];
    [exists [], []; split; [reflexivity|]; destruct M as (_ & _ & M & _); rewrite (M K), Z.sub_diag; apply plays_all_nil|]); [lia|].
  destruct (predict_main_ok tagmap m TM M K) as (c & d & m' & -> & M' & P1 & P2 & P3). cbn [bind]. destruct (IH m' M' ltac:(lia)) as (cs & ds & -> & P4). cbn [bind]. do 2 eexists. split; [reflexivity|].
  destruct M as (M1 & M2 & _). destruct M' as (M1' & M2' & _). replace (zlen icc - m_last0 m) with ((m_last0 m' - m_last0 m) + (zlen icc - m_last0 m')) by lia. rewrite slice_app by lia. replace (m_last0 m + (m_last0 m' - m_last0 m)) with (m_last0 m') by lia.
  apply plays_all_app; [exact P3|]. replace (slice icc 0 (m_last0 m) ++ slice icc (m_last0 m) (m_last0 m' - m_last0 m)) with (slice icc 0 (m_last0 m')); [exact P4|]. replace (m_last0 m') with (m_last0 m + (m_last0 m' - m_last0 m)) at 1 by lia. rewrite slice_app by lia. reflexivity.
Qed.
End Content.
