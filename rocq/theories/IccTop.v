(* UnpredictICC undoes PredictICC *)
From Coq Require Import Ascii String.
From Verif Require Import Base OMap IccModel IccSpec IccAux IccShuffle IccSafe IccPlay IccRound.
Ltac Zify.zify_post_hook ::= idtac.

Definition entry (tag : list Z) (start size : Z) : list Z := tag ++ be_bytes start ++ be_bytes size.
Lemma entry_len tag start size : zlen tag = 4 -> zlen (entry tag start size) = 12.
Proof. intros H. unfold entry. rewrite !zlen_app2, !be_bytes_len. lia. Qed.
Lemma command_bits t (o s : bool) : 0 <= t < 64 -> let c := t + (if o then flag_offset else 0) + (if s then flag_size else 0) in Z.land c 63 = t /\ Z.testbit c 6 = o /\ Z.testbit c 7 = s.
Proof.
  intros R. assert (K : forallb (fun t => forallb (fun o : bool => forallb (fun s : bool => let c := t + (if o then flag_offset else 0) + (if s then flag_size else 0) in (Z.land c 63 =? t) && Bool.eqb (Z.testbit c 6) o && Bool.eqb (Z.testbit c 7) s) [true; false]) [true; false]) (zseq 0 64) = true) by (vm_compute; reflexivity).
  rewrite forallb_forall in K. assert (IN : In t (zseq 0 64)) by (apply in_zseq; lia). specialize (K t IN). rewrite forallb_forall in K. specialize (K o ltac:(destruct o; cbn; auto)). rewrite forallb_forall in K. specialize (K s ltac:(destruct s; cbn; auto)).
  cbv zeta in *. rewrite !andb_true_iff, Z.eqb_eq, !Bool.eqb_true_iff in K. tauto.
Qed.

Lemma ok3 (a b a' b' : Z) (c : list Z) : a = a' -> b = b' -> Ok (a, b, c) = Ok (a', b', c). Proof. intros -> ->; reflexivity. Qed.

Section Tags.
Variable icc : list Z.
Hypothesis B : bytes_ok icc.
Hypothesis SZ : zlen icc <= size_limit.
(* an entry with tag rXYZ cannot be followed by entries whose starts wrap *)
Hypothesis NW : forall p v, 0 <= p -> slice icc p 4 = kw "rXYZ" -> slice icc (p + 4) 4 = be_bytes v -> is_u32 v -> v + 40 < 2 ^ 32.

Inductive tag_case (pos : Z) (tag : list Z) (ts tz : Z) : Z -> Z -> list Z -> Prop :=
| case_unknown : tag_case pos tag ts tz 1 (pos + 12) []
| case_known j : 0 <= j < 17 -> znth tag_strings j = Some tag -> tag_case pos tag ts tz (j + 4) (pos + 12) []
| case_TRC : tag = kw "rTRC" -> pos + 36 <= zlen icc -> tag_case pos tag ts tz tag_TRC (pos + 36) (entry (kw "gTRC") ts tz ++ entry (kw "bTRC") ts tz)
| case_XYZ : tag = kw "rXYZ" -> pos + 36 <= zlen icc -> tz = 20 -> ts + 40 < 2 ^ 32 -> tag_case pos tag ts tz tag_XYZ (pos + 36) (entry (kw "gXYZ") (ts + 20) 20 ++ entry (kw "bXYZ") (ts + 40) 20).

Lemma slice_len4 p : 0 <= p -> p + 4 <= zlen icc -> zlen (slice icc p 4) = 4.
Proof. intros. apply slice_len; lia. Qed.
Lemma entry_slice p tag ts tz : 0 <= p -> slice icc p 4 = tag -> slice icc (p + 4) 4 = be_bytes ts -> slice icc (p + 8) 4 = be_bytes tz -> slice icc p 12 = entry tag ts tz.
Proof. intros P E1 E2 E3. unfold entry. rewrite <- E1, <- E2, <- E3. change 12 with (4 + (4 + 4)). rewrite !slice_app by lia. replace (p + 4 + 4) with (p + 8) by lia. reflexivity. Qed.
Lemma slice_24 p a b : 0 <= p -> slice icc p 12 = a -> slice icc (p + 12) 12 = b -> slice icc p 24 = a ++ b.
Proof. intros P <- <-. change 24 with (12 + 12). rewrite slice_app by lia. reflexivity. Qed.
Lemma slice_8_eq p q : 0 <= p -> 0 <= q -> slice icc p 8 = slice icc q 8 -> p + 8 <= zlen icc -> q + 8 <= zlen icc -> slice icc p 4 = slice icc q 4 /\ slice icc (p + 4) 4 = slice icc (q + 4) 4.
Proof.
  intros P Q E LP LQ. change 8 with (4 + 4) in E. rewrite !slice_app in E by lia.
  assert (L : length (slice icc p 4) = length (slice icc q 4)) by (assert (K1 := slice_len icc p 4 P ltac:(lia) ltac:(lia)); assert (K2 := slice_len icc q 4 Q ltac:(lia) ltac:(lia)); unfold zlen in *; lia).
  clear -E L. revert E L. generalize (slice icc p 4) (slice icc q 4) (slice icc (p + 4) 4) (slice icc (q + 4) 4). intros x. induction x as [|a x IH]; intros [|b y] u v E L; cbn in *; try discriminate; [auto|].
  injection E as -> E. destruct (IH y u v E ltac:(lia)) as [-> ->]. auto.
Qed.
Lemma w32_small x : 0 <= x < 2 ^ 32 -> w32 x = x. Proof. apply Z.mod_small. Qed.

Lemma predict_tag_ok pos ps pz : 128 <= pos -> pos + 12 <= zlen icc -> 0 <= ps -> 0 <= pz < 2 ^ 32 ->
  exists c d pos' count ts tz, predict_tag icc pos ps pz = Ok (c, d, pos', count, (ts, tz)) /\ pos + 12 <= pos' <= zlen icc /\ 1 <= zlen c <= 11 /\ zlen d <= 4 /\ 1 <= count /\ 0 <= ts < 2 ^ 32 /\ 0 <= tz < 2 ^ 32 /\
  forall enc cend cpos tpos, zlen enc < 2 ^ 63 -> cend <= zlen enc -> has enc cpos c -> has enc tpos d -> cpos + zlen c <= cend ->
  unpredict_tag enc cend (TState cpos tpos ps pz (slice icc 0 pos)) = Ok (Some (TState (cpos + zlen c) (tpos + zlen d) ts tz (slice icc 0 pos')), cpos + zlen c).
Proof.
  intros P L PS PZ. unfold predict_tag. cbv zeta. rewrite decode_keyword_ok by lia. cbn [bind]. destruct (decode_u32_ok icc (pos + 4) B ltac:(lia) ltac:(lia)) as (ts & -> & UTS & ETS). cbn [bind].
  destruct (decode_u32_ok icc (pos + 8) B ltac:(lia) ltac:(lia)) as (tz & -> & UTZ & ETZ). cbn [bind]. set (tag := slice icc pos 4). assert (LT : zlen tag = 4) by (apply slice_len4; lia).
  assert (LB : exists l, (match find_index (tag_eq tag) tag_strings 0 with Some j => j + tag_string_first | None => tag_unknown end) = l /\ tag_case pos tag ts tz l (pos + 12) []).
  { eexists. split; [reflexivity|]. destruct (find_index (tag_eq tag) tag_strings 0) as [j|] eqn:F; [|apply case_unknown]. destruct (find_index_ok _ _ _ _ F) as (J & t & Et & TE). rewrite Z.sub_0_r in Et. apply tag_eq_true in TE. subst t.
    assert (RJ := znth_some_inv _ _ _ Et). apply case_known; [exact RJ|exact Et]. }
  destruct LB as (l0 & -> & C0).
  assert (S1 : exists code pos1 count more, (if tag_eq tag (kw "rTRC") && (pos + 12 + 24 <? zlen icc) then
      let* g := decode_keyword icc (zlen icc) (pos + 12) in let* b := decode_keyword icc (zlen icc) (pos + 12 + 12) in
      let* r8 := reads icc (pos + 12 - 8) 8 in let* g8 := reads icc (pos + 12 + 4) 8 in let* b8 := reads icc (pos + 12 + 16) 8 in
      if tag_eq g (kw "gTRC") && tag_eq b (kw "bTRC") && tag_eq r8 g8 && tag_eq r8 b8 then Ok (tag_TRC, pos + 12 + 24, 3) else Ok (l0, pos + 12, 1) else Ok (l0, pos + 12, 1)) = Ok (code, pos1, count) /\
      1 <= count /\ tag_case pos tag ts tz code pos1 more /\ (tag = kw "rXYZ" -> code = l0 /\ pos1 = pos + 12) /\ slice icc (pos + 12) (pos1 - pos - 12) = more).
  { assert (DEF : 1 <= 1 /\ tag_case pos tag ts tz l0 (pos + 12) [] /\ (tag = kw "rXYZ" -> l0 = l0 /\ pos + 12 = pos + 12) /\ slice icc (pos + 12) (pos + 12 - pos - 12) = []) by (split; [lia|]; split; [exact C0|]; split; [auto|]; replace (pos + 12 - pos - 12) with 0 by lia; apply slice_0).
    destruct (tag_eq tag (kw "rTRC")) eqn:ET; [|exists l0, (pos + 12), 1, []; split; [reflexivity|exact DEF]]. apply tag_eq_true in ET. cbn [andb]. destruct (Z.ltb_spec (pos + 12 + 24) (zlen icc)) as [L2|L2]; [|exists l0, (pos + 12), 1, []; split; [reflexivity|exact DEF]].
    rewrite !decode_keyword_ok by lia. cbn [bind]. rewrite !reads_ok by lia. cbn [bind]. destruct (_ && _ && _ && _) eqn:E; [|exists l0, (pos + 12), 1, []; split; [reflexivity|exact DEF]].
    rewrite !andb_true_iff in E. destruct E as (((E1 & E2) & E3) & E4). apply tag_eq_true in E1. apply tag_eq_true in E2. apply tag_eq_true in E3. apply tag_eq_true in E4.
    replace (pos + 12 - 8) with (pos + 4) in * by lia. destruct (slice_8_eq (pos + 4) (pos + 12 + 4) ltac:(lia) ltac:(lia) E3 ltac:(lia) ltac:(lia)) as [Q1 Q2]. destruct (slice_8_eq (pos + 4) (pos + 12 + 16) ltac:(lia) ltac:(lia) E4 ltac:(lia) ltac:(lia)) as [Q3 Q4].
    replace (pos + 4 + 4) with (pos + 8) in * by lia. exists tag_TRC, (pos + 12 + 24), 3. eexists. split; [reflexivity|]. split; [lia|]. replace (pos + 12 + 24) with (pos + 36) by lia. split; [apply case_TRC; [exact ET|lia]|].
    split; [rewrite ET; discriminate|]. replace (pos + 36 - pos - 12) with 24 by lia. apply slice_24; [lia| |]; apply entry_slice; try assumption; try lia.
    - rewrite <- Q1. congruence.
    - replace (pos + 12 + 8) with (pos + 12 + 4 + 4) by lia. rewrite <- Q2. congruence.
    - replace (pos + 12 + 12 + 4) with (pos + 12 + 16) by lia. rewrite <- Q3. congruence.
    - replace (pos + 12 + 12 + 8) with (pos + 12 + 16 + 4) by lia. rewrite <- Q4. congruence. }
  destruct S1 as (code1 & pos1 & count1 & more1 & -> & N1 & C1 & X1 & M1). cbn [bind].
  assert (S2 : exists code pos2 count more, (if tag_eq tag (kw "rXYZ") && (pos1 + 24 <? zlen icc) then
      let* g := decode_keyword icc (zlen icc) pos1 in let* b := decode_keyword icc (zlen icc) (pos1 + 12) in
      let* offsetg := decode_u32 icc (zlen icc) (pos1 + 4) in let* offsetb := decode_u32 icc (zlen icc) (pos1 + 16) in
      let* sizeg := decode_u32 icc (zlen icc) (pos1 + 8) in let* sizeb := decode_u32 icc (zlen icc) (pos1 + 20) in
      if tag_eq g (kw "gXYZ") && tag_eq b (kw "bXYZ") && (tz =? 20) && (sizeg =? 20) && (sizeb =? 20) && (offsetg =? w32 (ts + 20)) && (offsetb =? w32 (ts + 40))
      then Ok (tag_XYZ, pos1 + 24, 3) else Ok (code1, pos1, count1) else Ok (code1, pos1, count1)) = Ok (code, pos2, count) /\
      1 <= count /\ tag_case pos tag ts tz code pos2 more /\ slice icc (pos + 12) (pos2 - pos - 12) = more).
  { assert (DEF : 1 <= count1 /\ tag_case pos tag ts tz code1 pos1 more1 /\ slice icc (pos + 12) (pos1 - pos - 12) = more1) by auto.
    destruct (tag_eq tag (kw "rXYZ")) eqn:ET; [|exists code1, pos1, count1, more1; split; [reflexivity|exact DEF]]. apply tag_eq_true in ET. cbn [andb]. destruct (X1 ET) as [-> ->].
    destruct (Z.ltb_spec (pos + 12 + 24) (zlen icc)) as [L2|L2]; [|exists l0, (pos + 12), count1, more1; split; [reflexivity|exact DEF]]. rewrite !decode_keyword_ok by lia. cbn [bind].
    destruct (decode_u32_ok icc (pos + 12 + 4) B ltac:(lia) ltac:(lia)) as (og & -> & _ & Eog). destruct (decode_u32_ok icc (pos + 12 + 16) B ltac:(lia) ltac:(lia)) as (ob & -> & _ & Eob).
    destruct (decode_u32_ok icc (pos + 12 + 8) B ltac:(lia) ltac:(lia)) as (sg & -> & _ & Esg). destruct (decode_u32_ok icc (pos + 12 + 20) B ltac:(lia) ltac:(lia)) as (sb & -> & _ & Esb). cbn [bind].
    destruct (_ && _ && _ && _ && _ && _ && _) eqn:E; [|exists l0, (pos + 12), count1, more1; split; [reflexivity|exact DEF]].
    rewrite !andb_true_iff, !Z.eqb_eq in E. destruct E as ((((((E1 & E2) & E3) & E4) & E5) & E6) & E7). apply tag_eq_true in E1. apply tag_eq_true in E2. subst tz sg sb.
    assert (W := NW pos ts ltac:(lia) ET (eq_sym ETS) UTS). unfold is_u32 in UTS. rewrite w32_small in E6, E7 by lia. subst og ob.
    exists tag_XYZ, (pos + 12 + 24), 3. eexists. split; [reflexivity|]. split; [lia|]. replace (pos + 12 + 24) with (pos + 36) by lia. split; [apply case_XYZ; [exact ET|lia|reflexivity|exact W]|].
    replace (pos + 36 - pos - 12) with 24 by lia. apply slice_24; [lia| |]; apply entry_slice; try assumption; try lia; try (symmetry; assumption).
    - replace (pos + 12 + 12 + 4) with (pos + 12 + 16) by lia. symmetry; assumption.
    - replace (pos + 12 + 12 + 8) with (pos + 12 + 20) by lia. symmetry; assumption. }
  clear C0 N1 C1 X1 M1. destruct S2 as (code & pos2 & count & more & -> & N2 & C2 & M2). cbn [bind].
  set (off := negb (ps + pz =? ts)). set (siz := negb ((if has_size_20 tag then 20 else pz) =? tz)). unfold is_u32 in UTS, UTZ.
  destruct (encode_varint_spec ts ltac:(lia)) as (c1 & Ec1 & _ & Lc1 & _ & D1). destruct (encode_varint_spec tz ltac:(lia)) as (c2 & Ec2 & _ & Lc2 & _ & D2).
  set (v1 := if off then c1 else []). set (v2 := if siz then c2 else []).
  assert (EV1 : (if off then encode_varint ts else Ok []) = Ok v1) by (unfold v1; destruct off; [exact Ec1|reflexivity]). assert (EV2 : (if siz then encode_varint tz else Ok []) = Ok v2) by (unfold v2; destruct siz; [exact Ec2|reflexivity]).
  rewrite EV1, EV2. cbn [bind]. assert (G1 := zlen_nonneg v1). assert (G2 := zlen_nonneg v2).
  assert (LV : zlen v1 <= 5 /\ zlen v2 <= 5) by (unfold v1, v2; destruct off, siz; change (zlen (@nil Z)) with 0; lia).
  assert (CR : 0 <= code < 64) by (inversion C2; subst; unfold tag_TRC, tag_XYZ; lia).
  exists (code + (if off then flag_offset else 0) + (if siz then flag_size else 0) :: v1 ++ v2), (if code =? 1 then tag else []), pos2, count, ts, tz. split; [reflexivity|].
  assert (PR : pos + 12 <= pos2 <= zlen icc) by (inversion C2; subst; lia). split; [exact PR|]. rewrite zlen_cons2, zlen_app2. split; [lia|]. split; [destruct (code =? 1); [lia|change (zlen (@nil Z)) with 0; lia]|]. split; [exact N2|]. split; [exact UTS|]. split; [exact UTZ|].
  intros enc cend cpos tpos S C HC HD PC. destruct (has_cons _ _ _ _ HC) as [A H2]. apply has_app in H2. destruct H2 as [H2 H3]. destruct (has_range _ _ _ HD) as [R1 R2]. assert (RC := has_range _ _ _ HC).
  unfold unpredict_tag. cbn [t_cpos t_pos t_start t_size t_result]. rewrite A. cbn [bind]. cbv zeta. destruct (command_bits code off siz CR) as (K1 & K2 & K3). cbv zeta in K1, K2, K3. rewrite K1, K2, K3.
  assert (NZ : (code =? 0) = false) by (apply Z.eqb_neq; inversion C2; subst; unfold tag_TRC, tag_XYZ; lia). rewrite NZ.
  assert (TG : (if code =? tag_unknown then let* _ := check_bounds tpos 4 (zlen enc) in let* tag := decode_keyword enc (zlen enc) tpos in Ok (tag, tpos + 4)
      else if code =? tag_TRC then Ok (kw "rTRC", tpos) else if code =? tag_XYZ then Ok (kw "rXYZ", tpos) else match znth tag_strings (code - tag_string_first) with Some tag => Ok (tag, tpos) | None => Fail end)
      = Ok (tag, tpos + zlen (if code =? 1 then tag else []))).
  { destruct C2 as [|j J EJ|ET _|ET _ _ _].
    - change (1 =? tag_unknown) with true. change (1 =? 1) with true in *. cbn iota in *. rewrite check_bounds_ok by (lia || apply w63_64; exact S). cbn [bind]. unfold decode_keyword. destruct (Z.ltb_spec (zlen enc) (tpos + 4)); [lia|].
      rewrite (has_reads _ _ _ _ HD) by lia. cbn [bind]. rewrite LT. reflexivity.
    - unfold tag_unknown, tag_TRC, tag_XYZ, tag_string_first. destruct (Z.eqb_spec (j + 4) 1); [lia|]. destruct (Z.eqb_spec (j + 4) 2); [lia|]. destruct (Z.eqb_spec (j + 4) 3); [lia|]. replace (j + 4 - 4) with j by lia. rewrite EJ. change (zlen (@nil Z)) with 0. rewrite Z.add_0_r. reflexivity.
    - rewrite ET. change (zlen (if tag_TRC =? 1 then kw "rTRC" else [])) with 0. rewrite Z.add_0_r. reflexivity.
    - rewrite ET. change (zlen (if tag_XYZ =? 1 then kw "rXYZ" else [])) with 0. rewrite Z.add_0_r. reflexivity. }
  rewrite TG. cbn [bind].
  assert (TO : (if off then decode_varint enc cend (cpos + 1) else let* _ := check_32 ps in Ok (ps + pz, cpos + 1)) = Ok (ts, cpos + 1 + zlen v1)).
  { unfold v1 in *. destruct off eqn:EO; [apply D1; [exact H2|lia]|]. unfold off in EO. apply negb_false_iff, Z.eqb_eq in EO. rewrite check_32_ok by lia. cbn [bind]. change (zlen (@nil Z)) with 0. do 2 f_equal; [exact EO|lia]. }
  rewrite TO. cbn [bind]. rewrite check_32_ok by lia. cbn [bind].
  assert (TZ : (if siz then decode_varint enc cend (cpos + 1 + zlen v1) else Ok (if has_size_20 tag then 20 else pz, cpos + 1 + zlen v1)) = Ok (tz, cpos + 1 + zlen v1 + zlen v2)).
  { unfold v2 in *. destruct siz eqn:EO; [apply D2; [exact H3|lia]|]. unfold siz in EO. apply negb_false_iff, Z.eqb_eq in EO. change (zlen (@nil Z)) with 0. do 2 f_equal; [exact EO|lia]. }
  rewrite TZ. cbn [bind]. rewrite check_32_ok by lia. cbn [bind].
  assert (TM : (if code =? tag_TRC then Ok ((kw "gTRC" ++ be_bytes ts ++ be_bytes tz) ++ kw "bTRC" ++ be_bytes ts ++ be_bytes tz)
      else if code =? tag_XYZ then let* _ := check_32 (ts + tz * 2) in Ok ((kw "gXYZ" ++ be_bytes (ts + tz) ++ be_bytes tz) ++ kw "bXYZ" ++ be_bytes (ts + tz * 2) ++ be_bytes tz) else Ok []) = Ok more).
  { destruct C2 as [|j J EJ|ET _|ET _ E20 EW].
    - reflexivity.
    - unfold tag_TRC, tag_XYZ. destruct (Z.eqb_spec (j + 4) 2); [lia|]. destruct (Z.eqb_spec (j + 4) 3); [lia|]. reflexivity.
    - reflexivity.
    - change (tag_XYZ =? tag_TRC) with false. change (tag_XYZ =? tag_XYZ) with true. cbn iota. rewrite E20. rewrite check_32_ok by lia. cbn [bind]. change (20 * 2) with 40. reflexivity. }
  rewrite TM. cbn [bind]. assert (RES : slice icc 0 pos ++ (tag ++ be_bytes ts ++ be_bytes tz) ++ more = slice icc 0 pos2).
  { change (tag ++ be_bytes ts ++ be_bytes tz) with (entry tag ts tz). rewrite <- (entry_slice pos tag ts tz) by (lia || reflexivity || congruence). rewrite <- M2. replace pos2 with (pos + (12 + (pos2 - pos - 12))) at 2 by lia. rewrite !slice_app by lia. reflexivity. }
  rewrite RES. replace (cpos + 1 + zlen v1 + zlen v2) with (cpos + (zlen v1 + zlen v2 + 1)) by lia. reflexivity.
Qed.

Lemma predict_tags_ok : forall n left pos ps pz tagmap, 128 <= pos <= zlen icc -> zlen icc < pos + Z.of_nat n + 12 -> 0 <= ps -> 0 <= pz < 2 ^ 32 -> Forall (fun e => 0 <= fst e) tagmap ->
  exists cs ds pos' tagmap', predict_tags n icc left pos ps pz tagmap = Ok (cs, ds, pos', tagmap') /\ pos <= pos' <= zlen icc /\ Forall (fun e => 0 <= fst e) tagmap' /\ zlen cs <= pos' - pos /\ zlen ds <= pos' - pos /\
  forall m enc cend cpos tpos, zlen enc < 2 ^ 63 -> cend <= zlen enc -> has enc cpos (cs ++ [0]) -> has enc tpos ds -> cpos + zlen cs + 1 <= cend -> zlen cs < Z.of_nat m ->
  unpredict_tags m enc (zlen icc) cend (TState cpos tpos ps pz (slice icc 0 pos)) = Ok (cpos + zlen cs + 1, tpos + zlen ds, slice icc 0 pos').
Proof.
  induction n as [|n IH]; intros left pos ps pz tagmap P F PS PZ TM; cbn [predict_tags].
  - assert (E : (left <=? 0) || (zlen icc <? pos + 12) = true) by (apply orb_true_iff; right; apply Z.ltb_lt; lia). rewrite E. exists [], [], pos, tagmap. split; [reflexivity|]. split; [lia|]. split; [exact TM|]. change (zlen (@nil Z)) with 0. split; [lia|]. split; [lia|].
    intros m enc cend cpos tpos S C HC HD R M. destruct m as [|m]; [lia|]. cbn [unpredict_tags t_result t_cpos t_pos]. rewrite slice_len by lia. destruct (Z.ltb_spec (zlen icc) pos); [lia|]. destruct (Z.ltb_spec cend cpos); [lia|]. destruct (Z.eqb_spec cpos cend); [lia|].
    cbn [app] in HC. destruct (has_cons _ _ _ _ HC) as [A _]. unfold unpredict_tag. cbn [t_cpos]. rewrite A. cbn [bind]. change (Z.land 0 63 =? 0) with true. cbn. rewrite !Z.add_0_r. reflexivity.
  - destruct ((left <=? 0) || (zlen icc <? pos + 12)) eqn:E.
    + exists [], [], pos, tagmap. split; [reflexivity|]. split; [lia|]. split; [exact TM|]. change (zlen (@nil Z)) with 0. split; [lia|]. split; [lia|].
      intros m enc cend cpos tpos S C HC HD R M. destruct m as [|m]; [lia|]. cbn [unpredict_tags t_result t_cpos t_pos]. rewrite slice_len by lia. destruct (Z.ltb_spec (zlen icc) pos); [lia|]. destruct (Z.ltb_spec cend cpos); [lia|]. destruct (Z.eqb_spec cpos cend); [lia|].
      cbn [app] in HC. destruct (has_cons _ _ _ _ HC) as [A _]. unfold unpredict_tag. cbn [t_cpos]. rewrite A. cbn [bind]. change (Z.land 0 63 =? 0) with true. cbn. rewrite !Z.add_0_r. reflexivity.
    + apply orb_false_iff in E. destruct E as [_ E]. apply Z.ltb_ge in E. destruct (predict_tag_ok pos ps pz ltac:(lia) E PS PZ) as (c & d & pos1 & count & ts & tz & -> & P1 & LC & LD & _ & TS & TZ & D). cbn [bind].
      destruct (IH (left - count) pos1 ts tz ((ts, tz) :: tagmap) ltac:(lia) ltac:(lia) ltac:(lia) TZ) as (cs & ds & pos' & tagmap' & -> & P2 & TM2 & LCS & LDS & D2); [constructor; [cbn; lia|exact TM]|]. cbn [bind].
      exists (c ++ cs), (d ++ ds), pos', tagmap'. split; [reflexivity|]. split; [lia|]. split; [exact TM2|]. rewrite !zlen_app2. split; [lia|]. split; [lia|].
      intros m enc cend cpos tpos S C HC HD R M. rewrite <- app_assoc in HC. apply has_app in HC. destruct HC as [HC1 HC2]. apply has_app in HD. destruct HD as [HD1 HD2]. assert (G := zlen_nonneg cs). destruct m as [|m]; [lia|].
      cbn [unpredict_tags t_result t_cpos]. rewrite slice_len by lia. destruct (Z.ltb_spec (zlen icc) pos); [lia|]. destruct (Z.ltb_spec cend cpos); [lia|]. destruct (Z.eqb_spec cpos cend); [lia|].
      rewrite D by (assumption || lia). cbn [bind]. rewrite D2 by (assumption || lia). apply ok3; lia.
Qed.
End Tags.

Lemma predict_header_prefix icc i h : bytes_ok icc -> 0 <= i < zlen icc -> predict_header (slice icc 0 i) (zlen (slice icc 0 i)) h i = predict_header icc (zlen icc) h i.
Proof.
  intros B R. rewrite slice_len by lia. assert (AT : forall q, 0 <= q < i -> at_ (slice icc 0 i) q = at_ icc q) by (intros q Q; unfold at_; rewrite znth_slice by lia; reflexivity). unfold predict_header.
  destruct (Z.eqb_spec i 8) as [->|N1]; cbn [andb].
  - destruct (Z.leb_spec 8 8); [|lia]. destruct (Z.leb_spec 8 (zlen icc)); [|lia]. rewrite !reads_ok by (rewrite ?slice_len; lia). cbn [bind]. do 2 f_equal. unfold slice. change (Z.to_nat 0) with O. rewrite (skipn_O icc). rewrite skipn_firstn_comm, firstn_firstn. reflexivity.
  - destruct (Z.eqb_spec i 41) as [->|N2]; cbn [andb].
    + destruct (Z.leb_spec 41 41); [|lia]. destruct (Z.leb_spec 41 (zlen icc)); [|lia]. rewrite AT by lia. reflexivity.
    + destruct (Z.eqb_spec i 42) as [->|N3]; cbn [andb]; [|reflexivity]. destruct (Z.leb_spec 42 42); [|lia]. destruct (Z.leb_spec 42 (zlen icc)); [|lia]. rewrite !AT by lia. reflexivity.
Qed.
Lemma predict_headers_ok icc : bytes_ok icc -> forall n i header, (n <= 128)%nat -> i = 128 - Z.of_nat n -> i <= zlen icc -> zlen header = 128 ->
  exists hs, predict_headers n icc i header = Ok hs /\ zlen hs = Z.min 128 (zlen icc) - i /\
  forall enc cpos cend pos, has enc pos hs -> (zlen icc <= 128 -> cpos = cend /\ pos + zlen hs = zlen enc) ->
  unpredict_header n enc (zlen icc) cpos cend i pos header (slice icc 0 i) = if zlen icc <=? 128 then Ok (Some icc, pos + zlen hs, icc) else Ok (None, pos + zlen hs, slice icc 0 128).
Proof.
  intros B. induction n as [|n IH]; intros i header N I L H; cbn [predict_headers].
  - exists []. split; [reflexivity|]. change (zlen (@nil Z)) with 0. split; [lia|]. intros enc cpos cend pos HP E. cbn [unpredict_header]. rewrite slice_len by lia. replace i with 128 in * by lia. rewrite Z.add_0_r in *.
    destruct (Z.leb_spec (zlen icc) 128) as [K|K].
    + destruct (E K) as [-> E2]. destruct (Z.eqb_spec 128 (zlen icc)) as [K2|]; [|lia]. rewrite Z.eqb_refl. cbn [negb]. rewrite E2, Z.eqb_refl. cbn [negb]. rewrite K2, slice_all. reflexivity.
    + destruct (Z.eqb_spec 128 (zlen icc)); [lia|]. reflexivity.
  - destruct (Z.ltb_spec i (zlen icc)) as [K|K].
    + destruct (predict_header_safe icc (zlen icc) header i B ltac:(lia) H) as (h & Eh & Lh). rewrite Eh. cbn [bind]. destruct (at_safe icc i B ltac:(lia)) as (b & Eb & Zb & Ub). rewrite Eb. cbn [bind]. destruct (znth_ex h i ltac:(lia)) as (v & Ev). rewrite (at_intro _ _ _ Ev). cbn [bind].
      destruct (IH (i + 1) h ltac:(lia) ltac:(lia) ltac:(lia) Lh) as (hs & Ehs & Lhs & D). rewrite Ehs. cbn [bind]. eexists. split; [reflexivity|]. rewrite zlen_cons2. split; [lia|]. intros enc cpos cend pos HP E. destruct (has_cons _ _ _ _ HP) as [A HP2].
      cbn [unpredict_header]. assert (LS : zlen (slice icc 0 i) = i) by (apply slice_len; lia). assert (PH := predict_header_prefix icc i header B ltac:(lia)). rewrite LS in *. destruct (Z.eqb_spec i (zlen icc)); [lia|]. rewrite PH, Eh. cbn [bind].
      destruct (has_range _ _ _ HP) as [R1 R2]. rewrite zlen_cons2 in R2. assert (G := zlen_nonneg hs). destruct (Z.leb_spec (zlen enc) pos); [lia|]. rewrite A. cbn [bind]. rewrite (at_intro _ _ _ Ev). cbn [bind].
      rewrite (Z.add_comm (w8 (b - v)) v), w8_back by exact Ub. rewrite <- pre_step by (assumption || lia). rewrite D; [|exact HP2|intros Q; destruct (E Q); split; [assumption|lia]]. replace (pos + 1 + zlen hs) with (pos + (zlen hs + 1)) by lia. reflexivity.
    + exists []. split; [reflexivity|]. change (zlen (@nil Z)) with 0. split; [lia|]. intros enc cpos cend pos HP E. cbn [unpredict_header]. replace i with (zlen icc) in * by lia. rewrite slice_all, Z.eqb_refl. rewrite Z.add_0_r in *.
      destruct (Z.leb_spec (zlen icc) 128) as [Q|Q]; [|lia]. destruct (E Q) as [-> E2]. rewrite Z.eqb_refl. cbn [negb]. rewrite E2, Z.eqb_refl. reflexivity.
Qed.

Lemma has_whole a b c : has (a ++ b ++ c) (zlen a) b. Proof. exists a, c. auto. Qed.
Lemma length_zlen (l : list Z) : Z.of_nat (List.length l) = zlen l. Proof. reflexivity. Qed.

Lemma has_front a c : has (a ++ c) 0 a. Proof. exists [], c. auto. Qed.
Lemma firstn_zlen (l : list Z) n : Z.of_nat n <= zlen l -> zlen (firstn n l) = Z.of_nat n.
Proof. intros H. unfold zlen in *. rewrite firstn_length. lia. Qed.
Lemma repeat_zlen (x : Z) n : zlen (repeat x n) = Z.of_nat n.
Proof. unfold zlen. rewrite repeat_length. reflexivity. Qed.
Lemma reader_ok enc osize csize v c rest : enc = v ++ c ++ rest -> zlen v <= 5 -> zlen c <= 5 ->
  (forall input size pos, has input pos v -> pos + zlen v <= size -> decode_varint input size pos = Ok (osize, pos + zlen v)) ->
  (forall input size pos, has input pos c -> pos + zlen c <= size -> decode_varint input size pos = Ok (csize, pos + zlen c)) ->
  0 <= csize <= 1014 -> csize <= zlen rest -> osize <= 2 ^ 28 -> zlen enc <= osize + 65536 -> init_reader enc = Ok tt.
Proof.
  intros E Lv Lc Dv Dc C1 C2 O1 O2. unfold init_reader. destruct (Z.ltb_spec 20 (zlen enc)) as [L|L]; [|reflexivity]. unfold check_preamble. cbv zeta.
  assert (GV := zlen_nonneg v). assert (GC := zlen_nonneg c). assert (LE : zlen enc = zlen v + zlen c + zlen rest) by (rewrite E, !zlen_app2; lia).
  assert (F : firstn 20 enc = v ++ c ++ firstn (20 - length v - length c) rest).
  { rewrite E, !firstn_app. unfold zlen in Lv, Lc. rewrite (firstn_all2 v) by lia. rewrite (firstn_all2 c) by lia. reflexivity. }
  rewrite F. set (data := (v ++ c ++ firstn (20 - length v - length c) rest) ++ repeat 0 (Z.to_nat (Z.min 1024 (zlen enc) - 20))).
  assert (LD : zlen data = Z.min 1024 (zlen enc)).
  { unfold data. rewrite <- F. rewrite zlen_app2, repeat_zlen, firstn_zlen by (change (Z.of_nat 20) with 20; lia). change (Z.of_nat 20) with 20. lia. }
  assert (H1 : has data 0 v) by (unfold data; rewrite <- !app_assoc; apply has_front). assert (H2 : has data (zlen v) c) by (unfold data; rewrite <- !app_assoc; apply has_whole). rewrite LD.
  change (2 ^ 28) with 268435456 in *. rewrite (Dv data _ 0 H1) by lia. cbn [bind]. rewrite check_32_ok by (change (2 ^ 32) with 4294967296; lia). cbn [bind]. rewrite Z.add_0_l. rewrite (Dc data _ _ H2) by lia. cbn [bind]. rewrite check_32_ok by (change (2 ^ 32) with 4294967296; lia). cbn [bind].
  rewrite check_bounds_ok by (change (2 ^ 64) with 18446744073709551616; lia). cbn [bind]. destruct (Z.ltb_spec (osize + 65536) (zlen enc)); [lia|]. destruct (Z.ltb_spec 268435456 osize); [lia|]. reflexivity.
Qed.

Section Whole.
Variable icc : list Z.
Hypothesis B : bytes_ok icc.

Lemma predict_short tag0 : zlen icc <= 128 -> exists enc, predict tag0 icc = Ok enc /\ unpredict enc = Ok icc /\ (zlen icc <= 464 -> init_reader enc = Ok tt).
Proof.
  intros L. assert (G := zlen_nonneg icc). unfold predict. cbv zeta. destruct (Z.ltb_spec size_limit (zlen icc)) as [K|_]; [unfold size_limit in K; change ((2 ^ 32 - 1) / 4) with 1073741823 in K; lia|].
  destruct (encode_varint_spec (zlen icc)) as (v & -> & _ & Lv & _ & Dv); [change (2 ^ 32) with 4294967296; lia|]. cbn [bind].
  destruct (predict_headers_ok icc B 128 0 (initial_header (zlen icc)) ltac:(lia) ltac:(lia) ltac:(lia) (initial_header_len _)) as (hs & -> & Lh & Dh). cbn [bind]. unfold header_size. destruct (Z.leb_spec (zlen icc) 128); [|lia].
  destruct (encode_varint_spec 0) as (z & -> & _ & Lz & _ & Dz); [change (2 ^ 32) with 4294967296; lia|]. cbn [bind]. eexists. split; [reflexivity|]. set (enc := v ++ z ++ hs). assert (LE : zlen enc = zlen v + zlen z + zlen hs) by (unfold enc; rewrite !zlen_app2; lia).
  assert (S64 : zlen enc < 2 ^ 64) by (change (2 ^ 64) with 18446744073709551616; lia).
  split; [|intros _; apply (reader_ok enc (zlen icc) 0 v z hs); (reflexivity || assumption || (change (2 ^ 28) with 268435456; lia) || lia)].
  unfold unpredict. cbv zeta. rewrite (Dv enc (zlen enc) 0 (has_front v (z ++ hs)) ltac:(lia)). cbn [bind]. rewrite check_32_ok by (change (2 ^ 32) with 4294967296; lia). cbn [bind]. rewrite Z.add_0_l.
  rewrite (Dz enc (zlen enc) (zlen v)) by (apply has_whole || lia). cbn [bind]. rewrite check_32_ok by (change (2 ^ 32) with 4294967296; lia). cbn [bind]. rewrite check_bounds_ok by lia. cbn [bind].
  assert (HH : has enc (zlen v + zlen z + 0) hs) by (exists (v ++ z), []; unfold enc; rewrite app_nil_r, <- app_assoc, zlen_app2; split; [reflexivity|lia]).
  change [] with (slice icc 0 0) at 1. rewrite (Dh enc (zlen v + zlen z) (zlen v + zlen z + 0) (zlen v + zlen z + 0) HH) by (intros _; lia). destruct (Z.leb_spec (zlen icc) 128); [|lia]. reflexivity.
Qed.

Hypothesis SZ : zlen icc <= size_limit.
Hypothesis NW : forall p v, 0 <= p -> slice icc p 4 = kw "rXYZ" -> slice icc (p + 4) 4 = be_bytes v -> is_u32 v -> v + 40 < 2 ^ 32.
Lemma predict_long tag0 : 128 < zlen icc -> exists enc, predict tag0 icc = Ok enc /\ unpredict enc = Ok icc /\ (zlen icc <= 464 -> init_reader enc = Ok tt).
Proof.
  intros L. unfold predict. cbv zeta. destruct (Z.ltb_spec size_limit (zlen icc)) as [K|_]; [lia|]. assert (SB := SZ). unfold size_limit in SB. change ((2 ^ 32 - 1) / 4) with 1073741823 in SB.
  destruct (encode_varint_spec (zlen icc)) as (v & -> & _ & Lv & _ & Dv); [change (2 ^ 32) with 4294967296; lia|]. cbn [bind].
  destruct (predict_headers_ok icc B 128 0 (initial_header (zlen icc)) ltac:(lia) ltac:(lia) ltac:(lia) (initial_header_len _)) as (hs & -> & Lh & Dh). cbn [bind]. unfold header_size. destruct (Z.leb_spec (zlen icc) 128); [lia|].
  assert (ST : exists ct dt pos tagmap, (if 128 + 4 <=? zlen icc then let* numtags := decode_u32 icc (zlen icc) 128 in let* c := encode_varint (numtags + 1) in
        let* (ct, dt, pos, tagmap) := predict_tags (List.length icc) icc numtags (128 + 4) (128 + numtags * 12) 0 [] in Ok (c ++ ct, dt, pos, tagmap) else Ok ([], [], 128, [])) = Ok (ct, dt, pos, tagmap) /\
      128 <= pos <= zlen icc /\ Forall (fun e => 0 <= fst e) tagmap /\ zlen ct <= 5 + (pos - 128) /\ 0 <= zlen dt <= pos - 128 /\
      forall enc cend cpos tpos, zlen enc < 2 ^ 63 -> cend <= zlen enc -> has enc cpos (ct ++ [0]) -> has enc tpos dt -> cpos + zlen ct + 1 <= cend ->
      (let* (numtags, cpos) := decode_varint enc cend cpos in
       if numtags =? 0 then Ok (cpos, tpos, slice icc 0 128) else let* _ := check_32 (numtags - 1) in
       unpredict_tags (List.length enc) enc (zlen icc) cend (TState cpos tpos (header_size + (numtags - 1) * 12) 0 (slice icc 0 128 ++ be_bytes (numtags - 1)))) = Ok (cpos + zlen ct + 1, tpos + zlen dt, slice icc 0 pos)).
  { destruct (Z.leb_spec (128 + 4) (zlen icc)) as [L4|L4].
    - destruct (decode_u32_ok icc 128 B ltac:(lia) ltac:(lia)) as (nt & -> & Unt & Ent). cbn [bind]. unfold is_u32 in Unt. destruct (encode_varint_spec (nt + 1) ltac:(lia)) as (c & -> & _ & Lc & _ & Dc). cbn [bind].
      destruct (predict_tags_ok icc B NW (List.length icc) nt (128 + 4) (128 + nt * 12) 0 [] ltac:(lia) ltac:(rewrite length_zlen; lia) ltac:(lia) ltac:(lia) (Forall_nil _)) as (cs & ds & pos & tm & -> & P & TM & LCS & LDS & D). cbn [bind].
      exists (c ++ cs), ds, pos, tm. split; [reflexivity|]. split; [lia|]. split; [exact TM|]. rewrite zlen_app2. split; [lia|]. split; [assert (GD := zlen_nonneg ds); lia|].
      intros enc cend cpos tpos S C HC HD R. rewrite <- app_assoc in HC. apply has_app in HC. destruct HC as [HC1 HC2]. assert (G := zlen_nonneg cs). rewrite (Dc enc cend cpos HC1) by lia. cbn [bind]. destruct (Z.eqb_spec (nt + 1) 0); [lia|]. replace (nt + 1 - 1) with nt by lia.
      rewrite check_32_ok by lia. cbn [bind]. unfold header_size. assert (E4 : slice icc 0 128 ++ be_bytes nt = slice icc 0 (128 + 4)) by (rewrite Ent; rewrite slice_app by lia; reflexivity). rewrite E4.
      destruct (has_range _ _ _ HC2) as [R1 R2]. rewrite zlen_app2 in R2. change (zlen [0]) with 1 in R2. rewrite D; [|exact S|exact C|exact HC2|exact HD|lia|rewrite length_zlen; lia]. apply ok3; lia.
    - exists [], [], 128, []. split; [reflexivity|]. split; [lia|]. split; [constructor|]. change (zlen (@nil Z)) with 0. split; [lia|]. split; [lia|]. intros enc cend cpos tpos S C HC HD R. cbn [app] in HC.
      destruct (encode_varint_spec 0) as (z & Ez & _ & Lz & _ & Dz); [change (2 ^ 32) with 4294967296; lia|]. vm_compute in Ez. injection Ez as <-. rewrite (Dz enc cend cpos HC) by (change (zlen [0]) with 1; lia). cbn [bind]. change (0 =? 0) with true. cbn iota. change (zlen [0]) with 1. rewrite !Z.add_0_r. reflexivity. }
  destruct ST as (ct & dt & pos & tm & -> & P & TM & LCT & LDT & D). cbn [bind].
  assert (M0 : M_inv icc (MState pos tag0 0 0 0 pos)).
  { unfold M_inv. cbn [m_pos m_last0 m_tagstart m_tagsize m_tag]. split; [lia|]. split; [lia|]. split; [lia|]. split; [lia|]. right. split; [lia|reflexivity]. }
  destruct (predict_content_ok icc B SZ tm TM (Datatypes.S (List.length icc)) (MState pos tag0 0 0 0 pos) M0) as (cm & dm & -> & PL); [cbn [m_pos]; rewrite Nat2Z.inj_succ, length_zlen; lia|]. cbn [bind]. cbn [m_last0] in PL.
  assert (LCM := plays_all_len _ _ _ _ PL). rewrite slice_len in LCM by lia. set (commands := ct ++ [0] ++ cm). assert (GCM := zlen_nonneg cm). assert (GCT := zlen_nonneg ct). assert (GDM := zlen_nonneg dm).
  assert (LC : zlen commands = zlen ct + 1 + zlen cm) by (unfold commands; rewrite !zlen_app2; change (zlen [0]) with 1; lia).
  destruct (encode_varint_spec (zlen commands)) as (c & -> & _ & Lc & _ & Dc); [change (2 ^ 32) with 4294967296; lia|]. cbn [bind]. eexists. split; [reflexivity|].
  set (enc := v ++ c ++ commands ++ hs ++ dt ++ dm). assert (LE : zlen enc = zlen v + zlen c + zlen commands + zlen hs + zlen dt + zlen dm) by (unfold enc; rewrite !zlen_app2; lia).
  assert (S63 : zlen enc < 2 ^ 63) by (change (2 ^ 63) with 9223372036854775808; lia). assert (S64 : zlen enc < 2 ^ 64) by (change (2 ^ 64) with 18446744073709551616; change (2 ^ 63) with 9223372036854775808 in S63; lia).
  split; [|intros SH; apply (reader_ok enc (zlen icc) (zlen commands) v c (commands ++ hs ++ dt ++ dm)); [reflexivity|lia|lia|exact Dv|exact Dc|lia|rewrite !zlen_app2; lia|change (2 ^ 28) with 268435456; lia|lia]].
  unfold unpredict. cbv zeta. rewrite (Dv enc (zlen enc) 0 (has_front v _) ltac:(lia)). cbn [bind]. rewrite check_32_ok by (change (2 ^ 32) with 4294967296; lia). cbn [bind]. rewrite Z.add_0_l.
  rewrite (Dc enc (zlen enc) (zlen v)) by (apply has_whole || lia). cbn [bind]. rewrite check_32_ok by (change (2 ^ 32) with 4294967296; lia). cbn [bind]. rewrite check_bounds_ok by lia. cbn [bind].
  assert (HA : has enc (zlen v + zlen c) (commands ++ hs ++ dt ++ dm)) by (exists (v ++ c), []; unfold enc; rewrite app_nil_r, <- app_assoc, zlen_app2; split; reflexivity).
  apply has_app in HA. destruct HA as [HC HA]. apply has_app in HA. destruct HA as [HH HA]. apply has_app in HA. destruct HA as [HT HM].
  change [] with (slice icc 0 0) at 1. rewrite (Dh enc (zlen v + zlen c) (zlen v + zlen c + zlen commands) (zlen v + zlen c + zlen commands) HH) by (intros; lia). destruct (Z.leb_spec (zlen icc) 128); [lia|]. cbn [bind].
  destruct (Z.leb_spec (zlen v + zlen c + zlen commands) (zlen v + zlen c)); [lia|].
  assert (HC' : has enc (zlen v + zlen c) ((ct ++ [0]) ++ cm)) by (rewrite <- app_assoc; exact HC). apply has_app in HC'. destruct HC' as [HC1 HC2]. rewrite zlen_app2 in HC2. change (zlen [0]) with 1 in HC2.
  assert (K := D enc (zlen v + zlen c + zlen commands) (zlen v + zlen c) (zlen v + zlen c + zlen commands + zlen hs) S63 ltac:(lia) HC1 HT ltac:(lia)).
  destruct (decode_varint enc (zlen v + zlen c + zlen commands) (zlen v + zlen c)) as [[nt cpos]| | |]; cbn [bind] in K |- *; try discriminate. rewrite K. cbn [bind].
  rewrite (plays_all_run enc (zlen icc) S63 _ _ _ _ PL); [|exact (eq_rect _ (fun q => has enc q cm) HC2 _ (Z.add_assoc _ _ _))|exact HM|lia|lia| |rewrite length_zlen; lia].
  - f_equal. replace (slice icc pos (zlen icc - pos)) with (slice icc (0 + pos) (zlen icc - pos)) by (f_equal; lia). rewrite <- slice_app by lia. replace (pos + (zlen icc - pos)) with (zlen icc) by lia. apply slice_all.
  - rewrite !slice_len by lia. lia.
Qed.
End Whole.

Lemma kw_rXYZ : kw "rXYZ" = [114; 88; 89; 90]. Proof. reflexivity. Qed.
Lemma predict_ok tag0 icc : bytes_ok icc -> zlen icc <= size_limit -> (forall p v, rXYZ_at icc p v -> v + 40 < 2 ^ 32) ->
  exists enc, predict tag0 icc = Ok enc /\ unpredict enc = Ok icc /\ (zlen icc <= 464 -> init_reader enc = Ok tt).
Proof.
  intros B SZ H. destruct (Z.le_gt_cases (zlen icc) 128) as [L|L]; [exact (predict_short icc B tag0 L)|]. apply predict_long; [exact B|exact SZ| |exact L].
  intros p v P E1 E2 U. apply (H p). rewrite kw_rXYZ in E1. assert (R : p + 8 <= zlen icc).
  { assert (Z4 : zlen (slice icc (p + 4) 4) = 4) by (rewrite E2; apply be_bytes_len). destruct (Z.le_gt_cases (p + 8) (zlen icc)) as [|G]; [assumption|]. exfalso.
    unfold slice, zlen in Z4. unfold zlen in G. rewrite firstn_length, skipn_length in Z4. change (Z.to_nat 4) with 4%nat in Z4. lia. }
  assert (E : icc = slice icc 0 p ++ slice icc p 8 ++ slice icc (p + 8) (zlen icc - (p + 8))).
  { transitivity (slice icc 0 (p + (8 + (zlen icc - (p + 8))))); [rewrite <- (slice_all icc) at 1; f_equal; lia|]. rewrite slice_app by lia. f_equal. rewrite Z.add_0_l. rewrite slice_app by lia. reflexivity. }
  assert (E8 : slice icc p 8 = [114; 88; 89; 90] ++ be_bytes v) by (change 8 with (4 + 4); rewrite slice_app by lia; rewrite E1, E2; reflexivity).
  rewrite E8 in E. exists (slice icc 0 p). destruct (be_bytes v) as [|a [|b [|c [|d [|]]]]] eqn:EB; try (assert (K := be_bytes_len v); rewrite EB in K; cbn in K; lia). exists a, b, c, d, (slice icc (p + 8) (zlen icc - (p + 8))).
  split; [exact E|]. split; [apply slice_len; lia|]. assert (K := be32_be_bytes v U). rewrite EB in K. rewrite <- K. unfold be32. change (2 ^ 24) with 16777216. change (2 ^ 16) with 65536. change (2 ^ 8) with 256. lia.
Qed.

Lemma profile_back tag0 icc : bytes_ok icc -> zlen icc <= (2 ^ 32 - 1) / 4 -> (forall p v, rXYZ_at icc p v -> v + 40 < 2 ^ 32) -> exists enc, predict tag0 icc = Ok enc /\ unpredict enc = Ok icc.
Proof. intros B L H. destruct (predict_ok tag0 icc B L H) as (enc & E1 & E2 & _). eauto. Qed.
Lemma predict_size tag0 icc enc : predict tag0 icc = Ok enc -> zlen icc <= size_limit.
Proof. unfold predict. cbv zeta. destruct (Z.ltb_spec size_limit (zlen icc)); [discriminate|auto]. Qed.
Lemma profiles_differ tag0 tag1 icc1 icc2 enc : bytes_ok icc1 -> bytes_ok icc2 -> (forall p v, rXYZ_at icc1 p v -> v + 40 < 2 ^ 32) -> (forall p v, rXYZ_at icc2 p v -> v + 40 < 2 ^ 32) ->
  predict tag0 icc1 = Ok enc -> predict tag1 icc2 = Ok enc -> icc1 = icc2.
Proof.
  intros B1 B2 H1 H2 E1 E2. destruct (predict_ok tag0 icc1 B1 (predict_size _ _ _ E1) H1) as (e1 & F1 & G1 & _). destruct (predict_ok tag1 icc2 B2 (predict_size _ _ _ E2) H2) as (e2 & F2 & G2 & _). congruence.
Qed.
Lemma short_profiles tag0 icc enc : bytes_ok icc -> zlen icc <= 464 -> (forall p v, rXYZ_at icc p v -> v + 40 < 2 ^ 32) -> predict tag0 icc = Ok enc -> init_reader enc = Ok tt.
Proof. intros B L H E. destruct (predict_ok tag0 icc B (predict_size _ _ _ E) H) as (e & F & _ & G). rewrite E in F. injection F as <-. exact (G L). Qed.
Lemma unpredict_total enc : bytes_ok enc -> zlen enc < 2 ^ 63 -> (exists icc, unpredict enc = Ok icc) \/ unpredict enc = Fail.
Proof. intros B L. assert (S := unpredict_safe enc B L). destruct (unpredict enc) as [r| | |]; [left; eauto|right; reflexivity|destruct S|destruct S]. Qed.
Lemma unpredict_size enc icc : bytes_ok enc -> zlen enc < 2 ^ 63 -> unpredict enc = Ok icc -> exists size rest, enc = size ++ rest /\ varint size (zlen icc).
Proof.
  intros B L E. assert (S := unpredict_safe enc B L). rewrite E in S. destruct S as ((n & N & V) & _). exists (slice enc 0 n), (skipn (Z.to_nat n) enc). split; [|exact V]. unfold slice. change (Z.to_nat 0) with O. rewrite (skipn_O enc). symmetry. apply firstn_skipn.
Qed.
Lemma unpredict_bytes enc icc : bytes_ok enc -> zlen enc < 2 ^ 63 -> unpredict enc = Ok icc -> bytes_ok icc.
Proof. intros B L E. assert (S := unpredict_safe enc B L). rewrite E in S. apply S. Qed.
(* deciding the hypotheses on a literal *)
Definition bytes_okb (l : list Z) : bool := forallb (fun b => (0 <=? b) && (b <? 256)) l.
Lemma bytes_okb_spec l : bytes_okb l = true -> bytes_ok l.
Proof. unfold bytes_okb. rewrite forallb_forall. intros H. apply Forall_forall. intros b I. apply H in I. apply andb_true_iff in I. destruct I as [I1 I2]. apply Z.leb_le in I1. apply Z.ltb_lt in I2. unfold is_u8. lia. Qed.
Fixpoint no_wrapb (icc : list Z) : bool :=
  match icc with
  | [] => true
  | _ :: rest => match icc with
                 | r :: x :: y :: z :: a :: b :: c :: d :: _ => negb ((r =? 114) && (x =? 88) && (y =? 89) && (z =? 90)) || (16777216 * a + 65536 * b + 256 * c + d + 40 <? 2 ^ 32)
                 | _ => true
                 end && no_wrapb rest
  end.
Lemma no_wrapb_spec icc : no_wrapb icc = true -> forall p v, rXYZ_at icc p v -> v + 40 < 2 ^ 32.
Proof.
  intros H p v (before & a & b & c & d & after & E & _ & ->). subst icc. revert H. induction before as [|x before IH]; intros H.
  - cbn [app no_wrapb] in H. apply andb_true_iff in H. destruct H as [H _]. rewrite !Z.eqb_refl in H. cbn [andb negb orb] in H. apply Z.ltb_lt in H. exact H.
  - cbn [app no_wrapb] in H. apply andb_true_iff in H. destruct H as [_ H]. exact (IH H).
Qed.
