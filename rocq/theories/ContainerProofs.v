From Verif Require Import Base ListAux ContainerModel ContainerSpec.

Lemma starts_with_spec p : forall s, starts_with s p = true <-> prefix_of p s.
Proof.
  induction p as [|x p IH]; intros s; cbn [starts_with].
  - split; [exists s; reflexivity|reflexivity].
  - destruct s as [|y s].
    + split; [discriminate|]. intros [r H]. discriminate.
    + rewrite andb_true_iff, IH, Z.eqb_eq. split.
      * intros [-> [r ->]]. now exists r.
      * intros [r H]. cbn in H. injection H as -> ->. split; [reflexivity|now exists r].
Qed.

Lemma prefix_app p s t : prefix_of p s -> prefix_of p (s ++ t).
Proof. intros [r ->]. exists (r ++ t). now rewrite app_assoc. Qed.

Lemma sig_eq s : signature_check s =
  match s with
  | [] => SigNotEnough
  | b0 :: r =>
      if b0 =? 255 then match r with [] => SigNotEnough | b1 :: _ => if b1 =? 10 then SigCodestream else SigInvalid end
      else if b0 =? 0 then if zlen s <? 12 then SigNotEnough
                           else if starts_with s signature_box then SigContainer else SigInvalid
      else SigInvalid
  end.
Proof.
  unfold signature_check, read_signature. destruct s as [|b0 r]; [reflexivity|].
  assert (0 <= zlen r) by apply zlen_nonneg.
  assert (zlen (b0 :: r) = 1 + zlen r) as E by (unfold zlen; cbn [length]; lia).
  destruct (Z.geb_spec 0 (zlen (b0 :: r))); [lia|].
  cbn [Z.to_nat skipn]. rewrite Z.sub_0_r.
  destruct (b0 =? 255).
  - destruct r as [|b1 r]; [reflexivity|].
    assert (0 <= zlen r) by apply zlen_nonneg.
    assert (zlen (b1 :: r) = 1 + zlen r) by (unfold zlen; cbn [length]; lia).
    destruct (Z.ltb_spec (zlen (b0 :: b1 :: r)) 2); [lia|]. now destruct (b1 =? 10).
  - destruct (b0 =? 0); [|reflexivity].
    destruct (zlen (b0 :: r) <? 12); [reflexivity|].
    now destruct (starts_with _ _).
Qed.

Lemma prefix_len p s : prefix_of p s -> zlen p <= zlen s.
Proof. intros [r ->]. rewrite zlen_app. pose proof (zlen_nonneg r). lia. Qed.

Lemma signature_classifies s :
  (signature_check s = SigCodestream <-> prefix_of codestream_signature s) /\
  (signature_check s = SigContainer <-> prefix_of container_signature s) /\
  (proper_prefix s codestream_signature \/ proper_prefix s container_signature ->
   signature_check s = SigNotEnough) /\
  (signature_check s = SigNotEnough ->
   proper_prefix s codestream_signature \/ (zlen s < 12 /\ (s = [] \/ exists r, s = 0 :: r))).
Proof.
  rewrite sig_eq. split; [|split; [|split]].
  - split.
    + destruct s as [|b0 r]; [discriminate|].
      destruct (Z.eqb_spec b0 255) as [->|].
      * destruct r as [|b1 r]; [discriminate|]. destruct (Z.eqb_spec b1 10) as [->|]; [|discriminate].
        intros _. now exists r.
      * destruct (b0 =? 0); [|discriminate]. destruct (_ <? 12); [discriminate|].
        destruct (starts_with _ _); discriminate.
    + intros [r ->]. reflexivity.
  - split.
    + destruct s as [|b0 r]; [discriminate|].
      destruct (Z.eqb_spec b0 255) as [->|].
      * destruct r as [|b1 r]; [discriminate|]. destruct (b1 =? 10); discriminate.
      * destruct (b0 =? 0); [|discriminate]. destruct (_ <? 12); [discriminate|].
        destruct (starts_with _ _) eqn:E; [|discriminate]. intros _. now apply starts_with_spec in E.
    + intros H. pose proof (prefix_len _ _ H) as Hl. pose proof (proj2 (starts_with_spec _ _) H) as Hs.
      change container_signature with signature_box in *. change (zlen signature_box) with 12 in Hl.
      destruct H as [r ->]. cbn [signature_box app] in *. cbn [Z.eqb].
      destruct (Z.ltb_spec (zlen (0 :: 0 :: 0 :: 12 :: 74 :: 88 :: 76 :: 32 :: 13 :: 10 :: 135 :: 10 :: r)) 12); [lia|].
      now rewrite Hs.
  - intros [[x [r H]]|[x [r H]]].
    + destruct s as [|a [|b s]]; [reflexivity| |].
      * cbn in H. injection H as <- _. reflexivity.
      * cbn in H. destruct s; discriminate.
    + assert (zlen s < 12).
      { pose proof (f_equal zlen H) as Hz. rewrite zlen_app in Hz.
        change (zlen container_signature) with 12 in Hz. pose proof (zlen_nonneg r).
        unfold zlen in *. cbn [length] in *. lia. }
      destruct s as [|a s]; [reflexivity|]. cbn in H. injection H as <- _. cbn [Z.eqb].
      destruct (Z.ltb_spec (zlen (0 :: s)) 12); [reflexivity|lia].
  - destruct s as [|b0 r]; [intros _; right; split; [reflexivity|now left]|].
    destruct (Z.eqb_spec b0 255) as [->|].
    + destruct r as [|b1 r]; [|destruct (b1 =? 10); discriminate]. intros _. left. now exists 10, [].
    + destruct (Z.eqb_spec b0 0) as [->|]; [|discriminate].
      destruct (Z.ltb_spec (zlen (0 :: r)) 12); [|destruct (starts_with _ _); discriminate].
      intros _. right. split; [assumption|right; now exists r].
Qed.

Lemma signature_monotone s t : signature_check s <> SigNotEnough -> signature_check (s ++ t) = signature_check s.
Proof.
  rewrite !sig_eq. destruct s as [|b0 r]; [congruence|]. cbn [app].
  destruct (b0 =? 255).
  - destruct r as [|b1 r]; [congruence|]. reflexivity.
  - destruct (b0 =? 0); [|reflexivity].
    change (b0 :: r ++ t) with ((b0 :: r) ++ t). rewrite zlen_app. pose proof (zlen_nonneg t).
    destruct (Z.ltb_spec (zlen (b0 :: r)) 12); [congruence|]. intros _.
    destruct (Z.ltb_spec (zlen (b0 :: r) + zlen t) 12); [lia|].
    destruct (starts_with (b0 :: r) signature_box) eqn:E.
    + apply starts_with_spec, (prefix_app _ _ t), starts_with_spec in E. now rewrite E.
    + destruct (starts_with ((b0 :: r) ++ t) signature_box) eqn:E'; [|reflexivity].
      exfalso. apply starts_with_spec in E'. destruct E' as [q Hq].
      assert (prefix_of signature_box (b0 :: r)) as Hp.
      { exists (skipn 12 (b0 :: r)). pose proof (f_equal (firstn 12) Hq) as Hf.
        rewrite firstn_app in Hf.
        assert (12 - length (b0 :: r) = 0)%nat as E0 by (unfold zlen in *; lia).
        rewrite E0, firstn_O, app_nil_r in Hf.
        rewrite <- (firstn_skipn 12 (b0 :: r)) at 1. f_equal. rewrite Hf. reflexivity. }
      apply starts_with_spec in Hp. congruence.
Qed.

(* position advance: a verdict of success consumes exactly the signature *)
Lemma signature_consumes s r p : read_signature s 0 = (r, p) ->
  p = match r with SigCodestream => 2 | SigContainer => 12 | _ => 0 end.
Proof.
  unfold read_signature. destruct (_ >=? _); [intros [= <- <-]; reflexivity|].
  cbn [Z.to_nat skipn]. destruct s as [|b0 q]; [intros [= <- <-]; reflexivity|].
  destruct (b0 =? 255).
  - destruct (_ <? 2); [intros [= <- <-]; reflexivity|].
    destruct q as [|b1 q]; [intros [= <- <-]; reflexivity|].
    destruct (b1 =? 10); intros [= <- <-]; reflexivity.
  - destruct (b0 =? 0); [|intros [= <- <-]; reflexivity].
    destruct (_ <? 12); [intros [= <- <-]; reflexivity|].
    destruct (starts_with _ _); intros [= <- <-]; reflexivity.
Qed.

(* ---- big-endian numbers ---- *)
Lemma be_fold l : forall a, fold_left (fun acc b => 256 * acc + b) l a = a * 2 ^ (8 * zlen l) + big_endian l.
Proof.
  induction l as [|b l IH]; intros a; cbn [fold_left big_endian].
  - change (zlen []) with 0. change (8 * 0) with 0. rewrite Z.pow_0_r. lia.
  - rewrite IH. assert (zlen (b :: l) = 1 + zlen l) as -> by (unfold zlen; cbn [length]; lia).
    pose proof (zlen_nonneg l).
    rewrite Z.mul_add_distr_l, Z.pow_add_r by lia. change (2 ^ (8 * 1)) with 256. ring.
Qed.

Lemma be_spec l : be l = big_endian l.
Proof. unfold be. rewrite be_fold. lia. Qed.

Lemma big_endian_range l : bytes_ok l -> 0 <= big_endian l < 2 ^ (8 * zlen l).
Proof.
  induction 1 as [|b l Hb Hl IH].
  - cbn. lia.
  - cbn [big_endian]. assert (zlen (b :: l) = 1 + zlen l) as -> by (unfold zlen; cbn [length]; lia).
    pose proof (zlen_nonneg l). rewrite Z.mul_add_distr_l, Z.pow_add_r by lia.
    change (2 ^ (8 * 1)) with 256. set (P := 2 ^ (8 * zlen l)) in *.
    unfold is_u8 in Hb. change (2 ^ 8) with 256 in Hb.
    assert (0 <= b * P) by (apply Z.mul_nonneg_nonneg; lia).
    assert (b * P <= 255 * P) by (apply Z.mul_le_mono_nonneg_r; lia). lia.
Qed.

Lemma be_bytes_step n v :
  be_bytes (S n) v = (v / 2 ^ (8 * Z.of_nat n)) mod 256 :: be_bytes n v.
Proof.
  cbn [be_bytes]. rewrite Z.shiftr_div_pow2 by lia.
  change 255 with (Z.ones 8). rewrite Z.land_ones by lia. reflexivity.
Qed.

Lemma length_be_bytes n v : length (be_bytes n v) = n.
Proof. induction n; [reflexivity|]. cbn [be_bytes length]. now rewrite IHn. Qed.

Lemma be_bytes_ok n v : bytes_ok (be_bytes n v).
Proof.
  induction n; [constructor|]. rewrite be_bytes_step. constructor; [|exact IHn].
  unfold is_u8. change (2 ^ 8) with 256. apply Z.mod_pos_bound. lia.
Qed.

Lemma big_endian_be_bytes n v : big_endian (be_bytes n v) = v mod 2 ^ (8 * Z.of_nat n).
Proof.
  induction n as [|n IH]; [cbn; now rewrite Z.mod_1_r|].
  rewrite be_bytes_step. cbn [big_endian].
  assert (zlen (be_bytes n v) = Z.of_nat n) as -> by (unfold zlen; now rewrite length_be_bytes).
  rewrite IH. replace (8 * Z.of_nat (S n)) with (8 * Z.of_nat n + 8) by lia.
  rewrite Z.pow_add_r by lia. change (2 ^ 8) with 256.
  assert (0 < 2 ^ (8 * Z.of_nat n)) by (apply Z.pow_pos_nonneg; lia).
  rewrite Z.rem_mul_r by lia. ring.
Qed.

(* ---- parsing ---- *)
Lemma oob_spec a b size : 0 <= a < 2 ^ 64 -> 0 <= b < 2 ^ 64 -> 0 <= size < 2 ^ 64 ->
  out_of_bounds a b size = (size <? a + b).
Proof.
  intros Ha Hb Hs. unfold out_of_bounds, w64.
  destruct (Z.lt_ge_cases (a + b) (2 ^ 64)).
  - rewrite Z.mod_small by lia. destruct (Z.gtb_spec (a + b) size), (Z.ltb_spec (a + b) a), (Z.ltb_spec size (a + b)); lia.
  - replace ((a + b) mod 2 ^ 64) with (a + b - 2 ^ 64)
      by (apply Zmod_unique with (q := 1); lia).
    destruct (Z.gtb_spec (a + b - 2 ^ 64) size), (Z.ltb_spec (a + b - 2 ^ 64) a), (Z.ltb_spec size (a + b)); lia.
Qed.

Lemma load_some inp p n : 0 <= p -> p + Z.of_nat n <= zlen inp ->
  load inp p n = Some (firstn n (skipn (Z.to_nat p) inp)).
Proof.
  intros. unfold load. destruct (Z.ltb_spec p 0); [lia|].
  destruct (Z.ltb_spec (zlen inp) (p + Z.of_nat n)); [lia|reflexivity].
Qed.

Lemma bytes_ok_sub l p n : bytes_ok l -> bytes_ok (firstn n (skipn p l)).
Proof.
  intros H. apply Forall_forall. intros x Hx. apply (proj1 (Forall_forall _ _) H).
  rewrite <- (firstn_skipn p l). apply in_or_app; right.
  rewrite <- (firstn_skipn n (skipn p l)). apply in_or_app; now left.
Qed.

(* the header that parse_box_header sees at pos *)
Lemma parse_eq inp pos file_pos :
  bytes_ok inp -> zlen inp < 2 ^ 64 -> 0 <= pos <= zlen inp -> 0 <= file_pos < 2 ^ 64 ->
  let s := skipn (Z.to_nat pos) inp in
  let avail := zlen inp - pos in
  (avail < 8 -> parse_box_header inp pos file_pos = Some (BoxNeedMore 8)) /\
  (8 <= avail < 16 -> big_endian (firstn 4 s) = 1 ->
     parse_box_header inp pos file_pos = Some (BoxNeedMore 16)) /\
  (forall h t n, box_header s h t n ->
     (box_size_ok h n file_pos -> parse_box_header inp pos file_pos = Some (BoxOk n t h)) /\
     (~ box_size_ok h n file_pos -> parse_box_header inp pos file_pos = Some BoxError)).
Proof.
  intros Hb Hl Hp Hf s avail.
  assert (out_of_bounds pos 8 (zlen inp) = (zlen inp <? pos + 8)) as O1
    by (apply oob_spec; try lia; pose proof (zlen_nonneg inp); lia).
  pose proof (zlen_nonneg inp) as Hn.
  assert (pos + 8 <= zlen inp ->
          parse_box_header inp pos file_pos =
          let finish (box_size h : Z) :=
            if (box_size >? 0) && (box_size <? h) then Some BoxError
            else if w64 (file_pos + box_size) <? file_pos then Some BoxError
            else Some (BoxOk box_size (firstn 4 (skipn 4 s)) h) in
          if big_endian (firstn 4 s) =? 1 then
            if zlen inp <? pos + 16 then Some (BoxNeedMore 16)
            else finish (big_endian (firstn 8 (skipn 8 s))) 16
          else finish (big_endian (firstn 4 s)) 8) as PE.
  { intros H8. unfold parse_box_header. rewrite O1.
    destruct (Z.ltb_spec (zlen inp) (pos + 8)); [lia|].
    rewrite !load_some by lia. rewrite be_spec. fold s.
    replace (skipn (Z.to_nat (pos + 4)) inp) with (skipn 4 s)
      by (unfold s; rewrite skipn_skipn; f_equal; lia).
    replace (pos + 8 - pos) with 8 by lia. replace (pos + 8 + 8 - pos) with 16 by lia.
    cbv zeta. destruct (Z.eqb_spec (big_endian (firstn 4 s)) 1); [|reflexivity].
    destruct (Z.lt_ge_cases (pos + 8) (2 ^ 64)).
    - rewrite oob_spec by lia. replace (pos + 8 + 8) with (pos + 16) by lia.
      destruct (Z.ltb_spec (zlen inp) (pos + 16)); [reflexivity|].
      rewrite load_some by lia. rewrite be_spec.
      replace (skipn (Z.to_nat (pos + 8)) inp) with (skipn 8 s)
        by (unfold s; rewrite skipn_skipn; f_equal; lia). reflexivity.
    - lia. }
  assert (forall a n h, 0 <= n < 2 ^ 64 -> 0 <= a < 2 ^ 64 -> 0 < h < 100 ->
          ((n >? 0) && (n <? h) = true \/ (w64 (a + n) <? a) = true <-> ~ box_size_ok h n a)) as FIN.
  { intros a n h Hn0 Ha Hh. unfold box_size_ok, w64. rewrite andb_true_iff, Z.ltb_lt, Z.ltb_lt, Z.gtb_lt.
    destruct (Z.lt_ge_cases (a + n) (2 ^ 64)).
    - rewrite Z.mod_small by lia. lia.
    - replace ((a + n) mod 2 ^ 64) with (a + n - 2 ^ 64)
        by (apply Zmod_unique with (q := 1); lia). lia. }
  split; [|split].
  - intros H8. unfold parse_box_header. rewrite O1. destruct (Z.ltb_spec (zlen inp) (pos + 8)); [reflexivity|lia].
  - intros H8 H1. rewrite PE by lia. cbv zeta. rewrite H1, Z.eqb_refl.
    destruct (Z.ltb_spec (zlen inp) (pos + 16)); [reflexivity|lia].
  - intros h t n Hh.
    assert (zlen s = zlen inp - pos) as Hzs by (unfold s, zlen; rewrite skipn_length; unfold zlen in *; lia).
    assert (bytes_ok s) as Hbs.
    { apply Forall_forall. intros x Hx. apply (proj1 (Forall_forall _ _) Hb).
      rewrite <- (firstn_skipn (Z.to_nat pos) inp). apply in_or_app. now right. }
    assert (exists n' h', n = n' /\ h = h' /\ 0 <= n < 2 ^ 64 /\ 0 < h < 100 /\
            parse_box_header inp pos file_pos =
            if (n' >? 0) && (n' <? h') then Some BoxError
            else if w64 (file_pos + n') <? file_pos then Some BoxError
            else Some (BoxOk n' t h')) as (n' & h' & -> & -> & Hn' & Hh' & E).
    { destruct Hh as [sz t r Hs L1 L2 Hne|sz t sz64 r Hs L1 L2 L3 H1].
      - exists (big_endian sz), 8.
        assert (zlen s = 8 + zlen r) as Hz by (rewrite Hs, !zlen_app; unfold zlen; lia).
        pose proof (zlen_nonneg r).
        assert (firstn 4 s = sz) as F1 by (rewrite Hs, <- L1; apply firstn_app_exact).
        assert (firstn 4 (skipn 4 s) = t) as F2.
        { assert (skipn 4 s = t ++ r) as S4 by (rewrite Hs, <- L1; apply skipn_app_exact).
          rewrite S4, <- L2. apply firstn_app_exact. }
        split; [reflexivity|split; [reflexivity|split; [|split; [lia|]]]].
        + assert (bytes_ok sz) as Hbz by (rewrite Hs in Hbs; apply Forall_app in Hbs; apply Hbs).
          pose proof (big_endian_range _ Hbz) as R. unfold zlen in R. rewrite L1 in R. cbn in R. lia.
        + rewrite PE by lia. cbv zeta. rewrite F1, F2.
          destruct (Z.eqb_spec (big_endian sz) 1); [congruence|]. reflexivity.
      - exists (big_endian sz64), 16.
        assert (zlen s = 16 + zlen r) as Hz by (rewrite Hs, !zlen_app; unfold zlen; lia).
        pose proof (zlen_nonneg r).
        assert (firstn 4 s = sz) as F1 by (rewrite Hs, <- L1; apply firstn_app_exact).
        assert (skipn 4 s = t ++ sz64 ++ r) as S4
          by (rewrite Hs, <- L1; apply skipn_app_exact).
        assert (firstn 4 (skipn 4 s) = t) as F2
          by (rewrite S4, <- L2; apply firstn_app_exact).
        assert (firstn 8 (skipn 8 s) = sz64) as F3.
        { assert (skipn 8 s = sz64 ++ r) as S8.
          { replace (skipn 8 s) with (skipn 4 (skipn 4 s)) by (rewrite skipn_skipn; reflexivity).
            rewrite S4, <- L2. apply skipn_app_exact. }
          rewrite S8, <- L3. apply firstn_app_exact. }
        split; [reflexivity|split; [reflexivity|split; [|split; [lia|]]]].
        + assert (bytes_ok sz64) as Hbz.
          { rewrite Hs in Hbs. apply Forall_app in Hbs as [_ Hbs]. apply Forall_app in Hbs as [_ Hbs].
            apply Forall_app in Hbs as [Hbs _]. exact Hbs. }
          pose proof (big_endian_range _ Hbz) as R. unfold zlen in R. rewrite L3 in R. cbn in R. lia.
        + rewrite PE by lia. cbv zeta. rewrite F1, F2, F3.
          destruct (Z.eqb_spec (big_endian sz) 1); [|congruence].
          destruct (Z.ltb_spec (zlen inp) (pos + 16)); [lia|]. reflexivity. }
    specialize (FIN file_pos n' h' Hn' Hf Hh'). rewrite E. split; intros Hok.
    + destruct ((n' >? 0) && (n' <? h')); [exfalso; apply (proj1 FIN); [now left|exact Hok]|].
      destruct (w64 (file_pos + n') <? file_pos); [exfalso; apply (proj1 FIN); [now right|exact Hok]|]. reflexivity.
    + apply FIN in Hok. destruct Hok as [->| ->]; [reflexivity|]. now destruct ((n' >? 0) && (n' <? h')).
Qed.

(* ---- the header written by the encoder ---- *)
Lemma written_header_small type size r :
  length type = 4%nat -> 0 <= size < 2 ^ 32 - 8 ->
  box_header (write_box_header type size false false ++ r) 8 type (size + 8).
Proof.
  intros Ht Hs. unfold write_box_header.
  replace ((0 >=? large_box_content_size_threshold) || false) with false by reflexivity.
  change small_box_header_size with 8. unfold w64. rewrite Z.mod_small by lia.
  rewrite app_nil_r, <- app_assoc.
  pose proof (big_endian_be_bytes 4 (size + 8)) as E. change (8 * Z.of_nat 4) with 32 in E.
  rewrite Z.mod_small in E by lia. rewrite <- E.
  eapply box_small; [rewrite E; reflexivity|apply length_be_bytes|exact Ht|rewrite E; lia].
Qed.

Lemma written_header_large type size r :
  length type = 4%nat -> 0 <= size < 2 ^ 64 - 16 ->
  box_header (write_box_header type size false true ++ r) 16 type (size + 16).
Proof.
  intros Ht Hs. unfold write_box_header. rewrite orb_true_r.
  change large_box_header_size with 16. unfold w64. rewrite Z.mod_small by lia.
  rewrite <- !app_assoc.
  pose proof (big_endian_be_bytes 8 (size + 16)) as E. change (8 * Z.of_nat 8) with 64 in E.
  rewrite Z.mod_small in E by lia. rewrite <- E.
  eapply box_large; [rewrite E; reflexivity|apply length_be_bytes|exact Ht|apply length_be_bytes|reflexivity].
Qed.

Lemma written_header_unbounded type size force r :
  length type = 4%nat -> box_header (write_box_header type size true force ++ r) 8 type 0.
Proof.
  intros Ht. unfold write_box_header. rewrite app_nil_r, <- app_assoc.
  change 0 with (big_endian (be_bytes 4 0)) at 2.
  eapply box_small; [reflexivity|reflexivity|exact Ht|cbn; lia].
Qed.

(* AppendBox always writes a header describing its contents *)
Lemma append_box_header type unbounded max contents out r :
  length type = 4%nat -> zlen contents < 2 ^ 64 - 16 ->
  append_box type unbounded max contents = Some out ->
  exists h, box_header (out ++ r) h type (if unbounded then 0 else h + zlen contents) /\
            out = firstn (Z.to_nat h) out ++ contents /\ zlen out = h + zlen contents.
Proof.
  intros Ht Hc. unfold append_box. destruct (Z.gtb_spec (zlen contents) max) as [|Hm]; [discriminate|].
  pose proof (zlen_nonneg contents) as Hc0.
  set (large := (max >=? large_box_content_size_threshold) && negb unbounded).
  set (hd := write_box_header type (zlen contents) unbounded large).
  destruct (Z.eqb_spec (zlen hd) (if large then large_box_header_size else small_box_header_size)) as [Hl|]; [|discriminate].
  intros [= <-]. exists (zlen hd).
  assert (Z.to_nat (zlen hd) = length hd) as Hn by (unfold zlen; lia).
  split; [|split].
  - rewrite <- app_assoc. unfold hd, large in *. destruct unbounded.
    + rewrite andb_false_r in *. rewrite Hl. apply written_header_unbounded, Ht.
    + rewrite andb_true_r in *. destruct (Z.geb_spec max large_box_content_size_threshold).
      * rewrite Hl. change large_box_header_size with 16. rewrite Z.add_comm. apply written_header_large; [exact Ht|lia].
      * rewrite Hl. change small_box_header_size with 8. rewrite Z.add_comm. apply written_header_small; [exact Ht|].
        unfold large_box_content_size_threshold, small_box_header_size in *. lia.
  - rewrite Hn, firstn_app, Nat.sub_diag, firstn_O, app_nil_r, firstn_all. reflexivity.
  - rewrite zlen_app. reflexivity.
Qed.

(* ---- output buffer size ---- *)
Lemma safe_add_spec a b : 0 <= a < 2 ^ 64 -> 0 <= b < 2 ^ 64 ->
  safe_add a b = if a + b <? 2 ^ 64 then Some (a + b) else None.
Proof.
  intros Ha Hb. unfold safe_add, w64. destruct (Z.ltb_spec (a + b) (2 ^ 64)).
  - rewrite Z.mod_small by lia. destruct (Z.geb_spec (a + b) a); [reflexivity|lia].
  - replace ((a + b) mod 2 ^ 64) with (a + b - 2 ^ 64) by (apply Zmod_unique with (q := 1); lia).
    destruct (Z.geb_spec (a + b - 2 ^ 64) a); [lia|reflexivity].
Qed.

Lemma safe_mul_spec a b : 0 <= a < 2 ^ 64 -> 0 <= b < 2 ^ 64 ->
  safe_mul a b = if a * b <? 2 ^ 64 then Some (a * b) else None.
Proof.
  intros Ha Hb. unfold safe_mul. destruct (Z.eqb_spec a 0) as [->|Ha0]; [reflexivity|].
  destruct (Z.eqb_spec b 0) as [->|Hb0]; [rewrite Z.mul_0_r; reflexivity|]. cbn [orb].
  unfold w64. set (M := 2 ^ 64) in *. assert (M > 0) by (unfold M; lia). clearbody M.
  destruct (Z.gtb_spec b ((M - 1) / a)) as [Hgt|Hle].
  - destruct (Z.ltb_spec (a * b) M) as [Hlt|]; [|reflexivity]. exfalso.
    assert (b <= (M - 1) / a) by (apply Z.div_le_lower_bound; lia). lia.
  - assert (a * b <= M - 1).
    { apply Z.le_trans with (a * ((M - 1) / a)); [apply Z.mul_le_mono_nonneg_l; lia|apply Z.mul_div_le; lia]. }
    destruct (Z.ltb_spec (a * b) M); [|lia]. f_equal.
    apply Z.mod_small. split; [apply Z.mul_nonneg_nonneg; lia|lia].
Qed.

Definition stride_of (what align : Z) : Z :=
  if align <? 2 then what else if what mod align =? 0 then what else what + (align - what mod align).

Lemma stride_layout what align : 0 <= align -> least_multiple (Z.max 1 align) what (stride_of what align).
Proof.
  intros Ha. unfold stride_of, least_multiple. destruct (Z.ltb_spec align 2).
  - replace (Z.max 1 align) with 1 by lia. split; [lia|apply Z.divide_1_l].
  - replace (Z.max 1 align) with align by lia.
    pose proof (Z.mod_pos_bound what align ltac:(lia)).
    destruct (Z.eqb_spec (what mod align) 0) as [E|E].
    + split; [lia|]. apply Z.mod_divide; [lia|exact E].
    + split; [lia|]. exists (what / align + 1). rewrite (Z.div_mod what align) at 1 by lia. ring.
Qed.

Lemma least_multiple_unique a lo m m' : 0 < a -> least_multiple a lo m -> least_multiple a lo m' -> m = m'.
Proof.
  intros Ha [H1 [k1 ->]] [H2 [k2 ->]].
  destruct (Z.lt_trichotomy k1 k2) as [H|[->|H]]; [|reflexivity|].
  - assert ((k1 + 1) * a <= k2 * a) by (apply Z.mul_le_mono_nonneg_r; lia). lia.
  - assert ((k2 + 1) * a <= k1 * a) by (apply Z.mul_le_mono_nonneg_r; lia). lia.
Qed.

Lemma safe_round_up_spec what align : 0 <= what < 2 ^ 64 -> 0 <= align < 2 ^ 64 ->
  safe_round_up_to what align = if stride_of what align <? 2 ^ 64 then Some (stride_of what align) else None.
Proof.
  intros Hw Ha. unfold safe_round_up_to, stride_of. destruct (Z.ltb_spec align 2).
  - destruct (Z.ltb_spec what (2 ^ 64)); [reflexivity|lia].
  - pose proof (Z.mod_pos_bound what align ltac:(lia)).
    destruct (Z.eqb_spec (what mod align) 0).
    + destruct (Z.ltb_spec what (2 ^ 64)); [reflexivity|lia].
    + apply safe_add_spec; lia.
Qed.

Lemma bits_cases d : bits_per_channel d = 0 \/ bits_per_channel d = 8 \/ bits_per_channel d = 16 \/ bits_per_channel d = 32.
Proof. unfold bits_per_channel. repeat destruct (_ =? _); auto. Qed.

Lemma get_min_size_spec xsize ysize data_type fch align nch row_bytes stride :
  0 <= xsize < 2 ^ 64 -> 1 <= ysize < 2 ^ 64 -> 0 <= fch <= 4 -> 0 <= align < 2 ^ 64 -> 0 <= nch < 2 ^ 64 ->
  bits_per_channel data_type <> 0 ->
  let channels := if nch =? 0 then fch else nch in
  let row_bits := xsize * channels * bits_per_channel data_type in
  row_layout row_bits align row_bytes stride ->
  get_min_size xsize ysize data_type fch align nch =
    if (row_bits <? 2 ^ 64) && (stride <? 2 ^ 64) && ((ysize - 1) * stride + row_bytes <? 2 ^ 64)
    then Some ((ysize - 1) * stride + row_bytes) else None.
Proof.
  intros Hx Hy Hf Ha Hn Hb channels row_bits [L1 L2]. unfold get_min_size.
  destruct (Z.gtb_spec fch 4); [lia|]. destruct (Z.eqb_spec (bits_per_channel data_type) 0); [contradiction|].
  fold channels. assert (0 <= channels < 2 ^ 64) as Hc by (unfold channels; destruct (nch =? 0); lia).
  pose proof (bits_cases data_type) as HB. set (bits := bits_per_channel data_type) in *.
  assert (bits = 8 \/ bits = 16 \/ bits = 32) as HB' by tauto.
  assert (0 <= xsize * channels) as Hxc by (apply Z.mul_nonneg_nonneg; lia).
  rewrite safe_mul_spec by assumption.
  destruct (Z.ltb_spec (xsize * channels) (2 ^ 64)) as [Hxc1|Hxc1].
  2:{ assert (xsize * channels * 1 <= row_bits) by (unfold row_bits; apply Z.mul_le_mono_nonneg_l; lia).
      destruct (Z.ltb_spec row_bits (2 ^ 64)); [lia|reflexivity]. }
  rewrite safe_mul_spec by lia. fold row_bits.
  destruct (Z.ltb_spec row_bits (2 ^ 64)) as [Hr|Hr]; [|reflexivity]. cbn [andb].
  assert (exists k, row_bits = 8 * k) as [k Hk].
  { unfold row_bits. destruct HB' as [->|[->| ->]].
    - exists (xsize * channels). ring.
    - exists (xsize * channels * 2). ring.
    - exists (xsize * channels * 4). ring. }
  assert (0 <= row_bits) as Hr0 by (unfold row_bits; apply Z.mul_nonneg_nonneg; lia).
  assert (row_bytes = k) as -> by (destruct L1 as [L1 _]; lia).
  assert (div_ceil row_bits 8 = k) as ->.
  { unfold div_ceil, w64. rewrite Z.mod_small by lia. lia. }
  rewrite safe_round_up_spec by lia.
  assert (stride_of k align = stride) as ->.
  { apply least_multiple_unique with (Z.max 1 align) k; [lia|apply stride_layout; lia|exact L2]. }
  destruct (Z.ltb_spec stride (2 ^ 64)) as [Hs|Hs]; [|reflexivity]. cbn [andb].
  assert (0 <= stride) by (destruct L2; lia).
  assert (0 <= (ysize - 1) * stride) by (apply Z.mul_nonneg_nonneg; lia).
  assert ((if ysize >? 1 then safe_mul stride (ysize - 1) else Some 0)
          = if (ysize - 1) * stride <? 2 ^ 64 then Some ((ysize - 1) * stride) else None) as ->.
  { destruct (Z.gtb_spec ysize 1).
    - rewrite safe_mul_spec by lia. now rewrite Z.mul_comm.
    - replace (ysize - 1) with 0 by lia. reflexivity. }
  destruct (Z.ltb_spec ((ysize - 1) * stride) (2 ^ 64)).
  - rewrite safe_add_spec by lia. reflexivity.
  - destruct (Z.ltb_spec ((ysize - 1) * stride + k) (2 ^ 64)); [lia|reflexivity].
Qed.

Lemma get_min_size_refuses xsize ysize data_type fch align nch :
  bits_per_channel data_type = 0 \/ fch > 4 -> get_min_size xsize ysize data_type fch align nch = None.
Proof.
  intros H. unfold get_min_size. destruct (Z.gtb_spec fch 4); [reflexivity|].
  destruct H as [->|]; [reflexivity|lia].
Qed.

(* ---- exact characterisation of the box parser ---- *)
Lemma app_eq_len {A} (a b c d : list A) : length a = length c -> a ++ b = c ++ d -> a = c /\ b = d.
Proof.
  intros Hl He. pose proof (f_equal (firstn (length a)) He) as H1.
  rewrite firstn_app_exact, Hl, firstn_app_exact in H1. subst c. split; [reflexivity|].
  now apply app_inv_head in He.
Qed.

Lemma box_header_unique s h t n h' t' n' :
  box_header s h t n -> box_header s h' t' n' -> h = h' /\ t = t' /\ n = n'.
Proof.
  intros [sz t1 r E L1 L2 N|sz t1 sz64 r E L1 L2 L3 N] [sz' t2 r' E' L1' L2' N'|sz' t2 sz64' r' E' L1' L2' L3' N'];
    rewrite E in E'; apply app_eq_len in E' as [-> E']; try congruence;
    apply app_eq_len in E' as [-> E']; try congruence; auto.
  - apply app_eq_len in E' as [-> E']; try congruence; auto.
Qed.

Lemma box_header_length s h t n : box_header s h t n -> h <= zlen s /\ (h = 8 \/ h = 16).
Proof.
  intros [sz t1 r E L1 L2 N|sz t1 sz64 r E L1 L2 L3 N]; subst s; rewrite !zlen_app; pose proof (zlen_nonneg r);
    unfold zlen at 1 2; try unfold zlen at 1; try rewrite L1; try rewrite L2; try rewrite L3; lia.
Qed.

Lemma parse_exact inp pos file_pos :
  bytes_ok inp -> zlen inp < 2 ^ 64 -> 0 <= pos <= zlen inp -> 0 <= file_pos < 2 ^ 64 ->
  let s := skipn (Z.to_nat pos) inp in
  exists r, parse_box_header inp pos file_pos = Some r /\
  match r with
  | BoxOk n t h => box_header s h t n /\ box_size_ok h n file_pos
  | BoxError => exists h t n, box_header s h t n /\ ~ box_size_ok h n file_pos
  | BoxNeedMore k =>
      zlen s < k /\ (forall r h t n, box_header (s ++ r) h t n -> k <= h)
  end.
Proof.
  intros Hb Hl Hp Hf s. destruct (parse_eq inp pos file_pos Hb Hl Hp Hf) as (P1 & P2 & P3). fold s in P2, P3.
  assert (zlen s = zlen inp - pos) as Hzs by (unfold s, zlen; rewrite skipn_length; unfold zlen in *; lia).
  destruct (Z.lt_ge_cases (zlen s) 8) as [H8|H8].
  { exists (BoxNeedMore 8). split; [apply P1; lia|]. split; [exact H8|].
    intros r h t n H. apply box_header_length in H. lia. }
  assert (s = firstn 4 s ++ firstn 4 (skipn 4 s) ++ skipn 8 s) as Hs.
  { rewrite <- (firstn_skipn 4 s) at 1. f_equal. exact (skipn_split s 4 4). }
  assert (length (firstn 4 s) = 4%nat) as L1 by (rewrite firstn_length; unfold zlen in *; lia).
  assert (length (firstn 4 (skipn 4 s)) = 4%nat) as L2 by (apply length_firstn_skipn; unfold zlen in *; lia).
  destruct (Z.eq_dec (big_endian (firstn 4 s)) 1) as [E1|E1].
  - destruct (Z.lt_ge_cases (zlen s) 16) as [H16|H16].
    + exists (BoxNeedMore 16). split; [apply P2; lia|]. split; [exact H16|].
      intros r h t n H. destruct H as [sz t r' E L1' L2' N|]; [|lia]. exfalso. apply N.
      rewrite Hs, <- app_assoc in E. apply app_eq_len in E as [<- _]; [exact E1|congruence].
    + assert (box_header s 16 (firstn 4 (skipn 4 s)) (big_endian (firstn 8 (skipn 8 s)))) as BH.
      { eapply box_large with (r := skipn 16 s); [|exact L1|exact L2| |exact E1].
        - rewrite Hs at 1. do 2 f_equal. exact (skipn_split s 8 8).
        - apply length_firstn_skipn. unfold zlen in *; lia. }
      destruct (P3 _ _ _ BH) as [Q1 Q2].
      assert (box_size_ok 16 (big_endian (firstn 8 (skipn 8 s))) file_pos \/ ~ box_size_ok 16 (big_endian (firstn 8 (skipn 8 s))) file_pos) as [D|D].
      { unfold box_size_ok. lia. }
      * eexists. split; [apply Q1, D|]. split; [exact BH|exact D].
      * eexists. split; [apply Q2, D|]. do 3 eexists. split; [exact BH|exact D].
  - assert (box_header s 8 (firstn 4 (skipn 4 s)) (big_endian (firstn 4 s))) as BH
      by (eapply box_small; [exact Hs|exact L1|exact L2|exact E1]).
    destruct (P3 _ _ _ BH) as [Q1 Q2].
    assert (box_size_ok 8 (big_endian (firstn 4 s)) file_pos \/ ~ box_size_ok 8 (big_endian (firstn 4 s)) file_pos) as [D|D].
    { unfold box_size_ok. lia. }
    + eexists. split; [apply Q1, D|]. split; [exact BH|exact D].
    + eexists. split; [apply Q2, D|]. do 3 eexists. split; [exact BH|exact D].
Qed.

Lemma write_box_header_large_refuted :
  exists type size, length type = 4%nat /\ 0 <= size < 2 ^ 63 /\
    forall h n, box_header (write_box_header type size false false) h type n -> n - h <> size.
Proof.
  exists [106; 120; 108; 99], (2 ^ 32 - 8). split; [reflexivity|]. split; [lia|].
  intros h n H. pose proof (box_header_length _ _ _ _ H) as [Hl _].
  assert (box_header (write_box_header [106; 120; 108; 99] (2 ^ 32 - 8) false false) 8 [106; 120; 108; 99] 0) as B.
  { eapply (box_small _ [0; 0; 0; 0] _ []); try reflexivity. cbn. lia. }
  destruct (box_header_unique _ _ _ _ _ _ _ H B) as (-> & _ & ->). lia.
Qed.

Lemma container_header_signature v r : signature_check (container_header v ++ r) = SigContainer /\
  box_header (skipn 12 (container_header v ++ r)) 8 [102; 116; 121; 112] 20.
Proof.
  split.
  - apply signature_classifies. unfold container_header. rewrite <- !app_assoc. eexists. reflexivity.
  - change (skipn 12 (container_header v ++ r)) with
      (write_box_header [102; 116; 121; 112] 12 false false ++ [106; 120; 108; 32; 0; 0; 0; w8 v; 106; 120; 108; 32] ++ r).
    apply (written_header_small [102; 116; 121; 112] 12); [reflexivity|lia].
Qed.
