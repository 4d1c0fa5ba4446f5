From Verif Require Import Base BitReaderModel BitReaderSpec BitReaderProofs BitProg.

Lemma bits_at_stream bs p n : bits_at (bytes_bits bs) p n = stream_value bs p n.
Proof. reflexivity. Qed.

Lemma bits_at_range s p n : 0 <= n -> 0 <= bits_at s p n < 2 ^ n.
Proof.
  intros Hn. unfold bits_at. pose proof (of_bits_range (window s (Z.to_nat p) (Z.to_nat n))) as H.
  unfold zlen in H. rewrite length_window in H. rewrite Z2Nat.id in H by lia. exact H.
Qed.

Lemma zlen_bytes_bits bs : zlen (bytes_bits bs) = 8 * zlen bs.
Proof. unfold zlen. rewrite length_bytes_bits. lia. Qed.

(* Every program behaves on the reader as on the bit string. *)
Lemma run_reader_bits {A} (p : rprog A) : forall bs r pos a av pos' av',
  bytes_ok bs ->
  RInv bs r (mkCursor pos av) ->
  run_bits (bytes_bits bs) pos av p = Some (a, (pos', av')) ->
  exists r', run_reader bs r p = Some (a, r') /\ RInv bs r' (mkCursor pos' av').
Proof.
  induction p as [a0|n k IH|n k IH|k IH|k IH|k IH|k IH|n k IH|n k IH];
    intros bs r pos a av pos' av' Hok HI; cbn [run_bits run_reader].
  - intros [= <- <- <-]. eauto.
  - destruct ((0 <=? n) && (n <=? 56)) eqn:Hn; [|discriminate].
    intros H.
    pose proof (fun out c' => rstep_inv bs r (mkCursor pos av) (ORead n) out c' Hok HI) as Hs.
    cbn [spec_step cpos] in Hs. rewrite Hn in Hs.
    destruct (Hs _ _ eq_refl) as (r' & Hr & HI').
    cbn [rstep] in Hr. destruct (read_bits bs r n) as [[v r1]|]; [|discriminate].
    injection Hr as -> ->. rewrite bits_at_stream in H. eapply IH; eauto.
  - destruct (0 <=? n) eqn:Hn; [|discriminate]. intros H.
    pose proof (fun out c' => rstep_inv bs r (mkCursor pos av) (OSkip n) out c' Hok HI) as Hs.
    cbn [spec_step cpos] in Hs. rewrite Hn in Hs.
    destruct (Hs _ _ eq_refl) as (r' & Hr & HI').
    cbn [rstep] in Hr. destruct (skip_bits bs r n) as [r1|]; [|discriminate].
    injection Hr as ->. eapply IH; eauto.
  - intros H.
    pose proof (fun out c' => rstep_inv bs r (mkCursor pos av) OJump out c' Hok HI) as Hs.
    cbn [spec_step cpos] in Hs.
    destruct (Hs _ _ eq_refl) as (r' & Hr & HI').
    cbn [rstep] in Hr. destruct (jump_to_byte_boundary bs r) as [[b r1]|]; [|discriminate].
    injection Hr as -> ->. eapply IH; eauto.
  - intros H.
    rewrite (check_inv bs r (mkCursor pos av) HI). cbn [cpos].
    rewrite zlen_bytes_bits in H. eapply IH; eauto.
  - rewrite zlen_bytes_bits. destruct (Z.leb_spec pos (8 * zlen bs)); [|discriminate].
    intros H0.
    assert (total_bits_consumed r = pos) as ->.
    { destruct HI. cbn [cpos] in *. lia. }
    eapply IH; eauto.
  - intros H.
    pose proof (fun out c' => rstep_inv bs r (mkCursor pos av) ORefill out c' Hok HI) as Hs.
    cbn [spec_step cpos] in Hs.
    destruct (Hs _ _ eq_refl) as (r' & Hr & HI').
    cbn [rstep] in Hr. destruct (refill bs r) as [r1|]; [|discriminate].
    injection Hr as ->. eapply IH; eauto.
  - destruct ((0 <=? n) && (n <=? av)) eqn:Hn; [|discriminate]. intros H.
    pose proof (fun out c' => rstep_inv bs r (mkCursor pos av) (OPeek n) out c' Hok HI) as Hs.
    cbn [spec_step cpos cavail] in Hs. rewrite Hn in Hs.
    destruct (Hs _ _ eq_refl) as (r' & Hr & HI').
    cbn [rstep] in Hr. destruct (peek_bits r n) as [v|]; [|discriminate].
    injection Hr as -> ->. rewrite bits_at_stream in H. eapply IH; eauto.
  - destruct ((0 <=? n) && (n <=? av)) eqn:Hn; [|discriminate]. intros H.
    pose proof (fun out c' => rstep_inv bs r (mkCursor pos av) (OConsume n) out c' Hok HI) as Hs.
    cbn [spec_step cpos cavail] in Hs. rewrite Hn in Hs.
    destruct (Hs _ _ eq_refl) as (r' & Hr & HI').
    cbn [rstep] in Hr. destruct (consume r n) as [r1|]; [|discriminate].
    injection Hr as ->. eapply IH; eauto.
Qed.

Lemma reader_runs_bits {A} (p : rprog A) bs a pos' av' :
  bytes_ok bs -> run_bits (bytes_bits bs) 0 0 p = Some (a, (pos', av')) ->
  exists r0 r', reader_init bs = Some r0 /\ run_reader bs r0 p = Some (a, r') /\
    (pos' <= 8 * zlen bs -> total_bits_consumed r' = pos') /\
    all_reads_within_bounds bs r' = (pos' <=? 8 * zlen bs).
Proof.
  intros Hok H. destruct (reader_init_inv bs Hok) as (r0 & Hr0 & HI0).
  assert (RInv bs r0 (mkCursor 0 0)) as HI1.
  { eapply RInv_avail; [exact HI0| |lia]. destruct HI0. lia. }
  destruct (run_reader_bits p bs r0 0 a 0 pos' av' Hok HI1 H) as (r' & Hr & HI).
  exists r0, r'. repeat split; auto.
  - intros. destruct HI. cbn [cpos] in *. lia.
  - apply (check_inv bs r' _ HI).
Qed.

Lemma run_bits_bind {A B} (p : rprog A) (f : A -> rprog B) : forall s pos av,
  run_bits s pos av (bind p f) =
  match run_bits s pos av p with None => None | Some (a, (pos', av')) => run_bits s pos' av' (f a) end.
Proof.
  induction p as [a0|n k IH|n k IH|k IH|k IH|k IH|k IH|n k IH|n k IH]; intros s pos av; cbn [bind run_bits]; auto.
  - destruct (_ && _); auto.
  - destruct (_ <=? _); auto.
  - destruct (_ <=? _); auto.
  - destruct (_ && _); auto.
  - destruct (_ && _); auto.
Qed.

(* The position never decreases. *)
Lemma run_bits_mono {A} (p : rprog A) : forall s pos av a pos' av',
  run_bits s pos av p = Some (a, (pos', av')) -> pos <= pos'.
Proof.
  induction p as [a0|n k IH|n k IH|k IH|k IH|k IH|k IH|n k IH|n k IH]; intros s pos av a pos' av'; cbn [run_bits].
  - intros [= <- <- <-]. lia.
  - destruct ((0 <=? n) && (n <=? 56)) eqn:Hn; [|discriminate]. intros H. apply IH in H. lia.
  - destruct (Z.leb_spec 0 n); [|discriminate]. intros H0. apply IH in H0. lia.
  - intros H. apply IH in H. lia.
  - intros H. apply IH in H. lia.
  - destruct (_ <=? _); [|discriminate]. intros H. apply IH in H. lia.
  - intros H. apply IH in H. lia.
  - destruct (_ && _); [|discriminate]. intros H. apply IH in H. lia.
  - destruct ((0 <=? n) && (n <=? av)) eqn:Hn; [|discriminate]. intros H. apply IH in H. lia.
Qed.

Lemma bits_at_app s t p n : 0 <= p -> 0 <= n -> p + n <= zlen s -> bits_at (s ++ t) p n = bits_at s p n.
Proof.
  intros Hp Hn Hl. unfold bits_at. f_equal. unfold window. apply map_ext_in.
  intros i Hi. apply in_seq in Hi. apply app_nth1. unfold zlen in Hl. lia.
Qed.

Lemma bits_at_low s t p n k : 0 <= p -> 0 <= k <= n -> bits_at s p k = bits_at t p k ->
  bits_at s p n mod 2 ^ k = bits_at t p n mod 2 ^ k.
Proof.
  intros Hp Hk H.
  assert (forall u, bits_at u p n mod 2 ^ k = bits_at u p k) as Hu.
  { intros u. unfold bits_at. apply Z.bits_inj'. intros i Hi.
    destruct (Z.ltb_spec i k).
    - rewrite Z.mod_pow2_bits_low by lia. replace i with (Z.of_nat (Z.to_nat i)) by lia.
      rewrite !testbit_of_bits. rewrite !nth_window by lia. reflexivity.
    - rewrite Z.mod_pow2_bits_high by lia. symmetry. eapply testbit_small; [apply bits_at_range; lia|lia]. }
  rewrite !Hu. exact H.
Qed.

(* [parses p e a]: wherever the bits [e] stand in a string, reading them with [p]
   yields [a] and consumes exactly [e]. *)
Definition parses {A} (p : rprog A) (e : list bool) (a : A) : Prop :=
  forall pre post av, 0 <= av <= 56 ->
  exists av', run_bits (pre ++ e ++ post) (zlen pre) av p = Some (a, (zlen pre + zlen e, av')) /\ 0 <= av' <= 56.

(* The same for code that relies on bits having been buffered by its caller: at least
   [need] bits are available, and afterwards only the consumed ones are gone. *)
Definition parses_buffered {A} (need : Z) (p : rprog A) (e : list bool) (a : A) : Prop :=
  forall pre post av, need <= av <= 56 ->
  exists av', run_bits (pre ++ e ++ post) (zlen pre) av p = Some (a, (zlen pre + zlen e, av')) /\
    av - zlen e <= av' <= 56.

Lemma parses_ret {A} (a : A) : parses (Ret a) [] a.
Proof. intros pre post av Hav. exists av. cbn [run_bits]. split; [|lia]. f_equal. f_equal. f_equal. cbn. lia. Qed.

Lemma parses_bind {A B} (p : rprog A) (f : A -> rprog B) e1 e2 a b :
  parses p e1 a -> parses (f a) e2 b -> parses (bind p f) (e1 ++ e2) b.
Proof.
  intros H1 H2 pre post av Hav. rewrite run_bits_bind. rewrite <- (app_assoc e1).
  destruct (H1 pre (e2 ++ post) av Hav) as (av1 & -> & Hav1).
  destruct (H2 (pre ++ e1) post av1 Hav1) as (av2 & Hr & Hav2). rewrite zlen_app in Hr.
  rewrite <- app_assoc in Hr. exists av2. rewrite Hr, zlen_app. split; [|lia].
  f_equal. f_equal. f_equal. lia.
Qed.

Lemma parses_bind_nil {A B} (p : rprog A) (f : A -> rprog B) e a b :
  parses p e a -> parses (f a) [] b -> parses (bind p f) e b.
Proof. intros H1 H2. rewrite <- (app_nil_r e). eapply parses_bind; eauto. Qed.

Lemma bits_at_exact pre v n post : 0 <= n -> 0 <= v < 2 ^ n ->
  bits_at (pre ++ to_bits (Z.to_nat n) v ++ post) (zlen pre) n = v.
Proof.
  intros Hn Hv. unfold bits_at. unfold zlen. rewrite Nat2Z.id.
  pose proof (window_app_exact pre (to_bits (Z.to_nat n) v) post) as Hw.
  rewrite length_to_bits in Hw. rewrite Hw. apply of_bits_to_bits.
  rewrite Z2Nat.id by lia. lia.
Qed.

Lemma parses_read {A} n v (k : Z -> rprog A) e a :
  0 <= n <= 56 -> 0 <= v < 2 ^ n -> parses (k v) e a ->
  parses (Read n k) (to_bits (Z.to_nat n) v ++ e) a.
Proof.
  intros Hn Hv H pre post av Hav. cbn [run_bits].
  destruct ((0 <=? n) && (n <=? 56)) eqn:E; [|lia].
  rewrite <- (app_assoc (to_bits _ _)). rewrite bits_at_exact by lia.
  destruct (H (pre ++ to_bits (Z.to_nat n) v) post (56 - n) ltac:(lia)) as (av' & Hr & Hav').
  rewrite zlen_app, zlen_to_bits, Z2Nat.id in Hr by lia.
  rewrite <- app_assoc in Hr. exists av'. rewrite Hr. split; [|lia].
  rewrite zlen_app, zlen_to_bits, Z2Nat.id by lia. f_equal. f_equal. f_equal. lia.
Qed.

Lemma parses_rd n v :
  0 <= n <= 56 -> 0 <= v < 2 ^ n -> parses (rd n) (to_bits (Z.to_nat n) v) v.
Proof.
  intros Hn Hv. unfold rd. rewrite <- (app_nil_r (to_bits _ _)).
  apply parses_read; auto. apply parses_ret.
Qed.

Lemma parses_check {A} (k : bool -> rprog A) e a :
  parses (k true) e a -> parses (Check k) e a.
Proof.
  intros H pre post av Hav. cbn [run_bits].
  pose proof (zlen_nonneg e). pose proof (zlen_nonneg post).
  replace (zlen pre <=? zlen (pre ++ e ++ post)) with true by (rewrite !zlen_app; lia).
  apply H. exact Hav.
Qed.

Lemma parses_refill {A} (k : rprog A) e a need :
  need <= 56 -> 0 <= zlen e <= 56 -> parses_buffered need k e a -> parses (Refill k) e a.
Proof.
  intros Hn He H pre post av Hav. cbn [run_bits].
  destruct (H pre post 56 ltac:(lia)) as (av' & Hr & Hav'). exists av'. split; [exact Hr|lia].
Qed.

Lemma buffered_ret {A} (a : A) : parses_buffered 0 (Ret a) [] a.
Proof. intros pre post av Hav. exists av. cbn [run_bits]. split; [f_equal; f_equal; f_equal|]; cbn; lia. Qed.

Lemma buffered_weaken {A} n m (p : rprog A) e a : n <= m -> parses_buffered n p e a -> parses_buffered m p e a.
Proof. intros Hnm H pre post av Hav. apply H. lia. Qed.

Lemma buffered_bind {A B} n m (p : rprog A) (f : A -> rprog B) e1 e2 a b :
  parses_buffered n p e1 a -> parses_buffered m (f a) e2 b -> n <= zlen e1 + m ->
  parses_buffered (zlen e1 + m) (bind p f) (e1 ++ e2) b.
Proof.
  intros H1 H2 Hnm pre post av Hav. rewrite run_bits_bind. rewrite <- (app_assoc e1).
  destruct (H1 pre (e2 ++ post) av ltac:(lia)) as (av1 & -> & Hav1).
  destruct (H2 (pre ++ e1) post av1 ltac:(lia)) as (av2 & Hr & Hav2). rewrite zlen_app in Hr.
  rewrite <- app_assoc in Hr. exists av2. rewrite Hr, zlen_app. split; [|lia].
  f_equal. f_equal. f_equal. lia.
Qed.

Lemma buffered_consume {A} n v (k : rprog A) e a m :
  0 <= n -> 0 <= m -> parses_buffered m k e a ->
  parses_buffered (n + m) (Consume n k) (to_bits (Z.to_nat n) v ++ e) a.
Proof.
  intros Hn Hm H pre post av Hav. cbn [run_bits].
  destruct ((0 <=? n) && (n <=? av)) eqn:E; [|lia].
  rewrite <- (app_assoc (to_bits _ _)).
  destruct (H (pre ++ to_bits (Z.to_nat n) v) post (av - n) ltac:(lia)) as (av' & Hr & Hav').
  rewrite zlen_app, zlen_to_bits, Z2Nat.id in Hr by lia.
  rewrite <- app_assoc in Hr. exists av'. rewrite Hr.
  rewrite zlen_app, zlen_to_bits, Z2Nat.id by lia. split; [|lia].
  f_equal. f_equal. f_equal. lia.
Qed.

Lemma buffered_peek_consume {A} n v (k : Z -> rprog A) e a m :
  0 <= n -> 0 <= m -> 0 <= v < 2 ^ n -> parses_buffered m (k v) e a ->
  parses_buffered (n + m) (Peek n (fun x => Consume n (k x))) (to_bits (Z.to_nat n) v ++ e) a.
Proof.
  intros Hn Hm Hv H pre post av Hav.
  destruct (buffered_consume n v (k v) e a m Hn Hm H pre post av Hav) as (av' & Hr & Hav').
  exists av'. split; [|exact Hav']. rewrite <- Hr.
  rewrite <- (app_assoc (to_bits _ _)). cbn [run_bits].
  destruct ((0 <=? n) && (n <=? av)) eqn:E; [|lia].
  rewrite bits_at_exact by lia. reflexivity.
Qed.

Lemma parses_of_buffered {A} (p : rprog A) e a : parses_buffered 0 p e a -> e = [] -> parses p e a.
Proof. intros H -> pre post av Hav. destruct (H pre post av Hav) as (av' & Hr & Hav'). exists av'. cbn in Hav'. split; [exact Hr|lia]. Qed.

Lemma parses_pos {A} (k : Z -> rprog A) e a :
  (forall v, 0 <= v -> parses (k v) e a) -> parses (Pos k) e a.
Proof.
  intros H pre post av Hav. cbn [run_bits].
  pose proof (zlen_nonneg e). pose proof (zlen_nonneg post). pose proof (zlen_nonneg pre).
  replace (zlen pre <=? zlen (pre ++ e ++ post)) with true by (rewrite !zlen_app; lia).
  apply H; lia.
Qed.

Lemma parses_skip {A} (k : rprog A) e1 e2 a :
  parses k e2 a -> parses (Skip (zlen e1) k) (e1 ++ e2) a.
Proof.
  intros H pre post av Hav. cbn [run_bits]. pose proof (zlen_nonneg e1).
  destruct (Z.leb_spec 0 (zlen e1)); [|lia].
  destruct (H (pre ++ e1) post 0 ltac:(lia)) as (av' & Hr & Hav').
  rewrite zlen_app in Hr. rewrite <- app_assoc in Hr. rewrite <- app_assoc. exists av'. rewrite Hr, zlen_app.
  split; [|lia]. f_equal. f_equal. f_equal. lia.
Qed.

(* Reading from a byte string that consists of some encoded fields and padding. *)
Lemma parses_reader {A} (p : rprog A) e a bs pad :
  bytes_ok bs -> bytes_bits bs = e ++ pad -> parses p e a ->
  exists r0 r', reader_init bs = Some r0 /\ run_reader bs r0 p = Some (a, r') /\
    total_bits_consumed r' = zlen e /\ all_reads_within_bounds bs r' = true.
Proof.
  intros Hok Hb H. destruct (H [] pad 0 ltac:(lia)) as (av' & Hr & _). cbn [app] in Hr.
  change (zlen (@nil bool)) with 0 in Hr. rewrite Z.add_0_l in Hr. rewrite <- Hb in Hr.
  destruct (reader_runs_bits p bs a _ _ Hok Hr) as (r0 & r' & H1 & H2 & H3 & H4).
  assert (zlen e <= 8 * zlen bs) as Hle.
  { rewrite <- zlen_bytes_bits, Hb, zlen_app. pose proof (zlen_nonneg pad). lia. }
  exists r0, r'. repeat split; auto. rewrite H4. lia.
Qed.

Lemma parses_bits_of {A} (p : rprog A) e1 e2 a : e1 = e2 -> parses p e1 a -> parses p e2 a.
Proof. intros ->. auto. Qed.

Lemma run_reader_bind {A B} (p : rprog A) (f : A -> rprog B) : forall bs r,
  run_reader bs r (bind p f) =
  match run_reader bs r p with None => None | Some (a, r') => run_reader bs r' (f a) end.
Proof.
  induction p as [a0|n k IH|n k IH|k IH|k IH|k IH|k IH|n k IH|n k IH]; intros bs r; cbn [bind run_reader]; auto.
  - destruct (read_bits bs r n) as [[v r']|]; auto.
  - destruct (skip_bits bs r n) as [r'|]; auto.
  - destruct (jump_to_byte_boundary bs r) as [[b r']|]; auto.
  - destruct (refill bs r) as [r'|]; auto.
  - destruct (peek_bits r n) as [v|]; auto.
  - destruct (consume r n) as [r'|]; auto.
Qed.
