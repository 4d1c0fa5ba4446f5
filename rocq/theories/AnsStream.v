(* Token streams: what WriteTokens writes and how the reader reads it. *)
From Verif Require Import Base BitProg BitProgProofs ListAux HybridUintModel HybridUintSpec HybridUintProofs FieldsProofs
  AliasModel AliasSpec AliasProofs AnsModel AnsSpec AnsProofs TokProg Wrap.

(* ---- the reversed bit buffer ---- *)
Definition rb_bits (r : rev_buf) : list bool := to_bits (Z.to_nat (numallbits r)) (allbits r) ++ fields_bits (out r).
Definition rb_ok (r : rev_buf) : Prop := field_ok (numallbits r, allbits r) /\ Forall field_ok (out r).

Lemma to_bits_combine n m a b : 0 <= n -> 0 <= m -> 0 <= a < 2 ^ n ->
  to_bits (Z.to_nat (n + m)) (a + b * 2 ^ n) = to_bits (Z.to_nat n) a ++ to_bits (Z.to_nat m) b.
Proof.
  intros Hn Hm Ha. rewrite Z2Nat.inj_add by lia. rewrite to_bits_app, Z2Nat.id by lia.
  rewrite Z.div_add by (pose proof (Z.pow_pos_nonneg 2 n); lia). rewrite Z.div_small by lia. rewrite Z.add_0_l. f_equal.
  rewrite <- (to_bits_of_bits (to_bits (Z.to_nat n) a)), length_to_bits, of_bits_to_bits by (rewrite Z2Nat.id; lia).
  rewrite <- (to_bits_of_bits (to_bits (Z.to_nat n) (a + b * 2 ^ n))), length_to_bits, of_bits_to_bits_mod, Z2Nat.id by lia.
  rewrite Z.mod_add by (pose proof (Z.pow_pos_nonneg 2 n); lia). rewrite Z.mod_small by lia. reflexivity.
Qed.

Lemma addbits_ok r b nb : rb_ok r -> 0 <= nb <= 56 -> 0 <= b < 2 ^ nb ->
  rb_ok (addbits r b nb) /\ rb_bits (addbits r b nb) = to_bits (Z.to_nat nb) b ++ rb_bits r.
Proof.
  intros ((H1 & H2) & H3) Hnb Hb. cbn [fst snd] in *. unfold addbits.
  destruct (Z.eqb_spec nb 0) as [->|N]; [split; [split; [split|]; assumption|reflexivity]|].
  set (r' := if kMaxBitsPerCall <? numallbits r + nb then RB 0 0 ((numallbits r, allbits r) :: out r) else r).
  assert (K : rb_ok r' /\ rb_bits r' = rb_bits r /\ numallbits r' + nb <= 56).
  { unfold r', kMaxBitsPerCall. destruct (Z.ltb_spec 56 (numallbits r + nb)).
    - split; [split; [split; cbn; lia|constructor; [split; assumption|assumption]]|]. split; [reflexivity|cbn; lia].
    - split; [split; [split|]; assumption|]. split; [reflexivity|lia]. }
  destruct K as (((K1 & K2) & K3) & Kb & Kn). cbn [fst snd] in *. rewrite <- Kb. clearbody r'.
  assert (P : allbits r' * 2 ^ nb < 2 ^ (numallbits r' + nb)).
  { rewrite Z.pow_add_r by lia. apply Z.mul_lt_mono_pos_r; [apply Z.pow_pos_nonneg; lia|lia]. }
  assert (P56 : 2 ^ (numallbits r' + nb) <= 2 ^ 56) by (apply Z.pow_le_mono_r; lia).
  assert (P0 : 0 <= allbits r' * 2 ^ nb) by (apply Z.mul_nonneg_nonneg; [lia|apply Z.pow_nonneg; lia]).
  rewrite Z.shiftl_mul_pow2 by lia. replace (w64 (allbits r' * 2 ^ nb)) with (allbits r' * 2 ^ nb) by (unfold w64; rewrite Z.mod_small; lia).
  rewrite lor_add_pow by lia. split.
  - split; [|exact K3]. split; cbn [fst snd numallbits allbits]; [lia|]. split; [lia|].
    assert (allbits r' + 1 <= 2 ^ numallbits r') by lia.
    assert ((allbits r' + 1) * 2 ^ nb <= 2 ^ (numallbits r' + nb)).
    { rewrite Z.pow_add_r by lia. apply Z.mul_le_mono_nonneg_r; [apply Z.pow_nonneg; lia|lia]. }
    lia.
  - unfold rb_bits. cbn [numallbits allbits out]. rewrite Z.add_comm, (Z.add_comm _ b), to_bits_combine by lia.
    now rewrite <- app_assoc.
Qed.

(* ---- the raw symbols of a stream ---- *)
Record raw := Raw { rj : Z; rs : Z; rcfg : hconfig; rtok : Z; rv : Z }.

Definition FINAL : Z := Z.shiftl ANS_SIGNATURE 16.

Inductive chain (dc : ans_code) : Z -> list raw -> list bool -> Prop :=
| chain_nil : chain dc FINAL [] []
| chain_cons x x' r l e1 e2 e :
    parses_buffered 16 (read_symbol dc (rj r) x) e1 (Some (rs r, x')) -> zlen e1 <= 16 ->
    parses_buffered 31 (hybrid_read (rcfg r) (rtok r)) e2 (rv r) -> zlen e2 <= 31 ->
    chain dc x' l e -> chain dc x (r :: l) (e1 ++ e2 ++ e).

(* a token as a raw symbol *)
Definition raw_token (codes : enc_codes) (dc : ans_code) (off : Z) (t : token) (r : raw) : Prop :=
  is_u32 (value t) /\ znth (context_map codes) (off + context t) = Some (rj r) /\
  (if is_lz77_length t then rcfg r = length_uint_config (e_lz77 codes) else znth (e_uint_config codes) (rj r) = Some (rcfg r)) /\
  (exists nb b, hybrid_encode (rcfg r) (value t) = (rtok r, nb, b)) /\
  rs r = rtok r + (if is_lz77_length t then min_symbol (e_lz77 codes) else 0) /\ rs r < 2 ^ 32 /\
  (lz_enabled (e_lz77 codes) = false -> is_lz77_length t = false) /\
  rv r = value t /\ codable codes dc (rj r) (rs r).

Section Stream.
Variables (codes : enc_codes) (dc : ans_code) (off : Z).
Hypothesis M : codes_match codes dc.

Lemma cfg_of_raw t r : raw_token codes dc off t r -> hconfig_ok (rcfg r).
Proof.
  destruct M as (_ & _ & F & _ & ML & _). intros (_ & _ & C & _ & _ & _ & Hz & _). destruct (is_lz77_length t).
  - destruct (lz_enabled (e_lz77 codes)); [|discriminate (Hz eq_refl)]. destruct (ML eq_refl) as (_ & _ & _ & _ & El & Hl). rewrite C, <- El. exact Hl.
  - rewrite Forall_forall in F. apply F. unfold znth in C. destruct (_ <? 0); [discriminate|]. eapply nth_error_In; eauto.
Qed.

(* hybrid integers *)
Lemma raw_hybrid t r nb b : raw_token codes dc off t r -> hybrid_encode (rcfg r) (value t) = (rtok r, nb, b) ->
  0 <= rtok r /\ 0 <= nb <= 31 /\ 0 <= b < 2 ^ nb /\
  parses_buffered 31 (hybrid_read (rcfg r) (rtok r)) (to_bits (Z.to_nat nb) b) (rv r).
Proof.
  intros R E. pose proof (cfg_of_raw t r R) as C. destruct R as (U & _ & _ & _ & _ & _ & _ & V & _).
  destruct (hybrid_roundtrip _ _ _ _ _ C U E) as (T & N & B & P). rewrite V. unfold is_u32 in T.
  split; [lia|]. split; [exact N|]. split; [exact B|]. eapply buffered_weaken; [|exact P]. lia.
Qed.

(* what the encoder looks up for a token *)
Lemma raw_code t r : raw_token codes dc off t r ->
  exists nb b infos, hybrid_encode (rcfg r) (value t) = (rtok r, nb, b) /\ znth (encoding_info codes) (rj r) = Some infos /\
    forall info, znth infos (rs r) = Some info ->
      token_code codes off t = Some (info, nb, b) /\
      (lz_enabled (e_lz77 codes) || (1 <? zlen (context_map codes)) = false -> token_code0 codes t = Some (info, nb, b)).
Proof.
  intros R. pose proof R as (U & J & C & (nb & b & E) & S & S32 & L & V & K).
  destruct (raw_hybrid t r nb b R E) as (T0 & _).
  assert (exists infos, znth (encoding_info codes) (rj r) = Some infos) as (infos & I).
  { unfold codable in K. destruct (e_use_prefix codes).
    - destruct K as (infos & info & t0 & I & _). eauto.
    - destruct K as (h & f & t0 & infos & _ & _ & _ & _ & _ & I & _). eauto. }
  exists nb, b, infos. split; [exact E|]. split; [exact I|]. intros info Hi. split.
  - unfold token_code. rewrite J.
    assert (C' : (if is_lz77_length t then Some (length_uint_config (e_lz77 codes)) else znth (e_uint_config codes) (rj r)) = Some (rcfg r)).
    { destruct (is_lz77_length t); [now rewrite C|exact C]. }
    rewrite C', E. cbn zeta. rewrite I. destruct M as (_ & _ & _ & _ & ML & _).
    assert (Hw : w32 (rtok r + (if is_lz77_length t then min_symbol (e_lz77 codes) else 0)) = rs r).
    { rewrite <- S. unfold w32. apply Z.mod_small. destruct (is_lz77_length t); [|lia].
      destruct (lz_enabled (e_lz77 codes)); [|discriminate (L eq_refl)]. destruct (ML eq_refl) as (Es & Hs & _). lia. }
    rewrite Hw, Hi. reflexivity.
  - intros N. apply orb_false_elim in N. destruct N as (N1 & N2). specialize (L N1). rewrite L in *.
    assert (Hj : rj r = 0).
    { destruct M as (_ & _ & _ & _ & _ & F). specialize (F ltac:(lia)). rewrite Forall_forall in F.
      apply F. unfold znth in J. destruct (_ <? 0); [discriminate|]. eapply nth_error_In; eauto. }
    unfold token_code0. rewrite Hj in *. rewrite C, E, I. replace (rtok r) with (rs r) by lia. rewrite Hi. reflexivity.
Qed.

Lemma ans_loop_app code l1 l2 : forall x r, ans_loop code (l1 ++ l2) x r =
  match ans_loop code l1 x r with Some (x', r') => ans_loop code l2 x' r' | None => None end.
Proof.
  induction l1 as [|t l1 IH]; intros x r; cbn [app ans_loop]; [reflexivity|].
  destruct (code t) as [[[info nb] b]|]; [|reflexivity]. destruct (put_symbol info x) as [[[ab anb] x1]|]; [|reflexivity]. apply IH.
Qed.

Lemma hist_le h s f : is_histogram h -> znth h s = Some f -> f <= 4096.
Proof.
  intros (N & S) H. pose proof (zsum_bound h N) as B. rewrite S in B. rewrite Forall_forall in B.
  unfold znth in H. destruct (s <? 0); [discriminate|]. apply nth_error_In in H. apply B in H. lia.
Qed.

Lemma ans_chain ts : e_use_prefix codes = false -> forall raws, Forall2 (raw_token codes dc off) ts raws ->
  let code := if lz_enabled (e_lz77 codes) || (1 <? zlen (context_map codes)) then token_code codes off else token_code0 codes in
  exists x r e, ans_loop code (rev ts) FINAL (RB 0 0 []) = Some (x, r) /\ rb_ok r /\ rb_bits r = e /\ ans_state x /\ chain dc x raws e.
Proof.
  intros Hp. induction ts as [|t ts IH]; intros raws F code.
  - inversion F; subst. exists FINAL, (RB 0 0 []), []. split; [reflexivity|]. split; [split; [split; cbn; lia|constructor]|].
    split; [reflexivity|]. split; [unfold ans_state, FINAL; cbn; lia|constructor].
  - inversion F as [|? raw ? raws' R F']; subst. destruct (IH raws' F') as (x & r & e & E1 & O1 & B1 & A1 & C1). fold code in E1.
    destruct (raw_code t raw R) as (nb & b & infos & Eh & Ei & Ec).
    destruct (raw_hybrid t raw nb b R Eh) as (T0 & Hn & Hb & P2).
    pose proof R as (_ & _ & _ & _ & _ & _ & _ & _ & K). unfold codable in K. rewrite Hp in K.
    destruct K as (h & f & tb & infos' & Hh & Hs & Hf & Ht & Hm & Ei' & He).
    assert (infos' = infos) by congruence. subst infos'.
    pose proof He as (_ & He'). destruct (He' _ _ Hs) as (info & Hi & _).
    destruct (Ec info Hi) as (Ec1 & Ec2).
    assert (Ecode : code t = Some (info, nb, b)).
    { unfold code. destruct (lz_enabled (e_lz77 codes) || (1 <? zlen (context_map codes))); [exact Ec1|now apply Ec2]. }
    destruct (put_read h (log_alpha_size dc) tb infos (rs raw) f info x Hm He Hs (conj Hf (hist_le _ _ _ Hh Hs)) Hi A1) as (ab & anb & x' & Ep & Ax & Hanb & Hab & P1).
    destruct (addbits_ok r b nb O1 ltac:(lia) Hb) as (O2 & B2).
    destruct (addbits_ok (addbits r b nb) ab anb O2 ltac:(destruct Hanb; lia) Hab) as (O3 & B3).
    exists x', (addbits (addbits r b nb) ab anb), (to_bits (Z.to_nat anb) ab ++ to_bits (Z.to_nat nb) b ++ e).
    cbn [rev]. rewrite ans_loop_app, E1. cbn [ans_loop]. rewrite Ecode. cbn zeta. rewrite Ep.
    split; [reflexivity|]. split; [exact O3|]. split; [now rewrite B3, B2, B1|]. split; [exact Ax|].
    apply chain_cons with (x' := x).
    + destruct M as (Hup & _). unfold read_symbol. rewrite Hup, Hp, Ht. exact P1.
    + rewrite zlen_to_bits. destruct Hanb; lia.
    + exact P2.
    + rewrite zlen_to_bits. lia.
    + exact C1.
Qed.

Lemma prefix_chain ts : e_use_prefix codes = true -> forall raws, Forall2 (raw_token codes dc off) ts raws ->
  exists fs, write_tokens_prefix codes off ts = Some fs /\ Forall field_ok fs /\ chain dc FINAL raws (fields_bits fs).
Proof.
  intros Hp. induction ts as [|t ts IH]; intros raws F; cbn [write_tokens_prefix].
  - inversion F; subst. exists []. split; [reflexivity|]. split; [constructor|constructor].
  - inversion F as [|? raw ? raws' R F']; subst. destruct (IH raws' F') as (fs & E1 & O1 & C1).
    destruct (raw_code t raw R) as (nb & b & infos & Eh & Ei & Ec).
    destruct (raw_hybrid t raw nb b R Eh) as (T0 & Hn & Hb & P2).
    pose proof R as (_ & _ & _ & _ & _ & _ & _ & _ & K). unfold codable in K. rewrite Hp in K.
    destruct K as (infos' & info & tb & Ei' & Hi & Hd & Hbits & Ht & P1).
    assert (infos' = infos) by congruence. subst infos'.
    destruct (Ec info Hi) as (Ec1 & _). rewrite Ec1. cbn zeta. rewrite E1.
    assert (Ed : Z.lor (bits info) (w64 (Z.shiftl b (depth info))) = bits info + b * 2 ^ depth info).
    { rewrite Z.shiftl_mul_pow2 by lia.
      assert (2 ^ nb <= 2 ^ 31) by (apply Z.pow_le_mono_r; lia). assert (2 ^ depth info <= 2 ^ 15) by (apply Z.pow_le_mono_r; lia).
      assert (0 <= b * 2 ^ depth info <= 2 ^ 31 * 2 ^ 15).
      { split; [apply Z.mul_nonneg_nonneg; [lia|apply Z.pow_nonneg; lia]|]. apply Z.mul_le_mono_nonneg; try lia. }
      unfold w64. rewrite Z.mod_small by lia. rewrite Z.lor_comm, lor_add_pow by lia. lia. }
    rewrite Ed. eexists. split; [reflexivity|]. split.
    + constructor; [|exact O1]. split; cbn [fst snd]; [lia|]. rewrite Z.pow_add_r by lia.
      assert (0 < 2 ^ depth info) by (apply Z.pow_pos_nonneg; lia).
      assert ((b + 1) * 2 ^ depth info <= 2 ^ nb * 2 ^ depth info) by (apply Z.mul_le_mono_nonneg_r; lia).
      assert (0 <= b * 2 ^ depth info) by (apply Z.mul_nonneg_nonneg; lia). lia.
    + rewrite fields_bits_cons. cbn [fst snd]. rewrite to_bits_combine, <- app_assoc by lia.
      apply chain_cons with (x' := FINAL).
      * destruct M as (Hup & _). unfold read_symbol. rewrite Hup, Hp, Ht.
        intros pre post av Hav. destruct (P1 pre post av ltac:(lia)) as (av' & Hr & Ha). exists av'. rewrite run_bits_bind, Hr.
        cbn [option_map run_bits]. split; [reflexivity|exact Ha].
      * rewrite zlen_to_bits. lia.
      * exact P2.
      * rewrite zlen_to_bits. lia.
      * exact C1.
Qed.
End Stream.
