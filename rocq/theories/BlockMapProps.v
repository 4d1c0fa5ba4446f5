(** * C61: block context maps *)
From Coq Require Import ZArith List Bool Lia.
From Verif Require Import Base BitProg BitProgProofs FieldsModel FieldsSpec FieldsProofs AcModel AcSpec BlockMapModel.
Import ListNotations.
Local Open Scope Z_scope.
Ltac Zify.zify_post_hook ::= idtac.

(** A context map reader that delivers what it is asked for (C46) *)
Definition good_reader (read_map : Z -> rprog (option (list Z * Z))) : Prop :=
  forall n s pos av l k st, run_bits s pos av (read_map n) = Some (Some (l, k), st) ->
  zlen l = n /\ Forall (fun x => 0 <= x < k) l.

(** A block context map that a file can hold *)
Definition writable (m : bctx) : Prop :=
  zlen (dct0 m) < 16 /\ zlen (dct1 m) < 16 /\ zlen (dct2 m) < 16 /\ zlen (qft m) < 16 /\
  Forall is_i32 (dct0 m) /\ Forall is_i32 (dct1 m) /\ Forall is_i32 (dct2 m) /\
  Forall (fun x => 1 <= x <= 300) (qft m) /\
  ndc m = (zlen (dct0 m) + 1) * (zlen (dct1 m) + 1) * (zlen (dct2 m) + 1) /\
  ndc m * (zlen (qft m) + 1) <= 64 /\ zlen (cmap m) = 39 * ndc m * (zlen (qft m) + 1) /\ nctx m <= 16.

(** C61: whatever the bits are, an accepted block context map is usable in the sense of C57. *)
Theorem C61_accepted_is_usable : forall read_map, good_reader read_map ->
  forall s pos av m st, run_bits s pos av (bm_read read_map) = Some (Some m, st) -> usable m.
Proof.
  intros rm Hg s pos av m [p2 a2] H. unfold bm_read in H.
  rewrite run_bits_bind in H. destruct (run_bits s pos av (rd 1)) as [[d [p1 a1]]|]; [|discriminate].
  destruct (d =? 1).
  { cbn [run_bits] in H. injection H as <- _ _. left. reflexivity. }
  rewrite run_bits_bind in H. destruct (run_bits _ _ _ read_dct) as [[d0 [p3 a3]]|]; [|discriminate].
  rewrite run_bits_bind in H. destruct (run_bits _ _ _ read_dct) as [[d1 [p4 a4]]|]; [|discriminate].
  rewrite run_bits_bind in H. destruct (run_bits _ _ _ read_dct) as [[d2 [p5 a5]]|]; [|discriminate].
  rewrite run_bits_bind in H. destruct (run_bits _ _ _ read_qft) as [[q [p6 a6]]|]; [|discriminate].
  cbv zeta in H. remember ((zlen d0 + 1) * (zlen d1 + 1) * (zlen d2 + 1)) as n eqn:En.
  destruct (n * (zlen q + 1) >? 64) eqn:E64; [cbn [run_bits] in H; discriminate|].
  rewrite run_bits_bind in H. destruct (run_bits _ _ _ (rm _)) as [[r [p7 a7]]|] eqn:Er; [|discriminate].
  destruct r as [[l k]|]; [|cbn [run_bits] in H; discriminate].
  destruct (k >? 16) eqn:Ek; cbn [run_bits] in H; [discriminate|].
  apply Hg in Er. destruct Er as [Hl Hf].
  assert (Em : m = Bctx d0 d1 d2 q l k n) by congruence. clear H.
  right. exists d0, d1, d2, q, (fun x => if x =? 3 * num_orders * n * (zlen q + 1) then Some (l, k) else None). split.
  - intros x l' k' Hx. destruct (x =? _) eqn:Ex; [|discriminate]. injection Hx as <- <-. split; [lia | exact Hf].
  - unfold decode_bctx. rewrite Z.mul_1_l. cbv zeta. rewrite <- En, E64, Z.eqb_refl, Ek, Em. reflexivity.
Qed.
Print Assumptions C61_accepted_is_usable.

Lemma fields_app a b : fields_bits (a ++ b) = fields_bits a ++ fields_bits b.
Proof. unfold fields_bits. apply flat_map_app. Qed.

Lemma list_trip a b c d (enc dec : Z -> Z) (p : rprog Z) (ok : Z -> Prop) :
  distr_ok a -> distr_ok b -> distr_ok c -> distr_ok d ->
  (forall v, ok v -> is_u32 (enc v) /\ (exists w, u32_code a b c d w (enc v)) /\ dec (enc v) = v) ->
  p = (let! u := u32_read (enc4 a b c d) in Ret (dec u)) ->
  forall l, Forall ok l -> exists ws, write_list (enc4 a b c d) (map enc l) = Some ws /\ Forall field_ok ws /\
    parses (read_list (length l) p) (fields_bits ws) l.
Proof.
  intros Ha Hb Hc Hd Hok Hp. induction l as [|v l IH]; intros Hl.
  - exists []. split; [reflexivity|]. split; [constructor|]. apply parses_ret.
  - inversion_clear Hl as [|? ? Hv Hl']. destruct (IH Hl') as (ws & Hw & Hf & Hr).
    destruct (Hok v Hv) as (Hu & (w & Hcode) & Hdec).
    pose proof (u32_write_spec a b c d (enc v) Ha Hb Hc Hd) as Hs.
    cbn [map write_list length read_list].
    destruct (u32_write (enc4 a b c d) (enc v)) as [wv|] eqn:Ew; [|exfalso; apply (proj1 Hs w Hcode)].
    rewrite Hw. eexists. split; [reflexivity|]. split; [apply Forall_app; split; [apply Hs | exact Hf]|].
    rewrite fields_app. eapply parses_bind.
    + rewrite Hp. eapply parses_bind_nil; [apply (u32_roundtrip a b c d (enc v) wv); assumption|].
      rewrite Hdec. apply parses_ret.
    + eapply parses_bind_nil; [exact Hr | apply parses_ret].
Qed.

Lemma bits_code n off u : 0 <= u - off < 2 ^ n -> exists w, distr_code (DBits n off) w u.
Proof.
  intros H. exists (to_bits (Z.to_nat n) (u - off)). assert (E : u = off + (u - off)) by lia.
  rewrite E at 2. apply dc_bits. exact H.
Qed.

Lemma dct_trip l : zlen l < 16 -> Forall is_i32 l ->
  exists ws, write_dct l = Some ws /\ Forall field_ok ws /\ parses read_dct (fields_bits ws) l.
Proof.
  intros Hlen Hl.
  destruct (list_trip (DBits 4 0) (DBits 8 16) (DBits 16 272) (DBits 32 65808) pack_signed unpack_signed
    (let! u := u32_read dc_dist in Ret (unpack_signed u)) is_i32) with (l := l) as (ws & Hw & Hf & Hr); auto; try (cbn; lia).
  - intros v Hv. pose proof (pack_signed_range v Hv) as Hu. split; [exact Hu|]. split; [|apply unpack_pack; exact Hv].
    set (u := pack_signed v) in *. clearbody u. unfold is_u32 in Hu.
    assert (u < 16 \/ 16 <= u < 272 \/ 272 <= u < 65808 \/ 65808 <= u) as [H|[H|[H|H]]] by lia.
    + destruct (bits_code 4 0 u) as [w Hw0]; [cbn; lia|]. eexists. apply uc0. exact Hw0.
    + destruct (bits_code 8 16 u) as [w Hw0]; [cbn; lia|]. eexists. apply uc1. exact Hw0.
    + destruct (bits_code 16 272 u) as [w Hw0]; [cbn; lia|]. eexists. apply uc2. exact Hw0.
    + destruct (bits_code 32 65808 u) as [w Hw0]; [cbn; lia|]. eexists. apply uc3. exact Hw0.
  - unfold write_dct. change dc_dist with (enc4 (DBits 4 0) (DBits 8 16) (DBits 16 272) (DBits 32 65808)).
    rewrite Hw. eexists. split; [reflexivity|].
    assert (Hz : 0 <= zlen l) by (unfold zlen; lia). split.
    + constructor; [|exact Hf]. split; cbn [fst snd]; [lia|]. change (2 ^ 4) with 16. lia.
    + unfold read_dct. change (fields_bits ((4, zlen l) :: ws)) with (to_bits (Z.to_nat 4) (zlen l) ++ fields_bits ws).
      eapply parses_bind; [apply parses_rd; [lia | change (2 ^ 4) with 16; lia]|].
      unfold zlen. rewrite Nat2Z.id. exact Hr.
Qed.

Lemma qft_trip l : zlen l < 16 -> Forall (fun x => 1 <= x <= 300) l ->
  exists ws, write_qft l = Some ws /\ Forall field_ok ws /\ parses read_qft (fields_bits ws) l.
Proof.
  intros Hlen Hl.
  destruct (list_trip (DBits 2 0) (DBits 3 4) (DBits 5 12) (DBits 8 44) (fun i => w32 (i - 1)) (fun u => w32 (u + 1))
    (let! u := u32_read qf_dist in Ret (w32 (u + 1))) (fun x => 1 <= x <= 300)) with (l := l) as (ws & Hw & Hf & Hr); auto; try (cbn; lia).
  - intros v Hv. unfold w32. rewrite (Z.mod_small (v - 1)) by lia. replace (v - 1 + 1) with v by lia.
    rewrite (Z.mod_small v) by lia. split; [unfold is_u32; lia|]. split; [|reflexivity].
    set (u := v - 1). assert (0 <= u < 300) by lia. clearbody u.
    assert (u < 4 \/ 4 <= u < 12 \/ 12 <= u < 44 \/ 44 <= u) as [H1|[H1|[H1|H1]]] by lia.
    + destruct (bits_code 2 0 u) as [w Hw0]; [cbn; lia|]. eexists. apply uc0. exact Hw0.
    + destruct (bits_code 3 4 u) as [w Hw0]; [cbn; lia|]. eexists. apply uc1. exact Hw0.
    + destruct (bits_code 5 12 u) as [w Hw0]; [cbn; lia|]. eexists. apply uc2. exact Hw0.
    + destruct (bits_code 8 44 u) as [w Hw0]; [cbn; lia|]. eexists. apply uc3. exact Hw0.
  - unfold write_qft. change qf_dist with (enc4 (DBits 2 0) (DBits 3 4) (DBits 5 12) (DBits 8 44)).
    rewrite Hw. eexists. split; [reflexivity|].
    assert (Hz : 0 <= zlen l) by (unfold zlen; lia). split.
    + constructor; [|exact Hf]. split; cbn [fst snd]; [lia|]. change (2 ^ 4) with 16. lia.
    + unfold read_qft. change (fields_bits ((4, zlen l) :: ws)) with (to_bits (Z.to_nat 4) (zlen l) ++ fields_bits ws).
      eapply parses_bind; [apply parses_rd; [lia | change (2 ^ 4) with 16; lia]|].
      unfold zlen. rewrite Nat2Z.id. exact Hr.
Qed.

(** C61: for every block context map that a file can hold, what the encoder writes is read back
    as the same map. *)
Theorem C61_round_trip : forall read_map m wm, writable m -> Forall field_ok wm ->
  parses (read_map (zlen (cmap m))) (fields_bits wm) (Some (cmap m, nctx m)) ->
  exists ws, bm_write m wm = Some ws /\ Forall field_ok ws /\
    parses (bm_read read_map) (fields_bits ws) (Some m).
Proof.
  intros rm m wm (H0 & H1 & H2 & H3 & F0 & F1 & F2 & F3 & Hn & H64 & Hl & H16) Hfw Hr.
  unfold bm_write.
  replace (zlen (cmap m) =? 21) with false.
  2:{ symmetry. apply Z.eqb_neq. rewrite Hl, <- Z.mul_assoc. generalize (ndc m * (zlen (qft m) + 1)). intros z. lia. }
  rewrite !andb_false_r. cbn [andb].
  destruct (dct_trip _ H0 F0) as (w0 & -> & G0 & P0). destruct (dct_trip _ H1 F1) as (w1 & -> & G1 & P1).
  destruct (dct_trip _ H2 F2) as (w2 & -> & G2 & P2). destruct (qft_trip _ H3 F3) as (w3 & -> & G3 & P3).
  eexists. split; [reflexivity|]. split.
  { constructor; [split; cbn; lia|]. repeat (apply Forall_app; split; [assumption|]). assumption. }
  change (fields_bits ((1, 0) :: w0 ++ w1 ++ w2 ++ w3 ++ wm)) with (to_bits (Z.to_nat 1) 0 ++ fields_bits (w0 ++ w1 ++ w2 ++ w3 ++ wm)).
  rewrite !fields_app. unfold bm_read.
  eapply parses_bind; [apply parses_rd; cbn; lia|]. cbn [Z.eqb].
  eapply parses_bind; [exact P0|]. eapply parses_bind; [exact P1|]. eapply parses_bind; [exact P2|].
  eapply parses_bind; [exact P3|]. cbv zeta. rewrite <- Hn.
  replace (ndc m * (zlen (qft m) + 1) >? 64) with false by lia.
  change (3 * num_orders) with 39. rewrite <- Hl.
  eapply parses_bind_nil; [exact Hr|].
  cbn beta iota. replace (nctx m >? 16) with false by lia. destruct m. apply parses_ret.
Qed.
Print Assumptions C61_round_trip.

(** A map with thresholds on both sides of zero *)
Definition sample : bctx := Bctx [-5] [] [7] [3] (repeat 0 312) 1 4.
Example C61_met : writable sample /\
  exists ws, bm_write sample [] = Some ws /\ zlen (fields_bits ws) = 1 + 16 + 6 + 6 + 4.
Proof.
  split.
  - unfold writable, sample. cbn [dct0 dct1 dct2 qft cmap nctx ndc]. unfold zlen. rewrite repeat_length. cbn [length].
    repeat split; try lia; repeat constructor; unfold is_i32; lia.
  - eexists. split; [vm_compute; reflexivity|]. vm_compute. reflexivity.
Qed.

(** The default map, which the format has a single bit for, is never written with it: the
    encoder looks for a map of 21 entries, and it has 39. *)
Theorem C61_default_refuted : ~ (forall wm, bm_write default_bctx wm = Some [(1, 1)]).
Proof. intros H. specialize (H []). vm_compute in H. discriminate. Qed.
Print Assumptions C61_default_refuted.
