(* Shared definitions: fixed-width arithmetic written out explicitly, bit strings,
   byte strings.  Nothing here models a particular function of /repo; it is the
   mathematical vocabulary used by the models and by the specifications. *)
From Coq Require Export List ZArith Lia Bool.
From Coq Require Export ZifyBool ZifyNat.
Export ListNotations.
Open Scope Z_scope.

Ltac Zify.zify_post_hook ::= Z.div_mod_to_equations.

(* C unsigned wraparound and two's-complement reinterpretation. *)
Definition w8 (x : Z) : Z := x mod 2 ^ 8.
Definition w16 (x : Z) : Z := x mod 2 ^ 16.
Definition w32 (x : Z) : Z := x mod 2 ^ 32.
Definition w64 (x : Z) : Z := x mod 2 ^ 64.
Definition s32 (x : Z) : Z := (x + 2 ^ 31) mod 2 ^ 32 - 2 ^ 31.
Definition is_u8 (x : Z) : Prop := 0 <= x < 2 ^ 8.
Definition is_u32 (x : Z) : Prop := 0 <= x < 2 ^ 32.
Definition is_u64 (x : Z) : Prop := 0 <= x < 2 ^ 64.
Definition is_i32 (x : Z) : Prop := - 2 ^ 31 <= x < 2 ^ 31.

(* Bit strings: head of the list is the first bit of the stream.  A field of n bits
   is stored least significant bit first. *)
Fixpoint to_bits (n : nat) (v : Z) : list bool :=
  match n with
  | O => []
  | S n' => Z.odd v :: to_bits n' (Z.div2 v)
  end.

Fixpoint of_bits (l : list bool) : Z :=
  match l with
  | [] => 0
  | b :: l' => Z.b2z b + 2 * of_bits l'
  end.

(* The bits of a byte string. *)
Definition bytes_bits (bs : list Z) : list bool := flat_map (to_bits 8) bs.

Definition bytes_ok (bs : list Z) : Prop := Forall is_u8 bs.

(* Length as Z, and reading/writing at a Z index. *)
Definition zlen {A} (l : list A) : Z := Z.of_nat (length l).

Definition znth {A} (l : list A) (i : Z) : option A :=
  if i <? 0 then None else nth_error l (Z.to_nat i).

(* Bits [p, p+n) of a bit string, the string being continued with zeros. *)
Definition window (l : list bool) (p n : nat) : list bool :=
  map (fun i => nth i l false) (seq p n).

(* A sequence of (width, value) fields, its bits, when a bit writer accepts it, and its
   total width. *)
Definition fields_bits (fs : list (Z * Z)) : list bool :=
  flat_map (fun f => to_bits (Z.to_nat (fst f)) (snd f)) fs.

Definition field_ok (f : Z * Z) : Prop := 0 <= fst f <= 56 /\ 0 <= snd f < 2 ^ fst f.

Definition width_sum (fs : list (Z * Z)) : Z := fold_right (fun f s => fst f + s) 0 fs.

Lemma length_to_bits n v : length (to_bits n v) = n.
Proof. revert v; induction n as [|n IH]; intros v; cbn; [reflexivity|]. now rewrite IH. Qed.

Lemma of_bits_range l : 0 <= of_bits l < 2 ^ zlen l.
Proof.
  unfold zlen; induction l as [|b l IH]; cbn [of_bits length]; [cbn; lia|].
  rewrite Nat2Z.inj_succ, Z.pow_succ_r by lia. destruct b; cbn [Z.b2z]; lia.
Qed.

Lemma of_bits_nonneg l : 0 <= of_bits l.
Proof. apply of_bits_range. Qed.

Lemma of_bits_to_bits_mod n v : of_bits (to_bits n v) = v mod 2 ^ Z.of_nat n.
Proof.
  revert v; induction n as [|n IH]; intros v.
  - cbn. now rewrite Z.mod_1_r.
  - cbn [to_bits of_bits]. rewrite IH, Nat2Z.inj_succ, Z.pow_succ_r by lia.
    rewrite Z.rem_mul_r by lia.
    rewrite Z.div2_div, Zmod_odd. destruct (Z.odd v); cbn; lia.
Qed.

Lemma of_bits_to_bits n v : 0 <= v < 2 ^ Z.of_nat n -> of_bits (to_bits n v) = v.
Proof. intros H. rewrite of_bits_to_bits_mod. now apply Z.mod_small. Qed.

Lemma to_bits_of_bits l : to_bits (length l) (of_bits l) = l.
Proof.
  induction l as [|b l IH]; cbn [length of_bits to_bits]; [reflexivity|].
  rewrite Z.div2_div.
  replace ((Z.b2z b + 2 * of_bits l) / 2) with (of_bits l) by (destruct b; cbn [Z.b2z]; lia).
  rewrite IH. f_equal. rewrite Z.odd_add_mul_2. now destruct b.
Qed.

Lemma testbit_of_bits l i : Z.testbit (of_bits l) (Z.of_nat i) = nth i l false.
Proof.
  revert i; induction l as [|b l IH]; intros i.
  - cbn. rewrite Z.testbit_0_l. now destruct i.
  - cbn [of_bits]. destruct i as [|i].
    + cbn [nth Z.of_nat]. rewrite Z.bit0_odd, Z.odd_add_mul_2. now destruct b.
    + cbn [nth]. rewrite <- IH, Nat2Z.inj_succ, <- Z.div2_bits by lia.
      f_equal. destruct b; cbn [Z.b2z]; lia.
Qed.

Lemma nth_to_bits n v i : (i < n)%nat -> nth i (to_bits n v) false = Z.testbit v (Z.of_nat i).
Proof.
  revert v i; induction n as [|n IH]; intros v i Hi; [lia|].
  cbn [to_bits]. destruct i as [|i]; cbn [nth].
  - cbn [Z.of_nat]. now rewrite Z.bit0_odd.
  - rewrite IH by lia. rewrite Nat2Z.inj_succ, <- Z.div2_bits by lia. now rewrite Z.div2_div.
Qed.

Lemma to_bits_app n m v : to_bits (n + m) v = to_bits n v ++ to_bits m (v / 2 ^ Z.of_nat n).
Proof.
  revert v; induction n as [|n IH]; intros v.
  - cbn. now rewrite Z.div_1_r.
  - cbn [Nat.add to_bits app]. rewrite IH. rewrite Z.div2_div.
    rewrite Z.div_div by (try apply Z.pow_pos_nonneg; lia).
    rewrite Nat2Z.inj_succ, Z.pow_succ_r by lia. reflexivity.
Qed.

Lemma of_bits_app l1 l2 : of_bits (l1 ++ l2) = of_bits l1 + 2 ^ zlen l1 * of_bits l2.
Proof.
  unfold zlen; induction l1 as [|b l1 IH].
  - cbn [app of_bits length Z.of_nat]. rewrite Z.pow_0_r. lia.
  - cbn [app of_bits length]. rewrite IH, Nat2Z.inj_succ, Z.pow_succ_r by lia. lia.
Qed.

Lemma zlen_nonneg {A} (l : list A) : 0 <= zlen l.
Proof. unfold zlen; lia. Qed.

Lemma zlen_app {A} (l1 l2 : list A) : zlen (l1 ++ l2) = zlen l1 + zlen l2.
Proof. unfold zlen; rewrite app_length; lia. Qed.

Lemma zlen_to_bits n v : zlen (to_bits n v) = Z.of_nat n.
Proof. unfold zlen; now rewrite length_to_bits. Qed.

Lemma length_bytes_bits bs : length (bytes_bits bs) = (8 * length bs)%nat.
Proof.
  induction bs as [|b bs IH]; [reflexivity|].
  change (bytes_bits (b :: bs)) with (to_bits 8 b ++ bytes_bits bs).
  rewrite app_length, length_to_bits, IH. cbn [length]; lia.
Qed.

Lemma bytes_bits_app a b : bytes_bits (a ++ b) = bytes_bits a ++ bytes_bits b.
Proof. unfold bytes_bits. apply flat_map_app. Qed.

Lemma nth_bytes_bits bs i :
  nth i (bytes_bits bs) false = Z.testbit (nth (i / 8) bs 0) (Z.of_nat (i mod 8)).
Proof.
  revert i; induction bs as [|b bs IH]; intros i.
  - cbn [bytes_bits flat_map].
    replace (nth i [] false) with false by now destruct i.
    replace (nth (i / 8) [] 0) with 0 by now destruct (i / 8)%nat.
    now rewrite Z.testbit_0_l.
  - change (bytes_bits (b :: bs)) with (to_bits 8 b ++ bytes_bits bs).
    destruct (Nat.lt_ge_cases i 8) as [Hi|Hi].
    + rewrite app_nth1 by (rewrite length_to_bits; lia).
      rewrite nth_to_bits by lia.
      rewrite Nat.div_small, Nat.mod_small by lia. reflexivity.
    + rewrite app_nth2 by (rewrite length_to_bits; lia).
      rewrite length_to_bits, IH.
      replace i with ((i - 8) + 1 * 8)%nat at 3 4 by lia.
      rewrite Nat.div_add, Nat.mod_add by lia.
      replace ((i - 8) / 8 + 1)%nat with (S ((i - 8) / 8)) by lia. reflexivity.
Qed.

Lemma nth_error_nth_lt {A} (l : list A) i d : (i < length l)%nat -> nth_error l i = Some (nth i l d).
Proof. revert i; induction l as [|x l IH]; intros [|i] H; cbn in *; try lia; auto. apply IH; lia. Qed.

Lemma znth_some {A} (l : list A) i d : 0 <= i < zlen l -> znth l i = Some (nth (Z.to_nat i) l d).
Proof.
  intros H. unfold znth. destruct (Z.ltb_spec i 0); [lia|]. apply nth_error_nth_lt.
  unfold zlen in H. lia.
Qed.

Lemma znth_none {A} (l : list A) i : i < 0 \/ zlen l <= i -> znth l i = None.
Proof.
  intros H. unfold znth. destruct (Z.ltb_spec i 0); [reflexivity|]. apply nth_error_None.
  unfold zlen in H. lia.
Qed.

Lemma znth_some_inv {A} (l : list A) i x : znth l i = Some x -> 0 <= i < zlen l.
Proof.
  unfold znth. destruct (Z.ltb_spec i 0); [discriminate|].
  intros Hx. assert (nth_error l (Z.to_nat i) <> None) as Hn by congruence.
  apply nth_error_Some in Hn. unfold zlen; lia.
Qed.

Lemma length_window l p n : length (window l p n) = n.
Proof. unfold window. now rewrite map_length, seq_length. Qed.

Lemma window_S l p n : window l p (S n) = nth p l false :: window l (S p) n.
Proof. reflexivity. Qed.

Lemma window_app_exact a b c : window (a ++ b ++ c) (length a) (length b) = b.
Proof.
  revert a c; induction b as [|x b IH]; intros a c; [reflexivity|].
  cbn [length]. rewrite window_S. f_equal.
  - rewrite app_nth2 by lia. rewrite Nat.sub_diag. reflexivity.
  - specialize (IH (a ++ [x]) c). rewrite app_length in IH. cbn [length] in IH.
    replace (length a + 1)%nat with (S (length a)) in IH by lia.
    rewrite <- app_assoc in IH. exact IH.
Qed.

Lemma nth_window l p n i : (i < n)%nat -> nth i (window l p n) false = nth (p + i) l false.
Proof.
  revert p i; induction n as [|n IH]; intros p i H; [lia|].
  rewrite window_S. destruct i as [|i]; cbn [nth].
  - now rewrite Nat.add_0_r.
  - rewrite IH by lia. f_equal. lia.
Qed.

Lemma testbit_small v n i : 0 <= v < 2 ^ n -> n <= i -> Z.testbit v i = false.
Proof.
  intros Hv Hi. destruct (Z.ltb_spec i 0) as [Hneg|Hpos]; [now apply Z.testbit_neg_r|].
  destruct (Z.eq_dec v 0) as [->|Hnz]; [apply Z.testbit_0_l|].
  apply Z.bits_above_log2; [lia|].
  apply Z.log2_lt_pow2; [lia|]. apply Z.lt_le_trans with (2 ^ n); [lia|].
  apply Z.pow_le_mono_r; lia.
Qed.

Lemma land_shiftl_small b r k : 0 <= k -> 0 <= b < 2 ^ k -> Z.land b (Z.shiftl r k) = 0.
Proof.
  intros Hk Hb. apply Z.bits_inj'; intros i Hi. rewrite Z.land_spec, Z.bits_0.
  destruct (Z.ltb_spec i k).
  - rewrite Z.shiftl_spec, (Z.testbit_neg_r r) by lia. apply andb_false_r.
  - rewrite (testbit_small b k) by lia. reflexivity.
Qed.

Lemma lor_shiftl_add b r k : 0 <= k -> 0 <= b < 2 ^ k -> Z.lor b (Z.shiftl r k) = b + 2 ^ k * r.
Proof.
  intros Hk Hb. pose proof (land_shiftl_small b r k Hk Hb) as Hl.
  rewrite <- Z.lxor_lor by exact Hl. rewrite <- Z.add_nocarry_lxor by exact Hl.
  rewrite Z.shiftl_mul_pow2 by lia. lia.
Qed.

(* bit i of a byte string, zero outside *)
Definition sbit (bs : list Z) (i : Z) : bool := nth (Z.to_nat i) (bytes_bits bs) false.

Lemma sbit_byte bs p j :
  0 <= p < zlen bs -> 0 <= j < 8 ->
  sbit bs (8 * p + j) = Z.testbit (nth (Z.to_nat p) bs 0) j.
Proof.
  intros Hp Hj. unfold sbit. rewrite nth_bytes_bits.
  replace (Z.to_nat (8 * p + j) / 8)%nat with (Z.to_nat p) by lia.
  f_equal. lia.
Qed.

Lemma sbit_end bs i : 8 * zlen bs <= i -> sbit bs i = false.
Proof.
  intros H. unfold sbit. apply nth_overflow. rewrite length_bytes_bits. unfold zlen in H. lia.
Qed.

Lemma bytes_ok_nth bs p : bytes_ok bs -> is_u8 (nth p bs 0).
Proof.
  intros H. destruct (Nat.lt_ge_cases p (length bs)) as [Hp|Hp].
  - apply (proj1 (Forall_forall _ _) H). now apply nth_In.
  - rewrite nth_overflow by lia. unfold is_u8; lia.
Qed.


(* z, z+1, .., z+n-1, for exhaustive computations over finite ranges *)
Fixpoint zseq (z : Z) (n : nat) : list Z :=
  match n with O => [] | S n' => z :: zseq (z + 1) n' end.

Lemma in_zseq n : forall z x, z <= x < z + Z.of_nat n -> In x (zseq z n).
Proof.
  induction n as [|n IH]; intros z x Hx; [lia|]. cbn [zseq In].
  destruct (Z.eq_dec z x); [auto|right]. apply IH. lia.
Qed.

Lemma forallb_range (P : Z -> bool) z n :
  forallb P (zseq z n) = true -> forall x, z <= x < z + Z.of_nat n -> P x = true.
Proof. intros H x Hx. rewrite forallb_forall in H. apply H, in_zseq, Hx. Qed.
