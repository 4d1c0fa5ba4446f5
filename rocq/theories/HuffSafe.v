(* Reading a prefix code from arbitrary bits. *)
From Verif Require Import Base ListAux Wrap BitProg BitProgProofs HuffTreeModel HuffSpec HuffSort HuffRoot HuffSub HuffBuild HuffEnc HuffTop HuffRle HuffLens HuffStore HuffStored.
Ltac Zify.zify_post_hook ::= idtac.

(* every 15 bits decode to a symbol below [n] *)
Definition table_safe (n : Z) (tb : htable) : Prop :=
  forall u pos av, 0 <= pos -> 15 <= av <= 56 -> exists s l, 0 <= s < n /\ 0 <= l <= 15 /\
    run_bits u pos av (huff_read tb) = Some (Some s, (pos + l, av - l)).

(* the program runs to an end, with a result that satisfies Q *)
Definition ends {A} (p : rprog A) (Q : A -> Prop) : Prop :=
  forall s pos av, 0 <= pos -> 0 <= av <= 56 -> exists a pos' av', run_bits s pos av p = Some (a, (pos', av')) /\ Q a /\ pos <= pos' /\ 0 <= av' <= 56.

Lemma ends_ret {A} (a : A) (Q : A -> Prop) : Q a -> ends (Ret a) Q.
Proof. intros H s pos av Hp Hav. exists a, pos, av. cbn. split; [reflexivity|]. split; [assumption|lia]. Qed.
Lemma ends_bind {A B} (p : rprog A) (f : A -> rprog B) (Q : A -> Prop) (R : B -> Prop) : ends p Q -> (forall a, Q a -> ends (f a) R) -> ends (bind p f) R.
Proof.
  intros Hp Hf s pos av H1 H2. rewrite run_bits_bind. destruct (Hp s pos av H1 H2) as (a & pos' & av' & -> & Qa & Hpos & Hav).
  destruct (Hf a Qa s pos' av' ltac:(lia) Hav) as (b & pos2 & av2 & E & Rb & Hpos2 & Hav2). exists b, pos2, av2. split; [exact E|]. split; [exact Rb|lia].
Qed.
Lemma ends_weaken {A} (p : rprog A) (Q R : A -> Prop) : ends p Q -> (forall a, Q a -> R a) -> ends p R.
Proof. intros H W s pos av H1 H2. destruct (H s pos av H1 H2) as (a & pos' & av' & E & Qa & L). exists a, pos', av'. auto. Qed.
Lemma ends_rd n : 0 <= n <= 56 -> ends (rd n) (fun v => 0 <= v < 2 ^ n).
Proof.
  intros Hn s pos av H1 H2. unfold rd. cbn [run_bits]. replace ((0 <=? n) && (n <=? 56)) with true by lia.
  exists (bits_at s pos n), (pos + n), (56 - n). split; [reflexivity|]. split; [apply bits_at_range; lia|lia].
Qed.
Lemma ends_peek {A} n (f : Z -> option (Z * Z)) (K : Z -> rprog A) (bad : rprog A) (Q : A -> Prop) (P : Z -> Prop) : 0 <= n <= 56 ->
  (forall x, 0 <= x < 2 ^ n -> exists l v, f x = Some (l, v) /\ 0 <= l <= n /\ P v) -> (forall v, P v -> ends (K v) Q) ->
  ends (Refill (Peek n (fun i => match f i with None => bad | Some (nbits, v) => Consume nbits (K v) end))) Q.
Proof.
  intros Hn Hf HK s pos av H1 H2. cbn [run_bits]. replace ((0 <=? n) && (n <=? 56)) with true by lia.
  destruct (Hf _ (bits_at_range s pos n ltac:(lia))) as (l & v & -> & Hl & Pv). cbn [run_bits]. replace ((0 <=? l) && (l <=? 56)) with true by lia.
  destruct (HK v Pv s (pos + l) (56 - l) ltac:(lia) ltac:(lia)) as (a & pos' & av' & E & Qa & Hpos & Hav). exists a, pos', av'. split; [exact E|]. split; [exact Qa|lia].
Qed.

(* ---- the lengths of the code length codes ---- *)

Definition S18 (f : Z -> Z) (cl : Z -> Z) : Z := zsum (map (fun i => f (cl i)) (zseq 0 18)).

Lemma zsum_update (f : Z -> Z) cl i v l : f (cl i) = 0 -> NoDup l -> In i l ->
  zsum (map (fun j => f (if j =? i then v else cl j)) l) = zsum (map (fun j => f (cl j)) l) + f v.
Proof.
  intros F0. assert (Out : forall l, ~ In i l -> map (fun j => f (if j =? i then v else cl j)) l = map (fun j => f (cl j)) l).
  { clear. intros l Hn. apply map_ext_in. intros j Hj. destruct (Z.eqb_spec j i) as [->|]; [contradiction|reflexivity]. }
  induction l as [|x l IH]; intros Hnd Hin; [destruct Hin|]. inversion Hnd as [|? ? Hx Hnd']; subst. cbn [map zsum fold_right].
  fold (zsum (map (fun j => f (if j =? i then v else cl j)) l)). fold (zsum (map (fun j => f (cl j)) l)).
  destruct Hin as [->|Hin].
  - rewrite Z.eqb_refl, (Out l Hx). lia.
  - rewrite (IH Hnd' Hin). destruct (Z.eqb_spec x i) as [->|]; [contradiction|lia].
Qed.

Definition cl_inv (order : list Z) (cl : Z -> Z) (sp num : Z) : Prop :=
  (forall i, 0 <= cl i <= 5) /\ (forall i, In i order -> cl i = 0) /\ sp = 32 - S18 w5 cl /\ num = S18 is_code cl.

Lemma huff16_range x : 0 <= x < 16 -> exists l v, znth huff16 x = Some (l, v) /\ 0 <= l <= 4 /\ 0 <= v <= 5.
Proof.
  intros H. assert (A : forallb (fun x => match znth huff16 x with Some (l, v) => (0 <=? l) && (l <=? 4) && (0 <=? v) && (v <=? 5) | None => false end) (zseq 0 16) = true) by reflexivity.
  pose proof (proj1 (forallb_forall _ _) A x ltac:(apply in_zseq; cbn; lia)) as B. cbv beta in B. destruct (znth huff16 x) as [(l & v)|]; [|discriminate].
  exists l, v. split; [reflexivity|]. lia.
Qed.

Lemma cl_loop_ends order : NoDup order -> Forall (fun i => 0 <= i < 18) order -> forall cl sp num, cl_inv order cl sp num ->
  ends (read_cl_loop order cl sp num) (fun r => exists cl' sp' num', r = Some (cl', sp', num') /\ cl_inv [] cl' sp' num').
Proof.
  induction order as [|i order IH]; intros Hnd Hr cl sp num (I1 & I2 & I3 & I4); cbn [read_cl_loop].
  - apply ends_ret. exists cl, sp, num. split; [reflexivity|]. split; [assumption|]. split; [intros i []|]. auto.
  - inversion Hnd as [|? ? Hx Hnd']; subst. pose proof (Forall_inv Hr) as Hi. cbv beta in Hi. apply Forall_inv_tail in Hr. destruct (Z.ltb_spec 0 (32 - S18 w5 cl)) as [L|L].
    + apply (ends_peek 4 (fun i => znth huff16 i) _ _ _ (fun v => 0 <= v <= 5)); [lia|exact huff16_range|].
      intros v Hv. rewrite set_ok by lia. set (cl' := fun j => if j =? i then v else cl j).
      assert (C0 : cl i = 0) by (apply I2; now left).
      assert (Hin : In i (zseq 0 18)) by (apply in_zseq; cbn; lia).
      assert (U5 : S18 w5 cl' = S18 w5 cl + w5 v) by (apply zsum_update; [now rewrite C0|apply nodup_zseq|assumption]).
      assert (Uc : S18 is_code cl' = S18 is_code cl + is_code v) by (apply zsum_update; [now rewrite C0|apply nodup_zseq|assumption]).
      assert (J1 : forall j, 0 <= cl' j <= 5) by (intros j; unfold cl'; destruct (j =? i); auto).
      assert (J2 : forall j, In j order -> cl' j = 0) by (intros j Hj; unfold cl'; destruct (Z.eqb_spec j i) as [->|]; [contradiction|apply I2; now right]).
      destruct (Z.eqb_spec v 0) as [->|N].
      * apply IH; [assumption|assumption|]. split; [assumption|]. split; [assumption|]. rewrite U5, Uc. change (w5 0) with 0. change (is_code 0) with 0. lia.
      * apply IH; [assumption|assumption|]. split; [assumption|]. split; [assumption|]. rewrite U5, Uc. assert (W : w5 v = Z.shiftr 32 v /\ is_code v = 1) by (unfold w5, is_code; replace (v =? 0) with false by lia; auto). lia.
    + apply ends_ret. eexists _, _, _. split; [reflexivity|]. split; [assumption|]. split; [intros j []|]. auto.
Qed.

(* ---- the table of the code length codes ---- *)

Lemma one_code bd : Forall (fun l => 0 <= l <= 5) bd -> zsum (map is_code bd) = 1 ->
  exists s l, word_of bd s l /\ forall s' l', word_of bd s' l' -> s' = s.
Proof.
  intros F. assert (Z0 : forall l, Forall (fun l => 0 <= l <= 5) l -> zsum (map is_code l) = 0 -> forall s x, znth l s = Some x -> x = 0).
  { clear. induction 1 as [|y l Hy _ IH]; intros E s x Hx; [unfold znth in Hx; destruct (s <? 0); [discriminate|]; destruct (Z.to_nat s); discriminate|].
    cbn [map zsum fold_right] in E. fold (zsum (map is_code l)) in E.
    assert (Hn : 0 <= zsum (map is_code l)). { clear. induction l as [|z l IH]; cbn; [lia|]. unfold is_code at 1. unfold zsum in IH. destruct (z =? 0); lia. }
    unfold is_code in E at 1. destruct (Z.eqb_spec y 0) as [->|]; [|lia].
    pose proof (znth_some_inv _ _ _ Hx) as R. destruct (Z.eq_dec s 0) as [->|Ns]; [cbn in Hx; congruence|].
    apply (IH ltac:(lia) (s - 1) x). unfold znth in *. replace (s <? 0) with false in Hx by lia. replace (s - 1 <? 0) with false by lia.
    replace (Z.to_nat s) with (S (Z.to_nat (s - 1))) in Hx by lia. exact Hx. }
  assert (Nonneg : forall l, 0 <= zsum (map is_code l)). { clear. induction l as [|z l IH]; cbn; [lia|]. unfold is_code at 1. unfold zsum in IH. destruct (z =? 0); lia. }
  assert (Shift : forall (y : Z) l s, 0 < s -> znth (y :: l) s = znth l (s - 1)).
  { clear. intros y l s Hs. unfold znth. replace (s <? 0) with false by lia. replace (s - 1 <? 0) with false by lia. replace (Z.to_nat s) with (S (Z.to_nat (s - 1))) by lia. reflexivity. }
  induction F as [|y l Hy F IH]; intros E; [discriminate|]. cbn [map zsum fold_right] in E. fold (zsum (map is_code l)) in E. unfold is_code in E at 1. destruct (Z.eqb_spec y 0) as [->|N].
  - destruct (IH ltac:(lia)) as (s & x & (Hs & Hx) & U). pose proof (znth_some_inv _ _ _ Hs). exists (s + 1), x. split.
    + split; [|assumption]. rewrite Shift by lia. now replace (s + 1 - 1) with s by lia.
    + intros s' x' (Hs' & Hx'). pose proof (znth_some_inv _ _ _ Hs') as R'. destruct (Z.eq_dec s' 0) as [->|Ns']; [cbn in Hs'; injection Hs' as <-; lia|].
      rewrite Shift in Hs' by lia. specialize (U (s' - 1) x' (conj Hs' Hx')). lia.
  - exists 0, y. split; [split; [reflexivity|lia]|]. intros s' x' (Hs' & Hx'). pose proof (znth_some_inv _ _ _ Hs') as R'. destruct (Z.eq_dec s' 0) as [->|Ns']; [reflexivity|].
    rewrite Shift in Hs' by lia. pose proof (Z0 l F ltac:(lia) _ _ Hs'). lia.
Qed.

Lemma table5_any mem garbage bd : zlen bd = 18 -> Forall (fun l => 0 <= l <= 5) bd -> zsum (map is_code bd) = 1 \/ zsum (map w5 bd) = 32 ->
  exists counts table, count_depths bd (fun _ => 0) = Some counts /\ build_huffman_table 32 mem 5 bd counts garbage = Some (32, table) /\
    forall x, 0 <= x < 32 -> exists l s, table x = (l, s) /\ 0 <= l <= 5 /\ 0 <= s < 18.
Proof.
  intros Hl F Hcase. assert (Hb5 : zlen bd <= 2 ^ 15) by (rewrite Hl; change (2 ^ 15) with 32768; lia).
  destruct (count_depths_ok bd [] (fun _ => 0) (lengths5_ok bd F) Hb5) as (counts & Ec & Hc). { intros. now rewrite count_len_nil. } cbn [app] in Hc.
  destruct Hcase as [H1|H32].
  - destruct (one_code bd F H1) as (s & l & W & U).
    destruct (build_single bd counts garbage 32 mem 5 s l (lengths5_ok bd F) Hb5) as (table & Et & Ht); try lia; try assumption.
    change (2 ^ 5) with 32 in *.
    exists counts, table. split; [exact Ec|]. split; [exact Et|]. intros x Hx. exists 0, s. split; [apply Ht; lia|]. split; [lia|].
    destruct W as (W & _). pose proof (znth_some_inv _ _ _ W). lia.
  - assert (Hcomp : complete bd).
    { unfold complete. change (fun l => if l =? 0 then 0 else 2 ^ (15 - l)) with weight.
      assert (E : zsum (map weight bd) = 1024 * zsum (map w5 bd)). { clear -F. induction F as [|l bd Hl _ IH]; [reflexivity|]. cbn [map zsum fold_right] in *. unfold zsum in IH. rewrite weight_w5 by lia. lia. }
      rewrite E, H32. reflexivity. }
    destruct (build_complete bd counts garbage 32 mem 5 (lengths5_ok bd F) Hcomp Hb5) as (total & table & Et & _ & Ht32 & _ & L).
    { intros l Hl'. apply Hc. lia. } { lia. } { change (2 ^ 5) with 32. lia. } { left. eapply Forall_impl; [|exact F]. intros; cbv beta in *; lia. }
    rewrite Ht32 in Et by (eapply Forall_impl; [|exact F]; intros; cbv beta in *; lia). change (2 ^ 5) with 32 in Et.
    exists counts, table. split; [exact Ec|]. split; [exact Et|]. intros x Hx.
    destruct (cover_words bd (lengths5_ok bd F) Hcomp x ltac:(lia)) as (s & l & W & Hl15 & Ek).
    assert (Hl5 : l <= 5). { destruct W as (W & _). pose proof (znth_some_inv _ _ _ W). rewrite (znth_some bd s 0) in W by lia. injection W as <-.
      assert (Hin : In (nth (Z.to_nat s) bd 0) bd) by (apply nth_In; unfold zlen in *; lia). pose proof (proj1 (Forall_forall _ _) F _ Hin). cbv beta in *. lia. }
    exists l, s. specialize (L s l W). unfold looks_up in L. replace (l <=? 5) with true in L by lia. split; [apply L; [change (2 ^ 5) with 32; lia|exact Ek]|]. split; [lia|].
    destruct W as (W & _). pose proof (znth_some_inv _ _ _ W). lia.
Qed.

(* ---- the code lengths ---- *)

Lemma lens_loop_ends table n : (forall x, 0 <= x < 32 -> exists l s, table x = (l, s) /\ 0 <= l <= 5 /\ 0 <= s < 18) ->
  forall fuel r, rle_ok n r -> n - zlen (lens r) <= Z.of_nat fuel ->
  ends (read_lengths_loop fuel table n r) (fun res => exists o, res = Some o /\ forall ls, o = Some ls -> zlen ls = n /\ lengths_ok ls /\ complete ls).
Proof.
  intros Ht. induction fuel as [|fuel IH]; intros r Hok Hfuel; cbn [read_lengths_loop].
  all: destruct ((zlen (lens r) <? n) && (0 <? space r)) eqn:Hg.
  all: try (destruct (Z.eqb_spec (space r) 0) as [S0|S0];
    [apply ends_ret; eexists; split; [reflexivity|]; intros ls E; apply Some_eq in E; subst ls;
     destruct Hok as (H1 & H2 & _ & _ & _ & _ & H6); rewrite zlen_app, zlen_rev, zlen_repeat;
     split; [lia|]; split; [apply Forall_app; split; [now apply Forall_rev|apply Forall_repeat; lia]|];
     unfold complete; change (fun l => if l =? 0 then 0 else 2 ^ (15 - l)) with weight;
     change (kraft (rev (lens r) ++ repeat 0 (Z.to_nat (n - zlen (lens r)))) = 2 ^ 15);
     rewrite kraft_app, kraft_rev, kraft_zeros; change (2 ^ 15) with 32768; lia
    |apply ends_ret; exists None; split; [reflexivity|discriminate]]).
  - exfalso. lia.
  - apply (ends_peek 5 (get 32 table) _ _ _ (fun v => 0 <= v < 18)); [lia| |].
    { intros x Hx. change (2 ^ 5) with 32 in Hx. rewrite get_ok by lia. destruct (Ht x Hx) as (l & s & E & L1 & L2). exists l, s. rewrite E. split; [reflexivity|]. split; [lia|exact L2]. }
    intros v Hv. replace (w8 v) with v by (unfold w8; symmetry; apply Z.mod_small; lia).
    assert (Step : forall x r', code_ok (v, x) -> rle_apply n r (v, x) = Some r' -> ends (read_lengths_loop fuel table n r')
      (fun res => exists o, res = Some o /\ forall ls, o = Some ls -> zlen ls = n /\ lengths_ok ls /\ complete ls)).
    { intros x r' Hc E. destruct (rle_apply_ok n r (v, x) r' Hok Hc E) as (Hok' & new & Nn & L). apply IH; [exact Hok'|].
      rewrite L, zlen_app. destruct new; [contradiction|]. rewrite zlen_cons. pose proof (zlen_nonneg new). lia. }
    destruct (Z.ltb_spec v 16) as [L|L].
    + apply (Step 0); [unfold code_ok; cbn; lia|]. unfold rle_apply. cbn [fst snd]. replace (v <? 16) with true by lia. replace (zlen (lens r) <? n) with true by lia. reflexivity.
    + eapply ends_bind; [apply ends_rd; lia|]. intros x Hx. cbv beta in Hx. destruct (rle_repeat n r v x) as [r'|] eqn:E.
      * apply (Step x r'). { unfold code_ok. cbn [fst snd]. assert (v = 16 \/ v = 17) as [->| ->] by lia; [change (2 ^ (16 - 14)) with 4 in Hx|change (2 ^ (17 - 14)) with 8 in Hx]; lia. }
        unfold rle_apply. cbn [fst snd]. replace (v <? 16) with false by lia. exact E.
      * apply ends_ret. exists None. split; [reflexivity|discriminate].
Qed.

(* ---- simple codes ---- *)

Lemma read_symbols_ends n mb k : 0 <= mb <= 15 -> ends (read_symbols k n mb) (fun r => forall l, r = Some l -> length l = k /\ Forall (fun s => 0 <= s < n) l).
Proof.
  intros Hmb. induction k as [|k IH]; cbn [read_symbols].
  - apply ends_ret. intros l E. injection E as <-. split; [reflexivity|constructor].
  - eapply ends_bind; [apply ends_rd; lia|]. intros v Hv. cbv beta in Hv.
    assert (Hw : 0 <= w16 v). { unfold w16. apply Z.mod_pos_bound. reflexivity. }
    destruct (Z.leb_spec n (w16 v)) as [L|L]; [apply ends_ret; discriminate|].
    eapply ends_bind; [exact IH|]. intros [l|] Hl; apply ends_ret; [|discriminate]. cbn [option_map]. intros l' E. injection E as <-.
    destruct (Hl l eq_refl) as (H1 & H2). split; [cbn; lia|]. constructor; [lia|assumption].
Qed.

Lemma order2_ok (P : Z -> Prop) i j l : length l = 4%nat -> (i < 4)%nat -> (j < 4)%nat -> Forall P l -> length (order2 i j l) = 4%nat /\ Forall P (order2 i j l).
Proof.
  intros Hl Hi Hj F. unfold order2. destruct (_ <? _); [|auto].
  assert (N : forall k, (k < 4)%nat -> P (nth k l 0)) by (intros k Hk; apply (proj1 (Forall_forall _ _) F); apply nth_In; lia).
  split; [reflexivity|]. cbn [map seq]. repeat (constructor; [repeat (destruct (_ =? _)%nat; [apply N; lia|]); apply N; lia|]). constructor.
Qed.

Definition log_size (es : list (Z * Z)) : Z := if zlen es =? 1 then 0 else if zlen es =? 2 then 1 else if zlen es =? 4 then 2 else 3.

Lemma entries_ok n syms es : length syms = 4%nat -> forall P : Z -> Prop, Forall P syms -> simple_entries n syms = Some es ->
  Forall (fun e => 0 <= fst e <= 3 /\ P (snd e)) es /\ zlen es = 2 ^ log_size es /\ 0 <= log_size es <= 3.
Proof.
  intros Hl P F. assert (N : forall l k, (k < 4)%nat -> length l = 4%nat -> Forall P l -> P (nth k l 0)) by (intros l k Hk Hl' F'; apply (proj1 (Forall_forall _ _) F'); apply nth_In; lia).
  unfold simple_entries. set (G := fun l => length l = 4%nat /\ Forall P l).
  assert (G0 : G syms) by (split; assumption). assert (Go : forall i j l, (i < 4)%nat -> (j < 4)%nat -> G l -> G (order2 i j l)) by (intros i j l Hi Hj (A & B); now apply order2_ok).
  assert (GN : forall l k, (k < 4)%nat -> G l -> P (nth k l 0)) by (intros l k Hk (A & B); now apply N).
  destruct n as [|p|p]; try discriminate. repeat (match goal with |- context [match ?q with xI _ => _ | xO _ => _ | xH => _ end] => destruct q end; try discriminate); intros E; injection E as <-;
    (split; [|split; [reflexivity|cbn; lia]]); repeat constructor; cbn [fst snd]; try lia; apply GN; try lia; repeat (apply Go; try lia); exact G0.
Qed.

Lemma simple_table es mem : zlen es = 2 ^ log_size es -> 0 <= log_size es <= 3 ->
  exists t, double_loop 9 256 (fun i => nth (Z.to_nat i) es (mem i)) (zlen es) 256 = Some t /\ forall r, 0 <= r < 256 -> t r = nth (Z.to_nat (r mod 2 ^ log_size es)) es (0, 0).
Proof.
  intros E L. set (k := log_size es) in *. pose proof (Z.pow_pos_nonneg 2 k ltac:(lia) ltac:(lia)) as Pk.
  destruct (double_loop_ok 256 k 8 ltac:(lia) ltac:(change (2 ^ 8) with 256; lia) (fun i => nth (Z.to_nat i) es (0, 0)) 9 k (fun i => nth (Z.to_nat i) es (mem i))) as (t & Et & Ht); try lia.
  { intros r Hr. rewrite Z.mod_small by lia. apply nth_indep. unfold zlen in E. lia. }
  rewrite E. exists t. split; [exact Et|]. exact Ht.
Qed.

Lemma short_safe n t : (forall r, 0 <= r < 256 -> 0 <= fst (t r) <= 8 /\ 0 <= snd (t r) < n) -> table_safe n (256, t).
Proof.
  intros H u pos av Hp Hav. unfold huff_read, kHuffmanTableBits. cbn [run_bits fst snd]. replace ((0 <=? 8) && (8 <=? av)) with true by lia.
  pose proof (bits_at_range u pos 8 ltac:(lia)) as R. change (2 ^ 8) with 256 in R. rewrite get_ok by lia. destruct (H _ R) as (A & B). destruct (t (bits_at u pos 8)) as (l & s). cbn [fst snd] in *.
  replace (8 <? l) with false by lia. cbn [run_bits]. replace ((0 <=? l) && (l <=? av)) with true by lia. exists s, l. split; [lia|]. split; [lia|]. reflexivity.
Qed.

Lemma simple_ends n mem : 0 <= n <= 2 ^ 15 -> ends (read_simple_code n mem) (fun r => exists o, r = Some o /\ forall t, o = Some t -> table_safe n (256, t)).
Proof.
  intros Hn. unfold read_simple_code. set (mb := if 1 <? n then Z.log2 (n - 1) + 1 else 0).
  assert (Hmb : 0 <= mb <= 15).
  { unfold mb. destruct (Z.ltb_spec 1 n); [|lia]. pose proof (Z.log2_nonneg (n - 1)). assert (Z.log2 (n - 1) < 15); [|lia]. apply Z.log2_lt_pow2; lia. }
  eapply ends_bind; [apply ends_rd; lia|]. intros k Hk. cbv beta in Hk. change (2 ^ 2) with 4 in Hk.
  eapply ends_bind; [apply read_symbols_ends; exact Hmb|]. intros [syms|] Hs; [|apply ends_ret; exists None; split; [reflexivity|discriminate]].
  destruct (Hs syms eq_refl) as (Hl & F). destruct (negb (all_distinct syms)); [apply ends_ret; exists None; split; [reflexivity|discriminate]|].
  eapply ends_bind with (Q := fun x => 0 <= x <= 1). { destruct (k + 1 =? 4); [eapply ends_weaken; [apply ends_rd; lia|]; intros a Ha; cbv beta in *; change (2 ^ 1) with 2 in Ha; lia|apply ends_ret; lia]. }
  intros x Hx. destruct (simple_entries _ _) as [es|] eqn:Ee; [|apply ends_ret; exists None; split; [reflexivity|discriminate]].
  assert (Hn0 : 0 < n). { destruct syms as [|y syms]; [cbn in Hl; lia|]. pose proof (Forall_inv F). cbv beta in *. lia. }
  destruct (entries_ok (k + 1 + x) (syms ++ repeat 0 (4 - length syms)) es ltac:(rewrite app_length, repeat_length; lia) (fun s => 0 <= s < n) ltac:(apply Forall_app; split; [exact F|apply Forall_repeat; lia]) Ee) as (Fe & Le & L3).
  destruct (simple_table es mem Le L3) as (t & Et & Ht). apply ends_ret. rewrite Et. eexists. split; [reflexivity|]. intros t' E. injection E as <-.
  apply short_safe. intros r Hr. rewrite Ht by assumption. set (i := Z.to_nat (r mod 2 ^ log_size es)).
  assert (Hi : (i < length es)%nat). { unfold i. pose proof (Z.mod_pos_bound r (2 ^ log_size es) ltac:(apply Z.pow_pos_nonneg; lia)). unfold zlen in Le. lia. }
  pose proof (proj1 (Forall_forall _ _) Fe _ (nth_In es (0, 0) Hi)) as (A & B). split; [lia|exact B].
Qed.

(* ---- ReadFromBitStream ---- *)

Theorem read_ends mem garbage n : 0 <= n -> ends (read_from_bit_stream mem garbage n) (fun r => exists o, r = Some o /\ forall tb, o = Some tb -> table_safe n tb).
Proof.
  intros Hn0. unfold read_from_bit_stream. change (Z.shiftl 1 PREFIX_MAX_BITS) with (2 ^ 15).
  assert (Bad : forall A (Q : A -> Prop), ends (Ret (Some None)) (fun r => exists o, r = Some o /\ forall tb, o = Some tb -> Q tb)) by (intros; apply ends_ret; exists None; split; [reflexivity|discriminate]).
  destruct (Z.ltb_spec (2 ^ 15) n) as [L|L]; [apply Bad|].
  eapply ends_bind; [apply ends_rd; lia|]. intros k Hk. cbv beta in Hk. change (2 ^ 2) with 4 in Hk. destruct (Z.eqb_spec k 1) as [->|Nk].
  - eapply ends_bind; [apply simple_ends; lia|]. intros r (o & -> & H). apply ends_ret. cbn [option_map]. eexists. split; [reflexivity|].
    intros tb E. destruct o as [t|]; [|discriminate]. injection E as <-. now apply H.
  - assert (Hnd : NoDup kCodeLengthCodeOrder).
    { assert (D : all_distinct kCodeLengthCodeOrder = true) by reflexivity. revert D. generalize kCodeLengthCodeOrder. induction l as [|x l IH]; intros D; [constructor|].
      cbn [all_distinct] in D. apply andb_prop in D as (D1 & D2). constructor; [|auto]. intros Hin. apply Bool.negb_true_iff in D1.
      assert (existsb (Z.eqb x) l = true) by (apply existsb_exists; exists x; split; [assumption|apply Z.eqb_refl]). congruence. }
    eapply ends_bind.
    { apply (cl_loop_ends (skipn (Z.to_nat k) kCodeLengthCodeOrder)).
      - rewrite <- (firstn_skipn (Z.to_nat k) kCodeLengthCodeOrder) in Hnd. revert Hnd. generalize (firstn (Z.to_nat k) kCodeLengthCodeOrder) as l1. induction l1 as [|a l1 IHl]; intros Hn; [exact Hn|]. inversion Hn; subst. auto.
      - pose proof order_range as R. change order with kCodeLengthCodeOrder in R. rewrite <- (firstn_skipn (Z.to_nat k) kCodeLengthCodeOrder) in R. now apply Forall_app in R.
      - split; [intros; lia|]. split; [reflexivity|]. split; reflexivity. }
    intros r (cl & sp & num & -> & (I1 & _ & I3 & I4)). destruct ((num =? 1) || (sp =? 0)) eqn:G; [|apply Bad].
    destruct (table5_any mem garbage (map cl (zseq 0 18))) as (counts & table & Ec & Et & Ht).
    { reflexivity. } { apply Forall_forall. intros x Hx. apply in_map_iff in Hx as (i & <- & _). apply I1. }
    { rewrite !map_map. fold (S18 is_code cl). fold (S18 w5 cl). apply Bool.orb_true_iff in G as [G|G]; [left|right]; lia. }
    eapply ends_bind.
    { unfold read_code_lengths. rewrite Ec, Et. change (32 =? 0) with false. cbv iota. apply lens_loop_ends; [exact Ht|apply rle_ok_init; lia|].
      cbn [lens]. change (zlen (@nil Z)) with 0. lia. }
    intros r (o & -> & H). destruct o as [ls|]; [|apply Bad]. destruct (H ls eq_refl) as (Hlen & Hok & Hc).
    destruct (count_depths_ok ls [] (fun _ => 0) Hok ltac:(cbn [app]; lia)) as (counts' & Ec' & _). { intros. now rewrite count_len_nil. } rewrite Ec'.
    destruct (decoder_table ls counts' garbage (fun _ => (0, 0)) Hok Hc ltac:(lia) Ec') as (total & t & Ebt & Htot & _ & Hany). rewrite Hlen in Ebt. rewrite Ebt.
    replace (0 <? total) with true by lia. apply ends_ret. eexists. split; [reflexivity|]. intros tb E. injection E as <-. intros u pos av Hp Hav.
    destruct (Hany u pos av Hp Hav) as (s & l & Hs & Hl & E). exists s, l. pose proof (znth_some_inv _ _ _ Hs). split; [lia|]. split; [lia|exact E].
Qed.
