(* Reading code lengths. *)
From Verif Require Import Base ListAux Wrap BitProg BitProgProofs FieldsProofs HuffTreeModel HuffSpec HuffSort HuffRoot HuffBuild HuffRle.
Ltac Zify.zify_post_hook ::= idtac.

(* the code word of [code] in a table of 32 entries *)
Definition word5 (table : Z -> Z * Z) (code n v : Z) : Prop :=
  0 <= n <= 5 /\ 0 <= v < 2 ^ n /\ forall x, 0 <= x < 32 -> x mod 2 ^ n = v -> table x = (n, code).

Lemma peek_word {A} table code n v (K : Z -> rprog A) (bad : rprog A) e a :
  word5 table code n v -> parses (K code) e a ->
  parses (Refill (Peek 5 (fun i => match get 32 table i with None => bad | Some (nbits, c) => Consume nbits (K c) end)))
    (to_bits (Z.to_nat n) v ++ e) a.
Proof.
  intros (Hn & Hv & Ht) HK pre post av Hav. cbn [run_bits]. change ((0 <=? 5) && (5 <=? 56)) with true. cbv iota.
  set (st := pre ++ (to_bits (Z.to_nat n) v ++ e) ++ post). pose proof (zlen_nonneg pre) as Hp.
  pose proof (bits_at_range st (zlen pre) 5 ltac:(lia)) as R. change (2 ^ 5) with 32 in R.
  assert (Ex : bits_at st (zlen pre) 5 mod 2 ^ n = v).
  { rewrite bits_at_mod by lia. unfold st. rewrite <- app_assoc. apply bits_at_exact; lia. }
  rewrite get_ok by lia. rewrite (Ht _ R Ex). cbn [run_bits]. replace ((0 <=? n) && (n <=? 56)) with true by lia.
  destruct (HK (pre ++ to_bits (Z.to_nat n) v) post (56 - n) ltac:(lia)) as (av' & Hr & Hav').
  exists av'. split; [|exact Hav']. unfold st. rewrite <- !app_assoc in *. rewrite zlen_app, zlen_to_bits, Z2Nat.id in Hr by lia.
  rewrite Hr. rewrite zlen_app, zlen_to_bits, Z2Nat.id by lia. do 3 f_equal. lia.
Qed.

Lemma read_loop_parses bitdepth symbols table n rf : forall ts fs r fuel,
  rle_ok n r -> Forall code_ok ts -> mapM (store_code bitdepth symbols) ts = Some fs ->
  Forall (fun e => exists k v, znth bitdepth (fst e) = Some k /\ znth symbols (fst e) = Some v /\ word5 table (fst e) k v) ts ->
  rle_run n r ts = Some rf -> space rf = 0 -> match lens rf with x :: _ => x <> 0 | [] => True end -> (length ts <= fuel)%nat ->
  parses (read_lengths_loop fuel table n r) (fields_bits (concat fs))
    (Some (Some (rev (lens rf) ++ repeat 0 (Z.to_nat (n - zlen (lens rf)))))).
Proof.
  induction ts as [|(ix, x) ts IH]; intros fs r fuel Hok Hts Hfs Hw Hrun Hs0 Hhd Hfuel.
  - injection Hfs as <-. injection Hrun as ->. cbn [concat]. 
    assert (E : read_lengths_loop fuel table n rf = Ret (Some (Some (rev (lens rf) ++ repeat 0 (Z.to_nat (n - zlen (lens rf))))))).
    { destruct fuel; cbn [read_lengths_loop]; rewrite Hs0; replace ((zlen (lens rf) <? n) && (0 <? 0)) with false by (rewrite Bool.andb_comm; reflexivity); reflexivity. }
    rewrite E. apply parses_ret.
  - destruct (rle_run_ok n _ r rf Hok Hts Hrun) as (Hokf & new & Hnew & Lf). rewrite zlen_cons in Hnew. pose proof (zlen_nonneg ts) as Hzt.
    assert (Hsp : 0 < space r).
    { destruct Hok as (_ & _ & _ & _ & _ & _ & Sp). destruct Hokf as (_ & F & _ & _ & _ & _ & Spf). rewrite Lf in Spf, F, Hhd. rewrite kraft_app in Spf.
      destruct new as [|y new]; [change (zlen (@nil Z)) with 0 in Hnew; lia|]. cbn [app] in Hhd, F. inversion F; subst. rewrite kraft_cons in Spf. pose proof (weight_pos y). pose proof (kraft_nonneg new). lia. }
    assert (Hln : zlen (lens r) < n). { destruct Hokf as (Hl & _). rewrite Lf, zlen_app in Hl. lia. }
    cbn [mapM] in Hfs. destruct (store_code bitdepth symbols (ix, x)) as [f|] eqn:Ef; [|discriminate]. destruct (mapM _ ts) as [fs'|] eqn:Efs; [|discriminate].
    injection Hfs as <-. inversion Hts as [|? ? Hc Hts']; subst. inversion Hw as [|? ? Hw1 Hw']; subst. cbn [fst] in *.
    destruct Hw1 as (k & v & Ek & Ev & W). unfold store_code in Ef. rewrite Ek, Ev in Ef.
    destruct fuel as [|fuel]; [cbn in Hfuel; lia|]. cbn [length] in Hfuel. cbn [read_lengths_loop].
    replace ((zlen (lens r) <? n) && (0 <? space r)) with true by lia.
    cbn [rle_run] in Hrun. destruct (rle_apply n r (ix, x)) as [r1|] eqn:E1; [|discriminate].
    destruct (rle_apply_ok n r _ r1 Hok Hc E1) as (Hok1 & _).
    specialize (IH fs' r1 fuel Hok1 Hts' eq_refl Hw' Hrun Hs0 Hhd ltac:(lia)).
    destruct Hc as (C1 & C2 & C3 & C4). cbn [fst snd] in *. 
    cbn [concat].
    assert (Ef' : fields_bits (f ++ concat fs') = to_bits (Z.to_nat k) v ++ (if 16 <=? ix then to_bits (Z.to_nat (ix - 14)) x ++ fields_bits (concat fs') else fields_bits (concat fs'))).
    { destruct (Z.eqb_spec ix 16) as [->|N16]; [injection Ef as <-; reflexivity|]. destruct (Z.eqb_spec ix 17) as [->|N17]; injection Ef as <-; [reflexivity|].
      replace (16 <=? ix) with false by lia. reflexivity. }
    rewrite Ef'. apply (peek_word table ix k v (fun v0 => if w8 v0 <? 16 then _ else _)); [exact W|].
    replace (w8 ix) with ix by (unfold w8; symmetry; apply Z.mod_small; lia).
    unfold rle_apply in E1. cbn [fst snd] in E1.
    destruct (Z.ltb_spec ix 16) as [L|L].
    + replace (16 <=? ix) with false by lia. replace (zlen (lens r) <? n) with true in E1 by lia. apply Some_eq in E1. rewrite E1. exact IH.
    + replace (16 <=? ix) with true by lia. eapply parses_bind.
      * apply parses_rd; [lia|]. assert (ix = 16 \/ ix = 17) as [->| ->] by lia; [change (2 ^ (16 - 14)) with 4|change (2 ^ (17 - 14)) with 8]; lia.
      * cbv beta. rewrite E1. exact IH.
Qed.
