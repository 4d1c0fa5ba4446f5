(* The sections of a frame are found where the table of contents says. *)
From Verif Require Import Base HuffRle BitReaderModel BitReaderSpec BitProg BitProgProofs BitIOProofs FieldsModel FieldsProofs TocModel LehmerSpec ListAux
  MtfSpec CodesSpec TocSpec PermProofs TocRead TocLayout.
Ltac Zify.zify_post_hook ::= idtac.

Lemma stored_in perm codes stored : (perm = [] \/ is_permutation (zlen codes) perm) -> permute_groups perm codes = Some stored -> zlen stored = zlen codes /\ forall g, In g stored -> In g codes.
Proof.
  intros Hp E. destruct (permute_spec perm codes Hp) as (st & E' & L & N). rewrite E in E'. apply Some_eq in E'. subst st. split; [exact L|].
  intros g Hg. destruct (In_nth _ _ [] Hg) as (k & Hk & Ek). destruct (position_onto _ _ (Z.of_nat k) Hp) as (i & Hi & Ei). { unfold zlen in *. lia. }
  specialize (N i Hi). rewrite Ei, (znth_some stored (Z.of_nat k) []), Nat2Z.id, Ek in N by (unfold zlen in *; lia). symmetry in N. eapply znth_member; exact N.
Qed.
Lemma concat_bound b (l : list (list Z)) : (forall g, In g l -> zlen g <= b) -> zlen (concat l) <= zlen l * b.
Proof.
  induction l as [|g l IH]; intros H; [reflexivity|]. cbn [concat]. rewrite zlen_app, zlen_cons. pose proof (H g (or_introl eq_refl)). specialize (IH (fun x Hx => H x (or_intror Hx))). lia.
Qed.

(* bytes and their bits *)
Lemma byte_inj a b : is_u8 a -> is_u8 b -> to_bits 8 a = to_bits 8 b -> a = b.
Proof.
  unfold is_u8. intros Ha Hb E. rewrite <- (of_bits_to_bits 8 a), <- (of_bits_to_bits 8 b), E; [reflexivity| |]; change (2 ^ Z.of_nat 8) with 256; lia.
Qed.
Lemma bytes_prefix a : forall b rest, bytes_ok a -> bytes_ok b -> bytes_bits b = bytes_bits a ++ rest -> firstn (length a) b = a.
Proof.
  induction a as [|x a IH]; intros b rest Ha Hb E; [reflexivity|]. destruct b as [|y b]; [discriminate E|].
  inversion Ha as [|u v Hx Ha']; subst. inversion Hb as [|u v Hy Hb']; subst. unfold bytes_bits in E. cbn [flat_map] in E. rewrite <- app_assoc in E.
  assert (E1 : to_bits 8 y = to_bits 8 x). { apply (f_equal (firstn 8)) in E. rewrite <- (length_to_bits 8 y) in E at 1. rewrite <- (length_to_bits 8 x) in E at 2. rewrite !firstn_app_exact in E. exact E. }
  apply byte_inj in E1; [|assumption|assumption]. subst y. apply app_inv_head in E. cbn [length firstn]. f_equal. eapply IH; [assumption|assumption|exact E].
Qed.
Lemma bytes_skip k : forall b, bytes_bits (skipn k b) = skipn (8 * k) (bytes_bits b).
Proof.
  induction k as [|k IH]; intros b; [reflexivity|]. destruct b as [|x b]; [now rewrite !skipn_nil|]. cbn [skipn]. rewrite IH.
  change (bytes_bits (x :: b)) with (to_bits 8 x ++ bytes_bits b). rewrite skipn_app, length_to_bits. rewrite (skipn_all2 (to_bits 8 x)) by (rewrite length_to_bits; lia). cbn [app]. f_equal. lia.
Qed.
Lemma bytes_at bs pre body rest : bytes_ok bs -> bytes_ok body -> bytes_bits bs = pre ++ bytes_bits body ++ rest -> zlen pre mod 8 = 0 -> forall o n, 0 <= o -> 0 <= n -> o + n <= zlen body ->
  slice bs (zlen pre / 8 + o) n = slice body o n.
Proof.
  intros Hb Hy E Hm o n Ho Hn Hl. pose proof (Z.div_mod (zlen pre) 8 ltac:(lia)) as D. pose proof (zlen_nonneg pre). assert (Hk : 0 <= zlen pre / 8) by (apply Z.div_pos; lia).
  set (k := Z.to_nat (zlen pre / 8)). assert (Lk : length pre = (8 * k)%nat) by (unfold k, zlen in *; lia).
  assert (F : firstn (length body) (skipn k bs) = body).
  { apply bytes_prefix with (rest := rest); [exact Hy|apply Forall_skipn; exact Hb|]. rewrite bytes_skip, E, <- Lk. apply skipn_app_exact. }
  unfold slice. rewrite <- F at 1. replace (Z.to_nat (zlen pre / 8 + o)) with (k + Z.to_nat o)%nat by (unfold k; lia). rewrite <- skipn_skipn.
  assert (Hle : (Z.to_nat o + Z.to_nat n <= length body)%nat) by (unfold zlen in Hl; lia).
  rewrite skipn_firstn_comm, firstn_firstn. f_equal. lia.
Qed.

Definition frame_reader {H} (hdr : rprog H) (M : machine) (total : Z) (n : nat) : rprog (H * option offsets_result) :=
  let! h := hdr in let! t := read_group_offsets M total n in Ret (h, t).

Theorem frame_sections {H} (hdr : rprog H) hbits h M mem mp p ts perm coded codes stored :
  lane_count (m_lanes M) -> parses hdr hbits h -> 0 < zlen codes <= 65536 -> Forall (fun g => bytes_ok g /\ zlen g <= max_section) codes ->
  (perm = [] \/ is_permutation (zlen codes) perm /\ exists raw, tokenize_permutation perm 0 = Some raw /\ coding_of kPermutationContexts mp p ts raw /\ coded = encode_with_plan mem mp p ts) ->
  permute_groups perm codes = Some stored ->
  exists fs, write_toc (zlen hbits) perm coded (map zlen stored) = Some fs /\ Forall field_ok fs /\
    forall bs rest, bytes_ok bs -> bytes_bits bs = hbits ++ fields_bits fs ++ bytes_bits (concat stored) ++ rest ->
    exists r0 r1 offs szs, reader_init bs = Some r0 /\
      run_reader bs r0 (frame_reader hdr M (zlen bs) (length codes)) = Some ((h, Some (Offsets offs szs (zlen (concat stored)))), r1) /\
      all_reads_within_bounds bs r1 = true /\ total_bits_consumed r1 mod 8 = 0 /\
      forall i g, znth codes i = Some g -> exists o, znth offs i = Some o /\ znth szs i = Some (zlen g) /\
        slice bs (total_bits_consumed r1 / 8 + o) (zlen g) = g.
Proof.
  intros HL Ph Hn Fc Hperm Es.
  assert (Hp : perm = [] \/ is_permutation (zlen codes) perm) by (destruct Hperm as [->|(Hp & _)]; auto).
  destruct (stored_in _ _ _ Hp Es) as (Ls & Is). rewrite Forall_forall in Fc.
  assert (Lm : length (map zlen stored) = length codes) by (rewrite map_length; unfold zlen in Ls; lia).
  assert (Ok : sizes_ok (map zlen stored)). { apply Forall_forall. intros s Hs. apply in_map_iff in Hs as (g & <- & Hg). apply Is in Hg. destruct (Fc g Hg). pose proof (zlen_nonneg g). lia. }
  assert (Lz : zlen (map zlen stored) = zlen codes) by (unfold zlen at 1; rewrite Lm; reflexivity).
  assert (By : bytes_ok (concat stored)). { apply Forall_forall. intros x Hx. apply in_concat in Hx as (g & Hg & Hx). apply Is in Hg. destruct (Fc g Hg) as (Bg & _). unfold bytes_ok in Bg. rewrite Forall_forall in Bg. now apply Bg. }
  assert (Tc : zlen (concat stored) < 2 ^ 64). { pose proof (concat_bound max_section stored) as Cb. assert (zlen (concat stored) <= zlen stored * max_section) by (apply Cb; intros g Hg; apply Is in Hg; now destruct (Fc g Hg)). unfold max_section in *. nia. }
  destruct (toc_roundtrip M mem mp p ts hbits [] 0 0 perm (map zlen stored) coded HL ltac:(lia) Ok ltac:(rewrite Lz; exact Hperm) ltac:(lia)) as (fs & Ew & Ff & Al & _).
  exists fs. split; [exact Ew|]. split; [exact Ff|]. intros bs rest Hbs Eb.
  destruct (sections_found perm codes stored Hp Es) as (offs & szs & Eo & Ho). { apply Forall_forall. intros g Hg. destruct (Fc g Hg) as (_ & Hg2). unfold max_section in Hg2. lia. } { exact Tc. }
  destruct (Ph [] (fields_bits fs ++ bytes_bits (concat stored) ++ rest) 0 ltac:(lia)) as (av1 & E1 & A1). cbn [app] in E1. change (zlen (@nil bool)) with 0 in E1. rewrite Z.add_0_l in E1.
  destruct (toc_roundtrip M mem mp p ts hbits (bytes_bits (concat stored) ++ rest) (zlen bs) av1 perm (map zlen stored) coded HL ltac:(lia) Ok ltac:(rewrite Lz; exact Hperm) A1) as (fs2 & Ew2 & _ & _ & Rd).
  rewrite Ew in Ew2. apply Some_eq in Ew2. subst fs2. rewrite <- Eb in *. rewrite zlen_bytes_bits in Rd. destruct (Rd eq_refl) as (av2 & E2 & A2). rewrite Lm in E2.
  assert (R : run_bits (bytes_bits bs) 0 0 (frame_reader hdr M (zlen bs) (length codes)) = Some ((h, Some (Offsets offs szs (zlen (concat stored)))), (zlen hbits + zlen (fields_bits fs), av2))).
  { unfold frame_reader. rewrite run_bits_bind, E1, run_bits_bind. unfold read_group_offsets. rewrite run_bits_bind, E2. cbn [run_bits]. rewrite Eo. reflexivity. }
  destruct (reader_runs_bits _ bs _ _ _ Hbs R) as (r0 & r1 & I0 & Rr & Tb & Aw).
  assert (Lb : zlen hbits + zlen (fields_bits fs) <= 8 * zlen bs). { rewrite <- zlen_bytes_bits, Eb, !zlen_app. pose proof (zlen_nonneg (bytes_bits (concat stored))). pose proof (zlen_nonneg rest). lia. }
  exists r0, r1, offs, szs. split; [exact I0|]. split; [exact Rr|]. split; [rewrite Aw; lia|]. rewrite (Tb Lb). split; [exact Al|].
  intros i g Hg. destruct (Ho i g Hg) as (o & O1 & O2 & O3). exists o. split; [exact O1|]. split; [exact O2|]. rewrite <- O3 at 2.
  destruct (offsets_share (map zlen stored) perm) as (offs2 & szs2 & Eo2 & _ & Sh). { eapply Forall_impl; [|exact Ok]. unfold max_section. cbv beta. lia. } { now rewrite Lz. }
  { replace (total_of (map zlen stored)) with (zlen (concat stored)); [exact Tc|]. clear. induction stored as [|a s IH]; [reflexivity|]. cbn [map concat]. rewrite total_cons, zlen_app, IH. reflexivity. }
  rewrite Eo in Eo2. assert (Q : offs2 = offs /\ szs2 = szs /\ total_of (map zlen stored) = zlen (concat stored)) by (clear -Eo2; apply Some_eq in Eo2; inversion Eo2; auto). destruct Q as (-> & -> & Q).
  rewrite Q in Sh. destruct Sh as (_ & Sh & _). specialize (Sh i o (zlen g) O1 O2). rewrite <- zlen_app. rewrite <- zlen_app in Al.
  apply bytes_at with (rest := rest); [exact Hbs|exact By|rewrite Eb, <- app_assoc; reflexivity|exact Al|lia|lia|lia].
Qed.

(* whatever the bits are *)
Theorem any_group_offsets M total n : lane_count (m_lanes M) -> forall s pos av, 0 <= pos -> 0 <= av <= 56 ->
  exists o pos' av', run_bits s pos av (read_group_offsets M total n) = Some (Some o, (pos', av')) /\ pos <= pos' /\ 0 <= av' <= 56 /\
    forall offsets sizes total_size, o = Offsets offsets sizes total_size ->
      0 < Z.of_nat n <= 65536 /\ length sizes = n /\ share_out offsets sizes total_size /\ 0 <= total_size < 2 ^ 47 /\ pos' mod 8 = 0 /\ pos' <= zlen s.
Proof.
  intros HL s pos av Hpos Hav. destruct (toc_any M total n HL s pos av Hpos Hav) as (o & pos' & av' & E & L & A & G). unfold read_group_offsets. rewrite run_bits_bind, E. cbn [run_bits].
  destruct o as [sizes perm| |].
  - destruct (G sizes perm eq_refl) as (Hn & Ln & Ok & Hp & Al & Le).
    assert (Hz : zlen sizes = Z.of_nat n) by (unfold zlen; lia).
    assert (T : 0 <= total_of sizes < 2 ^ 47).
    { split; [apply total_nonneg; eapply Forall_impl; [|exact Ok]; cbv beta; lia|]. assert (B : total_of sizes <= zlen sizes * max_section). { clear -Ok. induction Ok as [|x l Hx _ IH]; [reflexivity|]. rewrite total_cons, zlen_cons. lia. } unfold max_section in B. nia. }
    destruct (offsets_share sizes perm) as (offs & szs & Eo & Lz & Sh). { eapply Forall_impl; [|exact Ok]. unfold max_section. cbv beta. lia. } { now rewrite Hz. } { lia. }
    rewrite Eo. eexists _, pos', av'. split; [reflexivity|]. split; [exact L|]. split; [exact A|]. intros o2 s2 t2 X. injection X as <- <- <-. unfold zlen in Lz. split; [exact Hn|]. split; [lia|]. auto.
  - exists OffsetsFail, pos', av'. split; [reflexivity|]. split; [exact L|]. split; [exact A|]. discriminate.
  - exists OffsetsShort, pos', av'. split; [reflexivity|]. split; [exact L|]. split; [exact A|]. discriminate.
Qed.

(* the frame decoder keeps the sections in the order of the codestream, with their ids *)
Theorem any_frame_toc M total n : lane_count (m_lanes M) -> forall s pos av sizes perm pos' av', 0 <= pos -> 0 <= av <= 56 ->
  run_bits s pos av (read_toc M total n) = Some (Some (TocOk sizes perm), (pos', av')) ->
  exists offs szs ids, group_offsets (TocOk sizes perm) = Some (Offsets offs szs (total_of sizes)) /\ frame_toc sizes perm = Some (Some (ids, total_of sizes)) /\
    forall j, 0 <= j < zlen sizes -> 0 <= ids j < zlen sizes /\ znth szs (ids j) = znth sizes j /\ znth offs (ids j) = Some (total_of (firstn (Z.to_nat j) sizes)).
Proof.
  intros HL s pos av sizes perm pos' av' Hpos Hav E. destruct (toc_any M total n HL s pos av Hpos Hav) as (o & p1 & a1 & E1 & _ & _ & G). rewrite E in E1. assert (o = TocOk sizes perm) by (apply Some_eq in E1; inversion E1; auto).
  destruct (G sizes perm H) as (Hn & Ln & Ok & Hp & _). assert (Hz : zlen sizes = Z.of_nat n) by (unfold zlen; lia). rewrite <- Hz in Hp.
  assert (F : Forall (fun s => 0 <= s < 2 ^ 32) sizes) by (eapply Forall_impl; [|exact Ok]; unfold max_section; cbv beta; lia).
  assert (T : total_of sizes < 2 ^ 64). { assert (B : total_of sizes <= zlen sizes * max_section). { clear -Ok. induction Ok as [|x l Hx _ IH]; [reflexivity|]. rewrite total_cons, zlen_cons. lia. } unfold max_section in B. nia. }
  destruct (proj1 (offsets_spec sizes perm F Hp) T) as (offs & szs & Eo & _ & _ & No). destruct (proj1 (frame_toc_spec sizes perm F Hp) T) as (ids & Ei & Ni). exists offs, szs, ids. split; [exact Eo|]. split; [exact Ei|].
  intros j Hj. destruct (position_onto _ _ j Hp Hj) as (i & Hi & <-). rewrite (Ni i Hi). split; [exact Hi|]. destruct (No i Hi) as (N1 & N2). split; [exact N2|exact N1].
Qed.

(* Sizes from 2^32 on are not refused: they are written as if they were smaller. *)
Theorem toc_size_wraps : exists pos sizes fs, write_toc_sizes pos sizes = Some fs /\ write_toc_sizes pos (map (fun s => s - 2 ^ 32) sizes) = Some fs /\ Forall (fun s => 2 ^ 32 <= s) sizes /\ sizes <> [].
Proof.
  exists 0, [2 ^ 32 + 5], [(2, 0); (10, 5); (4, 0)]. split; [vm_compute; reflexivity|]. split; [vm_compute; reflexivity|]. split; [|discriminate]. constructor; [lia|constructor].
Qed.
