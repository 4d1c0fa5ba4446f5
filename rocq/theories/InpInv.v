(* The invariant of the decoder reading a file in the container format. *)
From Coq Require Import Permutation.
From Verif Require Import Base ListAux OMap ContainerModel ContainerSpec ContainerProofs InpModel InpSpec InpWin InpParse InpJxlp.
Ltac Zify.zify_post_hook ::= idtac.

Lemma Some_inj {A} (a b : A) : Some a = Some b -> a = b.
Proof. congruence. Qed.

(* ---- traces of deliveries ---- *)
Definition other (s : status) : Prop := s <> SBox /\ s <> SBoxMoreOutput /\ s <> SBoxComplete.

Lemma delivered_app cm os1 : forall y y1 y2 os2, delivered cm y os1 y1 -> delivered cm y1 os2 y2 -> delivered cm y (os1 ++ os2) y2.
Proof.
  induction os1 as [|o os1 IH]; intros y y1 y2 os2 H1 H2; [cbn in H1; subst; exact H2|].
  destruct H1 as (ya & Hd & Hr & Hl). cbn. exists ya. split; [exact Hd|]. split; [eapply IH; eauto|].
  destruct o; try exact I. intros A B. destruct (Hl A B) as (r' & ->). exists (r' ++ os2). reflexivity.
Qed.
Lemma delivered_cs cm os : forall y, Forall cs_obs os -> delivered cm y os y.
Proof.
  induction os as [|o os IH]; intros y H; [reflexivity|]. inversion H; subst. cbn. exists y.
  destruct o; cbn in *; try contradiction; (split; [apply del_other; exact I|]); (split; [apply IH; assumption|exact I]).
Qed.
Lemma delivered_ret cm y s : other s -> delivered cm y [ORet s] y.
Proof. intros H. cbn. exists y. split; [apply del_other; exact H|]. auto. Qed.

Lemma bytes_app a b : bytes_ok (a ++ b) <-> bytes_ok a /\ bytes_ok b.
Proof. unfold bytes_ok. apply Forall_app. Qed.
Lemma bytes_drop n l : bytes_ok l -> bytes_ok (drop n l).
Proof. intros H. rewrite <- (take_drop n l) in H. apply bytes_app in H. tauto. Qed.
Lemma bytes_take n l : bytes_ok l -> bytes_ok (take n l).
Proof. intros H. rewrite <- (take_drop n l) in H. apply bytes_app in H. tauto. Qed.

Lemma header_more s r h t n : box_header s h t n -> box_header (s ++ r) h t n.
Proof.
  intros [sz t1 r1 E L1 L2 N|sz t1 sz64 r1 E L1 L2 L3 N]; subst s.
  - apply (box_small _ sz t1 (r1 ++ r)); auto. rewrite !app_assoc. reflexivity.
  - apply (box_large _ sz t1 sz64 (r1 ++ r)); auto. rewrite !app_assoc. reflexivity.
Qed.

Lemma same_spec a : forall b, same a b = true <-> a = b.
Proof.
  induction a as [|x a IH]; intros [|y b]; cbn; try (split; congruence).
  rewrite andb_true_iff, Z.eqb_eq, IH. split; [intros [-> ->]; reflexivity|intros E; injection E; auto].
Qed.
Lemma same_false a b : a <> b -> same a b = false.
Proof. intros H. destruct (same a b) eqn:E; [apply same_spec in E; contradiction|reflexivity]. Qed.

Lemma J_cons C ver j l b todo E : J C ver j l todo [] E -> b_type b <> JXLP -> b_type b <> JXLC -> J C ver j l (b :: todo) [] E.
Proof.
  intros [before b0 after Et Hp Ha Eb0 Ed Hn Ho Ht Hl Hs HE|Hp Ho Ht Hl Hs HE|pieces HC Hn [N1 N2 (xs & Hxp & Hxr) N4 N5] HE] Np Nc.
  - eapply (J_before _ _ _ _ _ _ _ (b :: before)); eauto; [rewrite Et; reflexivity|apply parts_other; assumption].
  - apply J_after; auto. apply parts_other; assumption.
  - eapply (J_parts _ _ _ _ _ _ _ pieces); eauto. constructor; try assumption. exists xs. split; [apply parts_other; assumption|exact Hxr].
Qed.

Section Inv.
Variable c : config.
Variable F : list Z.
Variable bs : list box.
Variable C : list Z.
Variables ver ver0 : Z.
(* no frame is skipped; the parser never finishes *)
Variables NS ND : Prop.

Hypothesis Hhave : have_container c = true.
Hypothesis HF : F = layout bs.
Hypothesis HFb : bytes_ok F.
Hypothesis Hsize : zlen F < 2 ^ 46.
Hypothesis HCF : zlen C <= zlen F.
Hypothesis Hver : 0 <= ver <= 1.
Hypothesis Hver0 : ver = 0 -> ver0 = 0.

(* the box number k of the file *)
Definition box_at (k : Z) (b : box) (t : list box) : Prop :=
  box_ok b /\ (b_unb b = true -> t = []) /\
  (k = 0 -> b_type b = JXL) /\
  (k = 1 -> b_type b = FTYP /\ b_unb b = false /\ exists v more, b_data b = BRAND ++ v ++ more /\ length v = 4%nat /\ big_endian v = ver /\ 4 <= zlen more) /\
  (2 <= k -> b_type b <> JXL /\ b_type b <> FTYP).
Hypothesis Hbox : forall k b t, 0 <= k -> skipn (Z.to_nat k) bs = b :: t -> box_at k b t.

Definition dm (d : dec) : Z := file_pos d + x_header (d_box d) - x_begin (d_box d).

Definition In_ok (d : dec) : Prop :=
  0 <= file_pos d /\ file_pos d + avail_in d <= zlen F /\ i_in (d_in d) = take (avail_in d) (drop (file_pos d) F).

Definition InBox (d : dec) (b : box) (todo : list box) : Prop :=
  drop (file_pos d + x_header (d_box d)) F = drop (dm d) (b_data b) ++ layout todo /\
  0 <= dm d <= zlen (b_data b) /\ 0 <= x_header (d_box d) <= avail_in d /\
  x_unb (d_box d) = b_unb b /\
  (if b_unb b then todo = [] else x_end (d_box d) = x_begin (d_box d) + zlen (b_data b) /\ x_size (d_box d) = zlen (b_data b)) /\
  1 <= d_count d /\ skipn (Z.to_nat (d_count d - 1)) bs = b :: todo.

Definition At (d : dec) (b : box) (todo : list box) : Prop :=
  0 <= d_count d /\ skipn (Z.to_nat (d_count d)) bs = todo /\
  match d_stage d with
  | BHeader => drop (file_pos d) F = layout todo
  | BFtyp => InBox d b todo /\ b_type b = FTYP /\ dm d = 0
  | BPartial => InBox d b todo /\ b_type b = JXLP /\ dm d = 0
  | _ => InBox d b todo
  end.

Definition CsOK (d : dec) (p sh : Z) (b : box) (todo : list box) : Prop :=
  exists E suf,
    J C ver0 (d_jx d) (d_last d) (match d_stage d with BPartial => b :: todo | _ => todo end) suf E /\
    match d_stage d with
    | BBuffering => suf = drop (dm d) (b_data b) /\ In (j_buf (d_jx d)) (map fst (j_ooo (d_jx d)))
    | _ => suf = []
    end /\
    (d_done d = false -> exists v, Win C (d_win d) p v /\
       match d_stage d with
       | BCodestream => (0 <= v /\ v + (zlen (b_data b) - dm d) = E) /\ drop (dm d) (b_data b) = cut C v E /\
           w_unc (d_win d) <= Z.min (avail_in d - x_header (d_box d)) (zlen (b_data b) - dm d) /\
           (b_unb b = true -> d_last d = true)
       | s => w_unc (d_win d) = 0 /\ v = E /\ v <= Z.max p sh /\ ooo_find (j_ooo (d_jx d)) (j_next (d_jx d)) = None /\
              (s = BBuffering -> b_unb b = false)
       end).

Definition OutOK (d : dec) (y : delivery) (b : box) (todo : list box) : Prop :=
  let o := d_out d in
  if want_box c then
    y_todo y = todo /\ y_room y = (if o_set o then Some (o_size o - o_pos o) else None) /\ y_on y = o_cur o /\
    (o_set o = true -> 0 <= o_pos o <= o_size o) /\
    (o_cur o = true -> o_set o = true /\ o_event o = true) /\
    (o_event o = true -> exists b', y_cur y = Some b' /\ 0 <= c_pos o <= zlen (b_data b') /\ y_got y = take (c_pos o) (b_data b') /\
        c_eof o = b_unb b' /\ c_rem o = (if b_unb b' then 0 else zlen (b_data b') - c_pos o) /\
        match d_stage d with
        | BHeader => c_pos o = zlen (b_data b')
        | _ => b' = b /\ dm d <= c_pos o /\ c_pos o - dm d <= avail_in d - x_header (d_box d)
        end)
  else o_event o = false /\ o_cur o = false /\ o_set o = false /\ y = mkDel bs None [] None false.

Definition Misc (d : dec) : Prop :=
  (2 <= d_count d -> d_stage d <> BFtyp -> j_ver (d_jx d) = ver) /\
  j_total (d_jx d) <= file_pos d /\ zlen (w_copy (d_win d)) <= zlen C /\
  (ver0 = 0 \/ NS -> d_done d = false -> calm (d_win d) /\ (ver0 = 0 \/ strict (d_win d))) /\
  (ND -> d_done d = false) /\ (d_count d = 0 -> d_done d = false).

Definition Inv (d : dec) (p sh : Z) (y : delivery) : Prop :=
  exists b todo, In_ok d /\ At d b todo /\ CsOK d p sh b todo /\ OutOK d y b todo /\ Misc d.

(* after the preamble *)
Definition Ready (d : dec) : Prop :=
  d_stage d <> BHeader -> x_header (d_box d) = 0 /\
    (o_event (d_out d) = true -> forall b todo, skipn (Z.to_nat (d_count d - 1)) bs = b :: todo ->
       c_pos (d_out d) = dm d + Z.min (avail_in d) (zlen (b_data b) - dm d)).

Lemma At_box d b todo : At d b todo -> d_stage d <> BHeader -> InBox d b todo.
Proof. intros (_ & _ & H) Hs. destruct (d_stage d); tauto. Qed.

Lemma In_moved d n w : In_ok d -> 0 <= n <= avail_in d -> In_ok (moved d n w).
Proof. clear Hhave HF HFb Hsize HCF Hver Hver0 Hbox.
  intros (H0 & H1 & H2) Hn. unfold In_ok. rewrite file_pos_moved, avail_moved by lia. split; [lia|]. split; [lia|].
  cbn [moved set_win set_in d_in i_in]. rewrite H2 at 1. rewrite drop_take, drop_drop by lia. reflexivity.
Qed.

Lemma InBox_moved d b todo n w : In_ok d -> InBox d b todo -> x_header (d_box d) = 0 -> 0 <= n <= avail_in d -> n <= zlen (b_data b) - dm d ->
  InBox (moved d n w) b todo /\ dm (moved d n w) = dm d + n.
Proof.
  intros (H0 & _) (H1 & H2 & H3 & H4 & H5 & H6 & H7) Hx Hn Hn2.
  assert (Ed : dm (moved d n w) = dm d + n) by (unfold dm; rewrite file_pos_moved; cbn; lia).
  split; [|exact Ed]. unfold InBox. rewrite Ed, file_pos_moved, avail_moved by lia.
  change (d_box (moved d n w)) with (d_box d). change (d_count (moved d n w)) with (d_count d). rewrite Hx in *.
  split; [|repeat (split; [first [lia|assumption]|]); assumption].
  replace (file_pos d + n + 0) with (file_pos d + 0 + n) by lia.
  rewrite <- drop_drop, H1 by lia. rewrite drop_app1, drop_drop by (rewrite ?zlen_drop by lia; lia). reflexivity.
Qed.

Lemma InBox_data d b todo : In_ok d -> InBox d b todo -> x_header (d_box d) = 0 ->
  (forall n, n <= avail_in d -> n <= zlen (b_data b) - dm d -> take n (i_in (d_in d)) = take n (drop (dm d) (b_data b))) /\
  file_pos d + (zlen (b_data b) - dm d) + zlen (layout todo) = zlen F.
Proof.
  intros (I0 & I1 & I2) (H1 & H2 & H3 & H4 & H5 & H6 & H7) Hx. rewrite Hx, Z.add_0_r in H1. pose proof (avail_nonneg d). split.
  - intros n Hn Hn2. rewrite I2, H1, take_take, Z.min_l by lia. apply take_app1. rewrite zlen_drop by lia. lia.
  - pose proof (f_equal zlen H1) as A. rewrite zlen_app, !zlen_drop in A by lia. pose proof (zlen_nonneg (layout todo)). lia.
Qed.
Lemma InBox_finish d b todo : InBox d b todo -> x_header (d_box d) = 0 -> dm d = zlen (b_data b) -> drop (file_pos d) F = layout todo.
Proof.
  intros (H1 & _) Hx Hd. rewrite Hx, Z.add_0_r, Hd in H1. rewrite (drop_all _ (b_data b)) in H1 by lia. exact H1.
Qed.

Definition head_off (d : dec) : dec :=
  let d := moved d (x_header (d_box d)) (d_win d) in
  let b := d_box d in set_box d (mkBox (x_begin b) (x_end b) (x_size b) 0 (x_unb b)).

Lemma head_off_inv d p sh y : Inv d p sh y -> d_stage d <> BHeader ->
  advance_input d (x_header (d_box d)) = Some (moved d (x_header (d_box d)) (d_win d)) /\ Inv (head_off d) p sh y /\ x_header (d_box (head_off d)) = 0.
Proof.
  intros (b & todo & HI & HA & HC & HO & HM) Hs. pose proof (At_box _ _ _ HA Hs) as HB.
  destruct HB as (H1 & H2 & H3 & H4 & H5 & H6 & H7).
  split; [apply advance_input_moved; lia|]. split; [|reflexivity].
  set (h := x_header (d_box d)) in *.
  assert (Ed : dm (head_off d) = dm d) by (unfold dm, head_off; cbn; unfold file_pos, h; lia).
  assert (Ea : avail_in (head_off d) = avail_in d - h) by (apply (avail_moved d h (d_win d)); lia).
  assert (Ef : file_pos (head_off d) = file_pos d + h) by reflexivity.
  assert (HI' : In_ok (head_off d)) by (apply (In_moved d h (d_win d)); [exact HI|lia]).
  assert (HB' : InBox (head_off d) b todo).
  { unfold InBox. rewrite Ed, Ea, Ef. cbn [head_off moved set_box set_win set_in d_box x_header x_unb x_end x_begin x_size d_count].
    rewrite Z.add_0_r. split; [exact H1|]. repeat (split; [first [lia|assumption]|]). assumption. }
  exists b, todo. split; [exact HI'|]. split.
  { destruct HA as (A1 & A2 & A3). split; [exact A1|]. split; [exact A2|]. change (d_stage (head_off d)) with (d_stage d).
    destruct (d_stage d); try exact HB'; try congruence; rewrite Ed; tauto. }
  split.
  { destruct HC as (E & suf & C1 & C2 & C3). exists E, suf. change (d_stage (head_off d)) with (d_stage d). change (d_jx (head_off d)) with (d_jx d).
    change (d_last (head_off d)) with (d_last d). change (d_done (head_off d)) with (d_done d). change (d_win (head_off d)) with (d_win d).
    rewrite Ed, Ea. change (x_header (d_box (head_off d))) with 0. rewrite Z.sub_0_r. fold h in C3. split; [exact C1|]. split; [exact C2|exact C3]. }
  split.
  { unfold OutOK in *. change (d_stage (head_off d)) with (d_stage d). change (d_out (head_off d)) with (d_out d).
    rewrite Ed, Ea. change (x_header (d_box (head_off d))) with 0. rewrite Z.sub_0_r. exact HO. }
  destruct HM as (M1 & M2 & M3). split; [exact M1|]. split; [rewrite Ef; change (d_jx (head_off d)) with (d_jx d); lia|exact M3].
Qed.

(* nothing about the codestream changes when d_out does *)
Lemma Inv_out d o p sh (y y' : delivery) b todo : In_ok d -> At d b todo -> CsOK d p sh b todo -> Misc d ->
  OutOK (set_out d o) y' b todo -> Inv (set_out d o) p sh y'.
Proof. intros. exists b, todo. repeat (split; [assumption|]). assumption. Qed.

Definition neutral (os : list obs) : Prop := Forall (fun o => match o with OData _ => True | _ => False end) os.
Lemma neutral_spec os : neutral os -> forall p, parser_at p os = p /\ spans_ok C p os /\ forall sh, shown_to p sh os = sh.
Proof. induction 1 as [|o os Ho Hos IH]; intros p; [cbn; auto|]. destruct o; try contradiction. cbn. apply IH. Qed.

Lemma output_box_inv d p sh y : Inv d p sh y -> d_stage d <> BHeader -> x_header (d_box d) = 0 ->
  let '(s, d1, os1) := output_box c d in
  neutral os1 /\ d_in d1 = d_in d /\
  ((s = SSuccess /\ exists y1, delivered (want_complete c) y os1 y1 /\ Inv d1 p sh y1 /\ Ready d1) \/
   ((s = SBoxMoreOutput \/ s = SBoxComplete) /\ exists y1, delivered (want_complete c) y (os1 ++ [ORet s]) y1 /\ Inv d1 p sh y1)).
Proof.
  intros (b & todo & HI & HA & HC & HO & HM) Hs Hx. pose proof (At_box _ _ _ HA Hs) as HB.
  destruct (InBox_data _ _ _ HI HB Hx) as [Hdata Hlen].
  pose proof HB as (H1 & H2 & H3 & H4 & H5 & H6 & H7). pose proof HI as (I0 & I1 & I2).
  unfold output_box. destruct (want_box c) eqn:Ew; cbn [andb].
  2:{ split; [constructor|]. split; [reflexivity|]. left. split; [reflexivity|]. exists y. split; [reflexivity|].
      assert (Eo : set_out d (d_out d) = d) by (destruct d; reflexivity). rewrite Eo. split; [exists b, todo; auto|].
      intros _. split; [exact Hx|]. intros A. unfold OutOK in HO. rewrite Ew in HO. destruct HO as (A' & _). congruence. }
  unfold OutOK in HO. rewrite Ew in HO. destruct HO as (O1 & O2 & O3 & O4 & O5 & O6).
  destruct (o_cur (d_out d)) eqn:Ec.
  2:{ (* no buffer for this box *)
      cbn [negb andb]. rewrite andb_true_r.
      set (o' := if o_event (d_out d) then mkOut false (o_set (d_out d)) false (o_size (d_out d)) (o_pos (d_out d)) (c_pos (d_out d)) (c_rem (d_out d)) (c_eof (d_out d)) else d_out d).
      assert (Eo' : o_event o' = false /\ o_set o' = o_set (d_out d) /\ o_cur o' = false /\ o_size o' = o_size (d_out d) /\ o_pos o' = o_pos (d_out d)).
      { subst o'. destruct (o_event (d_out d)) eqn:Ee; cbn; auto. }
      destruct Eo' as (E1 & E2 & E3 & E4 & E5). rewrite E3.
      split; [constructor|]. split; [reflexivity|]. left. split; [reflexivity|]. exists y. split; [reflexivity|].
      split; [|intros _; split; [exact Hx|]; cbn; congruence].
      apply (Inv_out d o' p sh y y b todo); auto. unfold OutOK. rewrite Ew. cbn [set_out d_out]. rewrite E1, E2, E3, E4, E5.
      split; [exact O1|]. split; [exact O2|]. split; [exact O3|]. split; [exact O4|]. split; congruence. }
  cbn [negb andb]. rewrite andb_false_r. rewrite Ec.
  destruct (O5 eq_refl) as [Oset Oev]. destruct (O6 Oev) as (b' & Y1 & Y2 & Y3 & Y4 & Y5 & Y6).
  assert (Y6' : b' = b /\ dm d <= c_pos (d_out d) /\ c_pos (d_out d) - dm d <= avail_in d).
  { rewrite Hx, Z.sub_0_r in Y6. destruct (d_stage d); try exact Y6. congruence. }
  destruct Y6' as (-> & Y7 & Y8). clear Y6.
  destruct y as [yt yc yg yr yo]. cbn [y_todo y_room y_on y_cur y_got] in *. subst yt yr yo yc yg. rewrite Oset in *.
  unfold content_process. set (o := d_out d) in *.
  assert (Edm : file_pos d - x_begin (d_box d) = dm d) by (unfold dm; rewrite Hx; lia). rewrite Edm.
  destruct (Z.gtb_spec (dm d) (c_pos o)); [lia|].
  destruct (Z.gtb_spec (c_pos o - dm d) (zlen (i_in (d_in d)))) as [A|_]; [unfold avail_in in *; lia|].
  set (inp := drop (c_pos o - dm d) (i_in (d_in d))).
  assert (Zi : zlen inp = avail_in d - (c_pos o - dm d)) by (subst inp; rewrite zlen_drop by lia; unfold avail_in in *; lia).
  set (len := zlen (b_data b)) in *.
  set (can := if c_eof o then zlen inp else Z.min (zlen inp) (c_rem o)).
  assert (Hunb : b_unb b = true -> avail_in d <= len - dm d).
  { intros U. rewrite U in H5. subst todo. change (zlen (layout [])) with 0 in Hlen. lia. }
  assert (Ecan : can = Z.min (avail_in d - (c_pos o - dm d)) (len - c_pos o)).
  { subst can. rewrite Y4, Y5. destruct (b_unb b) eqn:U; [specialize (Hunb eq_refl)|]; lia. }
  specialize (O4 eq_refl).
  set (tw := Z.min can (o_size o - o_pos o)).
  assert (Htw : 0 <= tw <= can) by (subst tw; lia).
  set (rem := if c_eof o then c_rem o else c_rem o - tw).
  assert (Erem : rem = if b_unb b then 0 else len - (c_pos o + tw)).
  { subst rem. rewrite Y4, Y5. destruct (b_unb b); lia. }
  set (o' := mkOut (o_event o) true true (o_size o) (o_pos o + tw) (c_pos o + tw) rem (c_eof o)).
  set (data := take tw inp).
  assert (Edata : data = take tw (drop (c_pos o) (b_data b))).
  { subst data inp. pose proof (Hdata (c_pos o - dm d + tw) ltac:(lia) ltac:(lia)) as A. apply (f_equal (drop (c_pos o - dm d))) in A.
    rewrite !drop_take, drop_drop in A by lia. replace (c_pos o - dm d + tw - (c_pos o - dm d)) with tw in A by lia.
    replace (dm d + (c_pos o - dm d)) with (c_pos o) in A by lia. exact A. }
  assert (Zd : zlen data = tw) by (rewrite Edata, zlen_take, zlen_drop by lia; fold len; lia).
  assert (Eg : take (c_pos o) (b_data b) ++ data = take (c_pos o + tw) (b_data b)) by (rewrite Edata, take_split by lia; reflexivity).
  set (y1 := mkDel todo (Some b) (take (c_pos o) (b_data b) ++ data) (Some (o_size o - o_pos o - zlen data)) true).
  assert (Dy : delivers (mkDel todo (Some b) (take (c_pos o) (b_data b)) (Some (o_size o - o_pos o)) true) (OData data) y1).
  { apply del_data; [|subst tw; lia]. rewrite Eg. exists (drop (c_pos o + tw) (b_data b)). symmetry; apply take_drop. }
  assert (HO1 : OutOK (set_out d o') y1 b todo).
  { unfold OutOK. rewrite Ew. cbn [set_out d_out o' y1 y_todo y_room y_on y_cur y_got o_event o_set o_cur o_size o_pos c_pos c_rem c_eof].
    split; [reflexivity|]. split; [rewrite Zd; f_equal; lia|]. split; [reflexivity|]. split; [intros _; subst tw; lia|]. split; [auto|].
    intros _. exists b. split; [reflexivity|]. fold len. split; [lia|]. split; [exact Eg|]. split; [exact Y4|]. split; [exact Erem|].
    change (d_stage (set_out d o')) with (d_stage d). change (dm (set_out d o')) with (dm d). change (avail_in (set_out d o')) with (avail_in d).
    change (x_header (d_box (set_out d o'))) with (x_header (d_box d)). rewrite Hx.
    assert (b = b /\ dm d <= c_pos o + tw /\ c_pos o + tw - dm d <= avail_in d - 0) by (split; [reflexivity|lia]).
    destruct (d_stage d); try assumption. congruence. }
  assert (HI1 : Inv (set_out d o') p sh y1) by (apply (Inv_out d o' p sh y1 y1 b todo); auto).
  assert (Hco : completes y1 = negb (b_unb b) && (c_pos o + tw =? len)).
  { unfold completes. cbn [y1 y_cur y_got]. fold len. rewrite Eg, zlen_take by lia. fold len. rewrite Z.min_l by lia. reflexivity. }
  fold o'. replace (mkOut (o_event o) (o_set o) (o_cur o) (o_size o) (o_pos o + tw) (c_pos o + tw) rem (c_eof o)) with o' by (subst o'; rewrite Oset, Ec; reflexivity).
  assert (Hneu : neutral [OData data]) by (constructor; [exact I|constructor]).
  destruct (Z.ltb_spec tw can) as [Hlt|Hge].
  - split; [exact Hneu|]. split; [reflexivity|]. right. split; [left; reflexivity|]. exists y1. split; [|exact HI1].
    cbn [delivered app]. exists y1. split; [exact Dy|]. split.
    + exists y1. split; [|auto]. subst y1. replace (o_size o - o_pos o - zlen data) with 0 by (subst tw; lia). apply del_more.
      rewrite Eg, zlen_take by lia. fold len. lia.
    + intros _ A. rewrite Hco in A. apply andb_true_iff in A. destruct A as [_ A]. apply Z.eqb_eq in A. lia.
  - assert (tw = can) by lia. rewrite Y4, Erem.
    assert (Rdy : Ready (set_out d o')).
    { intros _. split; [exact Hx|]. intros _ b0 todo0 A. change (d_count (set_out d o')) with (d_count d) in A. rewrite H7 in A. injection A as <- <-.
      change (dm (set_out d o')) with (dm d). change (avail_in (set_out d o')) with (avail_in d). cbn [set_out d_out o' c_pos]. fold len. lia. }
    destruct (b_unb b) eqn:U; cbn [negb andb] in *.
    + destruct (want_complete c) eqn:Wc.
      * split; [exact Hneu|]. split; [reflexivity|]. right. split; [right; reflexivity|]. exists y1. split; [|exact HI1].
        cbn [delivered app]. exists y1. split; [exact Dy|]. split; [|intros _ _; exists []; reflexivity].
        exists y1. split; [|auto]. subst y1. apply del_complete. congruence.
      * split; [exact Hneu|]. split; [reflexivity|]. left. split; [reflexivity|]. exists y1. split; [|split; assumption].
        cbn [delivered]. exists y1. split; [exact Dy|]. split; [reflexivity|congruence].
    + destruct (Z.gtb_spec (len - (c_pos o + tw)) 0) as [Hg|Hle].
      * split; [exact Hneu|]. split; [reflexivity|]. left. split; [reflexivity|]. exists y1. split; [|split; assumption].
        cbn [delivered]. exists y1. split; [exact Dy|]. split; [reflexivity|]. intros _ A. rewrite Hco in A. apply Z.eqb_eq in A. lia.
      * destruct (want_complete c) eqn:Wc.
        -- split; [exact Hneu|]. split; [reflexivity|]. right. split; [right; reflexivity|]. exists y1. split; [|exact HI1].
           cbn [delivered app]. exists y1. split; [exact Dy|]. split; [|intros _ _; exists []; reflexivity].
           exists y1. split; [|auto]. subst y1. apply del_complete. intros _. rewrite Eg. apply take_all. fold len. lia.
        -- split; [exact Hneu|]. split; [reflexivity|]. left. split; [reflexivity|]. exists y1. split; [|split; assumption].
           cbn [delivered]. exists y1. split; [exact Dy|]. split; [reflexivity|congruence].
Qed.

Lemma preamble_inv d p sh y : Inv d p sh y ->
  let '(s, d1, os1) := preamble c d in
  neutral os1 /\
  ((s = SSuccess /\ exists y1, delivered (want_complete c) y os1 y1 /\ Inv d1 p sh y1 /\ Ready d1) \/
   ((s = SBoxMoreOutput \/ s = SBoxComplete) /\ exists y1, delivered (want_complete c) y (os1 ++ [ORet s]) y1 /\ Inv d1 p sh y1)).
Proof.
  intros HI. unfold preamble. destruct (is_header (d_stage d)) eqn:Eh.
  - split; [constructor|]. left. split; [reflexivity|]. exists y. split; [reflexivity|]. split; [exact HI|].
    intros A. destruct (d_stage d); try discriminate. congruence.
  - assert (Hs : d_stage d <> BHeader) by (intros A; rewrite A in Eh; discriminate).
    destruct (head_off_inv d p sh y HI Hs) as (Ea & HI' & Hx). rewrite Ea. fold (head_off d). cbv zeta.
    pose proof (output_box_inv (head_off d) p sh y HI' Hs Hx) as H. unfold head_off in H |- *. cbv zeta in H.
    destruct (output_box c _) as [[s d1] os1]. destruct H as (A & _ & B). split; [exact A|exact B].
Qed.

(* ---- the stages ---- *)
Definition status_ok (s : status) (d : dec) (p sh : Z) : Prop :=
  match s with
  | SCrash => False
  | SError EInternal => ~ (ver0 = 0 \/ NS)
  | SError EParser => True
  | SError _ => False
  | SNeedInput => d_done d = false -> file_pos d + avail_in d = zlen F -> zlen C <= Z.max p sh
  | SSuccess => d_done d = false -> zlen C <= Z.max p sh
  | _ => True
  end.

Definition step_post (acts : list act) (p sh : Z) (y : delivery) (r : step) : Prop :=
  match r with
  | Go d2 rest os2 => exists y2, delivered (want_complete c) y os2 y2 /\
      Inv d2 (parser_at p os2) (shown_to p sh os2) y2 /\ spans_ok C p os2 /\ (forall P, Forall P acts -> Forall P rest)
  | Stop s d2 _ os2 => exists y2,
      (forall s', s' = s \/ (other s /\ other s') -> delivered (want_complete c) y (os2 ++ [ORet s']) y2) /\
      Inv d2 (parser_at p os2) (shown_to p sh os2) y2 /\ spans_ok C p os2 /\ status_ok s d2 (parser_at p os2) (shown_to p sh os2)
  end.

Lemma stop_post acts p sh y s d rest : Inv d p sh y -> other s -> status_ok s d p sh -> step_post acts p sh y (Stop s d rest []).
Proof.
  intros HI Ho Hs. exists y. cbn. split; [|auto]. intros s' [->|[_ A]]; apply (delivered_ret (want_complete c)); assumption.
Qed.
Lemma go_post acts p sh y d : Inv d p sh y -> step_post acts p sh y (Go d acts []).
Proof. intros HI. exists y. cbn. auto. Qed.

Lemma other_list s : match s with SBox | SBoxMoreOutput | SBoxComplete => False | _ => True end -> other s.
Proof. clear Hhave HF HFb Hsize HCF Hver Hver0 Hbox. unfold other. destruct s; try contradiction; intros _; repeat split; discriminate. Qed.

Lemma head_8 k b t : 0 <= k -> skipn (Z.to_nat k) bs = b :: t -> 8 <= zlen (b_head b).
Proof. intros Hk E. destruct (Hbox k b t Hk E) as ((_ & _ & H) & _). apply box_header_length in H. lia. Qed.

Lemma layout_cons b t : layout (b :: t) = b_head b ++ b_data b ++ layout t.
Proof. unfold layout. cbn [map concat]. rewrite app_assoc. reflexivity. Qed.

Lemma layout_nil k t : 0 <= k -> skipn (Z.to_nat k) bs = t -> zlen (layout t) < 8 -> t = [].
Proof.
  intros Hk E Hz. destruct t as [|b t]; [reflexivity|]. pose proof (head_8 k b t Hk E). rewrite layout_cons, !zlen_app in Hz.
  pose proof (zlen_nonneg (b_data b)). pose proof (zlen_nonneg (layout t)). lia.
Qed.

Lemma skipn_next k b t : 0 <= k -> skipn (Z.to_nat k) bs = b :: t -> skipn (Z.to_nat (k + 1)) bs = t.
Proof.
  intros Hk E. replace (Z.to_nat (k + 1)) with (S (Z.to_nat k)) by lia. revert E. generalize (Z.to_nat k) as n. clear.
  intros n. revert bs. induction n as [|n IH]; intros l E; [cbn in E; subst; reflexivity|]. destruct l as [|a l]; [discriminate|].
  cbn [skipn] in E |- *. apply IH in E. exact E.
Qed.

(* no box left: everything was shown *)
Lemma at_end d p sh b : CsOK d p sh b [] -> d_done d = false -> d_stage d <> BCodestream -> d_stage d <> BPartial -> zlen C <= Z.max p sh.
Proof.
  intros (E & suf & H1 & _ & H3) Hd N1 N2. destruct (H3 Hd) as (v & _ & Hv).
  assert (A : v = E /\ v <= Z.max p sh /\ ooo_find (j_ooo (d_jx d)) (j_next (d_jx d)) = None) by (destruct (d_stage d); try congruence; tauto).
  destruct A as (-> & A2 & A3). assert (HJ : J C ver0 (d_jx d) (d_last d) [] suf E) by (destruct (d_stage d); try congruence; exact H1).
  rewrite (J_end C _ _ _ _ _ HJ A3) in A2. exact A2.
Qed.

Lemma header_inv acts d p sh y : Inv d p sh y -> d_stage d = BHeader -> step_post acts p sh y (step_header c acts d).
Proof.
  intros HInv Hst. pose proof HInv as (bo & todo & HI & HA & HC & HO & HM). pose proof HI as (I0 & I1 & I2).
  pose proof HA as (A1 & A2 & A3). rewrite Hst in A3.
  assert (HC0 : todo = [] -> d_done d = false -> zlen C <= Z.max p sh).
  { intros -> Hd. apply (at_end d p sh bo HC Hd); rewrite Hst; discriminate. }
  pose proof HC as (E & suf & C1 & C2 & C3). rewrite Hst in C1, C2, C3. subst suf.
  unfold step_header. rewrite Hhave. cbn [negb].
  pose proof (avail_nonneg d) as Hav.
  assert (Zl : zlen (layout todo) = zlen F - file_pos d) by (rewrite <- A3, zlen_drop by lia; lia).
  destruct (Z.eqb_spec (avail_in d) 0) as [Ha0|Ha0].
  { destruct (d_done d) eqn:Hd; cbn [negb].
    - destruct (d_closed d); [|destruct (want_box c); cbn [negb]]; (apply stop_post; [exact HInv|apply other_list; exact I|cbn; congruence]).
    - apply stop_post; [exact HInv|apply other_list; exact I|]. cbn. intros _ Hw. apply HC0; [|reflexivity].
      apply (layout_nil (d_count d)); [lia|exact A2|lia]. }
  set (boxed_done := want_box c && d_done d && d_last d).
  assert (Hbd : boxed_done = true -> d_done d = true).
  { subst boxed_done. intros A. apply andb_true_iff in A. destruct A as [A _]. apply andb_true_iff in A. tauto. }
  destruct (boxed_done && (2 <=? avail_in d) && same (take 2 (i_in (d_in d))) [255; 10]) eqn:Eff.
  { apply stop_post; [exact HInv|apply other_list; exact I|]. cbn. intros Hd. rewrite andb_true_iff, andb_true_iff in Eff. destruct Eff as [[A _] _].
    rewrite (Hbd A) in Hd. discriminate. }
  clear Eff. destruct todo as [|b t].
  { change (zlen (layout [])) with 0 in Zl. lia. }
  pose proof (Hbox (d_count d) b t A1 A2) as (Bok & Bunb & Bt0 & Bt1 & Bt2). destruct Bok as (Bh & Bd & Bhead).
  pose proof (box_header_length _ _ _ _ Bhead) as [_ Bh8].
  set (hl := zlen (b_head b)) in *. set (len := zlen (b_data b)) in *.
  set (n := if b_unb b then 0 else hl + len) in *.
  pose proof (zlen_nonneg (b_data b)) as Hlen0. fold len in Hlen0. pose proof (zlen_nonneg (layout t)) as Hlt0.
  rewrite layout_cons, !zlen_app in Zl. fold hl len in Zl.
  rewrite layout_cons in A3.
  assert (Full : exists r, b_head b ++ b_data b ++ layout t = i_in (d_in d) ++ r).
  { exists (drop (avail_in d) (drop (file_pos d) F)). rewrite I2, take_drop. symmetry; exact A3. }
  destruct Full as (fut & Full).
  assert (Whole : box_header (i_in (d_in d) ++ fut) hl (b_type b) n) by (rewrite <- Full; apply header_more, Bhead).
  assert (Uniq : forall h t' n', box_header (i_in (d_in d)) h t' n' -> h = hl /\ t' = b_type b /\ n' = n).
  { intros h t' n' Hh. apply (header_more _ fut) in Hh. apply (box_header_unique _ _ _ _ _ _ _ Hh Whole). }
  destruct (parse_exact (i_in (d_in d)) 0 (file_pos d)) as (r & Er & Hr).
  { rewrite I2. apply bytes_take, bytes_drop, HFb. }
  { change (zlen (i_in (d_in d))) with (avail_in d). lia. }
  { change (zlen (i_in (d_in d))) with (avail_in d). lia. }
  { lia. }
  rewrite Er. cbn [Z.to_nat skipn] in Hr. change (zlen (i_in (d_in d))) with (avail_in d) in Hr.
  destruct r as [k| |n' ty h].
  - (* not all of the header *)
    destruct Hr as [Hk1 Hk2]. apply stop_post; [exact HInv|apply other_list; exact I|]. cbn. intros _ Hw. exfalso.
    specialize (Hk2 _ _ _ _ Whole). lia.
  - destruct Hr as (h & ty & n' & Hh & Hbad). exfalso. apply Hbad. destruct (Uniq _ _ _ Hh) as (-> & -> & ->).
    unfold box_size_ok. split; [|]; subst n; destruct (b_unb b); lia.
  - destruct Hr as [Hh _]. pose proof (box_header_length _ _ _ _ Hh) as [Hhl _]. change (zlen (i_in (d_in d))) with (avail_in d) in Hhl.
    destruct (Uniq _ _ _ Hh) as (-> & -> & ->).
    destruct (same (b_type b) t_brob && (avail_in d <? hl + 4)) eqn:Ebrob.
    { apply andb_true_iff in Ebrob. destruct Ebrob as [Eb1 Eb2]. apply same_spec in Eb1. apply Z.ltb_lt in Eb2.
      apply stop_post; [exact HInv|apply other_list; exact I|]. cbn. intros Hd Hw.
      assert (t = []) as ->. { apply (layout_nil (d_count d + 1)); [lia|apply (skipn_next _ b); assumption|lia]. }
      destruct (C3 Hd) as (v & _ & _ & -> & Hv & Hf & _).
      assert (HJ : J C ver0 (d_jx d) (d_last d) [] [] E) by (apply (J_other C ver0 _ _ b); [exact C1|rewrite Eb1; discriminate|rewrite Eb1; discriminate]).
      rewrite (J_end C _ _ _ _ _ HJ Hf) in Hv. exact Hv. }
    clear Ebrob. cbv zeta. cbn [set_count d_count].
    assert (Ej1 : boxed_done && same (b_type b) t_jxl = false).
    { apply andb_false_iff. destruct boxed_done eqn:B; [right|left; reflexivity]. apply same_false. intros A.
      assert (d_count d <> 0). { intros A0. destruct HM as (_ & _ & _ & _ & _ & M). specialize (M A0). rewrite (Hbd eq_refl) in M. discriminate. }
      destruct (Z.eq_dec (d_count d) 1) as [E1|N1]; [destruct (Bt1 E1) as [A' _]; rewrite A in A'; discriminate|].
      destruct (Bt2 ltac:(lia)) as [A' _]. apply A'. exact A. }
    rewrite Ej1.
    assert (Ej2 : (d_count d + 1 =? 2) && negb (same (b_type b) t_ftyp) = false).
    { destruct (Z.eqb_spec (d_count d + 1) 2) as [E2|]; [|reflexivity]. destruct (Bt1 ltac:(lia)) as [A' _]. rewrite A'. reflexivity. }
    rewrite Ej2.
    assert (Ftyp : b_type b = FTYP -> d_count d = 1).
    { intros A. destruct (Z.eq_dec (d_count d) 0) as [E0|N0]; [specialize (Bt0 E0); rewrite A in Bt0; discriminate|].
      destruct (Z.eq_dec (d_count d) 1) as [E1|N1]; [exact E1|]. destruct (Bt2 ltac:(lia)) as [_ A']. contradiction. }
    assert (Ej3 : same (b_type b) t_ftyp && negb (d_count d + 1 =? 2) = false).
    { destruct (same (b_type b) t_ftyp) eqn:S; [|reflexivity]. apply same_spec in S. rewrite (Ftyp S). reflexivity. }
    rewrite Ej3.
    assert (Eu : (n =? 0) = b_unb b) by (subst n; destruct (b_unb b); [reflexivity|apply Z.eqb_neq; lia]).
    rewrite Eu.
    assert (Ej4 : same (b_type b) t_jxlc && d_last d = false).
    { destruct (same (b_type b) t_jxlc) eqn:S; [|reflexivity]. apply same_spec in S. destruct (J_jxlc C ver0 _ _ _ _ _ C1 S) as (A' & _). exact A'. }
    set (sz := if b_unb b then 0 else n - hl).
    set (bx := mkBox (file_pos d + hl) (if b_unb b then 0 else file_pos d + n) sz hl (b_unb b)).
    set (stg := if same (b_type b) t_ftyp then BFtyp else if same (b_type b) t_jxlc then BCodestream else if same (b_type b) t_jxlp then BPartial else BSkip).
    set (lst := if same (b_type b) t_ftyp then d_last d else if same (b_type b) t_jxlc then true else d_last d).
    set (d3 := fun o => mkDec (d_in d) bx (d_win d) (d_jx d) o stg (d_count d + 1) lst (d_done d) (d_closed d)).
    assert (Hinv3 : forall o y', OutOK (d3 o) y' b t -> Inv (d3 o) p sh y').
    { intros o y' HO'. exists b, t. split; [exact HI|].
      assert (Hns : skipn (Z.to_nat (d_count d + 1)) bs = t) by (apply (skipn_next _ b); assumption).
      assert (Edm : dm (d3 o) = 0) by (unfold dm, d3, bx; cbn; unfold file_pos; cbn; lia).
      assert (HB : InBox (d3 o) b t).
      { unfold InBox. rewrite Edm. change (file_pos (d3 o)) with (file_pos d). change (avail_in (d3 o)) with (avail_in d).
        cbn [d3 d_box bx x_header x_unb x_end x_begin x_size d_count]. rewrite drop_0. fold len.
        split; [rewrite <- drop_drop, A3 by lia; rewrite drop_app2 by (fold hl; lia); fold hl; rewrite Z.sub_diag; apply drop_0|].
        split; [lia|]. split; [lia|]. split; [reflexivity|]. split; [|split; [lia|]].
        - subst sz n. destruct (b_unb b) eqn:U; [apply Bunb; reflexivity|]. split; lia.
        - replace (d_count d + 1 - 1) with (d_count d) by lia. exact A2. }
      split; [|split; [|split; [exact HO'|]]].
      - split; [cbn; lia|]. split; [exact Hns|]. rewrite Edm. cbn [d3 d_stage]. subst stg.
        destruct (same (b_type b) t_ftyp) eqn:S1; [apply same_spec in S1; auto|].
        destruct (same (b_type b) t_jxlc) eqn:S2; [exact HB|].
        destruct (same (b_type b) t_jxlp) eqn:S3; [apply same_spec in S3; auto|exact HB].
      - unfold CsOK. rewrite Edm, Z.sub_0_r, drop_0. fold len. change (avail_in (d3 o)) with (avail_in d).
        cbn [d3 d_stage d_jx d_last d_done d_win d_box bx x_header]. subst stg lst.
        destruct (same (b_type b) t_ftyp) eqn:S1.
        { apply same_spec in S1. exists E, []. split; [apply (J_other C ver0 _ _ b); [exact C1|rewrite S1; discriminate|rewrite S1; discriminate]|]. split; [reflexivity|].
          intros Hd. destruct (C3 Hd) as (v & W & V1 & V2 & V3 & V4 & _). exists v. repeat (split; [assumption|]). discriminate. }
        destruct (same (b_type b) t_jxlc) eqn:S2.
        { apply same_spec in S2. destruct (J_jxlc C ver0 _ _ _ _ _ C1 S2) as (L1 & E0 & Ed & HJ & Hf). exists (zlen C), []. split; [exact HJ|]. split; [reflexivity|].
          intros Hd. destruct (C3 Hd) as (v & W & V1 & V2 & V3 & V4 & _). exists v. rewrite V1, V2, E0. rewrite V2, E0 in W. split; [exact W|].
          subst len. rewrite Ed. split; [lia|]. split; [unfold cut; rewrite drop_0, Z.sub_0_r, take_all by lia; reflexivity|].
          split; [pose proof (zlen_nonneg C); lia|reflexivity]. }
        destruct (same (b_type b) t_jxlp) eqn:S3.
        { exists E, []. split; [exact C1|]. split; [reflexivity|]. intros Hd. destruct (C3 Hd) as (v & W & V1 & V2 & V3 & V4 & _). exists v. repeat (split; [assumption|]). discriminate. }
        exists E, []. split; [apply (J_other C ver0 _ _ b); [exact C1| |]|].
        + intros A. rewrite A in S3. discriminate.
        + intros A. rewrite A in S2. discriminate.
        + split; [reflexivity|]. intros Hd. destruct (C3 Hd) as (v & W & V1 & V2 & V3 & V4 & _). exists v. repeat (split; [assumption|]). discriminate.
      - destruct HM as (M1 & M2 & M3 & M4 & M5 & M6). split; [|split; [exact M2|split; [exact M3|split; [exact M4|split; [exact M5|cbn; lia]]]]].
        cbn [d3 d_count d_stage d_jx]. intros N2 Nf. apply M1; [|rewrite Hst; discriminate].
        destruct (Z.eq_dec (d_count d) 1) as [E1|]; [|lia]. exfalso. apply Nf. destruct (Bt1 E1) as [A' _]. subst stg. rewrite A'. reflexivity. }
    destruct (want_box c) eqn:Ew.
    + (* the user is told *)
      match goal with |- step_post _ _ _ _ ?g => replace g with (Stop SBox (d3 (mkOut true (o_set (d_out d)) false (o_size (d_out d)) (o_pos (d_out d)) 0 sz (b_unb b))) acts []) end.
      2:{ cbn [set_box set_out set_count set_stage set_last d_last]. rewrite Ej4. subst d3 stg lst bx sz. cbn beta. destruct (same (b_type b) t_ftyp); [|destruct (same (b_type b) t_jxlc); [|destruct (same (b_type b) t_jxlp)]];
          destruct (b_unb b); reflexivity. }
      unfold OutOK in HO. rewrite Ew in HO. destruct HO as (O1 & O2 & O3 & O4 & O5 & O6). destruct y as [yt yc yg yr yo]. cbn in O1, O2, O3, O4, O5, O6. subst yt.
      exists (mkDel t (Some b) [] yr false). cbn [app parser_at shown_to spans_ok]. split; [|split; [|split; [exact I|exact I]]].
      * intros s' [->|[A _]]; [|exfalso; destruct A as [A _]; apply A; reflexivity].
        cbn [delivered]. eexists. split; [apply del_box|auto]. intros ->. destruct (O5 (eq_sym O3)) as [_ Oe]. destruct (O6 Oe) as (b' & Y1 & Y2 & Y3 & _ & _ & Y6).
        rewrite Hst in Y6. exists b'. split; [exact Y1|]. rewrite Y3, Y6. apply take_all. lia.
      * apply Hinv3. unfold OutOK. rewrite Ew. cbn [d3 d_out y_todo y_room y_on y_cur y_got o_set o_size o_pos o_cur o_event c_pos c_rem c_eof].
        split; [reflexivity|]. split; [exact O2|]. split; [reflexivity|]. split; [exact O4|]. split; [discriminate|]. intros _. exists b. split; [reflexivity|]. fold len.
        split; [lia|]. split; [reflexivity|]. split; [reflexivity|]. split; [subst sz n; destruct (b_unb b); lia|].
        assert (Edm : forall o, dm (d3 o) = 0) by (intros o; unfold dm, d3, bx; cbn; unfold file_pos; cbn; lia). rewrite !Edm.
        change (avail_in (d3 _)) with (avail_in d).
        assert (b = b /\ 0 <= 0 /\ 0 - 0 <= avail_in d - hl) as Fin by (split; [reflexivity|lia]).
        cbn [d3 d_stage d_box bx x_header]. destruct stg eqn:Estg; try exact Fin.
        exfalso. subst stg. destruct (same (b_type b) t_ftyp); [discriminate|]. destruct (same (b_type b) t_jxlc); [discriminate|]. destruct (same (b_type b) t_jxlp); discriminate.
    + match goal with |- step_post _ _ _ _ ?g => replace g with (Go (d3 (d_out d)) acts []) end.
      2:{ cbn [set_box set_out set_count set_stage set_last d_last]. rewrite Ej4. subst d3 stg lst bx sz. cbn beta. destruct (same (b_type b) t_ftyp); [|destruct (same (b_type b) t_jxlc); [|destruct (same (b_type b) t_jxlp)]];
          destruct (b_unb b); reflexivity. }
      apply go_post. apply Hinv3. unfold OutOK in *. rewrite Ew in *. exact HO.
Qed.

Lemma box_count d b todo : InBox d b todo -> box_at (d_count d - 1) b todo.
Proof. intros (_ & _ & _ & _ & _ & H6 & H7). apply Hbox; [lia|exact H7]. Qed.

Lemma unb_avail d b todo : In_ok d -> InBox d b todo -> x_header (d_box d) = 0 -> b_unb b = true ->
  todo = [] /\ avail_in d <= zlen (b_data b) - dm d /\ file_pos d + (zlen (b_data b) - dm d) = zlen F.
Proof.
  intros HI HB Hx U. destruct (InBox_data _ _ _ HI HB Hx) as [_ Hl]. destruct HB as (_ & _ & _ & _ & H5 & _). rewrite U in H5. subst todo.
  change (zlen (layout [])) with 0 in Hl. destruct HI as (_ & I1 & _). split; [reflexivity|]. lia.
Qed.

Lemma out_step d d' y b todo n : OutOK d y b todo -> Ready d -> d_stage d <> BHeader -> InBox d b todo -> d_out d' = d_out d ->
  0 <= n <= avail_in d -> n <= zlen (b_data b) - dm d -> dm d' = dm d + n -> avail_in d' = avail_in d - n -> x_header (d_box d') = 0 ->
  (d_stage d' = BHeader -> dm d + n = zlen (b_data b)) -> OutOK d' y b todo.
Proof.
  intros HO HR Hs HB Eo Hn1 Hn2 Ed Ea Hx Hh. unfold OutOK in *. rewrite Eo. destruct (want_box c); [|exact HO].
  destruct HO as (O1 & O2 & O3 & O4 & O5 & O6). repeat (split; [assumption|]). intros Oe. destruct (O6 Oe) as (b' & Y1 & Y2 & Y3 & Y4 & Y5 & Y6).
  exists b'. repeat (split; [assumption|]). destruct (HR Hs) as [Hx0 Hc]. destruct HB as (_ & _ & _ & _ & _ & _ & H7). specialize (Hc Oe b todo H7).
  assert (Y6' : b' = b) by (destruct (d_stage d); try tauto; congruence). subst b'.
  assert (b = b /\ dm d' <= c_pos (d_out d) /\ c_pos (d_out d) - dm d' <= avail_in d' - x_header (d_box d')) as Fin.
  { split; [reflexivity|]. rewrite Ed, Ea, Hx, Hc. lia. }
  destruct (d_stage d') eqn:Es; try exact Fin. specialize (Hh eq_refl). lia.
Qed.

Lemma ftyp_inv acts d p sh y : Inv d p sh y -> Ready d -> d_stage d = BFtyp -> step_post acts p sh y (step_ftyp acts d).
Proof.
  intros HInv HR Hst. pose proof HInv as (b & todo & HI & HA & HC & HO & HM). pose proof HA as (A1 & A2 & A3). rewrite Hst in A3.
  destruct A3 as (HB & Ety & Edm). assert (Hs : d_stage d <> BHeader) by (rewrite Hst; discriminate).
  destruct (HR Hs) as [Hx _]. destruct (InBox_data _ _ _ HI HB Hx) as [Hdata Hlen].
  destruct (box_count _ _ _ HB) as (_ & _ & B0 & B1 & B2).
  assert (Hc : d_count d = 2).
  { destruct HB as (_ & _ & _ & _ & _ & H6 & _). destruct (Z.eq_dec (d_count d) 1) as [E1|]; [specialize (B0 ltac:(lia)); rewrite Ety in B0; discriminate|].
    destruct (Z.eq_dec (d_count d) 2) as [|]; [assumption|]. destruct (B2 ltac:(lia)) as [_ A]. contradiction. }
  destruct (B1 ltac:(lia)) as (_ & U & v & more & Ed & Lv & Ev & Lm).
  pose proof HB as (H1 & H2 & H3 & H4 & H5 & H6 & H7). rewrite U in H5. destruct H5 as [H5 H5s].
  assert (Zd : zlen (b_data b) = 8 + zlen more). { rewrite Ed, !zlen_app. change (zlen BRAND) with 4. unfold zlen at 1. rewrite Lv. change (Z.of_nat 4) with 4. lia. }
  unfold step_ftyp. rewrite H5s. destruct (Z.ltb_spec (zlen (b_data b)) 12); [lia|].
  destruct (Z.ltb_spec (avail_in d) 8) as [Ha|Ha].
  { apply stop_post; [exact HInv|apply other_list; exact I|]. cbn. intros _ Hw. pose proof (zlen_nonneg (layout todo)). lia. }
  rewrite Edm, drop_0 in Hdata.
  assert (E4 : take 4 (i_in (d_in d)) = t_brand).
  { rewrite Hdata, Ed by lia. reflexivity. }
  assert (E8 : take 4 (drop 4 (i_in (d_in d))) = v).
  { pose proof (Hdata 8 Ha ltac:(lia)) as A. apply (f_equal (drop 4)) in A. rewrite !drop_take in A by lia. change (8 - 4) with 4 in A. rewrite A, Ed.
    change (drop 4 (BRAND ++ v ++ more)) with (v ++ more). unfold take. change (Z.to_nat 4) with 4%nat. rewrite <- Lv. rewrite firstn_app, Nat.sub_diag, firstn_all. cbn. apply app_nil_r. }
  rewrite E4, E8. change (same t_brand t_brand) with true. cbn [negb]. rewrite be_spec, Ev.
  destruct (Z.gtb_spec ver 1); [lia|].
  set (d1 := set_jx d (mkJxlp ver (j_next (d_jx d)) (j_ooo (d_jx d)) (j_total (d_jx d)) (j_buf (d_jx d)))).
  rewrite advance_input_moved by (change (avail_in d1) with (avail_in d); lia).
  destruct (InBox_moved d b todo 8 (d_win d) HI HB Hx ltac:(lia) ltac:(lia)) as [HB' Ed'].
  apply go_post. exists b, todo. split; [apply (In_moved d 8 (d_win d)); [exact HI|lia]|]. split; [split; [exact A1|split; [exact A2|exact HB']]|].
  split; [|split].
  - destruct HC as (E & suf & C1 & C2 & C3). rewrite Hst in C1, C2, C3. exists E, suf. split; [apply J_ver; exact C1|]. split; [exact C2|].
    intros Hd. destruct (C3 Hd) as (v0 & W & V1 & V2 & V3 & V4 & _). exists v0. cbn [moved set_stage set_win set_in d_stage]. repeat (split; [assumption|]). discriminate.
  - apply (out_step d _ y b todo 8); auto; try lia; [apply (avail_moved d 8 (d_win d)); lia|discriminate].
  - destruct HM as (M1 & M2 & M3 & M4 & M5 & M6). split; [reflexivity|]. split; [|split; [exact M3|split; [exact M4|split; [exact M5|exact M6]]]].
    change (j_total (d_jx d) <= file_pos d + 8). lia.
Qed.

Lemma land_low i (fl : bool) : 0 <= i < 2 ^ 31 -> Z.land (i + (if fl then 2 ^ 31 else 0)) (2 ^ 31 - 1) = i.
Proof.
  intros H. replace (2 ^ 31 - 1) with (Z.ones 31) by reflexivity. rewrite Z.land_ones by lia. destruct fl.
  - rewrite <- (Z.mul_1_l (2 ^ 31)) at 1. rewrite Z.mod_add by lia. apply Z.mod_small. exact H.
  - rewrite Z.add_0_r. apply Z.mod_small. exact H.
Qed.
Lemma land_high i (fl : bool) : 0 <= i < 2 ^ 31 -> negb (Z.land (i + (if fl then 2 ^ 31 else 0)) (2 ^ 31) =? 0) = fl.
Proof.
  intros H. set (x := i + (if fl then 2 ^ 31 else 0)).
  assert (T : Z.testbit x 31 = fl).
  { destruct (Z.testbit_spec' x 31 ltac:(lia)). 
    assert (Q : x / 2 ^ 31 = if fl then 1 else 0).
    { subst x. destruct fl.
      - rewrite <- (Z.mul_1_l (2 ^ 31)) at 1. rewrite Z.div_add by lia. rewrite Z.div_small by lia. reflexivity.
      - rewrite Z.add_0_r. apply Z.div_small. exact H. }
    pose proof (Z.testbit_spec' x 31 ltac:(lia)) as A. rewrite Q in A. destruct fl, (Z.testbit x 31); cbn in A; congruence. }
  destruct (Z.eqb_spec (Z.land x (2 ^ 31)) 0) as [E|N]; cbn.
  - apply (f_equal (fun z => Z.testbit z 31)) in E. rewrite Z.land_spec, T, Z.pow2_bits_true, Z.bits_0, andb_true_r in E by lia. symmetry; exact E.
  - destruct fl; [reflexivity|]. exfalso. apply N. apply Z.bits_inj'. intros m Hm. rewrite Z.land_spec, Z.bits_0, Z.pow2_bits_eqb by lia.
    destruct (Z.eqb_spec 31 m) as [<-|]; [rewrite T; reflexivity|apply andb_false_r].
Qed.

Lemma partial_inv acts d p sh y : Inv d p sh y -> Ready d -> d_stage d = BPartial -> step_post acts p sh y (step_partial acts d).
Proof.
  intros HInv HR Hst. pose proof HInv as (b & todo & HI & HA & HC & HO & HM). pose proof HA as (A1 & A2 & A3). rewrite Hst in A3.
  destruct A3 as (HB & Ety & Edm). assert (Hs : d_stage d <> BHeader) by (rewrite Hst; discriminate).
  destruct (HR Hs) as [Hx _]. destruct (InBox_data _ _ _ HI HB Hx) as [Hdata Hlen].
  destruct HC as (E & suf & C1 & C2 & C3). rewrite Hst in C1, C2, C3. subst suf.
  destruct (J_jxlp C ver0 _ _ _ _ _ C1 Ety) as (i & fl & nb & bytes & L4 & Ed & Hi & Ebe & Hl & Hnx & Hf & Hz & Hv & Hu & Jin & Jout & Jend).
  destruct (box_count _ _ _ HB) as (_ & Bu & B0 & B1 & B2).
  pose proof HB as (H1 & H2 & H3 & H4 & H5 & H6 & H7).
  assert (Hcnt : 2 <= d_count d).
  { destruct (Z.eq_dec (d_count d) 1) as [E1|]; [specialize (B0 ltac:(lia)); rewrite Ety in B0; discriminate|lia]. }
  assert (Zd : zlen (b_data b) = 4 + zlen bytes). { rewrite Ed, zlen_app. unfold zlen at 1. rewrite L4. reflexivity. }
  pose proof (zlen_nonneg bytes) as Hb0. pose proof (zlen_nonneg (layout todo)) as Hl0.
  unfold step_partial. rewrite Hl.
  destruct (Z.ltb_spec (avail_in d) 4) as [Ha|Ha].
  { apply stop_post; [exact HInv|apply other_list; exact I|]. cbn. intros _ Hw. lia. }
  assert (Esz : negb (x_unb (d_box d)) && (x_size (d_box d) <? 4) = false).
  { rewrite H4. destruct (b_unb b); [reflexivity|]. destruct H5 as [_ ->]. cbn. apply Z.ltb_ge. lia. }
  rewrite Esz. rewrite Edm, drop_0 in Hdata.
  assert (E4 : take 4 (i_in (d_in d)) = nb).
  { rewrite Hdata, Ed by lia. unfold take. change (Z.to_nat 4) with 4%nat. rewrite <- L4. rewrite firstn_app, Nat.sub_diag, firstn_all. cbn. apply app_nil_r. }
  rewrite E4, be_spec, Ebe, land_low, land_high by exact Hi.
  destruct (Z.ltb_spec i (j_next (d_jx d))); [lia|].
  rewrite advance_input_moved by lia.
  destruct (InBox_moved d b todo 4 (d_win d) HI HB Hx ltac:(lia) ltac:(lia)) as [HB' Ed']. rewrite Edm in Ed'.
  assert (HI' : In_ok (moved d 4 (d_win d))) by (apply In_moved; [exact HI|lia]).
  pose proof (avail_moved d 4 (d_win d) ltac:(lia)) as Ea'.
  assert (Edrop : drop 4 (b_data b) = bytes).
  { rewrite Ed. unfold drop. change (Z.to_nat 4) with 4%nat. rewrite <- L4. rewrite skipn_app, Nat.sub_diag, skipn_all. reflexivity. }
  assert (HOut : forall d', d_out d' = d_out d -> dm d' = 0 + 4 -> avail_in d' = avail_in d - 4 -> x_header (d_box d') = 0 -> d_stage d' <> BHeader -> OutOK d' y b todo).
  { intros d' X1 X2 X3 X4 X5. apply (out_step d d' y b todo 4); auto; try lia. congruence. }
  pose proof (J_range C ver0 _ _ _ _ _ C1) as [HE Htot].
  destruct HM as (M1 & M2 & M3 & M4 & M5 & M6).
  assert (Ever : j_ver (d_jx d) = ver) by (apply M1; [lia|rewrite Hst; discriminate]).
  destruct (Z.eqb_spec i (j_next (d_jx d))) as [Ei|Ni].
  - destruct (Jin Ei) as [Ecut HJ]. apply go_post.
    set (d1 := set_jx (moved d 4 (d_win d)) (mkJxlp (j_ver (d_jx d)) (j_next (d_jx d) + 1) (j_ooo (d_jx d)) (j_total (d_jx d)) (j_buf (d_jx d)))).
    set (d2 := set_stage (if fl then set_last d1 true else d1) BCodestream).
    assert (X : d2 = mkDec (d_in (moved d 4 (d_win d))) (d_box d) (d_win d) (d_jx d1) (d_out d) BCodestream (d_count d) fl (d_done d) (d_closed d)).
    { subst d2 d1. destruct fl; unfold moved, set_stage, set_last, set_jx, set_win, set_in; cbn; rewrite ?Hl; reflexivity. }
    clearbody d2. subst d2.
    exists b, todo. split; [exact HI'|]. split; [split; [exact A1|split; [exact A2|exact HB']]|]. split; [|split].
    + exists (E + zlen bytes), []. split; [apply HJ|]. split; [reflexivity|]. intros Hd. destruct (C3 Hd) as (v & W & V1 & V2 & V3 & V4 & _). exists v. split; [exact W|].
      change (dm (mkDec _ _ _ _ _ _ _ _ _ _)) with (dm (moved d 4 (d_win d))). change (avail_in (mkDec _ _ _ _ _ _ _ _ _ _)) with (avail_in (moved d 4 (d_win d))).
      cbn [d_stage d_win d_box d_last]. rewrite Ed', Ea', Hx, V1, V2. change (0 + 4) with 4. rewrite Edrop. split; [lia|]. split; [exact Ecut|]. split; [lia|exact Hu].
    + apply HOut; auto. cbn. discriminate.
    + split; [intros _ _; exact Ever|]. split; [|split; [exact M3|split; [exact M4|split; [exact M5|exact M6]]]]. change (j_total (d_jx d) <= file_pos d + 4). lia.
  - assert (ver <> 0) by (intros A; apply (Hv Ni), Hver0, A). rewrite Ever. destruct (Z.leb_spec 1 ver); [|lia].
    destruct (Z.leb_spec (2 ^ 20) (zlen (j_ooo (d_jx d)))); [lia|]. rewrite Hf. apply go_post.
    exists b, todo. split; [exact HI'|]. split; [split; [exact A1|split; [exact A2|exact HB']]|]. split; [|split].
    + exists E, bytes. split; [cbn [set_stage set_jx moved set_win set_in d_stage d_jx d_last]; rewrite Hl; apply (Jout Ni)|]. split.
      { cbn [set_stage set_jx d_stage d_jx j_buf j_ooo]. change (dm (set_stage (set_jx (moved d 4 (d_win d)) _) _)) with (dm (moved d 4 (d_win d))). rewrite Ed'. change (0 + 4) with 4.
        rewrite Edrop. split; [reflexivity|]. rewrite map_app. apply in_or_app. right. left. reflexivity. }
      intros Hd. destruct (C3 Hd) as (v & W & V1 & V2 & V3 & V4 & _). exists v. cbn [set_stage set_jx d_stage d_jx j_next j_ooo d_win moved set_win]. repeat (split; [assumption|]). split.
      { apply find_none. rewrite map_app. intros B. apply in_app_or in B. destruct B as [B|[B|[]]]; [exact (find_none_inv _ _ V4 B)|cbn in B; congruence]. }
      intros _. destruct (b_unb b) eqn:U; [|reflexivity]. exfalso. apply Ni, Jend; [apply Bu; reflexivity|exact V4].
    + apply HOut; auto. cbn. discriminate.
    + split; [reflexivity|]. split; [|split; [exact M3|split; [exact M4|split; [exact M5|exact M6]]]]. change (j_total (d_jx d) <= file_pos d + 4). lia.
Qed.

Lemma skip_inv acts d p sh y : Inv d p sh y -> Ready d -> d_stage d = BSkip -> step_post acts p sh y (step_skip acts d).
Proof.
  intros HInv HR Hst. pose proof HInv as (b & todo & HI & HA & HC & HO & HM). pose proof HA as (A1 & A2 & HB). rewrite Hst in HB.
  assert (Hs : d_stage d <> BHeader) by (rewrite Hst; discriminate).
  destruct (HR Hs) as [Hx _]. destruct (InBox_data _ _ _ HI HB Hx) as [Hdata Hlen].
  pose proof HB as (H1 & H2 & H3 & H4 & H5 & H6 & H7). pose proof (avail_nonneg d) as Hav. pose proof (zlen_nonneg (layout todo)) as Hl0.
  destruct HM as (M1 & M2 & M3 & M4 & M5 & M6).
  assert (Move : forall n stg, 0 <= n <= avail_in d -> n <= zlen (b_data b) - dm d -> (stg = BSkip \/ (stg = BHeader /\ dm d + n = zlen (b_data b))) ->
            Inv (set_stage (moved d n (d_win d)) stg) p sh y).
  { intros n stg Hn1 Hn2 Hg. destruct (InBox_moved d b todo n (d_win d) HI HB Hx Hn1 Hn2) as [HB' Ed'].
    exists b, todo. split; [apply (In_moved d n (d_win d)); assumption|]. split; [split; [exact A1|split; [exact A2|]]|split; [|split]].
    - cbn [set_stage d_stage]. destruct Hg as [->|[-> Hg]]; [exact HB'|]. apply (InBox_finish (moved d n (d_win d)) b); [exact HB'|exact Hx|lia].
    - destruct HC as (E & suf & C1 & C2 & C3). rewrite Hst in C1, C2, C3. exists E, suf. cbn [set_stage d_stage]. destruct Hg as [->|[-> Hg]];
        (split; [exact C1|]; split; [exact C2|]; intros Hd; destruct (C3 Hd) as (v & W & V1 & V2 & V3 & V4 & _); exists v; repeat (split; [assumption|]); discriminate).
    - apply (out_step d _ y b todo n); auto; try lia; [apply (avail_moved d n (d_win d)); lia|]. cbn. destruct Hg as [->|[-> Hg]]; [discriminate|auto].
    - split; [intros X1 X2; apply M1; [exact X1|rewrite Hst; discriminate]|]. split; [|split; [exact M3|split; [exact M4|split; [exact M5|exact M6]]]].
      change (j_total (d_jx d) <= file_pos d + n). lia. }
  assert (Same : forall n w, set_stage (moved d n w) BSkip = moved d n w) by (intros; rewrite <- Hst; reflexivity).
  unfold step_skip. rewrite H4. destruct (b_unb b) eqn:U.
  - destruct (unb_avail d b todo HI HB Hx U) as (-> & Ha & _).
    assert (Hend : d_done d = false -> zlen C <= Z.max p sh).
    { intros Hd. apply (at_end d p sh b HC Hd); rewrite Hst; discriminate. }
    destruct (d_closed d); [apply stop_post; [exact HInv|apply other_list; exact I|exact Hend]|].
    destruct (negb (o_set (d_out d))); [apply stop_post; [exact HInv|apply other_list; exact I|exact Hend]|].
    rewrite advance_input_moved by lia. apply stop_post; [|apply other_list; exact I|intros Hd _; exact (Hend Hd)].
    rewrite <- Same. apply Move; [lia|exact Ha|left; reflexivity].
  - destruct H5 as [H5 H5s]. assert (Er : x_end (d_box d) - file_pos d = zlen (b_data b) - dm d) by (unfold dm; rewrite Hx; lia). rewrite Er.
    destruct (Z.ltb_spec (zlen (b_data b) - dm d) 0); [lia|].
    destruct (Z.ltb_spec (avail_in d) (zlen (b_data b) - dm d)) as [Hlt|Hge].
    + rewrite advance_input_moved by lia. apply stop_post; [|apply other_list; exact I|].
      * rewrite <- Same. apply Move; [lia|lia|left; reflexivity].
      * cbn [status_ok]. rewrite file_pos_moved, avail_moved by lia. intros _ Hw. lia.
    + rewrite advance_input_moved by lia. apply go_post. apply Move; [lia|lia|right; split; [reflexivity|lia]].
Qed.

Lemma available_inbox d b todo : In_ok d -> InBox d b todo -> x_header (d_box d) = 0 ->
  available_codestream d = Some (Z.min (avail_in d) (zlen (b_data b) - dm d)).
Proof.
  intros HI HB Hx. unfold available_codestream. pose proof HB as (H1 & H2 & H3 & H4 & H5 & H6 & H7). rewrite H4. destruct (b_unb b) eqn:U.
  - destruct (unb_avail d b todo HI HB Hx U) as (_ & Ha & _). f_equal. lia.
  - destruct H5 as [H5 _]. assert (Er : x_end (d_box d) = file_pos d + (zlen (b_data b) - dm d)) by (unfold dm; rewrite Hx; lia). rewrite Er.
    destruct (Z.ltb_spec (file_pos d + (zlen (b_data b) - dm d)) (file_pos d)); [lia|]. f_equal. lia.
Qed.

Lemma buffering_inv acts d p sh y : Inv d p sh y -> Ready d -> d_stage d = BBuffering -> step_post acts p sh y (step_buffering acts d).
Proof.
  intros HInv HR Hst. pose proof HInv as (b & todo & HI & HA & HC & HO & HM). pose proof HA as (A1 & A2 & HB). rewrite Hst in HB.
  assert (Hs : d_stage d <> BHeader) by (rewrite Hst; discriminate).
  destruct (HR Hs) as [Hx _]. destruct (InBox_data _ _ _ HI HB Hx) as [Hdata Hlen].
  pose proof HB as (H1 & H2 & H3 & H4 & H5 & H6 & H7). pose proof (avail_nonneg d) as Hav. pose proof (zlen_nonneg (layout todo)) as Hl0.
  destruct HM as (M1 & M2 & M3 & M4 & M5 & M6). pose proof HI as (I0 & I1 & I2).
  destruct HC as (E & suf & C1 & C2 & C3). rewrite Hst in C1, C2, C3. destruct C2 as [-> Ck].
  pose proof (J_range C ver0 _ _ _ _ _ C1) as [HE Htot].
  unfold step_buffering. rewrite (available_inbox d b todo HI HB Hx). set (r := Z.min (avail_in d) (zlen (b_data b) - dm d)).
  assert (Hr1 : 0 <= r <= avail_in d) by (subst r; lia). assert (Hr2 : r <= zlen (b_data b) - dm d) by (subst r; lia).
  assert (Hcan : can_add_buffer d r = true).
  { unfold can_add_buffer. apply andb_true_iff. split; apply Z.ltb_lt; lia. }
  rewrite Hcan. cbn [negb]. set (data := take r (i_in (d_in d))).
  assert (Zdata : zlen data = r) by (subst data; rewrite zlen_take by lia; change (zlen (i_in (d_in d))) with (avail_in d); lia).
  set (j2 := mkJxlp (j_ver (d_jx d)) (j_next (d_jx d)) (ooo_append (j_ooo (d_jx d)) (j_buf (d_jx d)) data) (j_total (d_jx d) + r) (j_buf (d_jx d))).
  rewrite advance_input_moved by (change (avail_in (set_jx d j2)) with (avail_in d); lia).
  change (moved (set_jx d j2) r (d_win (set_jx d j2))) with (set_jx (moved d r (d_win d)) j2).
  destruct (InBox_moved d b todo r (d_win d) HI HB Hx Hr1 Hr2) as [HB' Ed'].
  assert (HJ : J C ver0 j2 (d_last d) todo (drop (dm d + r) (b_data b)) E).
  { subst j2. replace (j_total (d_jx d) + r) with (j_total (d_jx d) + zlen data) by lia. apply J_append; [|exact Ck]. subst data. rewrite Hdata by lia. rewrite <- drop_drop by lia. rewrite take_drop. exact C1. }
  assert (Hfind : ooo_find (j_ooo (d_jx d)) (j_next (d_jx d)) = None -> ooo_find (j_ooo j2) (j_next j2) = None).
  { intros A. apply find_none. subst j2. cbn [j_ooo j_next]. rewrite append_keys. apply find_none_inv. exact A. }
  assert (Move : forall stg, (stg = BBuffering \/ (stg = BHeader /\ dm d + r = zlen (b_data b))) -> Inv (set_stage (set_jx (moved d r (d_win d)) j2) stg) p sh y).
  { intros stg Hg. exists b, todo. split; [apply (In_moved d r (d_win d)); assumption|]. split; [split; [exact A1|split; [exact A2|]]|split; [|split]].
    - cbn [set_stage d_stage]. destruct Hg as [->|[-> Hg]]; [exact HB'|]. apply (InBox_finish (moved d r (d_win d)) b); [exact HB'|exact Hx|lia].
    - exists E, (drop (dm d + r) (b_data b)). split; [cbn [set_stage d_stage]; destruct Hg as [->|[-> _]]; exact HJ|]. split.
      + cbn [set_stage set_jx d_stage d_jx]. destruct Hg as [->|[-> Hg]].
        * change (dm (set_stage (set_jx (moved d r (d_win d)) j2) BBuffering)) with (dm (moved d r (d_win d))). rewrite Ed'. split; [reflexivity|].
          subst j2. cbn [j_buf j_ooo]. rewrite append_keys. exact Ck.
        * apply drop_all. lia.
      + intros Hd. destruct (C3 Hd) as (v & W & V1 & V2 & V3 & V4 & V5). exists v. cbn [set_stage set_jx d_stage d_jx]. split; [exact W|]. specialize (Hfind V4). destruct Hg as [->|[-> Hg]];
          (split; [exact V1|]; split; [exact V2|]; split; [exact V3|]; split; [exact Hfind|first [exact V5|discriminate]]).
    - apply (out_step d _ y b todo r); auto; try lia; [apply (avail_moved d r (d_win d)); lia|]. cbn. destruct Hg as [->|[-> Hg]]; [discriminate|auto].
    - split; [intros X1 X2; apply M1; [exact X1|rewrite Hst; discriminate]|]. split; [|split; [exact M3|split; [exact M4|split; [exact M5|exact M6]]]].
      change (j_total (d_jx d) + r <= file_pos d + r). lia. }
  assert (Same : set_stage (set_jx (moved d r (d_win d)) j2) BBuffering = set_jx (moved d r (d_win d)) j2) by (rewrite <- Hst; reflexivity).
  change (x_unb (d_box (set_jx (moved d r (d_win d)) j2))) with (x_unb (d_box d)). change (x_end (d_box (set_jx (moved d r (d_win d)) j2))) with (x_end (d_box d)).
  change (file_pos (set_jx (moved d r (d_win d)) j2)) with (file_pos d + r). rewrite H4.
  destruct (b_unb b) eqn:U; cbn [negb andb].
  - apply stop_post; [rewrite <- Same; apply Move; left; reflexivity|apply other_list; exact I|].
    cbn [status_ok]. intros Hd _. destruct (C3 Hd) as (v & _ & _ & _ & _ & _ & V5). specialize (V5 eq_refl). discriminate.
  - destruct H5 as [H5 _]. assert (Er : x_end (d_box d) = file_pos d + (zlen (b_data b) - dm d)) by (unfold dm; rewrite Hx; lia). rewrite Er.
    destruct (Z.leb_spec (file_pos d + (zlen (b_data b) - dm d)) (file_pos d + r)) as [Hle|Hgt].
    + apply go_post. apply Move. right. split; [reflexivity|lia].
    + apply stop_post; [rewrite <- Same; apply Move; left; reflexivity|apply other_list; exact I|].
      cbn [status_ok]. change (file_pos (set_jx (moved d r (d_win d)) j2)) with (file_pos d + r).
      change (avail_in (set_jx (moved d r (d_win d)) j2)) with (avail_in (moved d r (d_win d))). rewrite avail_moved by lia. intros _ Hw. subst r. lia.
Qed.

Lemma Win_inject w p v data : Win C w p v -> w_unc w = 0 -> data = cut C v (v + zlen data) -> 0 <= v -> v + zlen data <= zlen C ->
  Win C (mkWin (w_copy w ++ data) (w_unc w) (w_pos w)) p (v + zlen data).
Proof.
  intros HW U0 Ed Hv Hz. pose proof (zlen_nonneg data) as Hd0. destruct (copy_cases w) as [E|[En Z0]].
  - destruct (Win_nil C _ _ _ E HW) as (_ & Ep & P0). rewrite E. cbn [app]. destruct data as [|a data].
    + unfold Win. cbn [w_copy w_unc w_pos]. split; [exact P0|]. split; [lia|]. split; [exact U0|]. change (zlen (@nil Z)) with 0. lia.
    + apply Win_mk; try lia; try discriminate.
      rewrite U0, Z.add_0_r. replace (v + zlen (a :: data) - zlen (a :: data)) with v by lia. exact Ed.
  - destruct (Win_cons C _ _ _ En HW) as (P0 & _ & G0 & G1 & Ep & Ec). rewrite U0, Z.add_0_r in *.
    assert (Zc : zlen (w_copy w ++ data) = zlen (w_copy w) + zlen data) by apply zlen_app.
    apply Win_mk; try lia.
    + destruct (w_copy w); [congruence|discriminate].
    + rewrite Zc, Z.add_0_r. replace (v + zlen data - (zlen (w_copy w) + zlen data)) with (v - zlen (w_copy w)) by lia.
      rewrite <- (cut_app C _ v) by lia. f_equal; [exact Ec|exact Ed].
Qed.

Lemma codestream_inv acts d p sh y : Inv d p sh y -> Ready d -> d_stage d = BCodestream ->
  (NS -> Forall noskip acts) -> (ND -> Forall (fun a => a <> ADone) acts) ->
  step_post acts p sh y (step_codestream c acts d).
Proof.
  intros HInv HR Hst HNS HND. pose proof HInv as (b & todo & HI & HA & HC & HO & HM). pose proof HA as (A1 & A2 & HB). rewrite Hst in HB.
  assert (Hs : d_stage d <> BHeader) by (rewrite Hst; discriminate).
  destruct (HR Hs) as [Hx _]. destruct (InBox_data _ _ _ HI HB Hx) as [Hdata Hlen].
  pose proof HB as (H1 & H2 & H3 & H4 & H5 & H6 & H7). pose proof (avail_nonneg d) as Hav. pose proof (zlen_nonneg (layout todo)) as Hl0.
  destruct HM as (M1 & M2 & M3 & M4 & M5 & M6). pose proof HI as (I0 & I1 & I2).
  destruct HC as (E & suf & C1 & C2 & C3). rewrite Hst in C1, C2, C3. subst suf.
  pose proof (J_range C ver0 _ _ _ _ _ C1) as [HE Htot].
  set (len := zlen (b_data b)) in *.
  (* moving inside the box *)
  assert (Move : forall k w dn stg p' sh', 0 <= k <= avail_in d -> k <= len - dm d ->
     (dn = true -> ND -> False) -> zlen (w_copy w) <= zlen C ->
     (ver0 = 0 \/ NS -> dn = false -> calm w /\ (ver0 = 0 \/ strict w)) ->
     (stg = BCodestream /\ (dn = false -> exists v, Win C w p' v /\ (0 <= v /\ v + (len - (dm d + k)) = E) /\ drop (dm d + k) (b_data b) = cut C v E /\
          w_unc w <= Z.min (avail_in d - k) (len - (dm d + k)) /\ (b_unb b = true -> d_last d = true))) \/
     (stg = BSkip /\ dn = true) \/
     (stg = BHeader /\ dm d + k = len /\ (dn = false -> exists v, Win C w p' v /\ w_unc w = 0 /\ v = E /\ v <= Z.max p' sh' /\ ooo_find (j_ooo (d_jx d)) (j_next (d_jx d)) = None)) ->
     Inv (set_stage (set_done (moved d k w) dn) stg) p' sh' y).
  { intros k w dn stg p' sh' Hk1 Hk2 Hdn Hcopy Hq Hg.
    destruct (InBox_moved d b todo k w HI HB Hx Hk1 Hk2) as [HB' Ed']. pose proof (avail_moved d k w Hk1) as Ea'.
    exists b, todo. split; [apply (In_moved d k w); assumption|]. split; [split; [exact A1|split; [exact A2|]]|split; [|split]].
    - cbn [set_stage d_stage]. destruct Hg as [[-> _]|[[-> _]|(-> & Hg & _)]]; [exact HB'|exact HB'|]. apply (InBox_finish (moved d k w) b); [exact HB'|exact Hx|]. fold len. lia.
    - exists E, []. change (dm (set_stage (set_done (moved d k w) dn) stg)) with (dm (moved d k w)). change (avail_in (set_stage (set_done (moved d k w) dn) stg)) with (avail_in (moved d k w)).
      rewrite Ed', Ea'. cbn [set_stage set_done moved set_win set_in d_stage d_jx d_last d_done d_win d_box]. fold len.
      destruct Hg as [[-> Hg]|[[-> ->]|(-> & _ & Hg)]].
      + split; [exact C1|]. split; [reflexivity|]. rewrite Hx, Z.sub_0_r. exact Hg.
      + split; [exact C1|]. split; [reflexivity|]. discriminate.
      + split; [exact C1|]. split; [reflexivity|]. intros Hd. destruct (Hg Hd) as (v & W & V1 & V2 & V3 & V4). exists v. repeat (split; [assumption|]). discriminate.
    - apply (out_step d _ y b todo k); auto; try lia. cbn. destruct Hg as [[-> _]|[[-> _]|(-> & Hg & _)]]; try discriminate. intros _. fold len. exact Hg.
    - split; [intros X1 X2; apply M1; [exact X1|rewrite Hst; discriminate]|]. split; [change (j_total (d_jx d) <= file_pos d + k); lia|]. split; [exact Hcopy|]. split; [exact Hq|].
      split; [|cbn; lia]. cbn. intros X. destruct dn; [exfalso; apply Hdn; auto|reflexivity]. }
  assert (Same : forall k w dn, set_stage (set_done (moved d k w) dn) BCodestream = set_done (moved d k w) dn) by (intros; rewrite <- Hst; reflexivity).
  unfold step_codestream. destruct (d_done d) eqn:Hd.
  { (* already finished *)
    assert (Ep : process_codestream acts d = (SSuccess, d, acts, [])) by (destruct acts; cbn [process_codestream]; rewrite Hd; reflexivity).
    rewrite Ep. rewrite H4.
    assert (Go1 : Inv (set_stage d BSkip) p sh y).
    { replace (set_stage d BSkip) with (set_stage (set_done (moved d 0 (d_win d)) true) BSkip).
      - apply Move; [lia|subst len; lia|intros _ X; discriminate (M5 X)|exact M3|intros _ ?; discriminate|right; left; auto].
      - rewrite moved_0, set_win_same, <- Hd. reflexivity. }
    destruct (b_unb b); [apply stop_post; [exact HInv|apply other_list; exact I|cbn; congruence]|].
    destruct (want_box c); [apply go_post; exact Go1|apply stop_post; [exact HInv|apply other_list; exact I|cbn; congruence]]. }
  destruct (C3 eq_refl) as (v & W & [Win0 V1] & V2 & V3 & V4). rewrite Hx, Z.sub_0_r in V3.
  set (rem := len - dm d) in *.
  assert (HL : L C d p v rem).
  { split; [exact W|]. split; [|split; [exact V3|]].
    - split; [exact Win0|]. split; [subst rem; lia|]. split; [lia|]. split.
      + rewrite H4. destruct (b_unb b) eqn:U.
        * destruct (unb_avail d b todo HI HB Hx U) as (_ & Ha & _). exact Ha.
        * destruct H5 as [H5 _]. subst rem. unfold dm. rewrite Hx. lia.
      + rewrite Hdata by (fold len rem; lia). rewrite V2. apply take_cut. lia.
    - split; [exact Htot|]. lia. }
  pose proof (process_codestream_L C acts d p v rem HL Hd) as HP. unfold parse_post in HP.
  destruct (process_codestream acts d) as [[[s d1] rest] os]. destruct HP as (k & w & dn & -> & Hk & HL1 & Hsp & Hob & Hrest & Hs1 & Hcalm & Hstrict).
  set (p1 := parser_at p os) in *. set (sh1 := shown_to p sh os) in *.
  pose proof (ac_le d rem) as [Hac1 Hac2]. pose proof HL1 as (W1 & _ & U1 & _). cbn [moved set_win d_win] in W1, U1.
  assert (HL0 : 0 <= ac d rem) by (unfold ac; lia).
  assert (Ea1 : ac (moved d k w) (rem - k) = ac d rem - k).
  { apply (ac_moved C d v); [apply HL|exact Hk]. }
  rewrite Ea1 in U1.
  assert (Hcopy : zlen (w_copy w) <= zlen C) by (eapply copy_le; exact W1).
  assert (Hq : ver0 = 0 \/ NS -> dn = false -> calm w /\ (ver0 = 0 \/ strict w)).
  { intros X _. destruct (M4 X eq_refl) as [Q1 Q2]. split; [apply Hcalm, Q1|]. destruct X as [X|X]; [left; exact X|].
    destruct Q2 as [Q2|Q2]; [left; exact Q2|right]. apply Hstrict; [exact Q2|apply HNS, X]. }
  assert (Cs1 : exists v', Win C w p1 v' /\ (0 <= v' /\ v' + (len - (dm d + k)) = E) /\ drop (dm d + k) (b_data b) = cut C v' E /\
          w_unc w <= Z.min (avail_in d - k) (len - (dm d + k)) /\ (b_unb b = true -> d_last d = true)).
  { exists (v + k). split; [exact W1|]. split; [subst rem; lia|]. split; [|split; [|exact V4]].
    - rewrite <- drop_drop by lia. rewrite V2. apply drop_cut; lia.
    - unfold ac in U1. subst rem. lia. }
  assert (Stay : forall dn', (dn' = true -> ND -> False) -> (dn' = true \/ dn' = dn) -> Inv (set_done (moved d k w) dn') p1 sh1 y).
  { intros dn' Hn Hdn'. rewrite <- Same. apply Move.
    - lia.
    - subst rem; lia.
    - exact Hn.
    - exact Hcopy.
    - intros X ->. apply Hq; [exact X|]. destruct Hdn'; congruence.
    - left. split; [reflexivity|]. intros _. exact Cs1. }
  assert (StopP : forall s0 dn', (dn' = true -> ND -> False) -> (dn' = true \/ dn' = dn) -> other s0 -> status_ok s0 (set_done (moved d k w) dn') p1 sh1 ->
            step_post acts p sh y (Stop s0 (set_done (moved d k w) dn') rest os)).
  { intros s0 dn' X1 X2 X3 X4. exists y. split; [|split; [apply Stay; assumption|split; [exact Hsp|exact X4]]].
    intros s' Hs'. eapply delivered_app; [apply delivered_cs, Hob|]. apply delivered_ret. destruct Hs' as [->|[_ ?]]; assumption. }
  assert (GoP : forall d2, Inv d2 p1 sh1 y -> step_post acts p sh y (Go d2 rest os)).
  { intros d2 X. exists y. split; [apply delivered_cs, Hob|]. split; [exact X|]. split; [exact Hsp|exact Hrest]. }
  destruct s as [|e| | | | | | |]; try contradiction.
  - (* finished *)
    destruct Hs1 as [-> Hin].
    assert (Hn : true = true -> ND -> False). { intros _ X. specialize (HND X). rewrite Forall_forall in HND. apply (HND _ Hin). reflexivity. }
    change (x_unb (d_box (set_done (moved d k w) true))) with (x_unb (d_box d)).
    destruct (x_unb (d_box d)); [apply StopP; auto; [apply other_list; exact I|cbn; congruence]|].
    destruct (want_box c); [|apply StopP; auto; [apply other_list; exact I|cbn; congruence]].
    apply GoP. apply Move; [lia|subst rem; lia|exact Hn|exact Hcopy|intros _ ?; discriminate|right; left; auto].
  - destruct e; try contradiction.
    + destruct Hs1 as [-> Hnc]. apply StopP; [discriminate|right; reflexivity|apply other_list; exact I|]. cbn. intros X. apply Hnc. destruct (M4 X eq_refl) as [Q _]. exact Q.
    + subst dn. apply StopP; [discriminate|right; reflexivity|apply other_list; exact I|exact I].
  - destruct Hs1 as (-> & Ek & Uw & Hv). specialize (Hv sh). fold p1 sh1 in Hv.
    change (file_pos (set_done (moved d k w) false)) with (file_pos d + k). change (d_box (set_done (moved d k w) false)) with (d_box d). rewrite H4.
    destruct ((file_pos d + k =? x_end (d_box d)) && negb (b_unb b)) eqn:Eend.
    + apply andb_true_iff in Eend. destruct Eend as [Eend U]. apply Z.eqb_eq in Eend. apply negb_true_iff in U. rewrite U in H5. destruct H5 as [H5 _].
      assert (Er : k = rem) by (subst rem; unfold dm in *; rewrite Hx in *; lia).
      assert (Ev : v + k = E) by (subst rem; lia). rewrite Ev in *.
      unfold inject_next. cbn [set_done moved set_win set_in d_jx d_win]. destruct (ooo_find (j_ooo (d_jx d)) (j_next (d_jx d))) as [[data fl]|] eqn:Ef.
      * (* the next part was kept *)
        destruct (J_inject C ver0 _ _ _ _ _ _ C1 Ef) as (Hlast & Ecut & Hv0 & Hdt & HJ).
        apply GoP. set (w2 := mkWin (w_copy w ++ data) (w_unc w) (w_pos w)).
        set (j2 := mkJxlp (j_ver (d_jx d)) (j_next (d_jx d) + 1) (ooo_erase (j_ooo (d_jx d)) (j_next (d_jx d))) (j_total (d_jx d) - zlen data) (j_buf (d_jx d))).
        assert (X : set_jx (if fl then set_last (set_win (set_done (set_win (set_in d (mkInput (drop k (i_in (d_in d))) (file_pos d + k))) w) false) w2) true
                            else set_win (set_done (set_win (set_in d (mkInput (drop k (i_in (d_in d))) (file_pos d + k))) w) false) w2) j2
                  = mkDec (d_in (moved d k w)) (d_box d) w2 j2 (d_out d) (d_stage d) (d_count d) fl false (d_closed d)).
        { destruct fl; unfold moved, set_jx, set_last, set_done, set_win, set_in; cbn; rewrite ?Hlast; reflexivity. }
        fold (moved d k w). fold (moved d k w) in X. rewrite X. clear X.
        pose proof (J_range C ver0 _ _ _ _ _ (HJ 0)) as [HE2 _].
        assert (W2 : Win C w2 p1 (E + zlen data)) by (apply Win_inject; auto; lia).
        destruct (InBox_moved d b todo k w HI HB Hx ltac:(lia) ltac:(fold len; lia)) as [HB' Ed']. pose proof (avail_moved d k w ltac:(lia)) as Ea'.
        exists b, todo. split; [apply (In_moved d k w); [assumption|lia]|]. split; [split; [exact A1|split; [exact A2|cbn [d_stage]; rewrite Hst; exact HB']]|split; [|split]].
        -- exists (E + zlen data), []. cbn [d_stage d_jx d_last d_done d_win d_box]. rewrite Hst. split; [apply HJ|]. split; [reflexivity|]. intros _. exists (E + zlen data). split; [exact W2|].
           change (dm (mkDec _ _ _ _ _ _ _ _ _ _)) with (dm (moved d k w)). change (avail_in (mkDec _ _ _ _ _ _ _ _ _ _)) with (avail_in (moved d k w)). rewrite Ed', Ea', Hx. fold len.
           split; [lia|]. split; [rewrite drop_all by (fold len; lia); symmetry; apply cut_nil; lia|]. split; [cbn; rewrite Uw; lia|]. congruence.
        -- apply (out_step d _ y b todo k); auto; try (fold len; lia).
        -- split; [intros X1 _; apply M1; [exact X1|rewrite Hst; discriminate]|]. split; [change (j_total (d_jx d) - zlen data <= file_pos d + k); pose proof (zlen_nonneg data); lia|].
           split; [eapply copy_le; exact W2|]. split; [|split; [cbn; reflexivity|cbn; lia]].
           intros X _. destruct (Hq X eq_refl) as [Q1 Q2]. destruct Q2 as [Q2|Q2]; [contradiction|].
           assert (Pos : w_pos w <= zlen (w_copy w)).
           { destruct (copy_cases w) as [Ec|[En _]]; [rewrite (Q2 Ec); apply zlen_nonneg|apply Q1; exact En]. }
           split; [|right].
           ++ intros _. cbn. rewrite zlen_app. pose proof (zlen_nonneg data). lia.
           ++ intros Ec. cbn in Ec |- *. apply app_eq_nil in Ec. destruct Ec as [Ec _]. apply Q2, Ec.
      * apply GoP. fold (moved d k w). apply Move; [lia|subst rem; lia|discriminate|exact Hcopy|exact Hq|]. right. right. split; [reflexivity|]. split; [lia|]. intros _. exists E. auto.
    + apply StopP; [discriminate|right; reflexivity|apply other_list; exact I|]. cbn [status_ok].
      change (file_pos (set_done (moved d k w) false)) with (file_pos d + k). change (avail_in (set_done (moved d k w) false)) with (avail_in (moved d k w)). rewrite avail_moved by lia.
      intros _ Hw. destruct (b_unb b) eqn:U.
      * destruct (unb_avail d b todo HI HB Hx U) as (_ & Ha & Hf). fold len rem in Ha, Hf.
        assert (k = rem) by (unfold ac in Ek; lia). specialize (V4 eq_refl). rewrite V4 in C1. pose proof (J_last C ver0 _ _ _ _ C1) as EC. subst rem. lia.
      * exfalso. destruct H5 as [H5 _]. cbn [negb] in Eend. rewrite andb_true_r in Eend. apply Z.eqb_neq in Eend. apply Eend.
        assert (Er : x_end (d_box d) = file_pos d + rem) by (subst rem; unfold dm; rewrite Hx; lia). rewrite Er. fold len rem in Hlen. unfold ac in Ek. lia.
  - subst dn. apply StopP; [discriminate|right; reflexivity|apply other_list; exact I|exact I].
Qed.

Lemma stage_inv acts d p sh y : Inv d p sh y -> Ready d ->
  (NS -> Forall noskip acts) -> (ND -> Forall (fun a => a <> ADone) acts) ->
  step_post acts p sh y (stage_step c acts d).
Proof.
  intros HI HR HNS HND. unfold stage_step. destruct (d_stage d) eqn:Es.
  - apply header_inv; assumption.
  - apply ftyp_inv; assumption.
  - apply skip_inv; assumption.
  - apply codestream_inv; assumption.
  - apply partial_inv; assumption.
  - apply buffering_inv; assumption.
Qed.

Lemma handle_boxes_inv fuel : forall acts d p sh y, Inv d p sh y ->
  (NS -> Forall noskip acts) -> (ND -> Forall (fun a => a <> ADone) acts) ->
  let '(s, d', os) := handle_boxes c fuel acts d in
  exists y', (forall s', s' = s \/ (other s /\ other s') -> delivered (want_complete c) y (os ++ [ORet s']) y') /\
    Inv d' (parser_at p os) (shown_to p sh os) y' /\ spans_ok C p os /\ status_ok s d' (parser_at p os) (shown_to p sh os).
Proof.
  induction fuel as [|fuel IH]; intros acts d p sh y HI HNS HND; cbn [handle_boxes].
  { exists y. split; [|cbn; auto]. intros s' [->|[_ A]]; apply delivered_ret; [apply other_list; exact I|exact A]. }
  pose proof (preamble_inv d p sh y HI) as HP. destruct (preamble c d) as [[s1 d1] os1]. destruct HP as [Hn HP].
  destruct (neutral_spec _ Hn p) as (N1 & N2 & N3).
  destruct HP as [(-> & y1 & D1 & I1 & R1)|(Hs & y1 & D1 & I1)].
  - pose proof (stage_inv acts d1 p sh y1 I1 R1 HNS HND) as HS. destruct (stage_step c acts d1) as [d2 rest os2|s d2 rest os2].
    + destruct HS as (y2 & D2 & I2 & S2 & R2). specialize (IH rest d2 _ _ y2 I2 (fun x => R2 _ (HNS x)) (fun x => R2 _ (HND x))).
      destruct (handle_boxes c fuel rest d2) as [[s d3] os3]. destruct IH as (y3 & D3 & I3 & S3 & T3). exists y3.
      rewrite !parser_at_app, !shown_app, !N1, !N3, !spans_ok_app, !N1. split; [|auto].
      intros s' Hs'. rewrite <- !app_assoc. eapply delivered_app; [exact D1|]. eapply delivered_app; [exact D2|]. apply D3, Hs'.
    + destruct HS as (y2 & D2 & I2 & S2 & T2). exists y2. rewrite !parser_at_app, !shown_app, !N1, !N3, !spans_ok_app, !N1. split; [|auto].
      intros s' Hs'. rewrite <- app_assoc. eapply delivered_app; [exact D1|]. apply D2, Hs'.
  - destruct Hs as [-> | ->]; exists y1; rewrite N1, N3; (split; [|cbn; auto]); intros s' [-> |[(A & B & E) _]]; congruence.
Qed.

(* ---- the user ---- *)
Definition UInv (u : user) (p sh : Z) (y : delivery) : Prop :=
  Inv (u_dec u) p sh y /\ u_at u + u_given u = file_pos (u_dec u) + avail_in (u_dec u).

Definition ret_ok (o : obs) : Prop :=
  match o with
  | ORet SCrash | ORet (SError EFormat) | ORet (SError ELimit) => False
  | ORet (SError EInternal) => ~ (ver0 = 0 \/ NS)
  | _ => True
  end.

Definition op_ok (op : uop) : Prop :=
  match op with
  | UProcess _ acts => (NS -> Forall noskip acts) /\ (ND -> Forall (fun a => a <> ADone) acts)
  | USkip _ => ~ NS
  | _ => True
  end.

Definition end_ok (u : user) (p sh : Z) (os : list obs) : Prop :=
  forall os0 s, os = os0 ++ [ORet s] -> d_done (u_dec u) = false ->
    match s with
    | SNeedInput | SError EPremature => u_at u + u_given u = zlen F -> zlen C <= Z.max p sh
    | SError ENeverFinished => zlen C <= Z.max p sh
    | _ => True
    end.


Definition noret (o : obs) : Prop := match o with ORet _ => False | _ => True end.
Lemma noret_cs os : Forall cs_obs os -> Forall noret os.
Proof. apply Forall_impl. intros [ | | | | |] H; try exact I. contradiction. Qed.
Lemma noret_inside inside : forall d left, match advance_inside d inside left with Some (_, os) => Forall noret os | None => True end.
Proof.
  induction inside as [|n r IH]; intros d left; cbn [advance_inside]; [constructor|].
  destruct (advance_codestream _ _) as [d'|]; [|exact I]. specialize (IH d' (left - Z.min (Z.max 0 n) left)). destruct (advance_inside _ _ _) as [[d2 os]|]; [|exact I].
  constructor; [exact I|exact IH].
Qed.
Lemma noret_process acts : forall d, Forall noret (snd (process_codestream acts d)).
Proof.
  induction acts as [|a acts IH]; intros d; cbn [process_codestream]; destruct (d_done d); try (constructor); destruct a as [inside skip e| |]; try constructor.
  destruct (get_codestream_input d) as [span d1|s d1]; [|constructor]. pose proof (noret_inside inside d1 (zlen span)) as Hi.
  destruct (advance_inside d1 inside (zlen span)) as [[d2 os]|]; [|repeat constructor].
  assert (X : Forall noret (OSpan span :: os)) by (constructor; [exact I|exact Hi]).
  assert (Y : forall n os', Forall noret os' -> Forall noret (OSpan span :: os ++ OAdv n :: os')).
  { intros n os' H'. constructor; [exact I|]. apply Forall_app. split; [exact Hi|]. constructor; [exact I|exact H']. }
  destruct e; [|destruct (request_more_input d2); exact X|].
  - destruct (advance_codestream d2 (Z.max 0 skip)) as [d3|]; [|exact X]. specialize (IH d3). destruct (process_codestream acts d3) as [[[s d4] rest] os'].
    apply Y. exact IH.
  - destruct (advance_codestream d2 (Z.max 0 skip)) as [d3|]; [|exact X]. apply Y. constructor.
Qed.
Definition step_obs (r : step) : list obs := match r with Go _ _ os => os | Stop _ _ _ os => os end.
Lemma noret_stage acts d : Forall noret (step_obs (stage_step c acts d)).
Proof.
  unfold stage_step. destruct (d_stage d).
  - unfold step_header. cbv zeta. repeat match goal with |- context [match ?x with _ => _ end] => destruct x end; constructor.
  - unfold step_ftyp. cbv zeta. repeat match goal with |- context [match ?x with _ => _ end] => destruct x end; constructor.
  - unfold step_skip. cbv zeta. repeat match goal with |- context [match ?x with _ => _ end] => destruct x end; constructor.
  - unfold step_codestream. pose proof (noret_process acts d) as H. destruct (process_codestream acts d) as [[[s d1] rest] os]. cbn [snd] in H.
    destruct s; repeat match goal with |- context [match ?x with _ => _ end] => destruct x end; exact H.
  - unfold step_partial. cbv zeta. repeat match goal with |- context [match ?x with _ => _ end] => destruct x end; constructor.
  - unfold step_buffering. cbv zeta. repeat match goal with |- context [match ?x with _ => _ end] => destruct x end; constructor.
Qed.
Lemma noret_preamble d : Forall noret (snd (preamble c d)).
Proof.
  unfold preamble. destruct (is_header _); [constructor|]. destruct (advance_input _ _); [|constructor]. unfold output_box. cbv zeta.
  destruct (_ && _); [|constructor]. destruct (content_process _ _ _) as [[s o] data]. repeat constructor.
Qed.
Lemma noret_boxes fuel : forall acts d, Forall noret (snd (handle_boxes c fuel acts d)).
Proof.
  induction fuel as [|fuel IH]; intros acts d; cbn [handle_boxes]; [constructor|]. pose proof (noret_preamble d) as H1.
  destruct (preamble c d) as [[s1 d1] os1]. cbn [snd] in H1. destruct s1; try exact H1. pose proof (noret_stage acts d1) as H2.
  destruct (stage_step c acts d1) as [d2 rest os2|s d2 rest os2]; cbn [step_obs] in H2.
  - specialize (IH rest d2). destruct (handle_boxes c fuel rest d2) as [[s d3] os3]. cbn [snd] in *. apply Forall_app. split; [exact H1|]. apply Forall_app. auto.
  - cbn [snd]. apply Forall_app. auto.
Qed.

(* the end of the input stays where it is *)
Definition tot (d : dec) : Z := file_pos d + avail_in d.
Lemma tot_advance d n d' : advance_input d n = Some d' -> tot d' = tot d.
Proof. clear Hhave HF HFb Hsize HCF Hver Hver0 Hbox.
  unfold advance_input. destruct (Z.ltb_spec n 0); [discriminate|]. destruct (Z.ltb_spec (avail_in d) n); [discriminate|]. cbn [orb]. intros E. apply Some_inj in E. subst d'.
  unfold tot. change (file_pos d + n + zlen (drop n (i_in (d_in d))) = file_pos d + avail_in d). rewrite zlen_drop by lia. unfold avail_in in *. lia.
Qed.
Lemma tot_codestream d n d' : advance_codestream d n = Some d' -> tot d' = tot d.
Proof. clear Hhave HF HFb Hsize HCF Hver Hver0 Hbox.
  unfold advance_codestream. destruct (available_codestream d) as [a|]; [|discriminate]. cbv zeta. destruct (w_copy (d_win d)).
  - destruct (n <=? a); intros E; apply tot_advance in E; exact E.
  - destruct (_ >=? _); [|intros E; apply Some_inj in E; subst d'; reflexivity].
    destruct (advance_input d _) as [d1|] eqn:E1; [|discriminate]. intros E. apply Some_inj in E. subst d'. apply tot_advance in E1. exact E1.
Qed.
Lemma tot_request d : tot (snd (request_more_input d)) = tot d.
Proof. clear Hhave HF HFb Hsize HCF Hver Hver0 Hbox.
  unfold request_more_input. cbv zeta. destruct (w_copy (d_win d)).
  - destruct (available_codestream d) as [a|]; [|reflexivity]. destruct (negb _); [reflexivity|]. destruct (advance_input _ a) as [d2|] eqn:E; [|reflexivity]. apply tot_advance in E. exact E.
  - destruct (advance_input d _) as [d2|] eqn:E; [|reflexivity]. apply tot_advance in E. exact E.
Qed.
Definition got (r : get_result) : dec := match r with GSpan _ d => d | GStop _ d => d end.
Lemma tot_window d : tot (got (get_window d)) = tot d.
Proof. clear Hhave HF HFb Hsize HCF Hver Hver0 Hbox.
  unfold get_window. cbv zeta. destruct (_ >? _); [reflexivity|]. destruct (_ >? _); [reflexivity|]. destruct (available_codestream d) as [a|]; [|reflexivity].
  destruct (w_copy (d_win d)).
  - destruct (a =? 0); [|reflexivity]. pose proof (tot_request d) as H. destruct (request_more_input d). exact H.
  - destruct (negb _); reflexivity.
Qed.
Lemma tot_get d : tot (got (get_codestream_input d)) = tot d.
Proof. clear Hhave HF HFb Hsize HCF Hver Hver0 Hbox.
  unfold get_codestream_input. cbv zeta. destruct (w_copy (d_win d)); [|apply tot_window]. destruct (_ >? 0); [|apply tot_window].
  destruct (available_codestream d) as [a|]; [|reflexivity]. destruct (advance_input d _) as [d1|] eqn:E; [|reflexivity]. apply tot_advance in E. rewrite <- E.
  destruct (_ >? 0).
  - match goal with |- context [request_more_input ?x] => pose proof (tot_request x) as H; destruct (request_more_input x) end. exact H.
  - rewrite tot_window. reflexivity.
Qed.
Lemma tot_inside inside : forall d left, match advance_inside d inside left with Some (d', _) => tot d' = tot d | None => True end.
Proof. clear Hhave HF HFb Hsize HCF Hver Hver0 Hbox.
  induction inside as [|n r IH]; intros d left; cbn [advance_inside]; [reflexivity|].
  destruct (advance_codestream _ _) as [d'|] eqn:E; [|exact I]. apply tot_codestream in E. specialize (IH d' (left - Z.min (Z.max 0 n) left)).
  destruct (advance_inside _ _ _) as [[d2 os]|]; [|exact I]. lia.
Qed.
Lemma tot_process acts : forall d, tot (snd (fst (fst (process_codestream acts d)))) = tot d.
Proof. clear Hhave HF HFb Hsize HCF Hver Hver0 Hbox.
  induction acts as [|a acts IH]; intros d; cbn [process_codestream]; destruct (d_done d); try reflexivity; destruct a as [inside skip e| |]; try reflexivity.
  pose proof (tot_get d) as Hg. destruct (get_codestream_input d) as [span d1|s d1]; cbn [got] in Hg; [|exact Hg]. pose proof (tot_inside inside d1 (zlen span)) as Hi.
  destruct (advance_inside d1 inside (zlen span)) as [[d2 os]|]; [|exact Hg].
  destruct e.
  - destruct (advance_codestream d2 (Z.max 0 skip)) as [d3|] eqn:E; [|cbn; lia]. apply tot_codestream in E. specialize (IH d3). destruct (process_codestream acts d3) as [[[s d4] rest] os'].
    cbn [fst snd] in *. lia.
  - pose proof (tot_request d2) as Hr. destruct (request_more_input d2). cbn [fst snd] in *. lia.
  - destruct (advance_codestream d2 (Z.max 0 skip)) as [d3|] eqn:E; [|cbn; lia]. apply tot_codestream in E. cbn [fst snd]. lia.
Qed.
Definition step_dec (r : step) : dec := match r with Go d _ _ => d | Stop _ d _ _ => d end.
Lemma tot_stage acts d : tot (step_dec (stage_step c acts d)) = tot d.
Proof. clear Hhave HF HFb Hsize HCF Hver Hver0 Hbox.
  unfold stage_step. destruct (d_stage d).
  - unfold step_header. cbv zeta. repeat match goal with |- context [match ?x with _ => _ end] => destruct x end; reflexivity.
  - unfold step_ftyp. cbv zeta. repeat match goal with |- context [if ?x then _ else _] => destruct x end; try reflexivity.
    destruct (advance_input _ _) as [d1|] eqn:E; [|reflexivity]. apply tot_advance in E. exact E.
  - unfold step_skip. cbv zeta. repeat match goal with |- context [if ?x then _ else _] => destruct x end; try reflexivity;
      (destruct (advance_input _ _) as [d1|] eqn:E; [|reflexivity]; apply tot_advance in E; exact E).
  - unfold step_codestream. pose proof (tot_process acts d) as H. destruct (process_codestream acts d) as [[[s d1] rest] os]. cbn [fst snd] in H.
    destruct s; try exact H.
    + destruct (x_unb _); [exact H|]. destruct (want_box c); exact H.
    + destruct (_ && _); [|exact H]. unfold inject_next. destruct (ooo_find _ _) as [[data fl]|]; [|exact H]. destruct fl; exact H.
  - unfold step_partial. cbv zeta. repeat match goal with |- context [if ?x then Stop _ _ _ _ else _] => destruct x; [reflexivity|] end.
    destruct (advance_input _ _) as [d1|] eqn:E; [|reflexivity]. apply tot_advance in E. rewrite <- E.
    repeat match goal with |- context [match ?x with _ => _ end] => destruct x end; reflexivity.
  - unfold step_buffering. cbv zeta. destruct (available_codestream d) as [a|]; [|reflexivity]. destruct (negb _); [reflexivity|].
    destruct (advance_input _ _) as [d1|] eqn:E; [|reflexivity]. apply tot_advance in E. destruct (_ && _); exact E.
Qed.
Lemma tot_boxes fuel : forall acts d, tot (snd (fst (handle_boxes c fuel acts d))) = tot d.
Proof. clear Hhave HF HFb Hsize HCF Hver Hver0 Hbox.
  induction fuel as [|fuel IH]; intros acts d; cbn [handle_boxes]; [reflexivity|].
  assert (H1 : tot (snd (fst (preamble c d))) = tot d).
  { unfold preamble. destruct (is_header _); [reflexivity|]. destruct (advance_input _ _) as [d1|] eqn:E; [|reflexivity]. apply tot_advance in E. rewrite <- E.
    unfold output_box. cbv zeta. destruct (_ && o_cur _); [|reflexivity]. destruct (content_process _ _ _) as [[s o] data]. reflexivity. }
  destruct (preamble c d) as [[s1 d1] os1]. cbn [fst snd] in H1. destruct s1; try exact H1. pose proof (tot_stage acts d1) as H2.
  destruct (stage_step c acts d1) as [d2 rest os2|s d2 rest os2]; cbn [step_dec] in H2.
  - specialize (IH rest d2). destruct (handle_boxes c fuel rest d2) as [[s d3] os3]. cbn [fst snd] in *. lia.
  - cbn [fst snd]. lia.
Qed.

Lemma user_inv u op p sh y : UInv u p sh y -> op_ok op ->
  let '(u', os) := user_step c F u op in
  exists y', delivered (want_complete c) y os y' /\ UInv u' (parser_at p os) (shown_to p sh os) y' /\ spans_ok C p os /\
    Forall ret_ok os /\ end_ok u' (parser_at p os) (shown_to p sh os) os.
Proof.
  intros [HI Hu] Hop. destruct u as [d at_ given]. cbn [u_dec u_at u_given] in *. destruct op as [k|fuel acts| |size| |n]; cbn [user_step u_dec u_at u_given].
  - (* input *)
    assert (Same : exists y', delivered (want_complete c) y [] y' /\ UInv (mkUser d at_ given) (parser_at p []) (shown_to p sh []) y' /\ spans_ok C p [] /\
       Forall ret_ok [] /\ end_ok (mkUser d at_ given) (parser_at p []) (shown_to p sh []) []).
    { exists y. split; [reflexivity|]. split; [split; assumption|]. split; [exact I|]. split; [constructor|]. intros [|? ?] s E; discriminate. }
    destruct (d_closed d) eqn:Ec; [exact Same|]. unfold release_input, set_input. cbn [set_in d_closed]. rewrite Ec.
    replace (at_ + given - avail_in d) with (file_pos d) by lia.
    set (chunk := take (avail_in d + Z.max 0 k) (drop (file_pos d) F)).
    destruct HI as (b & todo & (I0 & I1 & I2) & HA & HC & HO & HM). pose proof (avail_nonneg d) as Hav.
    assert (Zc : zlen chunk = Z.min (avail_in d + Z.max 0 k) (zlen F - file_pos d)) by (subst chunk; rewrite zlen_take, zlen_drop by lia; lia).
    set (d' := set_in (set_in d (mkInput [] (file_pos d))) (mkInput chunk (file_pos (set_in d (mkInput [] (file_pos d)))))).
    assert (Ef : file_pos d' = file_pos d) by reflexivity. assert (Ea : avail_in d' = zlen chunk) by reflexivity.
    assert (Ed : dm d' = dm d) by reflexivity.
    assert (Ei : i_in (d_in d') = chunk) by reflexivity.
    assert (Rest : d_box d' = d_box d /\ d_win d' = d_win d /\ d_jx d' = d_jx d /\ d_out d' = d_out d /\ d_stage d' = d_stage d /\ d_count d' = d_count d /\ d_last d' = d_last d /\ d_done d' = d_done d) by (repeat split).
    destruct Rest as (R1 & R2 & R3 & R4 & R5 & R6 & R7 & R8). clearbody d'.
    exists y. split; [reflexivity|]. split; [|split; [exact I|split; [constructor|intros [|? ?] s E; discriminate]]].
    split; [|cbn [u_dec u_at u_given]; rewrite Ef, Ea; reflexivity]. cbn [u_dec parser_at shown_to]. exists b, todo.
    assert (HBk : forall b0 t0, InBox d b0 t0 -> InBox d' b0 t0).
    { intros b0 t0 (B1 & B2 & B3 & B4). unfold InBox. rewrite Ed, Ef, Ea, R1, R6. split; [exact B1|]. split; [exact B2|]. split; [lia|exact B4]. }
    split; [|split; [|split; [|split]]].
    + split; [rewrite Ef; lia|]. rewrite Ef, Ea, Ei. split; [lia|]. rewrite Zc. subst chunk.
      destruct (Z.le_gt_cases (avail_in d + Z.max 0 k) (zlen F - file_pos d)) as [Hle|Hgt]; [rewrite Z.min_l by lia; reflexivity|rewrite Z.min_r by lia].
      rewrite !take_all; [reflexivity|rewrite zlen_drop by lia; lia|rewrite zlen_drop by lia; lia].
    + destruct HA as (A1 & A2 & A3). unfold At. rewrite R5, R6, Ef, Ed. split; [exact A1|]. split; [exact A2|]. destruct (d_stage d); try (apply HBk; exact A3); try exact A3; (split; [apply HBk; tauto|tauto]).
    + destruct HC as (E & suf & C1 & C2 & C3). exists E, suf. rewrite R1, R2, R3, R5, R7, R8, Ed, Ea. split; [exact C1|]. split; [exact C2|]. intros X. destruct (C3 X) as (v & W & V). exists v. split; [exact W|].
      destruct (d_stage d); try exact V. destruct V as (V1 & V2 & V3 & V4). split; [exact V1|]. split; [exact V2|]. split; [|exact V4]. lia.
    + unfold OutOK in *. rewrite R1, R4, R5, Ed, Ea. destruct (want_box c); [|exact HO]. destruct HO as (O1 & O2 & O3 & O4 & O5 & O6). repeat (split; [assumption|]).
      intros Oe. destruct (O6 Oe) as (b' & Y1 & Y2 & Y3 & Y4 & Y5 & Y6). exists b'. repeat (split; [assumption|]). destruct (d_stage d); try exact Y6; (destruct Y6 as (Z1 & Z2 & Z3); split; [exact Z1|]; split; [exact Z2|lia]).
    + unfold Misc in *. rewrite R2, R3, R5, R6, R8, Ef. exact HM.
  - (* JxlDecoderProcessInput *)
    destruct Hop as [HNS HND]. unfold process_input. pose proof (handle_boxes_inv fuel acts d p sh y HI HNS HND) as H. pose proof (noret_boxes fuel acts d) as Hno.
    pose proof (tot_boxes fuel acts d) as Htot.
    destruct (handle_boxes c fuel acts d) as [[s d'] os]. cbn [snd] in Hno. destruct H as (y' & D & I' & S' & T). cbn [fst snd] in Htot. unfold tot in Htot.
    set (s' := match s with SNeedInput => if d_closed d' then SError EPremature else s | SSuccess => if d_done d' then s else SError ENeverFinished | _ => s end).
    assert (Hs : s' = s \/ (other s /\ other s')).
    { subst s'. destruct s; try (left; reflexivity).
      - destruct (d_done d'); [left; reflexivity|right; split; apply other_list; exact I].
      - destruct (d_closed d'); [right; split; apply other_list; exact I|left; reflexivity]. }
    exists y'. rewrite parser_at_app, shown_app, spans_ok_app. cbn [parser_at shown_to spans_ok]. split; [apply D, Hs|].
    split; [split; [exact I'|cbn [u_dec u_at u_given]; lia]|]. split; [auto|].
    split.
    + apply Forall_app. split; [revert Hno; apply Forall_impl; intros [ | | | | |] X; try exact I; contradiction|]. constructor; [|constructor].
      subst s'. destruct s as [|e| | | | | | |]; cbn in T |- *; try exact I; try contradiction; try exact T.
      * destruct (d_done d'); exact I.
      * destruct e; try exact I; try contradiction; exact T.
      * destruct (d_closed d'); exact I.
    + intros os0 s0 E Hd. apply app_inj_tail in E. destruct E as [_ E]. injection E as <-. cbn [u_dec u_at u_given] in *.
      subst s'. destruct s as [|e| | | | | | |]; cbn [status_ok] in T; try exact I; try contradiction.
      * rewrite Hd. apply T, Hd.
      * destruct e; try exact I; contradiction.
      * destruct (d_closed d'); intros A; apply T; auto; lia.
  - exists y. split; [reflexivity|]. split; [split; [exact HI|exact Hu]|]. split; [exact I|]. split; [constructor|intros [|? ?] s E; discriminate].
  - (* JxlDecoderSetBoxBuffer *)
    unfold set_box_buffer. destruct (o_set (d_out d)) eqn:Es; [|destruct (o_event (d_out d)) eqn:Ee]; cbn [negb].
    1,3: exists y; split; [reflexivity|]; split; [split; assumption|]; split; [exact I|]; split; [constructor|intros [|? ?] s E; discriminate].
    destruct HI as (b & todo & HIn & HA & HC & HO & HM). destruct (want_box c) eqn:Ew; unfold OutOK in HO; rewrite Ew in HO.
    2:{ destruct HO as (A & _). congruence. }
    destruct HO as (O1 & O2 & O3 & O4 & O5 & O6). rewrite Es in *. destruct y as [yt yc yg yr yo]. cbn [y_todo y_room y_on y_cur y_got] in *. subst yr.
    exists (mkDel yt yc yg (Some (Z.max 0 size)) true). split; [cbn [delivered]; eexists; split; [apply del_buffer; lia|split; [reflexivity|exact I]]|].
    split; [|split; [exact I|split; [repeat constructor|intros [|? [|? ?]] s E; discriminate]]].
    split; [|exact Hu]. cbn [u_dec parser_at shown_to]. apply (Inv_out d _ p sh (mkDel yt yc yg None yo) _ b todo); try assumption.
    unfold OutOK. rewrite Ew. cbn [set_out d_out y_todo y_room y_on y_cur y_got o_event o_set o_cur o_size o_pos c_pos c_rem c_eof].
    split; [exact O1|]. split; [f_equal; lia|]. split; [reflexivity|]. split; [intros _; lia|]. split; [auto|]. intros _. exact (O6 Ee).
  - (* JxlDecoderReleaseBoxBuffer *)
    unfold release_box_buffer. destruct HI as (b & todo & HIn & HA & HC & HO & HM). destruct (o_set (d_out d)) eqn:Es; cbn [negb].
    + destruct (want_box c) eqn:Ew; unfold OutOK in HO; rewrite Ew in HO.
      2:{ destruct HO as (_ & _ & A & _). congruence. }
      destruct HO as (O1 & O2 & O3 & O4 & O5 & O6). rewrite Es in *. destruct y as [yt yc yg yr yo]. cbn [y_todo y_room y_on y_cur y_got] in *. subst yr.
      exists (mkDel yt yc yg None false). split; [cbn [delivered]; eexists; split; [apply (del_release yt yc yg (Some (o_size (d_out d) - o_pos (d_out d))))|split; [reflexivity|exact I]]|].
      split; [|split; [exact I|split; [repeat constructor|intros [|? [|? ?]] s E; discriminate]]].
      split; [|exact Hu]. cbn [u_dec parser_at shown_to]. apply (Inv_out d _ p sh (mkDel yt yc yg None yo) _ b todo); try assumption.
      unfold OutOK. rewrite Ew. cbn [set_out d_out y_todo y_room y_on y_cur y_got o_event o_set o_cur o_size o_pos c_pos c_rem c_eof].
      split; [exact O1|]. split; [reflexivity|]. split; [reflexivity|]. split; [discriminate|]. split; [discriminate|]. exact O6.
    + assert (Ey : y_room y = None /\ y_on y = false).
      { unfold OutOK in HO. destruct (want_box c); [|destruct HO as (_ & _ & _ & ->); split; reflexivity].
        destruct HO as (O1 & O2 & O3 & O4 & O5 & O6). rewrite Es in *. split; [exact O2|]. rewrite O3. destruct (o_cur (d_out d)); [|reflexivity]. destruct (O5 eq_refl). congruence. }
      exists y. split; [|split; [split; [exists b, todo; auto|exact Hu]|split; [exact I|split; [repeat constructor|intros [|? [|? ?]] s E; discriminate]]]].
      destruct y as [yt yc yg yr yo]. cbn [y_room y_on] in Ey. destruct Ey as [-> ->]. cbn [delivered]. eexists. split; [apply (del_release yt yc yg None)|split; [reflexivity|exact I]].
  - (* JxlDecoderSkipCurrentFrame *)
    assert (Same : exists y', delivered (want_complete c) y [] y' /\ UInv (mkUser d at_ given) (parser_at p []) (shown_to p sh []) y' /\ spans_ok C p [] /\
       Forall ret_ok [] /\ end_ok (mkUser d at_ given) (parser_at p []) (shown_to p sh []) []).
    { exists y. split; [reflexivity|]. split; [split; assumption|]. split; [exact I|]. split; [constructor|]. intros [|? ?] s E; discriminate. }
    destruct (d_stage d) eqn:Es; try exact Same. destruct (can_skip d) eqn:Ec; [|exact Same]. clear Same.
    unfold can_skip in Ec. apply andb_true_iff in Ec. destruct Ec as [Ec Eo]. apply andb_true_iff in Ec. destruct Ec as [Ec Ew]. apply andb_true_iff in Ec. destruct Ec as [Ed Ex].
    apply negb_true_iff in Ed. apply Z.eqb_eq in Ex.
    assert (Hstrict : strict (d_win d)). { intros A. rewrite A in Ew. apply Z.eqb_eq in Ew. exact Ew. }
    destruct HI as (b & todo & HI & HA & HC & HO & HM). pose proof HA as (A1 & A2 & HB). rewrite Es in HB.
    assert (Hs : d_stage d <> BHeader) by (rewrite Es; discriminate).
    destruct (InBox_data _ _ _ HI HB Ex) as [Hdata Hlen].
    pose proof HB as (H1 & H2 & H3 & H4 & H5 & H6 & H7). pose proof (avail_nonneg d) as Hav. pose proof (zlen_nonneg (layout todo)) as Hl0.
    destruct HM as (M1 & M2 & M3 & M4 & M5 & M6). pose proof HI as (I0 & I1 & I2).
    destruct HC as (E & suf & C1 & C2 & C3). rewrite Es in C1, C2, C3. subst suf.
    pose proof (J_range C ver0 _ _ _ _ _ C1) as [HE Htot].
    set (len := zlen (b_data b)) in *. destruct (C3 Ed) as (v & W & [Win0 V1] & V2 & V3 & V4). rewrite Ex, Z.sub_0_r in V3.
    set (rem := len - dm d) in *.
    assert (HL : L C d p v rem).
    { split; [exact W|]. split; [|split; [exact V3|]].
      - split; [exact Win0|]. split; [subst rem; lia|]. split; [lia|]. split.
        + rewrite H4. destruct (b_unb b) eqn:U.
          * destruct (unb_avail d b todo HI HB Ex U) as (_ & Ha & _). exact Ha.
          * destruct H5 as [H5 _]. subst rem. unfold dm. rewrite Ex. lia.
        + rewrite Hdata by (fold len rem; lia). rewrite V2. apply take_cut. lia.
      - split; [exact Htot|]. lia. }
    unfold skip_current_frame. destruct (advance_codestream_L C d p v rem (Z.max 0 n) HL Hstrict ltac:(lia)) as (k & w & -> & Hk & HL1 & Hcalm & _).
    pose proof (ac_le d rem) as [Hac1 Hac2]. pose proof HL1 as (W1 & _ & U1 & _). cbn [moved set_win d_win] in W1, U1.
    rewrite (ac_moved C d v) in U1 by (try apply HL; exact Hk).
    destruct (InBox_moved d b todo k w HI HB Ex ltac:(lia) ltac:(fold len; lia)) as [HB' Ed']. pose proof (avail_moved d k w ltac:(lia)) as Ea'.
    exists y. cbn [parser_at shown_to spans_ok]. split; [cbn [delivered]; eexists; split; [apply del_other; exact I|split; [reflexivity|exact I]]|].
    split; [|split; [split; [lia|exact I]|split; [repeat constructor|intros [|? [|? ?]] s E0; discriminate]]].
    split; [|cbn [u_dec u_at u_given]; rewrite file_pos_moved, Ea'; lia]. cbn [u_dec].
    exists b, todo. split; [apply (In_moved d k w); [assumption|lia]|]. split; [split; [exact A1|split; [exact A2|cbn [moved set_win set_in d_stage]; rewrite Es; exact HB']]|split; [|split]].
    + exists E, []. cbn [moved set_win set_in d_stage d_jx d_last d_done d_win d_box]. rewrite Es. split; [exact C1|]. split; [reflexivity|]. intros _. exists (v + k). split; [exact W1|].
      fold (moved d k w). rewrite Ed', Ea', Ex. fold len. split; [subst rem; lia|]. split; [|split; [|exact V4]].
      * rewrite <- drop_drop by lia. rewrite V2. apply drop_cut; lia.
      * unfold ac in U1. subst rem. lia.
    + unfold OutOK in *. cbn [moved set_win set_in d_stage d_out d_box]. rewrite Es in *. destruct (want_box c); [|exact HO]. destruct HO as (O1 & O2 & O3 & O4 & O5 & O6). repeat (split; [assumption|]).
      intros Oe. destruct (O6 Oe) as (b' & Y1 & Y2 & Y3 & Y4 & Y5 & Y6 & Y7 & Y8). exists b'. repeat (split; [assumption|]). fold (moved d k w). rewrite Ed', Ea', Ex in *.
      rewrite Oe in Eo. cbn [negb orb] in Eo. rewrite (available_inbox d b todo HI HB Ex) in Eo. apply Z.leb_le in Eo. fold len rem in Eo. unfold ac in Hk.
      assert (dm d = file_pos d - x_begin (d_box d)) by (unfold dm; rewrite Ex; lia). lia.
    + split; [intros X1 _; apply M1; [exact X1|rewrite Es; discriminate]|]. split; [change (j_total (d_jx d) <= file_pos d + k); lia|]. split; [eapply copy_le; exact W1|]. split; [|split; [exact M5|exact M6]].
      intros X _. destruct (M4 X Ed) as [Q1 _]. split; [apply Hcalm, Q1|]. destruct X as [X|X]; [left; exact X|contradiction].
Qed.

Lemma run_ends file op2 ops fuel acts u u' : last (op2 :: ops) (UFeed 0) = UProcess fuel acts -> user_run c file u (op2 :: ops) = (u', []) -> False.
Proof. clear Hhave HF HFb Hsize HCF Hver Hver0 Hbox.
  intros El. destruct (exists_last (l := op2 :: ops) ltac:(discriminate)) as (ops0 & opl & Eo). rewrite Eo in *. rewrite last_last in El. subst opl. clear Eo.
  revert u. induction ops0 as [|a ops0 IH]; intros u E2; cbn [app user_run] in E2.
  - unfold user_step in E2. destruct (process_input _ _ _ _) as [[s d'] os]. injection E2 as _ E2. destruct os; discriminate.
  - destruct (user_step c file u a) as [u3 os3]. destruct (user_run c file u3 (ops0 ++ [UProcess fuel acts])) as [u4 os4] eqn:E4. injection E2 as <- E2.
    apply app_eq_nil in E2. destruct E2 as [_ ->]. eapply IH; exact E4.
Qed.

Lemma run_inv ops : forall u p sh y, UInv u p sh y -> Forall op_ok ops ->
  let '(u', os) := user_run c F u ops in
  exists y', delivered (want_complete c) y os y' /\ UInv u' (parser_at p os) (shown_to p sh os) y' /\ spans_ok C p os /\
    Forall ret_ok os /\ (forall o, last ops (UFeed 0) = o -> (exists fuel acts, o = UProcess fuel acts) -> end_ok u' (parser_at p os) (shown_to p sh os) os).
Proof.
  induction ops as [|op ops IH]; intros u p sh y HU Hops; cbn [user_run].
  { exists y. split; [reflexivity|]. split; [exact HU|]. split; [exact I|]. split; [constructor|]. intros o <- (? & ? & A). discriminate. }
  inversion Hops as [|? ? Hop Hops']; subst. pose proof (user_inv u op p sh y HU Hop) as H1. destruct (user_step c F u op) as [u1 os1] eqn:E1.
  destruct H1 as (y1 & D1 & U1 & S1 & R1 & T1). specialize (IH u1 _ _ y1 U1 Hops'). destruct (user_run c F u1 ops) as [u2 os2] eqn:E2.
  destruct IH as (y2 & D2 & U2 & S2 & R2 & T2). exists y2. rewrite parser_at_app, shown_app, spans_ok_app.
  split; [eapply delivered_app; eauto|]. split; [exact U2|]. split; [auto|]. split; [apply Forall_app; auto|].
  intros o El (fuel & acts & ->). destruct ops as [|op2 ops].
  - cbn in El, E2. injection E2 as <- <-. rewrite app_nil_r. exact T1.
  - change (last (op2 :: ops) (UFeed 0) = UProcess fuel acts) in El. specialize (T2 _ El (ex_intro _ fuel (ex_intro _ acts eq_refl))).
    intros os0 s E. destruct os2 as [|o2 os2] using rev_ind.
    + exfalso. eapply run_ends; [exact El|exact E2].
    + clear IHos2. rewrite app_assoc in E. apply app_inj_tail in E. destruct E as [_ ->]. apply (T2 os2). reflexivity.
Qed.

End Inv.
