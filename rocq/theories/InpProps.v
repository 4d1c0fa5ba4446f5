(* C32, C33, C34: reading a file in chunks, boxes and parts.  See InpSpec.v. *)
From Coq Require Import Permutation.
From Verif Require Import Base ContainerSpec InpModel InpSpec InpWin InpParse InpJxlp InpInv InpTop InpMore.
Ltac Zify.zify_post_hook ::= idtac.

Lemma ops_ok ops : Forall (op_ok (Forall (fun op => ~ skips op) ops) (Forall (fun op => ~ finishes op) ops)) ops.
Proof.
  apply Forall_forall. intros op Hin. destruct op as [k|fuel acts| |size| |n]; try exact I.
  - split; intros H; rewrite Forall_forall in H; specialize (H _ Hin).
    + apply noskip_acts, H.
    + apply Forall_forall. intros a Ha ->. apply H, Ha.
  - intros H. rewrite Forall_forall in H. apply (H _ Hin). exact I.
Qed.

(* everything at once, for the theorems below *)
Lemma run_all c file C ops : holds c file C ->
  let '(u, os) := run c file ops in
  let NS := Forall (fun op => ~ skips op) ops in
  let ND := Forall (fun op => ~ finishes op) ops in
  spans_ok C 0 os /\ Forall (ret_ok 1 NS) os /\ naked_ok c (u_dec u) /\ (ND -> d_done (u_dec u) = false) /\
  (forall fuel acts, last ops (UFeed 0) = UProcess fuel acts -> end_ok file C u (parser_at 0 os) (shown_to 0 0 os) os) /\
  In_ok file (u_dec u) /\ u_at u + u_given u = file_pos (u_dec u) + avail_in (u_dec u).
Proof.
  intros [Hz Hh]. unfold run. pose proof (ops_ok ops) as Hops. set (NS := Forall (fun op => ~ skips op) ops) in *. set (ND := Forall (fun op => ~ finishes op) ops) in *.
  destruct (have_container c) eqn:Hc.
  - destruct Hh as (ver & bs & HC & ->). destruct (container_start c ver ver bs C NS ND Hc Hz HC ltac:(auto) ltac:(auto)) as (H1 & H2 & H3 & H4 & H5).
    pose proof (run_inv c (layout bs) bs C ver ver NS ND Hc H1 Hz H2 H3 ltac:(auto) H4 ops _ 0 0 _ H5 Hops) as H.
    destruct (user_run c (layout bs) (mkUser (init c) 0 0) ops) as [u os]. destruct H as (y & D & [UI Ue] & S' & R & T). cbv zeta.
    split; [exact S'|]. split.
    { revert R. apply Forall_impl. intros o Ho. destruct o as [| | |s| |]; try exact I. destruct s as [|e| | | | | | |]; try exact Ho. destruct e; try exact Ho. cbn in *. intros [A|A]; [lia|tauto]. }
    split; [intros A; congruence|]. destruct UI as (b & todo & HI & _ & _ & _ & (_ & _ & _ & _ & M5 & _)). split; [exact M5|]. split; [|split; [exact HI|exact Ue]].
    intros fuel acts El. eapply T; eauto.
  - subst file. pose proof (naked_run c C ND Hc Hz ops NS _ 0 0 (start []) (naked_start c C ND) Hops eq_refl eq_refl) as H.
    destruct (user_run c C (mkUser (init c) 0 0) ops) as [u os]. destruct H as (D & [UI Ue] & S' & R & T). cbv zeta.
    split; [exact S'|]. split.
    { revert R. apply Forall_impl. intros o Ho. destruct o as [| | |s| |]; try exact I. destruct s as [|e| | | | | | |]; try exact Ho. destruct e; try exact Ho. cbn in *. tauto. }
    destruct UI as (HI & _ & HX & _ & HS & _ & Hnd). split; [|split; [exact Hnd|split; [|split; [exact HI|exact Ue]]]].
    + intros _. split; [exact HX|]. destruct (d_stage (u_dec u)); tauto.
    + intros fuel acts El. eapply T; eauto.
Qed.

(** ** C32.  Whatever the chunks the input comes in, however the codestream is spread over boxes
    and whatever the parser does: what it is shown always continues where it is, and neither a
    read outside the input nor an error about the format of the file happens. *)
Theorem C32_contiguous : forall c file C ops u os, holds c file C -> run c file ops = (u, os) ->
  spans_ok C 0 os /\
  forall s, In (ORet s) os -> s <> SCrash /\ s <> SError EFormat /\ s <> SError ELimit.
Proof.
  intros c file C ops u os Hh E. pose proof (run_all c file C ops Hh) as H. rewrite E in H. destruct H as (S' & R & _).
  split; [exact S'|]. intros s Hs. rewrite Forall_forall in R. specialize (R _ Hs). cbn in R. repeat split; intros ->; contradiction.
Qed.
Print Assumptions C32_contiguous.

(** When it says that more input is needed although the whole file was given, or that the image
    is incomplete, the parser has seen or passed all of the codestream. *)
Theorem C32_nothing_lost : forall c file C ops fuel acts u os s,
  holds c file C -> run c file (ops ++ [UProcess fuel acts]) = (u, os ++ [ORet s]) ->
  Forall (fun op => ~ finishes op) (ops ++ [UProcess fuel acts]) ->
  s = SError ENeverFinished \/ ((s = SNeedInput \/ s = SError EPremature) /\ u_at u + u_given u = zlen file) ->
  zlen C <= Z.max (parser_at 0 os) (shown_to 0 0 os).
Proof.
  intros c file C ops fuel acts u os s Hh E Hf Hs. pose proof (run_all c file C (ops ++ [UProcess fuel acts]) Hh) as H. rewrite E in H. destruct H as (_ & _ & _ & Hd & T & _).
  specialize (T fuel acts (last_last ops (UProcess fuel acts) (UFeed 0))). specialize (T os s eq_refl (Hd Hf)). rewrite parser_at_app, shown_app in T. cbn [parser_at shown_to] in T.
  destruct Hs as [->|[[->| ->] Hw]]; auto.
Qed.
Print Assumptions C32_nothing_lost.

(** When no frame is skipped, the bytes the parser took are the beginning of the codestream. *)
Theorem C32_bytes_taken : forall c file C ops u os, holds c file C -> Forall (fun op => ~ skips op) ops ->
  run c file ops = (u, os) -> taken [] os = firstn (Z.to_nat (parser_at 0 os)) C.
Proof.
  intros c file C ops u os Hh Hn E. pose proof (run_all c file C ops Hh) as H. rewrite E in H. destruct H as (S' & _).
  pose proof (run_ins c file ops (mkUser (init c) 0 0) [] Hn) as Hi. unfold run in E. rewrite E in Hi. cbn [snd] in Hi.
  rewrite (taken_spec C os [] 0); [|lia|exact S'|exact Hi|exists C; reflexivity]. rewrite Z.sub_0_r. reflexivity.
Qed.
Print Assumptions C32_bytes_taken.

(** JxlDecoderReleaseInput: the bytes it says were not consumed are those of the file before the
    end of what was given. *)
Theorem C32_unread : forall c file C ops u os, holds c file C -> run c file ops = (u, os) ->
  let n := fst (release_input (u_dec u)) in
  0 <= n /\ 0 <= u_at u + u_given u - n /\ u_at u + u_given u <= zlen file /\
  i_in (d_in (u_dec u)) = firstn (Z.to_nat n) (skipn (Z.to_nat (u_at u + u_given u - n)) file).
Proof.
  intros c file C ops u os Hh E. pose proof (run_all c file C ops Hh) as H. rewrite E in H. destruct H as (_ & _ & _ & _ & _ & (I0 & I1 & I2) & Ue).
  cbn [release_input fst]. pose proof (avail_nonneg (u_dec u)). rewrite Ue. replace (file_pos (u_dec u) + avail_in (u_dec u) - avail_in (u_dec u)) with (file_pos (u_dec u)) by lia.
  split; [lia|]. split; [lia|]. split; [lia|]. exact I2.
Qed.
Print Assumptions C32_unread.

(** JxlDecoderProcessInput returns: the loop over the boxes needs a bounded number of rounds,
    whatever the parser does. *)
Theorem C32_returns : forall c file C ops u os, holds c file C -> run c file ops = (u, os) ->
  exists rounds, forall fuel acts, (rounds <= fuel)%nat -> fst (fst (process_input c fuel acts (u_dec u))) <> SFuel.
Proof.
  intros c file C ops u os Hh E. pose proof (run_all c file C ops Hh) as H. rewrite E in H. destruct H as (_ & _ & Hn & _).
  exists (S (Z.to_nat (meas (have_container c) (u_dec u)))). intros fuel acts Hf. unfold process_input.
  pose proof (boxes_return c fuel acts (u_dec u) Hn ltac:(pose proof (meas_nonneg (have_container c) (u_dec u)); lia)) as H.
  destruct (handle_boxes c fuel acts (u_dec u)) as [[s d] os']. cbn [fst] in *. destruct s; try congruence; [destruct (d_done d)|destruct (d_closed d)]; discriminate.
Qed.
Print Assumptions C32_returns.

(** ** C33.  The order of the jxlp boxes makes no difference, when no frame is skipped: what
    C32 says holds for every order (see carries), and there is no error other than those of the
    parser or of an incomplete image.  *)
Definition input_error (s : status) : Prop := s = SCrash \/ s = SError EFormat \/ s = SError EInternal \/ s = SError ELimit.

Theorem C33_any_order : forall c bs C ops u os,
  have_container c = true -> zlen (layout bs) < 2 ^ 46 -> container 1 bs C ->
  Forall (fun op => ~ skips op) ops -> run c (layout bs) ops = (u, os) ->
  spans_ok C 0 os /\ taken [] os = firstn (Z.to_nat (parser_at 0 os)) C /\ forall s, In (ORet s) os -> ~ input_error s.
Proof.
  intros c bs C ops u os Hc Hz HC Hn E. assert (Hh : holds c (layout bs) C) by (split; [exact Hz|rewrite Hc; exists 1, bs; auto]).
  split; [apply (C32_contiguous c _ C ops u os Hh E)|]. split; [apply (C32_bytes_taken c _ C ops u os Hh Hn E)|].
  pose proof (run_all c _ C ops Hh) as H. rewrite E in H. destruct H as (_ & R & _). intros s Hs. rewrite Forall_forall in R. specialize (R _ Hs). cbn in R.
  intros [->|[->|[->| ->]]]; try contradiction. apply R. right. exact Hn.
Qed.
Print Assumptions C33_any_order.

(** Two files with the same codestream, in whatever order and chunks: the parser takes the same
    bytes. *)
Theorem C33_same_codestream : forall c1 c2 file1 file2 C ops1 ops2 u1 u2 os1 os2,
  holds c1 file1 C -> holds c2 file2 C ->
  Forall (fun op => ~ skips op) ops1 -> Forall (fun op => ~ skips op) ops2 ->
  run c1 file1 ops1 = (u1, os1) -> run c2 file2 ops2 = (u2, os2) ->
  parser_at 0 os1 <= parser_at 0 os2 ->
  taken [] os1 = firstn (Z.to_nat (parser_at 0 os1)) (taken [] os2).
Proof.
  intros c1 c2 file1 file2 C ops1 ops2 u1 u2 os1 os2 H1 H2 N1 N2 E1 E2 Hle.
  rewrite (C32_bytes_taken _ _ _ _ _ _ H1 N1 E1), (C32_bytes_taken _ _ _ _ _ _ H2 N2 E2), firstn_firstn. f_equal. lia.
Qed.
Print Assumptions C33_same_codestream.

(** A parser that depends on the bytes only moves and returns events as it would with all of the
    codestream in front of it, whatever the order and the chunks. *)
Lemma follows_reading S (P : parser S) C : steady P -> forall os st p ms, 0 <= p -> spans_ok C p os -> follows P st os ms ->
  ms = reading P (length ms) st (skipn (Z.to_nat p) C).
Proof.
  intros HP os st p ms Hp HS HF. revert p Hp HS. induction HF as [st|st s os ms E HF IH|st s n st' os ms E HF IH|st s n st' os ms E HF IH|st o os ms Ho HF IH]; intros p Hp HS.
  - reflexivity.
  - destruct HS as [_ HS]. apply IH; assumption.
  - destruct HS as ([t Et] & _ & _ & HS). destruct (HP _ _ t _ _ _ E) as [Hn E2]. rewrite <- Et in E2. cbn [length reading]. rewrite E2. f_equal.
    rewrite Z.add_0_r in HS. rewrite (IH (p + n) ltac:(lia) HS) at 1. f_equal. change (drop (p + n) C = drop n (drop p C)). symmetry. apply drop_drop; lia.
  - destruct HS as ([t Et] & _ & _ & HS). destruct (HP _ _ t _ _ _ E) as [Hn E2]. rewrite <- Et in E2. cbn [length reading]. rewrite E2. f_equal.
    rewrite Z.add_0_r in HS. rewrite (IH (p + n) ltac:(lia) HS) at 1. f_equal. change (drop (p + n) C = drop n (drop p C)). symmetry. apply drop_drop; lia.
  - apply IH; [exact Hp|]. destruct o; try contradiction; exact HS.
Qed.

Theorem C33_same_events : forall S (P : parser S) st c file C ops u os ms,
  steady P -> holds c file C -> run c file ops = (u, os) -> follows P st os ms ->
  ms = reading P (length ms) st C.
Proof.
  intros S P st c file C ops u os ms HP Hh E HF. destruct (C32_contiguous c file C ops u os Hh E) as [HS _]. apply (follows_reading S P C HP os st 0 ms); [lia|exact HS|exact HF].
Qed.
Print Assumptions C33_same_events.

(** With the boxes in order, frames may be skipped as well. *)
Theorem C33_in_order : forall c ver sig ftyp rest C ops u os,
  have_container c = true -> zlen (layout (sig :: ftyp :: rest)) < 2 ^ 46 ->
  container ver (sig :: ftyp :: rest) C -> carries 0 rest C ->
  run c (layout (sig :: ftyp :: rest)) ops = (u, os) ->
  spans_ok C 0 os /\ forall s, In (ORet s) os -> ~ input_error s.
Proof.
  intros c ver sig ftyp rest C ops u os Hc Hz HC H0 E. pose proof (ops_ok ops) as Hops. set (NS := Forall (fun op => ~ skips op) ops) in *. set (ND := Forall (fun op => ~ finishes op) ops) in *.
  set (bs := sig :: ftyp :: rest) in *.
  destruct (container_start c ver 0 bs C NS ND Hc Hz HC ltac:(auto) ltac:(right; exists sig, ftyp, rest; auto)) as (H1 & H2 & H3 & H4 & H5).
  pose proof (run_inv c (layout bs) bs C ver 0 NS ND Hc H1 Hz H2 H3 ltac:(auto) H4 ops _ 0 0 _ H5 Hops) as H. unfold run in E. rewrite E in H.
  destruct H as (y & D & _ & S' & R & _). split; [exact S'|]. intros s Hs. rewrite Forall_forall in R. specialize (R _ Hs). cbn in R.
  intros [->|[->|[->| ->]]]; try contradiction. apply R. left. reflexivity.
Qed.
Print Assumptions C33_in_order.

(** ** C34.  The boxes are announced in the order of the file; what is written to the buffers
    set for a box is its contents, in order and no more than the room; more room is asked for
    only if there is none and bytes are left; completion is reported only when the contents
    were delivered, and at once (see delivers, delivered). *)
Theorem C34_delivered : forall c ver bs C ops u os,
  have_container c = true -> zlen (layout bs) < 2 ^ 46 -> container ver bs C ->
  run c (layout bs) ops = (u, os) ->
  exists y, delivered (want_complete c) (mkDel bs None [] None false) os y.
Proof.
  intros c ver bs C ops u os Hc Hz HC E. pose proof (ops_ok ops) as Hops. set (NS := Forall (fun op => ~ skips op) ops) in *. set (ND := Forall (fun op => ~ finishes op) ops) in *.
  destruct (container_start c ver ver bs C NS ND Hc Hz HC ltac:(auto) ltac:(auto)) as (H1 & H2 & H3 & H4 & H5).
  pose proof (run_inv c (layout bs) bs C ver ver NS ND Hc H1 Hz H2 H3 ltac:(auto) H4 ops _ 0 0 _ H5 Hops) as H. unfold run in E. rewrite E in H.
  destruct H as (y & D & _). exists y. exact D.
Qed.
Print Assumptions C34_delivered.

(** ** Cases. *)
Definition case_sig : box := mkB [0; 0; 0; 12; 74; 88; 76; 32] JXL [13; 10; 135; 10] false.
Definition case_ftyp : box := mkB [0; 0; 0; 20; 102; 116; 121; 112] FTYP (BRAND ++ [0; 0; 0; 1] ++ BRAND) false.
(* "Exif" *)
Definition case_exif : box := mkB [0; 0; 0; 13; 69; 120; 105; 102] [69; 120; 105; 102] [1; 2; 3; 4; 5] false.
Definition case_part (i last : Z) (bytes : list Z) : box :=
  mkB [0; 0; 0; 12 + zlen bytes; 106; 120; 108; 112] JXLP ([last; 0; 0; i] ++ bytes) false.
(* a part that extends to the end of the file, with an extended size field that says so *)
Definition case_eof (i last : Z) (bytes : list Z) : box :=
  mkB [0; 0; 0; 1; 106; 120; 108; 112; 0; 0; 0; 0; 0; 0; 0; 0] JXLP ([last; 0; 0; i] ++ bytes) true.
Definition case_pieces : list (list Z) := [[255; 10; 7]; [8; 9]; [20; 21; 22; 23; 24]].
Definition case_C : list Z := concat case_pieces.
(* parts 1, 0, 2, with a box between *)
Definition case_mixed : list box :=
  [case_sig; case_ftyp; case_part 1 0 [8; 9]; case_exif; case_part 0 0 [255; 10; 7]; case_part 2 128 [20; 21; 22; 23; 24]].
Definition case_ordered : list box :=
  [case_sig; case_ftyp; case_part 0 0 [255; 10; 7]; case_part 1 0 [8; 9]; case_part 2 128 [20; 21; 22; 23; 24]].

Ltac bytes := unfold bytes_ok; repeat first [apply Forall_nil | apply Forall_cons; [unfold is_u8; lia|]].
Lemma small_ok s0 s1 s2 s3 t data : bytes_ok ([s0; s1; s2; s3] ++ t) -> bytes_ok data -> length t = 4%nat ->
  big_endian [s0; s1; s2; s3] = 8 + zlen data -> box_ok (mkB ([s0; s1; s2; s3] ++ t) t data false).
Proof.
  intros H1 H2 H3 H4. split; [exact H1|]. split; [exact H2|]. cbn [b_head b_type b_data b_unb].
  assert (Z8 : zlen ([s0; s1; s2; s3] ++ t) = 8) by (unfold zlen; rewrite app_length, H3; reflexivity). rewrite Z8, <- H4.
  apply (box_small _ [s0; s1; s2; s3] t []); [rewrite app_nil_r; reflexivity|reflexivity|exact H3|]. pose proof (zlen_nonneg data). lia.
Qed.
Lemma case_ok_sig : box_ok case_sig.
Proof. apply (small_ok 0 0 0 12 JXL); [bytes|bytes|reflexivity|reflexivity]. Qed.
Lemma case_ok_ftyp : box_ok case_ftyp.
Proof. apply (small_ok 0 0 0 20 FTYP); [bytes|bytes|reflexivity|reflexivity]. Qed.
Lemma case_ok_exif : box_ok case_exif.
Proof. apply (small_ok 0 0 0 13 [69; 120; 105; 102]); [bytes|bytes|reflexivity|reflexivity]. Qed.
Lemma case_ok_part i l bytes0 : 0 <= i < 256 -> 0 <= l < 256 -> bytes_ok bytes0 -> zlen bytes0 < 200 -> box_ok (case_part i l bytes0).
Proof.
  intros Hi Hl Hb Hz. pose proof (zlen_nonneg bytes0). apply (small_ok 0 0 0 (12 + zlen bytes0) JXLP).
  - bytes. 
  - repeat (apply Forall_cons; [unfold is_u8; lia|]). exact Hb.
  - reflexivity.
  - rewrite zlen_app. change (zlen [l; 0; 0; i]) with 4. change (big_endian [0; 0; 0; 12 + zlen bytes0]) with (0 * 2 ^ 24 + (0 * 2 ^ 16 + (0 * 2 ^ 8 + ((12 + zlen bytes0) * 2 ^ 0 + 0)))). lia.
Qed.
Lemma case_holds i (fl : bool) bytes0 : 0 <= i < 256 -> holds_part (case_part i (if fl then 128 else 0) bytes0) (i, fl, bytes0).
Proof.
  intros Hi. exists [if fl then 128 else 0; 0; 0; i]. split; [reflexivity|]. split; [reflexivity|]. split; [lia|]. change (big_endian [if fl then 128 else 0; 0; 0; i]) with ((if fl then 128 else 0) * 2 ^ 24 + (0 * 2 ^ 16 + (0 * 2 ^ 8 + (i * 2 ^ 0 + 0)))). destruct fl; lia.
Qed.

Lemma case_container rest : Forall box_ok rest -> Forall (fun b => b_type b <> JXL /\ b_type b <> FTYP) rest -> Forall (fun b => b_unb b = false) rest ->
  carries 1 rest case_C -> container 1 (case_sig :: case_ftyp :: rest) case_C.
Proof.
  intros H1 H2 H3 H4. apply (container_boxes 1 case_sig case_ftyp [0; 0; 0; 1] BRAND); auto; try reflexivity; try lia.
  - apply case_ok_sig.
  - apply case_ok_ftyp.
  - intros before b after E U. rewrite E in H3. apply Forall_app in H3. destruct H3 as [_ H3]. inversion H3. congruence.
Qed.

Ltac parts_tac := repeat first [apply parts_nil | apply parts_jxlp; [reflexivity|first [apply (case_holds _ false); lia|apply (case_holds _ true); lia]|discriminate|] | apply parts_other; [discriminate|discriminate|]].
Ltac oks := repeat first [apply Forall_nil | apply Forall_cons; [first [apply case_ok_exif | apply case_ok_part; [lia|lia|bytes|cbn; lia] | reflexivity | (split; discriminate)]|]].

Example case_mixed_container : container 1 case_mixed case_C.
Proof.
  apply case_container; [oks|oks|oks|]. eapply (carries_jxlp 1 _ _ case_pieces); [parts_tac|discriminate|cbn; lia| |discriminate].
  apply perm_swap.
Qed.
Example case_ordered_carries : carries 0 (tl (tl case_ordered)) case_C.
Proof. eapply (carries_jxlp 0 _ _ case_pieces); [parts_tac|discriminate|cbn; lia|apply Permutation_refl|reflexivity]. Qed.
Example case_ordered_container : container 1 case_ordered case_C.
Proof. apply case_container; [oks|oks|oks|]. eapply (carries_jxlp 1 _ _ case_pieces); [parts_tac|discriminate|cbn; lia|apply Permutation_refl|reflexivity]. Qed.

(* the file out of order, in three chunks; the contents of Exif to two buffers *)
Definition case_ops : list uop :=
  [UFeed 50; UProcess 100 []; UProcess 100 []; UProcess 100 []; UProcess 100 []; UFeed 18; UProcess 100 []; UBuffer 2; UProcess 100 []; URelease;
   UBuffer 10; UProcess 100 []; URelease; UProcess 100 []; UFeed 15;
   UProcess 100 []; UProcess 100 [AStep [2] 0 EEvent]; UProcess 100 [AStep [1] 0 ENext; AStep [] 0 EMore; AStep [2] 0 EMore; AStep [] 0 EMore];
   UProcess 100 [AStep [] 0 EMore]; UFeed 100; UProcess 100 [AStep [3] 0 EMore; AStep [1] 0 EMore]; UClose; UProcess 100 [AStep [1] 0 EMore]].
Example C32_C33_C34_case :
  let '(u, os) := run (mkConfig true true true) (layout case_mixed) case_ops in
  (zlen (layout case_mixed) < 2 ^ 46) /\
  u_at u + u_given u = zlen (layout case_mixed) /\
  taken [] os = [255; 10; 7; 8; 9; 20; 21; 22] /\
  os = [ORet SBox; ORet SBox; ORet SBox; ORet SNeedInput; ORet SBox; OBuf 2; OData [1; 2]; ORet SBoxMoreOutput;
        ORel 0; OBuf 10; OData [3; 4; 5]; ORet SBoxComplete; ORel 7; ORet SBox; ORet SEvent; OSpan [255; 10; 7];
        OAdv 2; OAdv 0; ORet SEvent; OSpan [7]; OAdv 1; OAdv 0; OSpan [8; 9]; OAdv 2; ORet SBox;
        ORet SNeedInput; OSpan [20; 21; 22; 23; 24]; OAdv 3; ORet SNeedInput; ORet (SError EPremature)].
Proof. vm_compute. repeat split. Qed.

(* a parser of records of two bytes, the first without an event, in the same file *)
Definition case_parser : parser Z := fun st s => match s with _ :: _ :: _ => Some (2, 0 <? st, st + 1) | _ => None end.
Example C33_events_case : steady case_parser /\
  let '(u, os) := run (mkConfig true false false) (layout case_mixed)
     [UFeed 50; UProcess 100 []; UFeed 1000; UProcess 100 [AStep [2] 0 ENext; AStep [] 0 EMore; AStep [2] 0 EEvent]] in
  u_at u + u_given u = zlen (layout case_mixed) /\ follows case_parser 0 os [(2, false); (2, true)] /\
  reading case_parser 2 0 case_C = [(2, false); (2, true)].
Proof.
  split.
  - intros st s t n ev st' E. unfold case_parser in *. destruct s as [|a [|b s]]; try discriminate. cbn [app]. injection E as <- <- <-. split; [|reflexivity]. unfold zlen. cbn [length]. lia.
  - vm_compute. split; [reflexivity|]. split; [|reflexivity]. apply follows_other; [exact I|].
    eapply follows_move; [reflexivity|]. apply follows_short; [reflexivity|]. eapply follows_event; [reflexivity|]. apply follows_end.
Qed.

(* a naked codestream, one byte at a time *)
Example C32_naked_case :
  let ops := concat (repeat [UFeed 1; UProcess 9 [AStep [] 0 EMore; AStep [] 0 EMore]] 5) ++ [UProcess 9 [AStep [3; 1] 0 EMore]; UClose; UProcess 9 []] in
  let '(u, os) := run (mkConfig false false false) [255; 10; 1; 2; 3] ops in
  holds (mkConfig false false false) [255; 10; 1; 2; 3] [255; 10; 1; 2; 3] /\ taken [] os = [255; 10; 1; 2] /\ shown_to 0 0 os = 5.
Proof. vm_compute. repeat split. Qed.

(** ** What is not true. *)

(** Skipping a frame that goes on past the next part fails if that part came before its turn
    (GetCodestreamInput then finds codestream_pos beyond the end of the part just taken from the
    map), although with the boxes in order nothing is wrong (C33_in_order). *)
Definition skip_ops : list uop := [UFeed 1000; UProcess 100 [AStep [1] 6 EEvent]; UProcess 100 (repeat (AStep [] 0 EEvent) 4)].
Theorem C33_skip_refuted :
  exists bs C ops, container 1 bs C /\ In (ORet (SError EInternal)) (snd (run (mkConfig true false false) (layout bs) ops)) /\
  exists bs', container 1 bs' C /\ snd (run (mkConfig true false false) (layout bs') ops)
              = [OSpan [255; 10; 7]; OAdv 1; OAdv 6; ORet SEvent; OSpan [22; 23; 24]; OAdv 0; ORet SEvent].
Proof.
  exists case_mixed, case_C, skip_ops. split; [exact case_mixed_container|]. split; [vm_compute; do 4 right; left; reflexivity|].
  exists case_ordered. split; [exact case_ordered_container|vm_compute; reflexivity].
Qed.
Print Assumptions C33_skip_refuted.

(** A part that extends to the end of the file and is not the last of the codestream: the parts
    after it, read before, are never used.  (InpSpec.parts asks that such a part be the last.) *)
Theorem C33_open_part_refuted :
  let bs := [case_sig; case_ftyp; case_part 1 128 [8; 9]; case_eof 0 0 [255; 10; 7]] in
  let '(u, os) := run (mkConfig true false false) (layout bs)
                      [UFeed 1000; UProcess 100 [AStep [3] 0 EMore; AStep [] 0 EMore; AStep [] 0 EMore]; UProcess 100 [AStep [] 0 EMore]] in
  u_at u + u_given u = zlen (layout bs) /\ os = [OSpan [255; 10; 7]; OAdv 3; ORet SNeedInput; ORet SNeedInput].
Proof. vm_compute. repeat split. Qed.
Print Assumptions C33_open_part_refuted.

(** JxlDecoderSkipCurrentFrame between JxlDecoderReleaseInput and JxlDecoderSetInput: the bytes
    both in the copy and in the input are subtracted from an input that is gone. *)
Theorem C32_skip_after_release_refuted :
  exists c file C ops n, holds c file C /\
    let d := u_dec (fst (run c file ops)) in
    (exists os, snd (run c file ops) = os ++ [ORet SEvent]) /\ skip_current_frame d n <> None /\
    skip_current_frame (snd (release_input d)) n = None.
Proof.
  exists (mkConfig false false false), [255; 10; 1; 2; 3], [255; 10; 1; 2; 3], [UFeed 2; UProcess 9 [AStep [] 0 EMore]; UFeed 3; UProcess 9 [AStep [1] 0 EEvent]], 4.
  split; [split; [vm_compute; reflexivity|reflexivity]|]. split; [|split; [vm_compute; discriminate|vm_compute; reflexivity]].
  exists [OSpan [255; 10]; ORet SNeedInput; OSpan [255; 10; 1; 2; 3]; OAdv 1; OAdv 0]. vm_compute. reflexivity.
Qed.
Print Assumptions C32_skip_after_release_refuted.

(** JxlDecoderSkipCurrentFrame at a JXL_DEC_BOX event in the middle of a frame: it moves inside
    the header of that box, and of the rest of the file nothing reaches the parser. *)
Theorem C32_skip_at_box_refuted :
  exists c bs C ops n, container 1 bs C /\
    let '(u, os) := run c (layout bs) ops in
    (exists os', os = os' ++ [OSpan [255; 10; 7]; OAdv 3; OAdv 0; ORet SBox]) /\
    match skip_current_frame (u_dec u) n with
    | Some d => let '(u2, os2) := user_run c (layout bs) (mkUser d (u_at u) (u_given u)) (repeat (UProcess 100 (repeat (AStep [] 0 EMore) 9)) 3) in
                u_at u2 + u_given u2 = zlen (layout bs) /\ os2 = [ORet SBox; ORet SNeedInput; ORet SNeedInput]
    | None => False
    end.
Proof.
  exists (mkConfig true true false), case_ordered, case_C, [UFeed 1000; UProcess 100 []; UProcess 100 []; UProcess 100 []; UProcess 100 [AStep [3] 0 ENext; AStep [] 0 EMore]], 2.
  split; [exact case_ordered_container|]. vm_compute. split; [|split; reflexivity]. exists [ORet SBox; ORet SBox; ORet SBox]. reflexivity.
Qed.
Print Assumptions C32_skip_at_box_refuted.

(** A box that extends to the end of the file is reported complete with every chunk of it. *)
Definition case_open_box : box := mkB [0; 0; 0; 0; 69; 120; 105; 102] [69; 120; 105; 102] [1; 2; 3; 4; 5] true.
Theorem C34_open_box_refuted :
  let bs := [case_sig; case_ftyp; case_part 0 128 [255; 10; 7]; case_open_box] in
  snd (run (mkConfig true true true) (layout bs)
        [UFeed 55; UProcess 100 []; UProcess 100 []; UProcess 100 []; UProcess 100 [ADone]; UFeed 3; UBuffer 9; UProcess 100 []; UFeed 3; UProcess 100 []])
  = [ORet SBox; ORet SBox; ORet SBox; ORet SBox; OBuf 9; OData [1; 2; 3]; ORet SBoxComplete; OData [4; 5]; ORet SBoxComplete].
Proof. vm_compute. reflexivity. Qed.
Print Assumptions C34_open_box_refuted.

(** After JXL_DEC_BOX_COMPLETE, JxlDecoderProcessInput reports it again and does nothing else,
    for as long as the buffer is not released. *)
Theorem C34_complete_again_refuted :
  exists c bs C ops, container 1 bs C /\
    let '(u, os) := run c (layout bs) ops in
    last os (ORet SCrash) = ORet SBoxComplete /\
    forall fuel acts, process_input c (S fuel) acts (u_dec u) = (SBoxComplete, u_dec u, [OData []]).
Proof.
  exists (mkConfig true true true), case_ordered, case_C, [UFeed 1000; UProcess 100 []; UBuffer 100; UProcess 100 []].
  split; [exact case_ordered_container|]. vm_compute. split; [reflexivity|]. intros fuel acts. reflexivity.
Qed.
Print Assumptions C34_complete_again_refuted.
