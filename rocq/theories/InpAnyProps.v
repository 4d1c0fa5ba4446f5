(* C53: files that are not what they should be.  No assumption on the bytes of the file, on how
   it is cut into chunks, on the buffers for the boxes, or on what the parser of the codestream
   does. *)
From Verif Require Import Base ContainerSpec InpModel InpSpec InpWin InpParse InpJxlp InpInv InpMore InpAny.
Ltac Zify.zify_post_hook ::= idtac.

Lemma any_start c file : Us c file (mkUser (init c) 0 0).
Proof.
  split; [|reflexivity]. pose proof (zlen_nonneg file). constructor.
  - split; [cbn; lia|]. split; [change (0 + 0 <= zlen file); lia|reflexivity].
  - split; [reflexivity|]. cbn. lia.
  - intros _. split; [reflexivity|left; reflexivity].
  - intros N. cbn in N. congruence.
  - intros [N|N]; discriminate.
  - right. left. reflexivity.
Qed.

(* a crash comes only after an error *)
Definition no_first_crash (os : list obs) : Prop :=
  forall os1 os2, os = os1 ++ ORet SCrash :: os2 -> exists e, In (ORet (SError e)) os1.

Lemma one_ret c file u op : forall os1 os2, snd (user_step c file u op) = os1 ++ ORet SCrash :: os2 -> os2 = [].
Proof.
  intros os1 os2. destruct op as [k|fuel acts| |size| |n]; cbn [user_step].
  - destruct (d_closed _); cbn [snd]; intros E; [destruct os1; discriminate|]. destruct (release_input _) as [n d]. destruct (set_input _ _); destruct os1; discriminate.
  - pose proof (quiet_boxes c fuel acts (u_dec u)) as Qu. unfold process_input. destruct (handle_boxes c fuel acts (u_dec u)) as [[s d1] os]. cbn [snd] in *.
    set (s' := match s with SSuccess => _ | _ => _ end). clearbody s'. intros E. destruct os2 as [|o os2] using rev_ind; [reflexivity|]. exfalso. clear IHos2.
    change (os1 ++ ORet SCrash :: os2 ++ [o]) with (os1 ++ (ORet SCrash :: os2) ++ [o]) in E. rewrite app_assoc in E. apply app_inj_tail in E as [E _]. subst os.
    rewrite Forall_forall in Qu. apply (Qu (ORet SCrash)). apply in_or_app. right. left. reflexivity.
  - cbn [snd]. intros E; destruct os1; discriminate.
  - destruct (set_box_buffer _ _) as [[]|]; cbn [snd]; intros E; destruct os1 as [|? [|? ?]]; discriminate.
  - destruct (release_box_buffer _) as [n d]; cbn [snd]; intros E; destruct os1 as [|? [|? ?]]; discriminate.
  - destruct (d_stage _); cbn [snd]; try (intros E; destruct os1; discriminate).
    destruct (can_skip _); cbn [snd]; [|intros E; destruct os1; discriminate]. destruct (skip_current_frame _ _) as [d|]; cbn [snd]; intros E; destruct os1 as [|? [|? ?]]; inversion E; reflexivity.
Qed.

Lemma run_any c file ops : bytes_ok file -> zlen file < 2 ^ 46 -> forall u, Us c file u ->
  let '(u', os) := user_run c file u ops in no_first_crash os /\ ((forall e, ~ In (ORet (SError e)) os) -> Us c file u').
Proof.
  intros Hf Hl. induction ops as [|op ops IH]; intros u HU; cbn [user_run].
  - split; [|intros _; exact HU]. intros os1 os2 E. destruct os1; discriminate.
  - pose proof (user_any c file Hf Hl u op HU) as S. pose proof (one_ret c file u op) as O. destruct (user_step c file u op) as [u1 o1]. cbn [snd] in O. pose proof (IH u1) as IH1. destruct (user_run c file u1 ops) as [u2 o2].
    destruct S as [[e He]|[Hn HU1]].
    + split; [|intros N; exfalso; apply (N e); apply in_or_app; left; exact He]. intros os1 os2 E. exists e.
      destruct (app_eq_app _ _ _ _ E) as (l & [[E1 E2]|[E1 E2]]).
      * destruct l as [|x l]; [rewrite app_nil_r in E1; subst os1; exact He|]. injection E2 as <- E2. specialize (O _ _ E1). subst l. subst o1. apply in_app_or in He as [He|[He|[]]]; [exact He|discriminate].
      * subst os1. apply in_or_app. left. exact He.
    + destruct (IH1 HU1) as [I1 I2]. split.
      * intros os1 os2 E. destruct (app_eq_app _ _ _ _ E) as (l & [[E1 E2]|[E1 E2]]).
        -- destruct l as [|x l]; [|exfalso; apply Hn; rewrite E1; injection E2 as <- _; apply in_or_app; right; left; reflexivity].
           destruct (I1 [] os2 (eq_sym E2)) as [e []].
        -- destruct (I1 l os2 E2) as [e He]. exists e. subst os1. apply in_or_app. right. exact He.
      * intros N. apply I2. intros e He. apply (N e). apply in_or_app. right. exact He.
Qed.

(** ** C53.  Whatever the bytes of the file, whichever chunks they come in, whatever boxes the
    decoder is asked for and whatever the parser of the codestream does: no call reaches an
    unsigned subtraction that wraps or a read outside of the input (SCrash), until an error was
    returned. *)
Theorem C53_no_crash : forall c file ops u os, bytes_ok file -> zlen file < 2 ^ 46 -> run c file ops = (u, os) ->
  forall os1 os2, os = os1 ++ ORet SCrash :: os2 -> exists e, In (ORet (SError e)) os1.
Proof.
  intros c file ops u os Hf Hl E. pose proof (run_any c file ops Hf Hl _ (any_start c file)) as H. unfold run in E. rewrite E in H. exact (proj1 H).
Qed.
Print Assumptions C53_no_crash.

(** JxlDecoderProcessInput returns, after any history without an error: the loop over the boxes
    needs a bounded number of rounds. *)
Theorem C53_returns : forall c file ops u os, bytes_ok file -> zlen file < 2 ^ 46 -> run c file ops = (u, os) ->
  (forall e, ~ In (ORet (SError e)) os) ->
  exists rounds, forall fuel acts, (rounds <= fuel)%nat -> fst (fst (process_input c fuel acts (u_dec u))) <> SFuel.
Proof.
  intros c file ops u os Hf Hl E N. pose proof (run_any c file ops Hf Hl _ (any_start c file)) as H. unfold run in E. rewrite E in H. destruct H as [_ H]. destruct (H N) as [[_ _ Hn _ _ _] _].
  exists (S (Z.to_nat (meas (have_container c) (u_dec u)))). intros fuel acts Hfu. unfold process_input.
  pose proof (boxes_return c fuel acts (u_dec u) Hn ltac:(pose proof (meas_nonneg (have_container c) (u_dec u)); lia)) as K.
  destruct (handle_boxes c fuel acts (u_dec u)) as [[s d] os']. cbn [fst] in *. destruct s; try congruence; [destruct (d_done d)|destruct (d_closed d)]; discriminate.
Qed.
Print Assumptions C53_returns.

(** JxlDecoderReleaseInput tells how many bytes at the end of the last chunk were not read: what
    the decoder still holds are these bytes of the file, so a caller who gives the file again from
    there on gives it all, without a gap. *)
Theorem C53_unread : forall c file ops u os, bytes_ok file -> zlen file < 2 ^ 46 -> run c file ops = (u, os) ->
  (forall e, ~ In (ORet (SError e)) os) ->
  let n := fst (release_input (u_dec u)) in
  0 <= n /\ 0 <= u_at u + u_given u - n /\ u_at u + u_given u <= zlen file /\
  i_in (d_in (u_dec u)) = firstn (Z.to_nat n) (skipn (Z.to_nat (u_at u + u_given u - n)) file).
Proof.
  intros c file ops u os Hf Hl E N. pose proof (run_any c file ops Hf Hl _ (any_start c file)) as H. unfold run in E. rewrite E in H. destruct H as [_ H]. destruct (H N) as [[(I0 & I1 & I2) _ _ _ _ _] Ue].
  cbn [release_input fst]. pose proof (avail_nonneg (u_dec u)). rewrite Ue. replace (file_pos (u_dec u) + avail_in (u_dec u) - avail_in (u_dec u)) with (file_pos (u_dec u)) by lia.
  split; [lia|]. split; [lia|]. split; [lia|]. exact I2.
Qed.
Print Assumptions C53_unread.

(* the signature, an ftyp box, then a jxlp box of 12 bytes that starts with part 5, which is of no
   use in a file of version 0, and four more bytes *)
Definition bad_file : list Z :=
  [0; 0; 0; 12; 74; 88; 76; 32; 13; 10; 135; 10] ++
  [0; 0; 0; 20; 102; 116; 121; 112; 106; 120; 108; 32; 0; 0; 0; 0; 106; 120; 108; 32] ++
  [0; 0; 0; 12; 106; 120; 108; 112; 0; 0; 0; 5; 0; 0; 0; 0].

(* the same, with part 0: a codestream of no bytes, then a header that asks for a box to the end of the file *)
Definition odd_file : list Z :=
  [0; 0; 0; 12; 74; 88; 76; 32; 13; 10; 135; 10] ++
  [0; 0; 0; 20; 102; 116; 121; 112; 106; 120; 108; 32; 0; 0; 0; 0; 106; 120; 108; 32] ++
  [0; 0; 0; 12; 106; 120; 108; 112; 0; 0; 0; 0; 0; 0; 0; 0; 1; 2; 3; 4; 9; 9].

Example C53_case :
  bytes_ok bad_file /\ bytes_ok odd_file /\ zlen bad_file < 2 ^ 46 /\ zlen odd_file < 2 ^ 46 /\
  snd (run (mkConfig true true false) bad_file [UFeed 30; UProcess 9 []; UProcess 9 []; UProcess 9 []; UFeed 30; UProcess 9 []; UProcess 9 []]) =
    [ORet SBox; ORet SBox; ORet SNeedInput; ORet SBox; ORet (SError EFormat)] /\
  snd (run (mkConfig true true false) odd_file
    [UFeed 60; UProcess 9 []; UProcess 9 []; UProcess 9 []; UProcess 9 [AStep [] 0 EMore]]) = [ORet SBox; ORet SBox; ORet SBox; ORet SBox].
Proof.
  split; [repeat constructor; cbn; lia|]. split; [repeat constructor; cbn; lia|]. vm_compute. repeat split.
Qed.

(** After an error the decoder must not be called again before JxlDecoderReset or
    JxlDecoderRewind: the four bytes of the number of a part are consumed before the error, so
    the next call takes the four bytes after the box for the number, and the position is then
    beyond the end of the box, where AvailableCodestream subtracts below zero.  (The check for an
    earlier error at decode.cc:2167-2171 never fires: no code assigns DecoderStage::kError.) *)
Theorem C53_after_error_refuted : exists c file ops, bytes_ok file /\ zlen file < 2 ^ 46 /\
  snd (run c file ops) = [ORet (SError EFormat); ORet SCrash].
Proof.
  exists (mkConfig true false false), bad_file, [UFeed 60; UProcess 9 []; UProcess 9 [AStep [] 0 EMore]].
  split; [repeat constructor; cbn; lia|]. split; [reflexivity|]. vm_compute. reflexivity.
Qed.
Print Assumptions C53_after_error_refuted.
