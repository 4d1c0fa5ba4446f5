(* C23: modular residual coding is lossless for every predictor and decision tree. *)
From Verif Require Import Base OMap MaModel MaSpec MaFlatProps ResModel ResSpec ResWp ResTop ResImage.
Ltac Zify.zify_post_hook ::= idtac.

(* Whatever the tree, the predictors, the sizes of the channels and their pixels of 32 bits: if the encoder makes
   tokens then the decoder, reading them with the contexts that the context map gives, makes the same channels
   and leaves what follows; the channels that are too large, and those after them, are left as they are.
   The condition on splits of property 15 (the error of the weighted predictor) at -8193 is needed, see below. *)
Theorem C23_image_back : forall t T cm h lut0 lut0' group_id nb_meta max_chan_size R cs blank ts,
  tree_ok t T cm -> zlen cm <= 65536 -> header_ok h -> honest R ->
  Forall channel_ok cs -> Forall channel_ok blank -> Forall2 same_shape cs blank ->
  (has_split T 15 (-8193) -> lz77 R = false /\ Forall (fun c => 8 < cw c) cs) ->
  enc_channels false h t lut0 group_id nb_meta max_chan_size [] cs 0 = Good ts ->
  (exists us, clustered cm ts us) /\
  forall us rest, clustered cm ts us ->
    dec_channels R cm h t lut0' group_id nb_meta max_chan_size [] blank 0 (us ++ rest) =
    let k := coded nb_meta max_chan_size 0 cs in Some (firstn k cs ++ skipn k blank, rest).
Proof.
  intros t T cm h lut0 lut0' gid nb mx R cs blank ts Ht H16 Hh Ho A B C D E.
  destruct (image_rt t T cm h lut0 lut0' gid nb mx false R Ht Hh H16 Ho cs blank [] 0 ts A B C (Forall_nil _) ltac:(intros X; split; [reflexivity|exact (D X)]) ltac:(discriminate) E) as (us & U & V).
  split; [exists us; exact U|]. intros us' rest U'. rewrite <- (clustered_fun _ _ _ _ U U'). apply V.
Qed.
Print Assumptions C23_image_back.

(* With the fast paths switched off in the encoder, but not in the decoder. *)
Theorem C23_image_back_slow : forall t T cm h lut0 lut0' group_id nb_meta max_chan_size R cs blank ts,
  tree_ok t T cm -> zlen cm <= 65536 -> header_ok h -> honest R ->
  Forall channel_ok cs -> Forall channel_ok blank -> Forall2 same_shape cs blank ->
  ~ has_split T 15 (-8193) -> ~ has_split T 9 (-8193) ->
  Forall (fun c => Forall (fun p => - 2 ^ 29 <= p <= 2 ^ 29) (cdata c)) cs ->
  enc_channels true h t lut0 group_id nb_meta max_chan_size [] cs 0 = Good ts ->
  (exists us, clustered cm ts us) /\
  forall us rest, clustered cm ts us ->
    dec_channels R cm h t lut0' group_id nb_meta max_chan_size [] blank 0 (us ++ rest) =
    let k := coded nb_meta max_chan_size 0 cs in Some (firstn k cs ++ skipn k blank, rest).
Proof.
  intros t T cm h lut0 lut0' gid nb mx R cs blank ts Ht H16 Hh Ho A B C D1 D2 D3 E.
  destruct (image_rt t T cm h lut0 lut0' gid nb mx true R Ht Hh H16 Ho cs blank [] 0 ts A B C (Forall_nil _) ltac:(intros X; destruct (D1 X)) ltac:(auto) E) as (us & U & V).
  split; [exists us; exact U|]. intros us' rest U'. rewrite <- (clustered_fun _ _ _ _ U U'). apply V.
Qed.
Print Assumptions C23_image_back_slow.

(* The encoder reads no pixel, property or table entry that is not there, and no signed number overflows; and a
   residual is divided with a remainder only if the tree has multipliers other than 1. *)
Theorem C23_encoder_total : forall t T cm h lut0 group_id nb_meta max_chan_size skip cs,
  tree_ok t T cm -> header_ok h -> Forall channel_ok cs ->
  let r := enc_channels skip h t lut0 group_id nb_meta max_chan_size [] cs 0 in
  r <> Undefined /\ (no_multipliers T -> r <> Inexact).
Proof. intros t T cm h lut0 gid nb mx skip cs Ht Hh Hc. exact (image_kind t T cm h lut0 gid nb mx skip Ht Hh cs [] 0 Hc (Forall_nil _)). Qed.
Print Assumptions C23_encoder_total.

(* ---- a case: a tree with a split on the channel, a leaf with a multiplier for channel 0 and a gradient table for
   the others; the third channel is too large ---- *)
Definition default_header : wp_header := WP 16 10 7 7 7 0 0 [13; 12; 12; 12].
Definition a_reader : reader := Reader false false (fun _ _ => None).
Definition a_case : list channel :=
  [Channel 3 2 0 0 [1; 500; -7; 3; 0; 0]; Channel 3 2 0 0 [5; 5; 200; 5; 90; -60]; Channel 20 1 0 0 (repeat 9 20%nat)].
Definition a_blank : list channel := [Channel 3 2 0 0 (repeat 0 6%nat); Channel 3 2 0 0 (repeat 0 6%nat); Channel 20 1 0 0 (repeat 0 20%nat)].
Definition a_map : list Z := [0; 4; 5; 4].
Example C23_case_hypotheses : tree_ok flat_case flat_case_tree a_map /\ zlen a_map <= 65536 /\ header_ok default_header /\ honest a_reader /\
  Forall channel_ok a_case /\ Forall channel_ok a_blank /\ Forall2 same_shape a_case a_blank /\ ~ has_split flat_case_tree 15 (-8193) /\ ~ has_split flat_case_tree 9 (-8193) /\
  Forall (fun c => Forall (fun p => - 2 ^ 29 <= p <= 2 ^ 29) (cdata c)) a_case.
Proof.
  destruct C24_case_hypotheses as (A & B & C & D).
  split; [|split; [|split; [|split; [|split; [|split; [|split; [|split; [|split]]]]]]]].
  - split; [exact A|]. split; [exact B|]. split; [exact C|]. split; [vm_compute; discriminate|]. split; [exact D|]. split; [reflexivity|]. repeat constructor; vm_compute; repeat split; congruence.
  - vm_compute. discriminate.
  - split; [|split; [reflexivity|repeat constructor; lia]]. intros p H. cbn in H. destruct H as [<-|[<-|[<-|[<-|[<-|[<-|[<-|[]]]]]]]]; cbn; lia.
  - intros toks c v E. discriminate E.
  - repeat constructor; unfold is_i32; cbn; lia.
  - repeat constructor; unfold is_i32; cbn; lia.
  - repeat constructor.
  - cbn. intuition discriminate.
  - cbn. intuition discriminate.
  - repeat constructor; cbn; lia.
Qed.
Example C23_case : match enc_channels false default_header flat_case (fun _ => 0) 0 0 10 [] a_case 0 with
  | Good ts => match omap (fun '(c, v) => match znth a_map c with Some d => Some (d, v) | None => None end) ts with
               | Some us => length us = 12%nat /\ map fst us = [0; 0; 0; 0; 0; 0; 4; 4; 4; 4; 4; 5] /\
                            dec_channels a_reader a_map default_header flat_case (fun _ => 0) 0 0 10 [] a_blank 0 (us ++ [(7, 7)]) = Some (firstn 2 a_case ++ skipn 2 a_blank, [(7, 7)])
               | None => False
               end
  | _ => False
  end.
Proof. vm_compute. repeat split. Qed.

(* Not so without the condition on splits at -8193: the encoder looks the context up in its table, which stops at
   -8192; the decoder has no table for channels of 8 columns or less and asks the tree. *)
Definition edge_case : list node := [Node 15 (-8193) 1 2 0 0 1; Node (-1) 0 0 0 6 0 1; Node (-1) 0 1 0 6 0 1].
Definition edge_case_tree : mtree := MSplit 15 (-8193) (MLeaf 0 6 0 1) (MLeaf 1 6 0 1).
Definition small_case : list node := [Node 9 0 1 2 0 0 1; Node (-1) 0 0 0 5 0 1; Node (-1) 0 1 0 5 0 1].
Definition small_case_tree : mtree := MSplit 9 0 (MLeaf 0 5 0 1) (MLeaf 1 5 0 1).
Lemma three_ok p v pr : p = 9 \/ p = 15 -> v = 0 \/ v = -8193 -> 0 <= pr < 14 -> tree_ok [Node p v 1 2 0 0 1; Node (-1) 0 0 0 pr 0 1; Node (-1) 0 1 0 pr 0 1] (MSplit p v (MLeaf 0 pr 0 1) (MLeaf 1 pr 0 1)) [0; 1].
Proof.
  intros Hp Hv Hr. set (t := [Node p v 1 2 0 0 1; Node (-1) 0 0 0 pr 0 1; Node (-1) 0 1 0 pr 0 1]).
  assert (Iv : is_i32 v) by (unfold is_i32; lia).
  assert (At : forall i n, znth t i = Some n -> (i = 0 /\ n = Node p v 1 2 0 0 1) \/ (i = 1 /\ n = Node (-1) 0 0 0 pr 0 1) \/ (i = 2 /\ n = Node (-1) 0 1 0 pr 0 1)).
  { intros i n E. assert (B : 0 <= i < 3) by (apply AliasProofs.znth_bound in E; change (zlen t) with 3 in E; lia). assert (i = 0 \/ i = 1 \/ i = 2) as [->|[->| ->]] by lia; injection E as <-; auto. }
  split; [split; [|split; [|split]]|split; [|split; [|split; [|split; [|split]]]]].
  - intros i n E L. destruct (At i n E) as [(-> & ->)|[(-> & ->)|(-> & ->)]]; try discriminate L. cbn [nprop splitval lchild rchild]. change (zlen t) with 3. split; [lia|]. split; [exact Iv|]. lia.
  - intros i n E L. destruct (At i n E) as [(-> & ->)|[(-> & ->)|(-> & ->)]]; [exfalso; destruct Hp as [->| ->]; discriminate L|..]; (split; [destruct Hp as [->| ->]; reflexivity|]); cbn [npred noffset nmul]; unfold is_i32; lia.
  - intros j Hj. change (zlen t) with 3 in Hj. exists 0. split; [exists (Node p v 1 2 0 0 1); split; [reflexivity|]; split; [destruct Hp as [->| ->]; reflexivity|]; cbn; lia|]. intros i (n & E & L & _). destruct (At i n E) as [(-> & ->)|[(-> & ->)|(-> & ->)]]; [reflexivity|discriminate L..].
  - destruct Hp as [->| ->]; reflexivity.
  - apply (stored_split t 0 (Node p v 1 2 0 0 1)); [reflexivity|cbn; lia|apply (stored_leaf t 1 (Node (-1) 0 0 0 pr 0 1)); reflexivity|apply (stored_leaf t 2 (Node (-1) 0 1 0 pr 0 1)); reflexivity].
  - reflexivity.
  - vm_compute. discriminate.
  - intros path L. cbn in L. destruct path as [|b [|]]; [contradiction| |destruct b; contradiction]. split; [reflexivity|]. exists (fun _ => if b then 1 else -9000). split; [intros _; destruct b; unfold is_i32; lia|]. cbn [route]. destruct b; destruct Hv as [->| ->]; reflexivity.
  - destruct Hp as [->| ->]; reflexivity.
  - repeat constructor; vm_compute; congruence.
Qed.
Theorem C23_edge_refuted : exists t T cm cs blank ts us,
  tree_ok t T cm /\ Forall channel_ok cs /\ Forall channel_ok blank /\ Forall2 same_shape cs blank /\
  enc_channels false default_header t (fun _ => 0) 0 0 1000 [] cs 0 = Good ts /\ clustered cm ts us /\
  dec_channels a_reader cm default_header t (fun _ => 0) 0 0 1000 [] blank 0 us = None.
Proof.
  exists edge_case, edge_case_tree, [0; 1], [Channel 2 1 0 0 [5000; 0]], [Channel 2 1 0 0 [0; 0]]. eexists. exists [(0, 10000); (0, 9999)].
  split; [apply three_ok; lia|]. split; [repeat constructor; unfold is_i32; cbn; lia|]. split; [repeat constructor; unfold is_i32; cbn; lia|]. split; [repeat constructor|].
  split; [vm_compute; reflexivity|]. split; [repeat constructor|]. vm_compute. reflexivity.
Qed.
Print Assumptions C23_edge_refuted.
(* The same with a table in the decoder but none in the encoder, where the gradient does not fit 32 bits: the tree
   sees it wrapped. *)
Theorem C23_slow_refuted : exists t T cm cs blank ts us,
  tree_ok t T cm /\ Forall channel_ok cs /\ Forall channel_ok blank /\ Forall2 same_shape cs blank /\ ~ has_split T 15 (-8193) /\ ~ has_split T 9 (-8193) /\
  enc_channels true default_header t (fun _ => 0) 0 0 1000 [] cs 0 = Good ts /\ clustered cm ts us /\
  dec_channels a_reader cm default_header t (fun _ => 0) 0 0 1000 [] blank 0 us = None.
Proof.
  exists small_case, small_case_tree, [0; 1], [Channel 2 2 0 0 [0; 2147483647; 2147483647; 0]], [Channel 2 2 0 0 [0; 0; 0; 0]]. eexists. exists [(1, 0); (1, 4294967294); (1, 4294967294); (1, 4294967293)].
  split; [apply three_ok; lia|]. split; [repeat constructor; unfold is_i32; cbn; lia|]. split; [repeat constructor; unfold is_i32; cbn; lia|]. split; [repeat constructor|].
  split; [cbn; intuition discriminate|]. split; [cbn; intuition discriminate|].
  split; [vm_compute; reflexivity|]. split; [repeat constructor|]. vm_compute. reflexivity.
Qed.
Print Assumptions C23_slow_refuted.
