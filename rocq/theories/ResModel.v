(* Coding of the pixels of modular channels: lib/jxl/modular/encoding/context_predict.h,
   DecodeModularChannelMAANS and the channel loop of ModularDecode of encoding.cc,
   EncodeModularChannelMAANS and the channel loop of ModularCompress of enc_encoding.cc.
   A channel's pixels are one list, row after row.  None is undefined behaviour: an access outside the
   channel, to a pixel not yet decoded, outside an array, or signed overflow in 64 bits. *)
From Verif Require Import Base FieldsModel RctModel MaModel.

(* the type pixel_type_w: the value of a signed 64-bit expression *)
Definition i64 (x : Z) : option Z := if (- 2 ^ 63 <=? x) && (x <? 2 ^ 63) then Some x else None.

(* pixel (x, y) of a channel of width w, if it is there *)
Definition pixel (w : Z) (data : list Z) (x y : Z) : option Z :=
  if (0 <=? x) && (x <? w) && (0 <=? y) then znth data (y * w + x) else None.

(* ---- the weighted predictor ---- *)

(* context_predict.h:33-66: p1C, p2C, p3Ca .. p3Ce and w *)
Record wp_header := WP { p1C : Z; p2C : Z; p3Ca : Z; p3Cb : Z; p3Cc : Z; p3Cd : Z; p3Ce : Z; hw : list Z }.
(* context_predict.h:68-74 State; the vectors have 2 * (xsize + 2) elements *)
Record wp_state := WPState { prediction : list Z; wpred : Z; pred_errors : list (Z -> Z); werror : Z -> Z }.

(* context_predict.h:78-86 *)
Definition divlookup : list Z :=
  [16777216; 8388608; 5592405; 4194304; 3355443; 2796202; 2396745; 2097152;
   1864135;  1677721; 1525201; 1398101; 1290555; 1198372; 1118481; 1048576;
   986895;   932067;  883011;  838860;  798915;  762600;  729444;  699050;
   671088;   645277;  621378;  599186;  578524;  559240;  541200;  524288;
   508400;   493447;  479349;  466033;  453438;  441505;  430185;  419430;
   409200;   399457;  390167;  381300;  372827;  364722;  356962;  349525;
   342392;   335544;  328965;  322638;  316551;  310689;  305040;  299593;
   294337;   289262;  284359;  279620;  275036;  270600;  266305;  262144].

(* context_predict.h:26-31 *)
Definition kPredExtraBits := 3.
Definition kPredictionRound := Z.shiftr (Z.shiftl 1 kPredExtraBits) 1 - 1.
(* context_predict.h:88-90 AddBits *)
Definition add_bits (x : Z) : option Z := i64 (Z.shiftl x kPredExtraBits).

(* context_predict.h:92-99 State::State *)
Definition wp_init : wp_state := WPState [0; 0; 0; 0] 0 [fun _ => 0; fun _ => 0; fun _ => 0; fun _ => 0] (fun _ => 0).

(* context_predict.h:102-106 ErrorWeight *)
Definition error_weight (x maxweight : Z) : option Z :=
  let shift := Z.max 0 (Z.log2 (x + 1) - 5) in
  do d <- znth divlookup (Z.shiftr x shift);
  Some (w32 (4 + Z.shiftr (w32 (maxweight * d)) shift)).

Fixpoint sum_u32 (l : list Z) : Z := match l with [] => 0 | a :: l => w32 (a + sum_u32 l) end.
(* context_predict.h:126-129: sum += p[i] * w[i] *)
Fixpoint dot (sum : Z) (p w : list Z) : option Z :=
  match p, w with
  | a :: p, b :: w => do m <- i64 (a * b); do s <- i64 (sum + m); dot s p w
  | [], [] => Some sum
  | _, _ => None
  end.
(* context_predict.h:110-131 WeightedAverage *)
Definition weighted_average (p w : list Z) : option Z :=
  let weight_sum := sum_u32 w in
  if weight_sum <=? 15 then None
  else
    let w := map (fun v => Z.shiftr v (Z.log2 weight_sum - 4)) w in
    let weight_sum := sum_u32 w in
    do sum <- dot (w32 (Z.shiftr weight_sum 1 - 1)) p w;
    do d <- znth divlookup (weight_sum - 1);
    do r <- i64 (sum * d);
    Some (Z.shiftr r 24).

(* context_predict.h:148-154: the weights of the four predictors *)
Fixpoint wp_weights (size pos_N pos_NE pos_NW : Z) (pe : list (Z -> Z)) (w : list Z) : option (list Z) :=
  match pe, w with
  | e :: pe, m :: w =>
      do a <- get size e pos_N; do b <- get size e pos_NE; do c <- get size e pos_NW;
      do x <- error_weight (w32 (w32 (a + b) + c)) m;
      do r <- wp_weights size pos_N pos_NE pos_NW pe w;
      Some (x :: r)
  | [], [] => Some []
  | _, _ => None
  end.

(* context_predict.h:133-199 State::Predict: the prediction, the property and the state *)
Definition wp_predict (h : wp_header) (x y xsize N W NE NW NN : Z) (s : wp_state) : option (Z * Z * wp_state) :=
  let size := (xsize + 2) * 2 in
  let cur_row := if Z.odd y then 0 else xsize + 2 in
  let prev_row := if Z.odd y then xsize + 2 else 0 in
  let pos_N := prev_row + x in
  let pos_NE := if x <? xsize - 1 then pos_N + 1 else pos_N in
  let pos_NW := if 0 <? x then pos_N - 1 else pos_N in
  do weights <- wp_weights size pos_N pos_NE pos_NW (pred_errors s) (hw h);
  do N <- add_bits N; do W <- add_bits W; do NE <- add_bits NE; do NW <- add_bits NW; do NN <- add_bits NN;
  do teW <- (if x =? 0 then Some 0 else get size (werror s) (cur_row + x - 1));
  do teN <- get size (werror s) pos_N;
  do teNW <- get size (werror s) pos_NW;
  let sumWN := teN + teW in
  do teNE <- get size (werror s) pos_NE;
  let p := teW in
  let p := if Z.abs p <? Z.abs teN then teN else p in
  let p := if Z.abs p <? Z.abs teNW then teNW else p in
  let p := if Z.abs p <? Z.abs teNE then teNE else p in
  do pr0 <- i64 (W + NE - N);
  do pr1 <- i64 (N - Z.shiftr ((sumWN + teNE) * p1C h) 5);
  do pr2 <- i64 (W - Z.shiftr ((sumWN + teNW) * p2C h) 5);
  do t3 <- i64 (teNW * p3Ca h + teN * p3Cb h + teNE * p3Cc h + (NN - N) * p3Cd h + (NW - W) * p3Ce h);
  do pr3 <- i64 (N - Z.shiftr t3 5);
  let predictions := [pr0; pr1; pr2; pr3] in
  do pred <- weighted_average predictions weights;
  let pred := if 0 <? Z.lor (Z.lxor teN teW) (Z.lxor teN teNW) then pred
              else Z.max (Z.min W (Z.min NE N)) (Z.min (Z.max W (Z.max NE N)) pred) in
  do r <- i64 (pred + kPredictionRound);
  Some (Z.shiftr r kPredExtraBits, s32 p, WPState predictions pred (pred_errors s) (werror s)).

(* context_predict.h:207-216: the errors of the four predictors *)
Fixpoint update_preds (size val cur prev : Z) (p : list Z) (pe : list (Z -> Z)) : option (list (Z -> Z)) :=
  match p, pe with
  | a :: p, e :: pe =>
      do d <- i64 (a - val);
      let err := Z.shiftr (Z.abs d + kPredictionRound) kPredExtraBits in
      do e <- set size e cur (w32 err);
      do o <- get size e prev;
      do e <- set size e prev (w32 (o + err));
      do r <- update_preds size val cur prev p pe;
      Some (e :: r)
  | [], [] => Some []
  | _, _ => None
  end.
(* context_predict.h:201-218 UpdateErrors *)
Definition update_errors (val x y xsize : Z) (s : wp_state) : option wp_state :=
  let size := (xsize + 2) * 2 in
  let cur_row := if Z.odd y then 0 else xsize + 2 in
  let prev_row := if Z.odd y then xsize + 2 else 0 in
  do val <- add_bits val;
  do d <- i64 (wpred s - val);
  do er <- set size (werror s) (cur_row + x) (s32 d);
  do pe <- update_preds size val (cur_row + x) (prev_row + x + 1) (prediction s) (pred_errors s);
  Some (WPState (prediction s) (wpred s) pe er).

(* ---- prediction ---- *)

(* context_predict.h:393-398 Select *)
Definition select (a b c : Z) : Z :=
  let p := a + b - c in if Z.abs (p - a) <? Z.abs (p - b) then a else b.

(* the neighbours of a pixel *)
Record nb := NB { left : Z; top : Z; topleft : Z; topright : Z; leftleft : Z; toptop : Z; toprightright : Z }.
(* context_predict.h:514-524; nec: no edge cases *)
Definition neighbours (nec : bool) (px : Z -> Z -> option Z) (w x y : Z) : option nb :=
  do left <- (if nec || (0 <? x) then px (x - 1) y else if 0 <? y then px x (y - 1) else Some 0);
  do top <- (if nec || (0 <? y) then px x (y - 1) else Some left);
  do topleft <- (if nec || ((0 <? x) && (0 <? y)) then px (x - 1) (y - 1) else Some left);
  do topright <- (if nec || ((x + 1 <? w) && (0 <? y)) then px (x + 1) (y - 1) else Some top);
  do leftleft <- (if nec || (1 <? x) then px (x - 2) y else Some left);
  do toptop <- (if nec || (1 <? y) then px x (y - 2) else Some top);
  do toprightright <- (if nec || ((x + 2 <? w) && (0 <? y)) then px (x + 2) (y - 1) else Some topright);
  Some (NB left top topleft topright leftleft toptop toprightright).

(* context_predict.h:463-499 PredictOne; the numbers of the predictors are in modular/options.h:21-40.
   Sums of a few pixels are far from the bounds of 64 bits *)
Definition predict_one (predictor : Z) (n : nb) (wp_pred : Z) : Z :=
  match predictor with
  | 0 => 0
  | 1 => left n
  | 2 => top n
  | 3 => Z.quot (left n + top n) 2
  | 4 => select (left n) (top n) (topleft n)
  | 5 => clamped_gradient (left n) (top n) (topleft n)
  | 6 => wp_pred
  | 7 => topright n
  | 8 => topleft n
  | 9 => leftleft n
  | 10 => Z.quot (left n + topleft n) 2
  | 11 => Z.quot (topleft n + top n) 2
  | 12 => Z.quot (top n + topright n) 2
  | 13 => Z.quot (6 * top n - 2 * toptop n + 7 * left n + 1 * leftleft n + 1 * toprightright n + 3 * topright n + 8) 16
  | _ => 0
  end.

(* what a coding path keeps from pixel to pixel: the weighted predictor's state and property 9 *)
Record st := St { wp : wp_state; grad9 : Z }.

(* context_predict.h:526-548: the properties 0 to 14 *)
Definition local_properties (sp : Z -> Z) (x y : Z) (n : nb) (grad9 : Z) : list Z :=
  [sp 0; sp 1; y; x;
   s32 (if 0 <? top n then top n else - top n); s32 (if 0 <? left n then left n else - left n); s32 (top n); s32 (left n);
   s32 (left n - grad9); s32 (left n + top n - topleft n);
   s32 (left n - topleft n); s32 (topleft n - top n); s32 (top n - topright n); s32 (top n - toptop n); s32 (left n - leftleft n)].

(* modular_image.h:32-40 Channel *)
Record channel := Channel { cw : Z; ch : Z; hshift : Z; vshift : Z; cdata : list Z }.

(* context_predict.h:420-433: the four properties from a channel before *)
Definition reference (c : channel) (x y : Z) : option (list Z) :=
  do v <- pixel (cw c) (cdata c) x y;
  do vleft <- (if 0 <? x then pixel (cw c) (cdata c) (x - 1) y else Some 0);
  do vtop <- (if 0 <? y then pixel (cw c) (cdata c) x (y - 1) else Some vleft);
  do vtopleft <- (if (0 <? x) && (0 <? y) then pixel (cw c) (cdata c) (x - 1) (y - 1) else Some vleft);
  let vpredicted := clamped_gradient vleft vtop vtopleft in
  Some [s32 (Z.abs v); s32 v; s32 (Z.abs (v - vpredicted)); s32 (v - vpredicted)].
(* context_predict.h:400-437 PrecomputeReferences: row x of the references, for pixel (x, y), when
   n properties are wanted; [before] holds the channels before this one, the nearest first.  The code
   does this for a row of pixels at a time *)
Fixpoint references (n : nat) (before : list channel) (c : channel) (x y : Z) : option (list Z) :=
  match before with
  | [] => Some (repeat 0 n)
  | b :: before =>
      match n with
      | S (S (S (S n'))) =>
          if negb ((cw b =? cw c) && (ch b =? ch c)) then references n before c x y
          else if negb (hshift b =? hshift c) then references n before c x y
          else if negb (vshift b =? vshift c) then references n before c x y
          else do r <- reference b x y; do rs <- references n' before c x y; Some (r ++ rs)
      | _ => Some (repeat 0 n)
      end
  end.

(* a vector of n properties *)
Definition vector (n : Z) (l : list Z) : option (Z -> Z) :=
  if zlen l =? n then Some (fun i => nth (Z.to_nat i) l 0) else None.

(* context, guess, multiplier *)
Definition guessed : Type := Z * Z * Z.
(* a coding path: what is done at the start of a row; the prediction of pixel (x, y); what is done with
   the pixel's value.  The loops over rows and columns are the same for all paths and written once, below *)
Record path := Path {
  p_row : st -> st;
  p_predict : (Z -> Z -> option Z) -> Z -> Z -> st -> option (guessed * st);
  p_update : Z -> Z -> Z -> st -> option st }.
Definition keep (p x y : Z) (s : st) : option st := Some s.
Definition update_wp (w p x y : Z) (s : st) : option st := do q <- update_errors p x y w (wp s); Some (St q (grad9 s)).

(* context_predict.h:440-449 InitPropsRow *)
Definition init_row (s : st) : st := St (wp s) 0.
(* context_predict.h:501-580 Predict<kUseTree [| kUseWP] [| kNoEdgeCases]> *)
Definition predict_tree (nec use_wp : bool) (h : wp_header) (sp : Z -> Z) (refs : Z -> Z -> option (list Z))
    (tree : list fnode) (np w : Z) (px : Z -> Z -> option Z) (x y : Z) (s : st) : option (guessed * st) :=
  do n <- neighbours nec px w x y;
  let l := local_properties sp x y n (grad9 s) in
  do (wp_pred, p15, q) <- (if use_wp then wp_predict h x y w (top n) (left n) (topright n) (topleft n) (toptop n) (wp s) else Some (0, 0, wp s));
  do r <- (if nec then Some [] else refs x y);
  do pv <- vector np (l ++ [p15] ++ r);
  do (ctx, predictor, offset, multiplier) <- lookup (length tree) tree np pv 0;
  Some (ctx, offset + predict_one predictor n wp_pred, multiplier, St q (pv 9)).
(* context_predict.h:583-590 PredictNoTreeNoWP *)
Definition predict_no_tree (predictor w : Z) (px : Z -> Z -> option Z) (x y : Z) : option Z :=
  do n <- neighbours false px w x y; Some (predict_one predictor n 0).

(* encoding.cc:297-299, 323-325; enc_encoding.cc:329-331, 351-353: left, top and topleft *)
Definition grad_neighbours (px : Z -> Z -> option Z) (x y : Z) : option (Z * Z * Z) :=
  do left <- (if 0 <? x then px (x - 1) y else if 0 <? y then px x (y - 1) else Some 0);
  do top <- (if 0 <? y then px x (y - 1) else Some left);
  do topleft <- (if (0 <? x) && (0 <? y) then px (x - 1) (y - 1) else Some left);
  Some (left, top, topleft).
(* encoding.cc:297-304, enc_encoding.cc:329-335 *)
Definition gradient_path (ctx : Z) : path :=
  Path (fun s => s) (fun px x y s =>
    do (left, top, topleft) <- grad_neighbours px x y;
    Some (ctx, clamped_gradient top left topleft, 1, s)) keep.
(* encoding.cc:323-337, enc_encoding.cc:351-363 *)
Definition gradient_lut_path (lut : Z -> Z) : path :=
  Path (fun s => s) (fun px x y s =>
    do (left, top, topleft) <- grad_neighbours px x y;
    do ctx <- lut_at lut (top + left - topleft);
    Some (ctx, clamped_gradient top left topleft, 1, s)) keep.
(* one context, no prediction *)
Definition zero_path (ctx offset multiplier : Z) : path :=
  Path (fun s => s) (fun px x y s => Some (ctx, offset, multiplier, s)) keep.

(* ---- the encoder ---- *)

Inductive res (A : Type) :=
| Good (a : A)
| Refused         (* "Residual overflow" *)
| Inexact         (* JXL_DASSERT(residual % multiplier == 0) does not hold *)
| Undefined.
Arguments Good {A} a.
Arguments Refused {A}.
Arguments Inexact {A}.
Arguments Undefined {A}.
Definition bind {A B} (p : res A) (f : A -> res B) : res B :=
  match p with Good a => f a | Refused => Refused | Inexact => Inexact | Undefined => Undefined end.
Definition opt {A} (p : option A) : res A := match p with Some a => Good a | None => Undefined end.

(* enc_encoding.cc:314-324: the prediction of the WP fast path *)
Definition wp_lut_enc_path (h : wp_header) (lut : Z -> Z) (w : Z) : path :=
  Path (fun s => s) (fun px x y s =>
    do left <- (if 0 <? x then px (x - 1) y else if 0 <? y then px x (y - 1) else Some 0);
    do top <- (if 0 <? y then px x (y - 1) else Some left);
    do topleft <- (if (0 <? x) && (0 <? y) then px (x - 1) (y - 1) else Some left);
    do topright <- (if (x + 1 <? w) && (0 <? y) then px (x + 1) (y - 1) else Some top);
    do toptop <- (if 1 <? y then px x (y - 2) else Some top);
    do (g, p, q) <- wp_predict h x y w top left topright topleft toptop (wp s);
    do ctx <- lut_at lut p;
    Some (ctx, s32 g, 1, St q (grad9 s))) (update_wp w).
(* enc_encoding.cc:393-397 *)
Definition single_path (ctx predictor multiplier w : Z) : path :=
  Path (fun s => s) (fun px x y s => do g <- predict_no_tree predictor w px x y; Some (ctx, g, multiplier, s)) keep.
(* enc_encoding.cc:420-424 *)
Definition tree_path (h : wp_header) (sp : Z -> Z) (refs : Z -> Z -> option (list Z)) (tree : list fnode) (np w : Z) : path :=
  Path init_row (predict_tree false false h sp refs tree np w) keep.
(* enc_encoding.cc:455-466 *)
Definition tree_wp_path (h : wp_header) (sp : Z -> Z) (refs : Z -> Z -> option (list Z)) (tree : list fnode) (np w : Z) : path :=
  Path init_row (predict_tree false true h sp refs tree np w) (update_wp w).

(* what becomes of the pixel and the guess *)
Inductive how := Checked | Raw | Shifted (mul_shift : Z) | Divided.
(* Checked: enc_encoding.cc:327-329 etc.; the failure is reported after the whole channel.  Raw: 378.
   Shifted: 396-398.  Divided: 432-434, 464-466 *)
Definition residual (k : how) (p guess multiplier : Z) : res Z :=
  match k with
  | Checked => let r := p - s32 guess in if r =? s32 r then Good (pack_signed r) else Refused
  | Raw => Good (pack_signed p)
  | Shifted mul_shift =>
      let r := p - guess in
      if Z.shiftr r mul_shift * multiplier =? r then Good (pack_signed (s32 (Z.shiftr r mul_shift))) else Inexact
  | Divided =>
      let r := p - guess in
      if multiplier =? 0 then Undefined
      else if Z.rem r multiplier =? 0 then Good (pack_signed (s32 (Z.quot r multiplier))) else Inexact
  end.

(* a token: context and value *)
Definition rtoken : Type := Z * Z.

(* one row from column x on, n pixels *)
Fixpoint enc_row (P : path) (k : how) (px : Z -> Z -> option Z) (n : nat) (x y : Z) (s : st) : res (list rtoken * st) :=
  match n with
  | O => Good ([], s)
  | S n =>
      bind (opt (p_predict P px x y s)) (fun '(ctx, guess, multiplier, s) =>
      bind (opt (px x y)) (fun p =>
      bind (residual k p guess multiplier) (fun v =>
      bind (opt (p_update P p x y s)) (fun s =>
      bind (enc_row P k px n (x + 1) y s) (fun '(ts, s) => Good ((ctx, v) :: ts, s))))))
  end.
(* n rows from row y on *)
Fixpoint enc_rows (P : path) (k : how) (px : Z -> Z -> option Z) (w : Z) (n : nat) (y : Z) (s : st) : res (list rtoken) :=
  match n with
  | O => Good []
  | S n =>
      bind (enc_row P k px (Z.to_nat w) 0 y (p_row P s)) (fun '(ts, s) =>
      bind (enc_rows P k px w n (y + 1) s) (fun us => Good (ts ++ us)))
  end.

(* enc_encoding.cc:257-258, encoding.cc:160-161 static_props *)
Definition static_props (chan group_id : Z) (i : Z) : Z := if i =? 0 then chan else s32 group_id.

(* enc_encoding.cc:276-281, encoding.cc:312-317: TreeToLookupTable, if asked for *)
Definition maybe_lut (wrap : Z -> Z) (wanted : bool) (tree : list fnode) (lut : Z -> Z) : option (option (Z -> Z)) :=
  if wanted then tree_to_lut wrap tree lut else Some None.

(* enc_encoding.cc:283-476: the path that is taken *)
Definition enc_path (skip : bool) (h : wp_header) (sp : Z -> Z) (refs : Z -> Z -> option (list Z)) (w : Z)
    (tree : list fnode) (np : Z) (use_wp : bool) (wp_lut grad_lut : option (Z -> Z)) : path * how :=
  let slow := (tree_wp_path h sp refs tree np w, Divided) in
  let general := if negb use_wp && negb skip then (tree_path h sp refs tree np w, Divided) else slow in
  if skip then slow
  else match wp_lut with
  | Some lut => (wp_lut_enc_path h lut w, Checked)
  | None =>
      match tree with
      | [FLeaf ctx predictor offset multiplier] =>
          if (predictor =? pGradient) && (multiplier =? 1) && (offset =? 0) then (gradient_path ctx, Checked)
          else match grad_lut with
          | Some lut => (gradient_lut_path lut, Checked)
          | None =>
              if (predictor =? pZero) && (multiplier =? 1) && (offset =? 0) then (zero_path ctx 0 1, Raw)
              else if negb (predictor =? pWeighted) && (Z.land multiplier (multiplier - 1) =? 0) && (offset =? 0)
              then (single_path ctx predictor multiplier w, Shifted (Z.log2 (w32 multiplier)))
              else general
          end
      | _ =>
          match grad_lut with
          | Some lut => (gradient_lut_path lut, Checked)
          | None => general
          end
      end
  end.

Definition start : st := St wp_init 0.
(* enc_encoding.cc:238-476 EncodeModularChannelMAANS: the tokens of channel c with number chan; [before]
   are the channels before it, the nearest first.  The table starts with whatever the memory holds *)
Definition enc_channel (skip : bool) (h : wp_header) (global_tree : list node) (lut0 : Z -> Z) (group_id : Z)
    (before : list channel) (c : channel) (chan : Z) : res (list rtoken) :=
  let sp := static_props chan group_id in
  bind (opt (filter_tree global_tree sp)) (fun '(tree, np, use_wp, wp_only, gradient_only) =>
  bind (opt (maybe_lut w16 wp_only tree lut0)) (fun wp_lut =>
  bind (opt (maybe_lut w16 gradient_only tree lut0)) (fun grad_lut =>
  let refs := references (Z.to_nat (np - kNumNonrefProperties)) before c in
  let '(P, k) := enc_path skip h sp refs (cw c) tree np use_wp wp_lut grad_lut in
  enc_rows P k (pixel (cw c) (cdata c)) (cw c) (Z.to_nat (ch c)) 0 start))).

(* enc_encoding.cc:672-677, 690-694; encoding.cc:590-594, 650-655: a channel that is too large, like those after
   it, is left to be coded elsewhere *)
Definition too_large (nb_meta max_chan_size i : Z) (c : channel) : bool :=
  (nb_meta <=? i) && ((max_chan_size <? cw c) || (max_chan_size <? ch c)).
(* enc_encoding.cc:690-704: the channels of an image *)
Fixpoint enc_channels (skip : bool) (h : wp_header) (global_tree : list node) (lut0 : Z -> Z) (group_id nb_meta max_chan_size : Z)
    (before cs : list channel) (i : Z) : res (list rtoken) :=
  match cs with
  | [] => Good []
  | c :: cs =>
      if too_large nb_meta max_chan_size i c then Good []
      else if (cw c =? 0) || (ch c =? 0) then enc_channels skip h global_tree lut0 group_id nb_meta max_chan_size (c :: before) cs (i + 1)
      else
        bind (enc_channel skip h global_tree lut0 group_id before c i) (fun ts =>
        bind (enc_channels skip h global_tree lut0 group_id nb_meta max_chan_size (c :: before) cs (i + 1)) (fun us => Good (ts ++ us)))
  end.

(* ---- the decoder ---- *)

(* the decoder's symbol reader: what is still to be read, with the clustered contexts; a symbol can
   only be read with the context it was written with (C12 to C16: the entropy coder) *)
Definition read_symbol (ctx : Z) (toks : list rtoken) : option (Z * list rtoken) :=
  match toks with (c, v) :: toks => if c =? ctx then Some (v, toks) else None | [] => None end.

(* encoding.cc:183-189 make_pixel *)
Definition make_pixel (v multiplier offset : Z) : Z := s32 (unpack_signed v * multiplier + offset).

(* one row from column x on, n pixels; [done] are the pixels decoded so far.
   plain: encoding.cc:239-240, no multiplication *)
Fixpoint dec_row (plain : bool) (P : path) (w : Z) (n : nat) (x y : Z) (done : list Z) (s : st) (toks : list rtoken) : option (list Z * st * list rtoken) :=
  match n with
  | O => Some (done, s, toks)
  | S n =>
      do ((ctx, guess, multiplier), s) <- p_predict P (pixel w done) x y s;
      do (v, toks) <- read_symbol ctx toks;
      let p := if plain then unpack_signed v else make_pixel v multiplier guess in
      do s <- p_update P p x y s;
      dec_row plain P w n (x + 1) y (done ++ [p]) s toks
  end.
Fixpoint dec_rows (plain : bool) (P : path) (w : Z) (n : nat) (y : Z) (done : list Z) (s : st) (toks : list rtoken) : option (list Z * list rtoken) :=
  match n with
  | O => Some (done, toks)
  | S n =>
      do (done, s, toks) <- dec_row plain P w (Z.to_nat w) 0 y done (p_row P s) toks;
      dec_rows plain P w n (y + 1) done s toks
  end.

(* encoding.cc:258-290: the gradient with runs.  A row pointer is a row and an offset: [ptr r o i].
   ReadHybridUintClusteredHuffRleOnly reads a value and how often it is repeated; here each repetition
   is a symbol *)
Definition ptr (px : Z -> Z -> option Z) (row offset i : Z) : option Z := px (offset + i) row.
Definition rle_path (ctx : Z) : path :=
  Path (fun s => s) (fun px x y s =>
    let r := ptr px y 0 in
    let rtop := if 0 <? y then ptr px (y - 1) 0 else ptr px y (-1) in
    let rtopleft := if 0 <? y then ptr px (y - 1) (-1) else ptr px y (-1) in
    if x =? 0 then
      do guess_0 <- (if 0 <? y then rtop 0 else Some 0); Some (ctx, guess_0, 1, s)
    else
      do left <- r (x - 1); do top <- rtop x; do topleft <- rtopleft x;
      Some (ctx, clamped_gradient top left topleft, 1, s)) keep.

(* encoding.cc:341-408: the WP fast track *)
Definition wp_lut_dec_path (h : wp_header) (lut : Z -> Z) (w : Z) : path :=
  Path (fun s => s) (fun px x y s =>
    let r := ptr px y 0 in
    let rtop := if 0 <? y then ptr px (y - 1) 0 else ptr px y (-1) in
    let rtoptop := if 1 <? y then ptr px (y - 2) 0 else rtop in
    let rtopleft := if 0 <? y then ptr px (y - 1) (-1) else ptr px y (-1) in
    let rtopright := if 0 <? y then ptr px (y - 1) 1 else ptr px y (-1) in
    do (g, p, q) <-
      (if x =? 0 then
         do left <- (if 0 <? y then rtop x else Some 0);
         do toptop <- (if 0 <? y then rtoptop x else Some 0);
         do topright <- (if (x + 1 <? w) && (0 <? y) then rtop (x + 1) else Some left);
         wp_predict h x y w left left topright left toptop (wp s)
       else if x + 1 <? w then
         do a <- rtop x; do b <- r (x - 1); do c <- rtopright x; do d <- rtopleft x; do e <- rtoptop x;
         wp_predict h x y w a b c d e (wp s)
       else
         do a <- rtop x; do b <- r (x - 1); do c <- rtop x; do d <- rtopleft x; do e <- rtoptop x;
         wp_predict h x y w a b c d e (wp s));
    do ctx <- lut_at lut p;
    Some (ctx, s32 g, 1, St q (grad9 s))) (update_wp w).

(* encoding.cc:410-455 and 456-505: the slow and the slowest track; nec_rows: the first condition on rows
   without edge cases *)
Definition tree_dec_path (nec_rows use_wp : bool) (h : wp_header) (sp : Z -> Z) (refs : Z -> Z -> option (list Z)) (tree : list fnode) (np w : Z) : path :=
  Path init_row (fun px x y s =>
    let nec := nec_rows && (1 <? y) && (8 <? w) && (np - kNumNonrefProperties =? 0) && (2 <=? x) && (x <? w - 2) in
    predict_tree nec use_wp h sp refs tree np w px x y s) (if use_wp then update_wp w else keep).

(* encoding.cc:196-209 *)
Definition all_gradient_noop (global_tree : list node) : bool :=
  forallb (fun n => if nprop n =? -1 then (npred n =? pGradient) && (noffset n =? 0) && (nmul n =? 1) else negb (kNumStaticProperties <=? nprop n)) global_tree.

(* what the reader is like: LZ77 is used, IsHuffRleOnly, and what IsSingleValueAndAdvance says *)
Record reader := Reader { lz77 : bool; huff_rle : bool; single : list rtoken -> Z -> option Z }.

(* encoding.cc:147-507 DecodeModularChannelMAANS: the pixels of channel c (whose own pixels are not used) *)
Definition dec_channel (R : reader) (cm : list Z) (h : wp_header) (global_tree : list node) (lut0 : Z -> Z) (group_id : Z)
    (before : list channel) (c : channel) (chan : Z) (toks : list rtoken) : option (list Z * list rtoken) :=
  let sp := static_props chan group_id in
  let w := cw c in
  let rows (plain : bool) (P : path) := dec_rows plain P w (Z.to_nat (ch c)) 0 [] start toks in
  if (w =? 0) || (ch c =? 0) then Some ([], toks)
  else
    do (tree, np, has_wp, wp_only, gradient_only) <- filter_tree global_tree sp;
    do tree <- cluster_leaves cm tree;
    let others :=
      do wp_lut <- maybe_lut w8 wp_only tree lut0;
      do grad_lut <- maybe_lut w8 gradient_only tree lut0;
      let refs := references (Z.to_nat (np - kNumNonrefProperties)) before c in
      match grad_lut, wp_lut with
      | Some lut, _ => rows false (gradient_lut_path lut)
      | None, Some lut =>
          if negb (lz77 R) && (8 <? w) then rows false (wp_lut_dec_path h lut w)
          else if negb has_wp then rows false (tree_dec_path true false h sp refs tree np w)
          else rows false (tree_dec_path (negb (lz77 R)) true h sp refs tree np w)
      | None, None =>
          if negb has_wp then rows false (tree_dec_path true false h sp refs tree np w)
          else rows false (tree_dec_path (negb (lz77 R)) true h sp refs tree np w)
      end in
    match tree with
    | [FLeaf ctx predictor offset multiplier] =>
        if predictor =? pZero then
          match single R toks ctx with
          | Some value =>
              let count := Z.to_nat (w * ch c) in
              if (length toks <? count)%nat then None
              else Some (repeat (make_pixel value multiplier offset) count, skipn count toks)
          | None => rows ((multiplier =? 1) && (offset =? 0)) (zero_path ctx offset multiplier)
          end
        else if lz77 R && huff_rle R && all_gradient_noop global_tree then rows false (rle_path ctx)
        else if (predictor =? pGradient) && (offset =? 0) && (multiplier =? 1) then rows false (gradient_path ctx)
        else others
    | _ => others
    end.

(* encoding.cc:648-672: the channels of an image *)
Fixpoint dec_channels (R : reader) (cm : list Z) (h : wp_header) (global_tree : list node) (lut0 : Z -> Z) (group_id nb_meta max_chan_size : Z)
    (before cs : list channel) (i : Z) (toks : list rtoken) : option (list channel * list rtoken) :=
  match cs with
  | [] => Some ([], toks)
  | c :: cs =>
      if too_large nb_meta max_chan_size i c then Some (c :: cs, toks)
      else
        do (d, toks) <- (if (cw c =? 0) || (ch c =? 0) then Some (c, toks)
                         else do (data, toks) <- dec_channel R cm h global_tree lut0 group_id before c i toks;
                              Some (Channel (cw c) (ch c) (hshift c) (vshift c) data, toks));
        do (ds, toks) <- dec_channels R cm h global_tree lut0 group_id nb_meta max_chan_size (d :: before) cs (i + 1) toks;
        Some (d :: ds, toks)
  end.
