(* Decision trees of modular coding: lib/jxl/modular/encoding/dec_ma.{h,cc}, ma_common.h,
   TokenizeTree of enc_ma.cc, FilterTree of encoding.cc, TreeToLookupTable of encoding.h,
   MATreeLookup of context_predict.h.  In [option (option _)], None is undefined behaviour (or the
   end of the fuel), Some None a failure status. *)
From Verif Require Import Base BitProg FieldsModel HeadersModel CodesModel.
From Verif Require Export Arr TokProg.

(* dec_ma.h:21-29 PropertyDecisionNode *)
Record node := Node { nprop : Z; splitval : Z; lchild : Z; rchild : Z; npred : Z; noffset : Z; nmul : Z }.

(* ma_common.h:14-23, 25 *)
Definition kSplitValContext := 0.
Definition kPropertyContext := 1.
Definition kPredictorContext := 2.
Definition kOffsetContext := 3.
Definition kMultiplierLogContext := 4.
Definition kMultiplierBitsContext := 5.
Definition kNumTreeContexts : nat := 6.
Definition kMaxTreeSize : Z := 4194304.
(* options.h:27-49: the predictors and their number *)
Definition pZero := 0.
Definition pGradient := 5.
Definition pWeighted := 6.
Definition kNumModularPredictors := 14.
(* options.h:52 *)
Definition kNumStaticProperties := 2.

(* ---- reading ---- *)

(* dec_ma.cc:105-154, the loop of DecodeTree.  [within n] is the answer of AllReadsWithinBounds when n
   nodes have been read; the nodes are kept in reverse. *)
Fixpoint read_nodes (fuel : nat) (within : Z -> bool) (limit leaf_id to_decode : Z) (tree : list node)
  : tprog (option (option (list node))) :=
  if to_decode =? 0 then TRet (Some (Some (rev' tree)))
  else
    match fuel with
    | O => TRet None
    | S fuel =>
        let size := zlen tree in
        if negb (within size) then TRet (Some None)
        else if limit <? size then TRet (Some None)
        else
          let to_decode := to_decode - 1 in
          TRead kPropertyContext (fun v =>
            let prop1 := w32 v in
            if 256 <? prop1 then TRet (Some None)
            else
              let property := prop1 - 1 in
              if property =? -1 then
                TRead kPredictorContext (fun predictor =>
                  if kNumModularPredictors <=? predictor then TRet (Some None)
                  else
                    TRead kOffsetContext (fun v =>
                      let predictor_offset := unpack_signed v in
                      TRead kMultiplierLogContext (fun v =>
                        let mul_log := w32 v in
                        if 31 <=? mul_log then TRet (Some None)
                        else
                          TRead kMultiplierBitsContext (fun v =>
                            let mul_bits := w32 v in
                            if w32 (w32 (Z.shiftl 1 (31 - mul_log)) - 1) <=? mul_bits then TRet (Some None)
                            else
                              let multiplier := w32 (Z.shiftl (w32 (mul_bits + 1)) mul_log) in
                              read_nodes fuel within limit (leaf_id + 1) to_decode
                                (Node (-1) 0 (w32 leaf_id) 0 predictor predictor_offset multiplier :: tree)))))
              else
                TRead kSplitValContext (fun v =>
                  let splitval := unpack_signed v in
                  read_nodes fuel within limit leaf_id (to_decode + 2)
                    (Node property splitval (w32 (size + to_decode + 1)) (w32 (size + to_decode + 2)) pZero 0 1 :: tree)))
    end.

(* dec_ma.cc:30-37 *)
Inductive action := CheckAndGoLeft | GoRight | Pop.
Record item := Item { at_node : Z; orig_l : Z; orig_u : Z; next : action }.

(* dec_ma.cc:57 *)
Definition kHeightLimit := 2048.
Definition int32_min := - 2 ^ 31.
Definition int32_max := 2 ^ 31 - 1.

(* dec_ma.cc:63-102: the loop of ValidateTree; the top of the stack comes first *)
Fixpoint validate_loop (fuel : nat) (tree : list node) (np : Z) (ranges : Z -> Z * Z) (stack : list item) : option bool :=
  match stack with
  | [] => Some true
  | it :: rest =>
      match fuel with
      | O => None
      | S fuel =>
          if kHeightLimit <=? zlen stack then Some false
          else
            do node <- znth tree (at_node it);
            match next it with
            | CheckAndGoLeft =>
                let p := nprop node in
                if p =? -1 then validate_loop fuel tree np ranges rest
                else
                  let v := splitval node in
                  do (l, u) <- get np ranges p;
                  if (v <? l) || (u <=? v) then Some false
                  else if int32_max <=? v then None
                  else
                    do ranges <- set np ranges p (v + 1, u);
                    validate_loop fuel tree np ranges
                      (Item (lchild node) 0 0 CheckAndGoLeft :: Item (at_node it) l u GoRight :: rest)
            | GoRight =>
                do ranges <- set np ranges (nprop node) (orig_l it, splitval node);
                validate_loop fuel tree np ranges
                  (Item (rchild node) 0 0 CheckAndGoLeft :: Item (at_node it) (orig_l it) (orig_u it) Pop :: rest)
            | Pop =>
                do (l, _) <- get np ranges (nprop node);
                do ranges <- set np ranges (nprop node) (l, orig_u it);
                validate_loop fuel tree np ranges rest
            end
      end
  end.
(* dec_ma.cc:39-105 ValidateTree *)
Definition validate_tree (tree : list node) : option bool :=
  match tree with
  | [] => Some true
  | _ =>
      let np := fold_left (fun np node => if np <=? nprop node then nprop node + 1 else np) tree 0 in
      validate_loop (3 * length tree) tree np (fun _ => (int32_min, int32_max)) [Item 0 0 0 CheckAndGoLeft]
  end.

(* dec_ma.cc:107-156 DecodeTree(br, reader, ...) *)
Definition read_tree (within : Z -> bool) (limit : Z) : tprog (option (option (list node))) :=
  tbind (read_nodes (Z.to_nat (limit + 2)) within limit 0 1 [])
    (fun r => match r with
              | Some (Some t) => TRet (do ok <- validate_tree t; Some (if ok then Some t else None))
              | _ => TRet r
              end).

(* dec_ma.cc:159-180 DecodeTree(memory_manager, br, ...) *)
Definition decode_tree (M : machine) (within : Z -> bool) (limit : Z) : rprog (option (option (list node))) :=
  let! h := decode_histograms M 3 kNumTreeContexts false in
  match h with
  | None => Ret None
  | Some None => Ret (Some None)
  | Some (Some d) =>
      match (do c <- znth (d_map d) kPropertyContext; znth (degenerate d) c) with
      | None => Ret None
      | Some s =>
          if 0 <? s then Ret (Some None)
          else
            let! r := run_stream (d_code d) (d_map d) 0 (read_tree within (Z.min limit kMaxTreeSize)) in
            Ret (match r with
                 | None => None
                 | Some (None, _) => None
                 | Some (Some None, _) => Some None
                 | Some (Some (Some t), r) => if check_final_state r then Some (Some t) else Some None
                 end)
      end
  end.

(* ---- writing ---- *)

(* Num0BitsBelowLS1Bit_Nonzero: the number of zero bits below the lowest one *)
Fixpoint pos_zeros (p : positive) : Z := match p with xO q => 1 + pos_zeros q | _ => 0 end.
Definition trailing_zeros (v : Z) : Z := match v with Zpos p => pos_zeros p | _ => 0 end.

(* enc_ma.cc:1035-1069, the loop of TokenizeTree: the tokens, and the nodes as the decoder will have them *)
Fixpoint tokenize_loop (fuel : nat) (tree : list node) (queue : list Z) (leaf_id : Z) (tokens : list token) (out : list node)
  : option (option (list token * list node)) :=
  match queue with
  | [] => Some (Some (rev' tokens, rev' out))
  | cur :: queue =>
      match fuel with
      | O => None
      | S fuel =>
          do n <- znth tree cur;
          if nprop n <? -1 then Some None
          else
            let tokens := Token false kPropertyContext (w32 (nprop n + 1)) :: tokens in
            if nprop n =? -1 then
              if nmul n =? 0 then None
              else
                let mul_log := trailing_zeros (nmul n) in
                let mul_bits := w32 (Z.shiftr (nmul n) mul_log - 1) in
                if kNumModularPredictors <=? npred n then Some None
                else
                  tokenize_loop fuel tree queue (leaf_id + 1)
                    (Token false kMultiplierBitsContext mul_bits :: Token false kMultiplierLogContext mul_log
                       :: Token false kOffsetContext (pack_signed (s32 (noffset n)))
                       :: Token false kPredictorContext (npred n) :: tokens)
                    (Node (-1) 0 (w32 leaf_id) 0 (npred n) (noffset n) (nmul n) :: out)
            else
              tokenize_loop fuel tree (queue ++ [lchild n; rchild n]) leaf_id
                (Token false kSplitValContext (pack_signed (splitval n)) :: tokens)
                (Node (nprop n) (splitval n) (w32 (zlen out + zlen queue + 1)) (w32 (zlen out + zlen queue + 2)) pZero 0 1 :: out)
      end
  end.
(* enc_ma.cc:1032-1071 TokenizeTree; [fuel] bounds the number of nodes visited *)
Definition tokenize_tree (fuel : nat) (tree : list node) : option (option (list token * list node)) :=
  if zlen tree <=? kMaxTreeSize then tokenize_loop fuel tree [0] 0 [] [] else Some None.

(* ---- the flattened tree ---- *)

(* context_predict.h:303-321 FlatDecisionNode.  Simplification: the members that share memory in
   unions belong to leaves or to inner nodes; a leaf is a node with property0 = -1. *)
Inductive fnode :=
| FLeaf (ctx predictor offset multiplier : Z)
| FNode (property0 splitval0 prop_0 splitval_0 prop_1 splitval_1 childID : Z).

(* context_predict.h:361-366 *)
Definition kExtraPropsPerChannel := 4.
Definition kNumNonrefProperties := 16.
Definition kWPProp := 15.
Definition kGradientProp := 9.

(* encoding.cc:68-76 and 94-103: nodes that the static properties decide are skipped *)
Fixpoint skip_static (fuel : nat) (tree : list node) (sp : Z -> Z) (cur : Z) : option (Z * node) :=
  do n <- znth tree cur;
  if (nprop n <? kNumStaticProperties) && negb (nprop n =? -1) then
    match fuel with
    | O => None
    | S fuel =>
        do s <- get kNumStaticProperties sp (nprop n);
        skip_static fuel tree sp (if splitval n <? s then lchild n else rchild n)
    end
  else Some (cur, n).

(* num_props, has_wp, has_non_wp, gradient_only *)
Record flags := Flags { num_props : Z; has_wp : bool; has_non_wp : bool; gradient_only : bool }.
(* encoding.cc:48-57 mark_property *)
Definition mark_property (f : flags) (p : Z) : flags :=
  Flags (num_props f) (has_wp f || (p =? kWPProp))
    (has_non_wp f || (negb (p =? kWPProp) && (kNumStaticProperties <=? p)))
    (gradient_only f && negb ((kNumStaticProperties <=? p) && negb (p =? kGradientProp))).
(* encoding.cc:91, 119 *)
Definition need_props (f : flags) (p : Z) : flags :=
  Flags (Z.max (p + 1) (num_props f)) (has_wp f) (has_non_wp f) (gradient_only f).
(* encoding.cc:83-85 *)
Definition mark_leaf (f : flags) (predictor : Z) : flags :=
  Flags (num_props f) (has_wp f || (predictor =? pWeighted)) (has_non_wp f || negb (predictor =? pWeighted))
    (gradient_only f && (predictor =? pGradient)).

(* encoding.cc:94-121: one of the children: its property and split value, and what is put in the queue *)
Definition flat_child (fuel : nat) (tree : list node) (sp : Z -> Z) (cur : Z) (f : flags) : option (Z * Z * list Z * flags) :=
  do (c, n) <- skip_static fuel tree sp cur;
  if nprop n =? -1 then Some (0, 0, [c; c], f)
  else Some (nprop n, splitval n, [lchild n; rchild n], need_props f (nprop n)).

(* encoding.cc:64-128: the loop of FilterTree; the output in reverse *)
Fixpoint filter_loop (fuel : nat) (tree : list node) (sp : Z -> Z) (queue : list Z) (out : list fnode) (f : flags)
  : option (list fnode * flags) :=
  match queue with
  | [] => Some (rev' out, f)
  | cur :: queue =>
      match fuel with
      | O => None
      | S fuel =>
          do (_, n) <- skip_static (length tree) tree sp cur;
          if nprop n =? -1 then
            filter_loop fuel tree sp queue (FLeaf (lchild n) (npred n) (s32 (noffset n)) (s32 (nmul n)) :: out) (mark_leaf f (npred n))
          else
            let childID := w32 (zlen out + zlen queue + 1) in
            let f := need_props f (nprop n) in
            do (p0, v0, q0, f) <- flat_child (length tree) tree sp (lchild n) f;
            do (p1, v1, q1, f) <- flat_child (length tree) tree sp (rchild n) f;
            let f := mark_property (mark_property (mark_property f p0) p1) (nprop n) in
            filter_loop fuel tree sp (queue ++ q0 ++ q1) (FNode (nprop n) (splitval n) p0 v0 p1 v1 childID :: out) f
      end
  end.
(* base/common.h DivCeil *)
Definition div_ceil (a b : Z) : Z := (a + b - 1) / b.
(* encoding.cc:42-140 FilterTree: the flat tree, the number of properties, use_wp, wp_only and gradient_only *)
Definition filter_tree (tree : list node) (sp : Z -> Z) : option (list fnode * Z * bool * bool * bool) :=
  do (t, f) <- filter_loop (2 * length tree) tree sp [0] [] (Flags 0 false false true);
  let np := if kNumNonrefProperties <? num_props f
            then div_ceil (num_props f - kNumNonrefProperties) kExtraPropsPerChannel * kExtraPropsPerChannel + kNumNonrefProperties
            else kNumNonrefProperties in
  Some (t, np, has_wp f, has_wp f && negb (has_non_wp f), gradient_only f).

(* encoding.cc:174-180: the decoder replaces contexts by the histograms they use *)
Fixpoint cluster_leaves (context_map : list Z) (nodes : list fnode) : option (list fnode) :=
  match nodes with
  | [] => Some []
  | FLeaf ctx predictor offset multiplier :: nodes =>
      do c <- znth context_map ctx; do r <- cluster_leaves context_map nodes; Some (FLeaf c predictor offset multiplier :: r)
  | n :: nodes => do r <- cluster_leaves context_map nodes; Some (n :: r)
  end.

(* context_predict.h:333-358 MATreeLookup::Lookup in a vector of np properties: context, predictor,
   offset, multiplier *)
Fixpoint lookup (fuel : nat) (nodes : list fnode) (np : Z) (properties : Z -> Z) (pos : Z) : option (Z * Z * Z * Z) :=
  do n <- znth nodes pos;
  match n with
  | FLeaf ctx predictor offset multiplier => Some (ctx, predictor, offset, multiplier)
  | FNode p0 v0 p1 v1 p2 v2 child =>
      match fuel with
      | O => None
      | S fuel =>
          do x0 <- get np properties p0;
          do x1 <- get np properties p1;
          do x2 <- get np properties p2;
          let off0 := b2z (x1 <=? v1) in
          let off1 := Z.lor 2 (b2z (x2 <=? v2)) in
          lookup fuel nodes np properties (w32 (child + (if x0 <=? v0 then off1 else off0)))
      end
  end.

(* ---- the lookup table ---- *)

(* encoding.h:32 *)
Definition kPropRangeFast := 8192.
(* encoding.h:105-113: lut.context_lookup[begin + 1 .. end] = ctx *)
Definition fill_range (lut : Z -> Z) (begin end_ ctx : Z) : option (Z -> Z) :=
  fold_left (fun l i => do l <- l; set (2 * kPropRangeFast) l (i + kPropRangeFast) ctx) (zseq (begin + 1) (Z.to_nat (end_ - begin))) (Some lut).
(* encoding.h:82-139: the loop of TreeToLookupTable<T, false, false>; [wrap] is the conversion to T.
   Some None: the tree does not fit *)
Fixpoint lut_loop (fuel : nat) (wrap : Z -> Z) (tree : list fnode) (ranges : list (Z * Z * Z)) (lut : Z -> Z) : option (option (Z -> Z)) :=
  match ranges with
  | [] => Some (Some lut)
  | (begin, end_, pos) :: ranges =>
      match fuel with
      | O => None
      | S fuel =>
          if (begin <? - kPropRangeFast - 1) || (kPropRangeFast - 1 <=? begin) || (kPropRangeFast - 1 <? end_) then Some None
          else
            do n <- znth tree pos;
            match n with
            | FLeaf ctx _ offset multiplier =>
                if (offset <? -128) || (127 <? offset) then Some None
                else if (multiplier <? -128) || (127 <? multiplier) then Some None
                else if negb (multiplier =? 1) then Some None
                else if negb (offset =? 0) then Some None
                else
                  do lut <- fill_range lut begin end_ (wrap ctx);
                  lut_loop fuel wrap tree ranges lut
            | FNode p0 v0 p1 v1 p2 v2 child =>
                let r := if kNumStaticProperties <=? p1
                         then (v0, v1, w32 (child + 1)) :: (v1, end_, child) :: ranges
                         else (v0, end_, child) :: ranges in
                let r := if kNumStaticProperties <=? p2
                         then (begin, v2, w32 (child + 3)) :: (v2, v0, w32 (child + 2)) :: r
                         else (begin, v0, w32 (child + 2)) :: r in
                lut_loop fuel wrap tree r lut
            end
      end
  end.
(* encoding.h:70-141 TreeToLookupTable *)
Definition tree_to_lut (wrap : Z -> Z) (tree : list fnode) (lut : Z -> Z) : option (option (Z -> Z)) :=
  lut_loop (length tree) wrap tree [(- kPropRangeFast - 1, kPropRangeFast - 1, 0)] lut.
(* encoding.cc:328-333, 360-363: the table at a property value *)
Definition lut_at (lut : Z -> Z) (v : Z) : option Z :=
  get (2 * kPropRangeFast) lut (kPropRangeFast + Z.min (Z.max (- kPropRangeFast) v) (kPropRangeFast - 1)).
