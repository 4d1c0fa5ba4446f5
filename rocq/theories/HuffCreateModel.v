(* The construction of prefix codes from histograms. *)
From Verif Require Import Base.
From Verif Require Export HuffTreeModel.

(* conversion to int16_t *)
Definition s16 (x : Z) : Z := (x + 2 ^ 15) mod 2 ^ 16 - 2 ^ 15.

(* enc_huffman_tree.h:17-23 struct HuffmanTree *)
Record hnode := Hnode { total_count : Z; index_left : Z; index_right_or_value : Z }.
(* enc_huffman_tree.cc:87 *)
Definition sentinel : hnode := Hnode (2 ^ 32 - 1) (-1) (-1).

(* enc_huffman_tree.cc:19-28 SetDepth.  [pool] has [size] nodes, [depth] [length] elements. *)
Fixpoint set_depth (fuel : nat) (size length : Z) (pool : Z -> hnode) (p : hnode) (depth : Z -> Z) (level : Z) : option (Z -> Z) :=
  if 0 <=? index_left p then
    match fuel with
    | O => None
    | S f =>
        let level := w8 (level + 1) in
        do l <- get size pool (index_left p);
        do depth <- set_depth f size length pool l depth level;
        do r <- get size pool (index_right_or_value p);
        set_depth f size length pool r depth level
    end
  else set length depth (index_right_or_value p) level.

(* enc_huffman_tree.cc:32-36 Compare *)
Definition compare_nodes (a b : hnode) : bool :=
  if total_count a =? total_count b then index_right_or_value b <? index_right_or_value a
  else total_count a <? total_count b.
(* std::sort, as insertion sort: no two nodes are equivalent, so that there is only one order *)
Fixpoint insert_node (x : hnode) (l : list hnode) : list hnode :=
  match l with
  | [] => [x]
  | y :: l' => if compare_nodes x y then x :: l else y :: insert_node x l'
  end.
Definition sort_nodes (l : list hnode) : list hnode := fold_right insert_node [] l.

(* enc_huffman_tree.cc:65-71: the leaves, last symbol first *)
Definition leaf_nodes (data : list Z) (count_limit : Z) : list hnode :=
  flat_map (fun e => if snd e =? 0 then [] else [Hnode (Z.max (snd e) (w32 (count_limit - 1))) (-1) (s16 (fst e))])
    (rev (combine (zseq 0 (length data)) data)).

(* enc_huffman_tree.cc:96-109: the next node of the smaller count: its index, i and j *)
Definition next_node (size : Z) (pool : Z -> hnode) (i j : Z) : option (Z * Z * Z) :=
  do a <- get size pool i; do b <- get size pool j;
  if total_count a <=? total_count b then Some (i, i + 1, j) else Some (j, i, j + 1).

(* enc_huffman_tree.cc:93-121: [k] rounds.  [size] is tree.size() *)
Fixpoint merge_nodes (k : nat) (size : Z) (pool : Z -> hnode) (i j : Z) : option (Z * (Z -> hnode)) :=
  match k with
  | O => Some (size, pool)
  | S k' =>
      do (lft, i, j) <- next_node size pool i j;
      do (rgt, i, j) <- next_node size pool i j;
      do a <- get size pool lft; do b <- get size pool rgt;
      do pool <- set size pool (size - 1) (Hnode (w32 (total_count a + total_count b)) (s16 lft) (s16 rgt));
      merge_nodes k' (size + 1) (fun x => if x =? size then sentinel else pool x) i j
  end.

(* enc_huffman_tree.cc:65-130: the body of the loop for n different from 1; n = 0, for which the
   loop at 93 starts with 2^64 - 1, is an error *)
Definition one_tree (data : list Z) (depth : Z -> Z) (nodes : list hnode) : option (Z -> Z) :=
  let n := zlen nodes in
  if n =? 0 then None
  else
    let sorted := sort_nodes nodes in
    do (size, pool) <- merge_nodes (Z.to_nat (n - 1)) (n + 2) (fun i => nth (Z.to_nat i) sorted sentinel) 0 (n + 1);
    do root <- get size pool (2 * n - 1);
    set_depth (length nodes) size (zlen data) pool root depth 0.

(* enc_huffman_tree.cc:53-131 CreateHuffmanTree: [fuel] rounds of the outer loop at most *)
Fixpoint create_loop (fuel : nat) (data : list Z) (tree_limit count_limit : Z) (depth : Z -> Z) : option (Z -> Z) :=
  match fuel with
  | O => None
  | S f =>
      let nodes := leaf_nodes data count_limit in
      if zlen nodes =? 1 then
        do l <- znth nodes 0; set (zlen data) depth (index_right_or_value l) 1
      else
        do depth <- one_tree data depth nodes;
        if forallb (fun i => depth i <=? tree_limit) (zseq 0 (length data)) then Some depth
        else create_loop f data tree_limit (w32 (count_limit * 2)) depth
  end.
(* the callers pass zeros *)
Definition create_huffman_tree (data : list Z) (tree_limit : Z) : option (list Z) :=
  do depth <- create_loop 33 data tree_limit 1 (fun _ => 0);
  Some (map depth (zseq 0 (length data))).

(* enc_huffman.cc:137-141 *)
Definition codes_histogram (tree : list (Z * Z)) : list Z :=
  map (fun i => w32 (zlen (filter (fun e => fst e =? i) tree))) (zseq 0 18).
(* enc_huffman.cc:128-179 StoreHuffmanTree *)
Definition store_huffman_tree_full (depths : list Z) : option (list (Z * Z)) :=
  do tree <- write_huffman_tree depths;
  do bitdepth <- create_huffman_tree (codes_histogram tree) 5;
  store_huffman_tree bitdepth depths.

(* enc_huffman.cc:183-225 BuildAndStoreHuffmanTree: what is written, depth and bits *)
Definition build_and_store_huffman_tree (histogram : list Z) : option (list (Z * Z) * list Z * list Z) :=
  let used := map fst (filter (fun e => negb (snd e =? 0)) (combine (zseq 0 (length histogram)) histogram)) in
  do max_bits <- max_bits_loop 64 (w64 (zlen histogram - 1)) 0;
  let zeros := repeat 0 (length histogram) in
  match used with
  | [] => Some ([(4, 1); (max_bits, 0)], zeros, zeros)
  | [s] => Some ([(4, 1); (max_bits, s)], zeros, zeros)
  | _ =>
      do depth <- create_huffman_tree histogram 15;
      do bits <- convert_bit_depths depth zeros;
      do fs <- (if zlen used <=? 4 then store_simple depth used max_bits else store_huffman_tree_full depth);
      Some (fs, depth, bits)
  end.
