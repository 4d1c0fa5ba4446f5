(* Property C13: prefix codes. *)
From Verif Require Import Base BitProg BitProgProofs HuffModel HuffSpec HuffTop.

(* For every complete code of up to 2^15 symbols the encoder's code words are the canonical
   ones (the field (l, v) it writes for a symbol is that word, first bit first), ... *)
Theorem C13_encoder_canonical : forall lengths bits,
  lengths_ok lengths -> complete lengths -> zlen lengths <= 2 ^ 15 -> zlen bits = zlen lengths ->
  exists out, convert_bit_depths lengths bits = Some out /\ zlen out = zlen lengths /\
    forall s l, znth lengths s = Some l -> 0 < l ->
      exists v, znth out s = Some v /\ 0 <= v < 2 ^ l /\ to_bits (Z.to_nat l) v = codeword lengths s l.
Proof. exact encoder_words. Qed.
Print Assumptions C13_encoder_canonical.

(* ... the decoder's table fits in the memory allotted to it, whatever that memory held, decodes
   every canonical word to its symbol, whatever bits follow, using up just the word, ... *)
Theorem C13_decoder_inverts_encoder : forall lengths count garbage mem,
  lengths_ok lengths -> complete lengths -> zlen lengths <= 2 ^ 15 -> count_depths lengths (fun _ => 0) = Some count ->
  exists total t, build_huffman_table (zlen lengths + 376) mem 8 lengths count garbage = Some (total, t) /\
    256 <= total <= zlen lengths + 376 /\
    (forall s l, znth lengths s = Some l -> 0 < l ->
       parses_buffered 15 (huff_read (total, t)) (codeword lengths s l) (Some s)) /\
    (* ... and decodes any bits at all to a symbol of the alphabet *)
    (forall stream pos av, 0 <= pos -> 15 <= av <= 56 -> exists s l,
       znth lengths s = Some l /\ 1 <= l <= 15 /\
       run_bits stream pos av (huff_read (total, t)) = Some (Some s, (pos + l, av - l))).
Proof. exact decoder_table. Qed.
Print Assumptions C13_decoder_inverts_encoder.

(* A code of a single symbol takes no bits. *)
Theorem C13_single_symbol : forall lengths count garbage mem s0 l0,
  lengths_ok lengths -> zlen lengths <= 2 ^ 15 -> count_depths lengths (fun _ => 0) = Some count ->
  znth lengths s0 = Some l0 -> 0 < l0 -> (forall s l, znth lengths s = Some l -> 0 < l -> s = s0) ->
  exists t, build_huffman_table (zlen lengths + 376) mem 8 lengths count garbage = Some (256, t) /\
    forall stream pos av, 0 <= pos -> 15 <= av <= 56 ->
      run_bits stream pos av (huff_read (256, t)) = Some (Some s0, (pos, av)).
Proof. exact decoder_single. Qed.
Print Assumptions C13_single_symbol.

(* no code word is the beginning of another *)
Theorem C13_prefix_free : forall lengths s l s' l' rest rest',
  lengths_ok lengths -> complete lengths -> zlen lengths <= 2 ^ 15 ->
  znth lengths s = Some l -> 0 < l -> znth lengths s' = Some l' -> 0 < l' ->
  codeword lengths s l ++ rest = codeword lengths s' l' ++ rest' -> s = s'.
Proof. exact words_prefix_free. Qed.
Print Assumptions C13_prefix_free.

(* Alphabets of more than 2^15 symbols are refused. *)
Theorem C13_large_alphabet_refused : forall lengths size mem count garbage,
  2 ^ 15 < zlen lengths -> build_huffman_table size mem 8 lengths count garbage = Some (0, mem).
Proof. exact large_refused. Qed.
Print Assumptions C13_large_alphabet_refused.

(* a code with words of 1 to 10 bits: two-level table *)
Definition case_lengths : list Z := [3; 2; 1; 10; 4; 5; 6; 7; 8; 9; 10; 0].

Example C13_case_complete : lengths_ok case_lengths /\ complete case_lengths /\ zlen case_lengths = 12.
Proof. split; [repeat constructor; discriminate|]. split; reflexivity. Qed.
Example C13_case_word : codeword case_lengths 3 10 = [true; true; true; true; true; true; true; true; true; false].
Proof. reflexivity. Qed.
Example C13_case_decoded :
  option_map (fun count => option_map (fun tt =>
      (fst tt, run_bits (codeword case_lengths 3 10 ++ codeword case_lengths 4 4 ++ repeat true 20) 0 24
         (let! x := huff_read tt in let! y := huff_read tt in Ret (x, y))))
    (build_huffman_table (12 + 376) (fun _ => (77, 77)) 8 case_lengths count (fun _ => 99)))
   (count_depths case_lengths (fun _ => 0))
  = Some (Some (260, Some (Some 3, Some 4, (14, 10)))).
Proof. vm_compute. reflexivity. Qed.
Example C13_case_encoded : convert_bit_depths case_lengths (repeat 0 12) = Some [3; 1; 0; 511; 7; 15; 31; 63; 127; 255; 1023; 0].
Proof. vm_compute. reflexivity. Qed.
(* a single symbol *)
Example C13_case_single :
  option_map (fun count => option_map (fun tt => (fst tt, run_bits (repeat true 20) 0 20 (huff_read tt)))
    (build_huffman_table (5 + 376) (fun _ => (77, 77)) 8 [0; 0; 0; 1; 0] count (fun _ => 99)))
   (count_depths [0; 0; 0; 1; 0] (fun _ => 0))
  = Some (Some (256, Some (Some 3, (0, 20)))).
Proof. vm_compute. reflexivity. Qed.
