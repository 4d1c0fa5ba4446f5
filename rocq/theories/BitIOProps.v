(* Property theorems C01, C02, C03 (bit I/O). *)
From Verif Require Import Base BitReaderModel BitReaderSpec BitReaderProofs
  BitWriterModel BitWriterSpec BitWriterProofs BitIOProofs.

(* C02 + C03.  For every byte string and every sequence of client operations that respects
   the documented preconditions, the reader answers exactly like a cursor over the bit
   string continued with zeros; it never accesses memory outside the span (the model
   returns None in that case); the number of consumed bits is exact as long as the reads
   are within bounds, and out-of-bounds reading is detected exactly. *)
Theorem C02_reader_refines_bit_string :
  forall (bs : list Z) (ops : list rop) (outs : list rout) (c : cursor),
    bytes_ok bs ->
    spec_run bs (mkCursor 0 56) ops = Some (outs, c) ->
    exists r0 r, reader_init bs = Some r0 /\ rrun bs r0 ops = Some (outs, r) /\
      (cpos c <= 8 * zlen bs -> total_bits_consumed r = cpos c) /\
      all_reads_within_bounds bs r = (cpos c <=? 8 * zlen bs) /\
      close bs r 0 = (cpos c <=? 8 * zlen bs).
Proof. exact reader_refines. Qed.
Print Assumptions C02_reader_refines_bit_string.

Example C02_nonvacuous :
  spec_run [1; 2; 3; 4; 5; 6; 7; 8; 9; 10; 11] (mkCursor 0 56)
    [ORead 13; OCheck; OSkip 40; ORefill; OPeek 9; OConsume 3; OJump; ORead 56; OCheck]
  = Some ([RVal 513; RBool true; RUnit; RUnit; RVal 64; RUnit; RBool true;
           RVal 185207048; RBool false], mkCursor 112 0).
Proof. vm_compute. reflexivity. Qed.

(* C03.  After MarkUnhealthy no sequence of operations makes the reader look in bounds. *)
Theorem C03_mark_unhealthy_is_sticky :
  forall bs ops0 outs0 c r0 r1 ops outs r,
    bytes_ok bs -> spec_run bs (mkCursor 0 56) ops0 = Some (outs0, c) ->
    reader_init bs = Some r0 -> rrun bs r0 ops0 = Some (outs0, r1) ->
    Forall rop_nonneg ops -> rrun bs (mark_unhealthy bs r1) ops = Some (outs, r) ->
    all_reads_within_bounds bs r = false /\ close bs r 0 = false.
Proof. exact mark_unhealthy_sticky. Qed.
Print Assumptions C03_mark_unhealthy_is_sticky.

Example C03_nonvacuous :
  let bs := [1; 2; 3; 4; 5; 6; 7; 8; 9] in
  match reader_init bs with
  | None => False
  | Some r0 =>
      match rrun bs r0 [ORead 5] with
      | None => False
      | Some (_, r1) =>
          match rrun bs (mark_unhealthy bs r1) [ORead 56; OSkip 3; OJump] with
          | None => False
          | Some (_, r) => all_reads_within_bounds bs r1 = true
          end
      end
  end.
Proof. vm_compute. reflexivity. Qed.

(* C01 (writer half).  Every well-budgeted client program of the bit writer, with any
   nesting of WithMaxBits blocks and any memory contents delivered by the allocator, is
   free of out-of-bounds accesses, and the bytes taken at the end are exactly the bit
   string the program describes.  An error is only returned if an allocation failed or
   more than 2^62 bytes were requested. *)
Theorem C01_writer_writes_bit_string :
  forall alloc (l : list wop) (b : list bool) (own : Z),
    alloc_ok alloc -> spec_ops true l [] = Some (b, own) ->
    match run_ops alloc writer0 l with
    | WOk w => wpos w = zlen b /\
        (zlen b mod 8 = 0 ->
         exists bytes, take_bytes alloc w = WOk bytes /\ bytes_bits bytes = b /\ bytes_ok bytes)
    | WFail => (exists k n, alloc k n = None) \/ 2 ^ 62 < requests l
    | WBad => False
    end.
Proof. exact writer_safe. Qed.
Print Assumptions C01_writer_writes_bit_string.

Definition junk_alloc (k : nat) (n : Z) : option (list Z) := Some (repeat 171 (Z.to_nat n)).

Example C01_nonvacuous_program :
  spec_ops true
    [PWith 20 [PWrite 3 5; PWith 60 [PWrite 56 12345678901; PWrite 4 9]; PWrite 7 100; PPad];
     PAppend [1; 2; 255]; PShrink; PWith 3 [PWrite 3 6; PPad]] [] = None /\
  match spec_ops true
    [PWith 20 [PWrite 3 5; PWith 60 [PWrite 56 12345678901; PWrite 4 9]; PWrite 7 100; PPad];
     PAppend [1; 2; 255]; PShrink; PWith 8 [PWrite 3 6; PPad]] [],
    run_ops junk_alloc writer0
    [PWith 20 [PWrite 3 5; PWith 60 [PWrite 56 12345678901; PWrite 4 9]; PWrite 7 100; PPad];
     PAppend [1; 2; 255]; PShrink; PWith 8 [PWrite 3 6; PPad]]
  with Some (b, _), WOk w => zlen b = 104 /\ bytes_bits (firstn 13 (wdata w)) = b
  | _, _ => False end.
Proof. vm_compute. auto. Qed.

(* C01.  Fields written, padded, read back. *)
Theorem C01_write_then_read :
  forall alloc (fs : list (Z * Z)) (max : Z),
    alloc_ok alloc -> alloc_never_fails alloc ->
    Forall (fun f => 0 <= fst f <= 56 /\ 0 <= snd f < 2 ^ fst f) fs ->
    fold_right (fun f s => fst f + s) 0 fs + 7 <= max -> max <= 2 ^ 62 ->
    exists w bytes r0 r,
      run_ops alloc writer0 [PWith max (map (fun f => PWrite (fst f) (snd f)) fs ++ [PPad])] = WOk w /\
      take_bytes alloc w = WOk bytes /\
      zlen bytes = (fold_right (fun f s => fst f + s) 0 fs + 7) / 8 /\
      reader_init bytes = Some r0 /\
      rrun bytes r0 (map (fun f => ORead (fst f)) fs) = Some (map (fun f => RVal (snd f)) fs, r) /\
      total_bits_consumed r = fold_right (fun f s => fst f + s) 0 fs /\
      all_reads_within_bounds bytes r = true /\ close bytes r 0 = true.
Proof. exact write_read_roundtrip. Qed.
Print Assumptions C01_write_then_read.

Example C01_nonvacuous :
  alloc_never_fails junk_alloc /\ alloc_ok junk_alloc /\
  Forall (fun f => 0 <= fst f <= 56 /\ 0 <= snd f < 2 ^ fst f)
    [(3, 5); (56, 72057594037927935); (0, 0); (17, 99999); (56, 1); (1, 1)].
Proof.
  split; [intros k n; discriminate|]. split.
  - intros k n l Hn H. injection H as <-. split.
    + unfold zlen. rewrite repeat_length. lia.
    + apply Forall_forall. intros x Hx. apply repeat_spec in Hx. subst x. unfold is_u8. lia.
  - repeat constructor; cbn [fst snd]; lia.
Qed.
