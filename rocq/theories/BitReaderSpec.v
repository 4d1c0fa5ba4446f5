(* Specification of a bit reader, independent of the implementation: a position in a
   bit string that is continued with zeros for ever.  The second component is the
   number of bits that the client may still Peek/Consume before the next Refill. *)
From Verif Require Import Base BitReaderModel.

Record cursor := mkCursor { cpos : Z; cavail : Z }.

(* n bits of the stream from position p on, as a number *)
Definition stream_value (bs : list Z) (p n : Z) : Z :=
  of_bits (window (bytes_bits bs) (Z.to_nat p) (Z.to_nat n)).

(* [spec_step bs c o = Some (out, c')]: the operation is allowed, answers [out].
   [None]: the client violates a documented precondition. *)
Definition spec_step (bs : list Z) (c : cursor) (o : rop) : option (rout * cursor) :=
  match o with
  | ORefill => Some (RUnit, mkCursor (cpos c) 56)
  | OPeek n =>
      if (0 <=? n) && (n <=? cavail c) then Some (RVal (stream_value bs (cpos c) n), c) else None
  | OConsume n =>
      if (0 <=? n) && (n <=? cavail c)
      then Some (RUnit, mkCursor (cpos c + n) (cavail c - n)) else None
  | ORead n =>
      if (0 <=? n) && (n <=? 56)
      then Some (RVal (stream_value bs (cpos c) n), mkCursor (cpos c + n) (56 - n)) else None
  | OSkip n =>
      if 0 <=? n then Some (RUnit, mkCursor (cpos c + n) 0) else None
  | OJump =>
      let pad := (- cpos c) mod 8 in
      Some (RBool (stream_value bs (cpos c) pad =? 0), mkCursor (cpos c + pad) 0)
  | OCheck => Some (RBool (cpos c <=? 8 * zlen bs), c)
  end.

Fixpoint spec_run (bs : list Z) (c : cursor) (ops : list rop) : option (list rout * cursor) :=
  match ops with
  | [] => Some ([], c)
  | o :: ops' =>
      match spec_step bs c o with
      | None => None
      | Some (out, c1) =>
          match spec_run bs c1 ops' with
          | None => None
          | Some (outs, c2) => Some (out :: outs, c2)
          end
      end
  end.
