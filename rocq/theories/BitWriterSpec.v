(* What a client of the bit writer expects: a growing bit string, and a budget. *)
From Verif Require Import Base BitWriterModel.

(* [spec_ops top l b = Some (b', own)]: program [l], started when the bit string [b] has
   been written, is within its rights (values fit their width; bits are written inside
   WithMaxBits blocks only; every such block directly writes at most its announced
   number of bits, which is positive unless the block is empty; byte-aligned appends
   happen at byte boundaries outside such blocks) and makes the bit string [b'];
   [own] is the number of bits written directly, i.e. outside nested blocks. *)
Definition pad_bits (b : list bool) : Z := (- zlen b) mod 8.

Fixpoint spec_op (top : bool) (o : wop) (b : list bool) {struct o} : option (list bool * Z) :=
  match o with
  | PWrite n v =>
      if negb top && (0 <=? n) && (n <=? 56) && (0 <=? v) && (v <? 2 ^ n)
      then Some (b ++ to_bits (Z.to_nat n) v, n) else None
  | PPad =>
      if negb top || (pad_bits b =? 0)
      then Some (b ++ repeat false (Z.to_nat (pad_bits b)), pad_bits b) else None
  | PWith max_bits body =>
      match (fix spec_list (l : list wop) (b : list bool) {struct l} : option (list bool * Z) :=
               match l with
               | [] => Some (b, 0)
               | o' :: l' =>
                   match spec_op false o' b with
                   | None => None
                   | Some (b1, k1) =>
                       match spec_list l' b1 with
                       | None => None
                       | Some (b2, k2) => Some (b2, k1 + k2)
                       end
                   end
               end) body b with
      | None => None
      | Some (b', own) =>
          if (own <=? max_bits) && ((0 <? max_bits) || (match body with [] => true | _ => false end)) then Some (b', 0) else None
      end
  | PAppend span =>
      if top && (zlen b mod 8 =? 0) && forallb (fun x => (0 <=? x) && (x <? 256)) span
      then Some (b ++ bytes_bits span, 0) else None
  | PShrink => Some (b, 0)
  end.

Fixpoint spec_ops (top : bool) (l : list wop) (b : list bool) : option (list bool * Z) :=
  match l with
  | [] => Some (b, 0)
  | o :: l' =>
      match spec_op top o b with
      | None => None
      | Some (b1, k1) =>
          match spec_ops top l' b1 with
          | None => None
          | Some (b2, k2) => Some (b2, k1 + k2)
          end
      end
  end.

(* The allocator hands out blocks of the requested size holding arbitrary bytes. *)
Definition alloc_ok (alloc : nat -> Z -> option (list Z)) : Prop :=
  forall k n l, 0 <= n -> alloc k n = Some l -> zlen l = n /\ bytes_ok l.

Definition alloc_never_fails (alloc : nat -> Z -> option (list Z)) : Prop :=
  forall k n, alloc k n <> None.

(* Total number of bytes a program asks to reserve (an upper bound for its memory). *)
Fixpoint request (o : wop) : Z :=
  match o with
  | PWith max_bits body => (max_bits + 7) / 8 + fold_right (fun o' s => request o' + s) 0 body
  | PAppend span => zlen span + 1
  | _ => 0
  end.
Definition requests (l : list wop) : Z := fold_right (fun o s => request o + s) 0 l.
