(* Programs that read a stream of values, each in a context that may depend on the values
   read before.  Code that reads tokens through ANSSymbolReader::ReadHybridUint is modelled
   as such a program.  [run_toks] is its meaning on a list of values (the specification of a
   lossless entropy coder); [run_sym] runs it on the modelled reader. *)
From Verif Require Import Base BitProg AnsModel.

Inductive tprog (A : Type) : Type :=
| TRet (a : A)
| TRead (ctx : Z) (k : Z -> tprog A).
Arguments TRet {A} _.
Arguments TRead {A} _ _.

Fixpoint tbind {A B} (p : tprog A) (f : A -> tprog B) : tprog B :=
  match p with
  | TRet a => f a
  | TRead ctx k => TRead ctx (fun v => tbind (k v) f)
  end.

(* The values with the contexts they belong to, of [n] contexts; [None] stands for a value
   that may be read in any context. *)
Fixpoint run_toks {A} (n : Z) (p : tprog A) (l : list (option Z * Z)) : option (A * list (option Z * Z)) :=
  match p with
  | TRet a => Some (a, l)
  | TRead ctx k =>
      match l with
      | [] => None
      | (c, v) :: l' =>
          if (0 <=? ctx) && (ctx <? n) && match c with Some c => c =? ctx | None => true end
          then run_toks n (k v) l' else None
      end
  end.

Fixpoint run_sym {A} (code : ans_code) (cmap : list Z) (dm : Z) (p : tprog A) (r : sreader)
  : rprog (option (A * sreader)) :=
  match p with
  | TRet a => Ret (Some (a, r))
  | TRead ctx k =>
      let! x := read_hybrid code cmap dm r ctx in
      match x with
      | None => Ret None
      | Some (v, r') => run_sym code cmap dm (k v) r'
      end
  end.

(* ANSSymbolReader::Create followed by the reads; None: undefined behaviour *)
Definition run_stream {A} (code : ans_code) (cmap : list Z) (dm : Z) (p : tprog A)
  : rprog (option (A * sreader)) :=
  let! r := reader_create code in run_sym code cmap dm p r.

(* reading values in a fixed list of contexts *)
Fixpoint read_list (cs : list Z) : tprog (list Z) :=
  match cs with
  | [] => TRet []
  | c :: cs' => TRead c (fun v => tbind (read_list cs') (fun vs => TRet (v :: vs)))
  end.
