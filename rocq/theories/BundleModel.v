(* Model of header bundles: the VisitFields traversals of lib/jxl/fields.h run by the
   visitors of lib/jxl/fields.cc and lib/jxl/enc_fields.cc.
   A VisitFields routine is a term of type [prog]; each visitor is an interpreter of
   such terms.  Concrete bundles are in HeadersModel.v. *)
From Verif Require Import Base BitProg FieldsModel.

(* The members of the bundle (serialized, derived and nonserialized ones), by number. *)
Definition env := Z -> Z.
Definition upd (s : env) (x v : Z) : env := fun y => if y =? x then v else s y.
(* An assignment that does not change the value leaves the state as it is. *)
Definition assign (s : env) (x v : Z) : env := if s x =? v then s else upd s x v.

(* An expression over members: the members it reads, and a function of their values. *)
Record expr := Ex { rds : list Z; fn : list Z -> Z }.
Definition ev (e : expr) (s : env) : Z := fn e (map s (rds e)).
Definition holds (e : expr) (s : env) : bool := negb (ev e s =? 0).

(* Kinds of fields; values of F16 fields are binary32 bit patterns. *)
Inductive coder := CBits (n : Z) | CU32 (e : u32enc) | CU64 | CF16.

(* The statements of a VisitFields routine.
   [Fld c d x cx tow fromw]: visitor->Bits/U32/U64/F16(.., d, &x).  Some routines convert
   the member before the call and convert back after it (orientation - 1, PackSigned,
   >> dim_shift, enum <-> bool); [tow] and [fromw] are these conversions, which may
   depend on the members [cx].  Simplification: visitors that only look at the member do
   not perform the two conversions on it.
   [If c p q]: if (visitor->Conditional(c)) { p } else { q }.
   [Branch c p q]: a plain C++ if.
   [AllDef p]: if (visitor->AllDefault( *this, &all_default)) { visitor->SetDefault(this);
   return true; } p, where p is the rest of the routine.  Simplification: the member
   all_default is not part of [env]; CanEncodeVisitor stores in it the result of
   Bundle::AllDefault (fields.cc:311-316) and WriteVisitor reads it back, here it is
   computed again.
   [Ext x]: visitor->BeginExtensions(&x) directly followed by EndExtensions(), as in all
   bundles of this version of the library.
   [Fail c], [FailReading c]: if (c) return JXL_FAILURE / JXL_ENSURE; the latter under
   visitor->IsReading().
   [Assign x e]: x = e.
   [For n body]: for (i = 0; i < n; i++) body(i).
   A nested bundle (VisitNested) is the program of that bundle at its own members; the
   depth limit 64 of fields.h:309 is not modelled (the nesting is at most 4). *)
Inductive prog :=
| Done
| Fld (c : coder) (d : Z) (x : Z) (cx : list Z) (tow fromw : list Z -> Z -> Z)
| Seq (p q : prog)
| If (c : expr) (p q : prog)
| Branch (c : expr) (p q : prog)
| AllDef (p : prog)
| Ext (x : Z)
| Fail (c : expr)
| FailReading (c : expr)
| Assign (x : Z) (e : expr)
| For (n : expr) (body : Z -> prog).

(* the value handed to the visitor for a field *)
Definition shown (s : env) (x : Z) (cx : list Z) (tow : list Z -> Z -> Z) : Z := tow (map s cx) (s x).
(* the member after the visitor delivered v *)
Definition stored (s : env) (cx : list Z) (fromw : list Z -> Z -> Z) (v : Z) : Z := fromw (map s cx) v.

(* A loop in a visitor; the flag says whether to go on (false after a failure). *)
Definition floop {S} (f : Z -> S -> S * bool) :=
  fix go (n : nat) (i : Z) (s : S) {struct n} : S * bool :=
  match n with
  | O => (s, true)
  | Datatypes.S n' => let '(s1, k) := f i s in if k then go n' (i + 1) s1 else (s1, false)
  end.

(* fields.cc:76-114 SetDefaultVisitor, with Bundle::SetDefault (fields.cc:372-377) *)
Fixpoint set_default (p : prog) (s : env) : env * bool :=
  match p with
  | Done => (s, true)
  | Fld c d x cx tow fromw => (upd s x (stored s cx fromw d), true)
  | Seq p q => let '(s1, k) := set_default p s in if k then set_default q s1 else (s1, false)
  | If c p q => set_default p s
  | Branch c p q => if holds c s then set_default p s else set_default q s
  | AllDef p => set_default p s
  | Ext x => (upd s x 0, true)
  | Fail c => (s, negb (holds c s))
  | FailReading c => (s, true)
  | Assign x e => (upd s x (ev e s), true)
  | For n body => floop (fun i s => set_default (body i) s) (Z.to_nat (ev n s)) 0 s
  end.

(* fields.cc:120-141 the comparisons of AllDefaultVisitor *)
Definition is_default (c : coder) (v d : Z) : bool :=
  match c with CF16 => f16_near v d | _ => v =? d end.

(* fields.cc:116-153 AllDefaultVisitor; the state is the bundle and all_default_ *)
Fixpoint all_default (p : prog) (st : env * bool) : (env * bool) * bool :=
  let '(s, acc) := st in
  match p with
  | Done => (st, true)
  | Fld c d x cx tow fromw => ((s, acc && is_default c (shown s x cx tow) d), true)
  | Seq p q => let '(st1, k) := all_default p st in if k then all_default q st1 else (st1, false)
  | If c p q => if holds c s then all_default p st else all_default q st
  | Branch c p q => if holds c s then all_default p st else all_default q st
  | AllDef p => all_default p st
  | Ext x => ((s, acc && (s x =? 0)), true)
  | Fail c => (st, negb (holds c s))
  | FailReading c => (st, true)
  | Assign x e => ((assign s x (ev e s), acc), true)
  | For n body => floop (fun i st => all_default (body i) st) (Z.to_nat (ev n s)) 0 st
  end.

(* fields.cc:378-384 Bundle::AllDefault *)
Definition bundle_all_default (p : prog) (s : env) : bool := snd (fst (all_default p (s, true))).

(* The CanEncode and Write functions of the coders *)
Definition coder_can_encode (c : coder) (v : Z) : bool * Z :=
  match c with
  | CBits n => bits_can_encode n v
  | CU32 e => u32_can_encode e v
  | CU64 => (true, u64_size v)
  | CF16 => f16_can_encode v
  end.
Definition coder_write (c : coder) (v : Z) : option (list (Z * Z)) :=
  match c with
  | CBits n => bits_write n v
  | CU32 e => u32_write e v
  | CU64 => Some (u64_write v)
  | CF16 => f16_write v
  end.

(* fields.cc:275-363 CanEncodeVisitor: the bundle, ok_, encoded_bits_, extensions_,
   pos_after_ext_ *)
Record ce := CE { ce_env : env; ce_ok : bool; ce_bits : Z; ce_ext : Z; ce_pos : Z }.

Definition ce_field (st : ce) (c : coder) (v : Z) : ce :=
  let '(ok, n) := coder_can_encode c v in
  CE (ce_env st) (ce_ok st && ok) (ce_bits st + n) (ce_ext st) (ce_pos st).

Fixpoint can_encode (p : prog) (st : ce) : ce * bool :=
  let s := ce_env st in
  match p with
  | Done => (st, true)
  | Fld c d x cx tow fromw => (ce_field st c (shown s x cx tow), true)
  | Seq p q => let '(st1, k) := can_encode p st in if k then can_encode q st1 else (st1, false)
  | If c p q => if holds c s then can_encode p st else can_encode q st
  | Branch c p q => if holds c s then can_encode p st else can_encode q st
  | AllDef p =>
      (* fields.cc:311-316 *)
      let all := bundle_all_default p s in
      let st1 := ce_field st (CBits 1) (if all then 1 else 0) in
      if all then (st1, true) else can_encode p st1
  | Ext x =>
      (* fields.cc:318-328 *)
      let st1 := ce_field st CU64 (s x) in
      if s x =? 0 then (CE s (ce_ok st1) (ce_bits st1) 0 (ce_pos st1), true)
      else if negb (ce_pos st1 =? 0) then (st1, false)
      else (CE s (ce_ok st1) (ce_bits st1) (s x) (ce_bits st1), negb (ce_bits st1 =? 0))
  | Fail c => (st, negb (holds c s))
  | FailReading c => (st, true)
  | Assign x e => (CE (assign s x (ev e s)) (ce_ok st) (ce_bits st) (ce_ext st) (ce_pos st), true)
  | For n body => floop (fun i st => can_encode (body i) st) (Z.to_nat (ev n s)) 0 st
  end.

(* The set bits of a 64-bit word, from the lowest on: the loops
   remaining &= remaining - 1 of fields.cc:206-217 and enc_fields.cc:69-72, PopCount. *)
Definition set_bits (v : Z) : list Z := filter (Z.testbit v) (map Z.of_nat (seq 0 64)).

(* fields.cc:330-353 GetSizes and fields.cc:385-391 Bundle::CanEncode:
   (extension_bits, total_bits) *)
Definition bundle_can_encode (p : prog) (s : env) : option (Z * Z) :=
  let '(st, k) := can_encode p (CE s true 0 0 0) in
  if negb k then None
  else if negb (ce_ok st) then None
  else if ce_pos st =? 0 then Some (0, ce_bits st)
  else if ce_bits st <? ce_pos st then None
  else
    let eb := ce_bits st - ce_pos st in
    Some (eb, ce_bits st + u64_size eb + 2 * (zlen (set_bits (ce_ext st)) - 1)).

(* enc_fields.cc:27-83 WriteVisitor: the bundle, the writes so far, ok_ *)
Record wr := WR { wr_env : env; wr_out : list (Z * Z); wr_ok : bool }.

Definition wr_field (st : wr) (c : coder) (v : Z) : wr :=
  match coder_write c v with
  | Some ws => WR (wr_env st) (wr_out st ++ ws) (wr_ok st)
  | None => WR (wr_env st) (wr_out st) false
  end.

Definition ext_sizes_out (eb v : Z) : list (Z * Z) :=
  u64_write eb ++ concat (map (fun _ => u64_write 0) (tl (set_bits v))).

Fixpoint write (eb : Z) (p : prog) (st : wr) : wr * bool :=
  let s := wr_env st in
  match p with
  | Done => (st, true)
  | Fld c d x cx tow fromw => (wr_field st c (shown s x cx tow), true)
  | Seq p q => let '(st1, k) := write eb p st in if k then write eb q st1 else (st1, false)
  | If c p q => if holds c s then write eb p st else write eb q st
  | Branch c p q => if holds c s then write eb p st else write eb q st
  | AllDef p =>
      (* fields.h:240-244 with all_default as CanEncode left it *)
      let all := bundle_all_default p s in
      let st1 := wr_field st (CBits 1) (if all then 1 else 0) in
      if all then (st1, true) else write eb p st1
  | Ext x =>
      (* enc_fields.cc:55-73 *)
      let st1 := wr_field st CU64 (s x) in
      if s x =? 0 then (st1, eb =? 0)
      else (WR s (wr_out st1 ++ ext_sizes_out eb (s x)) (wr_ok st1), true)
  | Fail c => (st, negb (holds c s))
  | FailReading c => (st, true)
  | Assign x e => (WR (assign s x (ev e s)) (wr_out st) (wr_ok st), true)
  | For n body => floop (fun i st => write eb (body i) st) (Z.to_nat (ev n s)) 0 st
  end.

(* enc_fields.cc:86-98 Bundle::Write: the announced size and the writes made.  The
   CanEncode pass and the Write pass start from the same members; see [valid] in
   BundleSpec.v for assignments made by the first pass. *)
Definition bundle_write (p : prog) (s : env) : option (Z * list (Z * Z)) :=
  match bundle_can_encode p s with
  | None => None
  | Some (eb, total) =>
      let '(st, k) := write eb p (WR s [] true) in
      if k && wr_ok st then Some (total, wr_out st) else None
  end.

(* fields.cc:155-273 ReadVisitor: total_extension_bits_, pos_after_ext_size_, ok_ *)
Record rst := RS { r_total : Z; r_pos : Z; r_ok : bool }.

(* Outcome of a visit: go on, JXL_FAILURE, or kNotEnoughBytes *)
Inductive rres := RGo (s : env) (st : rst) | RFail | RShort.

(* U64 after a successful coder read: fields.cc:159-193 *)
Definition checked {A} (q : rprog A) (k : A -> rprog rres) : rprog rres :=
  let! v := q in Check (fun b => if b then k v else Ret RShort).

(* fields.cc:206-217 the sizes of the extensions present *)
Fixpoint ext_sizes (bits : list Z) (total : Z) (k : Z -> rprog rres) : rprog rres :=
  match bits with
  | [] => k total
  | _ :: bits' =>
      checked u64_read (fun n =>
        if total + n <? 2 ^ 64 then ext_sizes bits' (total + n) k else Ret RFail)
  end.

(* fields.cc:224-256 EndExtensions; enough_bytes_ is never changed in the code *)
Definition end_extensions (s : env) (st : rst) : rprog rres :=
  if r_pos st =? 0 then Ret (RGo s st)
  else Pos (fun bits_read =>
    let e := r_pos st + r_total st in
    if 2 ^ 64 <=? e then Ret RFail
    else if e <? bits_read then Ret RFail
    else
      let remaining := e - bits_read in
      if remaining =? 0 then Ret (RGo s st)
      else Skip remaining (Check (fun b => if b then Ret (RGo s st) else Ret RShort))).

(* fields.cc:201-222 BeginExtensions *)
Definition read_ext (x : Z) (s : env) (st : rst) : rprog rres :=
  checked u64_read (fun v =>
    let s1 := upd s x v in
    if v =? 0 then end_extensions s1 st
    else ext_sizes (set_bits v) (r_total st) (fun total =>
      Pos (fun pos =>
        if pos =? 0 then Ret RFail
        else end_extensions s1 (RS total pos (r_ok st))))).

(* fields.cc:159-193 *)
Definition read_field (c : coder) (x : Z) (cx : list Z) (fromw : list Z -> Z -> Z) (s : env) (st : rst)
  : rprog rres :=
  match c with
  | CBits n => checked (bits_read n) (fun v => Ret (RGo (upd s x (stored s cx fromw v)) st))
  | CU32 e => checked (u32_read e) (fun v => Ret (RGo (upd s x (stored s cx fromw v)) st))
  | CU64 => checked u64_read (fun v => Ret (RGo (upd s x (stored s cx fromw v)) st))
  | CF16 => checked f16_read (fun o =>
      match o with
      | Some v => Ret (RGo (upd s x (stored s cx fromw v)) st)
      | None => Ret (RGo s (RS (r_total st) (r_pos st) false))
      end)
  end.

Definition rloop (f : Z -> env -> rst -> rprog rres) :=
  fix go (n : nat) (i : Z) (s : env) (st : rst) {struct n} : rprog rres :=
  match n with
  | O => Ret (RGo s st)
  | S n' =>
      let! r := f i s st in
      match r with RGo s1 st1 => go n' (i + 1) s1 st1 | _ => Ret r end
  end.

Fixpoint read (p : prog) (s : env) (st : rst) : rprog rres :=
  match p with
  | Done => Ret (RGo s st)
  | Fld c d x cx tow fromw => read_field c x cx fromw s st
  | Seq p q =>
      let! r := read p s st in
      match r with RGo s1 st1 => read q s1 st1 | _ => Ret r end
  | If c p q => if holds c s then read p s st else read q s st
  | Branch c p q => if holds c s then read p s st else read q s st
  | AllDef p =>
      (* fields.h:240-244 and fields.cc:195.  When the bit itself is missing, Bool fails
         and AllDefault reports "not all default". *)
      let! v := bits_read 1 in
      Check (fun b =>
        if b && (v =? 1) then Ret (RGo (fst (set_default p s)) st) else read p s st)
  | Ext x => read_ext x s st
  | Fail c => Ret (if holds c s then RFail else RGo s st)
  | FailReading c => Ret (if holds c s then RFail else RGo s st)
  | Assign x e => Ret (RGo (upd s x (ev e s)) st)
  | For n body => rloop (fun i s st => read (body i) s st) (Z.to_nat (ev n s)) 0 s st
  end.

(* fields.cc:392-396 Bundle::Read *)
Inductive outcome := Loaded (s : env) | Invalid | NeedMore.

Definition bundle_read (p : prog) (s : env) : rprog outcome :=
  let! r := read p s (RS 0 0 true) in
  Ret match r with
      | RGo s1 st => if r_ok st then Loaded s1 else Invalid
      | RFail => Invalid
      | RShort => NeedMore
      end.

(* fields.cc:397-404 Bundle::CanRead *)
Definition can_read (p : prog) (s : env) : rprog bool :=
  let! r := read p s (RS 0 0 true) in
  Ret match r with RShort => false | _ => true end.
