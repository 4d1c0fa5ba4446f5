(* Specification vocabulary for bundles. *)
From Verif Require Import Base BitReaderModel BitProg FieldsModel FieldsSpec BundleModel.

(* Two bundles agree on the members D. *)
Definition agree (D : list Z) (a b : env) : Prop := forall x, In x D -> a x = b x.

Fixpoint zrange (n : nat) (i : Z) : list Z :=
  match n with O => [] | S n' => i :: zrange n' (i + 1) end.

Definition coder_ok (c : coder) : Prop :=
  match c with
  | CBits n => 0 <= n <= 32
  | CU32 e => exists a b c d, distr_ok a /\ distr_ok b /\ distr_ok c /\ distr_ok d /\ e = enc4 a b c d
  | CU64 => True
  | CF16 => True
  end.

(* The value has the C++ type of the field.  A float must be a half-precision number
   (not -0), and must not be a different number that the all-default test takes for the
   default d: see C04 and C05_near_default_refuted. *)
Definition exact_half (v : Z) : Prop :=
  exists h, 0 <= h < 65536 /\ half_finite h = true /\ h <> 0x8000 /\ f16_decode h = Some v.
Definition typed (c : coder) (d v : Z) : Prop :=
  match c with
  | CBits _ => is_u32 v
  | CU32 _ => is_u32 v
  | CU64 => is_u64 v
  | CF16 => exact_half v /\ (f16_near v d = true -> v = d)
  end.

(* [valid p s]: on the path that p takes on the members s, all values have the type of
   their field, the conversions around a field are inverse to each other, derived
   members hold their derived values, and no validity check of p fails. *)
Fixpoint valid (p : prog) (s : env) : Prop :=
  match p with
  | Done => True
  | Fld c d x cx tow fromw =>
      coder_ok c /\ typed c d (shown s x cx tow) /\ stored s cx fromw (shown s x cx tow) = s x
  | Seq p q => valid p s /\ valid q s
  | If c p q | Branch c p q => if holds c s then valid p s else valid q s
  | AllDef p => valid p s
  | Ext x => is_u64 (s x)
  | Fail c | FailReading c => holds c s = false
  | Assign x e => s x = ev e s
  | For n body => forall i, 0 <= i < ev n s -> valid (body i) s
  end.

(* All extension words on the path are zero. *)
Fixpoint no_extensions (p : prog) (s : env) : bool :=
  match p with
  | Ext x => s x =? 0
  | Seq p q => no_extensions p s && no_extensions q s
  | If c p q | Branch c p q => if holds c s then no_extensions p s else no_extensions q s
  | AllDef p => bundle_all_default p s || no_extensions p s
  | For n body => forallb (fun i => no_extensions (body i) s) (zrange (Z.to_nat (ev n s)) 0)
  | _ => true
  end.

Definition inb (x : Z) (l : list Z) : bool := existsb (Z.eqb x) l.
Definition subset (a b : list Z) : bool := forallb (fun x => inb x b) a.
Definition without (x : Z) (l : list Z) : list Z := filter (fun y => negb (y =? x)) l.
Definition inter (a b : list Z) : list Z := filter (fun x => inb x b) a.

(* [determined D p s]: the members whose value the stream determines once p was visited
   on members s, when those in D are known beforehand. *)
Fixpoint determined (D : list Z) (p : prog) (s : env) : list Z :=
  match p with
  | Fld _ _ x _ _ _ => x :: D
  | Ext x => x :: D
  | Seq p q => determined (determined D p s) q s
  | If c p q | Branch c p q => if holds c s then determined D p s else determined D q s
  | AllDef p => determined D p s
  | Assign x e => if subset (rds e) D then x :: D else without x D
  | For n body => fold_left (fun D i => determined D (body i) s) (zrange (Z.to_nat (ev n s)) 0) D
  | _ => D
  end.

(* The same over all paths: members determined on every path. *)
Fixpoint surely (D : list Z) (p : prog) : list Z :=
  match p with
  | Fld _ _ x _ _ _ => x :: D
  | Ext x => x :: D
  | Seq p q => surely (surely D p) q
  | If c p q | Branch c p q => inter (surely D p) (surely D q)
  | AllDef p => surely D p
  | Assign x e => if subset (rds e) D then x :: D else without x D
  | _ => D
  end.
Definition surely_loop (D : list Z) (body : Z -> prog) (k : nat) : list Z :=
  fold_left (fun D i => surely D (body i)) (zrange k 0) D.

(* Members that p may write. *)
Fixpoint touches (p : prog) (y : Z) : Prop :=
  match p with
  | Fld _ _ x _ _ _ | Ext x | Assign x _ => y = x
  | Seq p q | If _ p q | Branch _ p q => touches p y \/ touches q y
  | AllDef p => touches p y
  | For n body => exists i, 0 <= i /\ touches (body i) y
  | _ => False
  end.

(* The all-default shortcut is consistent: if the members s are all default then
   SetDefault reproduces them.  D: members known before; U: members that may be known. *)
Definition defaults_ok (U : Z -> Prop) (D : list Z) (p : prog) : Prop :=
  forall D' s r, incl D D' -> (forall x, In x D' -> U x) -> agree D' s r ->
  valid p s -> bundle_all_default p s = true ->
  agree (determined D' p s) s (fst (set_default p r)).

(* A well-formed VisitFields routine: conditions, loop bounds, checks and conversions
   only depend on members already known at that point, and the all-default shortcuts are
   consistent. *)
Fixpoint well_formed (U : Z -> Prop) (D : list Z) (p : prog) : Prop :=
  match p with
  | Done | Ext _ | Assign _ _ => True
  | Fld _ _ x cx _ _ => subset cx D = true
  | Seq p q => well_formed U D p /\ well_formed (fun y => U y \/ touches p y) (surely D p) q
  | If c p q | Branch c p q => subset (rds c) D = true /\ well_formed U D p /\ well_formed U D q
  | AllDef p => well_formed U D p /\ defaults_ok U D p
  | Fail c | FailReading c => subset (rds c) D = true
  | For n body =>
      subset (rds n) D = true /\
      forall k : nat, incl D (surely_loop D body k) /\
        well_formed (fun y => U y \/ exists i, 0 <= i < Z.of_nat k /\ touches (body i) y)
                    (surely_loop D body k) (body (Z.of_nat k))
  end.

(* No extension word at all. *)
Fixpoint ext_free (p : prog) : Prop :=
  match p with
  | Ext _ => False
  | Seq p q | If _ p q | Branch _ p q => ext_free p /\ ext_free q
  | AllDef p => ext_free p
  | For _ body => forall i, ext_free (body i)
  | _ => True
  end.

(* Bundles are extensible only at their end: either there is no extension word, or the
   last thing visited is one. *)
Definition extensible_at_end (p : prog) : Prop :=
  ext_free p \/ (exists q x, p = Seq q (Ext x)) \/ (exists q x, p = AllDef (Seq q (Ext x))).

(* What an encoder that knows more extensions writes instead of the empty extension
   word: the word, one size per extension present, and that many bits. *)
Definition foreign_extension (v : Z) (sizes : list Z) (payload : list bool) : list bool :=
  fields_bits (u64_write v ++ concat (map u64_write sizes)) ++ payload.
Definition zsum (l : list Z) : Z := fold_right Z.add 0 l.

(* [parses_to p e a]: p, run at the bit string e anywhere within a stream of less than
   2^64 bits, gives the result a and consumes exactly e. *)
Definition parses_to {A} (p : rprog A) (e : list bool) (a : A) : Prop :=
  forall pre post av, 0 <= av <= 56 -> zlen pre + zlen e < 2 ^ 64 ->
  exists av', run_bits (pre ++ e ++ post) (zlen pre) av p = Some (a, (zlen pre + zlen e, av')) /\ 0 <= av' <= 56.

(* ---- truncated streams ---- *)

(* Visiting p with all input used up goes on or asks for more input. *)
Fixpoint quiet (p : prog) : Prop :=
  match p with
  | Fail _ | FailReading _ => False
  | Seq p q | If _ p q | Branch _ p q => quiet p /\ quiet q
  | AllDef p => quiet p
  | For _ body => forall i, quiet (body i)
  | _ => True
  end.
(* Visiting p with all input used up asks for more input. *)
Fixpoint needs_input (p : prog) : Prop :=
  match p with
  | Fld _ _ _ _ _ _ | Ext _ => True
  | Seq p q => needs_input p \/ (quiet p /\ needs_input q)
  | If _ p q | Branch _ p q => needs_input p /\ needs_input q
  | AllDef p => needs_input p
  | _ => False
  end.
(* Every all-default bit is followed by a field on each path, and fixed-width fields have
   at most 32 bits. *)
Fixpoint guarded (p : prog) : Prop :=
  match p with
  | Fld c _ _ _ _ _ => match c with CBits n => 0 <= n <= 32 | _ => True end
  | Seq p q | If _ p q | Branch _ p q => guarded p /\ guarded q
  | AllDef p => guarded p /\ needs_input p
  | For _ body => forall i, guarded (body i)
  | _ => True
  end.

(* Bundle::Read with the BitReader over the bytes bs: the outcome and the number of bits
   consumed.  [None]: undefined behaviour. *)
Definition decode_bundle (p : prog) (r : env) (bs : list Z) : option (outcome * Z) :=
  match reader_init bs with
  | None => None
  | Some r0 =>
      match run_reader bs r0 (bundle_read p r) with
      | None => None
      | Some (o, r') => Some (o, total_bits_consumed r')
      end
  end.

(* What C05 asks of a VisitFields routine, when the members D are known beforehand (they
   are set by the code that reads, e.g. nonserialized_is_modular). *)
Definition round_trips (D : list Z) (p : prog) : Prop :=
  forall s r total ws,
  valid p s -> agree D s r -> bundle_write p s = Some (total, ws) ->
  Forall field_ok ws /\ width_sum ws = total /\
  exists r', parses_to (bundle_read p r) (fields_bits ws) (Loaded r') /\ agree (determined D p s) s r'.
