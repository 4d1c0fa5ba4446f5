(* Specification for permutations in the codestream and the table of contents (C18). *)
From Verif Require Import Base AnsModel AnsSpec CodesModel CodesSpec LehmerSpec TocModel.

(* ---- what an encoder may make of a list of tokens ---- *)

(* The tokens ts, some of which are copies, stand for the tokens raw. *)
Definition stands_for (minlen : Z) (ts raw : list token) : Prop :=
  exists l, expand minlen 0 0 [] ts = Some l /\
    Forall2 (fun x t => (fst x = Some (context t) \/ fst x = None) /\ snd x = value t) l raw.

(* A code for n contexts with which ts, standing for raw, can be written. *)
Definition coding_of (n : nat) (mp : map_plan) (p : plan) (ts raw : list token) : Prop :=
  plan_ok n p /\ (1 < zlen (p_map p) -> map_plan_ok mp (p_map p) (zlen (p_configs p))) /\
  planned p 0 ts /\ stands_for (min_length (p_lz p)) ts raw.

(* the first k positions are left alone *)
Definition fixes (k : Z) (p : list Z) : Prop := forall i, 0 <= i < k -> znth p i = Some i.

(* ---- where sections are ---- *)

(* the greatest size of a section that the table of contents can hold *)
Definition max_section : Z := 4211712 + 2 ^ 30 - 1.

Definition total_of (l : list Z) : Z := fold_right Z.add 0 l.

(* what is between two bytes *)
Definition slice (l : list Z) (from len : Z) : list Z := firstn (Z.to_nat len) (skipn (Z.to_nat from) l).

(* The sections, given by their offsets and sizes, share out the bytes 0 ... total - 1: they are
   within, and each byte is in exactly one of them. *)
Definition share_out (offsets sizes : list Z) (total : Z) : Prop :=
  zlen offsets = zlen sizes /\
  (forall i o s, znth offsets i = Some o -> znth sizes i = Some s -> 0 <= o /\ 0 <= s /\ o + s <= total) /\
  (forall b, 0 <= b < total ->
    exists i, (exists o s, znth offsets i = Some o /\ znth sizes i = Some s /\ o <= b < o + s) /\
      forall i' o s, znth offsets i' = Some o -> znth sizes i' = Some s -> o <= b < o + s -> i' = i).

(* ---- how sections are numbered ---- *)

(* the sections of a frame of np passes over ng groups and ndc DC groups *)
Definition is_section (ng ndc np : Z) (s : section) : Prop :=
  match s with
  | DcGlobal | AcGlobal => True
  | DcGroup g => 0 <= g < ndc
  | AcGroup p g => 0 <= p < np /\ 0 <= g < ng
  end.
Definition id_of_section (ng ndc : Z) (s : section) : Z :=
  match s with
  | DcGlobal => 0
  | DcGroup g => 1 + g
  | AcGlobal => 1 + ndc
  | AcGroup p g => 2 + ndc + p * ng + g
  end.
