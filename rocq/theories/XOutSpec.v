(** * What an output processor can rely on.

    The documentation (encode.h:727-818) describes a processor as a file with a
    position, a finalized position and at most one active buffer.  [obeys] is
    that description: the calls a processor may see, and what they do to its
    file. *)
From Coq Require Import ZArith List Bool Lia.
From Verif Require Import Base ListAux OutModel OutSpec XOutModel.
Import ListNotations.
Local Open Scope Z_scope.

Record pst := Pst {
  p_position : Z;
  p_finalized : Z;
  p_active : option Z;             (* the size of the active buffer *)
  p_file : Z -> option Z }.

Definition p_init : pst := Pst 0 0 None (fun _ => None).

(** The file with [bytes] written at [a]. *)
Definition put (F : Z -> option Z) (a : Z) (bytes : list Z) : Z -> option Z :=
  fun x => if (a <=? x) && (x <? a + zlen bytes) then znth bytes (x - a) else F x.

(** - a buffer is asked for only when none is active;
    - released bytes fit in the active buffer and lie behind the finalized
      position;
    - seeking happens only if there is a seek callback, without an active
      buffer, and never before the finalized position;
    - the finalized position is set without an active buffer, never goes back,
      and all bytes before it are there. *)
Inductive obeys (seekable : bool) : pst -> list xevent -> pst -> Prop :=
| ob_nil : forall a, obeys seekable a [] a
| ob_get : forall p f F asked given t b, 0 < asked -> 0 < given ->
    obeys seekable (Pst p f (Some given) F) t b ->
    obeys seekable (Pst p f None F) (XGet asked given :: t) b
| ob_release : forall p f n F bytes t b, zlen bytes <= n -> f <= p ->
    obeys seekable (Pst (p + zlen bytes) f None (put F p bytes)) t b ->
    obeys seekable (Pst p f (Some n) F) (XRelease bytes :: t) b
| ob_seek : forall p f F q t b, seekable = true -> f <= q ->
    obeys seekable (Pst q f None F) t b ->
    obeys seekable (Pst p f None F) (XSeek q :: t) b
| ob_final : forall p f F q t b, f <= q -> (forall x, 0 <= x < q -> F x <> None) ->
    obeys seekable (Pst p q None F) t b ->
    obeys seekable (Pst p f None F) (XFinal q :: t) b.

(** A processor that never asks to stop. *)
Definition keeps_going (P : proc) : Prop := forall t n, 0 < give P t n.

(** All bytes released, one after the other. *)
Fixpoint released (t : list xevent) : list Z :=
  match t with
  | [] => []
  | XRelease b :: r => b ++ released r
  | _ :: r => released r
  end.

(** What the encoder computes: as in [OutSpec], and the parts it goes back to
    fill in are not empty (every frame has a header, and a box has one). *)
Definition room_content (c : content) : Prop :=
  match c with
  | CStrings _ | CFast _ _ => True
  | CStream off _ _ _ _ _ => 0 < off
  | CFastStream _ off _ _ _ => 0 < off
  end.
Definition room_input (i : input) : Prop :=
  input_ok i /\
  match i_body i with
  | BFrame _ header _ c _ => header <> Some [] /\ room_content c
  | BBox _ _ => True
  end.
Definition room_queued (q : queued) : Prop :=
  match q with QFrame f => forall last, room_input (f last) | QBox i => room_input i end.
Definition call_ok (c : xcall) : Prop :=
  match c with CAdd q => room_queued q | _ => True end.

(** The inputs queued by a history, in order. *)
Fixpoint xadded (cs : list xcall) : list queued :=
  match cs with
  | [] => []
  | CAdd q :: t => q :: xadded t
  | _ :: t => xadded t
  end.

(** The calls the processor saw, whatever became of the run. *)
Definition seen (r : xres xenc) : list xevent :=
  match r with XOk e => x_trace (xwrapper e) | XBad _ t => t end.

(** Whether the processor asked to stop. *)
Definition asked_to_stop (t : list xevent) : bool :=
  existsb (fun e => match e with XGet _ given => given <=? 0 | _ => false end) t.
