(** * What an application relies on when it collects the encoder's output.

    The file is the concatenation, in the order queued, of the bytes of each
    queued input; the bytes of an input are its pieces laid out in file order,
    whatever order they were produced in. *)
From Coq Require Import ZArith List Bool Lia.
From Verif Require Import Base ListAux OutModel.
Import ListNotations.
Local Open Scope Z_scope.

(** File order of the pieces the encoder computed. *)
Definition piece_bytes (x : piece) : list Z :=
  match x with
  | PRaw b => b
  | PBoxPut h c => h ++ c
  | PBoxAppend h c => h ++ c
  end.

Definition content_bytes (c : content) : list Z :=
  match c with
  | CStrings l => concat l
  | CStream _ fh toc dcg pad groups => fh ++ toc ++ dcg ++ pad ++ concat groups
  | CFast _ b => b
  | CFastStream _ _ h g0 groups => h ++ g0 ++ concat groups
  end.

Definition opt_bytes (o : option (list Z)) : list Z :=
  match o with Some l => l | None => [] end.

Definition body_bytes (b : body) : list Z :=
  match b with
  | BBox h c => h ++ c
  | BFrame before header after c index =>
      concat before ++ opt_bytes header ++ concat after ++ content_bytes c
      ++ match index with Some (h, ic) => h ++ ic | None => [] end
  end.

Definition input_bytes (i : input) : list Z :=
  concat (map piece_bytes (i_prologue i)) ++ body_bytes (i_body i).

(** Box headers are not empty; the room left for the start of a frame has the
    size of what is put there (enc_frame.cc:2253 checks it); the fast lossless
    writer takes at least one byte and no more than fit; a frame has bytes. *)
Definition pick_ok (pick : Z -> Z -> Z) : Prop :=
  forall left size, 0 < left -> 32 <= size -> 1 <= pick left size <= Z.min left size.

Definition piece_ok (x : piece) : Prop :=
  match x with
  | PRaw _ => True
  | PBoxPut h c => h <> [] /\ c <> []
  | PBoxAppend h _ => h <> []
  end.

Definition content_ok (c : content) : Prop :=
  match c with
  | CStrings _ => True
  | CStream off fh toc dcg pad _ =>
      off = zlen fh + zlen toc + zlen dcg + zlen pad
  | CFast pick _ => pick_ok pick
  | CFastStream pick off h g0 _ => pick_ok pick /\ off = zlen h + zlen g0
  end.

Definition body_ok (b : body) : Prop :=
  match b with
  | BBox h _ => h <> []
  | BFrame _ _ _ c index =>
      content_ok c /\ content_bytes c <> []
      /\ match index with Some (h, _) => h <> [] | None => True end
  end.

Definition input_ok (i : input) : Prop :=
  Forall piece_ok (i_prologue i) /\ body_ok (i_body i).

Definition queued_ok (q : queued) : Prop :=
  match q with QFrame f => forall last, input_ok (f last) | QBox i => input_ok i end.

Definition event_ok (ev : event) : Prop :=
  match ev with EAdd q => queued_ok q | _ => True end.

(** The inputs queued by a history, in order. *)
Fixpoint added (evs : list event) : list queued :=
  match evs with
  | [] => []
  | EAdd q :: t => q :: added t
  | _ :: t => added t
  end.

(** The bytes of an input that was coded with the given value of is_last. *)
Definition coded (q : queued) (last : bool) : list Z :=
  match q with QFrame f => input_bytes (f last) | QBox i => input_bytes i end.

(** The bytes of inputs coded with the given values of is_last, in order. *)
Definition all_coded (qs : list queued) (flags : list bool) : list Z :=
  concat (map (fun qb => coded (fst qb) (snd qb)) (combine qs flags)).

(** The bytes a queue stands for when nothing is added to it any more: a frame
    is the last one if the frames are closed and no frame comes behind it. *)
Fixpoint queue_bytes (cl : bool) (q : list queued) : list Z :=
  match q with
  | [] => []
  | i :: t => coded i (cl && negb (existsb is_frame t)) ++ queue_bytes cl t
  end.

(** Cutting a byte string: what a caller with buffers of these sizes gets. *)
Fixpoint cut (bytes : list Z) (sizes : list nat) : list (list Z) :=
  match sizes with
  | [] => []
  | n :: t => firstn n bytes :: cut (skipn n bytes) t
  end.

(** NEED_MORE_OUTPUT exactly as long as bytes remain. *)
Fixpoint statuses (bytes : list Z) (sizes : list nat) : list status :=
  match sizes with
  | [] => []
  | n :: t => match skipn n bytes with [] => Success | _ => MoreOutput end
              :: statuses (skipn n bytes) t
  end.
