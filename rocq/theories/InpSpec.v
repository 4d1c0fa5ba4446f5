(* What a file in the container format is, and what a user may expect to observe. *)
From Coq Require Import Permutation.
From Verif Require Import Base ContainerSpec InpModel.

(* A box: its header bytes, type, contents; the last box may extend to the end of the file. *)
Record box := mkB { b_head : list Z; b_type : list Z; b_data : list Z; b_unb : bool }.

Definition box_ok (b : box) : Prop :=
  bytes_ok (b_head b) /\ bytes_ok (b_data b) /\
  box_header (b_head b) (zlen (b_head b)) (b_type b)
             (if b_unb b then 0 else zlen (b_head b) + zlen (b_data b)).

Definition layout (bs : list box) : list Z := concat (map (fun b => b_head b ++ b_data b) bs).

(* "JXL ", "ftyp", "jxl ", "jxlc", "jxlp" *)
Definition JXL : list Z := [74; 88; 76; 32].
Definition FTYP : list Z := [102; 116; 121; 112].
Definition BRAND : list Z := [106; 120; 108; 32].
Definition JXLC : list Z := [106; 120; 108; 99].
Definition JXLP : list Z := [106; 120; 108; 112].

(* a part of a codestream: its number, whether it is the last, its bytes *)
Definition part : Type := Z * bool * list Z.

(* the contents of a jxlp box holding the part *)
Definition holds_part (b : box) (x : part) : Prop :=
  let '(i, is_last, bytes) := x in
  exists n, length n = 4%nat /\ b_data b = n ++ bytes /\ 0 <= i < 2 ^ 31 /\
            big_endian n = i + (if is_last then 2 ^ 31 else 0).

(* the parts held by the jxlp boxes of the list, in the order of the file; every other box is
   neither jxlp nor jxlc *)
Inductive parts : list box -> list part -> Prop :=
| parts_nil : parts [] []
| parts_jxlp b x bs xs : b_type b = JXLP -> holds_part b x -> (b_unb b = true -> snd (fst x) = true) ->
    parts bs xs -> parts (b :: bs) (x :: xs)
| parts_other b bs xs : b_type b <> JXLP -> b_type b <> JXLC -> parts bs xs -> parts (b :: bs) xs.

(* the pieces of a codestream numbered from i *)
Fixpoint numbered (i : Z) (pieces : list (list Z)) : list part :=
  match pieces with
  | [] => []
  | x :: rest => (i, match rest with [] => true | _ => false end, x) :: numbered (i + 1) rest
  end.

(* The boxes after ftyp carry the codestream C in file format version ver: in one jxlc box, or
   cut in pieces held by jxlp boxes.  In version 1 these may come in any order. *)
Inductive carries (ver : Z) : list box -> list Z -> Prop :=
| carries_jxlc before b after : parts before [] -> parts after [] -> b_type b = JXLC ->
    carries ver (before ++ b :: after) (b_data b)
| carries_jxlp bs xs pieces : parts bs xs -> pieces <> [] -> zlen pieces <= 2 ^ 20 ->
    Permutation xs (numbered 0 pieces) -> (ver = 0 -> xs = numbered 0 pieces) ->
    carries ver bs (concat pieces).

(* The whole file: signature box, ftyp box, other boxes. *)
Inductive container (ver : Z) : list box -> list Z -> Prop :=
| container_boxes sig ftyp v more rest C :
    box_ok sig -> b_type sig = JXL -> b_unb sig = false ->
    box_ok ftyp -> b_type ftyp = FTYP -> b_unb ftyp = false ->
    b_data ftyp = BRAND ++ v ++ more -> length v = 4%nat -> big_endian v = ver -> 4 <= zlen more ->
    0 <= ver <= 1 ->
    Forall box_ok rest ->
    Forall (fun b => b_type b <> JXL /\ b_type b <> FTYP) rest ->
    (forall before b after, rest = before ++ b :: after -> b_unb b = true -> after = []) ->
    carries ver rest C ->
    container ver (sig :: ftyp :: rest) C.

(* A file holding the codestream C: a container, or the naked codestream. *)
Definition holds (c : config) (file : list Z) (C : list Z) : Prop :=
  zlen file < 2 ^ 46 /\
  if have_container c then exists ver bs, container ver bs C /\ file = layout bs else file = C.

(* The codestream as shown to the parser: p bytes are behind it, and every span continues
   there.  parser_at, shown_to: where it is afterwards, and how far it has seen. *)
Fixpoint spans_ok (C : list Z) (p : Z) (os : list obs) : Prop :=
  match os with
  | [] => True
  | OSpan s :: r => prefix_of s (skipn (Z.to_nat p) C) /\ spans_ok C p r
  | OAdv n :: r => 0 <= n /\ spans_ok C (p + n) r
  | _ :: r => spans_ok C p r
  end.
Fixpoint parser_at (p : Z) (os : list obs) : Z :=
  match os with
  | [] => p
  | OAdv n :: r => parser_at (p + n) r
  | _ :: r => parser_at p r
  end.
Fixpoint shown_to (p seen : Z) (os : list obs) : Z :=
  match os with
  | [] => seen
  | OSpan s :: r => shown_to p (Z.max seen (p + zlen s)) r
  | OAdv n :: r => shown_to (p + n) seen r
  | _ :: r => shown_to p seen r
  end.

(* the bytes the parser took: it moves on inside the last span it was shown *)
Fixpoint taken (span : list Z) (os : list obs) : list Z :=
  match os with
  | [] => []
  | OSpan s :: r => taken s r
  | OAdv n :: r => firstn (Z.to_nat n) span ++ taken (skipn (Z.to_nat n) span) r
  | _ :: r => taken span r
  end.

(* A parser that depends on the bytes only: in some state, from the bytes shown to it, it finds
   that there are not enough of them, or moves on by some of them, with or without an event to
   return.  More bytes than it needs make no difference. *)
Definition parser (S : Type) : Type := S -> list Z -> option (Z * bool * S).
Definition steady {S} (P : parser S) : Prop :=
  forall st s t n ev st', P st s = Some (n, ev, st') -> 0 <= n <= zlen s /\ P st (s ++ t) = Some (n, ev, st').

(* what it does with all of the codestream there *)
Fixpoint reading {S} (P : parser S) (steps : nat) (st : S) (bytes : list Z) : list (Z * bool) :=
  match steps with
  | O => []
  | Datatypes.S steps =>
      match P st bytes with
      | None => []
      | Some (n, ev, st') => (n, ev) :: reading P steps st' (skipn (Z.to_nat n) bytes)
      end
  end.

(* a trace in which it was at work, moving and returning events as listed *)
Inductive follows {S} (P : parser S) : S -> list obs -> list (Z * bool) -> Prop :=
| follows_end st : follows P st [] []
| follows_short st s os ms : P st s = None -> follows P st os ms -> follows P st (OSpan s :: os) ms
| follows_move st s n st' os ms : P st s = Some (n, false, st') -> follows P st' os ms ->
    follows P st (OSpan s :: OAdv n :: OAdv 0 :: os) ((n, false) :: ms)
| follows_event st s n st' os ms : P st s = Some (n, true, st') -> follows P st' os ms ->
    follows P st (OSpan s :: OAdv n :: OAdv 0 :: ORet SEvent :: os) ((n, true) :: ms)
| follows_other st o os ms : match o with OSpan _ | OAdv _ | ORet SEvent => False | _ => True end ->
    follows P st os ms -> follows P st (o :: os) ms.

(* a call in which a frame is skipped, or in which the parser finds the end of the image *)
Definition skips (op : uop) : Prop :=
  match op with
  | UProcess _ acts => exists inside n e, In (AStep inside n e) acts /\ 0 < n
  | USkip _ => True
  | _ => False
  end.
Definition finishes (op : uop) : Prop := match op with UProcess _ acts => In ADone acts | _ => False end.

(* Box contents as delivered: boxes still to come, the current one, its bytes delivered so far,
   the room in the buffer of the user, whether it was set for this box. *)
Record delivery := mkDel { y_todo : list box; y_cur : option box; y_got : list Z; y_room : option Z; y_on : bool }.

(* One observation.  complete: JXL_DEC_BOX_COMPLETE is subscribed to. *)
Inductive delivers : delivery -> obs -> delivery -> Prop :=
| del_box b todo cur got room on :
    (on = true -> exists b', cur = Some b' /\ got = b_data b') ->
    delivers (mkDel (b :: todo) cur got room on) (ORet SBox) (mkDel todo (Some b) [] room false)
| del_buffer todo cur got on n : 0 <= n ->
    delivers (mkDel todo cur got None on) (OBuf n) (mkDel todo cur got (Some n) true)
| del_release todo cur got room on :
    delivers (mkDel todo cur got room on) (ORel (match room with Some n => n | None => 0 end))
             (mkDel todo cur got None false)
| del_data todo b got room s :
    prefix_of (got ++ s) (b_data b) -> zlen s <= room ->
    delivers (mkDel todo (Some b) got (Some room) true) (OData s)
             (mkDel todo (Some b) (got ++ s) (Some (room - zlen s)) true)
| del_more todo b got :
    zlen got < zlen (b_data b) ->
    delivers (mkDel todo (Some b) got (Some 0) true) (ORet SBoxMoreOutput)
             (mkDel todo (Some b) got (Some 0) true)
| del_complete todo b got room :
    (b_unb b = false -> got = b_data b) ->
    delivers (mkDel todo (Some b) got (Some room) true) (ORet SBoxComplete)
             (mkDel todo (Some b) got (Some room) true)
| del_other y o : match o with OSpan _ | OAdv _ => True
                  | ORet s => s <> SBox /\ s <> SBoxMoreOutput /\ s <> SBoxComplete | _ => False end ->
    delivers y o y.

(* A whole trace.  When the contents of a box are complete and completion is to be reported, the
   next thing observed is the report. *)
Definition completes (y : delivery) : bool :=
  match y_cur y with
  | Some b => negb (b_unb b) && (zlen (y_got y) =? zlen (b_data b))
  | None => false
  end.
Fixpoint delivered (complete : bool) (y : delivery) (os : list obs) (y' : delivery) : Prop :=
  match os with
  | [] => y = y'
  | o :: r => exists y1, delivers y o y1 /\ delivered complete y1 r y' /\
      match o with
      | OData _ => complete = true -> completes y1 = true -> exists r', r = ORet SBoxComplete :: r'
      | _ => True
      end
  end.
