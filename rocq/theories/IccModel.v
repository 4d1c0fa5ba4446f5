(* The transform of ICC profiles before entropy coding: lib/jxl/enc_icc_codec.cc (PredictICC), lib/jxl/icc_codec.cc
   (UnpredictICC, CheckPreamble) and lib/jxl/icc_codec_common.{h,cc}.  Byte arrays are lists; reading outside of one is the
   outcome Oob.  Allocation always succeeds.  size_t has 64 bits. *)
From Coq Require Import Ascii String.
From Verif Require Import Base OMap.

(* Status: success, JXL_FAILURE, an access outside of an array, or more iterations than the fuel allows *)
Inductive res (A : Type) := Ok (a : A) | Fail | Oob | NoFuel.
Arguments Ok {A} a. Arguments Fail {A}. Arguments Oob {A}. Arguments NoFuel {A}.
Definition bind {A B} (p : res A) (f : A -> res B) : res B :=
  match p with Ok a => f a | Fail => Fail | Oob => Oob | NoFuel => NoFuel end.
Notation "'let*' x ':=' p 'in' q" := (bind p (fun x => q)) (at level 200, x pattern, p at level 100, q at level 200).

Definition at_ (l : list Z) (i : Z) : res Z := match znth l i with Some b => Ok b | None => Oob end.
Fixpoint mapr {A B} (f : A -> res B) (l : list A) : res (list B) :=
  match l with [] => Ok [] | a :: l => let* b := f a in let* bs := mapr f l in Ok (b :: bs) end.
(* the bytes l[i], ..., l[i + n - 1] *)
Definition reads (l : list Z) (i n : Z) : res (list Z) := mapr (at_ l) (zseq i (Z.to_nat n)).

(* icc_codec_common.h:20-88: tags and commands.  kw "abcd" is the Tag {{'a', 'b', 'c', 'd'}}. *)
Definition kw (s : string) : list Z := List.map (fun c => Z.of_N (N_of_ascii c)) (list_ascii_of_string s).
Definition tag_eq (a b : list Z) : bool := if list_eq_dec Z.eq_dec a b then true else false.
Definition header_size := 128.
Definition tag_strings : list (list Z) := List.map kw
  ["cprt"; "wtpt"; "bkpt"; "rXYZ"; "gXYZ"; "bXYZ"; "kXYZ"; "rTRC"; "gTRC"; "bTRC"; "kTRC"; "chad"; "desc"; "chrm"; "dmnd"; "dmdd"; "lumi"]%string.
Definition type_strings : list (list Z) := List.map kw ["XYZ "; "desc"; "text"; "mluc"; "para"; "curv"; "sf32"; "gbd "]%string.
Definition tag_unknown := 1.
Definition tag_TRC := 2.
Definition tag_XYZ := 3.
Definition tag_string_first := 4.
Definition cmd_insert := 1.
Definition cmd_shuffle2 := 2.
Definition cmd_shuffle4 := 3.
Definition cmd_predict := 4.
Definition cmd_XYZ := 10.
Definition cmd_type_first := 16.
Definition flag_offset := 64.
Definition flag_size := 128.
Definition size_limit := (2 ^ 32 - 1) / 4.   (* kSizeLimit, enc_icc_codec.cc:113 *)

(* LoadBE32, StoreBE32 of base/byte_order.h *)
Definition be32 (a b c d : Z) : Z := a * 2 ^ 24 + b * 2 ^ 16 + c * 2 ^ 8 + d.
Definition be_bytes (v : Z) : list Z := [w8 (v / 2 ^ 24); w8 (v / 2 ^ 16); w8 (v / 2 ^ 8); w8 v].

(* icc_codec_common.cc:51-53 *)
Definition decode_u32 (data : list Z) (size pos : Z) : res Z :=
  if size <? pos + 4 then Ok 0 else
  let* a := at_ data pos in let* b := at_ data (pos + 1) in let* c := at_ data (pos + 2) in let* d := at_ data (pos + 3) in
  Ok (be32 a b c d).
(* icc_codec_common.cc:62-65 *)
Definition decode_keyword (data : list Z) (size pos : Z) : res (list Z) :=
  if size <? pos + 4 then Ok (kw "    ") else reads data pos 4.
(* icc_codec_common.cc:77-82 *)
Definition check_bounds (a b size : Z) : res unit :=
  let pos := w64 (a + b) in
  if size <? pos then Fail else if pos <? a then Fail else Ok tt.
(* icc_codec_common.cc:84-88 *)
Definition check_32 (v : Z) : res unit := if v <? 2 ^ 32 then Ok tt else Fail.
(* icc_codec_common.cc:90-105 *)
Definition initial_header (size : Z) : list Z :=
  be_bytes (w32 size) ++ [0; 0; 0; 0; 4; 0; 0; 0] ++ kw "mntr" ++ kw "RGB " ++ kw "XYZ " ++ repeat 0 12 ++ kw "acsp"
  ++ repeat 0 28 ++ [0; 0; 246; 214; 0; 1; 0; 0; 0; 0; 211; 45] ++ repeat 0 48.
Definition puts (l : list Z) (i : Z) (v : list Z) : list Z := snd (fold_left (fun '(i, l) b => (i + 1, put l i b)) v (i, l)).
(* icc_codec_common.cc:107-139 *)
Definition predict_header (icc : list Z) (size : Z) (header : list Z) (pos : Z) : res (list Z) :=
  if (pos =? 8) && (8 <=? size) then let* v := reads icc 4 4 in Ok (puts header 80 v)
  else if (pos =? 41) && (41 <=? size) then
    let* c := at_ icc 40 in
    Ok (if c =? 65 (* A *) then puts header 41 [80; 80; 76] (* PPL *)
        else if c =? 77 (* M *) then puts header 41 [83; 70; 84] (* SFT *) else header)
  else if (pos =? 42) && (42 <=? size) then
    let* c := at_ icc 40 in let* d := at_ icc 41 in
    Ok (if (c =? 83) && (d =? 71) then puts header 42 [73; 32] (* SG -> I *)
        else if (c =? 83) && (d =? 85) then puts header 42 [78; 87] (* SU -> NW *) else header)
  else Ok header.
(* PredictValue, icc_codec_common.cc:43-48, before the conversion to T *)
Definition predict_value (p1 p2 p3 order : Z) : Z :=
  if order =? 0 then p1 else if order =? 1 then 2 * p1 - p2 else if order =? 2 then 3 * p1 - 3 * p2 + p3 else 0.
(* icc_codec_common.cc:141-169 *)
Definition linear_predict (data : list Z) (start i stride width order : Z) : res Z :=
  let pos := start + i in
  if width =? 1 then
    let* p1 := at_ data (w64 (pos - stride)) in
    let* p2 := at_ data (w64 (pos - stride * 2)) in
    let* p3 := at_ data (w64 (pos - stride * 3)) in
    Ok (w8 (predict_value p1 p2 p3 order))
  else if width =? 2 then
    let p := start + Z.ldiff i 1 in
    let two q := let* a := at_ data (w64 q) in let* b := at_ data (w64 (q + 1)) in Ok (a * 2 ^ 8 + b) in
    let* p1 := two (p - stride) in let* p2 := two (p - stride * 2) in let* p3 := two (p - stride * 3) in
    let pred := w16 (predict_value p1 p2 p3 order) in
    Ok (if Z.odd i then w8 pred else w8 (pred / 2 ^ 8))
  else
    let p := start + Z.ldiff i 3 in
    let* p1 := decode_u32 data pos (w64 (p - stride)) in
    let* p2 := decode_u32 data pos (w64 (p - stride * 2)) in
    let* p3 := decode_u32 data pos (w64 (p - stride * 3)) in
    let pred := w32 (predict_value p1 p2 p3 order) in
    Ok (w8 (Z.shiftr pred ((3 - Z.land i 3) * 8))).

(* The values of j in Shuffle, icc_codec.cc:42-47, and in Unshuffle, enc_icc_codec.cc:46-52 *)
Fixpoint indices (n : nat) (size height s j : Z) : list Z :=
  match n with
  | O => []
  | Datatypes.S n =>
    j :: (let j := j + height in if size <=? j then indices n size height (s + 1) (s + 1) else indices n size height s j)
  end.
Definition index_list (size width : Z) : list Z := indices (Z.to_nat size) size ((size + width - 1) / width) 0 0.
(* icc_codec.cc:34-53 *)
Definition shuffle (data : list Z) (width : Z) : res (list Z) := mapr (at_ data) (index_list (zlen data) width).
(* enc_icc_codec.cc:38-59; what result contains at first is not specified: here it is zero *)
Fixpoint scatter (js data result : list Z) : res (list Z) :=
  match js, data with
  | j :: js, b :: data => if (0 <=? j) && (j <? zlen result) then scatter js data (put result j b) else Oob
  | _, _ => Ok result
  end.
Definition unshuffle (data : list Z) (width : Z) : res (list Z) :=
  scatter (index_list (zlen data) width) data (repeat 0 (List.length data)).

(* DecodeVarInt, icc_codec.cc:62-92: the value and the position after it.  ret is below 2^(7 i). *)
Fixpoint decode_varint_ (n : nat) (input : list Z) (size pos shift ret : Z) : res (Z * Z) :=
  if size <=? pos then Fail else
  let* byte := at_ input pos in
  let pos := pos + 1 in
  match n with
  | O => if Z.testbit byte 7 then Fail
         else if negb (Z.land byte 126 =? 0) then Fail
         else Ok (Z.lor ret (Z.shiftl (Z.land byte 1) shift), pos)
  | Datatypes.S n =>
    let ret := Z.lor ret (Z.shiftl (Z.land byte 127) shift) in
    if Z.testbit byte 7 then decode_varint_ n input size pos (shift + 7) ret else Ok (ret, pos)
  end.
Definition decode_varint (input : list Z) (size pos : Z) : res (Z * Z) := decode_varint_ 9 input size pos 0 0.

(* EncodeVarInt, enc_icc_codec.cc:89-111: there is room for nine bytes *)
Fixpoint encode_varint_ (room : nat) (value : Z) : res (list Z) :=
  match room with
  | O => Oob
  | Datatypes.S room => if 127 <? value then let* r := encode_varint_ room (value / 2 ^ 7) in Ok (Z.lor (Z.land value 127) 128 :: r)
                        else Ok [Z.land value 127]
  end.
Definition encode_varint (value : Z) : res (list Z) := encode_varint_ 9 value.

(* icc_codec.cc:96-117: the profile can be refused after its first bytes *)
Definition check_preamble (data : list Z) (enc_size : Z) : res unit :=
  let size := zlen data in
  let* (osize, pos) := decode_varint data size 0 in
  let* _ := check_32 osize in
  let* (csize, pos) := decode_varint data size pos in
  let* _ := check_32 csize in
  let* _ := check_bounds pos csize size in
  if osize + 65536 <? enc_size then Fail else if 2 ^ 28 <? osize then Fail else Ok tt.
(* What ICCReader::Init does with the first bytes of enc, icc_codec.cc:347-366: the array has min(1024, enc_size) bytes,
   of which the first 20 are known *)
Definition init_reader (enc : list Z) : res unit :=
  if 20 <? zlen enc then check_preamble (firstn 20 enc ++ repeat 0 (Z.to_nat (Z.min 1024 (zlen enc) - 20))) (zlen enc) else Ok tt.

(** * UnpredictICC, icc_codec.cc:120-342 *)
(* 139-151: Some result if the profile ends within the header *)
Fixpoint unpredict_header (n : nat) (enc : list Z) (osize cpos cend i pos : Z) (header result : list Z)
  : res (option (list Z) * Z * list Z) :=
  if zlen result =? osize then
    if negb (cpos =? cend) then Fail else if negb (pos =? zlen enc) then Fail else Ok (Some result, pos, result)
  else match n with
  | O => Ok (None, pos, result)
  | Datatypes.S n =>
    let* header := predict_header result (zlen result) header i in
    if zlen enc <=? pos then Fail else
    let* b := at_ enc pos in let* h := at_ header i in
    unpredict_header n enc osize cpos cend (i + 1) (pos + 1) header (result ++ [w8 (b + h)])
  end.

Definition has_size_20 (tag : list Z) : bool := existsb (tag_eq tag) (List.map kw ["rXYZ"; "gXYZ"; "bXYZ"; "kXYZ"; "wtpt"; "bkpt"; "lumi"]%string).

(* One command of the tag list, 163-233.  None is the end of the list. *)
Record tstate := TState { t_cpos : Z; t_pos : Z; t_start : Z; t_size : Z; t_result : list Z }.
Definition unpredict_tag (enc : list Z) (cend : Z) (s : tstate) : res (option tstate * Z) :=
  let* command := at_ enc (t_cpos s) in
  let cpos := t_cpos s + 1 in
  let tagcode := Z.land command 63 in
  if tagcode =? 0 then Ok (None, cpos) else
  let* (tag, pos) :=
    if tagcode =? tag_unknown then
      let* _ := check_bounds (t_pos s) 4 (zlen enc) in
      let* tag := decode_keyword enc (zlen enc) (t_pos s) in Ok (tag, t_pos s + 4)
    else if tagcode =? tag_TRC then Ok (kw "rTRC", t_pos s)
    else if tagcode =? tag_XYZ then Ok (kw "rXYZ", t_pos s)
    else match znth tag_strings (tagcode - tag_string_first) with Some tag => Ok (tag, t_pos s) | None => Fail end in
  let tagsize := if has_size_20 tag then 20 else t_size s in
  let* (tagstart, cpos) :=
    if Z.testbit command 6 then decode_varint enc cend cpos
    else let* _ := check_32 (t_start s) in Ok (t_start s + t_size s, cpos) in
  let* _ := check_32 tagstart in
  let* (tagsize, cpos) := if Z.testbit command 7 then decode_varint enc cend cpos else Ok (tagsize, cpos) in
  let* _ := check_32 tagsize in
  let entry tag start := tag ++ be_bytes start ++ be_bytes tagsize in
  let* more :=
    if tagcode =? tag_TRC then Ok (entry (kw "gTRC") tagstart ++ entry (kw "bTRC") tagstart)
    else if tagcode =? tag_XYZ then
      let* _ := check_32 (tagstart + tagsize * 2) in
      Ok (entry (kw "gXYZ") (tagstart + tagsize) ++ entry (kw "bXYZ") (tagstart + tagsize * 2))
    else Ok [] in
  Ok (Some (TState cpos pos tagstart tagsize (t_result s ++ entry tag tagstart ++ more)), cpos).
Fixpoint unpredict_tags (n : nat) (enc : list Z) (osize cend : Z) (s : tstate) : res (Z * Z * list Z) :=
  if osize <? zlen (t_result s) then Fail
  else if cend <? t_cpos s then Fail
  else if t_cpos s =? cend then Ok (t_cpos s, t_pos s, t_result s)
  else match n with
  | O => NoFuel
  | Datatypes.S n =>
    let* (s', cpos) := unpredict_tag enc cend s in
    match s' with None => Ok (cpos, t_pos s, t_result s) | Some s => unpredict_tags n enc osize cend s end
  end.

(* 284-290: the bytes decoded by kCommandPredict *)
Fixpoint unpredict_values (residuals : list Z) (start i stride width order : Z) (result : list Z) : res (list Z) :=
  match residuals with
  | [] => Ok result
  | b :: residuals =>
    let* predicted := linear_predict result start i stride width order in
    unpredict_values residuals start (i + 1) stride width order (result ++ [w8 (predicted + b)])
  end.
(* One command of the main content, 237-334 *)
Definition unpredict_main (enc : list Z) (cend cpos pos : Z) (result : list Z) : res (Z * Z * list Z) :=
  let size := zlen enc in
  let* command := at_ enc cpos in
  let cpos := cpos + 1 in
  if command =? cmd_insert then
    let* (num, cpos) := decode_varint enc cend cpos in
    let* _ := check_bounds pos num size in
    let* bs := reads enc pos num in
    Ok (cpos, pos + num, result ++ bs)
  else if (command =? cmd_shuffle2) || (command =? cmd_shuffle4) then
    let* (num, cpos) := decode_varint enc cend cpos in
    let* _ := check_bounds pos num size in
    let* bs := reads enc pos num in
    let* bs := shuffle bs (if command =? cmd_shuffle2 then 2 else 4) in
    Ok (cpos, pos + num, result ++ bs)
  else if command =? cmd_predict then
    let* _ := check_bounds cpos 2 cend in
    let* flags := at_ enc cpos in
    let cpos := cpos + 1 in
    let width := Z.land flags 3 + 1 in
    if width =? 3 then Fail else
    let order := Z.land flags 12 / 4 in
    if order =? 3 then Fail else
    let* (stride, cpos) :=
      if Z.testbit flags 4 then
        let* (stride, cpos) := decode_varint enc cend cpos in
        if stride <? width then Fail else Ok (stride, cpos)
      else Ok (width, cpos) in
    if (zlen result =? 0) || ((zlen result - 1) / 4 <? stride) then Fail else
    let* (num, cpos) := decode_varint enc cend cpos in
    let* _ := check_bounds pos num size in
    let* bs := reads enc pos num in
    let* bs := if 1 <? width then shuffle bs width else Ok bs in
    let* result := unpredict_values bs (zlen result) 0 stride width order result in
    Ok (cpos, pos + num, result)
  else if command =? cmd_XYZ then
    let* _ := check_bounds pos 12 size in
    let* bs := reads enc pos 12 in
    Ok (cpos, pos + 12, result ++ kw "XYZ " ++ repeat 0 4 ++ bs)
  else if (cmd_type_first <=? command) && (command <? cmd_type_first + zlen type_strings) then
    match znth type_strings (command - cmd_type_first) with
    | Some t => Ok (cpos, pos, result ++ t ++ repeat 0 4)
    | None => Oob
    end
  else Fail.
Fixpoint unpredict_content (n : nat) (enc : list Z) (osize cend cpos pos : Z) (result : list Z) : res (list Z) :=
  if osize <? zlen result then Fail
  else if cend <? cpos then Fail
  else if cpos =? cend then
    (* 337-340 *)
    if negb (pos =? zlen enc) then Fail else if negb (zlen result =? osize) then Fail else Ok result
  else match n with
  | O => NoFuel
  | Datatypes.S n =>
    let* (cpos, pos, result) := unpredict_main enc cend cpos pos result in
    unpredict_content n enc osize cend cpos pos result
  end.

(* The fuel is the number of bytes of enc. *)
Definition unpredict (enc : list Z) : res (list Z) :=
  let size := zlen enc in
  let* (osize, pos) := decode_varint enc size 0 in
  let* _ := check_32 osize in
  let* (csize, pos) := decode_varint enc size pos in
  let* _ := check_32 csize in
  let cpos := pos in
  let* _ := check_bounds pos csize size in
  let cend := cpos + csize in
  let* (finished, pos, result) := unpredict_header 128 enc osize cpos cend 0 cend (initial_header osize) [] in
  match finished with
  | Some r => Ok r
  | None =>
    if cend <=? cpos then Fail else
    let* (numtags, cpos) := decode_varint enc cend cpos in
    let* (cpos, pos, result) :=
      if numtags =? 0 then Ok (cpos, pos, result) else
      let numtags := numtags - 1 in
      let* _ := check_32 numtags in
      unpredict_tags (List.length enc) enc osize cend (TState cpos pos (header_size + numtags * 12) 0 (result ++ be_bytes numtags)) in
    unpredict_content (List.length enc) enc osize cend cpos pos result
  end.

(** * PredictICC, enc_icc_codec.cc:121-453 *)
(* enc_icc_codec.cc:64-87 *)
Definition predict_and_shuffle (stride width order num : Z) (data : list Z) (pos : Z) : res (list Z * Z) :=
  let* _ := check_bounds pos num (zlen data) in
  if (pos =? 0) || ((pos - 1) / 4 <? stride) then Fail else
  if pos <? stride * 4 then Fail else
  let* r := mapr (fun i => let* predicted := linear_predict data pos i stride width order in
                           let* b := at_ data (pos + i) in Ok (w8 (b - predicted))) (zseq 0 (Z.to_nat num)) in
  let* r := if 1 <? width then unshuffle r width else Ok r in
  Ok (r, pos + num).

(* 138-142 *)
Fixpoint predict_headers (n : nat) (icc : list Z) (i : Z) (header : list Z) : res (list Z) :=
  match n with
  | O => Ok []
  | Datatypes.S n =>
    if i <? zlen icc then
      let* header := predict_header icc (zlen icc) header i in
      let* b := at_ icc i in let* h := at_ header i in
      let* r := predict_headers n icc (i + 1) header in
      Ok (w8 (b - h) :: r)
    else Ok []
  end.

Fixpoint find_index (f : list Z -> bool) (l : list (list Z)) (i : Z) : option Z :=
  match l with [] => None | a :: l => if f a then Some i else find_index f l (i + 1) end.

(* One entry of the tag list, 166-244: the command, the data, the position after it, the number of entries *)
Definition predict_tag (icc : list Z) (pos prevtagstart prevtagsize : Z) : res (list Z * list Z * Z * Z * (Z * Z)) :=
  let size := zlen icc in
  let* tag := decode_keyword icc size pos in
  let* tagstart := decode_u32 icc size (pos + 4) in
  let* tagsize := decode_u32 icc size (pos + 8) in
  let pos := pos + 12 in
  let tagcode := match find_index (tag_eq tag) tag_strings 0 with Some j => j + tag_string_first | None => tag_unknown end in
  let* (tagcode, pos, count) :=
    if tag_eq tag (kw "rTRC") && (pos + 24 <? size) then
      let* g := decode_keyword icc size pos in
      let* b := decode_keyword icc size (pos + 12) in
      let* r8 := reads icc (pos - 8) 8 in let* g8 := reads icc (pos + 4) 8 in let* b8 := reads icc (pos + 16) 8 in
      if tag_eq g (kw "gTRC") && tag_eq b (kw "bTRC") && tag_eq r8 g8 && tag_eq r8 b8
      then Ok (tag_TRC, pos + 24, 3) else Ok (tagcode, pos, 1)
    else Ok (tagcode, pos, 1) in
  let* (tagcode, pos, count) :=
    if tag_eq tag (kw "rXYZ") && (pos + 24 <? size) then
      let* g := decode_keyword icc size pos in
      let* b := decode_keyword icc size (pos + 12) in
      let* offsetg := decode_u32 icc size (pos + 4) in
      let* offsetb := decode_u32 icc size (pos + 16) in
      let* sizeg := decode_u32 icc size (pos + 8) in
      let* sizeb := decode_u32 icc size (pos + 20) in
      if tag_eq g (kw "gXYZ") && tag_eq b (kw "bXYZ") && (tagsize =? 20) && (sizeg =? 20) && (sizeb =? 20)
         && (offsetg =? w32 (tagstart + 20)) && (offsetb =? w32 (tagstart + 40))
      then Ok (tag_XYZ, pos + 24, 3) else Ok (tagcode, pos, count)
    else Ok (tagcode, pos, count) in
  let off := negb (prevtagstart + prevtagsize =? tagstart) in
  let siz := negb ((if has_size_20 tag then 20 else prevtagsize) =? tagsize) in
  let command := tagcode + (if off then flag_offset else 0) + (if siz then flag_size else 0) in
  let* c1 := if off then encode_varint tagstart else Ok [] in
  let* c2 := if siz then encode_varint tagsize else Ok [] in
  Ok (command :: c1 ++ c2, if tagcode =? 1 then tag else [], pos, count, (tagstart, tagsize)).
(* 162-244: commands, data, position, and the entries in tagmap (the last one first) *)
Fixpoint predict_tags (n : nat) (icc : list Z) (left pos prevtagstart prevtagsize : Z) (tagmap : list (Z * Z))
  : res (list Z * list Z * Z * list (Z * Z)) :=
  if (left <=? 0) || (zlen icc <? pos + 12) then Ok ([], [], pos, tagmap)
  else match n with
  | O => NoFuel
  | Datatypes.S n =>
    let* (c, d, pos, count, (tagstart, tagsize)) := predict_tag icc pos prevtagstart prevtagsize in
    let* (cs, ds, pos, tagmap) := predict_tags n icc (left - count) pos tagstart tagsize ((tagstart, tagsize) :: tagmap) in
    Ok (c ++ cs, d ++ ds, pos, tagmap)
  end.

(* The variables of the main loop, 257-277.  What it has appended to commands and data is kept apart. *)
Record mstate := MState { m_pos : Z; m_tag : list Z; m_tagstart : Z; m_tagsize : Z; m_clutstart : Z; m_last0 : Z }.
(* pos, last1, commands_add, data_add *)
Record astate := AState { a_pos : Z; a_last1 : Z; a_commands : list Z; a_data : list Z }.
Definition a_empty (a : astate) : bool := match a_commands a, a_data a with [], [] => true | _, _ => false end.

Definition tag_sane (tagsize : Z) : bool := (8 <? tagsize) && (tagsize <? size_limit).
Definition all_zero (icc : list Z) (pos : Z) : res bool := let* z := reads icc pos 4 in Ok (forallb (Z.eqb 0) z).
(* Appends kCommandPredict, as in 326-335, 351-360, 384-396 and 408-417 *)
Definition add_predict (icc : list Z) (stride width order num : Z) (a : astate) : res astate :=
  let flags := order * 4 + (width - 1) + (if stride =? width then 0 else 16) in
  let* s := if stride =? width then Ok [] else encode_varint stride in
  let* n := encode_varint num in
  let* (d, pos) := predict_and_shuffle stride width order num icc (a_pos a) in
  Ok (AState pos (a_last1 a) (a_commands a ++ [cmd_predict; flags] ++ s ++ n) (a_data a ++ d)).

(* 299-315 *)
Definition add_mluc (icc tag : list Z) (tagsize : Z) (a : astate) : res astate :=
  let pos := a_pos a in
  if tag_eq tag (kw "mluc") && tag_sane tagsize && (pos + tagsize <=? zlen icc) then
    let* z := all_zero icc (pos + 4) in
    if z then
      let num := tagsize - 8 in
      let* n := encode_varint num in
      let* d := reads icc (pos + 8) num in
      let* d := unshuffle d 2 in
      Ok (AState (pos + 8 + num) (a_last1 a) (a_commands a ++ [cmd_type_first + 3; cmd_shuffle2] ++ n) (a_data a ++ d))
    else Ok a
  else Ok a.
(* 317-337 *)
Definition add_curv (icc tag : list Z) (tagsize : Z) (a : astate) : res astate :=
  let pos := a_pos a in
  if tag_eq tag (kw "curv") && tag_sane tagsize && (pos + tagsize <=? zlen icc) then
    let* z := all_zero icc (pos + 4) in
    let num := tagsize - 8 in
    if z && (16 <? num) && (num <? 2 ^ 28) && (pos + num <=? zlen icc) && (0 <? pos) then
      add_predict icc 2 2 1 num (AState (pos + 8) (a_last1 a) (a_commands a ++ [cmd_type_first + 5]) (a_data a))
    else Ok a
  else Ok a.
(* 341-362 *)
Definition add_subcurv (icc : list Z) (a : astate) : res astate :=
  let size := zlen icc in
  let pos := a_pos a in
  let* sub := decode_keyword icc size pos in
  let* z := decode_u32 icc size (pos + 4) in
  if (pos + 12 <? size) && (tag_eq sub (kw "curv") || tag_eq sub (kw "vcgt")) && (z =? 0) then
    let* n := decode_u32 icc size (pos + 8) in
    let num := w32 (n * 2) in
    if (16 <? num) && (num <? 2 ^ 28) && (pos + 12 + num <=? size) then
      add_predict icc 2 2 1 num (AState (pos + 12) (pos + 12) (a_commands a) (a_data a))
    else Ok a
  else Ok a.
(* 371-398 *)
Definition clut_values (icc : list Z) (numi clutstart : Z) (num : Z) : res Z :=
  fold_left (fun num i => let* num := num in if clutstart + i <? zlen icc then let* b := at_ icc (clutstart + i) in Ok (w64 (num * b)) else Ok num)
            (zseq 0 (Z.to_nat numi)) (Ok num).
Definition add_clut (icc : list Z) (tagstart clutstart : Z) (a : astate) : res astate :=
  let pos := a_pos a in
  if (pos =? clutstart) && (clutstart + 16 <? zlen icc) then
    let* numi := at_ icc (tagstart + 8) in
    let* numo := at_ icc (tagstart + 9) in
    let* width := at_ icc (clutstart + 16) in
    let stride := width * numo in
    let* num := clut_values icc numi clutstart (width * numo) in
    if ((width =? 1) || (width =? 2)) && (64 <? num) && (num <? 2 ^ 28) && (pos + num <=? zlen icc) && (stride * 4 <? pos) then
      add_predict icc stride width 1 num a
    else Ok a
  else Ok a.
(* 401-420 *)
Definition add_gbd (icc tag : list Z) (tagstart tagsize : Z) (a : astate) : res astate :=
  let pos := a_pos a in
  if a_empty a && tag_eq tag (kw "gbd ") && tag_sane tagsize && (pos =? tagstart + 8) && (pos + tagsize - 8 <=? zlen icc) && (16 <? pos) then
    add_predict icc 4 4 0 (tagsize - 8) a
  else Ok a.
(* 422-431 *)
Definition add_XYZ (icc : list Z) (a : astate) : res astate :=
  let pos := a_pos a in
  if a_empty a && (pos + 20 <=? zlen icc) then
    let* sub := decode_keyword icc (zlen icc) pos in
    let* z := decode_u32 icc (zlen icc) (pos + 4) in
    if tag_eq sub (kw "XYZ ") && (z =? 0) then
      let* d := reads icc (pos + 8) 12 in
      Ok (AState (pos + 20) (a_last1 a) (a_commands a ++ [cmd_XYZ]) (a_data a ++ d))
    else Ok a
  else Ok a.
(* 433-445 *)
Definition add_type (icc : list Z) (a : astate) : res astate :=
  let pos := a_pos a in
  if a_empty a && (pos + 8 <=? zlen icc) then
    let* z := decode_u32 icc (zlen icc) (pos + 4) in
    if z =? 0 then
      let* sub := decode_keyword icc (zlen icc) pos in
      match find_index (tag_eq sub) type_strings 0 with
      | Some i => Ok (AState (pos + 8) (a_last1 a) (a_commands a ++ [cmd_type_first + i]) (a_data a))
      | None => Ok a
      end
    else Ok a
  else Ok a.

(* One iteration, 278-466: what it appends to commands and to data, and the next state *)
Definition predict_main (icc : list Z) (tagmap : list (Z * Z)) (m : mstate) : res (list Z * list Z * mstate) :=
  let size := zlen icc in
  let pos := m_pos m in
  let a := AState pos pos [] [] in
  let tag := if (m_tagstart m + m_tagsize m <? pos) && (m_tagsize m <? size_limit) then [0; 0; 0; 0] else m_tag m in
  let* (tag, tagstart, tagsize, a) :=
    match find (fun e => fst e =? pos) tagmap with
    | Some (tagstart, tagsize) =>
      if pos + 4 <=? size then
        let* tag := decode_keyword icc size pos in
        let* a := add_mluc icc tag tagsize a in
        let* a := add_curv icc tag tagsize a in
        Ok (tag, tagstart, tagsize, a)
      else Ok (tag, m_tagstart m, m_tagsize m, a)
    | None => Ok (tag, m_tagstart m, m_tagsize m, a)
    end in
  let* (clutstart, a) :=
    if tag_eq tag (kw "mAB ") || tag_eq tag (kw "mBA ") then
      let* a := add_subcurv icc a in
      let* clutstart :=
        if (a_pos a =? tagstart + 24) && (a_pos a + 4 <? size) then let* v := decode_u32 icc size (a_pos a) in Ok (tagstart + v)
        else Ok (m_clutstart m) in
      let* a := add_clut icc tagstart clutstart a in
      Ok (clutstart, a)
    else Ok (m_clutstart m, a) in
  let* a := add_gbd icc tag tagstart tagsize a in
  let* a := add_XYZ icc a in
  let* a := add_type icc a in
  let next last0 := MState (if a_empty a then a_pos a + 1 else a_pos a) tag tagstart tagsize clutstart last0 in
  if negb (a_empty a) || (a_pos a =? size) then
    let* (ci, di) :=
      if m_last0 m <? a_last1 a then
        let* n := encode_varint (a_last1 a - m_last0 m) in
        let* d := reads icc (m_last0 m) (a_last1 a - m_last0 m) in
        Ok (cmd_insert :: n, d)
      else Ok ([], []) in
    Ok (ci ++ a_commands a, di ++ a_data a, next (a_pos a))
  else Ok ([], [], next (m_last0 m)).
Fixpoint predict_content (n : nat) (icc : list Z) (tagmap : list (Z * Z)) (m : mstate) : res (list Z * list Z) :=
  if zlen icc <? m_pos m then Ok ([], []) else
  match n with
  | O => NoFuel
  | Datatypes.S n =>
    let* (c, d, m) := predict_main icc tagmap m in
    let* (cs, ds) := predict_content n icc tagmap m in
    Ok (c ++ cs, d ++ ds)
  end.

(* tag0 is what the variable tag contains before it is set, 255 *)
Definition predict (tag0 : list Z) (icc : list Z) : res (list Z) :=
  let size := zlen icc in
  if size_limit <? size then Fail else
  let* v := encode_varint size in
  let* header := predict_headers 128 icc 0 (initial_header size) in
  if size <=? header_size then
    let* z := encode_varint 0 in Ok (v ++ z ++ header)
  else
    let pos := header_size in
    let* (ct, dt, pos, tagmap) :=
      if pos + 4 <=? size then
        let* numtags := decode_u32 icc size pos in
        let* c := encode_varint (numtags + 1) in
        let* (ct, dt, pos, tagmap) := predict_tags (List.length icc) icc numtags (pos + 4) (header_size + numtags * 12) 0 [] in
        Ok (c ++ ct, dt, pos, tagmap)
      else Ok ([], [], pos, []) in
    let* (cm, dm) := predict_content (Datatypes.S (List.length icc)) icc tagmap (MState pos tag0 0 0 0 pos) in
    let commands := ct ++ [0] ++ cm in
    let* c := encode_varint (zlen commands) in
    Ok (v ++ c ++ commands ++ header ++ dt ++ dm).
