(* Specification of the encoder's side of an ANS histogram (C11, C12). *)
From Verif Require Import Base BitProg BitProgProofs HybridUintModel HybridUintSpec AliasModel AliasSpec AnsModel.

(* The encoder's tables [infos] belong to the histogram [h] and the decoder's slot map:
   the frequencies are those of the histogram, the reciprocal is the rounded-up quotient,
   and the reverse map takes every (symbol, offset) back to the slot it came from. *)
Definition encoder_info_for (h : list Z) (slot : Z -> option (Z * Z * Z)) (infos : list sym_info) : Prop :=
  zlen infos = zlen h /\
  forall s f, znth h s = Some f ->
    exists e, znth infos s = Some e /\ freq e = f /\
      (0 < f -> ifreq e = (2 ^ 44 + f - 1) / f) /\
      forall o v, 0 <= v < 4096 -> slot v = Some (s, o, f) -> reverse_map e o = v.

(* ---- what a sequence of tokens means ---- *)

(* The distance a distance code stands for: with a multiplier (an image width), the first
   120 codes are the 2-D neighbourhood offsets of [kSpecialDistances]; otherwise, and for
   higher codes, the distance is linear. *)
Definition distance_of (dm d : Z) : Z :=
  if dm =? 0 then d + 1
  else match znth kSpecialDistances d with
       | Some (a, b) => Z.max 1 (a + dm * b)
       | None => d + 1 - 120
       end.

(* Copying [n] values from [d] back, value by value (the copy may overlap itself). *)
Fixpoint copy_back (n : nat) (d : Z) (hist : list Z) : list Z :=
  match n with
  | O => []
  | S n' => let v := nth (Z.to_nat (zlen hist - d)) hist 0 in v :: copy_back n' d (hist ++ [v])
  end.

(* Distances are limited to what has been decoded and to 2^20; a copy at the very start
   yields zeros. *)
Definition copied (n d : Z) (hist : list Z) : list Z :=
  match hist with
  | [] => repeat 0 (Z.to_nat n)
  | _ => copy_back (Z.to_nat n) (Z.min d (Z.min (zlen hist) (2 ^ 20))) hist
  end.

(* The values a token list stands for, with the contexts in which they must be read (the
   later values of a copy have none).  A length token must be followed by its distance. *)
Fixpoint expand (minlen dm off : Z) (hist : list Z) (ts : list token) : option (list (option Z * Z)) :=
  match ts with
  | [] => Some []
  | Token false c v :: ts' =>
      match expand minlen dm off (hist ++ [v]) ts' with
      | Some l => Some ((Some (off + c), v) :: l)
      | None => None
      end
  | Token true c n :: Token false _ d :: ts' =>
      let vs := copied (n + minlen) (distance_of dm d) hist in
      match vs, expand minlen dm off (hist ++ vs) ts' with
      | v :: vs', Some l => Some ((Some (off + c), v) :: map (fun v => (None, v)) vs' ++ l)
      | _, _ => None
      end
  | _ => None
  end.

(* ---- when an encoder's tables and a decoder's tables belong together ---- *)

(* symbol [s] of histogram [j]: both sides know it, by the same histogram (ANS) ... *)
Definition ans_codable (codes : enc_codes) (dc : ans_code) (j s : Z) : Prop :=
  exists h f t infos, is_histogram h /\ znth h s = Some f /\ 0 < f /\
    znth (alias_tables dc) j = Some t /\ slot_map_for h (lookup12 (log_alpha_size dc) t) /\
    znth (encoding_info codes) j = Some infos /\
    encoder_info_for h (lookup12 (log_alpha_size dc) t) infos.

(* ... or by a code word that the decoder's table decodes, whatever follows it (prefix codes) *)
Definition prefix_codable (codes : enc_codes) (dc : ans_code) (j s : Z) : Prop :=
  exists infos info t, znth (encoding_info codes) j = Some infos /\ znth infos s = Some info /\
    0 <= depth info <= 15 /\ 0 <= bits info < 2 ^ depth info /\
    znth (huffman_data dc) j = Some t /\
    parses_buffered 15 (huff_read t) (to_bits (Z.to_nat (depth info)) (bits info)) (Some s).

Definition codable (codes : enc_codes) (dc : ans_code) (j s : Z) : Prop :=
  if e_use_prefix codes then prefix_codable codes dc j s else ans_codable codes dc j s.

(* The distance context is not compared: the encoder keeps the context before clustering. *)
Definition codes_match (codes : enc_codes) (dc : ans_code) : Prop :=
  use_prefix_code dc = e_use_prefix codes /\
  uint_config dc = e_uint_config codes /\ Forall hconfig_ok (e_uint_config codes) /\
  lz_enabled (lz77 dc) = lz_enabled (e_lz77 codes) /\
  (lz_enabled (e_lz77 codes) = true ->
     min_symbol (lz77 dc) = min_symbol (e_lz77 codes) /\ 0 <= min_symbol (lz77 dc) < 2 ^ 16 /\
     min_length (lz77 dc) = min_length (e_lz77 codes) /\ 1 <= min_length (lz77 dc) /\
     length_uint_config (lz77 dc) = length_uint_config (e_lz77 codes) /\
     hconfig_ok (length_uint_config (lz77 dc))) /\
  (zlen (context_map codes) <= 1 -> Forall (fun j => j = 0) (context_map codes)).

(* a token whose symbol is [s], in histogram [j] *)
Definition coded_token (codes : enc_codes) (dc : ans_code) (off : Z) (t : token) (j s : Z) : Prop :=
  is_u32 (value t) /\ znth (context_map codes) (off + context t) = Some j /\
  exists cfg tok nb b,
    (if is_lz77_length t then cfg = length_uint_config (e_lz77 codes) else znth (e_uint_config codes) j = Some cfg) /\
    hybrid_encode cfg (value t) = (tok, nb, b) /\
    s = tok + (if is_lz77_length t then min_symbol (e_lz77 codes) else 0) /\ s < 2 ^ 32 /\
    codable codes dc j s.

Inductive tokens_ok (codes : enc_codes) (dc : ans_code) (off : Z) : list token -> Prop :=
| ok_nil : tokens_ok codes dc off []
| ok_literal c v j s ts :
    coded_token codes dc off (Token false c v) j s ->
    s < (if lz_enabled (e_lz77 codes) then min_symbol (e_lz77 codes) else 2 ^ 20) ->
    tokens_ok codes dc off ts -> tokens_ok codes dc off (Token false c v :: ts)
| ok_copy c n j s c' d s' ts :
    lz_enabled (e_lz77 codes) = true ->
    coded_token codes dc off (Token true c n) j s ->
    n + min_length (e_lz77 codes) < 2 ^ 32 ->
    coded_token codes dc off (Token false c' d) (distance_context (lz77 dc)) s' ->
    tokens_ok codes dc off ts -> tokens_ok codes dc off (Token true c n :: Token false c' d :: ts).
