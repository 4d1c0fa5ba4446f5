(* Specification of the description of an entropy code (C16, C46, C47). *)
From Verif Require Import Base HeadersModel HybridUintModel HybridUintSpec AnsModel AnsSpec HistoModel HistoSpec CodesModel.

(* a configuration that both sides can use *)
Definition config_valid (c : hconfig) : Prop :=
  0 <= msb_in_token c /\ 0 <= lsb_in_token c /\ msb_in_token c + lsb_in_token c <= split_exponent c /\ split_exponent c <= 15.

(* ---- what the encoder may decide ---- *)

(* LZ77 parameters that the header can hold *)
Definition lz_ok (lz : lz77_params) : Prop :=
  lz_enabled lz = true ->
    (8 <= min_symbol lz < 8 + 2 ^ 15) /\ (3 <= min_length lz < 9 + 2 ^ 8) /\ hconfig_codable 8 (length_uint_config lz).

(* The context map uses all of the n histograms and nothing else. *)
Definition map_onto (cmap : list Z) (n : Z) : Prop := 1 <= n <= 256 /\ forall h, In h cmap <-> 0 <= h < n.

(* counts for which a prefix code can be built, see C45 *)
Definition prefix_histogram (counts : list Z) : Prop :=
  zlen counts <= 2 ^ 15 /\ exists B, Forall (fun c => 0 <= c <= B) counts /\
    zlen (filter (Z.ltb 0) counts) <= 2 ^ 14 /\ zlen (filter (Z.ltb 0) counts) * (2 * B) < 2 ^ 32 - 1.

Definition histograms_ok (p : plan) : Prop :=
  if p_prefix p
  then p_log_alpha p = 15 /\ zlen (p_histograms p) = zlen (p_configs p) /\ Forall prefix_histogram (p_histograms p)
  else 5 <= p_log_alpha p <= 8 /\ zlen (p_normalized p) = zlen (p_configs p) /\
       Forall (fun h => normalized h /\ 0 < alphabet_size h <= 2 ^ p_log_alpha p) (p_normalized p).

(* a code for n contexts, and one for the distances if there are copies *)
Definition plan_ok (n : nat) (p : plan) : Prop :=
  lz_ok (p_lz p) /\ zlen (p_map p) = Z.of_nat n + b2z (lz_enabled (p_lz p)) /\ map_onto (p_map p) (zlen (p_configs p)) /\
  Forall (hconfig_codable (p_log_alpha p)) (p_configs p) /\ histograms_ok p.

(* the symbol s was counted in histogram j *)
Definition counted (p : plan) (j s : Z) : Prop :=
  if p_prefix p
  then exists counts, znth (p_histograms p) j = Some counts /\ 0 <= s < zlen counts /\ 0 < cnt counts s
  else exists h, znth (p_normalized p) j = Some h /\ 0 <= s < zlen (e_counts h) /\ 0 < cnt (e_counts h) s.

(* a token whose symbol was counted in histogram j *)
Definition planned_token (p : plan) (off : Z) (t : token) (j s : Z) : Prop :=
  is_u32 (value t) /\ znth (p_map p) (off + context t) = Some j /\
  exists cfg tok nb b,
    (if is_lz77_length t then cfg = length_uint_config (p_lz p) else znth (p_configs p) j = Some cfg) /\
    hybrid_encode cfg (value t) = (tok, nb, b) /\
    s = tok + (if is_lz77_length t then min_symbol (p_lz p) else 0) /\ s < 2 ^ 32 /\ counted p j s.

(* literals are below min_symbol; a length is followed by its distance, which has the last
   context *)
Inductive planned (p : plan) (off : Z) : list token -> Prop :=
| pl_nil : planned p off []
| pl_literal c v j s ts :
    planned_token p off (Token false c v) j s ->
    s < (if lz_enabled (p_lz p) then min_symbol (p_lz p) else 2 ^ 20) ->
    planned p off ts -> planned p off (Token false c v :: ts)
| pl_copy c n j s c' d s' ts :
    lz_enabled (p_lz p) = true ->
    planned_token p off (Token true c n) j s ->
    n + min_length (p_lz p) < 2 ^ 32 ->
    planned_token p off (Token false c' d) (last (p_map p) 0) s' ->
    planned p off ts -> planned p off (Token true c n :: Token false c' d :: ts).

(* How a context map is written: with at most 8 histograms the entries can be stored as they
   are; otherwise, or if that is shorter, they (or what move-to-front makes of them) are
   the values of a token stream with one context.  For 1 or 2 entries that stream has no copies. *)
Fixpoint map_plan_ok (mp : map_plan) (cmap : list Z) (nh : Z) : Prop :=
  nh = 1 \/
  match mp with
  | MSimple => nh <= 8
  | MCoded use_mtf q ts mp' =>
      plan_ok 1 q /\ (zlen cmap <= 2 -> lz_enabled (p_lz q) = false) /\
      (1 < zlen (p_map q) -> map_plan_ok mp' (p_map q) (zlen (p_configs q))) /\
      planned q 0 ts /\
      exists l, expand (min_length (p_lz q)) 0 0 [] ts = Some l /\ zlen l < 2 ^ 32 /\
        Forall (fun x => fst x = Some 0 \/ fst x = None) l /\
        Some (map snd l) = (if use_mtf then mtf_transform cmap else Some cmap)
  end.
