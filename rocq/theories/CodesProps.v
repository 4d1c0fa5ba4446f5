(* C16, C46, C47: context maps and the descriptions of entropy codes. *)
From Verif Require Import Base BitReaderModel BitReaderSpec BitProg BitProgProofs HeadersModel HybridUintModel HybridUintSpec CodesModel
  HistoSpec AliasSpec AnsSpec AnsTop MtfSpec MtfProofs CodesSpec CodesRound CodesTop.

(* ---- C16 ---- *)

(* Undoing move-to-front with vectors of any supported length, over any content of the
   uninitialised memory, recalls for each position the value used that long ago. *)
Theorem C16_inverse_mtf : forall lanes mem is, lane_count lanes -> Forall (fun i => 0 <= i < 256) is ->
  inverse_mtf lanes mem is = Some (recall byte_list is).
Proof. exact inverse_recall. Qed.
Print Assumptions C16_inverse_mtf.

Theorem C16_mtf_roundtrip : forall lanes mem v, lane_count lanes -> Forall (fun x => 0 <= x < 256) v ->
  exists is, mtf_transform v = Some is /\ length is = length v /\ Forall (fun i => 0 <= i < 256) is /\ inverse_mtf lanes mem is = Some v.
Proof. exact mtf_round_trip. Qed.
Print Assumptions C16_mtf_roundtrip.

Example C16_mtf_case : lane_count 16 /\ mtf_transform [5; 5; 0; 200; 0; 5; 17] = Some [5; 0; 1; 200; 1; 2; 18] /\
  inverse_mtf 16 (fun _ => 77) [5; 0; 1; 200; 1; 2; 18] = Some [5; 5; 0; 200; 0; 5; 17].
Proof. split; [exists 4; split; [lia|reflexivity]|]. vm_compute. split; reflexivity. Qed.

(* In whichever way it is written, a context map is read back with its number of clusters. *)
Theorem C16_context_map_roundtrip : forall M mem mp cmap nh, lane_count (m_lanes M) -> map_onto cmap nh -> map_plan_ok mp cmap nh ->
  exists mf, encode_map mem mp cmap nh = Some mf /\ Forall field_ok mf /\
    parses (decode_context_map M (decode_histograms M 2 1) (length cmap)) (fields_bits mf) (Some (Some (cmap, nh))).
Proof. exact context_map_roundtrip. Qed.
Print Assumptions C16_context_map_roundtrip.

(* From any bits a map is read only if it uses all clusters up to the greatest. *)
Theorem C16_any_context_map : forall M n, lane_count (m_lanes M) -> (0 < n)%nat -> forall s pos av, 0 <= pos -> 0 <= av <= 56 ->
  exists o pos' av', run_bits s pos av (decode_context_map M (decode_histograms M 2 1) n) = Some (Some o, (pos', av')) /\ pos <= pos' /\ 0 <= av' <= 56 /\
    forall l nh, o = Some (l, nh) -> length l = n /\ map_onto l nh.
Proof. exact any_context_map. Qed.
Print Assumptions C16_any_context_map.

(* ---- C46 ---- *)

(* The description of a code that the encoder writes is read back, and what was coded with it is
   decoded, from bytes with the BitReader. *)
Theorem C46_code_and_values_roundtrip : forall A M mem mp n p disallow off dm ts (prog : tprog A) l a,
  lane_count (m_lanes M) -> plan_ok n p -> (disallow = true -> lz_enabled (p_lz p) = false) ->
  (1 < zlen (p_map p) -> map_plan_ok mp (p_map p) (zlen (p_configs p))) ->
  planned p off ts -> 0 <= dm < 2 ^ 28 -> expand (min_length (p_lz p)) dm off [] ts = Some l -> zlen l < 2 ^ 32 ->
  run_toks (zlen (p_map p)) prog l = Some (a, []) ->
  exists fs codes ws, encode_histograms mem mp p = Some (fs, codes) /\ write_tokens codes off ts = Some ws /\ Forall field_ok (fs ++ ws) /\
    forall bs pad, bytes_ok bs -> bytes_bits bs = fields_bits (fs ++ ws) ++ pad ->
    exists r0 r1 d, reader_init bs = Some r0 /\
      run_reader bs r0 (code_then M n disallow dm prog) = Some (Some (Some (d, a)), r1) /\ d_map d = p_map p /\
      total_bits_consumed r1 = zlen (fields_bits (fs ++ ws)) /\ all_reads_within_bounds bs r1 = true.
Proof. exact @code_and_tokens_bytes. Qed.
Print Assumptions C46_code_and_values_roundtrip.

(* the same for bits anywhere in a stream, with the description and the values apart *)
Theorem C46_code_roundtrip : forall A M mem mp n p disallow off dm ts (prog : tprog A) l a,
  lane_count (m_lanes M) -> plan_ok n p -> (disallow = true -> lz_enabled (p_lz p) = false) ->
  (1 < zlen (p_map p) -> map_plan_ok mp (p_map p) (zlen (p_configs p))) ->
  planned p off ts -> 0 <= dm < 2 ^ 28 -> expand (min_length (p_lz p)) dm off [] ts = Some l -> zlen l < 2 ^ 32 ->
  run_toks (zlen (p_map p)) prog l = Some (a, []) ->
  exists fs codes ws d r, encode_histograms mem mp p = Some (fs, codes) /\ write_tokens codes off ts = Some ws /\ Forall field_ok (fs ++ ws) /\
    parses (decode_histograms M 3 n disallow) (fields_bits fs) (Some (Some d)) /\
    parses (run_stream (d_code d) (d_map d) dm prog) (fields_bits ws) (Some (a, r)) /\ check_final_state r = true /\ unhealthy r = false.
Proof. exact @code_and_tokens. Qed.
Print Assumptions C46_code_roundtrip.

(* Whatever the bits are: reading a code and then values with it comes to an end without
   undefined behaviour (None in the model), and the two functions call each other at most three deep. *)
Theorem C46_any_bits_safe : forall A M n disallow dm (p : tprog A), lane_count (m_lanes M) -> (0 < n)%nat -> 0 <= dm < 2 ^ 28 -> contexts_below (Z.of_nat n) p ->
  forall s pos av, 0 <= pos -> 0 <= av <= 56 ->
  exists o pos' av', run_bits s pos av (code_then M n disallow dm p) = Some (Some o, (pos', av')) /\ pos <= pos' /\ 0 <= av' <= 56 /\
    forall d a, o = Some (d, a) -> exists vs, run_toks (Z.of_nat n) p (unplaced vs) = Some (a, []).
Proof. exact @any_code_safe. Qed.
Print Assumptions C46_any_bits_safe.

(* ---- C47 ---- *)

(* What a code that was accepted says of itself is true: every value read with it is below
   2^max_num_bits (the next theorem), the context map has an entry for each context and
   uses each histogram, and a histogram said to be degenerate only yields the symbol named. *)
Theorem C47_accepted_code : forall M n disallow, lane_count (m_lanes M) -> (0 < n)%nat ->
  forall s pos av, 0 <= pos -> 0 <= av <= 56 ->
  exists o pos' av', run_bits s pos av (decode_histograms M 3 n disallow) = Some (Some o, (pos', av')) /\
    forall d, o = Some d ->
      zlen (d_map d) = Z.of_nat n + b2z (lz_enabled (lz77 (d_code d))) /\
      map_onto (d_map d) (zlen (uint_config (d_code d))) /\
      Forall config_valid (uint_config (d_code d)) /\
      zlen (degenerate d) = zlen (uint_config (d_code d)) /\
      forall j, In j (d_map d) -> znth (degenerate d) j = Some (-1) \/
        exists x, znth (degenerate d) j = Some x /\ symbol_in (d_code d) j (fun sym => sym = x).
Proof. exact accepted_code. Qed.
Print Assumptions C47_accepted_code.

Theorem C47_max_num_bits : forall A M n disallow dm (p : tprog A), lane_count (m_lanes M) -> (0 < n)%nat -> 0 <= dm < 2 ^ 28 -> contexts_below (Z.of_nat n) p ->
  forall s pos av, 0 <= pos -> 0 <= av <= 56 ->
  exists o pos' av', run_bits s pos av (code_then M n disallow dm p) = Some (Some o, (pos', av')) /\ pos <= pos' /\ 0 <= av' <= 56 /\
    forall d a, o = Some (d, a) -> exists vs, run_toks (Z.of_nat n) p (unplaced vs) = Some (a, []) /\
      Forall (fun v => 0 <= v < 2 ^ max_num_bits d) vs.
Proof. exact @any_code_any_values. Qed.
Print Assumptions C47_max_num_bits.

(* ---- a case: two contexts and copies; the context map is written with move-to-front and a prefix
   code of its own ---- *)
Definition case_h0 : ehist := Ehist 1 0 225 2 [3; 224] ([0; 0; 0; 1000] ++ repeat 0 220 ++ [3096]).
Definition case_h1 : ehist := Ehist 0 0 16 16 [] (repeat 256 16).
Definition case_lz : lz77_params := LZ77 true 224 3 (HC 0 0 0) 2.
Definition case_plan : plan := Plan case_lz [0; 1; 1] false 8 [HC 4 2 0; HC 4 1 1] [] [case_h0; case_h1].
Definition case_map_plan : plan := Plan (LZ77 false 224 3 (HC 0 0 0) 0) [0] true 15 [HC 4 2 0] [[2; 1]] [].
Definition case_map_tokens : list token := [Token false 0 0; Token false 0 1; Token false 0 0].
Definition case_mp : map_plan := MCoded true case_map_plan case_map_tokens MSimple.
Definition case_machine : machine := Machine 32 (fun _ => 9) (fun _ => Entry 1 2 3 4 5) (fun _ => (6, 7)) (fun _ => 8).
Definition case_toks : list token := [Token false 0 3; Token false 1 9; Token true 0 0; Token false 2 1; Token false 0 3].

Example C46_case_plan : lane_count (m_lanes case_machine) /\ plan_ok 2 case_plan /\ map_plan_ok case_mp (p_map case_plan) (zlen (p_configs case_plan)) /\
  planned case_plan 0 case_toks /\
  expand (min_length (p_lz case_plan)) 0 0 [] case_toks = Some [(Some 0, 3); (Some 1, 9); (Some 0, 3); (None, 9); (None, 3); (Some 0, 3)].
Proof.
  assert (Onto2 : map_onto [0; 1; 1] 2) by (split; [lia|]; intros h; split; [intros [<-|[<-|[<-|[]]]]; lia|]; intros Hh; assert (h = 0 \/ h = 1) as [->| ->] by lia; cbn; auto).
  assert (Onto1 : map_onto [0] 1) by (split; [lia|]; intros h; split; [intros [<-|[]]; lia|]; intros Hh; assert (h = 0) as -> by lia; cbn; auto).
  split; [exists 5; split; [lia|reflexivity]|]. split; [|split; [|split]].
  - split; [intros _; cbn; unfold hconfig_codable; cbn; lia|]. split; [reflexivity|]. split; [exact Onto2|]. split; [repeat (apply Forall_cons; [unfold hconfig_codable; cbn; lia|]); apply Forall_nil|].
    cbn [histograms_ok p_prefix case_plan p_log_alpha p_normalized p_configs]. split; [lia|]. split; [reflexivity|].
    constructor; [|constructor; [|constructor]].
    + split; [|cbn; lia]. split; [cbn; lia|]. split; [cbn; lia|]. split; [vm_compute; constructor|]. split; [cbn; repeat (apply Forall_cons; [lia|]); apply Forall_nil|]. split; [reflexivity|]. split; [reflexivity|]. right.
      split; [cbn; lia|]. split; [reflexivity|]. split; [|cbn; lia]. intros k Hk _. assert (k = 0 \/ k = 1) as [->| ->] by lia; reflexivity.
    + split; [|cbn; lia]. split; [cbn; lia|]. split; [cbn; lia|]. split; [vm_compute; constructor|]. split; [cbn; repeat (apply Forall_cons; [lia|]); apply Forall_nil|]. split; [reflexivity|]. split; [reflexivity|]. left. cbn. split; [reflexivity|]. split; [lia|reflexivity].
  - right. split; [|split; [reflexivity|]; split; [discriminate|]; split].
    + split; [discriminate|]. split; [reflexivity|]. split; [exact Onto1|]. split; [repeat (apply Forall_cons; [unfold hconfig_codable; cbn; lia|]); apply Forall_nil|].
      cbn [histograms_ok p_prefix case_map_plan p_log_alpha p_histograms p_configs]. split; [reflexivity|]. split; [reflexivity|]. constructor; [|constructor]. split; [cbn; lia|]. exists 2. split; [repeat constructor; lia|]. cbn; lia.
    + repeat (eapply pl_literal; [split; [unfold is_u32; cbn; lia|]; split; [reflexivity|]; do 4 eexists; split; [reflexivity|]; split; [reflexivity|]; split; [reflexivity|]; split; [cbn; lia|]; eexists; split; [reflexivity|]; split; vm_compute; [split; [discriminate|reflexivity]|reflexivity]|cbn; lia|]).
      apply pl_nil.
    + eexists. split; [reflexivity|]. split; [cbn; lia|]. split; [|reflexivity]. repeat (apply Forall_cons; [now left|]). apply Forall_nil.
  - assert (T : forall t j s, is_u32 (value t) -> znth [0; 1; 1] (0 + context t) = Some j ->
        (exists cfg tok nb b, (if is_lz77_length t then cfg = HC 0 0 0 else znth [HC 4 2 0; HC 4 1 1] j = Some cfg) /\ hybrid_encode cfg (value t) = (tok, nb, b) /\
          s = tok + (if is_lz77_length t then 224 else 0) /\ s < 2 ^ 32 /\ counted case_plan j s) -> planned_token case_plan 0 t j s) by (intros t j s A B C; split; [exact A|]; split; [exact B|exact C]).
    assert (C0 : counted case_plan 0 3 /\ counted case_plan 0 224). { split; (eexists; split; [reflexivity|]); split; vm_compute; try (split; [discriminate|reflexivity]); reflexivity. }
    assert (C1 : counted case_plan 1 9 /\ counted case_plan 1 1). { split; (eexists; split; [reflexivity|]); split; vm_compute; try (split; [discriminate|reflexivity]); reflexivity. }
    eapply pl_literal with (j := 0) (s := 3); [apply T; [unfold is_u32; cbn; lia|reflexivity|]; do 4 eexists; split; [reflexivity|]; split; [reflexivity|]; split; [reflexivity|]; split; [lia|apply C0]|cbn; lia|].
    eapply pl_literal with (j := 1) (s := 9); [apply T; [unfold is_u32; cbn; lia|reflexivity|]; do 4 eexists; split; [reflexivity|]; split; [reflexivity|]; split; [reflexivity|]; split; [lia|apply C1]|cbn; lia|].
    eapply pl_copy with (j := 0) (s := 224) (s' := 1); [reflexivity|apply T; [unfold is_u32; cbn; lia|reflexivity|]; do 4 eexists; split; [reflexivity|]; split; [reflexivity|]; split; [reflexivity|]; split; [lia|apply C0]|cbn; lia| |].
    { apply T; [unfold is_u32; cbn; lia|reflexivity|]; do 4 eexists; split; [reflexivity|]; split; [reflexivity|]; split; [reflexivity|]; split; [lia|apply C1]. }
    eapply pl_literal with (j := 0) (s := 3); [apply T; [unfold is_u32; cbn; lia|reflexivity|]; do 4 eexists; split; [reflexivity|]; split; [reflexivity|]; split; [reflexivity|]; split; [lia|apply C0]|cbn; lia|].
    apply pl_nil.
  - reflexivity.
Qed.

Example C46_case_run :
  match encode_histograms (fun _ => Entry 0 0 0 0 0) case_mp case_plan with
  | Some (fs, codes) =>
      match write_tokens codes 0 case_toks with
      | Some ws =>
          match run_bits (fields_bits (fs ++ ws)) 0 0 (code_then case_machine 2 false 0 (read_list [0; 1; 0; 1; 0; 0])) with
          | Some (Some (Some (d, a)), (pos, _)) =>
              a = [3; 9; 3; 9; 3; 3] /\ d_map d = [0; 1; 1] /\ max_num_bits d = 4 /\ degenerate d = [-1; -1] /\ pos = zlen (fields_bits (fs ++ ws))
          | _ => False
          end
      | None => False
      end
  | None => False
  end.
Proof. vm_compute. repeat split. Qed.
