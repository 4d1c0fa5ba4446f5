(* Property C11 (decoder side): the alias table of a histogram. *)
From Verif Require Import Base AliasModel AliasSpec AliasProofs.

Theorem C11_alias_table_is_a_slot_map : forall h la a,
  4 <= la <= 8 -> is_histogram h -> zlen (pop_trailing_zeros h) <= 2 ^ la ->
  exists t, init_alias_table h la a = Some t /\ slot_map_for h (lookup12 la t).
Proof. exact alias_table_right. Qed.
Print Assumptions C11_alias_table_is_a_slot_map.

Theorem C11_empty_histogram : forall h la a,
  4 <= la <= 8 -> Forall (fun v => v = 0) h ->
  exists t, init_alias_table h la a = Some t /\ slot_map_for [4096] (lookup12 la t).
Proof. exact alias_table_empty. Qed.
Print Assumptions C11_empty_histogram.

Theorem C11_other_histograms_rejected : forall h la a t,
  4 <= la <= 8 -> Forall (fun v => 0 <= v) h -> zsum h < 2 ^ 32 ->
  init_alias_table h la a = Some t -> is_histogram h \/ Forall (fun v => v = 0) h.
Proof. exact alias_table_other. Qed.
Print Assumptions C11_other_histograms_rejected.

Example C11_case : is_histogram [1000; 0; 3000; 50; 46; 0; 0] /\ zlen (pop_trailing_zeros [1000; 0; 3000; 50; 46; 0; 0]) <= 2 ^ 5 /\
  option_map (fun t => map (lookup12 5 t) [0; 999; 4095; 600]) (init_alias_table [1000; 0; 3000; 50; 46; 0; 0] 5 (fun _ => Entry 7 7 7 7 7))
  = Some [Some (0, 0, 1000); Some (0, 775, 1000); Some (2, 2999, 3000); Some (0, 376, 1000)].
Proof. split; [split; [repeat constructor; lia|reflexivity]|]. split; [vm_compute; discriminate|]. vm_compute. reflexivity. Qed.
