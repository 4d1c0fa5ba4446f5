(* C41: the orders of coefficients. *)
From Verif Require Import Base BitReaderModel BitReaderSpec BitProg BitProgProofs HybridUintModel HybridUintSpec AnsModel HistoSpec MtfSpec CodesModel CodesSpec
  LehmerSpec TocSpec PermProofs COrderModel COrderSpec COrderNat COrderProofs COrderEnc TocProps CodesProps.

(* The natural order of each transform has each coefficient once, the low frequencies first and the
   others in zigzag; there is only one such order; the table for lookups is its inverse. *)
Theorem C41_natural_order : forall o t t', is_transform o ->
  exists f g, natural_order o t = Some f /\ natural_lut o t' = Some g /\ is_natural o (map f (zseq 0 (Z.to_nat (area o)))) /\
    forall k, 0 <= k < area o -> g (f k) = k /\ f (g k) = k.
Proof. exact natural_and_lut. Qed.
Print Assumptions C41_natural_order.
Theorem C41_natural_unique : forall o l l', is_transform o -> is_natural o l -> is_natural o l' -> l = l'.
Proof. exact natural_unique. Qed.
Print Assumptions C41_natural_unique.

(* Transforms that share their orders have the same natural order; the orders of others are at other
   places, in a buffer that is large enough. *)
Theorem C41_shared_orders : forall o o', is_transform o -> is_transform o' -> bucket o = bucket o' -> area o = area o' /\ forall l, is_natural o l <-> is_natural o' l.
Proof. exact shared_orders. Qed.
Print Assumptions C41_shared_orders.
Theorem C41_orders_apart : forall o c o' c', is_transform o -> is_transform o' -> 0 <= c < 3 -> 0 <= c' < 3 ->
  (0 <= order_offset (bucket o) c /\ order_offset (bucket o) c + area o <= max_orders) /\
  (bucket o <> bucket o' \/ c <> c' -> order_offset (bucket o) c + area o <= order_offset (bucket o') c' \/ order_offset (bucket o') c' + area o' <= order_offset (bucket o) c).
Proof. exact orders_apart. Qed.
Print Assumptions C41_orders_apart.

(* Whatever the bits are: no undefined behaviour (the buffer has the size that InitForAC gives it), and
   in case of success each order a block can use is valid. *)
Theorem C41_any_bits : forall M used_orders used_acs nat0 buf, lane_count (m_lanes M) -> forall s pos av, 0 <= pos -> 0 <= av <= 56 ->
  exists r pos' av', run_bits s pos av (decode_orders M used_orders used_acs nat0 buf) = Some (Some r, (pos', av')) /\ pos <= pos' /\ 0 <= av' <= 56 /\
    forall b, r = Some b -> orders_ok used_orders used_acs b.
Proof. exact any_orders. Qed.
Print Assumptions C41_any_bits.

(* Valid orders come back. *)
Theorem C41_roundtrip : forall M mem used_orders used_acs lut0 nat0 ebuf buf, lane_count (m_lanes M) ->
  (forall o c, is_transform o -> 0 <= c < 3 -> Z.testbit used_orders (bucket o) = true -> valid_order o (order_in ebuf o c)) ->
  exists raw, orders_tokens used_orders lut0 ebuf = Some raw /\
    (used_orders = 0 -> exists b, parses (decode_orders M used_orders used_acs nat0 buf) [] (Some (Some b)) /\ orders_match used_orders used_acs ebuf b) /\
    forall mp p ts, used_orders <> 0 -> coding_of kPermutationContexts mp p ts raw ->
      exists fs b, encode_with_plan mem mp p ts = Some fs /\ Forall field_ok fs /\
        parses (decode_orders M used_orders used_acs nat0 buf) (fields_bits fs) (Some (Some b)) /\ orders_match used_orders used_acs ebuf b.
Proof. exact orders_roundtrip. Qed.
Print Assumptions C41_roundtrip.

(* The encoder, over the parts of a frame: its orders are valid, natural if they are not stored, and
   once there are blocks that use them they are not changed any more. *)
Theorem C41_encoder_orders : forall nat0 calls all acs buf, Forall part_ok calls -> orders_fixed all acs buf ->
  exists all' acs' b, compute_parts nat0 calls all acs buf = Some (all', acs', b) /\ orders_fixed all' acs' b /\
    (forall x, 0 <= x -> Z.testbit acs x = true -> Z.testbit acs' x = true) /\
    (forall o c, is_transform o -> 0 <= c < 3 -> Z.testbit acs (bucket o) = true -> order_in b o c = order_in buf o c).
Proof. exact parts_ok. Qed.
Print Assumptions C41_encoder_orders.

(* From the first part to the decoder: for each transform in the frame both sides have the same orders. *)
Theorem C41_orders_agree : forall M mem nat0 lut0 dnat0 calls ebuf0 dbuf used_acs, lane_count (m_lanes M) -> Forall part_ok calls ->
  exists used_orders acs ebuf raw, compute_parts nat0 calls 0 0 ebuf0 = Some (used_orders, acs, ebuf) /\ orders_tokens used_orders lut0 ebuf = Some raw /\
    forall mp p ts fs, (used_orders = 0 -> fs = []) ->
      (used_orders <> 0 -> coding_of kPermutationContexts mp p ts raw /\ encode_with_plan mem mp p ts = Some fs) ->
      (forall o, is_transform o -> Z.testbit used_acs o = true -> Z.testbit acs (bucket o) = true) ->
      exists b, parses (decode_orders M used_orders used_acs dnat0 dbuf) (fields_bits fs) (Some (Some b)) /\
        forall o c, is_transform o -> 0 <= c < 3 -> Z.testbit used_acs o = true -> order_in b o c = order_in ebuf o c.
Proof. exact orders_agree. Qed.
Print Assumptions C41_orders_agree.

(* a case: a frame of one part with 8x8 and 16x8 blocks; the coefficient at 62 is often zero, so that it comes last *)
Definition case_count (ord c p : Z) : Z := if (ord =? 0) && (p =? 62) then 3 else 0.
Definition case_calls : list ((Z -> Z -> Z -> Z) * Z * Z) := [(case_count, 17, 17)].
Definition order_plan : plan := Plan (LZ77 false 224 3 (HC 0 0 0) 0) (repeat 0 8) true 15 [HC 4 2 0] [[1; 1] ++ repeat 0 21 ++ [1]] [].
Definition order_case_tokens : list token := match (do (u, _, b) <- compute_parts (fun _ => 0) case_calls 0 0 (fun _ => 0); orders_tokens u (fun _ => 0) b) with Some l => l | None => [] end.
Example C41_case : Forall part_ok case_calls /\
  (exists acs b, compute_parts (fun _ => 0) case_calls 0 0 (fun _ => 0) = Some (1, acs, b) /\ acs = 17 /\ orders_tokens 1 (fun _ => 0) b = Some order_case_tokens) /\ zlen order_case_tokens = 189.
Proof.
  split; [|split].
  - constructor; [|constructor]. split; [|auto]. intros o c p Ho Hc. unfold case_count. split; [destruct (_ && _); lia|]. intros (k & Hk & ->).
    destruct (Z.eqb_spec (bucket o) 0) as [E|]; [|reflexivity]. cbn [andb]. destruct (Z.eqb_spec (low_position o k) 62) as [E2|]; [|reflexivity]. exfalso.
    destruct (bucket_shape o 0 Ho ltac:(unfold is_transform; lia) E) as (C & _ & L & _). unfold low_position in E2. rewrite C, L in *. change (llf 0) with 1 in Hk. change (columns 0) with 1 in E2.
    assert (k = 0) by lia. subst k. discriminate.
  - eexists _, _. split; [vm_compute; reflexivity|]. split; [reflexivity|]. vm_compute. reflexivity.
  - vm_compute. reflexivity.
Qed.
Example C41_case_coding : coding_of kPermutationContexts MSimple order_plan order_case_tokens order_case_tokens.
Proof.
  unfold order_case_tokens. match goal with |- coding_of _ _ _ ?t _ => let v := eval vm_compute in t in change t with v end.
  split; [|split; [|split]].
  - split; [discriminate|]. split; [reflexivity|]. split; [split; [cbn; lia|]; intros h; cbn; lia|]. split; [repeat (apply Forall_cons; [unfold hconfig_codable; cbn; lia|]); apply Forall_nil|].
    cbn [histograms_ok p_prefix order_plan p_log_alpha p_histograms p_configs]. split; [reflexivity|]. split; [reflexivity|]. constructor; [|constructor]. split; [cbn; lia|]. exists 3. split; [cbn; repeat constructor; lia|]. cbn; lia.
  - intros _. left. reflexivity.
  - repeat (eapply pl_literal; [split; [unfold is_u32; cbn; lia|]; split; [reflexivity|]; do 4 eexists; split; [reflexivity|]; split; [reflexivity|]; split; [reflexivity|]; split; [cbn; lia|]; eexists; split; [reflexivity|]; split; vm_compute; [split; [discriminate|reflexivity]|reflexivity]|cbn; lia|]).
    apply pl_nil.
  - eexists. split; [reflexivity|]. repeat constructor.
Qed.
