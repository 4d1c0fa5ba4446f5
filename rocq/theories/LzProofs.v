(* The reader on a token stream: literals and copies. *)
From Verif Require Import Base BitProg BitProgProofs ListAux HybridUintModel HybridUintSpec HybridUintProofs FieldsProofs
  AliasModel AliasSpec AliasProofs AnsModel AnsSpec AnsProofs AnsStream TokProg Wrap.

Lemma mask_mod x : Z.land x kWindowMask = x mod 2 ^ 20.
Proof. change kWindowMask with (Z.ones 20). apply Z.land_ones. lia. Qed.

(* the last 2^20 values are in the window *)
Definition win_ok (w : Z -> option Z) (hist : list Z) : Prop :=
  forall i, 0 <= i < zlen hist -> zlen hist - 2 ^ 20 <= i -> w (i mod 2 ^ 20) = znth hist i.

Lemma znth_app_l {A} (l m : list A) i : i < zlen l -> znth (l ++ m) i = znth l i.
Proof.
  intros H. unfold znth, zlen in *. destruct (Z.ltb_spec i 0); [reflexivity|]. apply nth_error_app1. lia.
Qed.

Lemma win_push w hist v : win_ok w hist ->
  win_ok (fun i => if i =? zlen hist mod 2 ^ 20 then Some v else w i) (hist ++ [v]).
Proof.
  intros H i Hi Hw. rewrite zlen_app in *. change (zlen [v]) with 1 in *. pose proof (zlen_nonneg hist).
  destruct (Z.eq_dec i (zlen hist)) as [->|N].
  - rewrite Z.eqb_refl. now rewrite znth_app_mid.
  - destruct (Z.eqb_spec (i mod 2 ^ 20) (zlen hist mod 2 ^ 20)) as [E|_].
    + exfalso. assert ((zlen hist - i) mod 2 ^ 20 = 0) by (rewrite Zminus_mod, E, Z.sub_diag; reflexivity).
      rewrite Z.mod_small in H1 by lia. lia.
    + rewrite znth_app_l by lia. apply H; lia.
Qed.

Definition next_val (d : Z) (hist : list Z) : Z := if d =? 0 then 0 else nth (Z.to_nat (zlen hist - d)) hist 0.
Fixpoint copy_vals (n : nat) (d : Z) (hist : list Z) : list Z :=
  match n with
  | O => []
  | S n' => let v := next_val d hist in v :: copy_vals n' d (hist ++ [v])
  end.
Lemma copy_vals_back d : d <> 0 -> forall n hist, copy_vals n d hist = copy_back n d hist.
Proof.
  intros Hd. induction n as [|n IH]; intros hist; cbn [copy_vals copy_back]; [reflexivity|].
  unfold next_val. replace (d =? 0) with false by lia. cbn zeta. now rewrite IH.
Qed.
Lemma copy_vals_zero : forall n hist, copy_vals n 0 hist = repeat 0 n.
Proof. induction n as [|n IH]; intros hist; cbn [copy_vals repeat]; [reflexivity|]. cbn zeta. now rewrite IH. Qed.
Lemma copied_vals n d hist : 1 <= d ->
  copied n d hist = copy_vals (Z.to_nat n) (Z.min d (Z.min (zlen hist) (2 ^ 20))) hist.
Proof.
  intros Hd. unfold copied. destruct hist as [|h0 hist].
  - change (zlen []) with 0. replace (Z.min d (Z.min 0 (2 ^ 20))) with 0 by lia. now rewrite copy_vals_zero.
  - rewrite copy_vals_back; [reflexivity|]. rewrite zlen_cons. pose proof (zlen_nonneg hist). lia.
Qed.
Lemma zlen_copy_vals d : forall n hist, zlen (copy_vals n d hist) = Z.of_nat n.
Proof. induction n as [|n IH]; intros hist; cbn [copy_vals]; [reflexivity|]. cbn zeta. rewrite zlen_cons, IH. lia. Qed.

(* a copy in progress *)
Definition pend (r : sreader) (k d : Z) (hist : list Z) : Prop :=
  num_to_copy r = k /\ num_decoded r = zlen hist /\ copy_pos r = zlen hist - d /\ win_ok (window r) hist /\ unhealthy r = false /\
  (1 <= d <= Z.min (zlen hist) (2 ^ 20) \/
   (d = 0 /\ forall i, zlen hist <= i < zlen hist + k -> window r (i mod 2 ^ 20) = Some 0)).

Lemma nth_znth (l : list Z) i : 0 <= i < zlen l -> znth l i = Some (nth (Z.to_nat i) l 0).
Proof.
  intros H. unfold znth, zlen in *. replace (i <? 0) with false by lia. apply nth_error_nth'. lia.
Qed.

Lemma copy_step_pend r k d hist : pend r k d hist -> 1 <= k -> zlen hist + k < 2 ^ 32 ->
  exists r', copy_step r = Some (next_val d hist, r') /\ state r' = state r /\ pend r' (k - 1) d (hist ++ [next_val d hist]).
Proof.
  intros (H1 & H2 & H3 & H4 & H5 & H6) Hk Hl. pose proof (zlen_nonneg hist) as L0. unfold copy_step. rewrite !mask_mod.
  assert (E : window r (copy_pos r mod 2 ^ 20) = Some (next_val d hist)).
  { rewrite H3. unfold next_val. destruct H6 as [Hd|(-> & Hz)].
    - replace (d =? 0) with false by lia. rewrite H4 by lia. apply nth_znth. lia.
    - change (0 =? 0) with true. cbn iota. apply Hz. lia. }
  rewrite E. eexists. split; [reflexivity|]. cbn [state num_to_copy num_decoded copy_pos window unhealthy]. split; [reflexivity|].
  unfold pend. cbn [state num_to_copy num_decoded copy_pos window unhealthy]. rewrite H1, H2, H3. rewrite zlen_app. change (zlen [_]) with 1.
  unfold w32. split; [rewrite Z.mod_small; lia|]. split; [rewrite Z.mod_small; lia|]. split; [rewrite Z.mod_small; lia|].
  split; [rewrite <- mask_mod; rewrite mask_mod; now apply win_push|]. split; [exact H5|].
  destruct H6 as [Hd|(-> & Hz)]; [left; lia|right]. split; [reflexivity|]. intros i Hi.
  destruct (Z.eqb_spec (i mod 2 ^ 20) (zlen hist mod 2 ^ 20)); [reflexivity|]. apply Hz. lia.
Qed.

Section Reader.
Variables (codes : enc_codes) (dc : ans_code) (off dm : Z).
Hypothesis M : codes_match codes dc.
Hypothesis Hdm : 0 <= dm < 2 ^ 28.
Notation cmap := (context_map codes).

(* between tokens *)
Definition idle (r : sreader) (hist : list Z) : Prop :=
  num_to_copy r = 0 /\ unhealthy r = false /\
  (lz_enabled (lz77 dc) = true -> num_decoded r = zlen hist /\ win_ok (window r) hist).

Lemma pend_idle r d hist : pend r 0 d hist -> idle r hist.
Proof. intros (H1 & H2 & H3 & H4 & H5 & _). repeat split; auto. Qed.

(* the values of a copy after the first *)
Lemma copy_rest {A} : forall n (p : tprog A) r d hist l a, pend r (Z.of_nat n) d hist -> zlen hist + Z.of_nat n < 2 ^ 32 ->
  run_toks (zlen cmap) p (map (fun v => (None, v)) (copy_vals n d hist) ++ l) = Some (a, []) ->
  exists p' r', run_toks (zlen cmap) p' l = Some (a, []) /\ idle r' (hist ++ copy_vals n d hist) /\ state r' = state r /\
    forall e res, parses (run_sym dc cmap dm p' r') e res -> parses (run_sym dc cmap dm p r) e res.
Proof.
  induction n as [|n IH]; intros p r d hist l a P B E; cbn [copy_vals map app] in *.
  - exists p, r. rewrite app_nil_r. split; [exact E|]. split; [now apply pend_idle with d|]. split; [reflexivity|auto].
  - destruct p as [a0|ctx k]; [cbn in E; discriminate|]. cbn zeta in E. cbn [map app run_toks] in E.
    destruct ((0 <=? ctx) && (ctx <? zlen cmap) && true) eqn:C; [|discriminate].
    destruct (copy_step_pend r _ d hist P ltac:(lia) B) as (r1 & E1 & S1 & P1).
    replace (Z.of_nat (S n) - 1) with (Z.of_nat n) in P1 by lia.
    destruct (IH (k (next_val d hist)) r1 d (hist ++ [next_val d hist]) l a P1) as (p' & r' & R1 & I1 & S2 & T1).
    + rewrite zlen_app. change (zlen [_]) with 1. lia.
    + exact E.
    + exists p', r'. split; [exact R1|]. split; [cbn zeta; now rewrite <- app_assoc in I1|]. split; [congruence|].
      intros e res H. cbn [run_sym]. change e with ([] ++ e). apply parses_bind with (a := Some (next_val d hist, r1)); [|now apply T1].
      unfold read_hybrid. destruct (znth_in cmap ctx ltac:(lia)) as (j & ->). unfold read_hybrid_clustered.
      destruct P as (Pk & _). rewrite Pk. replace (0 <? Z.of_nat (S n)) with true by lia. rewrite E1. apply parses_ret.
Qed.

(* reading the first value of a token pair *)
Lemma distance_pos d : is_u32 d -> 1 <= distance_of dm d.
Proof.
  intros Hd. unfold distance_of, is_u32 in *. destruct (dm =? 0); [lia|].
  destruct (znth kSpecialDistances d) as [[a b]|] eqn:E; [lia|].
  destruct (Z.ltb_spec d 120); [|lia]. exfalso. destruct (znth_in kSpecialDistances d) as (x & Ex); [|congruence].
  change (zlen kSpecialDistances) with 120. lia.
Qed.

Lemma special_bounds : Forall (fun ab => -8 <= fst ab <= 8 /\ 0 <= snd ab <= 7) kSpecialDistances.
Proof. unfold kSpecialDistances. repeat (constructor; [cbn; lia|]). constructor. Qed.

Lemma distance_decode d : is_u32 d ->
  (if d <? (if dm =? 0 then 0 else kNumSpecialDistances) then special_distance d dm
   else Some (w64 (d + 1 - (if dm =? 0 then 0 else kNumSpecialDistances)))) = Some (distance_of dm d).
Proof.
  intros Hd. unfold is_u32 in Hd. unfold distance_of, kNumSpecialDistances. destruct (Z.eqb_spec dm 0) as [->|N].
  - replace (d <? 0) with false by lia. f_equal. unfold w64. rewrite Z.mod_small; lia.
  - destruct (Z.ltb_spec d 120).
    + unfold special_distance. destruct (znth_in kSpecialDistances d) as ((a & b) & E).
      { change (zlen kSpecialDistances) with 120. lia. }
      rewrite E. pose proof special_bounds as F. rewrite Forall_forall in F.
      assert (In (a, b) kSpecialDistances) as K by (unfold znth in E; destruct (d <? 0); [discriminate|]; eapply nth_error_In; eauto).
      apply F in K. cbn [fst snd] in K. rewrite s32_id by (unfold is_i32; lia).
      assert (0 <= dm * b <= 2 ^ 28 * 7) by (split; [apply Z.mul_nonneg_nonneg; lia|apply Z.mul_le_mono_nonneg; lia]).
      cbn zeta. destruct ((- 2 ^ 31 <=? dm * b) && (dm * b <? 2 ^ 31) && (- 2 ^ 31 <=? a + dm * b) && (a + dm * b <? 2 ^ 31)) eqn:G; [|lia].
      f_equal. destruct (Z.ltb_spec 1 (a + dm * b)); lia.
    + destruct (znth kSpecialDistances d) as [[a b]|] eqn:E.
      { apply znth_bound in E. change (zlen kSpecialDistances) with 120 in E. lia. }
      f_equal. unfold w64. rewrite Z.mod_small; lia.
Qed.

Lemma start_copy_ok r hist n d : lz_enabled (lz77 dc) = true -> idle r hist -> is_u32 n -> is_u32 d ->
  n + min_length (lz77 dc) < 2 ^ 32 -> zlen hist + n + min_length (lz77 dc) < 2 ^ 32 ->
  let len := n + min_length (lz77 dc) in
  let dd := Z.min (distance_of dm d) (Z.min (zlen hist) (2 ^ 20)) in
  exists r', start_copy dc dm r n d = Some (next_val dd hist, r') /\ state r' = state r /\
    pend r' (len - 1) dd (hist ++ [next_val dd hist]).
Proof.
  intros Hlz (I1 & I2 & I3) Hn Hd Hw Hl len dd. destruct (I3 Hlz) as (I4 & I5).
  destruct M as (_ & _ & _ & Hle & ML & _). rewrite Hlz in Hle. destruct (ML (eq_sym Hle)) as (_ & _ & _ & Hml & _). pose proof (distance_pos d Hd) as Hp. pose proof (zlen_nonneg hist) as L0.
  unfold is_u32 in Hn. unfold start_copy. cbn zeta. rewrite distance_decode by exact Hd.
  set (dist := distance_of dm d) in *.
  assert (E1 : (if kWindowSize <? (if num_decoded r <? dist then num_decoded r else dist) then kWindowSize
                else (if num_decoded r <? dist then num_decoded r else dist)) = dd).
  { unfold dd. rewrite I4. change kWindowSize with (2 ^ 20). destruct (Z.ltb_spec (zlen hist) dist);
    [destruct (Z.ltb_spec (2 ^ 20) (zlen hist))|destruct (Z.ltb_spec (2 ^ 20) dist)]; lia. }
  rewrite E1. replace (w32 (n + min_length (lz77 dc))) with len by (unfold w32, len; rewrite Z.mod_small; lia).
  replace (len <? min_length (lz77 dc)) with false by (unfold len; lia).
  set (w := if dd =? 0 then _ else window r).
  destruct (copy_step_pend (SReader (state r) (num_decoded r) len (w32 (num_decoded r - dd)) w (unhealthy r)) len dd hist) as (r' & E & S & P).
  - unfold pend. cbn [num_to_copy num_decoded copy_pos window unhealthy]. rewrite I4.
    split; [reflexivity|]. split; [reflexivity|]. split; [unfold w32; rewrite Z.mod_small; unfold dd; lia|].
    destruct (Z.eqb_spec dd 0) as [E0|N0].
    + assert (zlen hist = 0) by (unfold dd in E0; lia). split; [intros i Hi; lia|]. split; [exact I2|]. right. split; [exact E0|].
      intros i Hi. unfold w. change kWindowSize with (2 ^ 20).
      pose proof (Z.mod_pos_bound i (2 ^ 20) ltac:(lia)).
      assert (i mod 2 ^ 20 <= i) by (apply Z.mod_le; lia).
      replace ((0 <=? i mod 2 ^ 20) && (i mod 2 ^ 20 <? Z.min len (2 ^ 20))) with true by lia. reflexivity.
    + split; [exact I5|]. split; [exact I2|]. left. unfold dd in *. lia.
  - unfold len. lia.
  - unfold len. lia.
  - exists r'. split; [exact E|]. split; [exact S|exact P].
Qed.

(* ---- reading one raw symbol inside the reader ---- *)
Lemma literal_read r hist raw x' e1 e2 :
  idle r hist -> zlen hist + 1 < 2 ^ 32 ->
  parses_buffered 16 (read_symbol dc (rj raw) (state r)) e1 (Some (rs raw, x')) -> zlen e1 <= 16 ->
  parses_buffered 31 (hybrid_read (rcfg raw) (rtok raw)) e2 (rv raw) -> zlen e2 <= 31 ->
  rs raw = rtok raw -> znth (uint_config dc) (rj raw) = Some (rcfg raw) ->
  rs raw < (if lz_enabled (lz77 dc) then min_symbol (lz77 dc) else 2 ^ 20) ->
  exists r', parses (read_hybrid_clustered dc dm r (rj raw)) (e1 ++ e2) (Some (rv raw, r')) /\
    state r' = x' /\ idle r' (hist ++ [rv raw]).
Proof.
  intros (I1 & I2 & I3) Hl P1 L1 P2 L2 Es Ec Ht.
  unfold read_hybrid_clustered. rewrite I1. change (0 <? 0) with false. cbn iota.
  set (r1 := set_state r x').
  set (r2 := if lz_enabled (lz77 dc)
             then SReader (state r1) (w32 (num_decoded r1 + 1)) (num_to_copy r1) (copy_pos r1)
                    (fun i => if i =? Z.land (num_decoded r1) kWindowMask then Some (rv raw) else window r1 i) (unhealthy r1)
             else r1).
  exists r2. split; [|split].
  - pose proof (zlen_nonneg e1). pose proof (zlen_nonneg e2).
    apply parses_refill with (need := zlen e1 + 31); [lia|rewrite zlen_app; lia|].
    eapply buffered_bind; [exact P1| |lia]. cbn iota beta zeta.
    change (Z.shiftl 1 20) with (2 ^ 20).
    destruct (Z.leb_spec (if lz_enabled (lz77 dc) then min_symbol (lz77 dc) else 2 ^ 20) (rs raw)); [lia|].
    rewrite Ec, Es. fold r1.
    intros pre post av Hav. rewrite run_bits_bind. destruct (P2 pre post av Hav) as (av' & -> & Ha).
    cbn [run_bits]. exists av'. split; [reflexivity|exact Ha].
  - unfold r2, r1. destruct (lz_enabled (lz77 dc)); reflexivity.
  - unfold r2, r1. destruct (lz_enabled (lz77 dc)) eqn:Hlz.
    + destruct (I3 eq_refl) as (I4 & I5). split; [exact I1|]. split; [exact I2|]. intros _. cbn [set_state num_decoded window].
      rewrite I4, mask_mod. pose proof (zlen_nonneg hist). split; [|now apply win_push].
      rewrite zlen_app. change (zlen [_]) with 1. unfold w32. rewrite Z.mod_small; lia.
    + split; [exact I1|]. split; [exact I2|]. intros X. congruence.
Qed.

Lemma copy_read r hist raw raw' x1 x2 e1 e2 e3 e4 :
  lz_enabled (lz77 dc) = true -> idle r hist -> 
  parses_buffered 16 (read_symbol dc (rj raw) (state r)) e1 (Some (rs raw, x1)) -> zlen e1 <= 16 ->
  parses_buffered 31 (hybrid_read (rcfg raw) (rtok raw)) e2 (rv raw) -> zlen e2 <= 31 ->
  rs raw = rtok raw + min_symbol (lz77 dc) -> 0 <= rtok raw -> rcfg raw = length_uint_config (lz77 dc) -> is_u32 (rv raw) ->
  parses_buffered 16 (read_symbol dc (rj raw') x1) e3 (Some (rs raw', x2)) -> zlen e3 <= 16 ->
  parses_buffered 31 (hybrid_read (rcfg raw') (rtok raw')) e4 (rv raw') -> zlen e4 <= 31 ->
  rs raw' = rtok raw' -> znth (uint_config dc) (rj raw') = Some (rcfg raw') -> rj raw' = distance_context (lz77 dc) -> is_u32 (rv raw') ->
  rv raw + min_length (lz77 dc) < 2 ^ 32 -> zlen hist + rv raw + min_length (lz77 dc) < 2 ^ 32 ->
  let dd := Z.min (distance_of dm (rv raw')) (Z.min (zlen hist) (2 ^ 20)) in
  exists r', parses (read_hybrid_clustered dc dm r (rj raw)) (e1 ++ e2 ++ e3 ++ e4) (Some (next_val dd hist, r')) /\
    state r' = x2 /\ pend r' (rv raw + min_length (lz77 dc) - 1) dd (hist ++ [next_val dd hist]).
Proof.
  intros Hlz I P1 L1 P2 L2 Es Ht0 Ec Hv P3 L3 P4 L4 Es' Ec' Ed Hv' Hw Hl dd.
  assert (I' : idle (set_state (set_state r x1) x2) hist) by exact I.
  destruct (start_copy_ok _ hist (rv raw) (rv raw') Hlz I' Hv Hv' Hw Hl) as (r' & E & S & P).
  exists r'. split; [|split; [exact S|exact P]].
  destruct I as (I1 & I2 & I3). unfold read_hybrid_clustered. rewrite I1. change (0 <? 0) with false. cbn iota.
  pose proof (zlen_nonneg e1). pose proof (zlen_nonneg e2). pose proof (zlen_nonneg e3). pose proof (zlen_nonneg e4).
  (* the second half, from its refill *)
  assert (HB : parses (Refill (let! t2 := read_symbol dc (distance_context (lz77 dc)) (state (set_state r x1)) in
              match t2, znth (uint_config dc) (distance_context (lz77 dc)) with
              | Some (d_token, s2), Some cfg =>
                  let! d := hybrid_read cfg d_token in
                  Ret (start_copy dc dm (set_state (set_state r x1) s2) (rv raw) d)
              | _, _ => Ret None
              end)) (e3 ++ e4) (Some (next_val dd hist, r'))).
  { apply parses_refill with (need := zlen e3 + 31); [lia|rewrite zlen_app; lia|].
    rewrite Ed in *. eapply buffered_bind; [exact P3| |lia]. cbn iota beta. rewrite Ec', Es'.
    intros pre post av Hav. rewrite run_bits_bind. destruct (P4 pre post av Hav) as (av' & -> & Ha).
    cbn [run_bits]. exists av'. rewrite E. split; [reflexivity|exact Ha]. }
  (* the first half *)
  intros pre post av Hav. cbn [run_bits]. rewrite run_bits_bind.
  destruct (P1 pre (e2 ++ e3 ++ e4 ++ post) 56 ltac:(lia)) as (av1 & R1 & A1).
  replace (pre ++ (e1 ++ e2 ++ e3 ++ e4) ++ post) with (pre ++ e1 ++ e2 ++ e3 ++ e4 ++ post) by (rewrite <- !app_assoc; reflexivity).
  rewrite R1. cbn iota beta zeta. rewrite Hlz.
  destruct (Z.leb_spec (min_symbol (lz77 dc)) (rs raw)); [|lia].
  rewrite run_bits_bind. replace (rs raw - min_symbol (lz77 dc)) with (rtok raw) by lia. rewrite <- Ec.
  destruct (P2 (pre ++ e1) (e3 ++ e4 ++ post) av1 ltac:(lia)) as (av2 & R2 & A2).
  rewrite zlen_app, <- app_assoc in R2. rewrite R2.
  destruct (HB (pre ++ e1 ++ e2) post av2 ltac:(lia)) as (av3 & R3 & A3).
  rewrite !zlen_app in R3. rewrite <- !app_assoc in R3. exists av3.
  replace (zlen pre + zlen e1 + zlen e2) with (zlen pre + (zlen e1 + zlen e2)) by lia.
  cbn [run_bits] in R3 |- *. rewrite R3. split; [|exact A3].
  rewrite !zlen_app. f_equal. f_equal. f_equal. lia.
Qed.

(* ---- whole streams ---- *)
Inductive items : list token -> list raw -> Prop :=
| it_nil : items [] []
| it_lit c v r ts rs' : raw_token codes dc off (Token false c v) r ->
    rs r < (if lz_enabled (e_lz77 codes) then min_symbol (e_lz77 codes) else 2 ^ 20) ->
    items ts rs' -> items (Token false c v :: ts) (r :: rs')
| it_copy c n c' d r r' ts rs' : lz_enabled (e_lz77 codes) = true ->
    raw_token codes dc off (Token true c n) r -> n + min_length (e_lz77 codes) < 2 ^ 32 ->
    raw_token codes dc off (Token false c' d) r' -> rj r' = distance_context (lz77 dc) ->
    items ts rs' -> items (Token true c n :: Token false c' d :: ts) (r :: r' :: rs').

Lemma coded_raw t j s : coded_token codes dc off t j s -> (lz_enabled (e_lz77 codes) = false -> is_lz77_length t = false) ->
  exists r, raw_token codes dc off t r /\ rj r = j /\ rs r = s.
Proof.
  intros (U & J & cfg & tok & nb & b & C & E & S & S32 & K) L. exists (Raw j s cfg tok (value t)).
  split; [|split; reflexivity]. unfold raw_token. cbn [rj rs rcfg rtok rv].
  split; [exact U|]. split; [exact J|]. split; [exact C|]. split; [eauto|]. repeat split; auto.
Qed.

Lemma tokens_items ts : tokens_ok codes dc off ts -> exists raws, items ts raws.
Proof.
  induction 1 as [|c v j s ts C T H IH|c n j s c' d s' ts Hz C N C' H IH].
  - exists []. constructor.
  - destruct IH as (raws & IH). destruct (coded_raw _ _ _ C) as (r & R & _ & S); [reflexivity|].
    exists (r :: raws). constructor; auto. congruence.
  - destruct IH as (raws & IH). destruct (coded_raw _ _ _ C) as (r & R & _ & S); [congruence|].
    destruct (coded_raw _ _ _ C') as (r' & R' & J' & S'); [reflexivity|]. exists (r :: r' :: raws). constructor; auto.
Qed.
Lemma items_raws ts raws : items ts raws -> Forall2 (raw_token codes dc off) ts raws.
Proof. induction 1; [constructor|now constructor|constructor; [assumption|now constructor]]. Qed.

Theorem stream_reads {A} ts raws : items ts raws -> forall (p : tprog A) hist l a r e,
  expand (min_length (e_lz77 codes)) dm off hist ts = Some l -> run_toks (zlen cmap) p l = Some (a, []) ->
  chain dc (state r) raws e -> idle r hist -> zlen hist + zlen l < 2 ^ 32 ->
  exists r', parses (run_sym dc cmap dm p r) e (Some (a, r')) /\ state r' = FINAL /\ unhealthy r' = false /\ num_to_copy r' = 0.
Proof.
  pose proof M as (_ & Mc & _ & Ml & ML & _).
  induction 1 as [|c v raw ts raws R T H IH|c n c' d raw raw' ts raws Hz R N R' J H IH]; intros p hist l a r e X E C I L.
  - cbn in X. injection X as <-. inversion C; subst. destruct p as [a0|ctx k]; [|discriminate]. cbn in E. injection E as <-.
    exists r. split; [apply parses_ret|]. destruct I as (I1 & I2 & _). auto.
  - cbn [expand] in X. destruct (expand _ _ _ (hist ++ [v]) ts) as [l'|] eqn:X'; [|discriminate]. injection X as <-.
    rewrite zlen_cons in L. pose proof (zlen_nonneg l').
    destruct p as [a0|ctx k]; [cbn in E; discriminate|]. cbn [run_toks] in E.
    destruct ((0 <=? ctx) && (ctx <? zlen cmap) && (off + c =? ctx)) eqn:G; [|discriminate].
    assert (ctx = off + c) by lia. subst ctx.
    pose proof R as (U & Jr & Cr & (nb & b & Er) & Sr & S32 & _ & Vr & K). cbn [is_lz77_length value context] in *.
    rewrite Z.add_0_r in Sr.
    inversion C as [|x x' ? ? e1 e2 e' P1 L1 P2 L2 C']; subst x e. clear C. subst.
    destruct (literal_read r hist raw x' e1 e2 I ltac:(lia) P1 L1 P2 L2 Sr) as (r1 & PR & S1 & I1).
    + rewrite Mc. exact Cr.
    + rewrite Ml. destruct (lz_enabled (e_lz77 codes)); [destruct (ML eq_refl) as (-> & _); exact T|exact T].
    + subst x'.
      destruct (IH (k (rv raw)) (hist ++ [rv raw]) l' a r1 e' X' E C' I1) as (r' & PR' & F').
      { rewrite zlen_app. change (zlen [_]) with 1. lia. }
      exists r'. split; [|exact F']. cbn [run_sym]. rewrite app_assoc. eapply parses_bind; [unfold read_hybrid; rewrite Jr; exact PR|exact PR'].
  - destruct (ML Hz) as (Ms & Ms0 & Mm & Mm1 & Mlc & _). cbn [expand] in X. rewrite copied_vals in X by (apply distance_pos; apply R').
    set (dd := Z.min (distance_of dm d) (Z.min (zlen hist) (2 ^ 20))) in *.
    pose proof R as (U & Jr & Cr & (nb & b & Er) & Sr & S32 & _ & Vr & K). cbn [is_lz77_length value context] in *.
    pose proof R' as (U' & Jr' & Cr' & (nb' & b' & Er') & Sr' & S32' & _ & Vr' & K'). cbn [is_lz77_length value context] in *.
    rewrite Z.add_0_r in Sr'. unfold is_u32 in U.
    set (len := n + min_length (e_lz77 codes)) in *. assert (Hlen : 1 <= len) by (unfold len; lia).
    assert (Ev : copy_vals (Z.to_nat len) dd hist = next_val dd hist :: copy_vals (Z.to_nat (len - 1)) dd (hist ++ [next_val dd hist])).
    { replace (Z.to_nat len) with (S (Z.to_nat (len - 1))) by lia. reflexivity. }
    rewrite Ev in X. set (vs := copy_vals (Z.to_nat (len - 1)) dd (hist ++ [next_val dd hist])) in *.
    destruct (expand _ _ _ (hist ++ next_val dd hist :: vs) ts) as [l'|] eqn:X'; [|discriminate]. injection X as <-.
    assert (Lvs : zlen vs = len - 1) by (unfold vs; rewrite zlen_copy_vals; lia).
    rewrite zlen_cons, zlen_app in L. pose proof (zlen_nonneg l'). pose proof (zlen_nonneg hist).
    assert (Lm : zlen (map (fun v => (@None Z, v)) vs) = len - 1) by (unfold zlen in *; rewrite map_length; exact Lvs). rewrite Lm in L.
    destruct p as [a0|ctx k]; [cbn in E; discriminate|]. cbn [run_toks] in E.
    destruct ((0 <=? ctx) && (ctx <? zlen cmap) && (off + c =? ctx)) eqn:G; [|discriminate].
    assert (ctx = off + c) by lia. subst ctx.
    inversion C as [|x x1 ? ? e1 e2 e' P1 L1 P2 L2 C']; subst x e. clear C. subst.
    inversion C' as [|x x2 ? ? e3 e4 e'' P3 L3 P4 L4 C'']; subst x e'. clear C'. subst.
    destruct (copy_read r hist raw raw' x1 x2 e1 e2 e3 e4) as (r1 & PR & S1 & PD); auto.
    + congruence.
    + rewrite Ms. exact Sr.
    + destruct (raw_hybrid codes dc off M _ _ _ _ R Er) as (T0 & _). exact T0.
    + congruence.
    + rewrite Mc. exact Cr'.
    + rewrite Mm. exact N.
    + rewrite Mm. unfold len in *. lia.
    + cbn zeta in PR, PD. rewrite Mm in *. fold dd in PR, PD. fold len in PD.
      replace (len - 1) with (Z.of_nat (Z.to_nat (len - 1))) in PD by lia.
      destruct (copy_rest (Z.to_nat (len - 1)) (k (next_val dd hist)) r1 dd (hist ++ [next_val dd hist]) l' a PD) as (p' & r2 & R2 & I2 & S2 & T2).
      * rewrite zlen_app. change (zlen [_]) with 1. lia.
      * exact E.
      * rewrite <- app_assoc in I2. cbn [app] in I2. fold vs in I2.
        destruct (IH p' (hist ++ next_val dd hist :: vs) l' a r2 e'' X' R2) as (r' & PR' & F').
        -- rewrite S2, S1. exact C''.
        -- exact I2.
        -- rewrite zlen_app, zlen_cons. lia.
        -- exists r'. split; [|exact F']. cbn [run_sym].
           replace (e1 ++ e2 ++ e3 ++ e4 ++ e'') with ((e1 ++ e2 ++ e3 ++ e4) ++ e'') by (rewrite <- !app_assoc; reflexivity).
           eapply parses_bind; [unfold read_hybrid; rewrite Jr; exact PR|apply T2; exact PR'].
Qed.
End Reader.

(* ---- the theorem about WriteTokens and the reader ---- *)
Theorem write_read {A} codes dc off dm ts (p : tprog A) l a :
  codes_match codes dc -> tokens_ok codes dc off ts -> 0 <= dm < 2 ^ 28 ->
  expand (min_length (e_lz77 codes)) dm off [] ts = Some l -> zlen l < 2 ^ 32 ->
  run_toks (zlen (context_map codes)) p l = Some (a, []) ->
  exists fs r, write_tokens codes off ts = Some fs /\ Forall field_ok fs /\
    parses (run_stream dc (context_map codes) dm p) (fields_bits fs) (Some (a, r)) /\
    check_final_state r = true /\ unhealthy r = false /\ num_to_copy r = 0.
Proof.
  intros M T Hdm X L E. destruct (tokens_items codes dc off ts T) as (raws & I). pose proof (items_raws _ _ _ _ _ I) as F.
  unfold write_tokens. destruct (e_use_prefix codes) eqn:Hp.
  - destruct (prefix_chain codes dc off M ts Hp raws F) as (fs & E1 & O1 & C1).
    set (r0 := SReader (w32 (Z.shiftl ANS_SIGNATURE 16)) 0 0 0 (fun _ => None) false).
    destruct (stream_reads codes dc off dm M Hdm ts raws I p [] l a r0 (fields_bits fs) X E) as (r' & P & S & H1 & H2).
    + exact C1.
    + split; [reflexivity|]. split; [reflexivity|]. intros _. split; [reflexivity|]. intros i Hi. change (zlen []) with 0 in Hi. lia.
    + change (zlen []) with 0. lia.
    + exists fs, r'. split; [exact E1|]. split; [exact O1|]. split; [|split; [unfold check_final_state; rewrite S; reflexivity|auto]].
      unfold run_stream, reader_create. destruct M as (Hu & _). rewrite Hu, Hp. exact P.
  - destruct (ans_chain codes dc off M ts Hp raws F) as (x & r & e & E1 & O1 & B1 & A1 & C1).
    set (r0 := SReader x 0 0 0 (fun _ => None) false).
    destruct (stream_reads codes dc off dm M Hdm ts raws I p [] l a r0 e X E) as (r' & P & S & H1 & H2).
    + exact C1.
    + split; [reflexivity|]. split; [reflexivity|]. intros _. split; [reflexivity|]. intros i Hi. change (zlen []) with 0 in Hi. lia.
    + change (zlen []) with 0. lia.
    + exists ((32, x) :: (numallbits r, allbits r) :: out r), r'. unfold write_tokens_ans. change (Z.shiftl ANS_SIGNATURE 16) with FINAL. rewrite E1.
      split; [reflexivity|]. destruct O1 as (O1 & O2). unfold ans_state in A1.
      split; [constructor; [split; cbn; lia|constructor; [exact O1|exact O2]]|].
      split; [|split; [unfold check_final_state; rewrite S; reflexivity|auto]].
      unfold run_stream, reader_create. destruct M as (Hu & _). rewrite Hu, Hp. cbn [bind].
      rewrite !fields_bits_cons. cbn [fst snd]. unfold rb_bits in B1. rewrite B1.
      change (Read 32 (fun x => bind (Ret x) (fun s => bind (Ret (SReader s 0 0 0 (fun _ => None) false)) (fun r => run_sym dc (context_map codes) dm p r)))) with
        (Read 32 (fun s => run_sym dc (context_map codes) dm p (SReader s 0 0 0 (fun _ => None) false))).
      apply parses_read; [lia|lia|exact P].
Qed.
