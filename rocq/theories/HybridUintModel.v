(* Model of the hybrid unsigned integer coding: lib/jxl/dec_ans.h, lib/jxl/dec_ans.cc,
   lib/jxl/enc_ans.cc. *)
From Verif Require Import Base BitProg.

(* dec_ans.h:69-73, 97-104: HybridUintConfig and its constructor.  split_token is stored
   redundantly in the code (1 << split_exponent); here it is a function. *)
Record hconfig := HC { split_exponent : Z; msb_in_token : Z; lsb_in_token : Z }.

Definition split_token (c : hconfig) : Z := w32 (Z.shiftl 1 (split_exponent c)).

(* lib/jxl/base/bits.h: FloorLog2Nonzero, CeilLog2Nonzero (simplification: by the
   mathematical logarithm instead of the count-leading-zeros intrinsic) *)
Definition floor_log2 (x : Z) : Z := Z.log2 x.
Definition ceil_log2 (x : Z) : Z :=
  if Z.land x (x - 1) =? 0 then floor_log2 x else floor_log2 x + 1.

(* dec_ans.h:74-93: HybridUintConfig::Encode; returns (token, nbits, bits), all uint32 *)
Definition hybrid_encode (c : hconfig) (value : Z) : Z * Z * Z :=
  if value <? split_token c then (value, 0, 0)
  else
    let n := floor_log2 value in
    let m := w32 (value - Z.shiftl 1 n) in
    let token :=
      w32 (w32 (w32 (split_token c
        + w32 (Z.shiftl (w32 (n - split_exponent c)) (msb_in_token c + lsb_in_token c)))
        + w32 (Z.shiftl (Z.shiftr m (n - msb_in_token c)) (lsb_in_token c)))
        + Z.land m (Z.shiftl 1 (lsb_in_token c) - 1)) in
    let nbits := w32 (n - msb_in_token c - lsb_in_token c) in
    (token, nbits, Z.land (Z.shiftr value (lsb_in_token c)) (Z.shiftl 1 nbits - 1)).

(* dec_ans.h:226-257: ReadHybridUintConfig.  Relies on the caller having refilled the
   reader (PeekBits/Consume without Refill). *)
Definition hybrid_nbits (c : hconfig) (token : Z) : Z :=
  Z.land (w32 (split_exponent c - (msb_in_token c + lsb_in_token c)
         + Z.shiftr (token - split_token c) (msb_in_token c + lsb_in_token c))) 31.

Definition hybrid_assemble (c : hconfig) (token nbits bits : Z) : Z :=
  let low := Z.land token (Z.shiftl 1 (lsb_in_token c) - 1) in
  let token' := Z.shiftr token (lsb_in_token c) in
  w32 (Z.lor
    (w64 (Z.shiftl
       (Z.lor
          (w64 (Z.shiftl (Z.lor (Z.shiftl 1 (msb_in_token c))
                           (Z.land token' (Z.shiftl 1 (msb_in_token c) - 1))) nbits))
          bits)
       (lsb_in_token c)))
    low).

Definition hybrid_read (c : hconfig) (token : Z) : rprog Z :=
  if token <? split_token c then Ret token
  else
    let nbits := hybrid_nbits c token in
    Peek nbits (fun bits => Consume nbits (Ret (hybrid_assemble c token nbits bits))).

(* enc_ans.cc:1023-1036: EncodeUintConfig, as the list of (width, value) writes *)
Definition uint_config_write (log_alpha_size : Z) (c : hconfig) : list (Z * Z) :=
  (ceil_log2 (log_alpha_size + 1), split_exponent c) ::
  (if split_exponent c =? log_alpha_size then []
   else [(ceil_log2 (split_exponent c + 1), msb_in_token c);
         (ceil_log2 (split_exponent c - msb_in_token c + 1), lsb_in_token c)]).

(* enc_ans.cc:1037-1044: EncodeUintConfigs *)
Definition uint_configs_write (log_alpha_size : Z) (cs : list hconfig) : list (Z * Z) :=
  flat_map (uint_config_write log_alpha_size) cs.

(* dec_ans.cc:273-297: DecodeUintConfig; [None] is the failure status *)
Definition uint_config_read (log_alpha_size : Z) : rprog (option hconfig) :=
  Refill (
    let! se := rd (ceil_log2 (log_alpha_size + 1)) in
    if se =? log_alpha_size then Ret (Some (HC se 0 0))
    else
      let! msb := rd (ceil_log2 (se + 1)) in
      if se <? msb then Ret None
      else
        let! lsb := rd (ceil_log2 (se - msb + 1)) in
        if se <? lsb + msb then Ret None else Ret (Some (HC se msb lsb))).

(* dec_ans.cc:299-307: DecodeUintConfigs *)
Fixpoint uint_configs_read (log_alpha_size : Z) (n : nat) : rprog (option (list hconfig)) :=
  match n with
  | O => Ret (Some [])
  | S n' =>
      let! c := uint_config_read log_alpha_size in
      match c with
      | None => Ret None
      | Some c =>
          let! cs := uint_configs_read log_alpha_size n' in
          Ret (match cs with None => None | Some cs => Some (c :: cs) end)
      end
  end.
