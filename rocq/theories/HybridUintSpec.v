(* What a hybrid-uint configuration means, without reference to the code. *)
From Verif Require Import Base HybridUintModel.

(* The configurations the format admits: the explicit bits fit below the split. *)
Definition hconfig_ok (c : hconfig) : Prop :=
  0 <= msb_in_token c /\ 0 <= lsb_in_token c /\
  msb_in_token c + lsb_in_token c <= split_exponent c /\ split_exponent c <= 24.

(* The configurations the bitstream can express for a given alphabet size: when
   split_exponent = log_alpha_size the other two are not transmitted. *)
Definition hconfig_codable (log_alpha_size : Z) (c : hconfig) : Prop :=
  0 <= msb_in_token c /\ 0 <= lsb_in_token c /\
  msb_in_token c + lsb_in_token c <= split_exponent c /\
  split_exponent c <= log_alpha_size /\
  (split_exponent c = log_alpha_size -> msb_in_token c = 0 /\ lsb_in_token c = 0).
