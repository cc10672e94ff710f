(* What is required of the symbols and the values of the integer encoding *)
From Verif Require Import ModelBytes ModelElen.
Local Open Scope N_scope.

(* neither symbol is a digit and they differ *)
Definition sym_ok (neg pos : byte) : Prop := is_digit neg = false /\ is_digit pos = false /\ neg <> pos.
(* the symbols surround the digits: neg < '0' and '9' < pos as unsigned bytes *)
Definition sym_ord (neg pos : byte) : Prop := N_of_ascii neg < 48 /\ 57 < N_of_ascii pos.

(* a value of the type other than the smallest signed one *)
Definition encodable (T : ity) (v : Z) : Prop :=
  (it_min T <= v <= it_max T)%Z /\ (it_signed T = true -> v <> it_min T).

(* 64-bit integers come back and keep their order with these symbols *)
Definition preserves_values (neg pos : byte) : Prop :=
  forall v s, encodable int64_t v -> enc_int int64_t v neg pos = Ok s -> dec_int int64_t s neg pos = Ok v.
Definition preserves_order (neg pos : byte) : Prop :=
  forall v w a b, encodable int64_t v -> encodable int64_t w -> (v < w)%Z ->
    enc_int int64_t v neg pos = Ok a -> enc_int int64_t w neg pos = Ok b -> bltb a b = true.
