(* C69, C70, C71: the rest of the elen library *)
From Verif Require Import ModelBytes ModelElen ModelTransform ModelFloat SpecElen SpecFp SpecLarge ModelLarge ProofLarge ProofLarge3 ProofLarge4 ProofLarge5 ExampleLarge.
From Coq Require Import Reals.
Local Open Scope N_scope.

(* ---- C69: integers of every width ---- *)
(* Missing: 8-bit types, the smallest 16-bit value; zero comes back, but without the number of characters it took.
   Whatever follows the encoded integer is left alone, and the number of characters taken is reported. *)
Theorem C69_round_trip_partial : forall T v neg pos t,
  (2 <= it_bytes T <= 8)%nat -> sym_ok neg pos -> encodable T v -> v <> 0%Z -> blen t < 2 ^ 63 ->
  exists s, enc_lib T v neg pos = Ok s /\ dec_lib T (s ++ t) neg pos = Ok (v, Some (blen s)).
Proof. exact lib_round_trip. Qed.
Print Assumptions C69_round_trip_partial.
Example C69_round_trip_example : encodable int16_t (-1234) /\
  enc_lib int16_t (-1234) NEG_SYMBOL POS_SYMBOL = Ok (bstr "//58765") /\
  dec_lib int16_t (bstr "//58765:42") NEG_SYMBOL POS_SYMBOL = Ok ((-1234)%Z, Some 7).
Proof. split; [split; [split; vm_compute; congruence|intros _; vm_compute; congruence]|]. split; vm_compute; reflexivity. Qed.

(* numerical order is the order of the encoded strings for every width, also between widths *)
Theorem C69_order : forall T T' v w neg pos a b,
  (1 <= it_bytes T <= 8)%nat -> (1 <= it_bytes T' <= 8)%nat -> sym_ord neg pos -> encodable T v -> encodable T' w -> (v < w)%Z ->
  enc_lib T v neg pos = Ok a -> enc_lib T' w neg pos = Ok b -> before a b.
Proof. exact lib_order. Qed.
Print Assumptions C69_order.
Example C69_order_example : sym_ord NEG_SYMBOL POS_SYMBOL /\ encodable int8_t (-100) /\ encodable uint16_t 65535 /\
  enc_lib int8_t (-100) NEG_SYMBOL POS_SYMBOL = Ok (bstr "//6899") /\ enc_lib uint16_t 65535 NEG_SYMBOL POS_SYMBOL = Ok (bstr "::565535").
Proof.
  split; [split; reflexivity|]. split; [split; [split; vm_compute; congruence|intros _; vm_compute; congruence]|].
  split; [split; [split; vm_compute; congruence|intros X; discriminate X]|]. split; vm_compute; reflexivity.
Qed.

(* 8-bit integers are read back as characters: no value but 0, 53 and -53 survives *)
Theorem C69_byte_refuted : forall T v, T = int8_t \/ T = uint8_t -> (it_min T <= v <= it_max T)%Z -> v <> 0%Z -> v <> 53%Z -> v <> (-53)%Z ->
  forall s w n, enc_lib T v NEG_SYMBOL POS_SYMBOL = Ok s -> dec_lib T s NEG_SYMBOL POS_SYMBOL = Ok (w, n) -> w <> v.
Proof. exact byte_wrong. Qed.
Print Assumptions C69_byte_refuted.
Example C69_byte_example : enc_lib uint8_t 7 NEG_SYMBOL POS_SYMBOL = Ok (bstr ":7") /\
  dec_lib uint8_t (bstr ":7") NEG_SYMBOL POS_SYMBOL = Ok (55%Z, Some 2).
Proof. split; vm_compute; reflexivity. Qed.
(* the number of characters is converted to the type: 256 is none *)
Example C69_byte_example_2 : dec_lib uint8_t (bstr ":::3256" ++ repeat "7"%char 256) NEG_SYMBOL POS_SYMBOL = Throw /\
  dec_lib uint8_t (bstr ":::3257" ++ repeat "7"%char 257) NEG_SYMBOL POS_SYMBOL = Ok (55%Z, Some 264).
Proof. split; vm_compute; reflexivity. Qed.

(* the smallest 16-bit value is written with a minus sign among the digits and comes back as another; the number of
   characters taken is not set for zero *)
Theorem C69_edge_refuted :
  (exists s n, enc_lib int16_t (it_min int16_t) NEG_SYMBOL POS_SYMBOL = Ok s /\ dec_lib int16_t s NEG_SYMBOL POS_SYMBOL = Ok ((-6)%Z, n)) /\
  (forall T neg pos, In T [int8_t; int16_t; int32_t; int64_t; uint8_t; uint16_t; uint32_t; uint64_t] ->
     enc_lib T 0 neg pos = Ok [digit 0] /\ dec_lib T [digit 0] neg pos = Ok (0%Z, None)).
Proof. split; [exists (bstr "/3-67231"), (Some 2); exact min16|exact lib_zero]. Qed.
Print Assumptions C69_edge_refuted.

(* ---- C70: decimals ---- *)
(* Missing: numbers that do not fit an int. Numbers in order have encodings in order, or equal ones. *)
Theorem C70_large_order_partial : forall F p neg pos x y, fmt_ok F -> sym_ord neg pos ->
  valid F x -> valid F y -> finite_fp x -> finite_fp y -> (Rabs (val x) <= 2147483647)%R -> (Rabs (val y) <= 2147483647)%R ->
  (val x <= val y)%R ->
  exists a b, enc_large F p neg pos x = Ok a /\ enc_large F p neg pos y = Ok b /\ (a = b \/ before a b).
Proof. exact large_order. Qed.
Print Assumptions C70_large_order_partial.
(* within one unit of the last digit kept, and the roundings of the format *)
Theorem C70_large_round_trip_partial : forall F p neg pos x, fmt_ok F -> sym_ok neg pos -> valid F x -> finite_fp x -> p < 2 ^ 31 ->
  (Rabs (val x) <= 2147483647)%R ->
  exists s r, enc_large F p neg pos x = Ok s /\ dec_large F s neg pos = Ok r /\ finite_fp r /\ (Rabs (val r - val x) <= large_bound F p x)%R.
Proof. exact large_round_trip. Qed.
Print Assumptions C70_large_round_trip_partial.
Example C70_large_example :
  valid DBL d125 /\ valid DBL d15 /\ (Rabs (val d125) <= 2147483647)%R /\ (Rabs (val d15) <= 2147483647)%R /\ (val d125 <= val d15)%R /\
  enc_large DBL 3 NEG_SYMBOL POS_SYMBOL d125 = Ok (bstr "/8749:") /\ enc_large DBL 3 NEG_SYMBOL POS_SYMBOL d15 = Ok (bstr ":1500/") /\
  dec_large DBL (bstr "/8749:") NEG_SYMBOL POS_SYMBOL = Ok d125.
Proof. exact large_case. Qed.

(* Larger numbers: all positive ones have the same encoding, negative ones are undefined, infinity sorts before 3/2 *)
Theorem C70_large_beyond_refuted :
  (forall F p neg pos x, nonzero_fp x -> (2147483648 <= val x)%R ->
     exists s, enc_int int32_t 2147483647 neg pos = Ok s /\ enc_large F p neg pos x = Ok (s ++ [neg])) /\
  (forall F p neg pos x, nonzero_fp x -> (val x <= -2147483648)%R -> enc_large F p neg pos x = UB) /\
  (exists a b, enc_large DBL 3 NEG_SYMBOL POS_SYMBOL (S754_infinity false) = Ok a /\ enc_large DBL 3 NEG_SYMBOL POS_SYMBOL d15 = Ok b /\ before a b).
Proof. split; [exact large_over|]. split; [exact large_under|]. exact (large_inf_wrong DBL (or_intror eq_refl)). Qed.
Print Assumptions C70_large_beyond_refuted.
Example C70_large_beyond_example : valid DBL (d32 false) /\ (2147483648 <= val (d32 false))%R /\ valid DBL (d32 true) /\ (val (d32 true) <= -2147483648)%R /\
  enc_large DBL 3 NEG_SYMBOL POS_SYMBOL (d32 false) = Ok (bstr ":::2102147483647/").
Proof. exact beyond_case. Qed.

(* Small decimals keep their order and come back within half a unit of the last digit while they stay away from one.
   Missing: the last half unit below one (refuted below), numbers of one and above, precision 0. *)
Theorem C70_small_order_partial : forall p neg pos x y, sym_ord neg pos -> finite_fp x -> finite_fp y ->
  (Rabs (val x) <= 1 - ten (- Z.of_N p))%R -> (Rabs (val y) <= 1 - ten (- Z.of_N p))%R -> (val x <= val y)%R ->
  enc_small p neg pos x = enc_small p neg pos y \/ before (enc_small p neg pos x) (enc_small p neg pos y).
Proof. exact small_order. Qed.
Print Assumptions C70_small_order_partial.
Theorem C70_small_round_trip_partial : forall F p neg pos x, fmt_ok F -> sym_ok neg pos -> finite_fp x -> 1 <= p ->
  (Rabs (val x) <= 1 - ten (- Z.of_N p))%R ->
  exists r, dec_small F (enc_small p neg pos x) neg pos = Ok r /\ finite_fp r /\ (Rabs (val r - val x) <= small_bound F p)%R.
Proof. exact small_round_trip. Qed.
Print Assumptions C70_small_round_trip_partial.
Example C70_small_example :
  (Rabs (val d075) <= 1 - ten (- Z.of_N 3))%R /\ (Rabs (val d05) <= 1 - ten (- Z.of_N 3))%R /\ (val d075 <= val d05)%R /\
  enc_small 3 NEG_SYMBOL POS_SYMBOL d075 = bstr "/249:" /\ enc_small 3 NEG_SYMBOL POS_SYMBOL d05 = bstr ":500/" /\
  dec_small DBL (bstr "/249:") NEG_SYMBOL POS_SYMBOL = Ok d075.
Proof. exact small_case. Qed.

(* What rounds to one is written as zeroes. So a number above one half sorts before it; 3/2 is written like 1/2; with
   precision 0 nothing can be read *)
Theorem C70_small_refuted :
  (forall p neg pos x, nonzero_fp x -> 1 <= p -> (1 - / 2 * ten (- Z.of_N p) < val x <= 1)%R ->
     enc_small p neg pos x = pos :: repeat (digit 0) (N.to_nat p) ++ [neg]) /\
  ((val d05 < val d1m < 1)%R /\ before (enc_small 3 NEG_SYMBOL POS_SYMBOL d1m) (enc_small 3 NEG_SYMBOL POS_SYMBOL d05)) /\
  ((val d05 < val d15)%R /\ enc_small 3 NEG_SYMBOL POS_SYMBOL d15 = enc_small 3 NEG_SYMBOL POS_SYMBOL d05) /\
  dec_small DBL (enc_small 0 NEG_SYMBOL POS_SYMBOL d05) NEG_SYMBOL POS_SYMBOL = Throw.
Proof. split; [exact small_carry|exact small_wrong]. Qed.
Print Assumptions C70_small_refuted.
Example C70_small_refuted_example : nonzero_fp d1m /\ (1 - / 2 * ten (- Z.of_N 3) < val d1m <= 1)%R.
Proof. exact carry_case. Qed.

(* ---- C71: comparing strings ---- *)
Theorem C71_total : (forall a, lex_cpp a a = false) /\
  (forall a b c, lex_cpp a b = true -> lex_cpp b c = true -> lex_cpp a c = true) /\
  (forall a b, a = b \/ lex_cpp a b = true \/ lex_cpp b a = true).
Proof. split; [exact lex_irr|]. split; [exact lex_trans|exact lex_total]. Qed.
Print Assumptions C71_total.
Example C71_total_example : lex_cpp (bstr "/8") (bstr ":0") = true /\ lex_cpp (bstr ":0") (bstr ":00") = true /\ lex_cpp (bstr "/8") (bstr ":00") = true.
Proof. split; [reflexivity|]. split; reflexivity. Qed.

(* Both functions compare characters below 128 as datastores do. Missing: other characters, and characters of value 0 for
   the function that takes pointers. *)
Theorem C71_datastore_partial : forall l r, plain l -> plain r ->
  lex_cpp l r = bltb l r /\
  (~ In "000"%char l -> ~ In "000"%char r -> forall x y, lex_c (l ++ "000"%char :: x) (r ++ "000"%char :: y) = Ok (bltb l r)).
Proof. intros l r PL PR. split; [exact (lex_plain l r PL PR)|]. intros NL NR x y. exact (lex_c_plain l r x y PL PR NL NR). Qed.
Print Assumptions C71_datastore_partial.
(* so the functions order encoded integers by value *)
Theorem C71_encoded_partial : forall T T' v w neg pos a b,
  (1 <= it_bytes T <= 8)%nat -> (1 <= it_bytes T' <= 8)%nat -> sym_ord neg pos -> encodable T v -> encodable T' w -> (v < w)%Z ->
  N_of_ascii neg < 128 -> N_of_ascii pos < 128 -> enc_lib T v neg pos = Ok a -> enc_lib T' w neg pos = Ok b ->
  lex_cpp a b = true /\ forall x y, neg <> "000"%char -> lex_c (a ++ "000"%char :: x) (b ++ "000"%char :: y) = Ok true.
Proof. exact lib_lex. Qed.
Print Assumptions C71_encoded_partial.
Example C71_encoded_example : sym_ord NEG_SYMBOL POS_SYMBOL /\ N_of_ascii NEG_SYMBOL < 128 /\ N_of_ascii POS_SYMBOL < 128 /\ NEG_SYMBOL <> "000"%char.
Proof. split; [split; reflexivity|]. split; [reflexivity|]. split; [reflexivity|discriminate]. Qed.
Example C71_plain_example : plain (bstr "//6899") /\ plain (bstr "::565535") /\ bltb (bstr "//6899") (bstr "::565535") = true /\
  lex_c (bstr "//6899" ++ ["000"%char]) (bstr "::565535" ++ ["000"%char; "x"%char]) = Ok true.
Proof. split; [repeat (constructor; [reflexivity|]); constructor|]. split; [repeat (constructor; [reflexivity|]); constructor|]. split; vm_compute; reflexivity. Qed.

(* characters from 128: neither agrees with datastores, nor the two with each other *)
Theorem C71_refuted :
  (bltb (bstr "a") [ascii_of_N 200] = true /\ lex_cpp (bstr "a") [ascii_of_N 200] = false /\ lex_cpp [ascii_of_N 200] (bstr "a") = true) /\
  (lex_cpp (bstr "a") (bstr "a" ++ [ascii_of_N 200]) = true /\
   lex_c (bstr "a" ++ ["000"%char]) (bstr "a" ++ [ascii_of_N 200; "000"%char]) = Ok false).
Proof. split; [split; [|split]|split]; reflexivity. Qed.
Print Assumptions C71_refuted.
