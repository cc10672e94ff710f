(* C10, C11, C56: floating point fields. L is any libm as accurate as SpecFp.good_libm, u any configuration. *)
From Verif Require Import ModelBytes ModelKey ModelElen ModelHist ModelMsg ModelStore ModelTransform ModelFloat
  SpecElen SpecFp ProofFpLibm ProofFloat ProofFpSame ExampleFloat.
From Coq Require Import Reals.
Local Open Scope R_scope.

(* Missing from C10: the exponents and precisions of the refutations below, and FLOATs so close to the largest that
   rounding may leave the range. Everything else comes back rounded to the configured precision. *)
Theorem C10_precision_partial : forall L u t F x,
  good_libm L -> fp_type t F -> sym_ok (ne_neg (cb_num u)) (ne_pos (cb_num u)) ->
  (1 <= precision F u < 2 ^ 31)%N -> valid F x -> nonzero_fp x -> (-308 <= lm_exp L F x <= 308)%Z ->
  Rabs (val x) + err_bound L F (precision F u) x <= val (largest F) ->
  (val x < 0 -> lm_exp L F x <> 9%Z) -> (0 < val x -> lm_exp L F x <> (-9)%Z) ->
  exists r, comes_back L u t F x r /\ finite_fp r /\ Rabs (val r - val x) <= err_bound L F (precision F u) x.
Proof. exact back_precision. Qed.
Print Assumptions C10_precision_partial.
(* 1/3 with three digits *)
Example C10_precision_example : precision DBL (u_p 3) = 3%N /\
  valid DBL third /\ nonzero_fp third /\ (lm_exp exact_libm DBL third = 1)%Z /\
  Rabs (val third) + err_bound exact_libm DBL 3 third <= val (largest DBL) /\
  err_bound exact_libm DBL 3 third <= 51 / 10000.
Proof. split; [reflexivity|exact third_3]. Qed.

(* The same for the default precisions, whatever the libm: 14 and 5 significant digits *)
Theorem C10_double_partial : forall L u x,
  good_libm L -> sym_ok (ne_neg (cb_num u)) (ne_pos (cb_num u)) ->
  ne_double (cb_num u) = DOUBLE_PRECISION -> valid DBL x -> finite_fp x ->
  ten (-300) <= Rabs (val x) <= ten 300 ->
  ~ (-4 * ten 8 <= val x <= -25 * ten 6) -> ~ (25 * ten (-12) <= val x <= 4 * ten (-10)) ->
  exists r, comes_back L u T_DOUBLE DBL x r /\ finite_fp r /\ Rabs (val r - val x) <= Rabs (val x) * ten (-14).
Proof. exact back_default_dbl. Qed.
Print Assumptions C10_double_partial.
Example C10_double_example : good_libm exact_libm /\ valid DBL third /\ finite_fp third /\
  ten (-300) <= Rabs (val third) <= ten 300 /\
  ~ (-4 * ten 8 <= val third <= -25 * ten 6) /\ ~ (25 * ten (-12) <= val third <= 4 * ten (-10)) /\
  comes_back exact_libm u_d T_DOUBLE DBL third third'.
Proof. exact third_ok. Qed.

Theorem C10_float_partial : forall L u x,
  good_libm L -> sym_ok (ne_neg (cb_num u)) (ne_pos (cb_num u)) ->
  ne_float (cb_num u) = FLOAT_PRECISION -> valid FLT x -> finite_fp x ->
  ten (-37) <= Rabs (val x) <= ten 38 * 3 * (1 - ten (-5)) ->
  ~ (-4 * ten 8 <= val x <= -25 * ten 6) -> ~ (25 * ten (-12) <= val x <= 4 * ten (-10)) ->
  exists r, comes_back L u T_FLOAT FLT x r /\ finite_fp r /\ Rabs (val r - val x) <= Rabs (val x) * ten (-5).
Proof. exact back_default_flt. Qed.
Print Assumptions C10_float_partial.
Example C10_float_example : valid FLT third_f /\ finite_fp third_f /\
  ten (-37) <= Rabs (val third_f) <= ten 38 * 3 * (1 - ten (-5)) /\
  ~ (-4 * ten 8 <= val third_f <= -25 * ten 6) /\ ~ (25 * ten (-12) <= val third_f <= 4 * ten (-10)).
Proof. exact third_f_ok. Qed.

(* Zero comes back; the sign of -0 does not *)
Theorem C10_zero_partial : forall L u t F s, fp_type t F -> comes_back L u t F (S754_zero s) (S754_zero false).
Proof. exact back_zero. Qed.
Print Assumptions C10_zero_partial.
Example C10_zero_example : comes_back exact_libm u_d T_FLOAT FLT (S754_zero true) (S754_zero false).
Proof. apply back_zero. left; split; reflexivity. Qed.

(* Exponent 9 of a negative and -9 of a positive number is read as 0: numbers below minus 25 million come back
   above -1, and positive numbers below one billionth as 0 or more than one thousandth *)
Theorem C10_exponent_9_refuted : forall L u t F x,
  good_libm L -> fp_type t F -> sym_ok (ne_neg (cb_num u)) (ne_pos (cb_num u)) ->
  (1 <= precision F u < 2 ^ 31)%N -> valid F x -> nonzero_fp x ->
  (val x < 0 /\ lm_exp L F x = 9%Z) \/ (0 < val x /\ lm_exp L F x = (-9)%Z) ->
  exists r, comes_back L u t F x r /\ finite_fp r /\
    Rabs (val r) <= 1 /\ (val r = 0 \/ / 1000 <= Rabs (val r)) /\
    (val x <= -25000000 \/ 0 < val x <= / 1000000000).
Proof. exact back_nine. Qed.
Print Assumptions C10_exponent_9_refuted.
(* -100000000 comes back as -0.1 *)
Example C10_exponent_9_example : valid DBL m1e8 /\ nonzero_fp m1e8 /\ val m1e8 = -100000000 /\ lm_exp exact_libm DBL m1e8 = 9%Z /\
  comes_back exact_libm u_d T_DOUBLE DBL m1e8 m01.
Proof. exact m1e8_ok. Qed.

(* Exponent 309: infinity or NaN comes back *)
Theorem C10_exponent_309_refuted : forall L u t F x,
  good_libm L -> fp_type t F -> sym_ok (ne_neg (cb_num u)) (ne_pos (cb_num u)) ->
  (1 <= precision F u < 2 ^ 31)%N -> valid F x -> nonzero_fp x -> (308 < lm_exp L F x)%Z ->
  exists r, comes_back L u t F x r /\ ~ finite_fp r.
Proof. exact back_huge. Qed.
Print Assumptions C10_exponent_309_refuted.
Example C10_exponent_309_example : valid DBL e308 /\ nonzero_fp e308 /\ lm_exp exact_libm DBL e308 = 309%Z /\
  comes_back exact_libm u_d T_DOUBLE DBL e308 (S754_infinity false).
Proof. exact e308_ok. Qed.

(* Exponents below -308: the digits are the "f" of "inf", and zero comes back *)
Theorem C10_subnormal_refuted : forall L u t F x,
  good_libm L -> fp_type t F -> sym_ok (ne_neg (cb_num u)) (ne_pos (cb_num u)) ->
  (precision F u < 2 ^ 31)%N -> valid F x -> nonzero_fp x -> (lm_exp L F x < -308)%Z ->
  exists s, comes_back L u t F x (S754_zero s).
Proof. exact back_tiny. Qed.
Print Assumptions C10_subnormal_refuted.
Example C10_subnormal_example : valid DBL e310 /\ nonzero_fp e310 /\ lm_exp exact_libm DBL e310 = (-309)%Z /\
  stored exact_libm u_d T_DOUBLE DBL e310 (bstr "://6690f/") /\
  comes_back exact_libm u_d T_DOUBLE DBL e310 (S754_zero false).
Proof. exact e310_ok. Qed.

(* Precision 0: reading throws *)
Theorem C10_precision_0_refuted : forall L u t F x,
  good_libm L -> fp_type t F -> sym_ok (ne_neg (cb_num u)) (ne_pos (cb_num u)) ->
  precision F u = 0%N -> valid F x -> nonzero_fp x -> (-308 <= lm_exp L F x)%Z ->
  exists a, stored L u t F x a /\ c_dec (session L u) t a = Throw.
Proof. exact back_none. Qed.
Print Assumptions C10_precision_0_refuted.
Example C10_precision_0_example : valid DBL five /\ nonzero_fp five /\ lm_exp exact_libm DBL five = 2%Z /\
  stored exact_libm (u_p 0) T_DOUBLE DBL five (bstr ":" ++ bstr ":2" ++ bstr "/").
Proof. exact five_ok. Qed.

(* With the default precisions different values are stored alike, so no reading can tell them apart *)
Theorem C10_same_value_refuted : forall L u t F,
  good_libm L -> fp_type t F ->
  ne_float (cb_num u) = FLOAT_PRECISION -> ne_double (cb_num u) = DOUBLE_PRECISION ->
  exists x y a, valid F x /\ valid F y /\ finite_fp x /\ finite_fp y /\ val x < val y /\
    stored L u t F x a /\ stored L u t F y a.
Proof. exact stored_same. Qed.
Print Assumptions C10_same_value_refuted.
Example C10_same_value_example : good_libm exact_libm /\ fp_type T_FLOAT FLT /\
  ne_float (cb_num u_d) = FLOAT_PRECISION /\ ne_double (cb_num u_d) = DOUBLE_PRECISION.
Proof. split; [exact exact_good|]. split; [left; split; reflexivity|]. split; reflexivity. Qed.

(* Stored subjects and predicates are in numeric order *)
Theorem C11_float_order : forall L u t F x y a b,
  good_libm L -> fp_type t F -> sym_ord (ne_neg (cb_num u)) (ne_pos (cb_num u)) ->
  valid F x -> valid F y -> finite_fp x -> finite_fp y -> val x <= val y ->
  stored L u t F x a -> stored L u t F y b ->
  a = b \/
  (forall k k' p q, bltb (sp_to_key (mkField a k) p) (sp_to_key (mkField b k') q) = true) /\
  (forall k k' s, bltb (sp_to_key s (mkField a k)) (sp_to_key s (mkField b k')) = true).
Proof. exact stored_order. Qed.
Print Assumptions C11_float_order.
Example C11_example : val m1e8 <= val third /\
  stored exact_libm u_d T_DOUBLE DBL m1e8 (bstr "//08999999999999999:") /\
  stored exact_libm u_d T_DOUBLE DBL third (bstr "::10333333333333333/").
Proof. exact order_ok. Qed.

(* Every field of the size of the type is a value; it is that value's field unless it is a NaN *)
Theorem C11_all_fields : forall t F d, fp_type t F -> (N.of_nat (f_bytes F) <= blen d)%N ->
  exists x, load_fp F d = Ok x /\ valid F x /\
    (blen d = N.of_nat (f_bytes F) -> x <> S754_nan -> store_fp F x = d).
Proof. exact field_value. Qed.
Print Assumptions C11_all_fields.
Example C11_all_fields_example : load_fp FLT (bstr "abcd") = Ok (S754_finite false 14901857 50).
Proof. vm_compute. reflexivity. Qed.

(* Missing from C56: infinities, NaN and short fields, for all of which the behaviour is undefined *)
Theorem C56_defined_partial : forall L u t F d, good_libm L -> fp_type t F ->
  ((exists a, c_enc (session L u) t false d = Ok (Some a)) <-> exists x, load_fp F d = Ok x /\ finite_fp x) /\
  (~ (exists a, c_enc (session L u) t false d = Ok (Some a)) -> c_enc (session L u) t false d = UB).
Proof. exact encoded_iff. Qed.
Print Assumptions C56_defined_partial.
Theorem C56_refuted : forall L u, c_enc (session L u) T_FLOAT false (store_fp FLT (S754_infinity true)) = UB /\
  c_enc (session L u) T_DOUBLE false (store_fp DBL S754_nan) = UB /\
  c_enc (session L u) T_DOUBLE false (store_fp FLT third_f) = UB.
Proof. exact ub_fields. Qed.
Print Assumptions C56_refuted.
Example C56_example : load_fp DBL (store_fp DBL third) = Ok third /\ finite_fp third.
Proof. split; [vm_compute; reflexivity|exact I]. Qed.
