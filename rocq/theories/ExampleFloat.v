(* Concrete floating point fields *)
From Verif Require Import ModelBytes ProofBytes ModelKey ModelElen ModelHist ModelMsg ModelStore ModelTransform ModelFloat
  SpecElen SpecFp ProofFpBase ProofFpMant ProofFpBits ProofFpLibm ProofFloat.
From Coq Require Import Reals Psatz.
From Flocq Require Import Core.
Local Open Scope R_scope.

(* the default configuration, and one with the precisions p *)
Definition u_p (p : N) : callbacks := mkCallbacks (mkNumeric NEG_SYMBOL POS_SYMBOL p p) [] [].
Definition u_d : callbacks := mkCallbacks (mkNumeric NEG_SYMBOL POS_SYMBOL FLOAT_PRECISION DOUBLE_PRECISION) [] [].

Definition third : spec_float := S754_finite false 6004799503160661 (-54).       (* 1/3 as a double *)
Definition third' : spec_float := S754_finite false 6004799503160655 (-54).
Definition third_f : spec_float := S754_finite false 11184811 (-25).             (* 1/3 as a float *)
Definition m1e8 : spec_float := S754_finite true 6710886400000000 (-26).         (* -100000000 *)
Definition m01 : spec_float := S754_finite true 7205759403792794 (-56).          (* -0.1 *)
Definition e308 : spec_float := S754_finite false 5010420900022432 971.          (* 1e308 *)
Definition e310 : spec_float := S754_finite false 20240225330731 (-1074).        (* 1e-310 *)
Definition five : spec_float := S754_finite false 5629499534213120 (-50).        (* 5 *)

Lemma third_val : val third = 6004799503160661 * / 18014398509481984.
Proof. unfold third. cbn [val]. rewrite pw2. change (bpow radix2 (-54)) with (/ 18014398509481984). ring. Qed.
Lemma third_f_val : val third_f = 11184811 * / 33554432.
Proof. unfold third_f. cbn [val]. rewrite pw2. change (bpow radix2 (-25)) with (/ 33554432). ring. Qed.
Lemma m1e8_val : val m1e8 = -100000000.
Proof. unfold m1e8. cbn [val]. rewrite pw2. change (bpow radix2 (-26)) with (/ 67108864). field. Qed.

Lemma ten_small n : (n <= -12)%Z -> ten n <= / 1000000000000.
Proof.
  intros H. pose proof (ten_le n (-12) H) as X. change (-12)%Z with (-9 + -3)%Z in X. rewrite ten_plus, ten_9' in X.
  change (ten (-3)) with (/ (10 * (10 * (10 * 1)))) in X. lra.
Qed.
Lemma ten_large n : (9 <= n)%Z -> 1000000000 <= ten n.
Proof. intros H. rewrite <- ten_9. apply ten_le, H. Qed.

Lemma ranges v : / 4 <= v <= / 2 -> ~ (-4 * ten 8 <= v <= -25 * ten 6) /\ ~ (25 * ten (-12) <= v <= 4 * ten (-10)).
Proof.
  intros H. pose proof (ten_pos 6). pose proof (ten_le (-10) (-9) ltac:(lia)) as X. rewrite ten_9' in X. split; intros [A B]; lra.
Qed.

Lemma third_ok : good_libm exact_libm /\ valid DBL third /\ finite_fp third /\ ten (-300) <= Rabs (val third) <= ten 300 /\
  ~ (-4 * ten 8 <= val third <= -25 * ten 6) /\ ~ (25 * ten (-12) <= val third <= 4 * ten (-10)) /\
  comes_back exact_libm u_d T_DOUBLE DBL third third'.
Proof.
  split; [exact exact_good|]. split; [reflexivity|]. split; [exact I|].
  pose proof third_val as E. pose proof (ten_small (-300) ltac:(lia)). pose proof (ten_large 300 ltac:(lia)).
  split; [rewrite Rabs_pos_eq by lra; lra|]. destruct (ranges (val third) ltac:(lra)) as [A B].
  split; [exact A|]. split; [exact B|]. exists (bstr "::10333333333333333/"). split; vm_compute; reflexivity.
Qed.

Lemma third_f_ok : valid FLT third_f /\ finite_fp third_f /\
  ten (-37) <= Rabs (val third_f) <= ten 38 * 3 * (1 - ten (-5)) /\
  ~ (-4 * ten 8 <= val third_f <= -25 * ten 6) /\ ~ (25 * ten (-12) <= val third_f <= 4 * ten (-10)).
Proof.
  split; [reflexivity|]. split; [exact I|]. pose proof third_f_val as E.
  pose proof (ten_small (-37) ltac:(lia)). pose proof (ten_large 38 ltac:(lia)).
  assert (T5 : ten (-5) = / 100000) by (change (ten (-5)) with (/ (10 * (10 * (10 * (10 * (10 * 1)))))); field).
  split; [rewrite T5, Rabs_pos_eq by lra; lra|]. apply ranges. lra.
Qed.

(* precision 3 *)
Lemma third_3 : valid DBL third /\ nonzero_fp third /\ (lm_exp exact_libm DBL third = 1)%Z /\
  Rabs (val third) + err_bound exact_libm DBL 3 third <= val (largest DBL) /\
  err_bound exact_libm DBL 3 third <= 51 / 10000.
Proof.
  split; [reflexivity|]. split; [exact I|]. assert (E : (lm_exp exact_libm DBL third = 1)%Z) by (vm_compute; reflexivity).
  split; [exact E|]. unfold err_bound. rewrite E, third_val. rewrite Rabs_pos_eq by lra.
  change (ten (1 - Z.of_N 3)) with (/ (10 * (10 * 1))).
  assert (Sl : slack DBL = / 281474976710656) by (unfold slack; rewrite pw2; reflexivity).
  assert (Ti : tiny DBL <= / 281474976710656).
  { unfold tiny. rewrite pw2. change (emin (f_prec DBL) (f_emax DBL)) with (-1074)%Z.
    change (/ 281474976710656) with (bpow radix2 (-48)). apply bpow_le. lia. }
  pose proof largest_dbl as LD. pose proof (ten_large 308 ltac:(lia)). rewrite Sl. split; lra.
Qed.

Lemma m1e8_ok : valid DBL m1e8 /\ nonzero_fp m1e8 /\ val m1e8 = -100000000 /\ lm_exp exact_libm DBL m1e8 = 9%Z /\
  comes_back exact_libm u_d T_DOUBLE DBL m1e8 m01.
Proof.
  split; [reflexivity|]. split; [exact I|]. split; [exact m1e8_val|]. split; [vm_compute; reflexivity|].
  exists (bstr "//08999999999999999:"). split; vm_compute; reflexivity.
Qed.
Lemma e308_ok : valid DBL e308 /\ nonzero_fp e308 /\ lm_exp exact_libm DBL e308 = 309%Z /\
  comes_back exact_libm u_d T_DOUBLE DBL e308 (S754_infinity false).
Proof. split; [reflexivity|]. split; [exact I|]. split; [vm_compute; reflexivity|]. exists (bstr ":::33091000000000000002/"). split; vm_compute; reflexivity. Qed.
Lemma e310_ok : valid DBL e310 /\ nonzero_fp e310 /\ lm_exp exact_libm DBL e310 = (-309)%Z /\
  stored exact_libm u_d T_DOUBLE DBL e310 (bstr "://6690f/") /\
  comes_back exact_libm u_d T_DOUBLE DBL e310 (S754_zero false).
Proof.
  split; [reflexivity|]. split; [exact I|]. split; [vm_compute; reflexivity|]. split; [vm_compute; reflexivity|].
  exists (bstr "://6690f/"). split; vm_compute; reflexivity.
Qed.
Lemma five_ok : valid DBL five /\ nonzero_fp five /\ lm_exp exact_libm DBL five = 2%Z /\
  stored exact_libm (u_p 0) T_DOUBLE DBL five (bstr ":" ++ bstr ":2" ++ bstr "/").
Proof. split; [reflexivity|]. split; [exact I|]. split; vm_compute; reflexivity. Qed.
Lemma order_ok : val m1e8 <= val third /\
  stored exact_libm u_d T_DOUBLE DBL m1e8 (bstr "//08999999999999999:") /\
  stored exact_libm u_d T_DOUBLE DBL third (bstr "::10333333333333333/").
Proof. split; [rewrite m1e8_val, third_val; lra|]. split; vm_compute; reflexivity. Qed.
Lemma ub_fields L u : c_enc (session L u) T_FLOAT false (store_fp FLT (S754_infinity true)) = UB /\
  c_enc (session L u) T_DOUBLE false (store_fp DBL S754_nan) = UB /\
  c_enc (session L u) T_DOUBLE false (store_fp FLT third_f) = UB.
Proof.
  rewrite (session_enc' L u T_FLOAT FLT) by (left; split; reflexivity).
  rewrite !(session_enc' L u T_DOUBLE DBL) by (right; split; reflexivity).
  replace (load_fp FLT (store_fp FLT (S754_infinity true))) with (Ok (S754_infinity true)) by (vm_compute; reflexivity).
  replace (load_fp DBL (store_fp DBL S754_nan)) with (Ok S754_nan) by (vm_compute; reflexivity).
  replace (load_fp DBL (store_fp FLT third_f)) with (@UB spec_float) by (vm_compute; reflexivity).
  split; [|split]; reflexivity.
Qed.
