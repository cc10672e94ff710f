(* Floating point fields in a session *)
From Verif Require Import ModelBytes ProofBytes ModelKey ModelElen ModelHist ModelMsg ModelStore ModelTransform ModelFloat
  SpecElen SpecTransform SpecFp ProofElen ProofTransform ProofFpDecode ProofFpBase ProofFpMant ProofFpOrder ProofFpError ProofFpEdge
  ProofFpBits ProofFpLibm.
From Coq Require Import Reals Psatz.
From Flocq Require Import Core.
Local Open Scope R_scope.

Lemma fp_fmt t F : fp_type t F -> fmt_ok F.
Proof. intros [[_ ->]|[_ ->]]; [apply flt_ok|apply dbl_ok]. Qed.

Lemma session_dec L u t F a : fp_type t F ->
  c_dec (session L u) t a = do x <- dec_fp L F a (ne_neg (cb_num u)) (ne_pos (cb_num u)); Ok (Some (store_fp F x)).
Proof.
  intros H. unfold session.
  destruct H as [[-> ->]|[-> ->]].
  - rewrite (proj2 (session_known (libm_codec L) u T_FLOAT ltac:(cbn [known_types In]; tauto))). reflexivity.
  - rewrite (proj2 (session_known (libm_codec L) u T_DOUBLE ltac:(cbn [known_types In]; tauto))). reflexivity.
Qed.
Lemma session_enc' L u t F d : fp_type t F ->
  c_enc (session L u) t false d = do x <- load_fp F d;
    do s <- enc_fp L F (int_precision (precision F u)) (ne_neg (cb_num u)) (ne_pos (cb_num u)) x; Ok (Some s).
Proof.
  intros H. unfold session.
  destruct H as [[-> ->]|[-> ->]].
  - rewrite (proj1 (session_known (libm_codec L) u T_FLOAT ltac:(cbn [known_types In]; tauto))). reflexivity.
  - rewrite (proj1 (session_known (libm_codec L) u T_DOUBLE ltac:(cbn [known_types In]; tauto))). reflexivity.
Qed.
Lemma session_enc L u t F x : fp_type t F -> valid F x -> x <> S754_nan ->
  c_enc (session L u) t false (store_fp F x) =
  do s <- enc_fp L F (int_precision (precision F u)) (ne_neg (cb_num u)) (ne_pos (cb_num u)) x; Ok (Some s).
Proof.
  intros H V NN. rewrite (session_enc' L u t F) by exact H. rewrite load_store by (try assumption; apply (fp_fmt t), H). reflexivity.
Qed.

Lemma finite_not_nan x : finite_fp x -> x <> S754_nan.
Proof. intros H ->. exact H. Qed.

Lemma enc_total L F p neg pos x : good_libm L -> fmt_ok F -> valid F x -> finite_fp x -> exists a, enc_fp L F p neg pos x = Ok a.
Proof.
  intros G HF V Fi. destruct (zero_cases x Fi) as [Z|N]; [eexists; apply enc_zero, Z|].
  destruct (enc_shape L F p neg pos x G HF V N) as (es & _ & E). eexists. exact E.
Qed.

Lemma stored_enc L u t F x : good_libm L -> fp_type t F -> valid F x -> finite_fp x ->
  exists a, stored L u t F x a /\
    enc_fp L F (int_precision (precision F u)) (ne_neg (cb_num u)) (ne_pos (cb_num u)) x = Ok a.
Proof.
  intros G H V Fi. destruct (enc_total L F (int_precision (precision F u)) (ne_neg (cb_num u)) (ne_pos (cb_num u)) x G (fp_fmt t F H) V Fi) as [a E].
  exists a. split; [|exact E]. unfold stored. rewrite session_enc by (try assumption; apply finite_not_nan, Fi). rewrite E. reflexivity.
Qed.

Lemma int_precision_id p : (p < 2 ^ 31)%N -> int_precision p = p.
Proof.
  intros H. unfold int_precision. rewrite N.mod_small.
  - apply N.ltb_lt in H. rewrite H. reflexivity.
  - eapply N.lt_trans; [exact H|]. reflexivity.
Qed.

(* ---- C10 *)
Lemma back_precision_valid L u t F x : good_libm L -> fp_type t F -> sym_ok (ne_neg (cb_num u)) (ne_pos (cb_num u)) ->
  (1 <= precision F u < 2 ^ 31)%N -> valid F x -> nonzero_fp x -> (-308 <= lm_exp L F x <= 308)%Z ->
  Rabs (val x) + err_bound L F (precision F u) x <= val (largest F) ->
  (val x < 0 -> lm_exp L F x <> 9%Z) -> (0 < val x -> lm_exp L F x <> (-9)%Z) ->
  exists r, comes_back L u t F x r /\ finite_fp r /\ valid F r /\ Rabs (val r - val x) <= err_bound L F (precision F u) x.
Proof.
  intros G H S Hp V N He Hb N1 N2. pose proof (fp_fmt t F H) as HF.
  destruct (stored_enc L u t F x G H V (nonzero_finite x N)) as (a & Sa & Ea). rewrite int_precision_id in Ea by apply Hp.
  destruct (round_trip L F (precision F u) _ _ x a G HF S V N Hp He Hb) as (r & R1 & R2 & R3 & R4); [|exact Ea|].
  - destruct (neg_val x (nonzero_finite x N)) as [K1 K2]. pose proof (nonzero_val' x N) as Nz. unfold sexp. destruct (is_neg x).
    + specialize (N1 (K1 eq_refl)). clear -N1. lia.
    + specialize (K2 eq_refl). specialize (N2 ltac:(lra)). exact N2.
  - exists r. split; [|split; [exact R2|split; [exact R3|exact R4]]]. exists a. split; [exact Sa|]. rewrite (session_dec L u t F) by exact H. rewrite R1. reflexivity.
Qed.

Lemma back_precision L u t F x : good_libm L -> fp_type t F -> sym_ok (ne_neg (cb_num u)) (ne_pos (cb_num u)) ->
  (1 <= precision F u < 2 ^ 31)%N -> valid F x -> nonzero_fp x -> (-308 <= lm_exp L F x <= 308)%Z ->
  Rabs (val x) + err_bound L F (precision F u) x <= val (largest F) ->
  (val x < 0 -> lm_exp L F x <> 9%Z) -> (0 < val x -> lm_exp L F x <> (-9)%Z) ->
  exists r, comes_back L u t F x r /\ finite_fp r /\ Rabs (val r - val x) <= err_bound L F (precision F u) x.
Proof.
  intros G H S Hp V N He Hb N1 N2. destruct (back_precision_valid L u t F x G H S Hp V N He Hb N1 N2) as (r & A & B & _ & C). exists r. auto.
Qed.

Lemma back_zero L u t F s : fp_type t F -> comes_back L u t F (S754_zero s) (S754_zero false).
Proof.
  intros H. exists [digit 0]. split.
  - unfold stored. rewrite session_enc; [reflexivity|exact H|reflexivity|discriminate].
  - rewrite (session_dec L u t F) by exact H. reflexivity.
Qed.

Lemma exp_unique L F x e : good_libm L -> fmt_ok F -> valid F x -> nonzero_fp x ->
  ten (e - 1) * (2 / 5) < Rabs (val x) < ten (e + 1) / 40 -> lm_exp L F x = e.
Proof.
  intros G HF V N [A B]. destruct (exp_near L G F x HF V N) as [C D]. set (k := lm_exp L F x) in *.
  destruct (Z.lt_trichotomy k e) as [H|[H|H]]; [exfalso| exact H|exfalso].
  - pose proof (ten_le k (e - 1) ltac:(lia)). lra.
  - pose proof (ten_le (e + 1) k ltac:(lia)). lra.
Qed.

Lemma back_nine L u t F x : good_libm L -> fp_type t F -> sym_ok (ne_neg (cb_num u)) (ne_pos (cb_num u)) ->
  (1 <= precision F u < 2 ^ 31)%N -> valid F x -> nonzero_fp x ->
  (val x < 0 /\ lm_exp L F x = 9%Z) \/ (0 < val x /\ lm_exp L F x = (-9)%Z) ->
  exists r, comes_back L u t F x r /\ finite_fp r /\
    Rabs (val r) <= 1 /\ (val r = 0 \/ / 1000 <= Rabs (val r)) /\
    (val x <= -25000000 \/ 0 < val x <= / 1000000000).
Proof.
  intros G H S Hp V N C. pose proof (fp_fmt t F H) as HF.
  destruct (stored_enc L u t F x G H V (nonzero_finite x N)) as (a & Sa & Ea). rewrite int_precision_id in Ea by apply Hp.
  destruct (neg_val x (nonzero_finite x N)) as [K1 K2].
  assert (Hs : sexp L F x = (-9)%Z).
  { unfold sexp. destruct (is_neg x); [specialize (K1 eq_refl)|specialize (K2 eq_refl)]; destruct C as [[C ->]|[C ->]]; try reflexivity; lra. }
  destruct (nine L F _ _ _ x a G HF S V N Hp Hs Ea) as (A1 & A2 & r & R1 & R2 & R3 & R4).
  exists r. split; [exists a; split; [exact Sa|rewrite (session_dec L u t F) by exact H; rewrite R1; reflexivity]|].
  split; [exact R2|]. split; [exact R3|]. split; [exact R4|].
  destruct C as [[C _]|[C _]]; [left; apply A1, C|right; split; [exact C|apply A2, C]].
Qed.

Lemma back_huge L u t F x : good_libm L -> fp_type t F -> sym_ok (ne_neg (cb_num u)) (ne_pos (cb_num u)) ->
  (1 <= precision F u < 2 ^ 31)%N -> valid F x -> nonzero_fp x -> (308 < lm_exp L F x)%Z ->
  exists r, comes_back L u t F x r /\ ~ finite_fp r.
Proof.
  intros G H S Hp V N He. pose proof (fp_fmt t F H) as HF.
  destruct (stored_enc L u t F x G H V (nonzero_finite x N)) as (a & Sa & Ea). rewrite int_precision_id in Ea by apply Hp.
  destruct (huge L F _ _ _ x a G HF S V N Hp He Ea) as (r & R1 & R2).
  exists r. split; [exists a; split; [exact Sa|rewrite (session_dec L u t F) by exact H; rewrite R1; reflexivity]|exact R2].
Qed.

Lemma back_tiny L u t F x : good_libm L -> fp_type t F -> sym_ok (ne_neg (cb_num u)) (ne_pos (cb_num u)) ->
  (precision F u < 2 ^ 31)%N -> valid F x -> nonzero_fp x -> (lm_exp L F x < -308)%Z ->
  exists s, comes_back L u t F x (S754_zero s).
Proof.
  intros G H S Hp V N He. pose proof (fp_fmt t F H) as HF.
  destruct (stored_enc L u t F x G H V (nonzero_finite x N)) as (a & Sa & Ea). rewrite int_precision_id in Ea by apply Hp.
  destruct (subnormal L F _ _ _ x a G HF S V N Hp He Ea) as (s & R1).
  exists s, a. split; [exact Sa|rewrite (session_dec L u t F) by exact H; rewrite R1; reflexivity].
Qed.

Lemma back_none L u t F x : good_libm L -> fp_type t F -> sym_ok (ne_neg (cb_num u)) (ne_pos (cb_num u)) ->
  precision F u = 0%N -> valid F x -> nonzero_fp x -> (-308 <= lm_exp L F x)%Z ->
  exists a, stored L u t F x a /\ c_dec (session L u) t a = Throw.
Proof.
  intros G H S Hp V N He. pose proof (fp_fmt t F H) as HF.
  destruct (stored_enc L u t F x G H V (nonzero_finite x N)) as (a & Sa & Ea). rewrite Hp in Ea. change (int_precision 0) with 0%N in Ea.
  exists a. split; [exact Sa|]. rewrite (session_dec L u t F) by exact H. rewrite (no_digits L F _ _ x a) by assumption. reflexivity.
Qed.

(* with the default precisions, away from the bad exponents *)
Lemma ten_near k e : (0 < k)%Z -> ten e <= 40 * ten k -> (e < k + 2)%Z.
Proof.
  intros Hk H. destruct (Z_lt_le_dec e (k + 2)) as [X|X]; [exact X|exfalso].
  apply ten_le in X. rewrite ten_plus in X. change (ten 2) with (10 * (10 * 1)) in X. pose proof (ten_pos k). lra.
Qed.

Lemma rel_bound L F p x e0 d : good_libm L -> fmt_ok F -> valid F x -> nonzero_fp x ->
  ten (- Z.of_N p) <= e0 -> tiny F <= Rabs (val x) * d ->
  err_bound L F p x <= Rabs (val x) * (20 * e0 + slack F * (1 + 40 * e0) + 2 * d).
Proof.
  intros G HF V N Hp Ht. destruct (exp_near L G F x HF V N) as [Lo _]. unfold err_bound.
  set (e := lm_exp L F x) in *. set (a := Rabs (val x)) in *.
  unfold Z.sub. rewrite ten_plus. pose proof (ten_pos e). pose proof (ten_pos (- Z.of_N p)).
  assert (X : ten e * ten (- Z.of_N p) <= 40 * a * e0) by (apply Rmult_le_compat; lra).
  assert (0 < slack F) by (unfold slack; rewrite pw2; apply bpow_gt_0).
  assert (slack F * (a + ten e * ten (- Z.of_N p)) <= slack F * (a + 40 * a * e0)) by (apply Rmult_le_compat_l; lra).
  lra.
Qed.

Lemma largest_flt : ten 38 * 3 <= val (largest FLT).
Proof.
  unfold largest. cbn [val f_prec f_emax FLT]. rewrite pw2, Rmult_1_l.
  change (Z.to_pos (2 ^ 24 - 1)) with 16777215%positive. change (128 - 24)%Z with 104%Z.
  rewrite two_IZR, ten_IZR by lia. rewrite <- !mult_IZR. apply IZR_le. vm_compute. congruence.
Qed.
Lemma largest_dbl : ten 308 <= val (largest DBL).
Proof.
  unfold largest. cbn [val f_prec f_emax DBL]. rewrite pw2, Rmult_1_l.
  change (Z.to_pos (2 ^ 53 - 1)) with 9007199254740991%positive. change (1024 - 53)%Z with 971%Z.
  rewrite two_IZR, ten_IZR by lia. rewrite <- !mult_IZR. apply IZR_le. vm_compute. congruence.
Qed.

Lemma ten_9 : ten 9 = 1000000000. Proof. rewrite ten_IZR by lia. reflexivity. Qed.
Lemma ten_9' : ten (-9) = / 1000000000.
Proof. pose proof (ten_inv 9) as Q. rewrite ten_9 in Q. change (- (9))%Z with (-9)%Z in Q. lra. Qed.

Lemma not_nine L F x : good_libm L -> fmt_ok F -> valid F x -> nonzero_fp x ->
  ~ (-4 * ten 8 <= val x <= -25 * ten 6) -> ~ (25 * ten (-12) <= val x <= 4 * ten (-10)) ->
  (val x < 0 -> lm_exp L F x <> 9%Z) /\ (0 < val x -> lm_exp L F x <> (-9)%Z).
Proof.
  intros G HF V N A B. destruct (exp_near L G F x HF V N) as [Lo Hi].
  assert (T8 : ten 8 = 100000000) by (rewrite ten_IZR by lia; reflexivity).
  assert (T6 : ten 6 = 1000000) by (rewrite ten_IZR by lia; reflexivity).
  pose proof ten_9 as T9. pose proof ten_9' as T9'.
  assert (T10 : ten (-10) = / 10000000000).
  { change (-10)%Z with (-9 + -1)%Z. rewrite ten_plus, T9'. change (ten (-1)) with (/ (10 * 1)). field. }
  assert (T12 : ten (-12) = / 1000000000000).
  { change (-12)%Z with (-9 + -3)%Z. rewrite ten_plus, T9'. change (ten (-3)) with (/ (10 * (10 * (10 * 1)))). field. }
  split; intros H E; rewrite E in *.
  - rewrite Rabs_left in * by exact H. apply A. lra.
  - rewrite Rabs_pos_eq in * by lra. apply B. lra.
Qed.

Lemma back_dbl_valid L u x : good_libm L -> sym_ok (ne_neg (cb_num u)) (ne_pos (cb_num u)) ->
  ne_double (cb_num u) = DOUBLE_PRECISION -> valid DBL x -> finite_fp x ->
  ten (-300) <= Rabs (val x) <= ten 300 ->
  ~ (-4 * ten 8 <= val x <= -25 * ten 6) -> ~ (25 * ten (-12) <= val x <= 4 * ten (-10)) ->
  exists r, comes_back L u T_DOUBLE DBL x r /\ finite_fp r /\ valid DBL r /\ Rabs (val r - val x) <= Rabs (val x) * ten (-14).
Proof.
  intros G S Hp V Fi [Lx Ux] A B.
  assert (N : nonzero_fp x).
  { apply nonzero_val; [exact Fi|]. intros E. rewrite E, Rabs_R0 in Lx. pose proof (ten_pos (-300)). lra. }
  destruct (not_nine L DBL x G dbl_ok V N A B) as [N1 N2].
  assert (P : precision DBL u = 16%N) by (unfold precision; cbn; rewrite Hp; reflexivity).
  destruct (exp_near L G DBL x dbl_ok V N) as [Lo Hi]. set (e := lm_exp L DBL x) in *.
  assert (He : (-308 <= e <= 308)%Z).
  { split.
    - destruct (Z_lt_le_dec e (-308)) as [X|X]; [exfalso|exact X]. pose proof (ten_le e (-300) ltac:(lia)). pose proof (ten_pos e). lra.
    - assert (Q : ten e <= 40 * ten 300) by lra. apply (ten_near 300) in Q; lia. }
  assert (T16 : ten (- Z.of_N 16) = / 10000000000000000).
  { change (- Z.of_N 16)%Z with (-9 + (-6 + -1))%Z. rewrite !ten_plus, ten_9'.
    change (ten (-6)) with (/ (10 * (10 * (10 * (10 * (10 * (10 * 1))))))). change (ten (-1)) with (/ (10 * 1)). field. }
  assert (T14 : ten (-14) = / 100000000000000).
  { change (-14)%Z with (-9 + -5)%Z. rewrite ten_plus, ten_9'. change (ten (-5)) with (/ (10 * (10 * (10 * (10 * (10 * 1)))))). field. }
  assert (Ti : tiny DBL <= Rabs (val x) * / 10000000000000000).
  { unfold tiny. rewrite pw2. change (emin (f_prec DBL) (f_emax DBL)) with (-1074)%Z.
    pose proof (two_ten 1074 (300 + 16) 1 1 ltac:(lia) ltac:(lia) ltac:(vm_compute; congruence)) as X.
    change (- (300 + 16))%Z with (-300 + - Z.of_N 16)%Z in X. rewrite ten_plus, T16 in X. change (- (1074))%Z with (-1074)%Z in X. lra. }
  pose proof (rel_bound L DBL 16 x (/ 10000000000000000) (/ 10000000000000000) G dbl_ok V N ltac:(lra) Ti) as RB.
  assert (Sl : slack DBL = / 281474976710656) by (unfold slack; rewrite pw2; reflexivity).
  rewrite Sl in RB. pose proof (Rabs_pos (val x)) as a0.
  assert (RB' : err_bound L DBL 16 x <= Rabs (val x) * ten (-14)).
  { eapply Rle_trans; [exact RB|]. apply Rmult_le_compat_l; [exact a0|]. rewrite T14. lra. }
  destruct (back_precision_valid L u T_DOUBLE DBL x G) as (r & R1 & R2 & Rv & R3).
  - right; split; reflexivity.
  - exact S.
  - rewrite P. split; [discriminate|reflexivity].
  - exact V.
  - exact N.
  - exact He.
  - rewrite P. pose proof largest_dbl as LD. pose proof (ten_le 301 308 ltac:(lia)) as T1. change 301%Z with (300 + 1)%Z in T1.
    rewrite ten_plus in T1. change (ten 1) with (10 * 1) in T1. rewrite T14 in RB'. lra.
  - exact N1.
  - exact N2.
  - exists r. split; [exact R1|]. split; [exact R2|]. split; [exact Rv|]. rewrite P in R3. lra.
Qed.

Lemma back_default_dbl L u x : good_libm L -> sym_ok (ne_neg (cb_num u)) (ne_pos (cb_num u)) ->
  ne_double (cb_num u) = DOUBLE_PRECISION -> valid DBL x -> finite_fp x ->
  ten (-300) <= Rabs (val x) <= ten 300 ->
  ~ (-4 * ten 8 <= val x <= -25 * ten 6) -> ~ (25 * ten (-12) <= val x <= 4 * ten (-10)) ->
  exists r, comes_back L u T_DOUBLE DBL x r /\ finite_fp r /\ Rabs (val r - val x) <= Rabs (val x) * ten (-14).
Proof.
  intros G S Hp V Fi R A B. destruct (back_dbl_valid L u x G S Hp V Fi R A B) as (r & C & D & _ & E). exists r. auto.
Qed.

Lemma back_default_flt L u x : good_libm L -> sym_ok (ne_neg (cb_num u)) (ne_pos (cb_num u)) ->
  ne_float (cb_num u) = FLOAT_PRECISION -> valid FLT x -> finite_fp x ->
  ten (-37) <= Rabs (val x) <= ten 38 * 3 * (1 - ten (-5)) ->
  ~ (-4 * ten 8 <= val x <= -25 * ten 6) -> ~ (25 * ten (-12) <= val x <= 4 * ten (-10)) ->
  exists r, comes_back L u T_FLOAT FLT x r /\ finite_fp r /\ Rabs (val r - val x) <= Rabs (val x) * ten (-5).
Proof.
  intros G S Hp V Fi [Lx Ux] A B.
  assert (N : nonzero_fp x).
  { apply nonzero_val; [exact Fi|]. intros E. rewrite E, Rabs_R0 in Lx. pose proof (ten_pos (-37)). lra. }
  destruct (not_nine L FLT x G flt_ok V N A B) as [N1 N2].
  assert (P : precision FLT u = 8%N) by (unfold precision; cbn; rewrite Hp; reflexivity).
  destruct (exp_near L G FLT x flt_ok V N) as [Lo Hi]. set (e := lm_exp L FLT x) in *.
  assert (T5 : ten (-5) = / 100000) by (change (ten (-5)) with (/ (10 * (10 * (10 * (10 * (10 * 1)))))); field).
  assert (He : (-308 <= e <= 308)%Z).
  { split.
    - destruct (Z_lt_le_dec e (-308)) as [X|X]; [exfalso|exact X]. pose proof (ten_le e (-37) ltac:(lia)). pose proof (ten_pos e). lra.
    - assert (Q : ten e <= 40 * ten 39).
      { change 39%Z with (38 + 1)%Z. rewrite ten_plus. change (ten 1) with (10 * 1). rewrite T5 in Ux. pose proof (ten_pos 38). lra. }
      apply (ten_near 39) in Q; lia. }
  assert (T8 : ten (- Z.of_N 8) = / 100000000).
  { change (- Z.of_N 8)%Z with (-5 + -3)%Z. rewrite !ten_plus, T5. change (ten (-3)) with (/ (10 * (10 * (10 * 1)))). field. }
  assert (Ti : tiny FLT <= Rabs (val x) * / 1000000).
  { unfold tiny. rewrite pw2. change (emin (f_prec FLT) (f_emax FLT)) with (-149)%Z.
    pose proof (two_ten 149 (37 + 6) 1 1 ltac:(lia) ltac:(lia) ltac:(vm_compute; congruence)) as X.
    change (- (37 + 6))%Z with (-37 + (-5 + -1))%Z in X. rewrite !ten_plus, T5 in X. change (ten (-1)) with (/ (10 * 1)) in X.
    change (- (149))%Z with (-149)%Z in X. lra. }
  pose proof (rel_bound L FLT 8 x (/ 100000000) (/ 1000000) G flt_ok V N ltac:(lra) Ti) as RB.
  assert (Sl : slack FLT = / 524288) by (unfold slack; rewrite pw2; reflexivity).
  rewrite Sl in RB. pose proof (Rabs_pos (val x)) as a0.
  assert (RB' : err_bound L FLT 8 x <= Rabs (val x) * ten (-5)).
  { eapply Rle_trans; [exact RB|]. apply Rmult_le_compat_l; [exact a0|]. rewrite T5. lra. }
  destruct (back_precision L u T_FLOAT FLT x G) as (r & R1 & R2 & R3).
  - left; split; reflexivity.
  - exact S.
  - rewrite P. split; [discriminate|reflexivity].
  - exact V.
  - exact N.
  - exact He.
  - rewrite P. pose proof largest_flt as LD. rewrite T5 in *. pose proof (ten_pos 38). nra.
  - exact N1.
  - exact N2.
  - exists r. split; [exact R1|]. split; [exact R2|]. rewrite P in R3. lra.
Qed.

(* ---- C11 *)
Lemma stored_order L u t F x y a b : good_libm L -> fp_type t F -> sym_ord (ne_neg (cb_num u)) (ne_pos (cb_num u)) ->
  valid F x -> valid F y -> finite_fp x -> finite_fp y -> val x <= val y ->
  stored L u t F x a -> stored L u t F y b ->
  a = b \/
  (forall k k' p q, bltb (sp_to_key (mkField a k) p) (sp_to_key (mkField b k') q) = true) /\
  (forall k k' s, bltb (sp_to_key s (mkField a k)) (sp_to_key s (mkField b k')) = true).
Proof.
  intros G H S Vx Vy Fx Fy Hv Ha Hb. pose proof (fp_fmt t F H) as HF. unfold stored in *.
  rewrite session_enc in Ha by (try assumption; apply finite_not_nan, Fx).
  rewrite session_enc in Hb by (try assumption; apply finite_not_nan, Fy).
  destruct (enc_fp L F _ _ _ x) as [a'| |] eqn:Ea; try discriminate Ha. destruct (enc_fp L F _ _ _ y) as [b'| |] eqn:Eb; try discriminate Hb.
  cbn [obind] in Ha, Hb. apply Ok_inj in Ha, Hb. injection Ha as <-. injection Hb as <-.
  destruct (fp_order L F _ _ _ x y a' b' G HF S Vx Vy Fx Fy Hv Ea Eb) as [E|E]; [left; exact E|right].
  split; intros; unfold sp_to_key; cbn [f_data f_type].
  - apply bltb_true, slt_blt, E.
  - rewrite !(app_assoc (f_data s)). apply bltb_true, slt_blt, slt_prefix, E.
Qed.

(* ---- C56 *)
Lemma field_value t F d : fp_type t F -> (N.of_nat (f_bytes F) <= blen d)%N ->
  exists x, load_fp F d = Ok x /\ valid F x /\
    (blen d = N.of_nat (f_bytes F) -> x <> S754_nan -> store_fp F x = d).
Proof.
  intros H Hd. pose proof (fp_fmt t F H) as HF. unfold load_fp. destruct (N.ltb_spec (blen d) (N.of_nat (f_bytes F))) as [X|_]; [lia|].
  eexists. split; [reflexivity|]. split; [apply bits_valid, HF|]. intros E NN. apply store_load; try assumption.
  unfold load_fp. destruct (N.ltb_spec (blen d) (N.of_nat (f_bytes F))) as [X|_]; [lia|]. reflexivity.
Qed.

Lemma encoded_iff L u t F d : good_libm L -> fp_type t F ->
  ((exists a, c_enc (session L u) t false d = Ok (Some a)) <-> exists x, load_fp F d = Ok x /\ finite_fp x) /\
  (~ (exists a, c_enc (session L u) t false d = Ok (Some a)) -> c_enc (session L u) t false d = UB).
Proof.
  intros G H. pose proof (fp_fmt t F H) as HF. rewrite (session_enc' L u t F d) by exact H.
  destruct (load_fp F d) as [x| |] eqn:Ld.
  - pose proof (load_valid F d x HF Ld) as V. cbn [obind].
    assert (D : finite_fp x \/ enc_fp L F (int_precision (precision F u)) (ne_neg (cb_num u)) (ne_pos (cb_num u)) x = UB).
    { destruct x; [left; exact I|right; reflexivity|right; reflexivity|left; exact I]. }
    destruct D as [Fi|E].
    + destruct (enc_total L F (int_precision (precision F u)) (ne_neg (cb_num u)) (ne_pos (cb_num u)) x G HF V Fi) as [a E]. rewrite E. cbn [obind].
      split; [split; intros _; [exists x; split; [reflexivity|exact Fi]|exists a; reflexivity]|intros X; exfalso; apply X; exists a; reflexivity].
    + rewrite E. cbn [obind]. split; [split; [intros [a X]; discriminate X|]|reflexivity].
      intros (x' & E' & Fi). apply Ok_inj in E'. subst x'. exfalso.
      destruct (enc_total L F (int_precision (precision F u)) (ne_neg (cb_num u)) (ne_pos (cb_num u)) x G HF V Fi) as [a E']. congruence.
  - exfalso. unfold load_fp in Ld. destruct (blen d <? N.of_nat (f_bytes F))%N; discriminate Ld.
  - cbn [obind]. split; [split; [intros [a X]; discriminate X|intros (x & E & _); discriminate E]|reflexivity].
Qed.
