(* Exponent and mantissa computed by frexp10 *)
From Verif Require Import ModelBytes ModelElen ModelFloat SpecFp ProofFpBase.
From Coq Require Import Reals Psatz.
From Flocq Require Import Core Operations BinarySingleNaN.
Local Open Scope R_scope.

Definition r10 : radix := Build_radix 10 eq_refl.
Lemma ten_bpow n : ten n = bpow r10 n.
Proof. unfold ten. rewrite bpow_powerRZ. reflexivity. Qed.
Lemma ten_pos n : 0 < ten n.
Proof. rewrite ten_bpow. apply bpow_gt_0. Qed.
Lemma ten_plus a b : ten (a + b) = ten a * ten b.
Proof. rewrite !ten_bpow. apply bpow_plus. Qed.
Lemma ten_inv n : ten n * ten (- n) = 1.
Proof. rewrite <- ten_plus. replace (n + - n)%Z with 0%Z by lia. reflexivity. Qed.
Lemma ten_le a b : (a <= b)%Z -> ten a <= ten b.
Proof. rewrite !ten_bpow. apply bpow_le. Qed.
Lemma ten_IZR n : (0 <= n)%Z -> ten n = IZR (10 ^ n).
Proof. intros H. rewrite ten_bpow. rewrite <- IZR_Zpower by exact H. reflexivity. Qed.
Lemma two_IZR n : (0 <= n)%Z -> bpow radix2 n = IZR (2 ^ n).
Proof. intros H. rewrite <- IZR_Zpower by exact H. reflexivity. Qed.
Lemma two_inv n : bpow radix2 n * bpow radix2 (- n) = 1.
Proof. rewrite <- bpow_plus. replace (n + - n)%Z with 0%Z by lia. reflexivity. Qed.

(* 2^-k against 10^-j *)
Lemma two_ten k j c d : (0 <= k)%Z -> (0 <= j)%Z -> (c * 10 ^ j <= d * 2 ^ k)%Z ->
  IZR c * bpow radix2 (- k) <= IZR d * ten (- j).
Proof.
  intros Hk Hj H. apply IZR_le in H. rewrite !mult_IZR in H. rewrite <- two_IZR, <- ten_IZR in H by assumption.
  pose proof (two_inv k) as E2. pose proof (ten_inv j) as E10.
  pose proof (bpow_gt_0 radix2 (- k)). pose proof (ten_pos (- j)).
  replace (IZR c * bpow radix2 (- k)) with (IZR c * ten j * (bpow radix2 (- k) * ten (- j))).
  2: { transitivity (IZR c * bpow radix2 (-k) * (ten j * ten (- j))); [ring|rewrite E10; ring]. }
  replace (IZR d * ten (- j)) with (IZR d * bpow radix2 k * (bpow radix2 (- k) * ten (- j))).
  2: { transitivity (IZR d * ten (- j) * (bpow radix2 k * bpow radix2 (- k))); [ring|rewrite E2; ring]. }
  apply Rmult_le_compat_r; [|exact H]. apply Rmult_le_pos; lra.
Qed.

Lemma big_le F : fmt_ok F -> big F <= bpow radix2 1024.
Proof. intros [->| ->]; unfold big; apply bpow_le; cbn; lia. Qed.

Lemma val_ge F x : fmt_ok F -> valid F x -> nonzero_fp x -> bpow radix2 (-1074) <= Rabs (val x).
Proof.
  intros HF V N. rewrite val_SF2R. destruct x as [s|s| |s m e]; cbn in N; try contradiction.
  pose proof (abs_B2R_ge_emin _ _ (B754_finite s m e V : binary_float (f_prec F) (f_emax F)) eq_refl) as H.
  eapply Rle_trans; [|exact H]. apply bpow_le. destruct HF as [->| ->]; cbn; lia.
Qed.

Lemma exp_range L F x : good_libm L -> fmt_ok F -> valid F x -> nonzero_fp x ->
  (-323 <= lm_exp L F x <= 309)%Z.
Proof.
  intros G HF V N. destruct (exp_near L G F x HF V N) as [A B]. set (e := lm_exp L F x) in *.
  split.
  - destruct (Z_lt_le_dec e (-323)) as [H|H]; [exfalso|exact H].
    pose proof (val_ge F x HF V N) as Lo. pose proof (ten_le e (-324) ltac:(lia)) as T.
    pose proof (two_ten 1074 324 1 5 ltac:(lia) ltac:(lia)) as C.
    assert (X : (2 * 2 ^ 1074 < 5 * 10 ^ 324)%Z) by (vm_compute; reflexivity).
    clear C. apply IZR_lt in X. rewrite !mult_IZR in X. rewrite <- two_IZR, <- ten_IZR in X by lia.
    pose proof (two_inv 1074) as E2. pose proof (ten_inv 324) as E10. change (- (324))%Z with (-324)%Z in E10.
    change (- (1074))%Z with (-1074)%Z in E2.
    pose proof (bpow_gt_0 radix2 1074). pose proof (ten_pos 324).
    assert (Y : bpow radix2 (-1074) <= ten (-324) * (2/5)) by lra.
    apply (Rmult_le_compat_r (bpow radix2 1074 * ten 324)) in Y; [|apply Rmult_le_pos; lra].
    replace (bpow radix2 (-1074) * (bpow radix2 1074 * ten 324)) with ((bpow radix2 1074 * bpow radix2 (-1074)) * ten 324) in Y by ring.
    replace (ten (-324) * (2 / 5) * (bpow radix2 1074 * ten 324)) with ((ten 324 * ten (-324)) * (2/5) * bpow radix2 1074) in Y by ring.
    rewrite E2, E10 in Y. lra.
  - destruct (Z_lt_le_dec 309 e) as [H|H]; [exfalso|exact H].
    pose proof (val_big F x HF V) as Hi. pose proof (big_le F HF) as Bi.
    pose proof (ten_le 310 e ltac:(lia)) as T.
    assert (X : (40 * 2 ^ 1024 < 10 ^ 310)%Z) by (vm_compute; reflexivity).
    apply IZR_lt in X. rewrite mult_IZR in X. rewrite <- two_IZR, <- ten_IZR in X by lia. lra.
Qed.

Lemma tiny_dbl n : (-309 <= n)%Z -> 100 * bpow radix2 (-1074) <= ten n.
Proof.
  intros H. eapply Rle_trans; [|apply (ten_le (-309)); exact H].
  pose proof (two_ten 1074 309 100 1 ltac:(lia) ltac:(lia) ltac:(vm_compute; congruence)) as X.
  change (- (1074))%Z with (-1074)%Z in X. change (- (309))%Z with (-309)%Z in X. lra.
Qed.
Lemma tiny_308 n : (-308 <= n)%Z -> bpow radix2 (-1074) <= ten n * bpow radix2 (-50).
Proof.
  intros H. pose proof (ten_le (-308) n H) as T.
  pose proof (two_ten 1024 308 1 1 ltac:(lia) ltac:(lia) ltac:(vm_compute; congruence)) as X.
  change (- (1024))%Z with (-1024)%Z in X. change (- (308))%Z with (-308)%Z in X.
  replace (-1074)%Z with (-1024 + -50)%Z by lia. rewrite bpow_plus. pose proof (bpow_gt_0 radix2 (-50)).
  apply Rmult_le_compat_r; lra.
Qed.

Lemma pow_rough L n : good_libm L -> (-309 <= n <= 308)%Z ->
  finite_fp (lm_pow L n) /\ Rabs (val (lm_pow L n) - ten n) <= ten n / 100.
Proof.
  intros G H. pose proof (ten_pos n) as P. destruct (Z_lt_le_dec n (-307)) as [C|C].
  - destruct (pow_small L G n C) as [F1 [_ F2]]. split; [exact F1|]. rewrite pw2 in F2.
    pose proof (tiny_dbl n ltac:(lia)). lra.
  - destruct (pow_near L G n ltac:(lia)) as [F1 F2]. split; [exact F1|]. eapply Rle_trans; [exact F2|].
    unfold Rdiv. apply Rmult_le_compat_l; [lra|]. rewrite pw2.
    eapply Rle_trans; [apply (bpow_le radix2 _ (-7)); lia|]. cbn. lra.
Qed.
Lemma pow_fine L n : good_libm L -> (-308 <= n <= 308)%Z ->
  Rabs (val (lm_pow L n) - ten n) <= ten n * bpow radix2 (-50).
Proof.
  intros G H. pose proof (ten_pos n) as P. destruct (Z_lt_le_dec n (-307)) as [C|C].
  - destruct (pow_small L G n C) as [F1 [_ F2]]. rewrite pw2 in F2.
    pose proof (tiny_308 n ltac:(lia)). lra.
  - destruct (pow_near L G n ltac:(lia)) as [F1 F2]. eapply Rle_trans; [exact F2|].
    rewrite pw2. apply Rmult_le_compat_l; [lra|]. apply bpow_le. lia.
Qed.

(* floats are doubles *)
Lemma rnd_dbl F x : fmt_ok F -> valid F x -> rnd DBL (val x) = val x.
Proof.
  intros HF V. destruct HF as [->| ->]; [|apply rnd_val; [apply dbl_ok|exact V]].
  unfold rnd. apply round_generic; [apply valid_rnd_N|].
  apply (generic_inclusion_mag radix2 (fx FLT)).
  - intros _. unfold fx, SpecFloat.fexp, emin, FLT, DBL, f_prec, f_emax. lia.
  - rewrite val_SF2R. destruct x as [s|s| |s m e]; try (apply generic_format_0).
    exact (generic_format_B2R _ _ (B754_finite s m e V : binary_float (f_prec FLT) (f_emax FLT))).
Qed.
Lemma conv_dbl F x : fmt_ok F -> valid F x -> finite_fp x ->
  finite_fp (sf_conv DBL x) /\ valid DBL (sf_conv DBL x) /\ val (sf_conv DBL x) = val x.
Proof.
  intros HF V N. pose proof (rnd_dbl F x HF V) as E.
  assert (B : Rabs (rnd DBL (val x)) < big DBL).
  { rewrite E. eapply Rlt_le_trans; [apply (val_big F x HF V)|apply (big_le F HF)]. }
  destruct (conv_spec DBL x dbl_ok N B) as [A1 [A2 A3]]. rewrite E in A3. auto.
Qed.

Lemma neg_val x : finite_fp x -> (is_neg x = true -> val x < 0) /\ (is_neg x = false -> 0 <= val x).
Proof.
  destruct x as [s|s| |s m e]; cbn [is_neg val finite_fp]; intros H; try contradiction.
  - split; intros; [discriminate|lra].
  - pose proof (bpow_gt_0 radix2 e) as B. rewrite <- pw2 in B.
    assert (M : 0 < IZR (Z.pos m)) by (apply IZR_lt; reflexivity).
    assert (0 < IZR (Z.pos m) * powerRZ 2 e) by (apply Rmult_lt_0_compat; assumption).
    split; intros ->; nra.
Qed.
Lemma nonzero_val x : finite_fp x -> val x <> 0 -> nonzero_fp x.
Proof. destruct x; cbn; intros; try tauto. Qed.
Lemma nonzero_val' x : nonzero_fp x -> val x <> 0.
Proof.
  destruct x as [s|s| |s m e]; cbn [nonzero_fp val]; intros H; try contradiction.
  pose proof (bpow_gt_0 radix2 e) as B. rewrite <- pw2 in B.
  assert (M : 0 < IZR (Z.pos m)) by (apply IZR_lt; reflexivity).
  assert (0 < IZR (Z.pos m) * powerRZ 2 e) by (apply Rmult_lt_0_compat; assumption).
  destruct s; nra.
Qed.
Lemma nonzero_finite x : nonzero_fp x -> finite_fp x.
Proof. destruct x; cbn; auto. Qed.

Lemma rnd_between F v : fmt_ok F -> / 64 <= v <= / 2 -> / 64 <= rnd F v <= / 2.
Proof.
  intros HF [A B].
  assert (E1 : rnd F (/ 64) = / 64).
  { pose proof (rnd_bpow F (-6) HF) as X. change (bpow radix2 (-6)) with (/ 64) in X. apply X.
    destruct HF as [->| ->]; cbn; lia. }
  assert (E2 : rnd F (/ 2) = / 2).
  { pose proof (rnd_bpow F (-1) HF) as X. change (bpow radix2 (-1)) with (/ 2) in X. apply X.
    destruct HF as [->| ->]; cbn; lia. }
  split; [rewrite <- E1|rewrite <- E2]; apply rnd_le; assumption.
Qed.

(* the mantissa as a real number *)
Definition mant (L : libm) (F : fmt) (x : spec_float) : R :=
  rnd F (rnd DBL (Rabs (val x) * val (lm_pow L (- lm_exp L F x)))).

Lemma big_half F v : fmt_ok F -> Rabs v <= / 2 -> Rabs v < big F.
Proof.
  intros HF H. eapply Rle_lt_trans; [exact H|]. change (/ 2) with (bpow radix2 (-1)). apply bpow_lt.
  destruct HF as [->| ->]; cbn; lia.
Qed.

Lemma product_range L F x : good_libm L -> fmt_ok F -> valid F x -> nonzero_fp x -> (-308 <= lm_exp L F x)%Z ->
  / 64 <= Rabs (val x) * val (lm_pow L (- lm_exp L F x)) <= / 2.
Proof.
  intros G HF V N He. pose proof (exp_range L F x G HF V N) as R.
  destruct (exp_near L G F x HF V N) as [A B]. set (e := lm_exp L F x) in *.
  destruct (pow_rough L (- e) G ltac:(lia)) as [_ P].
  pose proof (ten_pos e) as T1. pose proof (ten_pos (- e)) as T2. pose proof (ten_inv e) as T3.
  set (Q := val (lm_pow L (- e))) in *. set (a := Rabs (val x)) in *.
  apply Rabs_le_inv in P. destruct P as [P1 P2].
  assert (Q1 : ten (- e) * (99 / 100) <= Q) by lra. assert (Q2 : Q <= ten (- e) * (101/100)) by lra.
  split.
  - apply Rle_trans with (ten e / 40 * (ten (- e) * (99 / 100))).
    + replace (ten e / 40 * (ten (- e) * (99 / 100))) with (ten e * ten (- e) * (99/4000)) by field. rewrite T3. lra.
    + apply Rmult_le_compat; lra.
  - apply Rle_trans with (ten e * (2/5) * (ten (- e) * (101 / 100))).
    + apply Rmult_le_compat; lra.
    + replace (ten e * (2 / 5) * (ten (- e) * (101 / 100))) with (ten e * ten (- e) * (202/500)) by field. rewrite T3. lra.
Qed.

Lemma frexp_finite L F x : good_libm L -> fmt_ok F -> valid F x -> nonzero_fp x -> (-308 <= lm_exp L F x)%Z ->
  exists m, frexp10 L F x = Ok (lm_exp L F x, m) /\ nonzero_fp m /\ valid F m /\ is_neg m = is_neg x /\
    Rabs (val m) = mant L F x /\ / 64 <= mant L F x <= / 2.
Proof.
  intros G HF V N He. pose proof (exp_range L F x G HF V N) as R.
  pose proof (product_range L F x G HF V N He) as PR. unfold mant.
  destruct (pow_rough L (- lm_exp L F x) G ltac:(lia)) as [FP _].
  pose proof (pow_valid L G (- lm_exp L F x)) as VP.
  destruct (conv_dbl F x HF V (nonzero_finite x N)) as [C1 [C2 C3]].
  assert (PP : 0 < val (lm_pow L (- lm_exp L F x))).
  { destruct (Rle_or_lt (val (lm_pow L (- lm_exp L F x))) 0) as [Hn|Hn]; [exfalso|exact Hn].
    pose proof (Rabs_pos (val x)). nra. }
  set (Q := lm_pow L (- lm_exp L F x)) in *. set (e := lm_exp L F x) in *.
  pose proof (rnd_between DBL _ dbl_ok PR) as R1. pose proof (rnd_between F _ HF R1) as R2.
  assert (AB : Rabs (val x * val Q) = Rabs (val x) * val Q) by (rewrite Rabs_mult, (Rabs_pos_eq (val Q)); lra).
  assert (B1 : Rabs (rnd DBL (val (sf_conv DBL x) * val Q)) < big DBL).
  { rewrite C3. apply big_half; [apply dbl_ok|]. rewrite rnd_abs by apply dbl_ok. rewrite AB. lra. }
  destruct (dmul_spec _ _ C2 VP C1 FP B1) as [M1 [M2 M3]]. rewrite C3 in M3.
  assert (A1 : Rabs (rnd F (val (dmul (sf_conv DBL x) Q))) = rnd F (rnd DBL (Rabs (val x) * val Q))).
  { rewrite rnd_abs by exact HF. rewrite M3. rewrite rnd_abs by apply dbl_ok. rewrite AB. reflexivity. }
  assert (B2 : Rabs (rnd F (val (dmul (sf_conv DBL x) Q))) < big F).
  { apply big_half; [exact HF|]. rewrite A1. lra. }
  destruct (conv_spec F _ HF M1 B2) as [D1 [D2 D3]].
  exists (sf_conv F (dmul (sf_conv DBL x) Q)).
  assert (A2 : Rabs (val (sf_conv F (dmul (sf_conv DBL x) Q))) = rnd F (rnd DBL (Rabs (val x) * val Q))).
  { rewrite D3. exact A1. }
  split. { destruct x as [s|s| |s m k]; cbn in N; try contradiction. reflexivity. }
  split. { apply nonzero_val; [exact D1|]. intros Z0. rewrite Z0, Rabs_R0 in A2. lra. }
  split; [exact D2|]. split; [|split; [exact A2|exact R2]].
  set (m := sf_conv F (dmul (sf_conv DBL x) Q)) in *.
  destruct (neg_val x (nonzero_finite x N)) as [X1 X2]. destruct (neg_val m D1) as [Y1 Y2].
  assert (S1 : val x <= 0 -> val m <= 0).
  { intros H. rewrite D3, M3. rewrite <- (rnd_0 F). apply rnd_le; [exact HF|]. rewrite <- (rnd_0 DBL).
    apply rnd_le; [apply dbl_ok|]. nra. }
  assert (S2 : 0 <= val x -> 0 <= val m).
  { intros H. rewrite D3, M3. rewrite <- (rnd_0 F). apply rnd_le; [exact HF|]. rewrite <- (rnd_0 DBL).
    apply rnd_le; [apply dbl_ok|]. nra. }
  assert (NZ : val m <> 0) by (intros Z0; rewrite Z0, Rabs_R0 in A2; lra).
  destruct (is_neg x); destruct (is_neg m); try reflexivity; exfalso.
  - specialize (X1 eq_refl). specialize (Y2 eq_refl). specialize (S1 ltac:(lra)). lra.
  - specialize (X2 eq_refl). specialize (Y1 eq_refl). specialize (S2 ltac:(lra)). lra.
Qed.

Lemma frexp_tiny L F x : good_libm L -> fmt_ok F -> valid F x -> nonzero_fp x -> (lm_exp L F x < -308)%Z ->
  frexp10 L F x = Ok (lm_exp L F x, S754_infinity (is_neg x)).
Proof.
  intros G HF V N He. destruct (conv_dbl F x HF V (nonzero_finite x N)) as [C1 [C2 C3]].
  assert (NC : nonzero_fp (sf_conv DBL x)).
  { apply nonzero_val; [exact C1|]. rewrite C3. apply nonzero_val', N. }
  destruct (neg_val x (nonzero_finite x N)) as [X1 X2]. destruct (neg_val _ C1) as [Y1 Y2].
  assert (S : is_neg (sf_conv DBL x) = is_neg x).
  { destruct (is_neg x); destruct (is_neg (sf_conv DBL x)); try reflexivity; exfalso.
    - specialize (X1 eq_refl). specialize (Y2 eq_refl). lra.
    - specialize (X2 eq_refl). specialize (Y1 eq_refl). lra. }
  unfold frexp10. destruct x as [s|s| |s m k]; cbn in N; try contradiction.
  rewrite (pow_large L G) by lia. rewrite <- S.
  destruct (sf_conv DBL (S754_finite s m k)) as [t|t| |t m' k'] eqn:E; cbn in NC; try contradiction.
  cbn [dmul SFmul sf_conv is_neg]. rewrite Bool.xorb_false_r. reflexivity.
Qed.
