(* Different values with the same encoding *)
From Verif Require Import ModelBytes ProofBytes ModelKey ModelElen ModelHist ModelMsg ModelStore ModelTransform ModelFloat
  SpecElen SpecFp ProofElen ProofFpBase ProofFpMant ProofFpOrder ProofFpError ProofFloat.
From Coq Require Import Reals Psatz.
From Flocq Require Import Core.
Local Open Scope R_scope.

Lemma mdigits_le L F p x y : mant L F x <= mant L F y -> (mdigits L F p x <= mdigits L F p y)%Z.
Proof. intros H. apply nearest_le. apply Rmult_le_compat_r; [apply Rlt_le, ten_pos|exact H]. Qed.

Lemma mdigits_next L F p x y : mant L F y - mant L F x < ten (- Z.of_N p) -> (mdigits L F p y <= mdigits L F p x + 1)%Z.
Proof.
  intros H. pose proof (mdigits_near L F p x) as A. pose proof (mdigits_near L F p y) as B.
  apply Rabs_le_inv in A, B. pose proof (ten_pos (Z.of_N p)) as T. pose proof (ten_inv (Z.of_N p)) as E.
  assert (C : IZR (mdigits L F p y) / ten (Z.of_N p) < IZR (mdigits L F p x) / ten (Z.of_N p) + 2 * ten (- Z.of_N p)) by lra.
  apply (Rmult_lt_compat_r (ten (Z.of_N p))) in C; [|exact T]. unfold Rdiv in C.
  rewrite Rmult_plus_distr_r in C. rewrite !Rmult_assoc in C. rewrite Rinv_l in C by lra.
  rewrite (Rmult_comm (ten (- Z.of_N p))), E, !Rmult_1_r in C.
  rewrite <- plus_IZR in C. apply lt_IZR in C. lia.
Qed.

Lemma same_enc L F p neg pos x y : good_libm L -> fmt_ok F -> valid F x -> valid F y -> nonzero_fp x -> nonzero_fp y ->
  is_neg x = is_neg y -> lm_exp L F x = lm_exp L F y -> mdigits L F p x = mdigits L F p y ->
  enc_fp L F p neg pos x = enc_fp L F p neg pos y.
Proof.
  intros G HF Vx Vy Nx Ny Hn He Hm.
  destruct (enc_shape L F p neg pos x G HF Vx Nx) as (es & I1 & E1). destruct (enc_shape L F p neg pos y G HF Vy Ny) as (es' & I2 & E2).
  rewrite E1, E2. unfold sexp in *. rewrite Hn, He in I1. rewrite I1 in I2. apply Ok_inj in I2. subst es'.
  unfold dig. rewrite Hn, He, Hm. reflexivity.
Qed.

(* three neighbours just below 4096 *)
Definition near (F : fmt) (k : positive) : spec_float := S754_finite false (Z.to_pos (2 ^ f_prec F - Zpos k)) (12 - f_prec F).

Lemma near_val F k : fmt_ok F -> (Zpos k <= 3)%Z -> val (near F k) = 4096 - IZR (Zpos k) * bpow radix2 (12 - f_prec F).
Proof.
  intros HF Hk. unfold near. cbn [val]. rewrite pw2.
  assert (E : (4 <= 2 ^ f_prec F)%Z) by (destruct HF as [->| ->]; vm_compute; congruence).
  rewrite Z2Pos.id by lia. rewrite minus_IZR, <- two_IZR by (destruct HF as [->| ->]; cbn; lia).
  replace (1 * (bpow radix2 (f_prec F) - IZR (Zpos k)) * bpow radix2 (12 - f_prec F))
    with (bpow radix2 (f_prec F) * bpow radix2 (12 - f_prec F) - IZR (Zpos k) * bpow radix2 (12 - f_prec F)) by ring.
  rewrite <- bpow_plus. replace (f_prec F + (12 - f_prec F))%Z with 12%Z by lia. reflexivity.
Qed.
Lemma near_valid F k : fmt_ok F -> (Zpos k <= 3)%Z -> valid F (near F k).
Proof.
  intros HF Hk. assert (C : k = 1%positive \/ k = 2%positive \/ k = 3%positive) by lia.
  destruct HF as [->| ->]; destruct C as [->|[->| ->]]; vm_compute; reflexivity.
Qed.
Lemma near_step F : fmt_ok F -> bpow radix2 (12 - f_prec F) = 4096 * u F /\ 0 < u F <= / 16777216.
Proof.
  intros HF. pose proof (u_range F HF) as [_ B]. rewrite b24 in B. pose proof (u_pos F). split; [|lra].
  unfold u, Z.sub. rewrite bpow_plus. reflexivity.
Qed.
Lemma near_exp L F k : good_libm L -> fmt_ok F -> (Zpos k <= 3)%Z -> lm_exp L F (near F k) = 5%Z.
Proof.
  intros G HF Hk. apply exp_unique; [exact G|exact HF|apply near_valid; assumption|exact I|].
  rewrite near_val by assumption. destruct (near_step F HF) as [-> U].
  assert (1 <= IZR (Zpos k) <= 3) by (split; apply IZR_le; lia).
  rewrite !ten_IZR by lia. change (10 ^ (5 - 1))%Z with 10000%Z. change (10 ^ (5 + 1))%Z with 1000000%Z.
  rewrite Rabs_pos_eq by nra. split; nra.
Qed.

Lemma near_mant L F : good_libm L -> fmt_ok F ->
  mant L F (near F 1) - mant L F (near F 3) <= 41 / 1000 * (4 * u F + 2 * bpow radix2 (-53)).
Proof.
  intros G HF. destruct (near_step F HF) as [St U]. set (w := bpow radix2 (-53)).
  assert (W : 0 < w <= / 16777216).
  { split; [apply bpow_gt_0|]. rewrite <- b24. apply bpow_le. lia. }
  set (P := val (lm_pow L (-5))).
  assert (HP : 0 < P /\ P * 4096 <= 41 / 1000).
  { pose proof (pow_fine L (-5) G ltac:(lia)) as X. fold P in X. apply Rabs_le_inv in X. rewrite b50 in X. fold w in X.
    assert (T : ten (-5) = / 100000) by (change (ten (-5)) with (/ (10 * (10 * (10 * (10 * (10 * 1)))))); field).
    rewrite T in X. lra. }
  assert (R : forall k, (Zpos k <= 3)%Z -> exists d1 d2, Rabs d1 <= w /\ Rabs d2 <= u F /\
    mant L F (near F k) = val (near F k) * P * (1 + d1) * (1 + d2)).
  { intros k Hk. pose proof (product_range L F (near F k) G HF (near_valid F k HF Hk) I) as PR.
    unfold mant. rewrite (near_exp L F k G HF Hk) in *. specialize (PR ltac:(lia)). change (- (5))%Z with (-5)%Z in *. fold P in PR |- *.
    assert (E : Rabs (val (near F k)) = val (near F k)).
    { rewrite near_val by assumption. rewrite St. apply Rabs_pos_eq. assert (IZR (Zpos k) <= 3) by (apply IZR_le; lia). nra. }
    rewrite E in *. pose proof (rnd_between DBL _ dbl_ok PR) as R1. set (v := val (near F k) * P) in *.
    destruct (normal_small DBL v dbl_ok) as [d1 [D1 E1]]; [rewrite Rabs_pos_eq; lra|].
    destruct (normal_small F (rnd DBL v) HF) as [d2 [D2 E2]]; [rewrite Rabs_pos_eq; lra|].
    exists d1, d2. split; [exact D1|split; [exact D2|rewrite E2, E1; reflexivity]]. }
  destruct (R 1%positive ltac:(lia)) as (a1 & a2 & A1 & A2 & EA). destruct (R 3%positive ltac:(lia)) as (b1 & b2 & B1 & B2 & EB).
  rewrite EA, EB, !near_val, St by (try assumption; lia). apply Rabs_le_inv in A1, A2, B1, B2.
  set (c := P * 4096) in *. set (v := u F) in *.
  replace ((4096 - 1 * (4096 * v)) * P * (1 + a1) * (1 + a2) - (4096 - 3 * (4096 * v)) * P * (1 + b1) * (1 + b2))
    with (c * ((1 - v) * ((1 + a1) * (1 + a2)) - (1 - 3 * v) * ((1 + b1) * (1 + b2)))) by (unfold c; ring).
  assert (c0 : 0 < c) by (unfold c; lra).
  assert (K1 : (1 + a1) * (1 + a2) <= (1 + w) * (1 + v)) by (apply Rmult_le_compat; lra).
  assert (K2 : (1 - w) * (1 - v) <= (1 + b1) * (1 + b2)) by (apply Rmult_le_compat; lra).
  assert (K3 : (1 - v) * ((1 + a1) * (1 + a2)) <= (1 - v) * ((1 + w) * (1 + v))) by (apply Rmult_le_compat_l; lra).
  assert (K4 : (1 - 3 * v) * ((1 - w) * (1 - v)) <= (1 - 3 * v) * ((1 + b1) * (1 + b2))) by (apply Rmult_le_compat_l; lra).
  assert (K5 : (1 - v) * ((1 + w) * (1 + v)) - (1 - 3 * v) * ((1 - w) * (1 - v)) <= 4 * v + 2 * w) by nra.
  apply Rle_trans with (c * (4 * v + 2 * w)); [apply Rmult_le_compat_l; lra|apply Rmult_le_compat_r; lra].
Qed.

Lemma default_same L t F u neg pos : good_libm L -> fp_type t F -> u = (if Nat.eqb (f_bytes F) 4 then 8 else 16)%N ->
  exists x y, valid F x /\ valid F y /\ nonzero_fp x /\ nonzero_fp y /\ val x < val y /\
    enc_fp L F u neg pos x = enc_fp L F u neg pos y.
Proof.
  intros G Ht Hu. pose proof (fp_fmt t F Ht) as HF. pose proof (near_mant L F G HF) as Nm.
  assert (D : mant L F (near F 1) - mant L F (near F 3) < ten (- Z.of_N u)).
  { eapply Rle_lt_trans; [exact Nm|]. subst u. destruct Ht as [[_ ->]|[_ ->]]; cbn [f_bytes FLT DBL Nat.eqb].
    - change (ten (- Z.of_N 8)) with (/ (10 * (10 * (10 * (10 * (10 * (10 * (10 * (10 * 1))))))))).
      change (ProofFpError.u FLT) with (/ 16777216). change (bpow radix2 (-53)) with (/ 9007199254740992). lra.
    - change (ten (- Z.of_N 16)) with (/ (10 * (10 * (10 * (10 * (10 * (10 * (10 * (10 * (10 * (10 * (10 * (10 * (10 * (10 * (10 * (10 * 1))))))))))))))))).
      change (ProofFpError.u DBL) with (/ 9007199254740992). change (bpow radix2 (-53)) with (/ 9007199254740992). lra. }
  apply mdigits_next in D. destruct (near_step F HF) as [St U].
  assert (O : forall j k, (Zpos j <= 3)%Z -> (Zpos k <= 3)%Z -> (j < k)%positive -> val (near F k) < val (near F j)).
  { intros j k Hj Hk H. rewrite !near_val, St by assumption. assert (IZR (Zpos j) < IZR (Zpos k)) by (apply IZR_lt; lia). nra. }
  assert (M : forall j k, (Zpos j <= 3)%Z -> (Zpos k <= 3)%Z -> (j < k)%positive ->
    (mdigits L F u (near F k) <= mdigits L F u (near F j))%Z).
  { intros j k Hj Hk H. apply mdigits_le. pose proof (O j k Hj Hk H) as V.
    apply mant_le; try assumption; try exact I; try (apply near_valid; assumption).
    - rewrite !near_exp by assumption. reflexivity.
    - rewrite near_exp by assumption. lia.
    - assert (Q : forall i, (Zpos i <= 3)%Z -> 0 <= val (near F i)).
      { intros i Hi. rewrite near_val, St by assumption. assert (IZR (Zpos i) <= 3) by (apply IZR_le; lia). nra. }
      rewrite !Rabs_pos_eq by (apply Q; assumption). lra. }
  pose proof (M 1%positive 2%positive ltac:(lia) ltac:(lia) ltac:(lia)) as M12.
  pose proof (M 2%positive 3%positive ltac:(lia) ltac:(lia) ltac:(lia)) as M23.
  assert (C : mdigits L F u (near F 2) = mdigits L F u (near F 1) \/ mdigits L F u (near F 3) = mdigits L F u (near F 2)) by lia.
  destruct C as [C|C]; [exists (near F 2), (near F 1)|exists (near F 3), (near F 2)];
    (split; [apply near_valid; [exact HF|lia]|]; split; [apply near_valid; [exact HF|lia]|];
     split; [exact I|]; split; [exact I|]; split; [apply O; lia|];
     apply same_enc; try assumption; try exact I; try (apply near_valid; [exact HF|lia]); try reflexivity;
     rewrite !near_exp by (try assumption; lia); reflexivity).
Qed.

Lemma stored_same L u t F : good_libm L -> fp_type t F ->
  ne_float (cb_num u) = FLOAT_PRECISION -> ne_double (cb_num u) = DOUBLE_PRECISION ->
  exists x y a, valid F x /\ valid F y /\ finite_fp x /\ finite_fp y /\ val x < val y /\
    stored L u t F x a /\ stored L u t F y a.
Proof.
  intros G H P1 P2.
  assert (P : int_precision (precision F u) = (if Nat.eqb (f_bytes F) 4 then 8 else 16)%N).
  { unfold precision. rewrite P1, P2. destruct (Nat.eqb (f_bytes F) 4); reflexivity. }
  destruct (default_same L t F _ (ne_neg (cb_num u)) (ne_pos (cb_num u)) G H P) as (x & y & Vx & Vy & Nx & Ny & O & E).
  destruct (stored_enc L u t F x G H Vx (nonzero_finite x Nx)) as (a & Sa & Ea).
  exists x, y, a. repeat (split; [first [assumption|apply nonzero_finite; assumption]|]).
  unfold stored. rewrite session_enc by (try assumption; apply finite_not_nan, nonzero_finite, Ny).
  rewrite <- E, Ea. reflexivity.
Qed.
