(* The assumptions on the libm functions can be met *)
From Verif Require Import ModelBytes ProofBytes ModelElen ModelFloat SpecFp ProofFpBase ProofFpMant ProofFpOrder ProofFpBits.
From Coq Require Import Reals Psatz.
From Flocq Require Import Core Operations BinarySingleNaN.
Local Open Scope R_scope.

Lemma below_spec s m k e : below m k e = true <-> Rabs (val (S754_finite s m k)) * Rabs (val (S754_finite s m k)) < ten (2 * e - 1).
Proof.
  rewrite abs_val, pw2. unfold below. rewrite Z.ltb_lt.
  set (c := Z.max 0 (- (2 * k))). set (d := Z.max 0 (1 - 2 * e)).
  replace (Z.max 0 (2 * k)) with (2 * k + c)%Z by (unfold c; lia).
  replace (Z.max 0 (2 * e - 1)) with (2 * e - 1 + d)%Z by (unfold d; lia).
  assert (Hc : (0 <= c /\ 0 <= 2 * k + c)%Z) by (unfold c; lia).
  assert (Hd : (0 <= d /\ 0 <= 2 * e - 1 + d)%Z) by (unfold d; lia).
  pose proof (bpow_gt_0 radix2 c) as C. pose proof (ten_pos d) as D.
  assert (E1 : IZR (Zpos m * Zpos m * 2 ^ (2 * k + c) * 10 ^ d)
    = IZR (Zpos m) * bpow radix2 k * (IZR (Zpos m) * bpow radix2 k) * (bpow radix2 c * ten d)).
  { rewrite !mult_IZR. rewrite <- two_IZR, <- ten_IZR by tauto. rewrite bpow_plus.
    replace (2 * k)%Z with (k + k)%Z by lia. rewrite bpow_plus. ring. }
  assert (E2 : IZR (2 ^ c * 10 ^ (2 * e - 1 + d)) = ten (2 * e - 1) * (bpow radix2 c * ten d)).
  { rewrite mult_IZR. rewrite <- two_IZR, <- ten_IZR by tauto. rewrite ten_plus. ring. }
  assert (P : 0 < bpow radix2 c * ten d) by (apply Rmult_lt_0_compat; assumption).
  split; intros H.
  - apply IZR_lt in H. rewrite E1, E2 in H. apply Rmult_lt_reg_r in H; [exact H|exact P].
  - apply lt_IZR. rewrite E1, E2. apply Rmult_lt_compat_r; [exact P|exact H].
Qed.

Lemma first_above_spec f m k e : below m k (e - 1) = false -> below m k (e - 1 + Z.of_nat f) = true ->
  below m k (first_above f m k e) = true /\ below m k (first_above f m k e - 1) = false.
Proof.
  revert e. induction f as [|f IH]; intros e A B.
  - replace (e - 1 + Z.of_nat 0)%Z with (e - 1)%Z in B by lia. congruence.
  - cbn [first_above]. destruct (below m k e) eqn:E; [split; assumption|].
    apply IH; [replace (e + 1 - 1)%Z with e by lia; exact E|].
    replace (e + 1 - 1 + Z.of_nat f)%Z with (e - 1 + Z.of_nat (S f))%Z by lia. exact B.
Qed.

Lemma sq_lt a b : 0 <= a -> 0 <= b -> a < b -> a * a < b * b. Proof. intros; nra. Qed.

Lemma exact_spec F x : fmt_ok F -> valid F x -> nonzero_fp x ->
  let e := exact_exp F x in let v := Rabs (val x) in v * v < ten (2 * e - 1) /\ ten (2 * e - 3) <= v * v.
Proof.
  intros HF V N e v. pose proof (val_ge F x HF V N) as Lo. pose proof (val_big F x HF V) as Hi. pose proof (big_le F HF) as Bi.
  fold v in Lo, Hi. assert (v0 : 0 <= v) by apply Rabs_pos.
  destruct x as [s|s| |s m k]; try contradiction. unfold exact_exp in e.
  set (est := ((Z.log2 (Zpos m) + k) * 30103 / 100000)%Z) in e.
  assert (Up : forall q, (310 <= q)%Z -> below m k q = true).
  { intros q Hq. apply (below_spec s). fold v. pose proof (ten_le (310 + 309) (2 * q - 1) ltac:(lia)) as T.
    rewrite ten_plus in T.
    assert (X : (2 ^ 1024 <= 10 ^ 309)%Z) by (vm_compute; congruence). apply IZR_le in X.
    rewrite <- two_IZR, <- ten_IZR in X by lia. pose proof (ten_le 309 310 ltac:(lia)) as T'.
    eapply Rlt_le_trans; [|exact T]. apply Rlt_le_trans with (ten 309 * ten 309).
    - apply sq_lt; lra.
    - apply Rmult_le_compat_r; lra. }
  assert (Dn : below m k (-341) = false).
  { destruct (below m k (-341)) eqn:E; [exfalso|reflexivity]. apply (below_spec s) in E. fold v in E.
    pose proof (ten_le (2 * -341 - 1) (-324 + -324) ltac:(lia)) as T. rewrite ten_plus in T.
    pose proof (two_ten 1074 324 1 1 ltac:(lia) ltac:(lia)) as X.
    assert (Y : bpow radix2 (-1074) >= ten (-324)).
    { pose proof (two_inv 1074) as E2. pose proof (ten_inv 324) as E10. change (- (324))%Z with (-324)%Z in E10.
      change (- (1074))%Z with (-1074)%Z in E2.
      assert (Z : (2 ^ 1074 <= 10 ^ 324)%Z) by (vm_compute; congruence). apply IZR_le in Z.
      rewrite <- two_IZR, <- ten_IZR in Z by lia.
      pose proof (bpow_gt_0 radix2 (-1074)). pose proof (ten_pos (-324)).
      assert (bpow radix2 1074 * ten (-324) <= 1) by (rewrite <- E10; apply Rmult_le_compat_r; lra).
      apply Rle_ge. apply Rmult_le_reg_l with (bpow radix2 1074); [apply bpow_gt_0|]. lra. }
    pose proof (ten_pos (-324)). assert (ten (-324) * ten (-324) <= v * v) by (apply Rmult_le_compat; lra). lra. }
  assert (Est : (-324 <= est)%Z).
  { unfold est. apply (valid_finite F s m k HF) in V.
    assert (Hk : (-1074 <= k)%Z) by (destruct HF as [->| ->]; cbn in V; lia).
    pose proof (Z.log2_nonneg (Zpos m)). apply Z.div_le_lower_bound; lia. }
  assert (R : below m k e = true /\ below m k (e - 1) = false).
  { unfold e. destruct (below m k (est - 1)) eqn:E; apply first_above_spec; try assumption.
    - apply Up. lia.
    - apply Up. lia. }
  destruct R as [R1 R2]. apply (below_spec s) in R1. fold v in R1. split; [exact R1|].
  destruct (Rle_or_lt (ten (2 * e - 3)) (v * v)) as [H|H]; [exact H|exfalso].
  replace (2 * e - 3)%Z with (2 * (e - 1) - 1)%Z in H by lia. apply (below_spec s) in H. congruence.
Qed.

Lemma ten_lt_inv a b : ten a < ten b -> (a < b)%Z.
Proof. intros H. destruct (Z_lt_le_dec a b) as [X|X]; [exact X|]. apply ten_le in X. lra. Qed.

(* powers *)
Lemma div_over n d : big DBL <= rnd DBL (IZR (Zpos n) / IZR (Zpos d)) ->
  SFdiv 53 1024 (S754_finite false n 0) (S754_finite false d 0) = S754_infinity false.
Proof.
  intros Hb. pose proof (Bdiv_correct_aux _ _ (prec_gt DBL dbl_ok) (prec_lt DBL dbl_ok) mode_NE false n 0 false d 0) as H.
  cbv zeta in H. change (f_prec DBL) with 53%Z in H. change (f_emax DBL) with 1024%Z in H.
  set (z := SFdiv 53 1024 (S754_finite false n 0) (S754_finite false d 0)).
  assert (Ez : z = let '(mz, ez, lz) := SFdiv_core_binary 53 1024 (Zpos n) 0 (Zpos d) 0 in
    BinarySingleNaN.binary_round_aux 53 1024 mode_NE (xorb false false) mz ez lz).
  { unfold z, SFdiv. destruct (SFdiv_core_binary _ _ _ _ _ _) as [[mz ez] lz]. apply round_aux_equiv. }
  rewrite <- Ez in H. destruct H as [_ H].
  assert (Ev : F2R (Float radix2 (cond_Zopp false (Z.pos n)) 0) / F2R (Float radix2 (cond_Zopp false (Z.pos d)) 0)
    = IZR (Zpos n) / IZR (Zpos d)).
  { unfold F2R. cbn [Fnum Fexp bpow cond_Zopp]. rewrite !Rmult_1_r. reflexivity. }
  rewrite Ev in H. change (round_mode mode_NE) with ZnearestE in H.
  rewrite Rlt_bool_false in H; [exact H|]. unfold rnd, fx in Hb. eapply Rle_trans; [exact Hb|]. apply Rle_abs.
Qed.

Lemma pow_IZR n : (n <> 0)%Z -> IZR (Zpos (Pos.pow 10 (Z.to_pos (Z.abs n)))) = ten (Z.abs n).
Proof. intros H. rewrite ten_IZR by lia. f_equal. rewrite Pos2Z.inj_pow. f_equal. lia. Qed.

Lemma exact_pow_spec n : (n <= 308)%Z ->
  finite_fp (exact_pow n) /\ valid DBL (exact_pow n) /\ val (exact_pow n) = rnd DBL (ten n).
Proof.
  intros Hn. unfold exact_pow. destruct (Z.eqb_spec n 0) as [->|H0].
  - split; [exact I|]. split; [reflexivity|].
    assert (E : val (SFone 53 1024) = 1).
    { replace (SFone 53 1024) with (S754_finite false 4503599627370496 (-52)) by (vm_compute; reflexivity).
      cbn [val]. rewrite pw2. change (bpow radix2 (-52)) with (/ 4503599627370496). field. }
    rewrite E. symmetry. apply (rnd_bpow DBL 0 dbl_ok). cbn. lia.
  - assert (Bd : Rabs (rnd DBL (ten n)) < big DBL).
    { rewrite rnd_abs by apply dbl_ok. rewrite Rabs_pos_eq by apply Rlt_le, ten_pos.
      apply Rle_lt_trans with (rnd DBL (ten 308)); [apply rnd_le; [apply dbl_ok|apply ten_le; exact Hn]|].
      destruct (rnd_err_normal DBL (ten 308) dbl_ok) as [eps [A B]].
      - rewrite Rabs_pos_eq by apply Rlt_le, ten_pos. apply Rle_trans with (ten 0); [|apply ten_le; lia].
        change (ten 0) with (bpow radix2 0). apply bpow_le. cbn. lia.
      - rewrite B. assert (X : (3 * 10 ^ 308 < 2 * 2 ^ 1024)%Z) by (vm_compute; reflexivity).
        apply IZR_lt in X. rewrite !mult_IZR in X. rewrite <- two_IZR, <- ten_IZR in X by lia.
        unfold big. cbn [f_emax DBL]. assert (A' : Rabs eps <= / 2).
        { eapply Rle_trans; [exact A|]. change (/ 2) with (bpow radix2 (-1)). apply bpow_le. cbn. lia. }
        apply Rabs_le_inv in A'. pose proof (ten_pos 308). nra. }
    destruct (Z.ltb_spec 0 n) as [Hp|Hp].
    + pose proof (ratio_spec DBL false (Pos.pow 10 (Z.to_pos (Z.abs n))) 1 dbl_ok) as X. cbv zeta in X.
      rewrite pow_IZR in X by exact H0. replace (ten (Z.abs n)) with (ten n) in X by (f_equal; lia).
      replace (1 * (ten n / 1)) with (ten n) in X by field. exact (X Bd).
    + pose proof (ratio_spec DBL false 1 (Pos.pow 10 (Z.to_pos (Z.abs n))) dbl_ok) as X. cbv zeta in X.
      rewrite pow_IZR in X by exact H0. replace (ten (Z.abs n)) with (ten (- n)) in X by (f_equal; lia).
      assert (E : 1 * (1 / ten (- n)) = ten n).
      { pose proof (ten_inv n) as Q. pose proof (ten_pos (- n)). apply Rmult_eq_reg_r with (ten (- n)); [|lra]. rewrite Q. field. lra. }
      rewrite E in X. exact (X Bd).
Qed.

Lemma exact_pow_large n : (308 < n)%Z -> exact_pow n = S754_infinity false.
Proof.
  intros Hn. unfold exact_pow. destruct (Z.eqb_spec n 0) as [X|H0]; [lia|]. destruct (Z.ltb_spec 0 n) as [_|X]; [|lia].
  apply div_over. rewrite pow_IZR by exact H0. rewrite Z.abs_eq by lia. replace (ten n / 1) with (ten n) by field.
  unfold big. cbn [f_emax DBL]. rewrite <- (rnd_bpow DBL 1024 dbl_ok) by (cbn; lia). apply rnd_le; [apply dbl_ok|].
  assert (X : (2 ^ 1024 <= 10 ^ 309)%Z) by (vm_compute; congruence). apply IZR_le in X.
  rewrite <- two_IZR, <- ten_IZR in X by lia. pose proof (ten_le 309 n ltac:(lia)). lra.
Qed.

Lemma exact_good : good_libm exact_libm.
Proof.
  split; cbn [lm_exp lm_pow exact_libm].
  - intros F x HF V N. destruct (exact_spec F x HF V N) as [A B]. set (e := exact_exp F x) in *. set (v := Rabs (val x)) in *.
    assert (v0 : 0 <= v) by apply Rabs_pos. pose proof (ten_pos e) as T.
    assert (E1 : ten (2 * e - 1) = ten e * ten e / 10).
    { replace (2 * e - 1)%Z with (e + e + -1)%Z by lia. rewrite !ten_plus. change (ten (-1)) with (/ (10 * 1)). field. }
    assert (E3 : ten (2 * e - 3) = ten e * ten e / 1000).
    { replace (2 * e - 3)%Z with (e + e + -3)%Z by lia. rewrite !ten_plus. change (ten (-3)) with (/ (10 * (10 * (10 * 1)))). field. }
    rewrite E1 in A. rewrite E3 in B. split; nra.
  - intros F x y HF Vx Vy Nx Ny H. destruct (exact_spec F x HF Vx Nx) as [_ B]. destruct (exact_spec F y HF Vy Ny) as [A _].
    set (e := exact_exp F x) in *. set (e' := exact_exp F y) in *. pose proof (Rabs_pos (val x)).
    assert (Rabs (val x) * Rabs (val x) <= Rabs (val y) * Rabs (val y)) by (apply Rmult_le_compat; assumption).
    assert (Q : ten (2 * e - 3) < ten (2 * e' - 1)) by lra. apply ten_lt_inv in Q. lia.
  - intros n. destruct (Z_lt_le_dec 308 n) as [H|H]; [rewrite exact_pow_large by exact H; reflexivity|apply (exact_pow_spec n H)].
  - intros n Hn. destruct (exact_pow_spec n ltac:(lia)) as (A & _ & B). split; [exact A|]. rewrite B, pw2.
    pose proof (ten_pos n) as T. destruct (rnd_err_normal DBL (ten n) dbl_ok) as [eps [E1 E2]].
    + rewrite Rabs_pos_eq by lra. eapply Rle_trans; [|apply (ten_le (-307)); lia].
      pose proof (two_ten 1022 307 1 1 ltac:(lia) ltac:(lia) ltac:(vm_compute; congruence)) as X.
      change (emin (f_prec DBL) (f_emax DBL) + f_prec DBL - 1)%Z with (-1022)%Z.
      change (- (1022))%Z with (-1022)%Z in X. change (- (307))%Z with (-307)%Z in X. lra.
    + rewrite E2. replace (ten n * (1 + eps) - ten n) with (ten n * eps) by ring. rewrite Rabs_mult, Rabs_pos_eq by lra.
      apply Rmult_le_compat_l; [lra|]. eapply Rle_trans; [exact E1|]. apply bpow_le. cbn. lia.
  - intros n Hn. destruct (exact_pow_spec n ltac:(lia)) as (A & _ & B). split; [exact A|]. rewrite B.
    pose proof (ten_pos n) as T. split; [rewrite <- (rnd_0 DBL); apply rnd_le; [apply dbl_ok|lra]|].
    destruct (rnd_err DBL (ten n) dbl_ok) as (eps & eta & E1 & E2 & E3). rewrite E3.
    replace (ten n * (1 + eps) + eta - ten n) with (ten n * eps + eta) by ring.
    eapply Rle_trans; [apply Rabs_triang|]. rewrite Rabs_mult, Rabs_pos_eq by lra.
    unfold tiny in E2. change (emin (f_prec DBL) (f_emax DBL)) with (-1074)%Z in E2.
    change (- f_prec DBL)%Z with (-53)%Z in E1. rewrite pw2 in *.
    assert (Tn : ten n <= bpow radix2 (-1022)).
    { eapply Rle_trans; [apply (ten_le n (-308)); lia|].
      assert (X : (2 ^ 1022 <= 10 ^ 308)%Z) by (vm_compute; congruence). apply IZR_le in X.
      rewrite <- two_IZR, <- ten_IZR in X by lia.
      pose proof (two_inv 1022) as E2'. pose proof (ten_inv 308) as E10. change (- (308))%Z with (-308)%Z in E10.
      change (- (1022))%Z with (-1022)%Z in E2'. pose proof (ten_pos (-308)).
      assert (bpow radix2 1022 * ten (-308) <= 1) by (rewrite <- E10; apply Rmult_le_compat_r; lra).
      apply Rmult_le_reg_l with (bpow radix2 1022); [apply bpow_gt_0|]. lra. }
    assert (K : ten n * Rabs eps <= bpow radix2 (-1022) * bpow radix2 (-53)).
    { apply Rmult_le_compat; [lra|apply Rabs_pos|assumption|assumption]. }
    rewrite <- bpow_plus in K. change (-1022 + -53)%Z with (-1 + -1074)%Z in K. rewrite bpow_plus in K.
    change (bpow radix2 (-1)) with (/ 2) in K. lra.
  - intros n Hn. apply exact_pow_large, Hn.
Qed.
