(* hr_size *)
From Verif Require Import ModelBytes ModelHist ModelElen ModelFloat ModelGen SpecFp ProofFpBase ProofFpBits ProofFpMant ProofFpOrder ProofGen1 ModelStats ModelDsStats SpecDsStats2 ProofLd ProofLd2.
From Coq Require Import Reals Psatz.
From Flocq Require Import Core Operations BinarySingleNaN Relative Mult_error.
Local Open Scope R_scope.
#[local] Existing Instance ld_gt.
#[local] Existing Instance ld_lt.

Lemma ltb_spec x y : valid LDBL x -> valid LDBL y -> finite_fp x -> finite_fp y -> SFltb x y = Rlt_bool (val x) (val y).
Proof.
  intros Vx Vy Fx Fy. pose proof (Bcompare_correct _ _ (SF2B x Vx) (SF2B y Vy)) as H.
  rewrite !is_finite_SF2B, !B2R_SF2B in H.
  assert (Gx : is_finite_SF x = true) by (destruct x; try contradiction; reflexivity).
  assert (Gy : is_finite_SF y = true) by (destruct y; try contradiction; reflexivity).
  specialize (H Gx Gy). unfold Bcompare in H. rewrite !B2SF_SF2B in H. rewrite <- !val_SF2R in H.
  unfold SFltb. rewrite H. unfold Rlt_bool. destruct (Rcompare (val x) (val y)); reflexivity.
Qed.

Lemma one_spec : finite_fp (ld_of 1) /\ valid LDBL (ld_of 1) /\ val (ld_of 1) = 1.
Proof. exact (ld_of_spec 1 eq_refl). Qed.
Lemma kilo_spec : finite_fp (ld_of 1024) /\ valid LDBL (ld_of 1024) /\ val (ld_of 1024) = 1024.
Proof. exact (ld_of_spec 1024 eq_refl). Qed.
Lemma kilo_pow : / 1024 = bpow radix2 (-10). Proof. reflexivity. Qed.

Lemma div_kilo x : valid LDBL x -> finite_fp x -> 0 <= val x <= bpow radix2 16383 ->
  let y := ldiv x (ld_of 1024) in
  finite_fp y /\ valid LDBL y /\ (if SFltb (ld_of 1) y then 1024 < val x /\ val y = val x / 1024 else val x <= 1024).
Proof.
  intros V F [P B]. cbv zeta. destruct kilo_spec as (Fk & Vk & Ek). destruct one_spec as (F1 & V1 & E1).
  pose proof (ldiv_spec x (ld_of 1024) V Vk F) as Q. rewrite Ek in Q. destruct Q as (F' & V' & W).
  - apply ld_nz; [exact Fk|]. rewrite Ek. lra.
  - apply big_ld. rewrite Rabs_pos_eq by lra. lra.
  - split; [exact F'|]. split; [exact V'|]. rewrite ltb_spec, E1 by assumption.
    destruct (Rlt_or_le 1024 (val x)) as [K|K].
    + assert (E : rl (val x / 1024) = val x / 1024).
      { unfold rnd. apply round_generic; [apply valid_rnd_N|]. unfold Rdiv. rewrite kilo_pow.
        apply (mult_bpow_exact_FLT radix2 (emin 64 16384) 64 (val x) (-10)).
        - rewrite <- (rl_val x V). unfold rnd. apply generic_format_round; [apply fx_ld|apply valid_rnd_N].
        - assert (1 <= mag radix2 (val x))%Z.
          { apply mag_ge_bpow. rewrite Rabs_pos_eq by exact P. cbn [bpow Z.sub Z.add Z.opp Z.pos_sub]. lra. }
          change (emin 64 16384) with (-16445)%Z. lia. }
      rewrite W, E. rewrite Rlt_bool_true by lra. split; [exact K|reflexivity].
    + rewrite Rlt_bool_false; [exact K|]. rewrite W. pose proof (rl_bpow 0 ltac:(lia)) as E0. cbn [bpow] in E0. rewrite <- E0. apply rl_le. lra.
Qed.

Lemma scale_spec f : forall x, valid LDBL x -> finite_fp x -> 0 <= val x <= bpow radix2 16383 ->
  exists r i, scale_down f x = (r, i) /\ (i <= f)%nat /\ finite_fp r /\ valid LDBL r /\ val r * 1024 ^ i = val x /\ 0 <= val r /\
    (i <> O -> 1 < val r) /\ ((i < f)%nat -> val r <= 1024).
Proof.
  induction f as [|f IH]; intros x V F B; cbn [scale_down].
  - exists x, O. split; [reflexivity|]. split; [lia|]. split; [exact F|]. split; [exact V|]. split; [cbn; lra|]. split; [lra|]. split; [congruence|lia].
  - destruct (div_kilo x V F B) as (F' & V' & D). cbv zeta in *. destruct (SFltb (ld_of 1) (ldiv x (ld_of 1024))).
    + destruct D as [K E]. destruct (IH _ V' F') as (r & i & S1 & S2 & S3 & S4 & S5 & S6 & S7 & S8).
      { rewrite E. split; lra. }
      rewrite S1. exists r, (Datatypes.S i). split; [reflexivity|]. split; [lia|]. split; [exact S3|]. split; [exact S4|].
      split; [cbn [pow]; rewrite E in S5; lra|]. split; [exact S6|]. split; [|intros; apply S8; lia].
      intros _. destruct i as [|i]; [cbn [pow] in S5; lra|apply S7; congruence].
    + exists x, O. split; [reflexivity|]. split; [lia|]. split; [exact F|]. split; [exact V|]. split; [cbn; lra|]. split; [lra|]. split; [congruence|intros; exact D].
Qed.

Lemma print3 r : finite_fp r -> 0 <= val r -> exists m, print_fixed 3 r = thousandths m /\ Rabs (IZR (Z.of_N m) - val r * 1000) <= / 2.
Proof.
  intros F P. destruct r as [s|s| |s m e]; try contradiction.
  - exists 0%N. split; [reflexivity|]. cbn [val Z.of_N]. rewrite Rmult_0_l, Rminus_0_r, Rabs_R0. lra.
  - exists (Z.to_N (scaled m e 3)). split; [reflexivity|].
    assert (E : scaled m e 3 = ZnearestE (val (S754_finite s m e) * 1000)).
    { rewrite scaled_spec. f_equal. replace (ten (Z.of_N 3)) with 1000 by (rewrite ten_IZR by lia; reflexivity).
      destruct s; [|cbn [val]; ring]. exfalso. revert P. cbn [val]. rewrite pw2.
      assert (0 < IZR (Z.pos m)) by (apply IZR_lt; lia). pose proof (bpow_gt_0 radix2 e). nra. }
    rewrite E. set (v := val (S754_finite s m e) * 1000) in *.
    assert (0 <= ZnearestE v)%Z. { rewrite <- (nearest_IZR 0). apply nearest_le. unfold v. lra. }
    rewrite Z2N.id by assumption. rewrite Rabs_minus_sym. apply Znearest_half.
Qed.

(* the rate as long double *)
Lemma rate_spec size time : (size < 2 ^ 64)%N -> valid LDBL time -> finite_fp time -> bpow radix2 (-1000) <= val time <= bpow radix2 1000 ->
  let q := IZR (Z.of_N size) / val time in
  finite_fp (ldiv (ld_of size) time) /\ valid LDBL (ldiv (ld_of size) time) /\ val (ldiv (ld_of size) time) = rl q /\
  0 <= q <= bpow radix2 1064 /\ Rabs (rl q - q) <= q * u.
Proof.
  intros Hs V F [L U] q. destruct (ld_of_spec size Hs) as (Fs & Vs & Es).
  pose proof (bpow_gt_0 radix2 (-1000)) as P.
  assert (S0 : 0 <= IZR (Z.of_N size)) by (apply IZR_le; lia).
  assert (SU : IZR (Z.of_N size) <= bpow radix2 64) by (change (bpow radix2 64) with (IZR (2 ^ 64)); apply IZR_le; lia).
  assert (Q : 0 <= q <= bpow radix2 1064).
  { unfold q. split; [apply div_nonneg; lra|]. replace (bpow radix2 1064) with (bpow radix2 64 * / bpow radix2 (-1000)).
    - unfold Rdiv. apply Rmult_le_compat; [exact S0| |exact SU|].
      + left. apply Rinv_0_lt_compat. lra.
      + apply Rinv_le_contravar; assumption.
    - rewrite <- bpow_opp, <- bpow_plus. reflexivity. }
  pose proof (ldiv_spec (ld_of size) time Vs V Fs) as D. rewrite Es in D. fold q in D. destruct D as (F' & V' & W).
  - apply ld_nz; [exact F|]. lra.
  - apply big_ld. rewrite Rabs_pos_eq by lra. eapply Rle_trans; [apply Q|]. apply bpow_le. lia.
  - split; [exact F'|]. split; [exact V'|]. split; [exact W|]. split; [exact Q|].
    destruct (Z.eq_dec (Z.of_N size) 0) as [Z0|Z0].
    + assert (Q0 : q = 0) by (unfold q; rewrite Z0; unfold Rdiv; ring). rewrite Q0, rnd_0, Rminus_0_r, Rabs_R0. lra.
    + destruct (rl_err q) as (e & He & Ee).
      { rewrite Rabs_pos_eq by apply Q. apply Rle_trans with (bpow radix2 (-1000)); [apply bpow_le; lia|]. unfold q.
        change (-1000)%Z with (- (1000))%Z. rewrite bpow_opp. unfold Rdiv. rewrite <- (Rmult_1_l (/ bpow radix2 1000)).
        apply Rmult_le_compat; [lra| |apply IZR_le; lia|].
        - left. apply Rinv_0_lt_compat, bpow_gt_0.
        - apply Rinv_le_contravar; lra. }
      rewrite Ee. replace (q * (1 + e) - q) with (q * e) by ring. rewrite Rabs_mult, (Rabs_pos_eq q) by apply Q.
      apply Rmult_le_compat_l; [apply Q|exact He].
Qed.

Lemma kilo6 : 1024 ^ 6 = 2 ^ 60. Proof. rewrite !pow_IZR. apply f_equal. reflexivity. Qed.
Lemma pow1024 i : 0 < 1024 ^ i. Proof. apply pow_lt. lra. Qed.

Lemma hr_ok size time : (size < 2 ^ 64)%N -> valid LDBL time -> finite_fp time -> bpow radix2 (-1000) <= val time <= bpow radix2 1000 ->
  IZR (Z.of_N size) / val time <= 2 ^ 60 -> exists text, hr_size size time = Ok text /\ shown_rate (IZR (Z.of_N size) / val time) text.
Proof.
  intros Hs V F B R. destruct (rate_spec size time Hs V F B) as (F1 & V1 & E1 & Q & Er). cbv zeta in *.
  set (q := IZR (Z.of_N size) / val time) in *.
  assert (R' : rl q <= 2 ^ 60).
  { replace (2 ^ 60) with (bpow radix2 60) in * by (rewrite pow_IZR; reflexivity). rewrite <- (rl_bpow 60) by lia. apply rl_le. exact R. }
  assert (P0 : 0 <= rl q) by (apply rl_nonneg; apply Q).
  destruct (scale_spec (length UNITS) _ V1 F1) as (r & i & S1 & S2 & S3 & S4 & S5 & S6 & S7 & S8).
  { rewrite E1. split; [exact P0|]. eapply Rle_trans; [exact R'|]. replace (2 ^ 60) with (bpow radix2 60) by (rewrite pow_IZR; reflexivity). apply bpow_le. lia. }
  change (length UNITS) with 6%nat in *.
  unfold hr_size. change (length UNITS) with 6%nat. rewrite S1.
  assert (I6 : (i < 6)%nat).
  { destruct (Nat.eq_dec i 6) as [-> |]; [|lia]. exfalso. rewrite E1 in S5. specialize (S7 ltac:(congruence)). rewrite kilo6 in S5.
    assert (0 < 2 ^ 60) by (apply pow_lt; lra). nra. }
  specialize (S8 I6). rewrite E1 in S5. destruct (print3 r S3 S6) as (m & Pm & Em).
  assert (M1 : (m <= 1024000)%N).
  { apply Rabs_le_inv in Em. destruct (N.le_gt_cases m 1024000) as [|G]; [assumption|]. exfalso.
    assert (IZR 1024001 <= IZR (Z.of_N m)) by (apply IZR_le; lia). lra. }
  assert (M2 : i <> O -> (1000 <= m)%N).
  { intros Hi. specialize (S7 Hi). apply Rabs_le_inv in Em. destruct (N.le_gt_cases 1000 m) as [|G]; [assumption|]. exfalso.
    assert (IZR (Z.of_N m) <= IZR 999) by (apply IZR_le; lia). lra. }
  assert (C : Rabs (IZR (Z.of_N m) / 1000 * 1024 ^ i - q) <= 1024 ^ i / 2000 + q * / 2 ^ 64).
  { rewrite <- u_eq. replace (IZR (Z.of_N m) / 1000 * 1024 ^ i - q) with ((IZR (Z.of_N m) - val r * 1000) * (1024 ^ i / 1000) + (rl q - q)).
    - eapply Rle_trans; [apply Rabs_triang|]. apply Rplus_le_compat; [|exact Er]. rewrite Rabs_mult.
      pose proof (pow1024 i). rewrite (Rabs_pos_eq (1024 ^ i / 1000)) by lra.
      replace (1024 ^ i / 2000) with (/ 2 * (1024 ^ i / 1000)) by field. apply Rmult_le_compat_r; [lra|exact Em].
    - rewrite <- S5. field. }
  assert (X : exists w, nth_error UNITS i = Some w).
  { destruct (nth_error UNITS i) eqn:N; [eexists; reflexivity|]. apply nth_error_None in N. change (length UNITS) with 6%nat in N. lia. }
  destruct X as (w & Hw). rewrite Hw, Pm. exists (thousandths m ++ w ++ bstr "/sec"). split; [reflexivity|].
  exists m, i, w. split; [exact Hw|]. split; [reflexivity|]. split; [exact C|]. split; [exact M1|exact M2].
Qed.

Lemma hr_ub size time : (size < 2 ^ 64)%N -> valid LDBL time -> finite_fp time -> bpow radix2 (-1000) <= val time <= bpow radix2 1000 ->
  2 ^ 60 + 1 <= IZR (Z.of_N size) / val time -> hr_size size time = UB.
Proof.
  intros Hs V F B R. destruct (rate_spec size time Hs V F B) as (F1 & V1 & E1 & Q & Er). cbv zeta in *.
  set (q := IZR (Z.of_N size) / val time) in *.
  assert (R' : 2 ^ 60 + 1 <= rl q).
  { replace (2 ^ 60 + 1) with (IZR (2 ^ 60 + 1)) in * by (rewrite plus_IZR, (pow_IZR 2 60); reflexivity).
    rewrite <- (rl_int (2 ^ 60 + 1)) by lia. apply rl_le. exact R. }
  destruct (scale_spec (length UNITS) _ V1 F1) as (r & i & S1 & S2 & S3 & S4 & S5 & S6 & S7 & S8).
  { rewrite E1. split; [apply rl_nonneg; apply Q|]. apply Rle_trans with (bpow radix2 1064); [|apply bpow_le; lia].
    rewrite <- (rl_bpow 1064) by lia. apply rl_le. apply Q. }
  change (length UNITS) with 6%nat in *. unfold hr_size. change (length UNITS) with 6%nat. rewrite S1. rewrite E1 in S5.
  destruct (Nat.eq_dec i 6) as [-> |N]; [reflexivity|]. exfalso. specialize (S8 ltac:(lia)).
  assert (I5 : 1024 ^ i <= 1024 ^ 5) by (apply Rle_pow; [lra|lia]).
  assert (K : val r * 1024 ^ i <= 1024 * 1024 ^ 5) by (apply Rmult_le_compat; [exact S6|left; apply pow1024|exact S8|exact I5]).
  change (1024 * 1024 ^ 5) with (1024 ^ 6) in K. rewrite kilo6 in K. lra.
Qed.
(* no time at all *)
Lemma hr_zero size : (0 < size < 2 ^ 64)%N -> hr_size size (S754_zero false) = UB.
Proof.
  intros H. destruct (ld_of_spec size ltac:(lia)) as (F & V & E).
  assert (P : 0 < val (ld_of size)) by (rewrite E; apply IZR_lt; lia).
  unfold hr_size. destruct (ld_of size) as [s'|s'| |s' m e] eqn:L; try contradiction.
  - cbn in P. lra.
  - destruct s'; [exfalso; revert P; cbn [val]; rewrite pw2; assert (0 < IZR (Z.pos m)) by (apply IZR_lt; lia); pose proof (bpow_gt_0 radix2 e); nra|].
    unfold ldiv at 1. cbn [SFdiv xorb]. vm_compute. reflexivity.
Qed.

Lemma bpow_bounds v : / 2 ^ 1000 <= v -> v <= 2 ^ 1000 -> bpow radix2 (-1000) <= v <= bpow radix2 1000.
Proof.
  intros L U. assert (E : bpow radix2 1000 = 2 ^ 1000).
  { rewrite bpow_powerRZ. change (IZR radix2) with 2. exact (eq_sym (pow_powerRZ 2 1000)). }
  split; [change (-1000)%Z with (- (1000))%Z; rewrite bpow_opp, E; exact L|rewrite E; exact U].
Qed.
