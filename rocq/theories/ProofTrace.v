(* Numbers in a trace *)
From Verif Require Import ModelBytes ProofBytes ModelKey ModelWire ModelHist ModelMsg ModelStore ModelGetOp ModelDs ModelElen ModelRoute ModelClient
  ModelFloat SpecElen SpecFp ProofElen ProofFpDecode ProofFpBase ProofFpBits ProofFpMant ProofFpOrder ModelStats ModelDsStats SpecDsStats2 ProofLd ProofLd2
  ModelTimes SpecTimes ModelTrace SpecTrace.
From Coq Require Import Reals Psatz.
From Flocq Require Import Core.
Local Open Scope R_scope.

(* ---- six digits ---- *)
Lemma ten_pos k : 0 < ten k. Proof. unfold ten. apply powerRZ_lt. lra. Qed.
Lemma ten_plus a b : ten (a + b) = ten a * ten b. Proof. unfold ten. apply powerRZ_add. lra. Qed.
Lemma ten_max k : ten k = IZR (10 ^ Z.max k 0) / IZR (10 ^ Z.max (- k) 0).
Proof.
  destruct (Z.le_ge_cases 0 k) as [H|H].
  - rewrite (Z.max_l k 0), (Z.max_r (- k) 0) by lia. rewrite ten_IZR by lia. cbn [Z.pow]. field.
  - rewrite (Z.max_r k 0), (Z.max_l (- k) 0) by lia. rewrite <- (ten_IZR (- k)) by lia. cbn [Z.pow].
    pose proof (ten_plus k (- k)) as E. rewrite Z.add_opp_diag_r in E. pose proof (ten_pos (- k)). change (ten 0) with 1 in E.
    apply Rmult_eq_reg_r with (ten (- k)); [|lra]. rewrite <- E. field. lra.
Qed.
Lemma two_max k : powerRZ 2 k = IZR (2 ^ Z.max k 0) / IZR (2 ^ Z.max (- k) 0).
Proof.
  rewrite pw2. destruct (Z.le_ge_cases 0 k) as [H|H].
  - rewrite (Z.max_l k 0), (Z.max_r (- k) 0) by lia. rewrite two_IZR by lia. cbn [Z.pow]. field.
  - rewrite (Z.max_r k 0), (Z.max_l (- k) 0) by lia. rewrite <- (two_IZR (- k)) by lia. cbn [Z.pow].
    pose proof (two_inv k) as E. pose proof (bpow_gt_0 radix2 (- k)).
    apply Rmult_eq_reg_r with (bpow radix2 (- k)); [|lra]. rewrite E. field. lra.
Qed.
Lemma pow_pos' b k : (0 < b)%Z -> 0 < IZR (b ^ Z.max k 0).
Proof. intros H. apply IZR_lt, Z.pow_pos_nonneg; lia. Qed.
Definition num_of (m : positive) (e : Z) : R := IZR (Zpos m) * powerRZ 2 e.
Lemma num_pos m e : 0 < num_of m e.
Proof. unfold num_of. apply Rmult_lt_0_compat; [apply IZR_lt; reflexivity|apply powerRZ_lt; lra]. Qed.
Lemma ten_le_spec x m e : ten_le x m e = true <-> ten x <= num_of m e.
Proof.
  unfold ten_le, num_of. rewrite Z.leb_le, ten_max, two_max.
  pose proof (pow_pos' 10 x eq_refl) as A. pose proof (pow_pos' 10 (- x) eq_refl) as B.
  pose proof (pow_pos' 2 e eq_refl) as C. pose proof (pow_pos' 2 (- e) eq_refl) as D.
  set (a := (10 ^ Z.max x 0)%Z) in *. set (b := (10 ^ Z.max (- x) 0)%Z) in *. set (c := (2 ^ Z.max e 0)%Z) in *. set (d := (2 ^ Z.max (- e) 0)%Z) in *.
  split; intros H.
  - apply IZR_le in H. rewrite !mult_IZR in H. apply Rmult_le_reg_r with (IZR b * IZR d); [nra|].
    replace (IZR a / IZR b * (IZR b * IZR d)) with (IZR a * IZR d) by (field; lra).
    replace (IZR (Z.pos m) * (IZR c / IZR d) * (IZR b * IZR d)) with (IZR (Z.pos m) * IZR c * IZR b) by (field; lra). exact H.
  - apply le_IZR. rewrite !mult_IZR. apply Rmult_le_compat_r with (r := IZR b * IZR d) in H; [|nra].
    replace (IZR a / IZR b * (IZR b * IZR d)) with (IZR a * IZR d) in H by (field; lra).
    replace (IZR (Z.pos m) * (IZR c / IZR d) * (IZR b * IZR d)) with (IZR (Z.pos m) * IZR c * IZR b) in H by (field; lra). exact H.
Qed.
Lemma scaled10_spec m e k : scaled10 m e k = ZnearestE (num_of m e * ten k).
Proof.
  unfold scaled10, num_of. rewrite div_even_spec by (apply Z.mul_pos_pos; apply Z.pow_pos_nonneg; lia). f_equal.
  rewrite ten_max, two_max, !mult_IZR.
  pose proof (pow_pos' 10 (- k) eq_refl) as B. pose proof (pow_pos' 2 (- e) eq_refl) as D. field. split; lra.
Qed.
Lemma first_digit_spec m e : forall n x, num_of m e < ten (x + 1) -> ten (x - Z.of_nat n) <= num_of m e ->
  let y := first_digit n x m e in ten y <= num_of m e < ten (y + 1) /\ (x - Z.of_nat n <= y <= x)%Z.
Proof.
  induction n as [|n IH]; intros x U L; cbn [first_digit].
  - cbn [Z.of_nat] in L. rewrite Z.sub_0_r in L. cbv zeta. split; [split; assumption|lia].
  - destruct (ten_le x m e) eqn:E.
    + apply ten_le_spec in E. cbv zeta. split; [split; assumption|lia].
    + assert (V : num_of m e < ten x). { apply Rnot_le_lt. intros H. apply ten_le_spec in H. congruence. }
      destruct (IH (x - 1)%Z) as [A B]; [rewrite Z.sub_add; exact V|replace (x - 1 - Z.of_nat n)%Z with (x - Z.of_nat (S n))%Z by lia; exact L|].
      cbv zeta. split; [exact A|lia].
Qed.
Lemma six_spec m e : ten (-12) <= num_of m e < ten 21 ->
  let '(d, x) := six m e in (10 ^ 5 <= d < 10 ^ 6)%Z /\ (-12 <= x <= 21)%Z /\ Rabs (IZR d * ten (x - 5) - num_of m e) <= num_of m e * (/ 2 * / 10 ^ 5).
Proof.
  intros [L U]. unfold six. destruct (first_digit_spec m e 32 20 U L) as [[A B] C]. set (x := first_digit 32 20 m e) in *.
  rewrite scaled10_spec. set (V := num_of m e) in *. pose proof (ten_pos (5 - x)) as P. pose proof (ten_pos (x - 5)) as P'.
  assert (E : ten (5 - x) * ten (x - 5) = 1). { rewrite <- ten_plus. replace (5 - x + (x - 5))%Z with 0%Z by lia. reflexivity. }
  assert (E5 : ten 5 = IZR (10 ^ 5)) by (apply ten_IZR; lia). assert (E6 : ten 6 = IZR (10 ^ 6)) by (apply ten_IZR; lia).
  assert (Lo : IZR (10 ^ 5) <= V * ten (5 - x)).
  { rewrite <- E5. replace 5%Z with (x + (5 - x))%Z at 1 by lia. rewrite ten_plus. apply Rmult_le_compat_r; lra. }
  assert (Hi : V * ten (5 - x) < IZR (10 ^ 6)).
  { rewrite <- E6. replace 6%Z with ((x + 1) + (5 - x))%Z by lia. rewrite ten_plus. apply Rmult_lt_compat_r; lra. }
  set (d := ZnearestE (V * ten (5 - x))).
  assert (D1 : (10 ^ 5 <= d)%Z). { rewrite <- (nearest_IZR (10 ^ 5)). apply nearest_le. exact Lo. }
  assert (D2 : (d <= 10 ^ 6)%Z). { rewrite <- (nearest_IZR (10 ^ 6)). apply nearest_le. lra. }
  assert (N : Rabs (IZR d - V * ten (5 - x)) <= / 2). { rewrite Rabs_minus_sym. apply Znearest_half. }
  assert (X : Rabs (IZR d * ten (x - 5) - V) <= V * (/ 2 * / 10 ^ 5)).
  { replace (IZR d * ten (x - 5) - V) with ((IZR d - V * ten (5 - x)) * ten (x - 5)) by (replace V with (V * (ten (5 - x) * ten (x - 5))) at 2 by (rewrite E; ring); ring).
    rewrite Rabs_mult, (Rabs_pos_eq (ten (x - 5))) by lra.
    apply Rle_trans with (/ 2 * ten (x - 5)); [apply Rmult_le_compat_r; lra|].
    assert (Q : ten x = ten (x - 5) * 10 ^ 5). { replace x with ((x - 5) + 5)%Z at 1 by lia. rewrite ten_plus, E5. f_equal. rewrite pow_IZR. reflexivity. }
    rewrite Q in A. assert (T : 0 < 10 ^ 5) by (apply pow_lt; lra).
    replace (/ 2 * ten (x - 5)) with (ten (x - 5) * 10 ^ 5 * (/ 2 * / 10 ^ 5)) by (field; lra). apply Rmult_le_compat_r; [|exact A].
    apply Rmult_le_pos; [lra|]. left. apply Rinv_0_lt_compat. exact T. }
  destruct (Z.eqb_spec d (10 ^ 6)) as [Hd|Hd].
  - split; [split; [apply Z.le_refl|reflexivity]|]. split; [lia|].
    replace (IZR (10 ^ 5) * ten (x + 1 - 5)) with (IZR d * ten (x - 5)); [exact X|].
    rewrite Hd. replace (x + 1 - 5)%Z with (1 + (x - 5))%Z by lia. rewrite ten_plus. replace (ten 1) with 10 by (rewrite (ten_IZR 1) by lia; reflexivity).
    replace (IZR (10 ^ 6)) with (IZR (10 ^ 5) * 10) by (rewrite <- (mult_IZR _ 10); reflexivity). ring.
  - split; [lia|]. split; [lia|exact X].
Qed.
