(* Decimals: digits after the point do not carry into the digits before it *)
From Verif Require Import ModelBytes ProofBytes ModelKey ModelElen ModelFloat SpecElen SpecFp SpecLarge ProofElen ProofFpDecode
  ProofFpBase ProofFpMant ProofFpBits ProofFpOrder ProofFpError ModelTransform ModelLarge.
From Coq Require Import Reals Psatz.
From Flocq Require Import Core Operations BinarySingleNaN.
Local Open Scope R_scope.
Local Notation num := ProofElen.num.

Lemma one_fits F v : fmt_ok F -> Rabs v <= 1 -> Rabs (rnd F v) < big F.
Proof.
  intros HF H. rewrite rnd_abs by exact HF. pose proof (rnd_le F (Rabs v) 1 HF H) as X.
  assert (E2 : rnd F 1 = 1).
  { pose proof (rnd_bpow F 0 HF) as Y. change (bpow radix2 0) with 1 in Y. apply Y. destruct HF as [->| ->]; cbn; lia. }
  rewrite E2 in X. eapply Rle_lt_trans; [exact X|]. change 1 with (bpow radix2 0). apply bpow_lt. destruct HF as [->| ->]; cbn; lia.
Qed.

(* reading digits after a point *)
Lemma read_spec1 F b p M : fmt_ok F -> (1 <= p)%N -> (0 <= M < 10 ^ Z.of_N p)%Z ->
  let z := read_fraction F b (pad (N.to_nat p) (Z.to_N M)) in
  finite_fp z /\ valid F z /\ val z = rnd F (sgn b * (IZR M / ten (Z.of_N p))).
Proof.
  intros HF Hp HM z. pose proof (pad_spec (N.to_nat p) (Z.to_N M)) as (A & B & C).
  rewrite N2Nat.id in C. rewrite N.mod_small in C.
  2: { apply N2Z.inj_lt. rewrite N2Z.inj_pow, Z2N.id by lia. change (Z.of_N 10) with 10%Z. lia. }
  unfold z, read_fraction. rewrite span_all by exact A. unfold num in C. rewrite C, B.
  destruct M as [|m|m]; [|cbn [Z.to_N]|lia].
  - cbn [Z.to_N]. split; [exact Logic.I|]. split; [reflexivity|]. cbn [val]. unfold Rdiv. rewrite Rmult_0_l, Rmult_0_r, rnd_0. reflexivity.
  - assert (E : IZR (Zpos (Pos.pow 10 (Pos.of_nat (N.to_nat p)))) = ten (Z.of_N p)).
    { rewrite ten_IZR by lia. f_equal. rewrite Pos2Z.inj_pow. f_equal. lia. }
    pose proof (ratio_spec F b m (Pos.pow 10 (Pos.of_nat (N.to_nat p))) HF) as H. cbv zeta in H. rewrite E in H. apply H.
    apply one_fits; [exact HF|].
    pose proof (ten_pos (Z.of_N p)) as T.
    assert (0 <= IZR (Zpos m) / ten (Z.of_N p) <= 1).
    { split; [apply Rle_mult_inv_pos; [apply IZR_le; lia|exact T]|]. apply Rmult_le_reg_r with (ten (Z.of_N p)); [exact T|].
      unfold Rdiv. rewrite Rmult_assoc, Rinv_l by lra. rewrite ten_IZR by lia. rewrite Rmult_1_r, Rmult_1_l. apply IZR_le. lia. }
    rewrite Rabs_mult. rewrite (Rabs_pos_eq (IZR _ / _)) by lra.
    destruct b; [rewrite Rabs_left by lra|rewrite Rabs_pos_eq by lra]; lra.
Qed.

(* roundings below one are off by a quarter of the distance of one to the next number *)
Lemma rnd_below F v : fmt_ok F -> 0 <= v < 1 -> Rabs (rnd F v - v) <= / 2 * u F.
Proof.
  intros HF [H0 H1]. destruct (Req_dec v 0) as [->|Nz].
  { rewrite rnd_0. rewrite Rminus_0_r, Rabs_R0. pose proof (u_pos F). lra. }
  pose proof (fx_valid F HF) as VE. pose proof (@error_le_half_ulp radix2 (fx F) VE (fun x => negb (Z.even x)) v) as E.
  unfold rnd. eapply Rle_trans; [exact E|]. apply Rmult_le_compat_l; [lra|]. rewrite ulp_neq_0 by exact Nz. unfold u. apply bpow_le. unfold cexp.
  assert (M : (mag radix2 v <= 0)%Z) by (apply mag_le_bpow; [exact Nz|rewrite Rabs_pos_eq by exact H0; exact H1]).
  unfold fx, SpecFloat.fexp. destruct HF as [->| ->]; cbn; lia.
Qed.

Lemma rnd_1 F : fmt_ok F -> rnd F 1 = 1.
Proof.
  intros HF. pose proof (rnd_bpow F 0 HF) as Y. change (bpow radix2 0) with 1 in Y. apply Y. destruct HF as [->| ->]; cbn; lia.
Qed.

(* what is less than halfway between one and the number below *)
Lemma rnd_pred F v : fmt_ok F -> v < 1 - / 2 * u F -> rnd F v <= 1 - u F.
Proof.
  intros HF H. pose proof (fx_valid F HF) as VE.
  assert (G1 : generic_format radix2 (fx F) (bpow radix2 0)).
  { apply generic_format_bpow. unfold fx, SpecFloat.fexp. destruct HF as [->| ->]; cbn; lia. }
  assert (P : pred radix2 (fx F) (bpow radix2 0) = 1 - u F).
  { rewrite pred_bpow by exact VE. change (bpow radix2 0) with 1. unfold u. f_equal. f_equal. unfold fx, SpecFloat.fexp.
    destruct HF as [->| ->]; reflexivity. }
  rewrite <- P. unfold rnd. apply round_N_le_midp; [exact VE|apply generic_format_pred; [exact VE|exact G1]|].
  rewrite succ_pred by (try exact VE; exact G1). rewrite P. change (bpow radix2 0) with 1. lra.
Qed.

(* 10^p is not a power of two *)
Lemma ten_two F p : fmt_ok F -> (1 <= p)%N -> (10 ^ Z.of_N p < 2 ^ f_prec F \/ 2 ^ f_prec F < 10 ^ Z.of_N p)%Z.
Proof.
  intros [->| ->] Hp; cbn [f_prec FLT DBL].
  - destruct (Z.le_gt_cases (Z.of_N p) 7) as [H|H].
    + left. apply Z.le_lt_trans with (10 ^ 7)%Z; [apply Z.pow_le_mono_r; lia|reflexivity].
    + right. apply Z.lt_le_trans with (10 ^ 8)%Z; [reflexivity|apply Z.pow_le_mono_r; lia].
  - destruct (Z.le_gt_cases (Z.of_N p) 15) as [H|H].
    + left. apply Z.le_lt_trans with (10 ^ 15)%Z; [apply Z.pow_le_mono_r; lia|reflexivity].
    + right. apply Z.lt_le_trans with (10 ^ 16)%Z; [reflexivity|apply Z.pow_le_mono_r; lia].
Qed.

Lemma u_inv F : fmt_ok F -> u F * IZR (2 ^ f_prec F) = 1.
Proof.
  intros HF. unfold u. rewrite <- two_IZR by (destruct HF as [->| ->]; cbn; lia). rewrite Rmult_comm. apply two_inv.
Qed.

(* the printed number *)
Definition dec (p : N) (x : spec_float) : Z := ZnearestE (Rabs (val x) * ten (Z.of_N p)).
Lemma dec_scaled p s m e : scaled m e p = dec p (S754_finite s m e).
Proof. unfold dec. rewrite abs_val. apply scaled_spec. Qed.
Lemma dec_near p x : Rabs (IZR (dec p x) - Rabs (val x) * ten (Z.of_N p)) <= / 2.
Proof.
  pose proof (Znearest_half (fun x => negb (Z.even x)) (Rabs (val x) * ten (Z.of_N p))) as H. rewrite Rabs_minus_sym in H. exact H.
Qed.
Lemma dec_pos p x : (0 <= dec p x)%Z.
Proof.
  unfold dec. rewrite <- (nearest_IZR 0). apply nearest_le. apply Rmult_le_pos; [apply Rabs_pos|apply Rlt_le, ten_pos].
Qed.
Lemma dec_mono p x y : Rabs (val x) <= Rabs (val y) -> (dec p x <= dec p y)%Z.
Proof. intros H. apply nearest_le. apply Rmult_le_compat_r; [apply Rlt_le, ten_pos|exact H]. Qed.

(* the digits after the point leave room below one *)
Lemma frac_room F s m e p : fmt_ok F -> valid F (S754_finite s m e) -> (1 <= p)%N ->
  let P := ten (Z.of_N p) in let f := (dec p (S754_finite s m e) mod 10 ^ Z.of_N p)%Z in
  IZR f <= P * (1 - u F) + / 2.
Proof.
  intros HF V Hp P f. set (M := dec p (S754_finite s m e)) in *.
  pose proof (dec_pos p (S754_finite s m e)) as M0. fold M in M0.
  pose proof (dec_near p (S754_finite s m e)) as Nr. fold M in Nr. rewrite abs_val, pw2 in Nr. fold P in Nr.
  assert (EP : P = IZR (10 ^ Z.of_N p)) by (apply ten_IZR; lia).
  assert (Pp : (10 <= 10 ^ Z.of_N p)%Z) by (change 10%Z with (10 ^ 1)%Z at 1; apply Z.pow_le_mono_r; lia).
  pose proof (Z.div_mod M (10 ^ Z.of_N p) ltac:(lia)) as DM. pose proof (Z.mod_pos_bound M (10 ^ Z.of_N p) ltac:(lia)) as FB. fold f in DM, FB.
  set (J := (M / 10 ^ Z.of_N p)%Z) in *. set (Q := (10 ^ Z.of_N p)%Z) in *.
  assert (RP : 10 <= P) by (rewrite EP; apply IZR_le; exact Pp).
  destruct (u_range F HF) as [U1 U2]. assert (Ub : u F <= / 4) by (rewrite b24 in U2; lra). pose proof (u_pos F) as U0.
  assert (Mb : (Zpos m < 2 ^ f_prec F)%Z).
  { assert (E : (2 ^ f_prec F = 2 * 2 ^ (f_prec F - 1))%Z) by (destruct HF as [->| ->]; reflexivity).
    assert (0 < 2 ^ (f_prec F - 1))%Z by (destruct HF as [->| ->]; reflexivity).
    apply valid_finite in V; [|exact HF]. rewrite E. destruct V as [[V _]|[V _]]; lia. }
  destruct (Z.le_gt_cases 0 e) as [E0|E0].
  - (* an integer *)
    assert (M = Zpos m * 2 ^ e * Q)%Z.
    { unfold M, dec. rewrite abs_val, pw2, two_IZR by exact E0. fold P. rewrite EP. fold Q. rewrite <- !mult_IZR. apply nearest_IZR. }
    assert (f = 0%Z) by (unfold f; rewrite H; apply Z.mod_mul; lia). rewrite H0. nra.
  - destruct (Z.le_gt_cases (- e) (f_prec F)) as [Ep|Ep].
    + set (D := (2 ^ (- e))%Z). assert (D0 : (0 < D)%Z) by (apply Z.pow_pos_nonneg; lia).
      assert (ED : bpow radix2 e * IZR D = 1) by (unfold D; rewrite <- two_IZR by lia; apply two_inv).
      assert (RD : 0 < IZR D) by (apply IZR_lt; exact D0).
      assert (UD : 1 <= / (u F) * bpow radix2 e).
      { unfold u. rewrite <- bpow_opp, <- bpow_plus. change 1 with (bpow radix2 0). apply bpow_le. lia. }
      assert (UD2 : u F <= bpow radix2 e). { apply Rmult_le_reg_l with (/ u F); [apply Rinv_0_lt_compat; exact U0|]. rewrite Rinv_l by lra. exact UD. }
      (* twice the numerators *)
      assert (N2 : Rabs (2 * (IZR M * IZR D - IZR (Zpos m) * P)) <= IZR D).
      { replace (2 * (IZR M * IZR D - IZR (Zpos m) * P)) with (2 * IZR D * (IZR M - IZR (Zpos m) * bpow radix2 e * P)).
        2: { replace (2 * IZR D * (IZR M - IZR (Zpos m) * bpow radix2 e * P)) with (2 * (IZR M * IZR D - IZR (Zpos m) * P * (bpow radix2 e * IZR D))) by ring. rewrite ED. ring. }
        rewrite Rabs_mult, (Rabs_pos_eq (2 * IZR D)) by lra. nra. }
      rewrite EP in N2. rewrite <- !mult_IZR, <- minus_IZR, <- mult_IZR, <- abs_IZR in N2. apply le_IZR in N2.
      set (k := (Zpos m - J * D)%Z).
      assert (Kb : (k <= D - 1)%Z).
      { assert (2 * (k * Q) <= 2 * (f * D) + D)%Z by (unfold k; nia). nia. }
      assert (Fb : (2 * (f * D) <= 2 * (Q * (D - 1)) + D)%Z).
      { assert (2 * (f * D) <= 2 * (k * Q) + D)%Z by (unfold k; nia). nia. }
      apply IZR_le in Fb. rewrite plus_IZR, !mult_IZR, minus_IZR, <- EP in Fb.
      (* f <= P - P/D + 1/2 *)
      assert (G : IZR f <= P * (1 - bpow radix2 e) + / 2).
      { apply Rmult_le_reg_r with (2 * IZR D); [lra|].
        replace ((P * (1 - bpow radix2 e) + / 2) * (2 * IZR D)) with (2 * P * IZR D - 2 * P * (bpow radix2 e * IZR D) + IZR D) by field. rewrite ED. nra. }
      nra.
    + (* less than one half *)
      assert (B : IZR (Zpos m) * bpow radix2 e <= / 2).
      { apply Rle_trans with (bpow radix2 (f_prec F) * bpow radix2 e).
        - apply Rmult_le_compat_r; [apply bpow_ge_0|]. rewrite two_IZR by (destruct HF as [->| ->]; cbn; lia). apply IZR_le. lia.
        - rewrite <- bpow_plus. change (/ 2) with (bpow radix2 (-1)). apply bpow_le. lia. }
      assert (M = f \/ (Q <= M)%Z).
      { destruct (Z.lt_ge_cases M Q) as [L|G]; [left; unfold f; symmetry; apply Z.mod_small; lia|right; exact G]. }
      assert (IZR M <= / 2 * P + / 2).
      { apply Rabs_le_inv in Nr. nra. }
      destruct H as [H|H]; [rewrite <- H; nra|]. apply IZR_le in H. rewrite <- EP in H. lra.
Qed.

(* the digits after the point as they are written: no carry *)
Definition frac (F : fmt) (p : N) (f : Z) : Z := ZnearestE (rnd F (IZR f / ten (Z.of_N p)) * ten (Z.of_N p)).
Lemma frac_pos F p f : fmt_ok F -> (0 <= f)%Z -> (0 <= frac F p f)%Z.
Proof.
  intros HF H. unfold frac. rewrite <- (nearest_IZR 0) at 1. apply nearest_le. pose proof (ten_pos (Z.of_N p)) as T. apply Rmult_le_pos; [|lra].
  rewrite <- (rnd_0 F). apply rnd_le; [exact HF|]. apply Rle_mult_inv_pos; [apply IZR_le; exact H|exact T].
Qed.
Lemma frac_le F p f g : fmt_ok F -> (f <= g)%Z -> (frac F p f <= frac F p g)%Z.
Proof.
  intros HF H. pose proof (ten_pos (Z.of_N p)) as T. apply nearest_le. apply Rmult_le_compat_r; [lra|]. apply rnd_le; [exact HF|].
  apply Rmult_le_compat_r; [apply Rlt_le, Rinv_0_lt_compat; exact T|apply IZR_le; exact H].
Qed.
Lemma frac_below F s m e p : fmt_ok F -> valid F (S754_finite s m e) -> (1 <= p)%N ->
  (frac F p (dec p (S754_finite s m e) mod 10 ^ Z.of_N p) < 10 ^ Z.of_N p)%Z.
Proof.
  intros HF V Hp. pose proof (frac_room F s m e p HF V Hp) as R. cbv zeta in R.
  set (f := (dec p (S754_finite s m e) mod 10 ^ Z.of_N p)%Z) in *. set (P := ten (Z.of_N p)) in *.
  assert (EP : P = IZR (10 ^ Z.of_N p)) by (apply ten_IZR; lia).
  assert (Pp : (10 <= 10 ^ Z.of_N p)%Z) by (change 10%Z with (10 ^ 1)%Z at 1; apply Z.pow_le_mono_r; lia).
  assert (FB : (0 <= f < 10 ^ Z.of_N p)%Z) by (apply Z.mod_pos_bound; lia).
  set (Q := (10 ^ Z.of_N p)%Z) in *. assert (P0 : 10 <= P) by (rewrite EP; apply IZR_le; exact Pp).
  assert (F0 : 0 <= IZR f) by (apply IZR_le; lia). assert (F1 : IZR f <= P - 1) by (rewrite EP, <- minus_IZR; apply IZR_le; lia).
  pose proof (u_pos F) as U0. pose proof (u_inv F HF) as UI.
  unfold frac. fold P. set (v := IZR f / P).
  assert (EV : v * P = IZR f) by (unfold v; field; lra).
  assert (V0 : 0 <= v) by (unfold v; apply Rle_mult_inv_pos; lra). assert (V1 : v < 1) by nra.
  destruct (ten_two F p HF Hp) as [C|C]; fold Q in C.
  - (* few digits *)
    pose proof (rnd_below F v HF (conj V0 V1)) as E. apply Rabs_le_inv in E.
    assert (U1 : u F * P < 1). { apply IZR_lt in C. rewrite <- EP in C. rewrite <- UI. apply Rmult_lt_compat_l; [exact U0|exact C]. }
    assert (X : rnd F v * P < P - / 2) by nra.
    assert (ZnearestE (rnd F v * P) <= Q - 1)%Z; [|lia]. apply Z.lt_succ_r. apply lt_IZR.
    pose proof (Znearest_half (fun x => negb (Z.even x)) (rnd F v * P)) as H. apply Rabs_le_inv in H.
    change (Znearest (fun x => negb (Z.even x))) with ZnearestE in H. rewrite succ_IZR, minus_IZR, <- EP. lra.
  - (* many digits *)
    assert (U1 : 1 < u F * P). { apply IZR_lt in C. rewrite <- EP in C. rewrite <- UI. apply Rmult_lt_compat_l; [exact U0|exact C]. }
    assert (X : v < 1 - / 2 * u F) by nra.
    pose proof (rnd_pred F v HF X) as Y.
    assert (ZnearestE (rnd F v * P) <= Q - 1)%Z; [|lia]. rewrite <- (nearest_IZR (Q - 1)). apply nearest_le. rewrite minus_IZR, <- EP. nra.
Qed.
