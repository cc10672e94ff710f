(* The model's IEEE operations as correctly rounded operations on real numbers (through Flocq) *)
From Verif Require Import ModelBytes ModelElen ModelFloat SpecFp.
From Coq Require Import Reals Psatz.
From Flocq Require Import Core Operations BinarySingleNaN Relative.
Local Open Scope R_scope.

Lemma pw2 e : powerRZ 2 e = bpow radix2 e.
Proof. rewrite bpow_powerRZ. reflexivity. Qed.

Lemma val_SF2R x : val x = SF2R radix2 x.
Proof.
  destruct x as [s|s| |s m e]; try reflexivity.
  cbn [val SF2R]. unfold F2R. cbn [Fnum Fexp]. rewrite pw2. destruct s; cbn [cond_Zopp]; [|ring].
  change (Z.neg m) with (- Z.pos m)%Z. rewrite opp_IZR. ring.
Qed.

Lemma rne_equiv s m l : round_nearest_even m l = choice_mode mode_NE s m l.
Proof. destruct l as [|[]]; try reflexivity. cbn. unfold Round.cond_incr. destruct (Z.even m); reflexivity. Qed.
Lemma round_aux_equiv p q sx mx ex lx :
  SpecFloat.binary_round_aux p q sx mx ex lx = BinarySingleNaN.binary_round_aux p q mode_NE sx mx ex lx.
Proof.
  unfold SpecFloat.binary_round_aux, BinarySingleNaN.binary_round_aux.
  destruct (shr_fexp _ _ _ _ _) as [mrs' e']. rewrite (rne_equiv sx). reflexivity.
Qed.
Lemma round_equiv p q s m e : SpecFloat.binary_round p q s m e = BinarySingleNaN.binary_round p q mode_NE s m e.
Proof.
  unfold SpecFloat.binary_round, BinarySingleNaN.binary_round, shl_align_fexp.
  destruct (shl_align _ _ _). apply round_aux_equiv.
Qed.

Lemma prec_gt F : fmt_ok F -> Prec_gt_0 (f_prec F).
Proof. intros [->| ->]; reflexivity. Qed.
Lemma prec_lt F : fmt_ok F -> Prec_lt_emax (f_prec F) (f_emax F).
Proof. intros [->| ->]; reflexivity. Qed.
Lemma dbl_ok : fmt_ok DBL. Proof. right; reflexivity. Qed.
Lemma flt_ok : fmt_ok FLT. Proof. left; reflexivity. Qed.

Definition fx (F : fmt) : Z -> Z := SpecFloat.fexp (f_prec F) (f_emax F).
Definition rnd (F : fmt) (v : R) : R := round radix2 (fx F) ZnearestE v.

Lemma fx_valid F : fmt_ok F -> Valid_exp (fx F).
Proof. intros H. exact (FLT_exp_valid _ _ (prec_gt_0_ := prec_gt F H)). Qed.

Lemma fin_SF x : is_finite_SF x = true <-> finite_fp x.
Proof. destruct x; cbn; split; intros; try tauto; discriminate. Qed.

Definition big (F : fmt) : R := bpow radix2 (f_emax F).

Lemma conv_spec F x : fmt_ok F -> finite_fp x -> Rabs (rnd F (val x)) < big F ->
  finite_fp (sf_conv F x) /\ valid F (sf_conv F x) /\ val (sf_conv F x) = rnd F (val x).
Proof.
  intros HF Hx Hb. destruct x as [s|s| |s m e]; cbn in Hx; try contradiction.
  - cbn [sf_conv]. split; [exact I|]. split; [reflexivity|]. cbn [val]. unfold rnd. rewrite round_0; [reflexivity|].
    apply valid_rnd_N.
  - cbn [sf_conv]. rewrite round_equiv.
    pose proof (binary_round_correct _ _ (prec_gt F HF) (prec_lt F HF) mode_NE s m e) as H.
    cbv zeta in H. destruct H as [V H]. rewrite val_SF2R in Hb |- *. cbn [SF2R] in Hb |- *.
    unfold rnd, fx in Hb. change (round_mode mode_NE) with ZnearestE in H.
    rewrite Rlt_bool_true in H by exact Hb. destruct H as [H1 [H2 H3]].
    rewrite val_SF2R. repeat split; [apply fin_SF; exact H2|exact V|exact H1].
Qed.

Lemma dmul_spec x y : valid DBL x -> valid DBL y -> finite_fp x -> finite_fp y ->
  Rabs (rnd DBL (val x * val y)) < big DBL ->
  finite_fp (dmul x y) /\ valid DBL (dmul x y) /\ val (dmul x y) = rnd DBL (val x * val y).
Proof.
  intros Vx Vy Hx Hy Hb.
  assert (Z0 : rnd DBL 0 = 0) by (unfold rnd; apply round_0; apply valid_rnd_N).
  destruct x as [sx|sx| |sx mx ex]; cbn in Hx; try contradiction;
  destruct y as [sy|sy| |sy my ey]; cbn in Hy; try contradiction;
  try (cbn [dmul SFmul]; split; [exact I|]; split; [reflexivity|]; cbn [val];
       rewrite ?Rmult_0_l, ?Rmult_0_r, Z0; reflexivity).
  unfold dmul, SFmul. rewrite round_aux_equiv.
  pose proof (Bmult_correct_aux _ _ (prec_gt _ dbl_ok) (prec_lt _ dbl_ok) mode_NE sx mx ex Vx sy my ey Vy) as H.
  cbv zeta in H. destruct H as [V H]. rewrite !val_SF2R in Hb |- *. cbn [SF2R] in Hb |- *.
  unfold rnd, fx in Hb. change (round_mode mode_NE) with ZnearestE in H.
  rewrite Rlt_bool_true in H by exact Hb. destruct H as [H1 [H2 H3]].
  rewrite val_SF2R. repeat split; [apply fin_SF; exact H2|exact V|exact H1].
Qed.

Lemma ratio_spec F s n d : fmt_ok F ->
  let z := SFdiv (f_prec F) (f_emax F) (S754_finite s n 0) (S754_finite false d 0) in
  let v := (if s then -1 else 1) * (IZR (Zpos n) / IZR (Zpos d)) in
  Rabs (rnd F v) < big F -> finite_fp z /\ valid F z /\ val z = rnd F v.
Proof.
  intros HF z v Hb.
  pose proof (Bdiv_correct_aux _ _ (prec_gt F HF) (prec_lt F HF) mode_NE s n 0 false d 0) as H.
  cbv zeta in H.
  assert (Ez : z = let '(mz, ez, lz) := SFdiv_core_binary (f_prec F) (f_emax F) (Zpos n) 0 (Zpos d) 0 in
    BinarySingleNaN.binary_round_aux (f_prec F) (f_emax F) mode_NE (xorb s false) mz ez lz).
  { unfold z, SFdiv. destruct (SFdiv_core_binary _ _ _ _ _ _) as [[mz ez] lz]. apply round_aux_equiv. }
  rewrite <- Ez in H. destruct H as [V H].
  assert (Ev : F2R (Float radix2 (cond_Zopp s (Z.pos n)) 0) / F2R (Float radix2 (cond_Zopp false (Z.pos d)) 0) = v).
  { unfold v, F2R. cbn [Fnum Fexp bpow cond_Zopp]. rewrite !Rmult_1_r. unfold Rdiv.
    destruct s; cbn [cond_Zopp]; [|ring]. change (Z.neg n) with (- Z.pos n)%Z. rewrite opp_IZR. ring. }
  rewrite Ev in H. unfold rnd, fx in Hb. change (round_mode mode_NE) with ZnearestE in H.
  rewrite Rlt_bool_true in H by exact Hb. destruct H as [H1 [H2 H3]].
  rewrite val_SF2R. repeat split; [apply fin_SF; exact H2|exact V|exact H1].
Qed.

(* overflow *)
Lemma conv_over F x : fmt_ok F -> nonzero_fp x -> big F <= Rabs (rnd F (val x)) ->
  sf_conv F x = S754_infinity (is_neg x).
Proof.
  intros HF Hx Hb. destruct x as [s|s| |s m e]; cbn in Hx; try contradiction.
  cbn [sf_conv]. rewrite round_equiv.
  pose proof (binary_round_correct _ _ (prec_gt F HF) (prec_lt F HF) mode_NE s m e) as H.
  cbv zeta in H. destruct H as [V H]. rewrite val_SF2R in Hb. cbn [SF2R] in Hb.
  unfold rnd, fx in Hb. change (round_mode mode_NE) with ZnearestE in H.
  rewrite Rlt_bool_false in H by exact Hb. exact H.
Qed.

(* rounding *)
Lemma rnd_le F a b : fmt_ok F -> a <= b -> rnd F a <= rnd F b.
Proof. intros HF H. unfold rnd. apply round_le; [apply fx_valid, HF|apply valid_rnd_N|exact H]. Qed.
Lemma rnd_opp F a : rnd F (- a) = - rnd F a.
Proof. unfold rnd. apply round_NE_opp. Qed.
Lemma rnd_0 F : rnd F 0 = 0.
Proof. unfold rnd. apply round_0, valid_rnd_N. Qed.
Lemma rnd_abs F a : fmt_ok F -> Rabs (rnd F a) = rnd F (Rabs a).
Proof.
  intros HF. destruct (Rle_or_lt 0 a) as [H|H].
  - rewrite (Rabs_pos_eq a) by assumption. apply Rabs_pos_eq. rewrite <- (rnd_0 F). apply rnd_le; assumption.
  - rewrite (Rabs_left a) by assumption. rewrite rnd_opp. apply Rabs_left1. rewrite <- (rnd_0 F).
    apply rnd_le; [assumption|]. apply Rlt_le, H.
Qed.
Lemma rnd_bpow F k : fmt_ok F -> (emin (f_prec F) (f_emax F) <= k)%Z -> rnd F (bpow radix2 k) = bpow radix2 k.
Proof.
  intros HF Hk. unfold rnd. apply round_generic; [apply valid_rnd_N|]. apply generic_format_bpow.
  unfold fx, SpecFloat.fexp. unfold Prec_gt_0 in *. pose proof (prec_gt F HF) as G. unfold Prec_gt_0 in G. lia.
Qed.
Lemma rnd_val F x : fmt_ok F -> valid F x -> rnd F (val x) = val x.
Proof.
  intros HF V. unfold rnd. apply round_generic; [apply valid_rnd_N|]. rewrite val_SF2R.
  destruct x as [s|s| |s m e]; try (apply generic_format_0).
  pose proof (generic_format_B2R _ _ (B754_finite s m e V : binary_float (f_prec F) (f_emax F))) as H. exact H.
Qed.
Lemma val_big F x : fmt_ok F -> valid F x -> Rabs (val x) < big F.
Proof.
  intros HF V. rewrite val_SF2R. destruct x as [s|s| |s m e];
    try (cbn; rewrite Rabs_R0; apply bpow_gt_0).
  exact (abs_B2R_lt_emax _ _ (B754_finite s m e V : binary_float (f_prec F) (f_emax F))).
Qed.
Lemma rnd_err F a : fmt_ok F -> exists eps eta,
  Rabs eps <= bpow radix2 (- f_prec F) /\ Rabs eta <= / 2 * tiny F /\ rnd F a = a * (1 + eps) + eta.
Proof.
  intros HF. pose proof (prec_gt F HF) as G.
  destruct (relative_error_N_FLT'_ex radix2 (emin (f_prec F) (f_emax F)) (f_prec F) G (fun x => negb (Z.even x)) a)
    as [eps [eta [H1 [H2 [_ H4]]]]].
  exists eps, eta. unfold tiny. rewrite pw2. split; [|split; [exact H2|exact H4]].
  eapply Rle_trans; [exact H1|]. pose proof (u_rod1pu_ro_le_u_ro radix2 (f_prec F)) as U.
  eapply Rle_trans; [exact U|]. unfold u_ro. apply Req_le. rewrite bpow_plus.
  change (bpow radix2 1) with 2. field.
Qed.
Lemma rnd_err_normal F a : fmt_ok F -> bpow radix2 (emin (f_prec F) (f_emax F) + f_prec F - 1) <= Rabs a ->
  exists eps, Rabs eps <= bpow radix2 (- f_prec F) /\ rnd F a = a * (1 + eps).
Proof.
  intros HF Ha. pose proof (prec_gt F HF) as G.
  destruct (relative_error_N_FLT_ex radix2 (emin (f_prec F) (f_emax F)) (f_prec F) G (fun x => negb (Z.even x)) a Ha)
    as [eps [H1 H2]].
  exists eps. split; [|exact H2]. eapply Rle_trans; [exact H1|]. apply Req_le. rewrite bpow_plus.
  change (bpow radix2 1) with 2. field.
Qed.
