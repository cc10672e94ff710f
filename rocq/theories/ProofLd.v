(* long double arithmetic as rounded arithmetic on real numbers *)
From Verif Require Import ModelBytes ModelHist ModelElen ModelFloat ModelGen SpecFp ProofFpBase ProofFpBits ProofFpMant ProofGen1 ModelStats ModelDsStats.
From Coq Require Import Reals Psatz.
From Flocq Require Import Core Operations BinarySingleNaN Relative.
Local Open Scope R_scope.

Lemma ld_gt : Prec_gt_0 (f_prec LDBL). Proof. reflexivity. Qed.
Lemma ld_lt : Prec_lt_emax (f_prec LDBL) (f_emax LDBL). Proof. reflexivity. Qed.
#[local] Existing Instance ld_gt.
#[local] Existing Instance ld_lt.
Notation rl := (rnd LDBL).
Lemma fx_ld : Valid_exp (fx LDBL). Proof. exact (FLT_exp_valid _ _ (prec_gt_0_ := ld_gt)). Qed.

Lemma rl_le a b : a <= b -> rl a <= rl b.
Proof. intros H. unfold rnd. apply round_le; [apply fx_ld|apply valid_rnd_N|exact H]. Qed.
Lemma rl_bpow k : (-16000 <= k)%Z -> rl (bpow radix2 k) = bpow radix2 k.
Proof.
  intros Hk. unfold rnd. apply round_generic; [apply valid_rnd_N|]. apply generic_format_bpow.
  unfold fx, SpecFloat.fexp. change (f_prec LDBL) with 64%Z. change (emin 64 (f_emax LDBL)) with (-16445)%Z. lia.
Qed.
Lemma rl_val x : valid LDBL x -> rl (val x) = val x.
Proof.
  intros V. unfold rnd. apply round_generic; [apply valid_rnd_N|]. rewrite val_SF2R.
  destruct x as [s|s| |s m e]; [apply generic_format_0|apply generic_format_0|apply generic_format_0|].
  exact (generic_format_B2R _ _ (B754_finite s m e V : binary_float (f_prec LDBL) (f_emax LDBL))).
Qed.
Lemma rl_big x : valid LDBL x -> Rabs (val x) < big LDBL.
Proof.
  intros V. rewrite val_SF2R. destruct x as [s|s| |s m e]; [cbn [SF2R]; rewrite Rabs_R0; apply bpow_gt_0|cbn [SF2R]; rewrite Rabs_R0; apply bpow_gt_0|cbn [SF2R]; rewrite Rabs_R0; apply bpow_gt_0|].
  exact (abs_B2R_lt_emax _ _ (B754_finite s m e V : binary_float (f_prec LDBL) (f_emax LDBL))).
Qed.
Lemma rl_err a : bpow radix2 (-16000) <= Rabs a -> exists eps, Rabs eps <= bpow radix2 (-64) /\ rl a = a * (1 + eps).
Proof.
  intros Ha.
  destruct (relative_error_N_FLT_ex radix2 (emin 64 16384) 64 ld_gt (fun x => negb (Z.even x)) a) as [eps [H1 H2]].
  { eapply Rle_trans; [|exact Ha]. apply bpow_le. vm_compute. discriminate. }
  exists eps. split; [|exact H2]. eapply Rle_trans; [exact H1|]. apply Req_le. rewrite bpow_plus.
  change (bpow radix2 1) with 2. change (- (64))%Z with (-64)%Z. field.
Qed.
Lemma rl_int z : (Z.abs z <= 2 ^ 64)%Z -> rl (IZR z) = IZR z.
Proof.
  intros H. unfold rnd. apply round_generic; [apply valid_rnd_N|].
  destruct (Z.eq_dec (Z.abs z) (2 ^ 64)) as [E|E].
  - assert (G : generic_format radix2 (fx LDBL) (bpow radix2 64)).
    { apply generic_format_bpow. unfold fx, SpecFloat.fexp. change (f_prec LDBL) with 64%Z. change (emin 64 (f_emax LDBL)) with (-16445)%Z. lia. }
    assert (B : bpow radix2 64 = IZR (2 ^ 64)) by reflexivity.
    assert (z = (2 ^ 64)%Z \/ z = (- 2 ^ 64)%Z) as [-> | ->] by lia.
    + rewrite <- B. exact G.
    + rewrite opp_IZR, <- B. apply generic_format_opp. exact G.
  - apply generic_format_FLT. exists (Float radix2 z 0); [unfold F2R; cbn; ring|cbn [Fnum]; change (Z.abs z < 2 ^ 64)%Z; lia|cbn [Fexp]].
    vm_compute. discriminate.
Qed.

(* correctly rounded, in range *)
Definition is_rl (v : R) (x : spec_float) : Prop := finite_fp x /\ valid LDBL x /\ val x = rl v.
Lemma is_rl_id v x : valid LDBL x -> finite_fp x -> val x = v -> is_rl v x.
Proof. intros V F E. split; [exact F|]. split; [exact V|]. rewrite <- E, (rl_val x V). reflexivity. Qed.

Lemma ld_round s m e : Rabs (rl (val (S754_finite s m e))) < big LDBL -> is_rl (val (S754_finite s m e)) (SpecFloat.binary_round 64 16384 s m e).
Proof.
  intros Hb. rewrite round_equiv.
  pose proof (binary_round_correct _ _ ld_gt ld_lt mode_NE s m e) as H. cbv zeta in H. destruct H as [V H].
  rewrite val_SF2R in Hb |- *. cbn [SF2R] in Hb |- *. unfold rnd, fx in Hb. change (round_mode mode_NE) with ZnearestE in H.
  rewrite Rlt_bool_true in H by exact Hb. destruct H as [H1 [H2 H3]].
  split; [apply fin_SF; exact H2|]. split; [exact V|]. rewrite val_SF2R. exact H1.
Qed.
Lemma ld_norm m e s : Rabs (rl (IZR m * bpow radix2 e)) < big LDBL -> is_rl (IZR m * bpow radix2 e) (SpecFloat.binary_normalize 64 16384 m e s).
Proof.
  destruct m as [|m|m]; cbn [SpecFloat.binary_normalize]; intros Hb.
  - apply is_rl_id; [reflexivity|exact Logic.I|]. cbn [val]. rewrite Rmult_0_l. reflexivity.
  - replace (IZR (Z.pos m) * bpow radix2 e) with (val (S754_finite false m e)) in * by (cbn [val]; rewrite pw2; ring). apply ld_round. exact Hb.
  - replace (IZR (Z.neg m) * bpow radix2 e) with (val (S754_finite true m e)) in *
      by (cbn [val]; rewrite pw2; change (Z.neg m) with (- Z.pos m)%Z; rewrite opp_IZR; ring). apply ld_round. exact Hb.
Qed.
Lemma ladd_spec x y : valid LDBL x -> valid LDBL y -> finite_fp x -> finite_fp y -> Rabs (rl (val x + val y)) < big LDBL -> is_rl (val x + val y) (ladd x y).
Proof.
  intros Vx Vy Fx Fy Hb. destruct x as [sx|sx| |sx mx ex]; try contradiction; destruct y as [sy|sy| |sy my ey]; try contradiction; unfold ladd, SFadd.
  - apply is_rl_id; [destruct (Bool.eqb sx sy); reflexivity|destruct (Bool.eqb sx sy); exact Logic.I|]. destruct (Bool.eqb sx sy); cbn [val]; ring.
  - apply is_rl_id; [exact Vy|exact Logic.I|]. cbn [val]. ring.
  - apply is_rl_id; [exact Vx|exact Logic.I|]. cbn [val]. ring.
  - cbv zeta. set (ez := Z.min ex ey) in *. rewrite <- (shl_val sx mx ex ez), <- (shl_val sy my ey ez) in * by lia.
    rewrite <- Rmult_plus_distr_r, <- plus_IZR in *. apply ld_norm. exact Hb.
Qed.
Lemma ldiv_spec x y : valid LDBL x -> valid LDBL y -> finite_fp x -> nonzero_fp y -> Rabs (rl (val x / val y)) < big LDBL -> is_rl (val x / val y) (ldiv x y).
Proof.
  intros Vx Vy Fx Fy Hb. destruct y as [sy|sy| |sy my ey]; try contradiction. destruct x as [sx|sx| |sx mx ex]; try contradiction; unfold ldiv.
  - cbn [SFdiv]. apply is_rl_id; [reflexivity|exact Logic.I|]. cbn [val]. unfold Rdiv. ring.
  - pose proof (Bdiv_correct_aux _ _ ld_gt ld_lt mode_NE sx mx ex sy my ey) as H. cbv zeta in H.
    assert (Ez : SFdiv 64 16384 (S754_finite sx mx ex) (S754_finite sy my ey) = let '(mz, ez, lz) := SFdiv_core_binary (f_prec LDBL) (f_emax LDBL) (Zpos mx) ex (Zpos my) ey in
      BinarySingleNaN.binary_round_aux (f_prec LDBL) (f_emax LDBL) mode_NE (xorb sx sy) mz ez lz).
    { unfold SFdiv. change 64%Z with (f_prec LDBL). change 16384%Z with (f_emax LDBL). destruct (SFdiv_core_binary _ _ _ _ _ _) as [[mz ez] lz]. apply round_aux_equiv. }
    rewrite <- Ez in H. clear Ez. destruct H as [V H].
    change (round_mode mode_NE) with ZnearestE in H.
    change (F2R {| Fnum := cond_Zopp sx (Z.pos mx); Fexp := ex |}) with (SF2R radix2 (S754_finite sx mx ex)) in H.
    change (F2R {| Fnum := cond_Zopp sy (Z.pos my); Fexp := ey |}) with (SF2R radix2 (S754_finite sy my ey)) in H.
    rewrite <- !val_SF2R in H. rewrite Rlt_bool_true in H by exact Hb. destruct H as [H1 [H2 H3]].
    split; [apply fin_SF; exact H2|]. split; [exact V|]. exact H1.
Qed.

Lemma big_ld v : Rabs v <= bpow radix2 16383 -> Rabs (rl v) < big LDBL.
Proof.
  intros H. apply Rle_lt_trans with (bpow radix2 16383); [|unfold big; apply bpow_lt; reflexivity].
  rewrite <- (rl_bpow 16383) by lia. destruct (Rle_or_lt 0 v) as [P|P].
  - rewrite Rabs_pos_eq in H by exact P. rewrite Rabs_pos_eq; [apply rl_le; exact H|]. rewrite <- (rnd_0 LDBL). apply rl_le, P.
  - rewrite Rabs_left in H by exact P. rewrite Rabs_left1; [|rewrite <- (rnd_0 LDBL); apply rl_le; lra].
    rewrite <- rnd_opp. apply rl_le. exact H.
Qed.
Lemma ld_of_spec n : (n < 2 ^ 64)%N -> finite_fp (ld_of n) /\ valid LDBL (ld_of n) /\ val (ld_of n) = IZR (Z.of_N n).
Proof.
  intros H. assert (A : (Z.abs (Z.of_N n) <= 2 ^ 64)%Z) by lia.
  pose proof (ld_norm (Z.of_N n) 0 false) as X. change (bpow radix2 0) with 1 in X. rewrite !Rmult_1_r in X.
  destruct X as (F & V & E).
  - apply big_ld. rewrite <- abs_IZR. apply Rle_trans with (IZR (2 ^ 64)); [apply IZR_le; exact A|].
    change (IZR (2 ^ 64)) with (bpow radix2 64). apply bpow_le. lia.
  - split; [exact F|]. split; [exact V|]. unfold ld_of. rewrite E. apply rl_int. exact A.
Qed.
Lemma ld_nz x : finite_fp x -> val x <> 0 -> nonzero_fp x.
Proof. destruct x; cbn; auto. Qed.
