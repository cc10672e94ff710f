(* Arithmetic of the bucket generators as rounded arithmetic on real numbers *)
From Verif Require Import ModelBytes ModelHist ModelElen ModelFloat ModelGen SpecFp ProofFpBase ProofFpBits ProofFpMant.
From Coq Require Import Reals Psatz.
From Flocq Require Import Core Operations BinarySingleNaN.
Local Open Scope R_scope.

(* x is v correctly rounded; beyond the range an infinity *)
Definition rounded (v : R) (x : spec_float) : Prop :=
  valid DBL x /\
  if Rlt_bool (Rabs (rnd DBL v)) (big DBL) then finite_fp x /\ val x = rnd DBL v else x = S754_infinity (Rlt_bool v 0).

Lemma rnd_id v x : valid DBL x -> finite_fp x -> val x = v -> rounded v x.
Proof.
  intros V Fx E. split; [exact V|]. rewrite <- E, (rnd_val DBL x dbl_ok V).
  rewrite Rlt_bool_true by exact (val_big DBL x dbl_ok V). auto.
Qed.

Lemma big_pos : 0 < big DBL. Proof. apply bpow_gt_0. Qed.

Lemma sign_F2R (s : bool) m e : Rlt_bool ((if s then -1 else 1) * IZR (Zpos m) * powerRZ 2 e) 0 = s.
Proof.
  assert (0 < IZR (Zpos m) * powerRZ 2 e).
  { apply Rmult_lt_0_compat; [apply IZR_lt; reflexivity|rewrite pw2; apply bpow_gt_0]. }
  destruct s; [apply Rlt_bool_true|apply Rlt_bool_false]; lra.
Qed.

Lemma round_rounded s m e : rounded (val (S754_finite s m e)) (SpecFloat.binary_round 53 1024 s m e).
Proof.
  rewrite round_equiv.
  pose proof (binary_round_correct _ _ (prec_gt _ dbl_ok) (prec_lt _ dbl_ok) mode_NE s m e) as H.
  cbv zeta in H. destruct H as [V H]. split; [exact V|].
  change (round_mode mode_NE) with ZnearestE in H.
  assert (Ev : F2R {| Fnum := cond_Zopp s (Z.pos m); Fexp := e |} = val (S754_finite s m e)) by (rewrite val_SF2R; reflexivity).
  rewrite Ev in H. unfold rnd, fx, big. cbn [f_prec f_emax DBL] in *.
  destruct (Rlt_bool _ _).
  - destruct H as [H1 [H2 H3]]. split; [apply fin_SF; exact H2|rewrite val_SF2R; exact H1].
  - cbn [val]. rewrite sign_F2R. exact H.
Qed.

Lemma norm_rounded m e s : rounded (IZR m * bpow radix2 e) (SpecFloat.binary_normalize 53 1024 m e s).
Proof.
  destruct m as [|m|m]; cbn [SpecFloat.binary_normalize].
  - apply rnd_id; [reflexivity|exact I|]. cbn [val]. rewrite Rmult_0_l. reflexivity.
  - replace (IZR (Z.pos m) * bpow radix2 e) with (val (S754_finite false m e)) by (cbn [val]; rewrite pw2; ring). apply round_rounded.
  - replace (IZR (Z.neg m) * bpow radix2 e) with (val (S754_finite true m e))
      by (cbn [val]; rewrite pw2; change (Z.neg m) with (- Z.pos m)%Z; rewrite opp_IZR; ring). apply round_rounded.
Qed.

Lemma shl_val s m e ez : (ez <= e)%Z ->
  IZR (cond_Zopp s (Zpos (fst (shl_align m e ez)))) * bpow radix2 ez = val (S754_finite s m e).
Proof.
  intros H. pose proof (shl_align_correct m e ez) as Hc.
  destruct (shl_align m e ez) as [m' e'] eqn:E. destruct Hc as [Hc1 Hc2]. cbn [fst].
  assert (E' : e' = ez).
  { unfold shl_align in E. destruct (ez - e)%Z eqn:Ed; injection E as <- <-; lia. }
  subst e'. rewrite val_SF2R. cbn [SF2R]. unfold F2R in *. cbn [Fnum Fexp] in *.
  destruct s; cbn [cond_Zopp].
  - change (Z.neg m') with (- Z.pos m')%Z. change (Z.neg m) with (- Z.pos m)%Z. rewrite !opp_IZR. rewrite !Ropp_mult_distr_l_reverse. f_equal. symmetry. exact Hc1.
  - symmetry. exact Hc1.
Qed.

Lemma opp_valid s m e : valid DBL (S754_finite s m e) -> valid DBL (S754_finite (negb s) m e). Proof. exact (fun H => H). Qed.
Lemma opp_val s m e : val (S754_finite (negb s) m e) = - val (S754_finite s m e).
Proof. cbn [val]. destruct s; cbn [negb]; ring. Qed.

Lemma dadd_rounded x y : valid DBL x -> valid DBL y -> finite_fp x -> finite_fp y -> rounded (val x + val y) (dadd x y).
Proof.
  intros Vx Vy Fx Fy. destruct x as [sx|sx| |sx mx ex]; try contradiction; destruct y as [sy|sy| |sy my ey]; try contradiction;
    unfold dadd, SFadd.
  - apply rnd_id; [destruct (Bool.eqb sx sy); reflexivity|destruct (Bool.eqb sx sy); exact I|]. destruct (Bool.eqb sx sy); cbn [val]; ring.
  - apply rnd_id; [exact Vy|exact I|]. cbn [val]. ring.
  - apply rnd_id; [exact Vx|exact I|]. cbn [val]. ring.
  - cbv zeta. set (ez := Z.min ex ey). rewrite <- (shl_val sx mx ex ez), <- (shl_val sy my ey ez) by lia.
    rewrite <- Rmult_plus_distr_r, <- plus_IZR. apply norm_rounded.
Qed.

Lemma dsub_rounded x y : valid DBL x -> valid DBL y -> finite_fp x -> finite_fp y -> rounded (val x - val y) (dsub x y).
Proof.
  intros Vx Vy Fx Fy. destruct x as [sx|sx| |sx mx ex]; try contradiction; destruct y as [sy|sy| |sy my ey]; try contradiction;
    unfold dsub, SFsub.
  - apply rnd_id; [destruct (Bool.eqb sx (negb sy)); reflexivity|destruct (Bool.eqb sx (negb sy)); exact I|]. destruct (Bool.eqb sx (negb sy)); cbn [val]; ring.
  - apply rnd_id; [exact (opp_valid _ _ _ Vy)|exact I|]. rewrite opp_val. cbn [val]. ring.
  - apply rnd_id; [exact Vx|exact I|]. cbn [val]. ring.
  - cbv zeta. set (ez := Z.min ex ey). rewrite <- (shl_val sx mx ex ez), <- (shl_val sy my ey ez) by lia.
    rewrite <- Rmult_minus_distr_r, <- minus_IZR. apply norm_rounded.
Qed.

Lemma val_fin_pos s m e : val (S754_finite s m e) <> 0.
Proof. apply nonzero_val'. exact I. Qed.

Lemma ddiv_rounded x y : valid DBL x -> valid DBL y -> finite_fp x -> nonzero_fp y -> rounded (val x / val y) (ddiv x y).
Proof.
  intros Vx Vy Fx Fy. destruct y as [sy|sy| |sy my ey]; try contradiction. destruct x as [sx|sx| |sx mx ex]; try contradiction; unfold ddiv.
  - cbn [SFdiv]. apply rnd_id; [reflexivity|exact I|]. cbn [val]. unfold Rdiv. ring.
  - pose proof (Bdiv_correct_aux _ _ (prec_gt _ dbl_ok) (prec_lt _ dbl_ok) mode_NE sx mx ex sy my ey) as H. cbv zeta in H.
    assert (Ez : SFdiv 53 1024 (S754_finite sx mx ex) (S754_finite sy my ey) = let '(mz, ez, lz) := SFdiv_core_binary (f_prec DBL) (f_emax DBL) (Zpos mx) ex (Zpos my) ey in
      BinarySingleNaN.binary_round_aux (f_prec DBL) (f_emax DBL) mode_NE (xorb sx sy) mz ez lz).
    { unfold SFdiv. change 53%Z with (f_prec DBL). change 1024%Z with (f_emax DBL). destruct (SFdiv_core_binary _ _ _ _ _ _) as [[mz ez] lz]. apply round_aux_equiv. }
    rewrite <- Ez in H. clear Ez. destruct H as [V H]. split; [exact V|].
    change (round_mode mode_NE) with ZnearestE in H.
    change (F2R {| Fnum := cond_Zopp sx (Z.pos mx); Fexp := ex |}) with (SF2R radix2 (S754_finite sx mx ex)) in H.
    change (F2R {| Fnum := cond_Zopp sy (Z.pos my); Fexp := ey |}) with (SF2R radix2 (S754_finite sy my ey)) in H.
    rewrite <- !val_SF2R in H. unfold rnd, fx, big. destruct (Rlt_bool _ _).
    + destruct H as [H1 [H2 H3]]. split; [apply fin_SF; exact H2|rewrite <- H1; reflexivity].
    + rewrite H. cbn [binary_overflow overflow_to_inf]. f_equal. symmetry.
      pose proof (sign_F2R sx mx ex) as S1. pose proof (sign_F2R sy my ey) as S2. cbn [val].
      set (a := (if sx then -1 else 1) * IZR (Z.pos mx) * powerRZ 2 ex) in *.
      set (b := (if sy then -1 else 1) * IZR (Z.pos my) * powerRZ 2 ey) in *.
      assert (Ha : a <> 0) by exact (val_fin_pos sx mx ex). assert (Hb : b <> 0) by exact (val_fin_pos sy my ey).
      destruct (Rlt_bool_spec a 0) as [A|A], (Rlt_bool_spec b 0) as [B|B]; subst sx sy; cbn [xorb];
        [apply Rlt_bool_false|apply Rlt_bool_true|apply Rlt_bool_true|apply Rlt_bool_false].
      * replace (a / b) with ((- a) * / (- b)) by (field; lra). apply Rlt_le, Rmult_lt_0_compat; [lra|apply Rinv_0_lt_compat; lra].
      * replace (a / b) with (- ((- a) * / b)) by (field; lra). apply Ropp_lt_gt_0_contravar, Rmult_lt_0_compat; [lra|apply Rinv_0_lt_compat; lra].
      * replace (a / b) with (- (a * / (- b))) by (field; lra). apply Ropp_lt_gt_0_contravar, Rmult_lt_0_compat; [lra|apply Rinv_0_lt_compat; lra].
      * apply Rlt_le, Rmult_lt_0_compat; [lra|apply Rinv_0_lt_compat; lra].
Qed.

Lemma dsqrt_spec x : valid DBL x -> finite_fp x -> 0 <= val x ->
  finite_fp (dsqrt x) /\ valid DBL (dsqrt x) /\ val (dsqrt x) = rnd DBL (sqrt (val x)).
Proof.
  intros V Fx Hx. destruct x as [s|s| |s m e]; try contradiction; unfold dsqrt.
  - cbn [SFsqrt]. split; [exact I|]. split; [reflexivity|]. cbn [val]. rewrite sqrt_0, rnd_0. reflexivity.
  - destruct s.
    { pose proof (sign_F2R true m e) as S1. destruct (Rlt_bool_spec (val (S754_finite true m e)) 0) as [A|A]; [lra|].
      cbn [val] in A. apply Rlt_bool_false in A. congruence. }
    pose proof (Bsqrt_correct_aux _ _ (prec_gt _ dbl_ok) (prec_lt _ dbl_ok) mode_NE m e V) as H. cbv zeta in H.
    assert (Ez : SFsqrt 53 1024 (S754_finite false m e) = let '(mz, ez, lz) := SFsqrt_core_binary (f_prec DBL) (f_emax DBL) (Zpos m) e in
      BinarySingleNaN.binary_round_aux (f_prec DBL) (f_emax DBL) mode_NE false mz ez lz).
    { unfold SFsqrt. change 53%Z with (f_prec DBL). change 1024%Z with (f_emax DBL). destruct (SFsqrt_core_binary _ _ _ _) as [[mz ez] lz]. apply round_aux_equiv. }
    rewrite <- Ez in H. clear Ez. destruct H as [H0 [H1 [H2 _]]].
    split; [apply fin_SF; exact H2|]. split; [exact H0|]. rewrite val_SF2R, H1. rewrite val_SF2R. reflexivity.
Qed.

(* a value known to round within the range *)
Lemma rounded_in v x : rounded v x -> Rabs (rnd DBL v) < big DBL -> finite_fp x /\ valid DBL x /\ val x = rnd DBL v.
Proof. intros [V H] Hb. rewrite Rlt_bool_true in H by exact Hb. tauto. Qed.

Lemma rnd_int z : (Z.abs z <= 2 ^ 53)%Z -> rnd DBL (IZR z) = IZR z.
Proof.
  intros H. apply round_generic; [apply valid_rnd_N|].
  change (fx DBL) with (FLT_exp (SpecFloat.emin 53 1024) 53).
  destruct (Z.eq_dec (Z.abs z) (2 ^ 53)) as [E|E].
  - assert (G : generic_format radix2 (FLT_exp (SpecFloat.emin 53 1024) 53) (bpow radix2 53)).
    { apply generic_format_bpow. vm_compute. discriminate. }
    assert (Z1 : z = (2 ^ 53)%Z \/ z = (- 2 ^ 53)%Z) by lia.
    destruct Z1 as [->| ->]; [|rewrite opp_IZR; apply generic_format_opp]; change (IZR (2 ^ 53)) with (bpow radix2 53); exact G.
  - apply generic_format_FLT. exists (Float radix2 z 0).
    + unfold F2R. cbn. ring.
    + cbn [Fnum]. change (radix2 ^ 53)%Z with (2 ^ 53)%Z. lia.
    + cbn. vm_compute. discriminate.
Qed.
(* integer multiples of 2^-k *)
Lemma rnd_dyadic z k : (0 <= k <= 1000)%Z -> (Z.abs z < 2 ^ 53)%Z -> rnd DBL (IZR z * bpow radix2 (- k)) = IZR z * bpow radix2 (- k).
Proof.
  intros Hk H. apply round_generic; [apply valid_rnd_N|].
  change (fx DBL) with (FLT_exp (SpecFloat.emin 53 1024) 53).
  apply generic_format_FLT. exists (Float radix2 z (- k)); [reflexivity|exact H|].
  cbn [Fexp]. change (SpecFloat.emin 53 1024) with (-1074)%Z. lia.
Qed.

Lemma big_1024 : big DBL = bpow radix2 1024. Proof. reflexivity. Qed.
Lemma small_big v : Rabs v <= bpow radix2 1023 -> Rabs (rnd DBL v) < big DBL.
Proof.
  intros H. rewrite (rnd_abs DBL v dbl_ok). apply Rle_lt_trans with (bpow radix2 1023).
  - rewrite <- (rnd_bpow DBL 1023 dbl_ok) by (vm_compute; discriminate). apply rnd_le; [exact dbl_ok|exact H].
  - rewrite big_1024. apply bpow_lt. reflexivity.
Qed.

Lemma of_size_spec n : (n < 2 ^ 64)%N -> finite_fp (of_size n) /\ valid DBL (of_size n) /\ val (of_size n) = rnd DBL (IZR (Z.of_N n)).
Proof.
  intros Hn. pose proof (norm_rounded (Z.of_N n) 0 false) as H. rewrite Rmult_1_r in H.
  apply rounded_in; [exact H|]. apply small_big. rewrite Rabs_pos_eq by (apply IZR_le; lia).
  apply Rle_trans with (bpow radix2 64); [change (bpow radix2 64) with (IZR (2 ^ 64)); apply IZR_le; lia|apply bpow_le; lia].
Qed.
Lemma of_size_small n : (n <= 2 ^ 53)%N -> val (of_size n) = IZR (Z.of_N n).
Proof. intros H. destruct (of_size_spec n ltac:(lia)) as (_ & _ & ->). apply rnd_int. lia. Qed.
Lemma of_size_range n : (1 <= n < 2 ^ 64)%N -> 1 <= val (of_size n) <= bpow radix2 64.
Proof.
  intros H. destruct (of_size_spec n ltac:(lia)) as (_ & _ & ->). split.
  - rewrite <- (rnd_int 1) by (vm_compute; discriminate). apply rnd_le; [exact dbl_ok|]. apply IZR_le. lia.
  - rewrite <- (rnd_bpow DBL 64 dbl_ok) by (vm_compute; discriminate). apply rnd_le; [exact dbl_ok|].
    change (bpow radix2 64) with (IZR (2 ^ 64)). apply IZR_le. lia.
Qed.
Lemma of_size_pos n : (1 <= n < 2 ^ 64)%N -> nonzero_fp (of_size n).
Proof.
  intros H. destruct (of_size_spec n ltac:(lia)) as (Fx & _ & _). pose proof (of_size_range n H).
  apply nonzero_val; [exact Fx|lra].
Qed.

Lemma to_size_spec x : finite_fp x -> 0 <= val x < bpow radix2 64 -> to_size x = Ok (Z.to_N (Zfloor (val x))).
Proof.
  intros Fx [H0 H1]. destruct x as [s|s| |s m e]; try contradiction; unfold to_size.
  - cbn [val]. change 0 with (IZR 0). rewrite Zfloor_IZR. reflexivity.
  - destruct s.
    { pose proof (sign_F2R true m e) as S1. apply Rlt_bool_false in H0. cbn [val] in H0. congruence. }
    set (z := if (0 <=? e)%Z then _ else _).
    assert (Ez : Zfloor (val (S754_finite false m e)) = z).
    { unfold z. cbn [val]. rewrite Rmult_1_l, pw2. destruct (Z.leb_spec 0 e) as [He|He].
      - rewrite two_IZR by exact He. rewrite <- mult_IZR. apply Zfloor_IZR.
      - replace (bpow radix2 e) with (/ IZR (2 ^ (- e))).
        + apply Zfloor_div. pose proof (Z.pow_pos_nonneg 2 (- e)). lia.
        + rewrite <- two_IZR by lia. rewrite bpow_opp, Rinv_inv. reflexivity. }
    rewrite Ez. destruct (Z.eqb_spec z 0) as [E0|E0]; [rewrite E0; reflexivity|].
    destruct (Z.ltb_spec z (2 ^ 64)) as [_|Hge]; [reflexivity|]. exfalso.
    assert (bpow radix2 64 <= IZR z) by (change (bpow radix2 64) with (IZR (2 ^ 64)); apply IZR_le; exact Hge).
    pose proof (Zfloor_lb (val (S754_finite false m e))). rewrite Ez in *. lra.
Qed.
