(* The logarithmic rule; log2, cbrt and log as assumed exist *)
From Verif Require Import ModelBytes ProofBytes ModelHist ModelElen ModelFloat ModelGen SpecHist SpecFp SpecGen ProofFpBase ProofFpBits ProofFpMant ProofGen1 ProofGen2 ProofGen3 ProofGen4.
From Coq Require Import Reals Psatz.
From Flocq Require Import Core BinarySingleNaN.
Local Notation is_finite := SpecHist.is_finite.
Local Notation covering := SpecGen.covering.
Local Open Scope R_scope.

Lemma fp_range v x (a b : Z) : rounded v x -> (-1000 <= a)%Z -> (b <= 1000)%Z -> bpow radix2 a <= v <= bpow radix2 b ->
  finite_fp x /\ valid DBL x /\ bpow radix2 a <= val x <= bpow radix2 b.
Proof.
  intros R Ha Hb Hv. pose proof (bpow_gt_0 radix2 a) as P. assert (AB : (a <= b)%Z) by (apply (le_bpow radix2); lra).
  destruct (rounded_in _ _ R) as (F & V & E).
  { apply small_big. rewrite Rabs_pos_eq by lra. apply Rle_trans with (bpow radix2 b); [lra|apply bpow_le; lia]. }
  split; [exact F|]. split; [exact V|]. rewrite E.
  apply rnd_range; [apply rnd_bpow; [exact dbl_ok|change (emin (f_prec DBL) (f_emax DBL)) with (-1074)%Z; lia]..|exact Hv].
Qed.

Lemma dmul_rounded x y : valid DBL x -> valid DBL y -> finite_fp x -> finite_fp y ->
  Rabs (val x * val y) <= bpow radix2 1000 -> rounded (val x * val y) (dmul x y).
Proof.
  intros Vx Vy Fx Fy H.
  assert (B : Rabs (rnd DBL (val x * val y)) < big DBL) by (apply small_big; apply Rle_trans with (bpow radix2 1000); [exact H|apply bpow_le; lia]).
  destruct (dmul_spec x y Vx Vy Fx Fy B) as (F & V & E). split; [exact V|]. rewrite Rlt_bool_true by exact B. auto.
Qed.

Lemma log_range G x (k : Z) : good_glibm G -> finite_fp x -> valid DBL x -> 2 <= val x <= bpow radix2 k -> (1 <= k <= 64)%Z ->
  finite_fp (g_log G x) /\ valid DBL (g_log G x) /\ / 4 <= val (g_log G x) <= IZR (k + 1).
Proof.
  intros HG Fx Vx Hx Hk. destruct (log_near G HG x Fx Vx ltac:(lra)) as (F & V & E). split; [exact F|]. split; [exact V|].
  apply Rabs_le_inv in E. pose proof slop_small as S. pose proof ln2_range as L2.
  pose proof (ln_le 2 (val x) ltac:(lra) ltac:(lra)) as A. pose proof (ln_le (val x) (bpow radix2 k) ltac:(lra) ltac:(lra)) as B. rewrite ln_bpow in B.
  assert (1 <= IZR k <= 64) by (split; apply IZR_le; lia). rewrite plus_IZR. split; nra.
Qed.

Lemma base_facts b : (2 <= b <= 1024)%N -> finite_fp (of_size b) /\ valid DBL (of_size b) /\ 2 <= val (of_size b) <= bpow radix2 10.
Proof.
  intros Hb. destruct (of_size_spec b ltac:(lia)) as (F & V & _). split; [exact F|]. split; [exact V|].
  rewrite of_size_small by lia. change (bpow radix2 10) with (IZR 1024). split; apply IZR_le; lia.
Qed.

Lemma logn_covers G b x l : good_glibm G -> (2 <= b <= 1024)%N -> Forall is_finite (x :: l) ->
  finite_fp (spread x l) -> 2 <= val (spread x l) <= bpow radix2 50 ->
  exists bs, gen_logn G b (Some (x :: l)) = Ok (Some bs) /\ covers (x :: l) bs.
Proof.
  intros HG Hb Hf Fs Hs. inversion Hf as [|? ? Hx Hl]; subst.
  destruct (spread_rounded x l Hx Hl) as [[Vs _] _].
  destruct (base_facts b Hb) as (Fb & Vb & Rb).
  destruct (log_range G _ 10 HG Fb Vb Rb ltac:(lia)) as (F1 & V1 & R1).
  destruct (log_range G _ 50 HG Fs Vs Hs ltac:(lia)) as (F2 & V2 & R2). set (r := spread x l) in *.
  change (bpow radix2 50) with 1125899906842624 in Hs. change (10 + 1)%Z with 11%Z in R1. change (50 + 1)%Z with 51%Z in R2.
  assert (PB : / 2 <= val r * val (g_log G (of_size b)) <= 1125899906842624 * 11).
  { split; [replace (/ 2) with (2 * / 4) by lra; apply Rmult_le_compat; lra|apply Rmult_le_compat; lra]. }
  destruct (fp_range (val r * val (g_log G (of_size b))) (dmul r (g_log G (of_size b))) (-2) 60) as (F3 & V3 & R3); [|lia|lia| |].
  { apply dmul_rounded; try assumption. rewrite Rabs_pos_eq by lra. apply Rle_trans with (bpow radix2 60); [|apply bpow_le; lia].
    change (bpow radix2 60) with 1152921504606846976. lra. }
  { change (bpow radix2 60) with 1152921504606846976. change (bpow radix2 (-2)) with (/ 4). lra. }
  assert (N2 : nonzero_fp (g_log G r)) by (apply nonzero_val; [exact F2|lra]).
  destruct (fp_range _ _ (-10) 62 (ddiv_rounded _ _ V3 V2 F3 N2)) as (F4 & V4 & R4); [lia|lia| |].
  { change (bpow radix2 60) with 1152921504606846976 in R3. change (bpow radix2 (-2)) with (/ 4) in R3.
    change (bpow radix2 62) with 4611686018427387904. change (bpow radix2 (-10)) with (/ 1024).
    set (p := val (dmul _ _)) in *. set (q := val (g_log G r)) in *. split.
    - apply Rmult_le_reg_r with q; [lra|]. unfold Rdiv. rewrite Rmult_assoc, Rinv_l by lra. lra.
    - apply Rmult_le_reg_r with q; [lra|]. unfold Rdiv. rewrite Rmult_assoc, Rinv_l by lra. lra. }
  set (q := ddiv _ _) in *. pose proof (bpow_gt_0 radix2 (-10)) as P10.
  pose proof (ceil_int q F4 V4 ltac:(lra)) as C.
  destruct (fp_range _ _ 0 62 C) as (F5 & V5 & R5); [lia|lia| |].
  { assert (0 < Zceil (val q))%Z. { apply lt_IZR. apply Rlt_le_trans with (val q); [lra|apply Zceil_ub]. }
    split; [apply IZR_le; lia|]. change (bpow radix2 62) with (IZR (2 ^ 62)). apply IZR_le. apply Zceil_glb. exact (proj2 R4). }
  destruct (bins_size _ F5) as (n & En & Hn & _).
  { split; [exact (proj1 R5)|]. apply Rle_lt_trans with (bpow radix2 62); [exact (proj2 R5)|apply bpow_lt; lia]. }
  unfold gen_logn. destruct (N.eqb_spec b 0); [lia|].
  destruct (bins_cover (fun min max _ => let range := dsub max min in to_size (dceil (ddiv (dmul range (g_log G (of_size b))) (g_log G range)))) x l n Hx Hl En Hn)
    as (bs & E & Cv & _). exists bs. split; [exact E|exact Cv].
Qed.

(* a spread of exactly one *)
Lemma logn_one G b x l : good_glibm G -> (2 <= b <= 1024)%N -> spread x l = of_size 1 -> gen_logn G b (Some (x :: l)) = UB.
Proof.
  intros HG Hb E. unfold gen_logn. destruct (N.eqb_spec b 0); [lia|]. unfold with_bins. cbv zeta. fold (spread x l). rewrite E, (log_one G HG).
  destruct (base_facts b Hb) as (Fb & Vb & Rb). destruct (log_range G _ 10 HG Fb Vb Rb ltac:(lia)) as (F1 & V1 & R1).
  destruct (of_size_spec 1 ltac:(lia)) as (Fo & Vo & _). pose proof (of_size_small 1 ltac:(lia)) as Eo. change (IZR (Z.of_N 1)) with 1 in Eo. change (10 + 1)%Z with 11%Z in R1.
  destruct (fp_range (val (of_size 1) * val (g_log G (of_size b))) (dmul (of_size 1) (g_log G (of_size b))) (-2) 60) as (F3 & V3 & R3); [|lia|lia| |].
  { apply dmul_rounded; try assumption. rewrite Eo, Rabs_pos_eq by lra. apply Rle_trans with (bpow radix2 60); [|apply bpow_le; lia].
    change (bpow radix2 60) with 1152921504606846976. lra. }
  { rewrite Eo. change (bpow radix2 60) with 1152921504606846976. change (bpow radix2 (-2)) with (/ 4). lra. }
  assert (N3 : nonzero_fp (dmul (of_size 1) (g_log G (of_size b)))).
  { apply nonzero_val; [exact F3|]. pose proof (bpow_gt_0 radix2 (-2)). lra. }
  destruct (dmul (of_size 1) (g_log G (of_size b))) as [s|s| |s m e]; try contradiction. reflexivity.
Qed.

(* all values equal *)
Lemma dsub_same x : finite_fp x -> exists s, dsub x x = S754_zero s.
Proof.
  destruct x as [s|s| |s m e]; try contradiction; intros _; unfold dsub, SFsub; [destruct s; cbn; eauto|].
  cbv zeta. rewrite Z.sub_diag. cbn [SpecFloat.binary_normalize]. eauto.
Qed.
Lemma min_same x l : (forall v, In v l -> v = x) -> min_element x l = x /\ max_element x l = x.
Proof.
  revert x; induction l as [|y l IH]; intros x H; [split; reflexivity|]. cbn [min_element max_element].
  rewrite (H y (or_introl eq_refl)). destruct (d_lt x x); apply IH; intros v Hv; apply H; right; exact Hv.
Qed.
Lemma logn_same G b x l : good_glibm G -> (2 <= b <= 1024)%N -> is_finite x -> (forall v, In v l -> v = x) ->
  gen_logn G b (Some (x :: l)) = Ok (Some []).
Proof.
  intros HG Hb Hx Hl. unfold gen_logn. destruct (N.eqb_spec b 0); [lia|]. unfold with_bins. cbv zeta.
  destruct (min_same x l Hl) as [-> ->]. destruct (dbl_finite x Hx) as (Fx & _). destruct (dsub_same _ Fx) as [s ->].
  rewrite (log_zero G HG).
  destruct (base_facts b Hb) as (Fb & Vb & Rb). destruct (log_range G _ 10 HG Fb Vb Rb ltac:(lia)) as (F1 & V1 & R1).
  destruct (g_log G (of_size b)) as [t|t| |t m e]; try contradiction; reflexivity.
Qed.

(* ---- a libm with these properties *)
Definition approx (r : R) : spec_float := SpecFloat.binary_normalize 53 1024 (Zfloor (r * bpow radix2 60)) (-60) false.
Definition real_glibm : glibm :=
  mkGlibm (fun x => approx (ln (val x) / ln 2))
          (fun x => approx (Rpower (val x) (/ 3)))
          (fun x => match x with S754_zero _ => S754_infinity true | _ => approx (ln (val x)) end).

Lemma approx_spec r : 0 <= r <= bpow radix2 30 ->
  finite_fp (approx r) /\ valid DBL (approx r) /\ Rabs (val (approx r) - r) <= r * bpow radix2 (-53) + bpow radix2 (-59).
Proof.
  intros Hr. pose proof (norm_rounded (Zfloor (r * bpow radix2 60)) (-60) false) as R. fold (approx r) in R.
  set (v := IZR (Zfloor (r * bpow radix2 60)) * bpow radix2 (-60)) in *.
  pose proof (two_inv 60) as T. change (- (60))%Z with (-60)%Z in T. pose proof (bpow_gt_0 radix2 (-60)) as P60.
  assert (V : r - bpow radix2 (-60) <= v <= r).
  { pose proof (Zfloor_lb (r * bpow radix2 60)) as A. pose proof (Zfloor_ub (r * bpow radix2 60)) as B. unfold v.
    assert (Er : r * bpow radix2 60 * bpow radix2 (-60) = r) by (rewrite Rmult_assoc, T; ring). split.
    - apply Rle_trans with ((r * bpow radix2 60 - 1) * bpow radix2 (-60)); [lra|apply Rmult_le_compat_r; lra].
    - apply Rle_trans with (r * bpow radix2 60 * bpow radix2 (-60)); [apply Rmult_le_compat_r; lra|lra]. }
  assert (V0 : 0 <= v).
  { unfold v. apply Rmult_le_pos; [|lra]. apply IZR_le. apply Zfloor_lub. apply Rmult_le_pos; [lra|apply bpow_ge_0]. }
  destruct (rounded_in _ _ R) as (F & Vd & E).
  { apply small_big. rewrite Rabs_pos_eq by exact V0. apply Rle_trans with (bpow radix2 30); [lra|apply bpow_le; lia]. }
  split; [exact F|]. split; [exact Vd|]. rewrite E. destruct (rnd_err DBL v dbl_ok) as (eps & eta & H1 & H2 & ->).
  change (- f_prec DBL)%Z with (-53)%Z in H1. unfold tiny in H2. rewrite pw2 in H2. change (emin (f_prec DBL) (f_emax DBL)) with (-1074)%Z in H2.
  assert (T2 : / 2 * bpow radix2 (-1074) <= bpow radix2 (-60)).
  { pose proof (bpow_le radix2 (-1074) (-60) ltac:(lia)). pose proof (bpow_gt_0 radix2 (-1074)). lra. }
  assert (T3 : bpow radix2 (-59) = 2 * bpow radix2 (-60)) by reflexivity || (change (-59)%Z with (1 + -60)%Z; rewrite bpow_plus; reflexivity).
  replace (v * (1 + eps) + eta - r) with (v * eps + (eta + (v - r))) by ring.
  eapply Rle_trans; [apply Rabs_triang|]. rewrite T3. apply Rplus_le_compat.
  - rewrite Rabs_mult, (Rabs_pos_eq v) by exact V0. apply Rmult_le_compat; [exact V0|apply Rabs_pos|lra|exact H1].
  - eapply Rle_trans; [apply Rabs_triang|]. replace (2 * bpow radix2 (-60)) with (bpow radix2 (-60) + bpow radix2 (-60)) by ring.
    apply Rplus_le_compat; [lra|]. apply Rabs_le. lra.
Qed.

Lemma b53 : bpow radix2 (-53) = / 9007199254740992. Proof. reflexivity. Qed.
Lemma b59 : bpow radix2 (-59) = / 576460752303423488. Proof. reflexivity. Qed.
Lemma slop_eq : slop = / 1099511627776. Proof. unfold slop. rewrite pw2. reflexivity. Qed.

Lemma real_good : good_glibm real_glibm.
Proof.
  constructor.
  - intros n Hn. cbn [g_log2 real_glibm]. pose proof (of_size_range n Hn) as R.
    pose proof (log2_range (val (of_size n)) 0 64 R) as L. set (t := ln (val (of_size n)) / ln 2) in *.
    destruct (approx_spec t) as (F & V & E). { change (bpow radix2 30) with 1073741824. lra. }
    split; [exact F|]. split; [exact V|]. rewrite b53, b59 in E. rewrite slop_eq. lra.
  - intros n Hn. cbn [g_cbrt real_glibm]. pose proof (of_size_range n Hn) as R.
    set (v := val (of_size n)) in *. set (t := Rpower v (/ 3)).
    assert (T0 : 0 < t) by apply exp_pos.
    assert (T3 : t ^ 3 = v).
    { unfold t. rewrite <- Rpower_pow by apply exp_pos. rewrite Rpower_mult. replace (/ 3 * INR 3) with 1 by (cbn; lra). apply Rpower_1. lra. }
    assert (T1 : 1 <= t). { apply cube_le; [lra|]. rewrite T3. cbn. lra. }
    assert (T2 : t <= bpow radix2 30).
    { apply cube_le; [apply bpow_ge_0|]. rewrite T3. apply Rle_trans with (bpow radix2 64); [exact (proj2 R)|].
      change (bpow radix2 30) with (IZR (2 ^ 30)). change (bpow radix2 64) with (IZR (2 ^ 64)). rewrite pow_IZR. apply IZR_le. vm_compute. discriminate. }
    destruct (approx_spec t) as (F & V & E); [lra|]. split; [exact F|]. split; [exact V|].
    rewrite b53, b59 in E. rewrite slop_eq. apply Rabs_le_inv in E. set (y := val (approx t)) in *.
    assert (Y : t * (1 - / 4503599627370496) <= y <= t * (1 + / 4503599627370496)) by lra.
    assert (Q1 : (t * (1 - / 4503599627370496)) ^ 3 <= y ^ 3) by (apply pow_incr; lra).
    assert (Q2 : y ^ 3 <= (t * (1 + / 4503599627370496)) ^ 3) by (apply pow_incr; lra).
    rewrite Rpow_mult_distr, T3 in Q1, Q2. split.
    + eapply Rle_trans; [|exact Q1]. apply Rmult_le_compat_l; [lra|]. cbn [pow]. lra.
    + eapply Rle_trans; [exact Q2|]. apply Rmult_le_compat_l; [lra|]. cbn [pow]. lra.
  - intros x Fx Vx Hx. assert (E0 : g_log real_glibm x = approx (ln (val x))).
    { destruct x as [s|s| |s m e]; try contradiction; [cbn [val] in Hx; lra|reflexivity]. }
    rewrite E0. pose proof ln2_range as L2. pose proof (ln_le 2 (val x) ltac:(lra) Hx) as L.
    pose proof (val_big DBL x dbl_ok Vx) as VB. rewrite Rabs_pos_eq, big_1024 in VB by lra.
    pose proof (ln_le (val x) (bpow radix2 1024) ltac:(lra) ltac:(lra)) as U. rewrite ln_bpow in U.
    set (t := ln (val x)) in *. destruct (approx_spec t) as (F & V & E). { change (bpow radix2 30) with 1073741824. lra. }
    split; [exact F|]. split; [exact V|]. rewrite b53, b59 in E. rewrite slop_eq. lra.
  - assert (E : g_log real_glibm (of_size 1) = approx (ln (val (of_size 1)))) by reflexivity.
    rewrite E, of_size_small by lia. change (IZR (Z.of_N 1)) with 1. rewrite ln_1. unfold approx. rewrite Rmult_0_l. change 0 with (IZR 0). rewrite Zfloor_IZR. reflexivity.
  - intros s. reflexivity.
Qed.
