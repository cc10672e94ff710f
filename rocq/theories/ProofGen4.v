(* How many buckets the rules give *)
From Verif Require Import ModelBytes ProofBytes ModelHist ModelElen ModelFloat ModelGen SpecHist SpecFp SpecGen ProofFpBase ProofFpBits ProofFpMant ProofGen1 ProofGen2 ProofGen3.
From Coq Require Import Reals Psatz.
From Flocq Require Import Core BinarySingleNaN.
Local Notation is_finite := SpecHist.is_finite.
Local Notation covering := SpecGen.covering.
Local Open Scope R_scope.

Lemma bins_count bins x l n : is_finite x -> Forall is_finite l ->
  bins (dbl (min_element x l)) (dbl (max_element x l)) (x :: l) = Ok n -> (1 <= n < 2 ^ 64)%N ->
  buckets_of (with_bins bins) (x :: l) n.
Proof. intros Hx Hl E Hn. destruct (bins_cover bins x l n Hx Hl E Hn) as (bs & A & _ & B). exists bs. auto. Qed.

Lemma size_floor x z : finite_fp x -> (1 <= z < 2 ^ 64)%Z -> IZR z <= val x < IZR z + 1 -> to_size x = Ok (Z.to_N z).
Proof.
  intros Fx Hz Hv. assert (E : Zfloor (val x) = z) by (apply Zfloor_imp; rewrite plus_IZR; exact Hv).
  rewrite to_size_spec, E; [reflexivity|exact Fx|]. assert (1 <= IZR z) by (apply IZR_le; lia).
  split; [lra|]. apply Rlt_le_trans with (IZR (z + 1)); [rewrite plus_IZR; lra|]. change (bpow radix2 64) with (IZR (2 ^ 64)). apply IZR_le. lia.
Qed.

(* the largest number below an integer on a grid *)
Lemma rnd_below z k v : (0 <= k <= 1000)%Z -> (0 < z)%Z -> (z * 2 ^ k <= 2 ^ 53)%Z ->
  v <= IZR z - bpow radix2 (- k) -> rnd DBL v < IZR z.
Proof.
  intros Hk Hz Hb Hv.
  assert (E : IZR z - bpow radix2 (- k) = IZR (z * 2 ^ k - 1) * bpow radix2 (- k)).
  { rewrite minus_IZR, mult_IZR, <- two_IZR by lia. pose proof (two_inv k) as T. transitivity (IZR z * (bpow radix2 k * bpow radix2 (- k)) - bpow radix2 (- k)); [rewrite T; ring|ring]. }
  apply Rle_lt_trans with (IZR z - bpow radix2 (- k)).
  - rewrite E. rewrite <- (rnd_dyadic (z * 2 ^ k - 1) k Hk); [|pose proof (Z.pow_pos_nonneg 2 k); nia]. apply rnd_le; [exact dbl_ok|]. rewrite <- E. exact Hv.
  - pose proof (bpow_gt_0 radix2 (- k)). lra.
Qed.

(* ---- square root: the integer square root *)
Lemma sqrt_count x l : Forall is_finite (x :: l) -> (N.of_nat (length (x :: l)) < 2 ^ 48)%N ->
  buckets_of gen_sqrt (x :: l) (N.sqrt (N.of_nat (length (x :: l)))).
Proof.
  intros Hf Hlen. inversion Hf as [|? ? Hx Hl]; subst. set (n := N.of_nat (length (x :: l))) in *.
  assert (Hn : (1 <= n)%N) by (unfold n; cbn [length]; lia).
  pose proof (N.sqrt_spec n ltac:(lia)) as S. set (s := N.sqrt n) in *. cbv zeta in S.
  assert (S0 : (1 <= s)%N) by nia. assert (S1 : (s < 2 ^ 24)%N) by nia.
  apply bins_count; try assumption; [|lia].
  change (to_size (dsqrt (of_size n)) = Ok s).
  destruct (of_size_spec n ltac:(lia)) as (Fn & Vn & _). pose proof (of_size_range n ltac:(lia)) as Rn.
  destruct (dsqrt_spec (of_size n) Vn Fn ltac:(lra)) as (F1 & _ & E). rewrite of_size_small in E by lia.
  replace s with (Z.to_N (Z.of_N s)) by lia. apply size_floor; [exact F1|lia|]. rewrite E.
  assert (Q1 : IZR (Z.of_N s) <= sqrt (IZR (Z.of_N n))).
  { rewrite <- (sqrt_square (IZR (Z.of_N s))) by (apply IZR_le; lia). apply sqrt_le_1_alt. rewrite <- mult_IZR. apply IZR_le. nia. }
  split.
  - rewrite <- (rnd_int (Z.of_N s)) at 1 by lia. apply rnd_le; [exact dbl_ok|exact Q1].
  - rewrite <- plus_IZR. apply (rnd_below (Z.of_N s + 1) 26); [lia|lia|lia|].
    change (bpow radix2 (- (26))) with (/ 67108864).
    assert (P : 2 <= IZR (Z.of_N s + 1) <= 16777217) by (split; apply IZR_le; lia).
    set (t := IZR (Z.of_N s + 1)) in *.
    rewrite <- (sqrt_square (t - / 67108864)) by lra. apply sqrt_le_1_alt.
    assert (T : IZR (Z.of_N n) <= t * t - 1).
    { unfold t. rewrite <- mult_IZR, <- minus_IZR. apply IZR_le. nia. }
    nra.
Qed.

(* ---- logarithms *)
Lemma ln_sub x : 0 < x -> ln x <= x - 1.
Proof.
  intros H. destruct (Req_dec (ln x) 0) as [E|E].
  - assert (x = 1) by (rewrite <- (exp_ln x H), E; apply exp_0). subst x. lra.
  - pose proof (exp_ineq1 (ln x) E) as X. rewrite exp_ln in X by exact H. lra.
Qed.
Lemma ln_low t : 0 < t <= 1 -> t / 2 <= ln (1 + t).
Proof.
  intros H. pose proof (ln_sub (/ (1 + t)) ltac:(apply Rinv_0_lt_compat; lra)) as X. rewrite ln_Rinv in X by lra.
  assert (Y : / (1 + t) <= 1 - t / 2).
  { apply Rmult_le_reg_r with (1 + t); [lra|]. rewrite Rinv_l by lra. nra. }
  lra.
Qed.
Lemma ln2_range : / 2 < ln 2 <= 1.
Proof.
  split; [|pose proof (ln_sub 2 ltac:(lra)); lra].
  apply exp_lt_inv. rewrite exp_ln by lra. apply Rnot_le_lt. intros X.
  pose proof exp_le_3 as E3. replace 1 with (/ 2 + / 2) in E3 by lra. rewrite exp_plus in E3. nra.
Qed.

Lemma log2_gap a b : 0 < a -> a + 1 <= b -> 1 <= a -> / (2 * a) <= ln b / ln 2 - ln a / ln 2.
Proof.
  intros Ha Hb H1. pose proof ln2_range as L2.
  assert (I1 : 0 < / a <= 1) by (split; [apply Rinv_0_lt_compat; lra|rewrite <- Rinv_1; apply Rinv_le_contravar; lra]).
  pose proof (ln_low (/ a) I1) as X.
  assert (Y : ln (1 + / a) <= ln b - ln a).
  { assert (Eb : ln b - ln a = ln (b * / a)) by (rewrite ln_mult, ln_Rinv by (try apply Rinv_0_lt_compat; lra); ring). rewrite Eb.
    apply ln_le; [lra|]. apply Rle_trans with ((a + 1) * / a); [right; field; lra|]. apply Rmult_le_compat_r; lra. }
  replace (ln b / ln 2 - ln a / ln 2) with ((ln b - ln a) * / ln 2) by (field; lra).
  replace (/ (2 * a)) with (/ a / 2 * 1) by (field; lra).
  apply Rmult_le_compat; [lra|lra|lra|]. rewrite <- Rinv_1. apply Rinv_le_contravar; lra.
Qed.

(* ---- Sturges' formula: right unless the number of values is a power of two *)
Lemma sturges_count G x l : good_glibm G -> Forall is_finite (x :: l) -> (N.of_nat (length (x :: l)) < 2 ^ 30)%N ->
  (forall p, N.of_nat (length (x :: l)) <> 2 ^ p)%N ->
  buckets_of (gen_sturges G) (x :: l) (N.log2_up (N.of_nat (length (x :: l))) + 1).
Proof.
  intros HG Hf Hlen Hp. inversion Hf as [|? ? Hx Hl]; subst. set (n := N.of_nat (length (x :: l))) in *.
  assert (Hn : (1 < n)%N). { specialize (Hp 0%N). change (2 ^ 0)%N with 1%N in Hp. assert (1 <= n)%N by (unfold n; cbn [length]; lia). lia. }
  set (p := N.log2 n). pose proof (N.log2_spec n ltac:(lia)) as [L1 L2]. fold p in L1, L2.
  assert (L1' : (2 ^ p + 1 <= n)%N) by (specialize (Hp p); lia).
  assert (P30 : (p < 30)%N). { apply (N.pow_lt_mono_r_iff 2); lia. }
  assert (Eup : N.log2_up n = (p + 1)%N).
  { apply N.log2_up_unique; [lia|].  rewrite N.add_1_r, N.pred_succ. lia. }
  rewrite Eup. apply bins_count; try assumption; [|lia].
  change (to_size (dadd (g_log2 G (of_size n)) (of_size 2)) = Ok (p + 1 + 1)%N).
  destruct (log2_near G HG n ltac:(lia)) as (Fy & Vy & Ey). rewrite of_size_small in Ey by lia.
  assert (Zp : (0 <= Z.of_N p < 30)%Z) by lia.
  assert (B1 : bpow radix2 (Z.of_N p) = IZR (Z.of_N (2 ^ p))).
  { rewrite two_IZR by lia. f_equal. rewrite N2Z.inj_pow. reflexivity. }
  assert (B2 : bpow radix2 (Z.of_N p + 1) = IZR (Z.of_N (2 ^ N.succ p))).
  { rewrite two_IZR by lia. f_equal. rewrite N2Z.inj_pow, N2Z.inj_succ. reflexivity. }
  set (v := IZR (Z.of_N n)) in *.
  assert (G1 : / (2 * bpow radix2 (Z.of_N p)) <= ln v / ln 2 - ln (bpow radix2 (Z.of_N p)) / ln 2).
  { rewrite B1. apply log2_gap; [apply IZR_lt; lia|unfold v; rewrite <- plus_IZR; apply IZR_le; lia|apply IZR_le; lia]. }
  assert (G2 : / (2 * v) <= ln (bpow radix2 (Z.of_N p + 1)) / ln 2 - ln v / ln 2).
  { rewrite B2. apply log2_gap; [apply IZR_lt; lia|unfold v; rewrite <- plus_IZR; apply IZR_le; lia|apply IZR_le; lia]. }
  pose proof ln2_range as LR. rewrite !ln_bpow in G1, G2.
  replace (IZR (Z.of_N p) * ln 2 / ln 2) with (IZR (Z.of_N p)) in G1 by (field; lra).
  replace (IZR (Z.of_N p + 1) * ln 2 / ln 2) with (IZR (Z.of_N p + 1)) in G2 by (field; lra).
  assert (D1 : / 2147483648 <= / (2 * bpow radix2 (Z.of_N p))).
  { rewrite B1. apply Rinv_le_contravar; [apply Rmult_lt_0_compat; [lra|apply IZR_lt; lia]|]. change 2147483648 with (2 * IZR 1073741824). apply Rmult_le_compat_l; [lra|]. apply IZR_le. lia. }
  assert (D2 : / 2147483648 <= / (2 * v)).
  { apply Rinv_le_contravar; [apply Rmult_lt_0_compat; [lra|apply IZR_lt; lia]|]. change 2147483648 with (2 * IZR 1073741824). apply Rmult_le_compat_l; [lra|]. apply IZR_le. lia. }
  apply Rabs_le_inv in Ey. assert (Sl : 0 < slop <= / 1000000000000).
  { unfold slop. rewrite pw2. change (bpow radix2 (-40)) with (/ 1099511627776). lra. }
  rewrite plus_IZR in G2. set (y := val (g_log2 G (of_size n))) in *.
  destruct (plus_two _ (Z.of_N p + 2) (Z.of_N p + 3) Fy Vy) as (F & R & E); [lia|lia|rewrite !plus_IZR; fold y; lra|].
  replace (p + 1 + 1)%N with (Z.to_N (Z.of_N p + 2)) by lia. apply size_floor; [exact F|lia|]. split; [exact (proj1 R)|].
  rewrite E. replace (IZR (Z.of_N p + 2) + 1) with (IZR (Z.of_N p + 3)) by (rewrite !plus_IZR; ring).
  apply (rnd_below (Z.of_N p + 3) 32); [lia|lia|lia|]. change (bpow radix2 (- (32))) with (/ 4294967296). rewrite plus_IZR. fold y. lra.
Qed.
(* one too many for a power of two, log2 being exact there *)
Lemma sturges_power G x l p : Forall is_finite (x :: l) -> (p < 64)%N -> N.of_nat (length (x :: l)) = (2 ^ p)%N ->
  g_log2 G (of_size (2 ^ p)) = of_size p -> buckets_of (gen_sturges G) (x :: l) (p + 2).
Proof.
  intros Hf Hp Hlen HG. inversion Hf as [|? ? Hx Hl]; subst.
  apply bins_count; try assumption; [|lia]. unfold count. rewrite Hlen, HG.
  destruct (of_size_spec p ltac:(lia)) as (Fy & Vy & _). pose proof (of_size_small p ltac:(lia)) as Ey.
  destruct (plus_two _ (Z.of_N p + 2) (Z.of_N p + 2) Fy Vy) as (F & R & E); [lia|lia|rewrite Ey, plus_IZR; lra|].
  replace (p + 2)%N with (Z.to_N (Z.of_N p + 2)) by lia. apply size_floor; [exact F|lia|]. lra.
Qed.

(* ---- the Rice rule: too few *)
Lemma rice_count G x l : good_glibm G -> Forall is_finite (x :: l) -> (64 <= N.of_nat (length (x :: l)) <= 2 ^ 53)%N ->
  exists k, buckets_of (gen_rice G) (x :: l) k /\ (k ^ 3 < 8 * N.of_nat (length (x :: l)))%N.
Proof.
  intros HG Hf Hlen. inversion Hf as [|? ? Hx Hl]; subst. set (n := N.of_nat (length (x :: l))) in *.
  destruct (cbrt_range G n HG ltac:(lia)) as (Fy & Vy & Ry). destruct (cbrt_near G HG n ltac:(lia)) as (_ & _ & _ & C).
  rewrite of_size_small in C by lia.
  destruct (plus_two _ 2 (2 ^ 22 + 2) Fy Vy) as (F & R & E); [lia|vm_compute; discriminate|rewrite plus_IZR; lra|].
  destruct (bins_size _ F) as (m & Em & Hm & Ez).
  { split; [lra|]. apply Rle_lt_trans with (IZR (2 ^ 22 + 2)); [lra|]. change (bpow radix2 64) with (IZR (2 ^ 64)). apply IZR_lt. reflexivity. }
  exists m. split; [apply bins_count; assumption|]. apply N.nle_gt. intros X.
  assert (M8 : (8 <= m)%N). { apply N.nlt_ge. intros Y. assert (m ^ 3 <= 7 ^ 3)%N by (apply N.pow_le_mono_l; lia). lia. }
  set (y := val (g_cbrt G (of_size n))) in *. pose proof slop_small as S.
  assert (Xr : 8 * IZR (Z.of_N n) <= IZR (Z.of_N m) ^ 3).
  { rewrite pow_IZR. change (Z.of_nat 3) with 3%Z. rewrite <- mult_IZR. apply IZR_le. apply N2Z.inj_le in X. rewrite N2Z.inj_pow in X. lia. }
  assert (M8r : 8 <= IZR (Z.of_N m)) by (apply IZR_le; lia).
  set (t := IZR (Z.of_N m)) in *.
  assert (Yt : y <= t / 2 * (1 + slop)).
  { apply cube_le; [nra|]. apply Rle_trans with (t ^ 3 / 8 * (1 + slop)); [nra|].
    replace ((t / 2 * (1 + slop)) ^ 3) with (t ^ 3 / 8 * ((1 + slop) * ((1 + slop) * (1 + slop)))) by field.
    apply Rmult_le_compat_l; [apply Rmult_le_pos; [apply pow_le; lra|lra]|]. nra. }
  assert (K : val (dadd (g_cbrt G (of_size n)) (of_size 2)) <= IZR (Z.of_N m - 1)).
  { rewrite E. rewrite <- (rnd_int (Z.of_N m - 1)).
    - apply rnd_le; [exact dbl_ok|]. rewrite minus_IZR. fold y t. nra.
    - pose proof (Zfloor_lb (val (dadd (g_cbrt G (of_size n)) (of_size 2)))) as Lb. rewrite <- Ez in Lb.
      assert (IZR (Z.of_N m) <= IZR (2 ^ 22 + 2)) by (fold t in Lb |- *; lra). apply le_IZR in H. lia. }
  pose proof (Zfloor_lb (val (dadd (g_cbrt G (of_size n)) (of_size 2)))) as Lb. rewrite <- Ez in Lb. rewrite minus_IZR in K. lra.
Qed.

(* ---- Scott's rule: none *)
Definition nn (x : spec_float) : Prop := match x with S754_finite s _ _ | S754_infinity s => s = false | _ => True end.
Definition np (x : spec_float) : Prop := match x with S754_finite s _ _ | S754_infinity s => s = true | _ => True end.
Lemma aux_sign s m e l : match SpecFloat.binary_round_aux 53 1024 s m e l with S754_finite t _ _ | S754_infinity t | S754_zero t => t = s | S754_nan => True end.
Proof.
  unfold SpecFloat.binary_round_aux. destruct (shr_fexp 53 1024 m e l) as [r1 e1]. destruct (shr_fexp _ _ _ e1 loc_Exact) as [r2 e2].
  destruct (shr_m r2); try exact I; try reflexivity. destruct (e2 <=? 1024 - 53)%Z; reflexivity.
Qed.
Lemma mul_nn x y : nn x -> nn y -> nn (dmul x y).
Proof.
  destruct x as [sx|sx| |sx mx ex], y as [sy|sy| |sy my ey]; cbn; try tauto; try (intros -> ->; reflexivity).
  intros -> ->. cbn [xorb]. pose proof (aux_sign false (Z.pos (mx * my)) (ex + ey) loc_Exact) as A. destruct (SpecFloat.binary_round_aux _ _ _ _ _ _); try exact I; exact A.
Qed.
Lemma div_sign (s : bool) x y : match x with S754_finite t _ _ | S754_infinity t => t = s | _ => True end -> nonzero_fp y \/ y = S754_infinity false -> nn y ->
  match ddiv x y with S754_finite t _ _ | S754_infinity t => t = s | _ => True end.
Proof.
  intros Hx Hy Ny. destruct x as [sx|sx| |sx mx ex], y as [sy|sy| |sy my ey]; cbn in *; try exact I; try (destruct Hy as [[]|Hy]; discriminate).
  - subst. destruct s; reflexivity.
  - subst. rewrite Bool.xorb_false_r. destruct (SFdiv_core_binary _ _ _ _ _ _) as [[mz ez] lz].
    pose proof (aux_sign s mz ez lz) as A. destruct (SpecFloat.binary_round_aux _ _ _ _ _ _); try exact I; exact A.
Qed.
Lemma sqrt_nn x : nn (dsqrt x).
Proof.
  destruct x as [s|s| |s m e]; cbn; try exact I; destruct s; try exact I; try reflexivity.
  destruct (SFsqrt_core_binary _ _ _ _) as [[mz ez] lz].
  pose proof (aux_sign false mz ez lz) as A. destruct (SpecFloat.binary_round_aux _ _ _ _ _ _); try exact I; exact A.
Qed.
Lemma size_np x : np x -> to_size x = UB \/ to_size x = Ok 0%N.
Proof.
  destruct x as [s|s| |s m e]; cbn [np to_size]; auto. intros ->. cbv zeta. destruct (_ =? 0)%Z; auto.
Qed.

Lemma val_sign x : finite_fp x -> (val x <= 0 -> np x) /\ (0 <= val x -> nn x).
Proof.
  intros Fx. destruct x as [s|s| |s m e]; try contradiction; [split; intros; exact I|]. pose proof (sign_F2R s m e) as S. cbn [np nn].
  pose proof (val_fin_pos s m e) as NZ. cbn [val] in *. destruct s; split; intros H; try reflexivity.
  - apply Rlt_bool_false in H. congruence.
  - destruct (Rlt_bool_spec (1 * IZR (Z.pos m) * powerRZ 2 e) 0); [discriminate|]. lra.
Qed.
Lemma rounded_np v x : rounded v x -> v <= 0 -> np x.
Proof.
  intros [V H] Hv. destruct (Rlt_bool_spec (Rabs (rnd DBL v)) (big DBL)) as [Hb|Hb].
  - destruct H as [Fx E]. apply (val_sign x Fx). rewrite E, <- (rnd_0 DBL). apply rnd_le; [exact dbl_ok|exact Hv].
  - subst x. cbn [np]. apply Rlt_bool_true. destruct Hv as [Hv|Hv]; [exact Hv|]. subst v. rewrite rnd_0, Rabs_R0 in Hb. pose proof big_pos. lra.
Qed.

Lemma scott_none G x l : good_glibm G -> Forall is_finite (x :: l) -> (N.of_nat (length (x :: l)) < 2 ^ 64)%N ->
  gen_scott G (Some (x :: l)) = UB \/ gen_scott G (Some (x :: l)) = Ok (Some []).
Proof.
  intros HG Hf Hlen. inversion Hf as [|? ? Hx Hl]; subst. unfold gen_scott, with_bins. cbv zeta.
  set (st := dsqrt _). set (n := N.of_nat (length (x :: l))) in *. assert (Hn : (1 <= n < 2 ^ 64)%N) by (unfold n; cbn [length] in *; lia).
  set (h := ddiv (dmul three_and_a_half st) (g_cbrt G (of_size n))).
  destruct (min_max_facts x l Hx Hl) as (F1 & V1 & F2 & V2 & L).
  assert (D : np (dsub (dbl (min_element x l)) (dbl (max_element x l)))) by (eapply rounded_np; [apply dsub_rounded; assumption|lra]).
  set (d := dsub (dbl (min_element x l)) (dbl (max_element x l))) in *.
  assert (Nst : nn st) by apply sqrt_nn.
  assert (Nm : nn (dmul three_and_a_half st)) by (apply mul_nn; [vm_compute; reflexivity|exact Nst]).
  assert (C : nonzero_fp (g_cbrt G (of_size n)) /\ nn (g_cbrt G (of_size n))).
  { destruct (cbrt_near G HG n Hn) as (Fc & Vc & C1 & _). destruct (cbrt_range G n HG Hn) as (_ & _ & C2 & _).
    pose proof (of_size_range n Hn) as R. pose proof slop_small as S. split.
    - apply nonzero_val; [exact Fc|]. intros Z. rewrite Z, pow_ne_zero in C1 by discriminate. assert (0 < val (of_size n) * (1 - slop)) by (apply Rmult_lt_0_compat; lra). lra.
    - apply (val_sign _ Fc). exact C2. }
  assert (Nh : nn h) by (apply (div_sign false); [exact Nm|left; exact (proj1 C)|exact (proj2 C)]).
  assert (T : to_size (ddiv d h) = UB \/ to_size (ddiv d h) = Ok 0%N).
  { clearbody h d. destruct h as [sh|sh| |sh mh eh] eqn:Eh.
    - destruct d; first [left; reflexivity|right; reflexivity].
    - cbn in Nh. subst sh. destruct d; first [left; reflexivity|right; reflexivity].
    - destruct d; first [left; reflexivity|right; reflexivity].
    - apply size_np. unfold np. apply (div_sign true); [exact D|left; exact I|exact Nh]. }
  destruct T as [T|T]; rewrite T; cbn [obind]; [left|right]; reflexivity.
Qed.
