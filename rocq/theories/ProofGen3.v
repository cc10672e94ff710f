(* The generators give boundaries in ascending order *)
From Verif Require Import ModelBytes ProofBytes ModelHist ModelElen ModelFloat ModelGen SpecHist SpecFp SpecGen ProofFpBase ProofFpBits ProofFpMant ProofGen1 ProofGen2.
From Coq Require Import Reals Psatz.
From Flocq Require Import Core BinarySingleNaN.
Local Notation is_finite := SpecHist.is_finite.
Local Notation covering := SpecGen.covering.
Local Open Scope R_scope.

Lemma min_max_facts x l : is_finite x -> Forall is_finite l ->
  let mn := dbl (min_element x l) in let mx := dbl (max_element x l) in
  finite_fp mn /\ valid DBL mn /\ finite_fp mx /\ valid DBL mx /\ val mn <= val mx.
Proof.
  intros Hx Hl. cbv zeta. destruct (min_spec l x Hx Hl) as (A & B & C). destruct (max_spec l x Hx Hl) as (A' & B' & C').
  destruct (dbl_finite _ A) as (F1 & V1 & _ & K1). destruct (dbl_finite _ A') as (F2 & V2 & _ & K2).
  repeat (split; [assumption|]). apply key_le; try assumption. rewrite K1, K2. apply C. exact B'.
Qed.

Lemma spread_rounded x l : is_finite x -> Forall is_finite l ->
  rounded (val (dbl (max_element x l)) - val (dbl (min_element x l))) (spread x l) /\ up_step (spread x l).
Proof.
  intros Hx Hl. destruct (min_max_facts x l Hx Hl) as (F1 & V1 & F2 & V2 & L). unfold spread.
  assert (R : rounded (val (dbl (max_element x l)) - val (dbl (min_element x l))) (dsub (dbl (max_element x l)) (dbl (min_element x l))))
    by (apply dsub_rounded; assumption).
  split; [exact R|]. eapply rounded_up; [exact R|lra].
Qed.

Lemma div_up x n : up_step x -> (1 <= n < 2 ^ 64)%N -> up_step (ddiv x (of_size n)).
Proof.
  intros [V H] Hn. destruct (of_size_spec n ltac:(lia)) as (Fn & Vn & _). pose proof (of_size_range n Hn) as Rn.
  pose proof (of_size_pos n Hn) as Nn. destruct H as [->|[Fx Hx]].
  - destruct (of_size n) as [s|s| |s m e] eqn:E; try contradiction. destruct s.
    { pose proof (sign_F2R true m e) as S1. assert (X : 0 <= val (S754_finite true m e)) by lra. apply Rlt_bool_false in X. cbn [val] in X. congruence. }
    split; [reflexivity|left; reflexivity].
  - eapply rounded_up; [apply ddiv_rounded; assumption|]. unfold Rdiv. apply Rmult_le_pos; [exact Hx|]. apply Rlt_le, Rinv_0_lt_compat. lra.
Qed.

Lemma ceil_int x : finite_fp x -> valid DBL x -> 0 <= val x -> rounded (IZR (Zceil (val x))) (dceil x).
Proof.
  intros Fx V Hx. destruct x as [s|s| |s m e]; try contradiction.
  - cbn [dceil val]. change 0 with (IZR 0). rewrite Zceil_IZR. apply rnd_id; [reflexivity|exact I|reflexivity].
  - destruct s.
    { pose proof (sign_F2R true m e) as S1. apply Rlt_bool_false in Hx. cbn [val] in Hx. congruence. }
    cbn [dceil]. destruct (Z.leb_spec 0 e) as [He|He].
    + apply rnd_id; [exact V|exact I|]. cbn [val]. rewrite Rmult_1_l, pw2, two_IZR by exact He. rewrite <- mult_IZR, Zceil_IZR. reflexivity.
    + set (z := (- (- Z.pos m / 2 ^ (- e)))%Z).
      assert (Ez : Zceil (val (S754_finite false m e)) = z).
      { unfold Zceil, z. f_equal. cbn [val]. rewrite Rmult_1_l, pw2.
        replace (- (IZR (Z.pos m) * bpow radix2 e)) with (IZR (- Z.pos m) / IZR (2 ^ (- e))).
        - apply Zfloor_div. pose proof (Z.pow_pos_nonneg 2 (- e)). lia.
        - rewrite <- two_IZR by lia. rewrite opp_IZR, bpow_opp. unfold Rdiv. rewrite Rinv_inv. ring. }
      rewrite Ez. pose proof (norm_rounded z 0 false) as H. rewrite Rmult_1_r in H. exact H.
Qed.
Lemma ceil_up x : up_step x -> up_step (dceil x).
Proof.
  intros [V [->|[Fx Hx]]]; [split; [reflexivity|left; reflexivity]|].
  eapply rounded_up; [apply ceil_int; assumption|]. apply Rle_trans with (val x); [exact Hx|apply Zceil_ub].
Qed.

Lemma lefts_cover x l k d : is_finite x -> Forall is_finite l -> up_step d -> (1 <= k)%N ->
  covers (x :: l) (lefts (N.to_nat k) (dbl (min_element x l)) d).
Proof.
  intros Hx Hl Hd Hk. destruct (min_spec l x Hx Hl) as (A & B & C). destruct (dbl_finite _ A) as (F1 & V1 & P1 & K1).
  assert (Pr : proper (dbl (min_element x l))) by (split; [exact V1|right; exact F1]).
  destruct (lefts_spec (N.to_nat k) _ _ Pr Hd) as [_ Asc]. split; [exact Asc|].
  destruct (N.to_nat k) as [|k'] eqn:E; [lia|]. cbn [lefts]. rewrite P1.
  eexists. eexists. split; [reflexivity|]. split; [exact B|].
  intros v Hv. rewrite finite_lt; [|destruct Hv as [<-|Hv]; [exact Hx|rewrite Forall_forall in Hl; apply Hl, Hv]|exact A].
  apply Z.ltb_ge, C, Hv.
Qed.

Lemma lefts_length k : forall l d, length (lefts k l d) = k.
Proof. induction k as [|k IH]; intros l d; cbn [lefts length]; [reflexivity|]. rewrite IH. reflexivity. Qed.

Lemma bins_cover bins x l n : is_finite x -> Forall is_finite l ->
  bins (dbl (min_element x l)) (dbl (max_element x l)) (x :: l) = Ok n -> (1 <= n < 2 ^ 64)%N ->
  exists bs, with_bins bins (Some (x :: l)) = Ok (Some bs) /\ covers (x :: l) bs /\ N.of_nat (length bs) = n.
Proof.
  intros Hx Hl E Hn. unfold with_bins. rewrite E. cbn [obind]. eexists. split; [reflexivity|]. unfold using_bin_count. split.
  - apply lefts_cover; try assumption; [|lia]. apply div_up; [exact (proj2 (spread_rounded x l Hx Hl))|exact Hn].
  - rewrite lefts_length. lia.
Qed.

(* every value in [1, 2^64) gives a number of bins *)
Lemma bins_size x : finite_fp x -> 1 <= val x < bpow radix2 64 ->
  exists n, to_size x = Ok n /\ (1 <= n < 2 ^ 64)%N /\ Z.of_N n = Zfloor (val x).
Proof.
  intros Fx Hx. rewrite to_size_spec by (try assumption; lra). eexists. split; [reflexivity|].
  assert (A : (1 <= Zfloor (val x))%Z) by (apply Zfloor_lub; lra).
  assert (B : (Zfloor (val x) < 2 ^ 64)%Z).
  { apply lt_IZR. apply Rle_lt_trans with (val x); [apply Zfloor_lb|]. change (IZR (2 ^ 64)) with (bpow radix2 64). lra. }
  rewrite Z2N.id by lia. split; [lia|reflexivity].
Qed.

Lemma rnd_range a b v : rnd DBL a = a -> rnd DBL b = b -> a <= v <= b -> a <= rnd DBL v <= b.
Proof. intros Ha Hb [H1 H2]. split; [rewrite <- Ha|rewrite <- Hb]; apply rnd_le; try exact dbl_ok; assumption. Qed.

Lemma bpow_Z k : (0 <= k)%Z -> bpow radix2 k = IZR (2 ^ k). Proof. exact (two_IZR k). Qed.

(* ---- square root *)
Lemma sqrt_bins n : (1 <= n < 2 ^ 64)%N ->
  finite_fp (dsqrt (of_size n)) /\ 1 <= val (dsqrt (of_size n)) <= bpow radix2 32.
Proof.
  intros Hn. destruct (of_size_spec n ltac:(lia)) as (Fn & Vn & _). pose proof (of_size_range n Hn) as Rn.
  destruct (dsqrt_spec (of_size n) Vn Fn ltac:(lra)) as (F1 & _ & E). split; [exact F1|]. rewrite E.
  apply rnd_range; [apply (rnd_int 1); vm_compute; discriminate|apply rnd_bpow; [exact dbl_ok|vm_compute; discriminate]|].
  split; [rewrite <- sqrt_1; apply sqrt_le_1_alt; lra|].
  rewrite <- (sqrt_square (bpow radix2 32)) by apply bpow_ge_0. apply sqrt_le_1_alt. rewrite <- bpow_plus. exact (proj2 Rn).
Qed.
Lemma sqrt_covering : covering gen_sqrt.
Proof.
  intros [|x l] Hne Hlen Hf; [congruence|]. inversion Hf as [|? ? Hx Hl]; subst.
  destruct (sqrt_bins (N.of_nat (length (x :: l)))) as [F1 R1]; [cbn [length] in *; lia|].
  destruct (bins_size _ F1) as (n & En & Hn & _). { pose proof (bpow_lt radix2 32 64 ltac:(lia)). lra. }
  destruct (bins_cover (fun _ _ l => to_size (dsqrt (count l))) x l n Hx Hl En Hn) as (bs & E & C & _). exists bs. split; [exact E|exact C].
Qed.

(* ---- Sturges and Rice *)
Lemma plus_two y a b : finite_fp y -> valid DBL y -> (0 <= a)%Z -> (b <= 2 ^ 52)%Z -> IZR a <= val y + 2 <= IZR b ->
  finite_fp (dadd y (of_size 2)) /\ IZR a <= val (dadd y (of_size 2)) <= IZR b /\ val (dadd y (of_size 2)) = rnd DBL (val y + 2).
Proof.
  intros Fy Vy Ha Hb Hy. destruct (of_size_spec 2 ltac:(lia)) as (F2 & V2 & _). pose proof (of_size_small 2 ltac:(lia)) as E2.
  change (IZR (Z.of_N 2)) with 2 in E2. pose proof (dadd_rounded _ _ Vy V2 Fy F2) as R. rewrite E2 in R.
  assert (A0 : 0 <= IZR a) by (apply IZR_le; exact Ha).
  assert (B0 : IZR b <= bpow radix2 1023).
  { apply Rle_trans with (bpow radix2 52); [change (bpow radix2 52) with (IZR (2 ^ 52)); apply IZR_le; exact Hb|apply bpow_le; lia]. }
  destruct (rounded_in _ _ R) as (F & V & E).
  { apply small_big. rewrite Rabs_pos_eq by lra. lra. }
  split; [exact F|]. split; [|exact E]. rewrite E.
  assert (AB : (a <= b)%Z) by (apply le_IZR; lra).
  apply rnd_range; [apply rnd_int; lia|apply rnd_int; lia|exact Hy].
Qed.

Lemma slop_small : 0 < slop <= / 1000000000.
Proof. unfold slop. rewrite pw2. change (bpow radix2 (-40)) with (/ 1099511627776). lra. Qed.
Lemma ln2_pos : 0 < ln 2. Proof. rewrite <- ln_1. apply ln_increasing; lra. Qed.
Lemma ln_le a b : 0 < a -> a <= b -> ln a <= ln b.
Proof. intros Ha [H|H]; [left; apply ln_increasing; assumption|rewrite H; right; reflexivity]. Qed.
Lemma ln_bpow k : ln (bpow radix2 k) = IZR k * ln 2.
Proof.
  rewrite <- pw2, powerRZ_Rpower by lra. unfold Rpower. rewrite ln_exp. reflexivity.
Qed.
Lemma log2_range x k j : bpow radix2 k <= x <= bpow radix2 j -> IZR k <= ln x / ln 2 <= IZR j.
Proof.
  intros [H1 H2]. pose proof ln2_pos. pose proof (bpow_gt_0 radix2 k).
  split; apply Rmult_le_reg_r with (ln 2); try assumption; unfold Rdiv; rewrite Rmult_assoc, Rinv_l, Rmult_1_r by lra; rewrite <- ln_bpow; apply ln_le; lra.
Qed.

Lemma sturges_covering G : good_glibm G -> covering (gen_sturges G).
Proof.
  intros HG [|x l] Hne Hlen Hf; [congruence|]. inversion Hf as [|? ? Hx Hl]; subst.
  set (n := N.of_nat (length (x :: l))) in *. assert (Hn : (1 <= n < 2 ^ 64)%N) by (unfold n; cbn [length] in *; lia).
  destruct (log2_near G HG n Hn) as (Fy & Vy & Ey). pose proof (of_size_range n Hn) as Rn.
  pose proof (log2_range (val (of_size n)) 0 64 Rn) as L. pose proof slop_small as S. apply Rabs_le_inv in Ey.
  destruct (plus_two _ 1 67 Fy Vy) as (F & R & _); [lia|vm_compute; discriminate|lra|].
  destruct (bins_size _ F) as (m & Em & Hm & _).
  { split; [lra|]. apply Rle_lt_trans with 67; [lra|]. change (bpow radix2 64) with (IZR (2 ^ 64)). apply IZR_lt. reflexivity. }
  destruct (bins_cover (fun _ _ l => to_size (dadd (g_log2 G (count l)) (of_size 2))) x l m Hx Hl Em Hm) as (bs & E & C & _). exists bs. split; [exact E|exact C].
Qed.

Lemma cube_le a b : 0 <= b -> a ^ 3 <= b ^ 3 -> a <= b.
Proof. intros Hb H. apply Rnot_lt_le. intros X. assert (0 < a * a + a * b + b * b) by nra.
  assert (0 < (a - b) * (a * a + a * b + b * b)) by (apply Rmult_lt_0_compat; lra). lra. Qed.
Lemma cbrt_range G n : good_glibm G -> (1 <= n < 2 ^ 64)%N ->
  finite_fp (g_cbrt G (of_size n)) /\ valid DBL (g_cbrt G (of_size n)) /\ 0 <= val (g_cbrt G (of_size n)) <= IZR (2 ^ 22).
Proof.
  intros HG Hn. destruct (cbrt_near G HG n Hn) as (Fy & Vy & E1 & E2). pose proof (of_size_range n Hn) as [R1 R2]. pose proof slop_small as S.
  repeat (split; [assumption|]). set (y := val (g_cbrt G (of_size n))) in *. set (v := val (of_size n)) in *. split.
  - apply Rnot_lt_le. intros X. assert (Y1 : y ^ 3 <= 0) by (assert (0 <= y * y) by nra; cbn; nra). assert (0 < v * (1 - slop)) by (apply Rmult_lt_0_compat; lra). lra.
  - apply cube_le; [apply IZR_le; lia|]. apply Rle_trans with (v * (1 + slop)); [exact E2|].
    apply Rle_trans with (bpow radix2 64 * 2); [apply Rmult_le_compat; lra|].
    change (bpow radix2 64) with (IZR (2 ^ 64)). rewrite <- mult_IZR, pow_IZR. apply IZR_le. vm_compute. discriminate.
Qed.
Lemma rice_covering G : good_glibm G -> covering (gen_rice G).
Proof.
  intros HG [|x l] Hne Hlen Hf; [congruence|]. inversion Hf as [|? ? Hx Hl]; subst.
  set (n := N.of_nat (length (x :: l))) in *. assert (Hn : (1 <= n < 2 ^ 64)%N) by (unfold n; cbn [length] in *; lia).
  destruct (cbrt_range G n HG Hn) as (Fy & Vy & Ry).
  destruct (plus_two _ 2 (2 ^ 22 + 2) Fy Vy) as (F & R & _); [lia|vm_compute; discriminate|rewrite plus_IZR; lra|].
  destruct (bins_size _ F) as (m & Em & Hm & _).
  { split; [lra|]. apply Rle_lt_trans with (IZR (2 ^ 22 + 2)); [lra|]. change (bpow radix2 64) with (IZR (2 ^ 64)). apply IZR_lt. reflexivity. }
  destruct (bins_cover (fun _ _ l => to_size (dadd (g_cbrt G (count l)) (of_size 2))) x l m Hx Hl Em Hm) as (bs & E & C & _). exists bs. split; [exact E|exact C].
Qed.

(* ---- a fixed number of buckets *)
Lemma n_buckets_covering k : (1 <= k < 2 ^ 64)%N -> covering (gen_n_buckets k).
Proof.
  intros Hk [|x l] Hne Hlen Hf; [congruence|]. inversion Hf as [|? ? Hx Hl]; subst. unfold gen_n_buckets.
  destruct (N.eqb_spec k 0); [lia|]. eexists. split; [reflexivity|]. apply lefts_cover; try assumption; [|lia].
  apply ceil_up, div_up; [exact (proj2 (spread_rounded x l Hx Hl))|exact Hk].
Qed.

Lemma covering_good g : covering g -> good_generator g.
Proof.
  intros H l H1 H2 H3. destruct (H l H1 H2 H3) as (bs & E & A & b & bs' & -> & _). eexists. split; [exact E|]. split; [discriminate|exact A].
Qed.
