(* Bit patterns in the order of the numbers, and boundaries in ascending order *)
From Verif Require Import ModelBytes ModelHist ModelElen ModelFloat ModelGen SpecHist SpecFp ProofFpBase ProofFpBits ProofFpMant ProofGen1.
From Coq Require Import Reals Psatz.
From Flocq Require Import Core BinarySingleNaN.
Local Open Scope Z_scope.
Local Notation is_finite := SpecHist.is_finite.

(* the key of a value *)
Definition mag_key (x : spec_float) : Z :=
  match x with
  | S754_zero _ => 0
  | S754_infinity _ => 2047 * 2 ^ 52
  | S754_nan => 0
  | S754_finite _ m e => (e + 1074) * 2 ^ 52 + Zpos m
  end.
Definition sgn_of (x : spec_float) : bool :=
  match x with S754_zero s | S754_infinity s | S754_finite s _ _ => s | S754_nan => false end.
Definition skey (x : spec_float) : Z := if sgn_of x then - mag_key x else mag_key x.

Lemma emin_dbl : emin 53 1024 = -1074. Proof. reflexivity. Qed.

Lemma mag_range x : valid DBL x -> 0 <= mag_key x < 2 ^ 63 /\ (finite_fp x -> mag_key x < 2047 * 2 ^ 52).
Proof.
  intros V. destruct x as [s|s| |s m e]; cbn [mag_key finite_fp]; [lia|split; [lia|tauto]|lia|].
  apply (valid_finite DBL s m e dbl_ok) in V. cbn [f_prec f_emax DBL] in V. rewrite emin_dbl in V.
  change (2 ^ (53 - 1)) with (2 ^ 52) in V. lia.
Qed.

Lemma bits_split x : valid DBL x -> not_nan x ->
  bits_of_sf DBL x = (if sgn_of x then 2 ^ 63 else 0) + mag_key x.
Proof.
  intros V NN. unfold bits_of_sf. cbn [f_prec f_emax DBL]. rewrite emin_dbl. change (53 - 1) with 52.
  destruct x as [s|s| |s m e]; cbn [sgn_of mag_key]; [destruct s; reflexivity|destruct s; reflexivity|congruence|].
  apply (valid_finite DBL s m e dbl_ok) in V. cbn [f_prec f_emax DBL] in V. rewrite emin_dbl in V. change (2 ^ (53 - 1)) with (2 ^ 52) in V.
  change (2 ^ 52 * (2 * 1024)) with (2 ^ 63). destruct (Z.ltb_spec (Zpos m) (2 ^ 52)) as [H|H]; destruct s; lia.
Qed.

Lemma pattern_key x : valid DBL x -> not_nan x ->
  d_key (pattern x) = skey x /\ d_nan (pattern x) = false /\ (pattern x < 2 ^ 64)%N.
Proof.
  intros V NN. pose proof (bits_split x V NN) as E. destruct (mag_range x V) as [M _].
  assert (M2 : mag_key x <= 2047 * 2 ^ 52).
  { destruct x as [s|s| |s m e]; cbn [mag_key]; try lia. apply Z.lt_le_incl. apply (proj2 (mag_range _ V)). exact I. }
  unfold pattern, skey. rewrite E. clear E. generalize dependent (mag_key x). intros k M M2.
  assert (P : exists b : bool, sgn_of x = b) by eauto. destruct P as [b ->].
  assert (Q : d_mag (Z.to_N ((if b then 2 ^ 63 else 0) + k)) = Z.to_N k).
  { unfold d_mag. destruct b.
    - rewrite Z2N.inj_add by lia. change (Z.to_N (2 ^ 63)) with (1 * 2 ^ 63)%N. rewrite N.add_comm, N.mod_add by lia. apply N.mod_small. lia.
    - rewrite Z.add_0_l. apply N.mod_small. lia. }
  unfold d_key, d_nan, d_sign. rewrite Q. split; [|split].
  - destruct b; [destruct (N.leb_spec (2 ^ 63)%N (Z.to_N (2 ^ 63 + k))) as [_|X]; [lia|exfalso; revert X; rewrite Z2N.inj_add by lia; change (Z.to_N (2 ^ 63)) with (2 ^ 63)%N; lia]|].
    destruct (N.leb_spec (2 ^ 63) (Z.to_N (0 + k))); lia.
  - apply N.ltb_ge. lia.
  - destruct b; lia.
Qed.

(* patterns of finite numbers *)
Lemma dbl_finite v : is_finite v -> finite_fp (dbl v) /\ valid DBL (dbl v) /\ pattern (dbl v) = v /\ skey (dbl v) = d_key v.
Proof.
  intros [H64 Hm]. pose proof (bits_valid DBL (Z.of_N v) dbl_ok) as V. fold (dbl v) in V.
  assert (Fx : finite_fp (dbl v)).
  { unfold dbl, sf_of_bits. cbn [f_prec f_emax DBL]. change (53 - 1) with 52. change (2 * 1024) with 2048.
    set (fr := Z.of_N v mod 2 ^ 52). set (ex := Z.of_N v / 2 ^ 52 mod 2048).
    assert (Em : Z.of_N (d_mag v) = ex * 2 ^ 52 + fr).
    { unfold d_mag. rewrite N2Z.inj_mod by lia. change (Z.of_N (2 ^ 63)) with (2 ^ 52 * 2048).
      rewrite Z.rem_mul_r by lia. unfold ex, fr. lia. }
    pose proof (Z.mod_pos_bound (Z.of_N v) (2 ^ 52) ltac:(lia)) as Fr. fold fr in Fr.
    assert (ex < 2047) by lia. clearbody fr ex. cbv zeta.
    destruct (Z.eqb_spec ex 0); [destruct fr; exact I|]. destruct (Z.eqb_spec ex (2048 - 1)); [lia|]. exact I. }
  assert (NN : not_nan (dbl v)) by (intros E; rewrite E in Fx; exact Fx).
  assert (E : pattern (dbl v) = v).
  { unfold pattern, dbl. rewrite bits_back; [apply N2Z.id|exact dbl_ok| |exact NN]. change (2 ^ (8 * Z.of_nat (f_bytes DBL))) with (2 ^ 64). lia. }
  repeat (split; [assumption|]). destruct (pattern_key _ V NN) as [K _]. rewrite E in K. symmetry. exact K.
Qed.

Lemma mag_lt s1 m1 e1 s2 m2 e2 : valid DBL (S754_finite s1 m1 e1) -> valid DBL (S754_finite s2 m2 e2) ->
  mag_key (S754_finite s1 m1 e1) < mag_key (S754_finite s2 m2 e2) <->
  (IZR (Zpos m1) * bpow radix2 e1 < IZR (Zpos m2) * bpow radix2 e2)%R.
Proof.
  assert (W : forall s1 m1 e1 s2 m2 e2, valid DBL (S754_finite s1 m1 e1) -> valid DBL (S754_finite s2 m2 e2) ->
    e1 < e2 -> mag_key (S754_finite s1 m1 e1) < mag_key (S754_finite s2 m2 e2) /\
    (IZR (Zpos m1) * bpow radix2 e1 < IZR (Zpos m2) * bpow radix2 e2)%R).
  { clear. intros s1 m1 e1 s2 m2 e2 V1 V2 He. apply (valid_finite DBL _ _ _ dbl_ok) in V1, V2.
    cbn [f_prec f_emax DBL] in V1, V2. rewrite emin_dbl in V1, V2. change (2 ^ (53 - 1)) with (2 ^ 52) in V1, V2.
    cbn [mag_key]. assert (A : Zpos m1 < 2 ^ 53) by lia. assert (B : 2 ^ 52 <= Zpos m2) by lia. split; [nia|].
    apply Rlt_le_trans with (IZR (2 ^ 53) * bpow radix2 e1)%R.
    - apply Rmult_lt_compat_r; [apply bpow_gt_0|apply IZR_lt, A].
    - apply Rle_trans with (IZR (2 ^ 52) * bpow radix2 e2)%R.
      + change (IZR (2 ^ 53)) with (bpow radix2 53). change (IZR (2 ^ 52)) with (bpow radix2 52). rewrite <- !bpow_plus. apply bpow_le. lia.
      + apply Rmult_le_compat_r; [apply bpow_ge_0|apply IZR_le, B]. }
  intros V1 V2. destruct (Z.lt_trichotomy e1 e2) as [He|[He|He]].
  - destruct (W _ _ _ _ _ _ V1 V2 He). tauto.
  - subst e2. cbn [mag_key]. split; intros H.
    + apply Rmult_lt_compat_r; [apply bpow_gt_0|apply IZR_lt; lia].
    + apply Rmult_lt_reg_r in H; [|apply bpow_gt_0]. apply lt_IZR in H. lia.
  - destruct (W _ _ _ _ _ _ V2 V1 He) as [A B]. split; intros H; [lia|]. exfalso; lra.
Qed.

Lemma mag_pos s m e : valid DBL (S754_finite s m e) -> 0 < mag_key (S754_finite s m e).
Proof.
  intros V. apply (valid_finite DBL _ _ _ dbl_ok) in V. cbn [f_prec f_emax DBL] in V. rewrite emin_dbl in V. cbn [mag_key]. lia.
Qed.

(* the order of keys is the order of numbers *)
Lemma key_lt x y : valid DBL x -> valid DBL y -> finite_fp x -> finite_fp y -> skey x < skey y <-> (val x < val y)%R.
Proof.
  intros Vx Vy Fx Fy. unfold skey.
  assert (P : forall s m e, (0 < IZR (Zpos m) * bpow radix2 e)%R /\ val (S754_finite s m e) = ((if s then -1 else 1) * (IZR (Zpos m) * bpow radix2 e))%R).
  { intros s m e. split; [apply Rmult_lt_0_compat; [apply IZR_lt; reflexivity|apply bpow_gt_0]|cbn [val]; rewrite pw2; ring]. }
  destruct x as [sx|sx| |sx mx ex]; try contradiction; destruct y as [sy|sy| |sy my ey]; try contradiction; cbn [sgn_of].
  - cbn [mag_key val]. destruct sx, sy; split; intros; try lia; lra.
  - destruct (P sy my ey) as [P1 ->]. pose proof (mag_pos _ _ _ Vy). set (k := mag_key _) in *. cbn [mag_key val]. destruct sx, sy; split; intros; try lia; lra.
  - destruct (P sx mx ex) as [P1 ->]. pose proof (mag_pos _ _ _ Vx). set (k := mag_key _) in *. cbn [mag_key val]. destruct sx, sy; split; intros; try lia; lra.
  - destruct (P sx mx ex) as [P1 ->]. destruct (P sy my ey) as [P2 ->].
    pose proof (mag_pos _ _ _ Vx). pose proof (mag_pos _ _ _ Vy).
    pose proof (mag_lt _ _ _ _ _ _ Vx Vy) as L1. pose proof (mag_lt _ _ _ _ _ _ Vy Vx) as L2.
    set (k := mag_key (S754_finite sx _ _)) in *. set (l := mag_key (S754_finite sy _ _)) in *.
    destruct sx, sy.
    + split; intros Q; [assert (l < k) by lia; apply L2 in H1; lra|]. assert (Q' : (IZR (Z.pos my) * bpow radix2 ey < IZR (Z.pos mx) * bpow radix2 ex)%R) by lra. apply L2 in Q'. lia.
    + split; intros; [lra|lia].
    + split; intros; [lia|lra].
    + split; intros Q; [apply L1 in Q; lra|]. apply L1. lra.
Qed.
Lemma key_le x y : valid DBL x -> valid DBL y -> finite_fp x -> finite_fp y -> skey x <= skey y <-> (val x <= val y)%R.
Proof.
  intros Vx Vy Fx Fy. pose proof (key_lt y x Vy Vx Fy Fx) as H. split; intros Q.
  - apply Rnot_lt_le. intros X. apply H in X. lia.
  - apply Z.nlt_ge. intros X. apply H in X. lra.
Qed.

Local Open Scope R_scope.
(* a number that is not below zero, or plus infinity *)
Definition up_step (x : spec_float) : Prop := valid DBL x /\ (x = S754_infinity false \/ (finite_fp x /\ 0 <= val x)).
(* a number or plus infinity *)
Definition proper (x : spec_float) : Prop := valid DBL x /\ (x = S754_infinity false \/ finite_fp x).

Lemma proper_nn x : proper x -> not_nan x.
Proof. intros [_ [->|F]] E; [discriminate|]. rewrite E in F. exact F. Qed.

Lemma rounded_up v x : rounded v x -> 0 <= v -> up_step x.
Proof.
  intros [V H] Hv. split; [exact V|]. destruct (Rlt_bool_spec (Rabs (rnd DBL v)) (big DBL)).
  - right. destruct H as [Fx ->]. split; [exact Fx|]. rewrite <- (rnd_0 DBL). apply rnd_le; [exact dbl_ok|exact Hv].
  - left. rewrite H. f_equal. apply Rlt_bool_false. exact Hv.
Qed.

Lemma add_up l d : proper l -> up_step d -> proper (dadd l d) /\ (skey l <= skey (dadd l d))%Z.
Proof.
  intros [Vl Hl] [Vd Hd].
  destruct Hl as [->|Fl].
  { destruct Hd as [->|[Fd Hd]]; [split; [split; [reflexivity|left; reflexivity]|vm_compute; discriminate]|].
    destruct d as [s|s| |s m e]; try contradiction; split; try (split; [reflexivity|left; reflexivity]); vm_compute; discriminate. }
  assert (Inf : forall x, valid DBL x -> finite_fp x -> (skey x <= skey (S754_infinity false))%Z).
  { intros x V Fx. destruct (mag_range x V) as [A B]. specialize (B Fx). unfold skey at 2. cbn [sgn_of mag_key].
    unfold skey. destruct (sgn_of x); lia. }
  destruct Hd as [->|[Fd Hd]].
  - assert (E : dadd l (S754_infinity false) = S754_infinity false) by (destruct l; try contradiction; reflexivity).
    rewrite E. split; [split; [reflexivity|left; reflexivity]|]. apply Inf; assumption.
  - pose proof (dadd_rounded l d Vl Vd Fl Fd) as [V H]. destruct (Rlt_bool_spec (Rabs (rnd DBL (val l + val d))) (big DBL)) as [Hb|Hb].
    + destruct H as [Fr Ev]. split; [split; [exact V|right; exact Fr]|]. apply key_le; try assumption. rewrite Ev.
      rewrite <- (rnd_val DBL l dbl_ok Vl) at 1. apply rnd_le; [exact dbl_ok|lra].
    + assert (S : Rlt_bool (val l + val d) 0 = false).
      { apply Rlt_bool_false. apply Rnot_lt_le. intros X.
        assert (rnd DBL (val l + val d) <= 0) by (rewrite <- (rnd_0 DBL); apply rnd_le; [exact dbl_ok|lra]).
        assert (val l <= rnd DBL (val l + val d)) by (rewrite <- (rnd_val DBL l dbl_ok Vl) at 1; apply rnd_le; [exact dbl_ok|lra]).
        pose proof (val_big DBL l dbl_ok Vl) as VB. apply Rabs_def2 in VB. rewrite Rabs_left1 in Hb by assumption. lra. }
      rewrite S in H. rewrite H. split; [split; [reflexivity|left; reflexivity]|]. apply Inf; assumption.
Qed.

Lemma lefts_spec k : forall l d, proper l -> up_step d ->
  Forall (fun b => d_nan b = false /\ (b < 2 ^ 64)%N /\ (skey l <= d_key b)%Z) (lefts k l d) /\ ascending (lefts k l d).
Proof.
  induction k as [|k IH]; intros l d Hl Hd; cbn [lefts].
  - split; [constructor|]. split; [constructor|]. intros [|i] j bi bj _ Hi; discriminate.
  - destruct (add_up l d Hl Hd) as [Hl' Hk]. destruct (IH _ _ Hl' Hd) as [F1 [F2 F3]].
    destruct (pattern_key l (proj1 Hl) (proper_nn l Hl)) as (K1 & K2 & K3).
    assert (F4 : Forall (fun b => d_nan b = false /\ (b < 2 ^ 64)%N /\ (skey l <= d_key b)%Z) (lefts k (dadd l d) d)).
    { eapply Forall_impl; [|exact F1]. intros b (B1 & B2 & B3). repeat split; try assumption. lia. }
    split; [constructor; [repeat split; try assumption; lia|exact F4]|]. split; [constructor; assumption|].
    intros [|i] [|j] bi bj Hij Hi Hj; try lia; cbn [nth_error] in Hi, Hj.
    + injection Hi as <-. rewrite K1. rewrite Forall_forall in F4. apply F4. eapply nth_error_In, Hj.
    + apply (F3 i j); [lia|assumption|assumption].
Qed.

(* ---- least and greatest element *)
Local Open Scope N_scope.
Lemma finite_lt a b : is_finite a -> is_finite b -> d_lt a b = (d_key a <? d_key b)%Z.
Proof.
  intros [_ Ha] [_ Hb]. unfold d_lt, d_nan.
  destruct (N.ltb_spec 0x7ff0000000000000 (d_mag a)); [lia|]. destruct (N.ltb_spec 0x7ff0000000000000 (d_mag b)); [lia|]. reflexivity.
Qed.
Lemma min_spec l : forall m, is_finite m -> Forall is_finite l ->
  is_finite (min_element m l) /\ In (min_element m l) (m :: l) /\ forall v, In v (m :: l) -> (d_key (min_element m l) <= d_key v)%Z.
Proof.
  induction l as [|x l IH]; intros m Hm Hl; cbn [min_element].
  - split; [exact Hm|]. split; [left; reflexivity|]. intros v [<-|[]]. lia.
  - inversion Hl as [|? ? Hx Hl']; subst. rewrite (finite_lt x m Hx Hm). destruct (Z.ltb_spec (d_key x) (d_key m)) as [Q|Q].
    + destruct (IH x Hx Hl') as (A & B & C). split; [exact A|]. split; [right; exact B|].
      intros v [<-|Hv]; [|apply C, Hv]. specialize (C x (or_introl eq_refl)). lia.
    + destruct (IH m Hm Hl') as (A & B & C). split; [exact A|]. split; [destruct B as [B|B]; [left; exact B|right; right; exact B]|].
      intros v [<-|[<-|Hv]]; [apply C; left; reflexivity| |apply C; right; exact Hv]. specialize (C m (or_introl eq_refl)). lia.
Qed.
Lemma max_spec l : forall m, is_finite m -> Forall is_finite l ->
  is_finite (max_element m l) /\ In (max_element m l) (m :: l) /\ forall v, In v (m :: l) -> (d_key v <= d_key (max_element m l))%Z.
Proof.
  induction l as [|x l IH]; intros m Hm Hl; cbn [max_element].
  - split; [exact Hm|]. split; [left; reflexivity|]. intros v [<-|[]]. lia.
  - inversion Hl as [|? ? Hx Hl']; subst. rewrite (finite_lt m x Hm Hx). destruct (Z.ltb_spec (d_key m) (d_key x)) as [Q|Q].
    + destruct (IH x Hx Hl') as (A & B & C). split; [exact A|]. split; [right; exact B|].
      intros v [<-|Hv]; [|apply C, Hv]. specialize (C x (or_introl eq_refl)). lia.
    + destruct (IH m Hm Hl') as (A & B & C). split; [exact A|]. split; [destruct B as [B|B]; [left; exact B|right; right; exact B]|].
      intros v [<-|[<-|Hv]]; [apply C; left; reflexivity| |apply C; right; exact Hv]. specialize (C m (or_introl eq_refl)). lia.
Qed.
