(* The text of an encoded floating point value, and its order *)
From Verif Require Import ModelBytes ProofBytes ModelKey ModelElen ModelFloat SpecElen SpecFp ProofElen ProofFpDecode ProofFpBase ProofFpMant.
From Coq Require Import Reals Psatz.
From Flocq Require Import Core Operations BinarySingleNaN.
Local Open Scope R_scope.

Lemma nearest_le a b : a <= b -> (ZnearestE a <= ZnearestE b)%Z.
Proof. intros H. apply (Zrnd_le ZnearestE). exact H. Qed.
Lemma nearest_IZR n : ZnearestE (IZR n) = n.
Proof. apply (Zrnd_IZR ZnearestE). Qed.

Lemma div_even_spec n d : (0 < d)%Z -> div_even n d = ZnearestE (IZR n / IZR d).
Proof.
  intros Hd. unfold div_even, Znearest.
  assert (D : 0 < IZR d) by (apply IZR_lt; exact Hd).
  rewrite Zfloor_div by lia.
  pose proof (Z.div_mod n d ltac:(lia)) as E. pose proof (Z.mod_pos_bound n d Hd) as B.
  set (q := (n / d)%Z) in *. set (r := (n mod d)%Z) in *.
  assert (X : IZR n / IZR d - IZR q = IZR r / IZR d).
  { rewrite E, plus_IZR, mult_IZR. field. lra. }
  rewrite X.
  assert (C : Rcompare (IZR r / IZR d) (/ 2) = Z.compare (2 * r) d).
  { rewrite <- (Rcompare_mult_r (2 * IZR d) (IZR r / IZR d)) by lra.
    replace (IZR r / IZR d * (2 * IZR d)) with (IZR (2 * r)) by (rewrite mult_IZR; field; lra).
    replace (/ 2 * (2 * IZR d)) with (IZR d) by field. apply Rcompare_IZR. }
  rewrite C.
  assert (U : r <> 0%Z -> Zceil (IZR n / IZR d) = (q + 1)%Z).
  { intros Hr. rewrite Zceil_floor_neq. { rewrite Zfloor_div by lia. reflexivity. }
    rewrite Zfloor_div by lia. fold q. intros Q. rewrite <- Q in X.
    replace (IZR q - IZR q) with 0 in X by ring.
    assert (Y : IZR r = 0). { replace (IZR r) with (IZR r / IZR d * IZR d) by (field; lra). rewrite <- X. ring. }
    apply eq_IZR in Y. contradiction. }
  destruct (Z.compare_spec (2 * r) d) as [H|H|H].
  - rewrite U by lia. destruct (Z.even q); reflexivity.
  - reflexivity.
  - rewrite U by lia. reflexivity.
Qed.

Lemma scaled_spec m e p :
  scaled m e p = ZnearestE (IZR (Zpos m) * powerRZ 2 e * ten (Z.of_N p)).
Proof.
  unfold scaled. rewrite pw2. rewrite (ten_IZR (Z.of_N p)) by lia.
  destruct (Z.leb_spec 0 e) as [H|H].
  - rewrite (two_IZR e) by exact H. rewrite <- !mult_IZR, nearest_IZR. lia.
  - rewrite div_even_spec by (apply Z.pow_pos_nonneg; lia). f_equal.
    rewrite mult_IZR. rewrite <- two_IZR by lia.
    pose proof (two_inv e) as E. pose proof (bpow_gt_0 radix2 (- e)) as P.
    unfold Rdiv. replace (/ bpow radix2 (- e)) with (bpow radix2 e); [ring|].
    apply Rmult_eq_reg_r with (bpow radix2 (- e)); [|lra]. rewrite E. field. lra.
Qed.

Local Notation num := ProofElen.num.
Local Open Scope N_scope.
Lemma pad_spec k n : all_digits (pad k n) /\ List.length (pad k n) = k /\ num (pad k n) = n mod 10 ^ N.of_nat k.
Proof.
  revert n; induction k as [|k IH]; intros n.
  - cbn [pad]. repeat split; [constructor|]. cbn. rewrite N.mod_1_r. reflexivity.
  - destruct (IH (n / 10)) as (A & B & C). cbn [pad].
    assert (D : n mod 10 < 10) by (apply N.mod_lt; lia).
    assert (AD : all_digits (pad k (n / 10) ++ [digit (n mod 10)])) by (apply all_digits_snoc; assumption).
    split; [exact AD|]. split.
    + rewrite app_length, B. cbn. lia.
    + rewrite num_snoc by exact AD. rewrite C, N_of_digit by exact D.
      rewrite Nat2N.inj_succ, N.pow_succ_r'. rewrite (N.mod_mul_r n 10) by (try apply N.pow_nonzero; lia). lia.
Qed.

Lemma print_below p s m e : (0 <= scaled m e p < 10 ^ Z.of_N p)%Z ->
  skipn 2 (print_fixed p (S754_finite s m e)) = pad (N.to_nat p) (Z.to_N (scaled m e p)).
Proof.
  intros H. unfold print_fixed. set (M := Z.to_N (scaled m e p)).
  assert (HM : M < 10 ^ p).
  { unfold M. apply N2Z.inj_lt. rewrite Z2N.id by lia. rewrite N2Z.inj_pow. change (Z.of_N 10) with 10%Z. lia. }
  rewrite N.div_small by exact HM. change (to_string 0) with [digit 0].
  destruct (N.eqb_spec p 0) as [->|Hp]; [reflexivity|].
  cbn [app skipn]. rewrite N.mod_small by exact HM. reflexivity.
Qed.

Local Open Scope R_scope.

(* the digits in the encoding of x *)
Definition mdigits (L : libm) (F : fmt) (p : N) (x : spec_float) : Z := ZnearestE (mant L F x * ten (Z.of_N p)).
Definition dig (L : libm) (F : fmt) (p : N) (x : spec_float) : bytes :=
  if (lm_exp L F x <? -308)%Z then bstr "f"
  else dg (is_neg x) (pad (N.to_nat p) (Z.to_N (mdigits L F p x))).

Lemma mdigits_range L F p x : / 64 <= mant L F x <= / 2 -> (0 <= mdigits L F p x < 10 ^ Z.of_N p)%Z.
Proof.
  intros [A B]. unfold mdigits. pose proof (ten_pos (Z.of_N p)) as T. split.
  - rewrite <- (nearest_IZR 0) at 1. apply nearest_le. apply Rmult_le_pos; lra.
  - rewrite (ten_IZR (Z.of_N p)) in * by lia. destruct (N.eq_dec p 0) as [->|Hp].
    + cbn [Z.of_N Z.pow]. rewrite Rmult_1_r. apply Z.le_lt_trans with (ZnearestE (/ 2)); [apply nearest_le; lra|].
      replace (/ 2) with (IZR 1 / IZR 2) by lra. rewrite <- div_even_spec by lia. reflexivity.
    + set (h := (10 ^ Z.of_N p / 2)%Z).
      assert (E : (10 ^ Z.of_N p = 2 * h)%Z).
      { unfold h. replace (Z.of_N p) with (Z.succ (Z.of_N p - 1)) by lia. rewrite Z.pow_succ_r by lia.
        replace (10 * 10 ^ (Z.of_N p - 1))%Z with ((5 * 10 ^ (Z.of_N p - 1)) * 2)%Z by lia. rewrite Z.div_mul by lia. lia. }
      assert (P : (0 < 10 ^ Z.of_N p)%Z) by (apply Z.pow_pos_nonneg; lia).
      apply Z.le_lt_trans with h; [|lia]. rewrite <- (nearest_IZR h). apply nearest_le.
      rewrite E, mult_IZR in *. assert (0 <= IZR h) by lra. nra.
Qed.

Lemma abs_val s m e : Rabs (val (S754_finite s m e)) = IZR (Zpos m) * powerRZ 2 e.
Proof.
  cbn [val]. pose proof (bpow_gt_0 radix2 e) as B. rewrite <- pw2 in B.
  assert (M : 0 < IZR (Z.pos m)) by (apply IZR_lt; reflexivity).
  assert (P : 0 < IZR (Z.pos m) * powerRZ 2 e) by (apply Rmult_lt_0_compat; assumption).
  destruct s.
  - rewrite Rabs_left; nra.
  - rewrite Rabs_pos_eq; nra.
Qed.

Lemma enc32 v : (-400 <= v <= 400)%Z -> encodable int32_t v.
Proof.
  intros H. split; [|intros _].
  - change (it_min int32_t) with (-2147483648)%Z. change (it_max int32_t) with 2147483647%Z. lia.
  - change (it_min int32_t) with (-2147483648)%Z. lia.
Qed.

(* the exponent as it is encoded *)
Definition sexp (L : libm) (F : fmt) (x : spec_float) : Z := if is_neg x then (- lm_exp L F x)%Z else lm_exp L F x.

Lemma enc_int_ok v neg pos : (-400 <= v <= 400)%Z -> exists es, enc_int int32_t v neg pos = Ok es.
Proof.
  intros H. destruct (enc_int_shape int32_t v neg pos ltac:(cbn; lia) (enc32 v H))
    as [[_ E]|[(_ & _ & s & _ & E)|(_ & _ & _ & _ & s & _ & E)]]; eauto.
Qed.

Lemma enc_shape L F p neg pos x : good_libm L -> fmt_ok F -> valid F x -> nonzero_fp x ->
  exists es, enc_int int32_t (sexp L F x) neg pos = Ok es /\
    enc_fp L F p neg pos x =
      Ok ((if is_neg x then neg else pos) :: es ++ dig L F p x ++ [if is_neg x then pos else neg]).
Proof.
  intros G HF V N. pose proof (exp_range L F x G HF V N) as R.
  destruct (enc_int_ok (sexp L F x) neg pos) as [es Ees].
  { unfold sexp. destruct (is_neg x); lia. }
  exists es. split; [exact Ees|]. unfold enc_fp.
  assert (Z0 : is_zero x = false) by (destruct x; cbn in N; try contradiction; reflexivity). rewrite Z0.
  unfold dig. destruct (Z.ltb_spec (lm_exp L F x) (-308)) as [H|H].
  - rewrite frexp_tiny by assumption. cbn [obind]. fold (sexp L F x). rewrite Ees. cbn [obind is_zero].
    unfold small_digits. cbn [is_zero is_neg print_fixed]. f_equal. f_equal. f_equal. f_equal.
    destruct (is_neg x); reflexivity.
  - destruct (frexp_finite L F x G HF V N H) as (m & Em & Nm & Vm & Sm & Am & Rm).
    rewrite Em. cbn [obind]. fold (sexp L F x). rewrite Ees. cbn [obind].
    destruct m as [s|s| |s mm me]; cbn in Nm; try contradiction. cbn [is_zero is_neg] in *. subst s.
    f_equal. f_equal. f_equal. f_equal. unfold small_digits. cbn [is_zero is_neg].
    assert (E : scaled mm me p = mdigits L F p x).
    { rewrite scaled_spec. unfold mdigits. rewrite <- Am, abs_val. reflexivity. }
    rewrite print_below by (rewrite E; apply mdigits_range; exact Rm). rewrite E. reflexivity.
Qed.

Lemma enc_zero L F p neg pos x : is_zero x = true -> enc_fp L F p neg pos x = Ok [digit 0].
Proof. intros H. unfold enc_fp. rewrite H. reflexivity. Qed.

(* ---- order ---- *)
Lemma pad_mono (b : bool) p n m : (0 <= n <= m)%Z -> (m < 10 ^ Z.of_N p)%Z ->
  let s k := dg b (pad (N.to_nat p) (Z.to_N k)) in
  s n = s m \/ (if b then slt (s m) (s n) else slt (s n) (s m)).
Proof.
  intros H Hm s. destruct (Z.eq_dec n m) as [->|Ne]; [left; reflexivity|right].
  destruct (pad_spec (N.to_nat p) (Z.to_N n)) as (A & B & C).
  destruct (pad_spec (N.to_nat p) (Z.to_N m)) as (A' & B' & C').
  rewrite N2Nat.id in C, C'.
  assert (T : Z.of_N (10 ^ p) = (10 ^ Z.of_N p)%Z) by (rewrite N2Z.inj_pow; reflexivity).
  assert (Ln : (Z.to_N n < 10 ^ p)%N) by (clear - T H Hm; lia).
  assert (Lm : (Z.to_N m < 10 ^ p)%N) by (clear - T H Hm; lia).
  rewrite N.mod_small in C by exact Ln. rewrite N.mod_small in C' by exact Lm.
  assert (S : slt (pad (N.to_nat p) (Z.to_N n)) (pad (N.to_nat p) (Z.to_N m))).
  { apply digits_slt; try assumption; [unfold blen; rewrite B, B'; reflexivity|]. rewrite C, C'. clear - H Ne. lia. }
  unfold s, dg. destruct b; [apply flip_slt; assumption|exact S].
Qed.

Lemma mant_le L F x y : good_libm L -> fmt_ok F -> valid F x -> valid F y -> nonzero_fp x -> nonzero_fp y ->
  lm_exp L F x = lm_exp L F y -> (-308 <= lm_exp L F x)%Z -> Rabs (val x) <= Rabs (val y) ->
  mant L F x <= mant L F y.
Proof.
  intros G HF Vx Vy Nx Ny E He H. unfold mant. rewrite <- E.
  apply rnd_le; [exact HF|]. apply rnd_le; [apply dbl_ok|]. apply Rmult_le_compat_r; [|exact H].
  pose proof (product_range L F x G HF Vx Nx He) as P. pose proof (Rabs_pos (val x)).
  destruct (Rle_or_lt 0 (val (lm_pow L (- lm_exp L F x)))); [assumption|nra].
Qed.

(* same sign, |x| <= |y| *)
Lemma order_abs L F p neg pos x y a b : good_libm L -> fmt_ok F -> sym_ord neg pos ->
  valid F x -> valid F y -> nonzero_fp x -> nonzero_fp y -> is_neg x = is_neg y ->
  Rabs (val x) <= Rabs (val y) -> enc_fp L F p neg pos x = Ok a -> enc_fp L F p neg pos y = Ok b ->
  a = b \/ (if is_neg x then slt b a else slt a b).
Proof.
  intros G HF S Vx Vy Nx Ny Sg H Ea Eb.
  destruct (enc_shape L F p neg pos x G HF Vx Nx) as (es & I1 & E1).
  destruct (enc_shape L F p neg pos y G HF Vy Ny) as (et & I2 & E2).
  rewrite E1 in Ea. rewrite E2 in Eb. apply Ok_inj in Ea, Eb. subst a b.
  pose proof (exp_mono L G F x y HF Vx Vy Nx Ny H) as M.
  pose proof (exp_range L F x G HF Vx Nx) as Rx. pose proof (exp_range L F y G HF Vy Ny) as Ry.
  destruct (Z.eq_dec (lm_exp L F x) (lm_exp L F y)) as [E|Ne].
  - assert (es = et).
    { unfold sexp in I1, I2. rewrite Sg, E in I1. rewrite I1 in I2. apply Ok_inj in I2. exact I2. }
    subst et. rewrite <- Sg.
    assert (D : dig L F p x = dig L F p y \/
      (if is_neg x then slt (dig L F p y) (dig L F p x) else slt (dig L F p x) (dig L F p y))).
    { unfold dig. rewrite <- E, <- Sg. destruct (Z.ltb_spec (lm_exp L F x) (-308)) as [T|T]; [left; reflexivity|].
      destruct (frexp_finite L F x G HF Vx Nx T) as (_ & _ & _ & _ & _ & _ & R1).
      assert (T' : (-308 <= lm_exp L F y)%Z) by lia.
      destruct (frexp_finite L F y G HF Vy Ny T') as (_ & _ & _ & _ & _ & _ & R2).
      pose proof (mant_le L F x y G HF Vx Vy Nx Ny E T H) as ML.
      pose proof (mdigits_range L F p x R1) as D1. pose proof (mdigits_range L F p y R2) as D2.
      apply (pad_mono (is_neg x) p (mdigits L F p x) (mdigits L F p y)); [|lia].
      split; [lia|]. unfold mdigits. apply nearest_le. apply Rmult_le_compat_r; [|exact ML].
      apply Rlt_le, ten_pos. }
    destruct D as [->|D]; [left; reflexivity|right].
    destruct (is_neg x); apply slt_cons, slt_prefix, slt_app; exact D.
  - right. destruct (is_neg x) eqn:Nx'.
    + rewrite <- Sg. apply slt_cons. apply slt_app. unfold sexp in I1, I2. rewrite Nx' in I1. rewrite <- Sg in I2.
      refine (int_order int32_t int32_t (- lm_exp L F y) (- lm_exp L F x) neg pos et es _ _ S _ _ _ I2 I1);
        try (cbn; lia); try apply enc32; lia.
    + rewrite <- Sg. apply slt_cons. apply slt_app. unfold sexp in I1, I2. rewrite Nx' in I1. rewrite <- Sg in I2.
      refine (int_order int32_t int32_t (lm_exp L F x) (lm_exp L F y) neg pos es et _ _ S _ _ _ I1 I2);
        try (cbn; lia); try apply enc32; lia.
Qed.

Lemma zero_cases x : finite_fp x -> is_zero x = true \/ nonzero_fp x.
Proof. destruct x; cbn; tauto. Qed.
Lemma zero_val x : is_zero x = true -> val x = 0.
Proof. destruct x; cbn; intros; try discriminate. reflexivity. Qed.

Lemma fp_order L F p neg pos x y a b : good_libm L -> fmt_ok F -> sym_ord neg pos ->
  valid F x -> valid F y -> finite_fp x -> finite_fp y -> val x <= val y ->
  enc_fp L F p neg pos x = Ok a -> enc_fp L F p neg pos y = Ok b -> a = b \/ slt a b.
Proof.
  intros G HF S Vx Vy Fx Fy H Ea Eb. pose proof S as [S1 S2].
  destruct (neg_val x Fx) as [X1 X2]. destruct (neg_val y Fy) as [Y1 Y2].
  destruct (zero_cases x Fx) as [Zx|Nx]; destruct (zero_cases y Fy) as [Zy|Ny].
  - rewrite enc_zero in Ea by exact Zx. rewrite enc_zero in Eb by exact Zy. left. congruence.
  - rewrite enc_zero in Ea by exact Zx. apply Ok_inj in Ea. subst a. rewrite zero_val in H by exact Zx.
    destruct (enc_shape L F p neg pos y G HF Vy Ny) as (et & _ & E). rewrite E in Eb. apply Ok_inj in Eb. subst b.
    destruct (is_neg y); [specialize (Y1 eq_refl); lra|].
    right. apply slt_head. cbn. lia.
  - rewrite enc_zero in Eb by exact Zy. apply Ok_inj in Eb. subst b. rewrite (zero_val y) in H by exact Zy.
    destruct (enc_shape L F p neg pos x G HF Vx Nx) as (et & _ & E). rewrite E in Ea. apply Ok_inj in Ea. subst a.
    pose proof (nonzero_val' x Nx). destruct (is_neg x); [|specialize (X2 eq_refl); lra].
    right. apply slt_head. cbn. lia.
  - destruct (is_neg x) eqn:Sx; destruct (is_neg y) eqn:Sy.
    + specialize (X1 eq_refl). specialize (Y1 eq_refl).
      destruct (order_abs L F p neg pos y x b a G HF S Vy Vx Ny Nx ltac:(congruence)) as [E|E]; auto.
      { rewrite !Rabs_left; lra. }
      rewrite Sy in E. right. exact E.
    + right. destruct (enc_shape L F p neg pos x G HF Vx Nx) as (es & _ & E1).
      destruct (enc_shape L F p neg pos y G HF Vy Ny) as (et & _ & E2).
      rewrite E1, Sx in Ea. rewrite E2, Sy in Eb. apply Ok_inj in Ea, Eb. subst a b. apply slt_head. lia.
    + specialize (X2 eq_refl). specialize (Y1 eq_refl). lra.
    + specialize (X2 eq_refl). specialize (Y2 eq_refl).
      destruct (order_abs L F p neg pos x y a b G HF S Vx Vy Nx Ny ltac:(congruence)) as [E|E]; auto.
      { rewrite !Rabs_pos_eq; lra. }
      rewrite Sx in E. right. exact E.
Qed.
