(* How far a value that was encoded and decoded is from the original *)
From Verif Require Import ModelBytes ProofBytes ModelKey ModelElen ModelFloat SpecElen SpecFp ProofElen ProofFpDecode
  ProofFpBase ProofFpMant ProofFpOrder.
From Coq Require Import Reals Psatz.
From Flocq Require Import Core Operations BinarySingleNaN.
Local Open Scope R_scope.
Local Notation num := ProofElen.num.

Lemma span_all s : all_digits s -> span_digits s = s.
Proof. induction 1 as [|c s Hc _ IH]; cbn; [reflexivity|]. rewrite Hc, IH. reflexivity. Qed.

Definition sgn (b : bool) : R := if b then -1 else 1.

Lemma small_fits F v : fmt_ok F -> Rabs v <= / 2 -> Rabs (rnd F v) < big F.
Proof.
  intros HF H. rewrite rnd_abs by exact HF. pose proof (rnd_le F (Rabs v) (/ 2) HF H) as X.
  assert (E2 : rnd F (/ 2) = / 2).
  { pose proof (rnd_bpow F (-1) HF) as Y. change (bpow radix2 (-1)) with (/ 2) in Y. apply Y.
    destruct HF as [->| ->]; cbn; lia. }
  rewrite E2 in X. eapply Rle_lt_trans; [exact X|].
  change (/ 2) with (bpow radix2 (-1)). apply bpow_lt. destruct HF as [->| ->]; cbn; lia.
Qed.

(* reading the digits back *)
Lemma read_spec F b p M : fmt_ok F -> (1 <= p)%N -> (0 <= M < 10 ^ Z.of_N p)%Z ->
  IZR M / ten (Z.of_N p) <= / 2 ->
  let z := read_fraction F b (pad (N.to_nat p) (Z.to_N M)) in
  finite_fp z /\ valid F z /\ val z = rnd F (sgn b * (IZR M / ten (Z.of_N p))).
Proof.
  intros HF Hp HM Hh z. pose proof (pad_spec (N.to_nat p) (Z.to_N M)) as (A & B & C).
  rewrite N2Nat.id in C. rewrite N.mod_small in C.
  2: { apply N2Z.inj_lt. rewrite N2Z.inj_pow, Z2N.id by lia. change (Z.of_N 10) with 10%Z. lia. }
  unfold z, read_fraction. rewrite span_all by exact A. unfold num in C. rewrite C, B.
  destruct M as [|m|m]; [|cbn [Z.to_N]|lia].
  - cbn [Z.to_N]. split; [exact I|]. split; [reflexivity|]. cbn [val]. unfold Rdiv. rewrite Rmult_0_l, Rmult_0_r, rnd_0. reflexivity.
  - assert (E : IZR (Zpos (Pos.pow 10 (Pos.of_nat (N.to_nat p)))) = ten (Z.of_N p)).
    { rewrite ten_IZR by lia. f_equal. rewrite Pos2Z.inj_pow. f_equal. lia. }
    pose proof (ratio_spec F b m (Pos.pow 10 (Pos.of_nat (N.to_nat p))) HF) as X. cbv zeta in X. rewrite E in X.
    unfold sgn. apply X. apply small_fits; [exact HF|].
    pose proof (ten_pos (Z.of_N p)) as T. assert (0 <= IZR (Zpos m) / ten (Z.of_N p)).
    { apply Rle_mult_inv_pos; [apply IZR_le; lia|exact T]. }
    rewrite Rabs_mult. rewrite (Rabs_pos_eq (IZR _ / _)) by assumption.
    destruct b; [rewrite Rabs_left by lra|rewrite Rabs_pos_eq by lra]; lra.
Qed.

Lemma mdigits_near L F p x : Rabs (IZR (mdigits L F p x) / ten (Z.of_N p) - mant L F x) <= / 2 * ten (- Z.of_N p).
Proof.
  pose proof (Znearest_half (fun x => negb (Z.even x)) (mant L F x * ten (Z.of_N p))) as H.
  change (Znearest (fun x => negb (Z.even x))) with ZnearestE in H. fold (mdigits L F p x) in H.
  pose proof (ten_pos (Z.of_N p)) as T. pose proof (ten_pos (- Z.of_N p)) as T'. pose proof (ten_inv (Z.of_N p)) as E.
  assert (Iv : / ten (Z.of_N p) = ten (- Z.of_N p)).
  { apply Rmult_eq_reg_l with (ten (Z.of_N p)); [|lra]. rewrite E. field. lra. }
  unfold Rdiv. rewrite Iv. rewrite Rabs_minus_sym in H.
  replace (IZR (mdigits L F p x) * ten (- Z.of_N p) - mant L F x)
    with ((IZR (mdigits L F p x) - mant L F x * ten (Z.of_N p)) * ten (- Z.of_N p)).
  2: { replace ((IZR (mdigits L F p x) - mant L F x * ten (Z.of_N p)) * ten (- Z.of_N p))
         with (IZR (mdigits L F p x) * ten (- Z.of_N p) - mant L F x * (ten (Z.of_N p) * ten (- Z.of_N p))) by ring.
       rewrite E. ring. }
  rewrite Rabs_mult, (Rabs_pos_eq (ten (- Z.of_N p))) by lra. apply Rmult_le_compat_r; lra.
Qed.

Lemma mdigits_half L F p x : (1 <= p)%N -> / 64 <= mant L F x <= / 2 -> IZR (mdigits L F p x) / ten (Z.of_N p) <= / 2.
Proof.
  intros Hp [A B]. pose proof (ten_pos (Z.of_N p)) as T.
  assert (H : (2 * mdigits L F p x <= 10 ^ Z.of_N p)%Z).
  { unfold mdigits. set (h := (10 ^ Z.of_N p / 2)%Z).
    assert (E : (10 ^ Z.of_N p = 2 * h)%Z).
    { unfold h. replace (Z.of_N p) with (Z.succ (Z.of_N p - 1)) by lia. rewrite Z.pow_succ_r by lia.
      replace (10 * 10 ^ (Z.of_N p - 1))%Z with ((5 * 10 ^ (Z.of_N p - 1)) * 2)%Z by lia. rewrite Z.div_mul by lia. lia. }
    assert (ZnearestE (mant L F x * ten (Z.of_N p)) <= h)%Z; [|lia].
    rewrite <- (nearest_IZR h). apply nearest_le. rewrite ten_IZR in * by lia. rewrite E, mult_IZR in *.
    assert (0 <= IZR h) by lra. nra. }
  apply IZR_le in H. rewrite mult_IZR, <- ten_IZR in H by lia.
  apply Rmult_le_reg_r with (ten (Z.of_N p)); [exact T|]. unfold Rdiv. rewrite Rmult_assoc, Rinv_l by lra. lra.
Qed.

(* mantissa and value: relative errors *)
Definition u (F : fmt) : R := bpow radix2 (- f_prec F).
Lemma u_range F : fmt_ok F -> bpow radix2 (-53) <= u F <= bpow radix2 (-24).
Proof. intros [->| ->]; split; apply bpow_le; cbn; lia. Qed.
Lemma u_pos F : 0 < u F. Proof. apply bpow_gt_0. Qed.
Lemma b50 : bpow radix2 (-50) = 8 * bpow radix2 (-53).
Proof. replace (-50)%Z with (3 + -53)%Z by lia. rewrite bpow_plus. reflexivity. Qed.
Lemma b24 : bpow radix2 (-24) = / 16777216. Proof. reflexivity. Qed.

Lemma rel_mul a b d e : Rabs a <= d -> Rabs b <= e -> Rabs ((1 + a) * (1 + b) - 1) <= d + e + d * e.
Proof.
  intros A B. replace ((1 + a) * (1 + b) - 1) with (a + b + a * b) by ring.
  eapply Rle_trans; [apply Rabs_triang|]. apply Rplus_le_compat.
  - eapply Rle_trans; [apply Rabs_triang|]. lra.
  - rewrite Rabs_mult. apply Rmult_le_compat; try apply Rabs_pos; assumption.
Qed.

Lemma normal_small F v : fmt_ok F -> / 128 <= Rabs v ->
  exists eps, Rabs eps <= u F /\ rnd F v = v * (1 + eps).
Proof.
  intros HF H. apply rnd_err_normal; [exact HF|]. eapply Rle_trans; [|exact H].
  change (/ 128) with (bpow radix2 (-7)). apply bpow_le. destruct HF as [->| ->]; cbn; lia.
Qed.

Lemma mant_near L F x : good_libm L -> fmt_ok F -> valid F x -> nonzero_fp x -> (-308 <= lm_exp L F x <= 308)%Z ->
  exists al, Rabs al <= 11 * u F /\ mant L F x = Rabs (val x) * ten (- lm_exp L F x) * (1 + al).
Proof.
  intros G HF V N He. pose proof (product_range L F x G HF V N ltac:(lia)) as PR.
  unfold mant. set (e := lm_exp L F x) in *. set (P := val (lm_pow L (- e))) in *. set (a := Rabs (val x)) in *.
  pose proof (pow_fine L (- e) G ltac:(lia)) as PF. fold P in PF. pose proof (ten_pos (- e)) as T.
  set (h := P / ten (- e) - 1).
  assert (Hh : Rabs h <= bpow radix2 (-50)).
  { unfold h. replace (P / ten (- e) - 1) with ((P - ten (- e)) * / ten (- e)) by (field; lra).
    rewrite Rabs_mult, (Rabs_pos_eq (/ ten (- e))).
    - apply Rmult_le_reg_r with (ten (- e)); [exact T|]. rewrite Rmult_assoc, Rinv_l by lra. lra.
    - apply Rlt_le, Rinv_0_lt_compat, T. }
  assert (EP : P = ten (- e) * (1 + h)) by (unfold h; field; lra).
  pose proof (rnd_between DBL _ dbl_ok PR) as R1.
  destruct (normal_small DBL (a * P) dbl_ok) as [d1 [D1 E1]].
  { rewrite Rabs_pos_eq; lra. }
  destruct (normal_small F (rnd DBL (a * P)) HF) as [d2 [D2 E2]].
  { rewrite Rabs_pos_eq; lra. }
  exists ((1 + h) * (1 + d1) * (1 + d2) - 1).
  split.
  - change (u DBL) with (bpow radix2 (-53)) in D1. rewrite b50 in Hh.
    pose proof (u_range F HF) as [U1 U2]. rewrite b24 in U2. pose proof (u_pos F) as U0.
    pose proof (rel_mul h d1 _ _ Hh D1) as X.
    set (u53 := bpow radix2 (-53)) in *. assert (0 < u53) by apply bpow_gt_0.
    pose proof (rel_mul ((1 + h) * (1 + d1) - 1) d2 _ _ X D2) as Y.
    replace ((1 + ((1 + h) * (1 + d1) - 1)) * (1 + d2)) with ((1 + h) * (1 + d1) * (1 + d2)) in Y by ring.
    eapply Rle_trans; [exact Y|]. 
    assert (8 * u53 * u53 <= u53 / 100000) by nra.
    assert (8 * u53 + u53 + 8 * u53 * u53 <= 10 * u F) by lra.
    assert ((8 * u53 + u53 + 8 * u53 * u53) * u F <= 10 * u F * / 16777216) by (apply Rmult_le_compat; nra).
    lra.
  - rewrite E2, E1, EP. ring.
Qed.

Lemma read_near F b p M : fmt_ok F -> (1 <= p)%N -> (0 <= M < 10 ^ Z.of_N p)%Z ->
  IZR M / ten (Z.of_N p) <= / 2 -> (M = 0%Z \/ / 128 <= IZR M / ten (Z.of_N p)) ->
  exists de, Rabs de <= u F /\ rnd F (sgn b * (IZR M / ten (Z.of_N p))) = sgn b * (IZR M / ten (Z.of_N p)) * (1 + de).
Proof.
  intros HF Hp HM Hh [->|H].
  - exists 0. split; [rewrite Rabs_R0; apply Rlt_le, u_pos|].
    unfold Rdiv. rewrite Rmult_0_l, Rmult_0_r, rnd_0. ring.
  - apply normal_small; [exact HF|]. rewrite Rabs_mult.
    rewrite (Rabs_pos_eq (IZR M / _)) by lra. unfold sgn. destruct b; [rewrite Rabs_left by lra|rewrite Rabs_pos_eq by lra]; lra.
Qed.

Lemma mdigits_cases L F p x : (1 <= p)%N -> / 64 <= mant L F x <= / 2 ->
  mdigits L F p x = 0%Z \/ / 128 <= IZR (mdigits L F p x) / ten (Z.of_N p).
Proof.
  intros Hp R. pose proof (mdigits_range L F p x R) as MR. pose proof (mdigits_near L F p x) as N.
  destruct (Z.eq_dec (mdigits L F p x) 0) as [->|Nz]; [left; reflexivity|right].
  destruct (N.eq_dec p 1) as [->|Hp2].
  - change (ten (Z.of_N 1)) with (10 * 1). assert (1 <= IZR (mdigits L F 1 x)) by (apply IZR_le; lia). lra.
  - pose proof (ten_le (- Z.of_N p) (-2) ltac:(lia)) as T. change (ten (-2)) with (/ (10 * (10 * 1))) in T.
    apply Rabs_le_inv in N. lra.
Qed.

(* the final product *)
Lemma largest_valid F : fmt_ok F -> valid F (largest F).
Proof. intros [->| ->]; vm_compute; reflexivity. Qed.
Lemma largest_one F : fmt_ok F -> 2 <= val (largest F).
Proof.
  intros HF. unfold largest. cbn [val]. rewrite pw2, Rmult_1_l.
  assert (E : (2 <= 2 ^ f_prec F - 1)%Z) by (destruct HF as [->| ->]; vm_compute; congruence).
  rewrite Z2Pos.id by lia. apply IZR_le in E.
  assert (1 <= bpow radix2 (f_emax F - f_prec F)).
  { change 1 with (bpow radix2 0). apply bpow_le. destruct HF as [->| ->]; cbn; lia. }
  nra.
Qed.

Lemma finish_near L F e (m : spec_float) : good_libm L -> fmt_ok F -> (-308 <= e <= 308)%Z ->
  finite_fp m -> valid F m -> Rabs (val m) * (ten e * (1 + 8 * u F)) <= val (largest F) ->
  exists be eta, Rabs be <= 11 * u F /\ Rabs eta <= 2 * tiny F /\
    let r := sf_conv F (dmul (lm_pow L e) (sf_conv DBL m)) in
    finite_fp r /\ valid F r /\ val r = val m * ten e * (1 + be) + eta.
Proof.
  intros G HF He Fm Vm Hb. destruct (conv_dbl F m HF Vm Fm) as [C1 [C2 C3]].
  destruct (pow_rough L e G ltac:(lia)) as [FP PR]. pose proof (pow_fine L e G He) as PF.
  pose proof (pow_valid L G e) as VP. set (Q := lm_pow L e) in *.
  pose proof (ten_pos e) as T. apply Rabs_le_inv in PR.
  pose proof (u_range F HF) as [U1 U2]. rewrite b24 in U2. pose proof (u_pos F) as U0.
  assert (Q0 : 0 <= val Q) by lra.
  assert (Q1 : val Q <= ten e * (1 + 8 * u F)).
  { apply Rabs_le_inv in PF. rewrite b50 in PF. nra. }
  pose proof (largest_valid F HF) as VL.
  assert (PB : Rabs (val Q * val m) <= val (largest F)).
  { rewrite Rabs_mult, (Rabs_pos_eq (val Q)) by exact Q0. eapply Rle_trans; [|exact Hb].
    rewrite (Rmult_comm (Rabs (val m))). apply Rmult_le_compat_r; [apply Rabs_pos|exact Q1]. }
  assert (R1 : Rabs (rnd DBL (val Q * val m)) <= val (largest F)).
  { rewrite rnd_abs by apply dbl_ok. rewrite <- (rnd_dbl F (largest F) HF VL). apply rnd_le; [apply dbl_ok|exact PB]. }
  assert (LB : val (largest F) < big F).
  { eapply Rle_lt_trans; [apply Rle_abs|]. apply val_big; assumption. }
  assert (B1 : Rabs (rnd DBL (val Q * val (sf_conv DBL m))) < big DBL).
  { rewrite C3. eapply Rle_lt_trans; [exact R1|]. eapply Rlt_le_trans; [exact LB|]. apply (big_le F HF). }
  destruct (dmul_spec _ _ VP C2 FP C1 B1) as [M1 [M2 M3]]. rewrite C3 in M3.
  assert (B2 : Rabs (rnd F (val (dmul Q (sf_conv DBL m)))) < big F).
  { rewrite M3. eapply Rle_lt_trans; [|exact LB]. rewrite rnd_abs by exact HF.
    rewrite <- (rnd_val F (largest F) HF VL). apply rnd_le; [exact HF|exact R1]. }
  destruct (conv_spec F _ HF M1 B2) as [D1 [D2 D3]].
  destruct (rnd_err DBL (val Q * val m) dbl_ok) as [d1 [t1 [X1 [X2 X3]]]].
  destruct (rnd_err F (rnd DBL (val Q * val m)) HF) as [d2 [t2 [Y1 [Y2 Y3]]]].
  set (h := val Q / ten e - 1).
  assert (Hh : Rabs h <= bpow radix2 (-50)).
  { unfold h. replace (val Q / ten e - 1) with ((val Q - ten e) * / ten e) by (field; lra).
    rewrite Rabs_mult, (Rabs_pos_eq (/ ten e)).
    - apply Rmult_le_reg_r with (ten e); [exact T|]. rewrite Rmult_assoc, Rinv_l by lra. lra.
    - apply Rlt_le, Rinv_0_lt_compat, T. }
  assert (EQ : val Q = ten e * (1 + h)) by (unfold h; field; lra).
  change (- f_prec DBL)%Z with (-53)%Z in X1. fold (u F) in Y1.
  exists ((1 + h) * (1 + d1) * (1 + d2) - 1), (t1 * (1 + d2) + t2).
  split; [|split; [|split; [exact D1|split; [exact D2|]]]].
  - rewrite b50 in Hh. pose proof (rel_mul h d1 _ _ Hh X1) as X.
    set (u53 := bpow radix2 (-53)) in *. assert (0 < u53) by apply bpow_gt_0.
    pose proof (rel_mul ((1 + h) * (1 + d1) - 1) d2 _ _ X Y1) as Y.
    replace ((1 + ((1 + h) * (1 + d1) - 1)) * (1 + d2)) with ((1 + h) * (1 + d1) * (1 + d2)) in Y by ring.
    eapply Rle_trans; [exact Y|].
    assert (8 * u53 * u53 <= u53 / 100000) by nra.
    assert (8 * u53 + u53 + 8 * u53 * u53 <= 10 * u F) by lra.
    assert ((8 * u53 + u53 + 8 * u53 * u53) * u F <= 10 * u F * / 16777216) by (apply Rmult_le_compat; nra).
    lra.
  - assert (TT : tiny DBL <= tiny F).
    { unfold tiny. rewrite !pw2. apply bpow_le. destruct HF as [->| ->]; cbn; lia. }
    assert (T0 : 0 < tiny DBL) by (unfold tiny; rewrite pw2; apply bpow_gt_0).
    eapply Rle_trans; [apply Rabs_triang|]. rewrite Rabs_mult.
    assert (Rabs (1 + d2) <= 2).
    { eapply Rle_trans; [apply Rabs_triang|]. rewrite Rabs_R1. lra. }
    assert (Rabs t1 * Rabs (1 + d2) <= / 2 * tiny DBL * 2) by (apply Rmult_le_compat; try apply Rabs_pos; assumption).
    lra.
  - rewrite D3, M3, Y3, X3, EQ. ring.
Qed.

(* there and back *)
Lemma round_trip L F p neg pos x a : good_libm L -> fmt_ok F -> sym_ok neg pos ->
  valid F x -> nonzero_fp x -> (1 <= p < 2 ^ 31)%N ->
  (-308 <= lm_exp L F x <= 308)%Z -> Rabs (val x) + err_bound L F p x <= val (largest F) ->
  sexp L F x <> (-9)%Z -> enc_fp L F p neg pos x = Ok a ->
  exists r, dec_fp L F a neg pos = Ok r /\ finite_fp r /\ valid F r /\
    Rabs (val r - val x) <= err_bound L F p x.
Proof.
  intros G HF S V N Hp He Hx Hs Ea.
  pose proof (exp_range L F x G HF V N) as ER.
  destruct (enc_shape L F p neg pos x G HF V N) as (es & I1 & E1). rewrite E1 in Ea. apply Ok_inj in Ea. subst a.
  destruct (frexp_finite L F x G HF V N ltac:(lia)) as (_ & _ & _ & _ & _ & _ & MR).
  pose proof (mdigits_range L F p x MR) as DR. pose proof (mdigits_half L F p x ltac:(lia) MR) as DH.
  pose proof (mdigits_cases L F p x ltac:(lia) MR) as DC. pose proof (mdigits_near L F p x) as DN.
  set (e := lm_exp L F x) in *. set (b := is_neg x) in *. set (M := mdigits L F p x) in *.
  set (t := IZR M / ten (Z.of_N p)) in *.
  destruct (mant_near L F x G HF V N ltac:(fold e; lia)) as [al [A1 A2]]. fold e in A2.
  set (a := Rabs (val x)) in *.
  pose proof (ten_pos e) as T0. pose proof (ten_inv e) as T1. pose proof (ten_pos (- Z.of_N p)) as T2.
  pose proof (u_pos F) as U0. pose proof (u_range F HF) as [_ U2]. rewrite b24 in U2.
  assert (Ma : mant L F x * ten e = a * (1 + al)).
  { rewrite A2. replace (a * ten (- e) * (1 + al) * ten e) with (a * (1 + al) * (ten e * ten (- e))) by ring.
    rewrite T1. ring. }
  assert (a0 : 0 < a) by (apply Rabs_pos_lt, nonzero_val', N).
  assert (Pt : ten (- Z.of_N p) <= / 10).
  { pose proof (ten_le (- Z.of_N p) (-1) ltac:(lia)) as X. change (ten (-1)) with (/ (10 * 1)) in X. lra. }
  assert (t0 : 0 <= t).
  { unfold t. apply Rle_mult_inv_pos; [apply IZR_le; lia|apply ten_pos]. }
  assert (al' : Rabs al <= / 1000) by lra. apply Rabs_le_inv in al'.
  (* the decoder *)
  unfold dig. fold e. destruct (Z.ltb_spec e (-308)) as [X|_]; [lia|]. fold b.
  set (D := dg b (pad (N.to_nat p) (Z.to_N (mdigits L F p x)))).
  destruct (pad_spec (N.to_nat p) (Z.to_N (mdigits L F p x))) as (P1 & P2 & _).
  assert (LD : blen D = p).
  { unfold D, dg. destruct b; rewrite ?flip_blen; unfold blen; rewrite P2; lia. }
  assert (ND : D <> []) by (intros Q; rewrite Q in LD; cbn in LD; lia).
  assert (SR : (-400 <= sexp L F x <= 400)%Z) by (unfold sexp; fold e; destruct (is_neg x); clear -ER; lia).
  assert (LD' : (blen D < 2 ^ 63)%N) by (rewrite LD; clear -Hp; lia).
  rewrite (dec_struct L F b neg pos (sexp L F x) es D S SR I1 LD').
  destruct (Z.eqb_spec (sexp L F x) (-9)) as [Q|_]; [contradiction|].
  unfold finish. rewrite dec_small_ok by assumption. cbn [obind].
  replace (dg b D) with (pad (N.to_nat p) (Z.to_N M)).
  2: { unfold D, dg. destruct b; [rewrite flip_flip by exact P1|]; reflexivity. }
  replace (if b then (- sexp L F x)%Z else sexp L F x) with e by (unfold sexp; fold b e; destruct b; lia).
  pose proof (read_spec F b p M HF ltac:(lia) DR DH) as Rs. cbv zeta in Rs. fold t in Rs. destruct Rs as [Z1 [Z2 Z3]].
  destruct (read_near F b p M HF ltac:(lia) DR DH DC) as [de [W1 W2]]. fold t in W2. rewrite W2 in Z3.
  set (z := read_fraction F b (pad (N.to_nat p) (Z.to_N M))) in *.
  assert (Sb : Rabs (sgn b) = 1) by (unfold sgn; destruct b; [rewrite Rabs_left|rewrite Rabs_pos_eq]; lra).
  assert (Az : Rabs (val z) = t * (1 + de)).
  { rewrite Z3, !Rabs_mult, Sb. rewrite (Rabs_pos_eq t) by exact t0. apply Rabs_le_inv in W1.
    rewrite (Rabs_pos_eq (1 + de)); lra. }
  set (th := t - mant L F x) in *.
  assert (Et : t * ten e = a * (1 + al) + th * ten e) by (unfold th; rewrite <- Ma; ring).
  assert (Es : slack F = 32 * u F).
  { unfold slack, u. rewrite pw2. unfold Z.sub. rewrite bpow_plus. reflexivity. }
  assert (Ty : 0 < tiny F) by (unfold tiny; rewrite pw2; apply bpow_gt_0).
  assert (K3 : 0 < ten e * ten (- Z.of_N p)) by (apply Rmult_lt_0_compat; assumption).
  assert (Bz : Rabs (val z) * (ten e * (1 + 8 * u F)) <= val (largest F)).
  { eapply Rle_trans; [|exact Hx]. unfold err_bound. fold a e. rewrite Es. unfold Z.sub. rewrite ten_plus.
    rewrite Az. apply Rabs_le_inv in W1. apply Rabs_le_inv in A1. apply Rabs_le_inv in DN.
    replace (t * (1 + de) * (ten e * (1 + 8 * u F))) with ((a * (1 + al) + th * ten e) * ((1 + de) * (1 + 8 * u F))) by (rewrite <- Et; ring).
    assert (N0 : 0 <= a * (1 + al) + th * ten e) by (rewrite <- Et; apply Rmult_le_pos; lra).
    assert (N1 : a * (1 + al) <= a * (1 + 11 * u F)) by (apply Rmult_le_compat_l; lra).
    assert (N2 : th * ten e <= / 2 * (ten e * ten (- Z.of_N p))).
    { replace (/ 2 * (ten e * ten (- Z.of_N p))) with (/ 2 * ten (- Z.of_N p) * ten e) by ring. apply Rmult_le_compat_r; lra. }
    assert (N3 : (1 + de) * (1 + 8 * u F) <= 1 + 10 * u F) by nra.
    assert (N4 : 0 <= (1 + de) * (1 + 8 * u F)) by (apply Rmult_le_pos; lra).
    apply Rle_trans with ((a * (1 + 11 * u F) + / 2 * (ten e * ten (- Z.of_N p))) * (1 + 10 * u F)).
    - apply Rmult_le_compat; lra.
    - set (g := ten e * ten (- Z.of_N p)) in *. clear - N0 a0 K3 U0 U2 Ty.
      assert (a * u F <= a * / 16777216) by (apply Rmult_le_compat_l; lra).
      assert (0 <= a * u F) by (apply Rmult_le_pos; lra). assert (0 <= g * u F) by (apply Rmult_le_pos; lra).
      assert (a * u F * u F <= a * u F * / 16777216) by (apply Rmult_le_compat_l; lra).
      lra. }
  destruct (finish_near L F e z G HF ltac:(lia) Z1 Z2 Bz) as [be [eta [F1 [F2 [F3 [F4 F5]]]]]].
  eexists. split; [reflexivity|]. split; [exact F3|]. split; [exact F4|]. rewrite F5.
  assert (Vx : val x = sgn b * a).
  { unfold a, sgn, b. destruct (neg_val x (nonzero_finite x N)) as [K1 K2]. destruct (is_neg x).
    - rewrite Rabs_left by auto. ring.
    - rewrite Rabs_pos_eq by auto. ring. }
  rewrite Z3, Vx.
  replace (sgn b * t * (1 + de) * ten e * (1 + be) + eta - sgn b * a)
    with (sgn b * (t * ten e * ((1 + de) * (1 + be)) - a) + eta) by ring.
  rewrite Et. pose proof (rel_mul de be _ _ W1 F1) as Rb. set (ga := (1 + de) * (1 + be) - 1) in *.
  replace ((1 + de) * (1 + be)) with (1 + ga) by (unfold ga; ring).
  pose proof (rel_mul al ga _ _ A1 Rb) as Rt. set (om := (1 + al) * (1 + ga) - 1) in *.
  replace ((a * (1 + al) + th * ten e) * (1 + ga) - a) with (a * om + th * ten e * (1 + ga)) by (unfold om; ring).
  assert (Hga : u F + 11 * u F + u F * (11 * u F) <= 13 * u F) by nra.
  assert (Hom : 11 * u F + 13 * u F + 11 * u F * (13 * u F) <= 25 * u F) by nra.
  assert (Hom' : Rabs om <= 25 * u F).
  { eapply Rle_trans; [exact Rt|]. nra. }
  assert (Hga' : Rabs ga <= 13 * u F) by lra.
  unfold err_bound. fold a e. rewrite Es. unfold Z.sub. rewrite ten_plus.
  eapply Rle_trans; [apply Rabs_triang|]. apply Rplus_le_compat; [|exact F2].
  rewrite Rabs_mult, Sb, Rmult_1_l. eapply Rle_trans; [apply Rabs_triang|].
  rewrite !Rabs_mult, (Rabs_pos_eq a), (Rabs_pos_eq (ten e)) by lra.
  assert (Rabs (1 + ga) <= 1 + 13 * u F).
  { eapply Rle_trans; [apply Rabs_triang|]. rewrite Rabs_R1. lra. }
  assert (K1 : a * Rabs om <= a * (25 * u F)) by (apply Rmult_le_compat_l; lra).
  assert (K2 : Rabs th * ten e * Rabs (1 + ga) <= / 2 * ten (- Z.of_N p) * ten e * (1 + 13 * u F)).
  { apply Rmult_le_compat; [apply Rmult_le_pos; [apply Rabs_pos|lra]|apply Rabs_pos| |assumption].
    apply Rmult_le_compat_r; lra. }
  assert (K4 : 0 <= a * u F) by (apply Rmult_le_pos; lra).
  assert (K5 : 0 <= ten e * ten (- Z.of_N p) * u F) by (apply Rmult_le_pos; lra).
  replace (/ 2 * ten (- Z.of_N p) * ten e * (1 + 13 * u F))
    with (/ 2 * (ten e * ten (- Z.of_N p)) + 13 / 2 * (ten e * ten (- Z.of_N p) * u F)) in K2 by field.
  replace (/ 2 * (ten e * ten (- Z.of_N p)) + 32 * u F * (a + ten e * ten (- Z.of_N p)))
    with (/ 2 * (ten e * ten (- Z.of_N p)) + 32 * (a * u F) + 32 * (ten e * ten (- Z.of_N p) * u F)) by ring.
  lra.
Qed.
