(* Exponents at which decoding does not undo encoding *)
From Verif Require Import ModelBytes ProofBytes ModelKey ModelElen ModelFloat SpecElen SpecFp ProofElen ProofFpDecode
  ProofFpBase ProofFpMant ProofFpOrder ProofFpError.
From Coq Require Import Reals Psatz.
From Flocq Require Import Core Operations BinarySingleNaN.
Local Open Scope R_scope.
Local Notation num := ProofElen.num.

(* the digits and the exponent the decoder sees *)
Lemma dec_enc L F p neg pos x a : good_libm L -> fmt_ok F -> sym_ok neg pos ->
  valid F x -> nonzero_fp x -> (p < 2 ^ 31)%N -> enc_fp L F p neg pos x = Ok a ->
  dec_fp L F a neg pos = finish L F (is_neg x) (if (sexp L F x =? -9)%Z then 0%Z else sexp L F x) (dig L F p x) neg pos.
Proof.
  intros G HF S V N Hp Ea. pose proof (exp_range L F x G HF V N) as ER.
  destruct (enc_shape L F p neg pos x G HF V N) as (es & I1 & E1). rewrite E1 in Ea. apply Ok_inj in Ea. subst a.
  apply dec_struct; [exact S| |exact I1|].
  - unfold sexp. destruct (is_neg x); clear -ER; lia.
  - unfold dig. destruct (lm_exp L F x <? -308)%Z; [reflexivity|].
    destruct (pad_spec (N.to_nat p) (Z.to_N (mdigits L F p x))) as (_ & P2 & _).
    unfold dg. destruct (is_neg x); rewrite ?flip_blen; unfold blen; rewrite P2; clear -Hp; lia.
Qed.

Lemma dec_digits L F p neg pos x a : good_libm L -> fmt_ok F -> sym_ok neg pos ->
  valid F x -> nonzero_fp x -> (1 <= p < 2 ^ 31)%N -> (-308 <= lm_exp L F x)%Z -> enc_fp L F p neg pos x = Ok a ->
  let e := if (sexp L F x =? -9)%Z then 0%Z else lm_exp L F x in
  exists z, dec_fp L F a neg pos = Ok (sf_conv F (dmul (lm_pow L e) (sf_conv DBL z))) /\ finite_fp z /\ valid F z /\
    (val z = 0 \/ / 200 <= Rabs (val z)) /\ Rabs (val z) <= 3 / 4.
Proof.
  intros G HF S V N Hp He Ea e. rewrite (dec_enc L F p neg pos x a) by (try assumption; apply Hp).
  destruct (frexp_finite L F x G HF V N He) as (_ & _ & _ & _ & _ & _ & MR).
  pose proof (mdigits_range L F p x MR) as DR. pose proof (mdigits_half L F p x ltac:(lia) MR) as DH.
  pose proof (mdigits_cases L F p x ltac:(lia) MR) as DC.
  unfold dig. destruct (Z.ltb_spec (lm_exp L F x) (-308)) as [X|_]; [lia|].
  set (b := is_neg x) in *. set (M := mdigits L F p x) in *. set (D := dg b (pad (N.to_nat p) (Z.to_N M))).
  destruct (pad_spec (N.to_nat p) (Z.to_N M)) as (P1 & P2 & _).
  assert (LD : blen D = p).
  { unfold D, dg. destruct b; rewrite ?flip_blen; unfold blen; rewrite P2; lia. }
  assert (ND : D <> []) by (intros Q; rewrite Q in LD; cbn in LD; lia).
  unfold finish. rewrite dec_small_ok by assumption. cbn [obind].
  replace (dg b D) with (pad (N.to_nat p) (Z.to_N M)).
  2: { unfold D, dg. destruct b; [rewrite flip_flip by exact P1|]; reflexivity. }
  match goal with |- context [lm_pow L ?t] => replace t with e end.
  2: { unfold e. destruct (sexp L F x =? -9)%Z; [destruct b; reflexivity|]. unfold sexp. fold b. destruct b; lia. }
  pose proof (read_spec F b p M HF ltac:(lia) DR DH) as Rs. cbv zeta in Rs. destruct Rs as [Z1 [Z2 Z3]].
  destruct (read_near F b p M HF ltac:(lia) DR DH DC) as [de [W1 W2]]. rewrite W2 in Z3.
  exists (read_fraction F b (pad (N.to_nat p) (Z.to_N M))). split; [reflexivity|]. split; [exact Z1|]. split; [exact Z2|].
  pose proof (u_pos F) as U0. pose proof (u_range F HF) as [_ U2]. rewrite b24 in U2.
  set (t := IZR M / ten (Z.of_N p)) in *.
  assert (t0 : 0 <= t).
  { unfold t. apply Rle_mult_inv_pos; [apply IZR_le; lia|apply ten_pos]. }
  assert (Sb : Rabs (sgn b) = 1) by (unfold sgn; destruct b; [rewrite Rabs_left|rewrite Rabs_pos_eq]; lra).
  apply Rabs_le_inv in W1.
  assert (Az : Rabs (val (read_fraction F b (pad (N.to_nat p) (Z.to_N M)))) = t * (1 + de)).
  { rewrite Z3, !Rabs_mult, Sb. rewrite (Rabs_pos_eq t) by exact t0. rewrite (Rabs_pos_eq (1 + de)); lra. }
  rewrite Az. split; [|nra].
  destruct DC as [D0|DC]; [left|right; fold t in DC; nra].
  rewrite Z3. unfold t. rewrite D0. unfold Rdiv. ring.
Qed.

(* exponent -9 of a positive value and 9 of a negative one: read as 0 *)
Lemma nine L F p neg pos x a : good_libm L -> fmt_ok F -> sym_ok neg pos ->
  valid F x -> nonzero_fp x -> (1 <= p < 2 ^ 31)%N -> sexp L F x = (-9)%Z -> enc_fp L F p neg pos x = Ok a ->
  (val x < 0 -> val x <= -25000000) /\ (0 < val x -> val x <= / 1000000000) /\
  exists r, dec_fp L F a neg pos = Ok r /\ finite_fp r /\ Rabs (val r) <= 1 /\ (val r = 0 \/ / 1000 <= Rabs (val r)).
Proof.
  intros G HF S V N Hp Hs Ea. destruct (exp_near L G F x HF V N) as [Lo Hi].
  destruct (neg_val x (nonzero_finite x N)) as [K1 K2].
  assert (He : lm_exp L F x = if is_neg x then 9%Z else (-9)%Z) by (unfold sexp in Hs; destruct (is_neg x); lia).
  assert (T9 : ten 9 = 1000000000) by (rewrite ten_IZR by lia; reflexivity).
  assert (T9' : ten (-9) = / 1000000000) by (pose proof (ten_inv 9) as Q; rewrite T9 in Q; change (-(9))%Z with (-9)%Z in Q; lra).
  split; [|split].
  - intros H. destruct (is_neg x); [|specialize (K2 eq_refl); lra]. rewrite He, T9 in Lo. rewrite Rabs_left in Lo by exact H. lra.
  - intros H. destruct (is_neg x); [specialize (K1 eq_refl); lra|]. rewrite He, T9' in Hi. rewrite Rabs_pos_eq in Hi by lra. lra.
  - destruct (dec_digits L F p neg pos x a G HF S V N Hp ltac:(rewrite He; destruct (is_neg x); lia) Ea)
      as (z & E & Z1 & Z2 & Z3 & Z4).
    rewrite Hs in E. cbn [Z.eqb Pos.eqb] in E.
    assert (T0 : ten 0 = 1) by reflexivity.
    pose proof (u_pos F) as U0. pose proof (u_range F HF) as [_ U2]. rewrite b24 in U2.
    assert (Bz : Rabs (val z) * (ten 0 * (1 + 8 * u F)) <= val (largest F)).
    { pose proof (largest_one F HF) as L1. rewrite T0. eapply Rle_trans; [|exact L1]. pose proof (Rabs_pos (val z)). nra. }
    destruct (finish_near L F 0 z G HF ltac:(lia) Z1 Z2 Bz) as [be [eta [F1 [F2 [F3 [F4 F5]]]]]].
    eexists. split; [exact E|]. split; [exact F3|]. rewrite F5, T0.
    assert (Tn : tiny F <= / 16777216).
    { unfold tiny. rewrite pw2. rewrite <- b24. apply bpow_le. destruct HF as [->| ->]; cbn; lia. }
    assert (Hz : Rabs (val z * 1 * (1 + be) + eta - val z) <= / 1000).
    { replace (val z * 1 * (1 + be) + eta - val z) with (val z * be + eta) by ring.
      eapply Rle_trans; [apply Rabs_triang|]. rewrite Rabs_mult.
      assert (Rabs (val z) * Rabs be <= 3 / 4 * (11 * u F)) by (apply Rmult_le_compat; try apply Rabs_pos; assumption). lra. }
    destruct Z3 as [Z3|Z3].
    + assert (R0 : val (sf_conv F (dmul (lm_pow L 0) (sf_conv DBL z))) = 0).
      { destruct (zero_cases z Z1) as [Zz|Nz]; [|exfalso; apply nonzero_val' in Nz; contradiction].
        destruct z as [s| | |]; try discriminate Zz. unfold dmul. cbn [sf_conv].
        destruct (pow_rough L 0 G ltac:(lia)) as [FP _]. destruct (lm_pow L 0) as [s'| | |s' m' e']; try (exfalso; exact FP); reflexivity. }
      rewrite F5, T0 in R0. rewrite R0, Rabs_R0. split; [lra|left; reflexivity].
    + set (r := val z * 1 * (1 + be) + eta) in *.
      assert (Rabs r <= Rabs (val z) + / 1000).
      { replace r with (val z + (r - val z)) by ring. eapply Rle_trans; [apply Rabs_triang|]. lra. }
      assert (Rabs (val z) <= Rabs r + / 1000).
      { replace (val z) with (r + - (r - val z)) at 1 by ring. eapply Rle_trans; [apply Rabs_triang|]. rewrite Rabs_Ropp. lra. }
      split; [lra|right; lra].
Qed.

(* exponent 309: the power of ten is infinite *)
Lemma huge L F p neg pos x a : good_libm L -> fmt_ok F -> sym_ok neg pos ->
  valid F x -> nonzero_fp x -> (1 <= p < 2 ^ 31)%N -> (308 < lm_exp L F x)%Z -> enc_fp L F p neg pos x = Ok a ->
  exists r, dec_fp L F a neg pos = Ok r /\ ~ finite_fp r.
Proof.
  intros G HF S V N Hp He Ea.
  destruct (dec_digits L F p neg pos x a G HF S V N Hp ltac:(lia) Ea) as (z & E & Z1 & Z2 & _).
  eexists. split; [exact E|]. replace (sexp L F x =? -9)%Z with false by (unfold sexp; destruct (is_neg x); lia).
  rewrite (pow_large L G) by lia. destruct (conv_dbl F z HF Z2 Z1) as (C1 & _ & _).
  destruct (sf_conv DBL z); try (exfalso; exact C1); intros X; exact X.
Qed.

(* below 10^-308: decoded as zero *)
Lemma subnormal L F p neg pos x a : good_libm L -> fmt_ok F -> sym_ok neg pos ->
  valid F x -> nonzero_fp x -> (p < 2 ^ 31)%N -> (lm_exp L F x < -308)%Z -> enc_fp L F p neg pos x = Ok a ->
  exists s, dec_fp L F a neg pos = Ok (S754_zero s).
Proof.
  intros G HF S V N Hp He Ea. pose proof (exp_range L F x G HF V N) as ER.
  rewrite (dec_enc L F p neg pos x a) by assumption.
  replace (sexp L F x =? -9)%Z with false by (unfold sexp; destruct (is_neg x); lia).
  unfold dig. destruct (Z.ltb_spec (lm_exp L F x) (-308)) as [_|X]; [|lia].
  unfold finish. rewrite dec_small_ok by (try assumption; discriminate). cbn [obind].
  replace (if is_neg x then (- sexp L F x)%Z else sexp L F x) with (lm_exp L F x) by (unfold sexp; destruct (is_neg x); lia).
  assert (R : read_fraction F (is_neg x) (dg (is_neg x) (bstr "f")) = S754_zero (is_neg x)).
  { destruct (is_neg x); reflexivity. }
  rewrite R. cbn [sf_conv]. unfold dmul.
  destruct (pow_small L G (lm_exp L F x) ltac:(lia)) as [FP _].
  destruct (lm_pow L (lm_exp L F x)) as [s'| | |s' m' e']; try (exfalso; exact FP); eexists; reflexivity.
Qed.

(* precision 0 leaves no digits *)
Lemma no_digits L F neg pos x a : good_libm L -> fmt_ok F -> sym_ok neg pos ->
  valid F x -> nonzero_fp x -> (-308 <= lm_exp L F x)%Z -> enc_fp L F 0 neg pos x = Ok a -> dec_fp L F a neg pos = Throw.
Proof.
  intros G HF S V N He Ea. rewrite (dec_enc L F 0 neg pos x a) by (try assumption; reflexivity).
  unfold dig. destruct (Z.ltb_spec (lm_exp L F x) (-308)) as [X|_]; [lia|].
  unfold finish, dg. cbn [N.to_nat pad]. replace (if is_neg x then flip [] else []) with (@nil byte) by (destruct (is_neg x); reflexivity).
  cbn [app]. rewrite dec_small_none. reflexivity.
Qed.
