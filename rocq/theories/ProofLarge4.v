(* Decimals: what comes back *)
From Verif Require Import ModelBytes ProofBytes ModelKey ModelElen ModelFloat SpecElen SpecFp SpecLarge ProofElen ProofFpDecode
  ProofFpBase ProofFpMant ProofFpBits ProofFpOrder ProofFpError ModelTransform ModelLarge ProofLarge ProofLarge2 ProofLarge3.
From Coq Require Import Reals Psatz.
From Flocq Require Import Core Operations BinarySingleNaN.
Local Open Scope Z_scope.

(* ---- decoding ---- *)
Lemma dec_large_unfold F p c c2 t neg pos : dec_large F (p :: c :: c2 :: t) neg pos =
  let str := p :: c :: c2 :: t in
  do k <- get_prefix_count p str neg pos;
  match k with
  | O => Throw
  | S k' =>
      do (integer, position) <- (do (position, len) <- read_lens k' p neg str (N.of_nat k) 1; next INT_MAX p neg str position len);
      let out := if Ascii.eqb p neg then SFopp (of_int F integer) else of_int F integer in
      if (position =? blen str - 1)%N then Ok out
      else do t <- substr str position (blen str - position); do d <- dec_small F (p :: t) neg pos; Ok (SFadd (f_prec F) (f_emax F) out d)
  end.
Proof.
  unfold dec_large. cbv zeta. destruct (get_prefix_count _ _ _ _) as [[|k]| |]; cbn [obind]; try reflexivity.
  destruct (read_lens _ _ _ _ _ _) as [[q l]| |]; reflexivity.
Qed.

Lemma int_part (neg pos : byte) (b : bool) n es t : sym_ok neg pos -> ipart neg pos b n es -> n <= 2147483647 -> (blen t < 2 ^ 63)%N ->
  let p := if b then neg else pos in
  exists c r k, es = p :: c :: r /\ get_prefix_count p (es ++ t) neg pos = Ok (S k) /\
    (do (position, len) <- read_lens k p neg (es ++ t) (N.of_nat (S k)) 1; next INT_MAX p neg (es ++ t) position len) = Ok (Z.to_N n, blen es).
Proof.
  intros (Hneg & Hpos & Hnp) Hi Hn Ht p.
  assert (Hpd : is_digit p = false) by (unfold p; destruct b; assumption).
  assert (X0 : Ascii.eqb p (digit 0) = false) by (destruct (Ascii.eqb_spec p (digit 0)) as [Y|]; [rewrite Y in Hpd; discriminate|reflexivity]).
  assert (Y0 : negb (Ascii.eqb p pos) && negb (Ascii.eqb p neg) = false) by (unfold p; destruct b; rewrite Ascii.eqb_refl; cbn; rewrite ?andb_false_r; reflexivity).
  destruct Hi as [[-> E]|[H0 U]].
  - (* no digits but one *)
    set (z := if b then digit 9 else digit 0). assert (Es : es = [p; z]) by (rewrite E; unfold p, z; destruct b; reflexivity).
    exists z, [], O. split; [exact Es|].
    assert (Dg : is_digit z = true) by (unfold z; destruct b; reflexivity).
    rewrite Es. split.
    + unfold get_prefix_count. cbn [app]. rewrite X0, Y0.
      pose proof (count_prefix_repeat p 1 z t (digit_eqb_sym _ _ Dg Hpd)) as C. cbn [repeat app] in C.
      match goal with |- context [count_prefix p ?l] => replace (count_prefix p l) with 1%nat by (symmetry; exact C) end.
      cbn [nth_error]. rewrite Dg. reflexivity.
    + cbn [read_lens obind].
      change ([p; z] ++ t) with ([p] ++ [z] ++ t).
      unfold next. assert (Sb : substr ([p] ++ [z] ++ t) (N.of_nat 1) 1 = Ok [z]) by (apply substr_app; reflexivity).
      rewrite Sb. cbn [obind].
      assert (Hpn : Ascii.eqb p neg = b). { unfold p. destruct b; [apply Ascii.eqb_refl|]. apply Ascii.eqb_neq. congruence. }
      rewrite Hpn. unfold z. destruct b; reflexivity.
  - assert (Hn64 : (Z.to_N n <= SIZE_MAX)%N) by (unfold SIZE_MAX; lia).
    destruct (unique_decode 4 (Z.to_N n) _ _ _ ltac:(lia) Hn64 U) as (k & rest & Es & (d & r & Er & Hd) & R). fold p in Es, R.
    assert (Hc : exists c r0, es = p :: c :: r0).
    { rewrite Es, Er. cbn [repeat app]. destruct (repeat p k ++ d :: r) as [|c1 u1] eqn:X; [destruct k; discriminate X|]. exists c1, u1. reflexivity. }
    destruct Hc as (c & r0 & Hc). exists c, r0, k. split; [exact Hc|].
    assert (Hbl : (blen es <= 84)%N).
    { pose proof (unique_blen 4 (Z.to_N n) _ _ _ ltac:(lia) U) as X. cbn in X. lia. }
    split.
    + unfold get_prefix_count. rewrite Hc at 1. cbn [app]. rewrite X0, Y0.
      rewrite Es, Er, <- app_assoc. cbn [app]. rewrite count_prefix_repeat by (apply digit_eqb_sym; assumption).
      rewrite nth_error_app2 by (rewrite repeat_length; lia). rewrite repeat_length, Nat.sub_diag. cbn [nth_error]. rewrite Hd. reflexivity.
    + specialize (R (repeat p (S k)) t INT_MAX ltac:(unfold INT_MAX; lia)). rewrite app_assoc, <- Es in R. specialize (R ltac:(rewrite blen_app; lia)).
      assert (Hrep : blen (repeat p (S k)) = N.of_nat (S k)) by (unfold blen; rewrite repeat_length; reflexivity). rewrite Hrep in R.
      rewrite R. do 2 f_equal. rewrite Es, blen_app, Hrep. reflexivity.
Qed.

Lemma dec_large_struct F (b : bool) neg pos n es D : sym_ok neg pos -> ipart neg pos b n es -> n <= 2147483647 -> (blen D < 2 ^ 62)%N ->
  dec_large F (es ++ D ++ [if b then pos else neg]) neg pos =
  let out := if b then SFopp (of_int F (Z.to_N n)) else of_int F (Z.to_N n) in
  match D with [] => Ok out | _ => Ok (SFadd (f_prec F) (f_emax F) out (read_fraction F b (dg b D))) end.
Proof.
  intros Sy Hi Hn HD. set (cl := if b then pos else neg).
  assert (Ht : (blen (D ++ [cl]) < 2 ^ 63)%N) by (rewrite blen_app; unfold blen at 2; cbn [length]; lia).
  destruct (int_part neg pos b n es (D ++ [cl]) Sy Hi Hn Ht) as (c & r & k & Es & G & R). cbv zeta in Es, G, R.
  set (p := if b then neg else pos) in *.
  assert (Sh : exists c2 t, es ++ D ++ [cl] = p :: c :: c2 :: t).
  { rewrite Es. cbn [app]. destruct (r ++ D ++ [cl]) as [|c2 t] eqn:X; [destruct r; destruct D; discriminate X|]. eauto. }
  destruct Sh as (c2 & t & Sh). rewrite Sh, dec_large_unfold, <- Sh. cbv zeta. rewrite G. cbn [obind]. rewrite R. cbn [obind].
  assert (Hpn : Ascii.eqb p neg = b). { destruct Sy as (_ & _ & Ne). unfold p. destruct b; [apply Ascii.eqb_refl|]. apply Ascii.eqb_neq. congruence. }
  rewrite Hpn.
  assert (L : blen (es ++ D ++ [cl]) = (blen es + (blen D + 1))%N) by (rewrite !blen_app; reflexivity). 
  destruct D as [|d D'].
  - assert (X : (blen es =? blen (es ++ [] ++ [cl]) - 1)%N = true) by (apply N.eqb_eq; rewrite L; unfold blen at 3; cbn [length]; lia). rewrite X. reflexivity.
  - assert (X : (blen es =? blen (es ++ (d :: D') ++ [cl]) - 1)%N = false) by (apply N.eqb_neq; rewrite L; unfold blen at 3; cbn [length]; lia). rewrite X.
    rewrite substr_tail. cbn [obind]. unfold p, cl. rewrite dec_small_ok by (try exact Sy; discriminate). reflexivity.
Qed.

(* ---- sums and conversions ---- *)
Local Open Scope R_scope.
Lemma shl_val m e z : (z <= e)%Z -> IZR (Zpos (fst (SpecFloat.shl_align m e z))) * bpow radix2 z = IZR (Zpos m) * bpow radix2 e.
Proof.
  intros H. unfold SpecFloat.shl_align. destruct (z - e)%Z as [|d|d] eqn:E; cbn [fst].
  - assert (z = e) by lia. subst. reflexivity.
  - lia.
  - rewrite shift_pos_correct, mult_IZR. rewrite Z.pow_pos_fold. rewrite <- two_IZR by lia.
    replace e with (Zpos d + z)%Z by lia. rewrite bpow_plus. ring.
Qed.

Lemma add_spec F x y : fmt_ok F -> valid F x -> valid F y -> finite_fp x -> finite_fp y -> Rabs (rnd F (val x + val y)) < big F ->
  let r := SFadd (f_prec F) (f_emax F) x y in finite_fp r /\ val r = rnd F (val x + val y).
Proof.
  intros HF Vx Vy Fx Fy B r.
  destruct x as [sx|sx| |sx mx ex]; try contradiction; destruct y as [sy|sy| |sy my ey]; try contradiction.
  - unfold r. cbn [SFadd val]. rewrite Rplus_0_r, rnd_0. destruct (Bool.eqb sx sy); split; try exact Logic.I; reflexivity.
  - unfold r. cbn [SFadd]. change (val (S754_zero sx)) with 0. rewrite Rplus_0_l, rnd_val by assumption. split; [exact Logic.I|reflexivity].
  - unfold r. cbn [SFadd]. change (val (S754_zero sy)) with 0. rewrite Rplus_0_r, rnd_val by assumption. split; [exact Logic.I|reflexivity].
  - unfold r. cbn [SFadd]. set (ez := Z.min ex ey).
    set (S1 := Zpos (fst (SpecFloat.shl_align mx ex ez))). set (S2 := Zpos (fst (SpecFloat.shl_align my ey ez))).
    pose proof (shl_val mx ex ez ltac:(lia)) as E1. pose proof (shl_val my ey ez ltac:(lia)) as E2. fold S1 in E1. fold S2 in E2.
    assert (Vs : val (S754_finite sx mx ex) + val (S754_finite sy my ey) = IZR (cond_Zopp sx S1 + cond_Zopp sy S2) * bpow radix2 ez).
    { cbn [val]. rewrite !pw2. rewrite (Rmult_assoc _ (IZR (Zpos mx))), (Rmult_assoc _ (IZR (Zpos my))), <- E1, <- E2, plus_IZR.
      destruct sx, sy; cbn [cond_Zopp]; rewrite ?opp_IZR; ring. }
    rewrite Vs in B |- *.
    change (SpecFloat.cond_Zopp) with cond_Zopp. 
    destruct (cond_Zopp sx S1 + cond_Zopp sy S2)%Z as [|q|q] eqn:Eq; cbn [SpecFloat.binary_normalize].
    + split; [exact Logic.I|]. rewrite Rmult_0_l, rnd_0. reflexivity.
    + change (SpecFloat.binary_round (f_prec F) (f_emax F) false q ez) with (sf_conv F (S754_finite false q ez)).
      assert (Ev : val (S754_finite false q ez) = IZR (Zpos q) * bpow radix2 ez) by (cbn [val]; rewrite pw2; ring).
      rewrite <- Ev in B |- *. destruct (conv_spec F (S754_finite false q ez) HF Logic.I B) as (A & _ & C). split; assumption.
    + change (SpecFloat.binary_round (f_prec F) (f_emax F) true q ez) with (sf_conv F (S754_finite true q ez)).
      assert (Ev : val (S754_finite true q ez) = IZR (Zneg q) * bpow radix2 ez).
      { cbn [val]. rewrite pw2. change (Zneg q) with (- Zpos q)%Z. rewrite opp_IZR. ring. }
      rewrite <- Ev in B |- *. destruct (conv_spec F (S754_finite true q ez) HF Logic.I B) as (A & _ & C). split; assumption.
Qed.

Lemma fits33 F v : fmt_ok F -> Rabs v <= bpow radix2 33 -> Rabs (rnd F v) < big F.
Proof.
  intros HF H. rewrite rnd_abs by exact HF. pose proof (rnd_le F (Rabs v) (bpow radix2 33) HF H) as X.
  rewrite rnd_bpow in X by (try exact HF; destruct HF as [->| ->]; cbn; lia). eapply Rle_lt_trans; [exact X|]. apply bpow_lt. destruct HF as [->| ->]; cbn; lia.
Qed.

Lemma of_int_spec F n : fmt_ok F -> (0 <= n <= 2147483647)%Z ->
  let z := of_int F (Z.to_N n) in finite_fp z /\ valid F z /\ val z = rnd F (IZR n).
Proof.
  intros HF H z. unfold z, of_int. destruct n as [|m|m]; [|cbn [Z.to_N]|lia].
  - cbn [Z.to_N]. split; [exact Logic.I|]. split; [reflexivity|]. rewrite rnd_0. reflexivity.
  - change (SpecFloat.binary_round (f_prec F) (f_emax F) false m 0) with (sf_conv F (S754_finite false m 0)).
    assert (Ev : val (S754_finite false m 0) = IZR (Zpos m)) by (cbn [val powerRZ]; ring). rewrite <- Ev.
    apply conv_spec; [exact HF|exact Logic.I|]. apply fits33; [exact HF|]. rewrite Ev. rewrite Rabs_pos_eq by (apply IZR_le; lia).
    rewrite two_IZR by lia. apply IZR_le. lia.
Qed.

Lemma opp_val z : val (SFopp z) = - val z.
Proof. destruct z as [s|s| |s m e]; cbn; try ring. destruct s; cbn; ring. Qed.
Lemma opp_finite z : finite_fp z -> finite_fp (SFopp z).
Proof. destruct z; cbn; auto. Qed.
Lemma opp_valid F z : valid F z -> valid F (SFopp z).
Proof. destruct z; cbn; auto. Qed.

(* the whole error *)
Lemma rnd_err1 F a : fmt_ok F -> Rabs (rnd F a - a) <= u F * (Rabs a + / 8).
Proof.
  intros HF. destruct (rnd_err F a HF) as (eps & eta & A & B & ->). fold (u F) in A. replace (a * (1 + eps) + eta - a) with (a * eps + eta) by ring.
  assert (T : tiny F <= / 8 * u F).
  { unfold tiny, u. rewrite pw2. change (/ 8) with (bpow radix2 (-3)). rewrite <- bpow_plus. apply bpow_le. destruct HF as [->| ->]; cbn; lia. }
  eapply Rle_trans; [apply Rabs_triang|]. rewrite Rabs_mult. pose proof (Rabs_pos a). pose proof (u_pos F).
  assert (Rabs a * Rabs eps <= Rabs a * u F) by (apply Rmult_le_compat_l; assumption). lra.
Qed.

Lemma near_ten v p : Rabs (IZR (ZnearestE (v * ten (Z.of_N p))) / ten (Z.of_N p) - v) <= / 2 * ten (- Z.of_N p).
Proof.
  pose proof (Znearest_half (fun x => negb (Z.even x)) (v * ten (Z.of_N p))) as H. rewrite Rabs_minus_sym in H.
  change (Znearest (fun x => negb (Z.even x))) with ZnearestE in H. set (M := IZR (ZnearestE (v * ten (Z.of_N p)))) in *.
  pose proof (ten_pos (Z.of_N p)) as T. pose proof (ten_pos (- Z.of_N p)) as T'. pose proof (ten_inv (Z.of_N p)) as E.
  assert (Iv : / ten (Z.of_N p) = ten (- Z.of_N p)).
  { apply Rmult_eq_reg_l with (ten (Z.of_N p)); [|lra]. rewrite E. field. lra. }
  unfold Rdiv. rewrite Iv.
  replace (M * ten (- Z.of_N p) - v) with ((M - v * ten (Z.of_N p)) * ten (- Z.of_N p)).
  2: { replace ((M - v * ten (Z.of_N p)) * ten (- Z.of_N p)) with (M * ten (- Z.of_N p) - v * (ten (Z.of_N p) * ten (- Z.of_N p))) by ring. rewrite E. ring. }
  rewrite Rabs_mult, (Rabs_pos_eq (ten (- Z.of_N p))) by lra. apply Rmult_le_compat_r; lra.
Qed.

Lemma frac_near F p f : fmt_ok F -> (0 <= f < 10 ^ Z.of_N p)%Z ->
  Rabs (IZR (frac F p f) / ten (Z.of_N p) - IZR f / ten (Z.of_N p)) <= / 2 * ten (- Z.of_N p) + / 2 * u F.
Proof.
  intros HF H. pose proof (ten_pos (Z.of_N p)) as T.
  assert (V : 0 <= IZR f / ten (Z.of_N p) < 1).
  { split; [apply Rle_mult_inv_pos; [apply IZR_le; lia|exact T]|]. apply Rmult_lt_reg_r with (ten (Z.of_N p)); [exact T|].
    unfold Rdiv. rewrite Rmult_assoc, Rinv_l by lra. rewrite ten_IZR by lia. rewrite Rmult_1_r, Rmult_1_l. apply IZR_lt. lia. }
  pose proof (rnd_below F _ HF V) as A. pose proof (near_ten (rnd F (IZR f / ten (Z.of_N p))) p) as B. fold (frac F p f) in B.
  apply Rabs_le_inv in A. apply Rabs_le_inv in B. apply Rabs_le. lra.
Qed.

Lemma slack_u F : slack F = 32 * u F.
Proof. unfold slack, u. rewrite pw2. replace (5 - f_prec F)%Z with (5 + - f_prec F)%Z by lia. rewrite bpow_plus. reflexivity. Qed.

Lemma sgn_rnd F b v : rnd F (sgn b * v) = sgn b * rnd F v.
Proof. unfold sgn. destruct b; [|rewrite !Rmult_1_l; reflexivity]. replace (-1 * v) with (- v) by ring. rewrite rnd_opp. ring. Qed.
Lemma abs_sgn b v : Rabs (sgn b * v) = Rabs v.
Proof. rewrite Rabs_mult. unfold sgn. destruct b; [rewrite Rabs_left by lra|rewrite Rabs_pos_eq by lra]; ring. Qed.
Lemma val_sgn x : nonzero_fp x -> val x = sgn (is_neg x) * Rabs (val x).
Proof.
  intros H. destruct (neg_val x (nonzero_finite x H)) as [A B]. unfold sgn. destruct (is_neg x).
  - specialize (A eq_refl). rewrite Rabs_left by exact A. ring.
  - specialize (B eq_refl). rewrite Rabs_pos_eq by exact B. ring.
Qed.

Lemma large_round_trip F p neg pos x : fmt_ok F -> sym_ok neg pos -> valid F x -> finite_fp x -> (p < 2 ^ 31)%N -> Rabs (val x) <= 2147483647 ->
  exists s r, enc_large F p neg pos x = Ok s /\ dec_large F s neg pos = Ok r /\ finite_fp r /\ Rabs (val r - val x) <= large_bound F p x.
Proof.
  intros HF Sy V Fx Hp Hx. pose proof (u_pos F) as U0. destruct (u_range F HF) as [_ U1]. rewrite b24 in U1.
  pose proof (ten_pos (- Z.of_N p)) as T'.
  destruct (zero_cases x Fx) as [Z|Nz].
  { rewrite (enc_large_zero F p neg pos x Z). exists [digit 0], (S754_zero false). split; [reflexivity|]. split; [reflexivity|]. split; [exact Logic.I|].
    unfold large_bound. rewrite (zero_val x Z), slack_u. cbn [val]. rewrite Rminus_0_r, Rabs_R0. nra. }
  destruct (large_shape F p neg pos x HF V Nz Hx) as (es & I1 & E1). pose proof (div_pos_max p x Hx) as Hi.
  assert (Q0 : (0 < 10 ^ Z.of_N p)%Z) by (apply Z.pow_pos_nonneg; lia).
  pose proof (Z.div_mod (dec p x) (10 ^ Z.of_N p) ltac:(lia)) as DM. pose proof (Z.mod_pos_bound (dec p x) (10 ^ Z.of_N p) Q0) as Hf.
  pose proof (near_ten (Rabs (val x)) p) as Nr. fold (dec p x) in Nr.
  set (n := (dec p x / 10 ^ Z.of_N p)%Z) in *. set (f := (dec p x mod 10 ^ Z.of_N p)%Z) in *. set (b := is_neg x) in *.
  pose proof (ten_pos (Z.of_N p)) as T.
  assert (Dv : IZR (dec p x) / ten (Z.of_N p) = IZR n + IZR f / ten (Z.of_N p)).
  { rewrite DM, plus_IZR, mult_IZR, <- ten_IZR by lia. field. lra. }
  rewrite Dv in Nr. set (w := IZR f / ten (Z.of_N p)) in *.
  assert (W : 0 <= w < 1).
  { unfold w. split; [apply Rle_mult_inv_pos; [apply IZR_le; lia|exact T]|]. apply Rmult_lt_reg_r with (ten (Z.of_N p)); [exact T|].
    unfold Rdiv. rewrite Rmult_assoc, Rinv_l by lra. rewrite ten_IZR by lia. rewrite Rmult_1_r, Rmult_1_l. apply IZR_lt. lia. }
  assert (T1 : ten (- Z.of_N p) <= 1) by (change 1 with (ten 0); apply ten_le; lia).
  assert (N0 : 0 <= IZR n <= 2147483647) by (split; apply IZR_le; lia).
  destruct (of_int_spec F n HF Hi) as (O1 & O2 & O3).
  pose proof (rnd_err1 F (IZR n) HF) as Oe. rewrite (Rabs_pos_eq (IZR n)) in Oe by lra.
  set (out := if b then SFopp (of_int F (Z.to_N n)) else of_int F (Z.to_N n)).
  assert (Ov : finite_fp out /\ valid F out /\ val out = sgn b * rnd F (IZR n)).
  { unfold out, sgn. destruct b.
    - split; [apply opp_finite, O1|]. split; [apply opp_valid, O2|]. rewrite opp_val, O3. ring.
    - split; [exact O1|]. split; [exact O2|]. rewrite O3. ring. }
  destruct Ov as (Of & Oval & Ov).
  assert (LD : (blen (fpart F p b f) < 2 ^ 62)%N).
  { unfold fpart. destruct (is_zero _); [cbn; lia|]. destruct (pad_spec (N.to_nat p) (Z.to_N (frac F p f))) as (_ & B & _).
    unfold dg. destruct b; [rewrite flip_blen|]; unfold blen; rewrite B; lia. }
  pose proof (dec_large_struct F b neg pos n es (fpart F p b f) Sy I1 ltac:(lia) LD) as DS. cbv zeta in DS. fold out in DS.
  set (X := Rabs (val x)) in *. pose proof (Rabs_pos (val x)) as X0. fold X in X0.
  assert (Xs : val x = sgn b * X) by (apply val_sgn; exact Nz).
  assert (Bd : large_bound F p x = ten (- Z.of_N p) + 32 * u F * (X + 1)) by (unfold large_bound; rewrite slack_u; reflexivity).
  destruct (is_zero (read_fraction F false (pad (N.to_nat p) (Z.to_N f)))) eqn:Zd.
  - (* no digits after the point *)
    assert (Fp : fpart F p b f = []) by (unfold fpart; rewrite Zd; reflexivity). rewrite Fp in DS, E1.
    exists (es ++ [] ++ [if b then pos else neg]), out. split; [exact E1|]. split; [exact DS|]. split; [exact Of|].
    destruct (frac_value F p f HF Hf) as (_ & _ & C). apply zero_val in Zd. rewrite Zd in C. fold w in C.
    pose proof (rnd_below F w HF W) as We. rewrite <- C in We.
    rewrite Ov, Xs, Bd. replace (sgn b * rnd F (IZR n) - sgn b * X) with (sgn b * (rnd F (IZR n) - X)) by ring. rewrite abs_sgn.
    apply Rabs_le_inv in We. apply Rabs_le_inv in Oe. apply Rabs_le_inv in Nr. apply Rabs_le. nra.
  - assert (P1 : (1 <= p)%N).
    { destruct (N.eq_dec p 0) as [->|]; [|lia]. unfold f in Zd. change (10 ^ Z.of_N 0)%Z with 1%Z in Zd. rewrite Z.mod_1_r in Zd. discriminate Zd. }
    assert (Fb : (0 <= frac F p f < 10 ^ Z.of_N p)%Z).
    { split; [apply frac_pos; [exact HF|lia]|]. destruct x; try contradiction. apply frac_below; assumption. }
    assert (Fp : fpart F p b f = dg b (pad (N.to_nat p) (Z.to_N (frac F p f)))) by (unfold fpart; rewrite Zd; reflexivity).
    destruct (pad_spec (N.to_nat p) (Z.to_N (frac F p f))) as (PA & PB & _).
    assert (Fd : dg b (fpart F p b f) = pad (N.to_nat p) (Z.to_N (frac F p f))).
    { rewrite Fp. unfold dg. destruct b; [apply flip_flip; exact PA|reflexivity]. }
    rewrite Fd in DS.
    assert (Ne : match fpart F p b f with [] => False | _ => True end).
    { rewrite Fp. assert (Ln : List.length (dg b (pad (N.to_nat p) (Z.to_N (frac F p f)))) = N.to_nat p) by (unfold dg; destruct b; [unfold flip; rewrite map_length|]; exact PB).
      destruct (dg b _); [cbn in Ln; lia|exact Logic.I]. }
    destruct (read_spec1 F b p (frac F p f) HF P1 Fb) as (R1 & R2 & R3). cbv zeta in R1, R2, R3.
    set (d := read_fraction F b (pad (N.to_nat p) (Z.to_N (frac F p f)))) in *. rewrite sgn_rnd in R3.
    pose proof (frac_near F p f HF Hf) as Fn. fold w in Fn. set (g := IZR (frac F p f) / ten (Z.of_N p)) in *.
    assert (G : 0 <= g < 1).
    { unfold g. split; [apply Rle_mult_inv_pos; [apply IZR_le; lia|exact T]|]. apply Rmult_lt_reg_r with (ten (Z.of_N p)); [exact T|].
      unfold Rdiv. rewrite Rmult_assoc, Rinv_l by lra. rewrite ten_IZR by lia. rewrite Rmult_1_r, Rmult_1_l. apply IZR_lt. lia. }
    pose proof (rnd_below F g HF G) as Ge.
    set (i' := rnd F (IZR n)) in *. set (g' := rnd F g) in *.
    assert (Sm : val out + val d = sgn b * (i' + g')) by (rewrite Ov, R3; ring).
    apply Rabs_le_inv in Oe. apply Rabs_le_inv in Ge.
    assert (Bi : 0 <= i').
    { unfold i'. rewrite <- (rnd_0 F). apply rnd_le; [exact HF|lra]. }
    assert (Bg : 0 <= g').
    { unfold g'. rewrite <- (rnd_0 F). apply rnd_le; [exact HF|lra]. }
    assert (Si : i' + g' <= IZR n * (1 + u F) + 2) by nra.
    assert (Fit : Rabs (rnd F (val out + val d)) < big F).
    { apply fits33; [exact HF|]. rewrite Sm, abs_sgn, Rabs_pos_eq by lra. rewrite two_IZR by lia. change (2 ^ 33)%Z with 8589934592%Z. nra. }
    destruct (add_spec F out d HF Oval R2 Of R1 Fit) as (A1 & A2). cbv zeta in A1, A2.
    exists (es ++ fpart F p b f ++ [if b then pos else neg]), (SFadd (f_prec F) (f_emax F) out d).
    split; [exact E1|]. split; [rewrite DS; destruct (fpart F p b f); [contradiction|reflexivity]|]. split; [exact A1|].
    rewrite A2, Sm, sgn_rnd, Xs, Bd. replace (sgn b * rnd F (i' + g') - sgn b * X) with (sgn b * (rnd F (i' + g') - X)) by ring. rewrite abs_sgn.
    pose proof (rnd_err1 F (i' + g') HF) as Se. rewrite (Rabs_pos_eq (i' + g')) in Se by lra.
    apply Rabs_le_inv in Se. apply Rabs_le_inv in Fn. apply Rabs_le_inv in Nr.
    assert (Nx : IZR n <= X + / 2) by lra.
    assert (Nu : IZR n * u F <= IZR n * / 16777216) by (apply Rmult_le_compat_l; lra).
    assert (u F * (i' + g' + / 8) <= u F * (2 * X + 4)) by (apply Rmult_le_compat_l; [lra|]; clear - Si Nu Nx N0 X0; lra).
    assert (u F * (IZR n + / 8) <= u F * (X + 1)) by (apply Rmult_le_compat_l; lra).
    assert (0 <= u F * X) by (apply Rmult_le_pos; lra).
    apply Rabs_le. lra.
Qed.
