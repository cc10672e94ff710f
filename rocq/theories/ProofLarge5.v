(* Small decimals; where decimals go wrong *)
From Verif Require Import ModelBytes ProofBytes ModelKey ModelElen ModelFloat SpecElen SpecFp SpecLarge ProofElen ProofFpDecode
  ProofFpBase ProofFpMant ProofFpBits ProofFpOrder ProofFpError ModelTransform ModelLarge ProofLarge ProofLarge2 ProofLarge3 ProofLarge4.
From Coq Require Import Reals Psatz.
From Flocq Require Import Core Operations BinarySingleNaN.
Local Open Scope Z_scope.

Lemma dec_below p x : (Rabs (val x) <= 1 - ten (- Z.of_N p))%R -> 0 <= dec p x < 10 ^ Z.of_N p.
Proof.
  intros H. split; [apply dec_pos|]. pose proof (ten_pos (Z.of_N p)) as T. pose proof (ten_inv (Z.of_N p)) as E.
  assert (dec p x <= 10 ^ Z.of_N p - 1); [|lia]. unfold dec. rewrite <- (nearest_IZR (10 ^ Z.of_N p - 1)). apply nearest_le.
  rewrite minus_IZR, <- ten_IZR by lia. nra.
Qed.

Lemma small_shape p neg pos x : nonzero_fp x -> (Rabs (val x) <= 1 - ten (- Z.of_N p))%R ->
  enc_small p neg pos x = (if is_neg x then neg else pos) :: dg (is_neg x) (pad (N.to_nat p) (Z.to_N (dec p x))) ++ [if is_neg x then pos else neg].
Proof.
  intros Nz H. pose proof (dec_below p x H) as B. destruct x as [s|s| |s m e]; try contradiction.
  unfold enc_small, small_digits. cbn [is_zero is_neg]. rewrite print_below by (rewrite (dec_scaled p s); exact B). rewrite (dec_scaled p s).
  destruct s; reflexivity.
Qed.
Lemma small_zero p neg pos x : is_zero x = true -> enc_small p neg pos x = [digit 0].
Proof. destruct x; intros H; try discriminate H. reflexivity. Qed.

Lemma small_abs p neg pos x y : nonzero_fp x -> nonzero_fp y -> is_neg x = is_neg y ->
  (Rabs (val x) <= Rabs (val y) <= 1 - ten (- Z.of_N p))%R ->
  enc_small p neg pos x = enc_small p neg pos y \/
  (if is_neg x then slt (enc_small p neg pos y) (enc_small p neg pos x) else slt (enc_small p neg pos x) (enc_small p neg pos y)).
Proof.
  intros Nx Ny Sg [H H']. rewrite !small_shape by (assumption || lra). rewrite <- Sg.
  pose proof (dec_mono p x y H) as L. pose proof (dec_pos p x). pose proof (dec_below p y H').
  destruct (pad_mono (is_neg x) p (dec p x) (dec p y) ltac:(lia) ltac:(lia)) as [->|X]; [left; reflexivity|right].
  destruct (is_neg x); apply slt_cons, slt_app; exact X.
Qed.

Lemma small_order p neg pos x y : sym_ord neg pos -> finite_fp x -> finite_fp y ->
  (Rabs (val x) <= 1 - ten (- Z.of_N p))%R -> (Rabs (val y) <= 1 - ten (- Z.of_N p))%R -> (val x <= val y)%R ->
  enc_small p neg pos x = enc_small p neg pos y \/ before (enc_small p neg pos x) (enc_small p neg pos y).
Proof.
  intros Sy Fx Fy Bx By L. pose proof Sy as [S1 S2].
  destruct (neg_val x Fx) as [Nx Px]. destruct (neg_val y Fy) as [Ny Py].
  destruct (zero_cases x Fx) as [Zx|Zx], (zero_cases y Fy) as [Zy|Zy].
  - rewrite !small_zero by assumption. left; reflexivity.
  - rewrite (small_zero p neg pos x) by assumption. rewrite small_shape by assumption.
    right. apply before_slt. destruct (is_neg y); [exfalso; specialize (Ny eq_refl); rewrite (zero_val x Zx) in L; lra|]. apply slt_head. cbn. lia.
  - rewrite (small_zero p neg pos y) by assumption. rewrite small_shape by assumption.
    right. apply before_slt. destruct (is_neg x); [apply slt_head; cbn; lia|]. exfalso. specialize (Px eq_refl). pose proof (nonzero_val' x Zx). rewrite (zero_val y Zy) in L. lra.
  - destruct (is_neg x) eqn:Sx, (is_neg y) eqn:Sy'.
    + specialize (Nx eq_refl). specialize (Ny eq_refl).
      pose proof (small_abs p neg pos y x Zy Zx ltac:(congruence) ltac:(rewrite (Rabs_left (val y)), (Rabs_left (val x)) by lra; rewrite Rabs_left in Bx by lra; lra)) as X.
      rewrite Sy' in X. destruct X as [X|X]; [left; symmetry; exact X|right; apply before_slt, X].
    + right. rewrite !small_shape by assumption. rewrite Sx, Sy'. apply before_slt, slt_head. lia.
    + exfalso. specialize (Px eq_refl). specialize (Ny eq_refl). lra.
    + specialize (Px eq_refl). specialize (Py eq_refl).
      pose proof (small_abs p neg pos x y Zx Zy ltac:(congruence) ltac:(rewrite (Rabs_pos_eq (val y)), (Rabs_pos_eq (val x)) by lra; rewrite Rabs_pos_eq in By by lra; lra)) as X.
      rewrite Sx in X. destruct X as [X|X]; [left; exact X|right; apply before_slt, X].
Qed.

Lemma small_round_trip F p neg pos x : fmt_ok F -> sym_ok neg pos -> finite_fp x -> (1 <= p)%N -> (Rabs (val x) <= 1 - ten (- Z.of_N p))%R ->
  exists r, dec_small F (enc_small p neg pos x) neg pos = Ok r /\ finite_fp r /\ (Rabs (val r - val x) <= small_bound F p)%R.
Proof.
  intros HF Sy Fx Hp H. pose proof (u_pos F) as U0. pose proof (ten_pos (- Z.of_N p)) as T'.
  destruct (zero_cases x Fx) as [Z|Nz].
  { rewrite small_zero by exact Z. exists (S754_zero false). split; [reflexivity|]. split; [exact Logic.I|].
    rewrite (zero_val x Z). cbn [val]. rewrite Rminus_0_r, Rabs_R0. unfold small_bound. rewrite slack_u. lra. }
  pose proof (dec_below p x H) as B. rewrite small_shape by assumption.
  destruct (pad_spec (N.to_nat p) (Z.to_N (dec p x))) as (PA & PB & _).
  rewrite dec_small_ok; [|exact Sy|].
  2: { intros E. apply (f_equal (@List.length byte)) in E. unfold dg in E. destruct (is_neg x); [unfold flip in E; rewrite map_length in E|]; rewrite PB in E; change (length []) with O in E; clear - E Hp; lia. }
  assert (Fd : dg (is_neg x) (dg (is_neg x) (pad (N.to_nat p) (Z.to_N (dec p x)))) = pad (N.to_nat p) (Z.to_N (dec p x))).
  { unfold dg. destruct (is_neg x); [apply flip_flip; exact PA|reflexivity]. }
  rewrite Fd. destruct (read_spec1 F (is_neg x) p (dec p x) HF Hp B) as (R1 & R2 & R3). cbv zeta in R1, R2, R3.
  eexists. split; [reflexivity|]. split; [exact R1|]. rewrite R3, sgn_rnd, (val_sgn x Nz).
  replace (sgn (is_neg x) * rnd F (IZR (dec p x) / ten (Z.of_N p)) - sgn (is_neg x) * Rabs (val x))%R
    with (sgn (is_neg x) * (rnd F (IZR (dec p x) / ten (Z.of_N p)) - Rabs (val x)))%R by ring. rewrite abs_sgn.
  pose proof (near_ten (Rabs (val x)) p) as Nr. fold (dec p x) in Nr. pose proof (ten_pos (Z.of_N p)) as T.
  assert (W : (0 <= IZR (dec p x) / ten (Z.of_N p) < 1)%R).
  { split; [apply Rle_mult_inv_pos; [apply IZR_le; lia|exact T]|]. apply Rmult_lt_reg_r with (ten (Z.of_N p)); [exact T|].
    unfold Rdiv. rewrite Rmult_assoc, Rinv_l by lra. rewrite ten_IZR by lia. rewrite Rmult_1_r, Rmult_1_l. apply IZR_lt. lia. }
  pose proof (rnd_below F _ HF W) as We. apply Rabs_le_inv in We. apply Rabs_le_inv in Nr. unfold small_bound. rewrite slack_u. apply Rabs_le. lra.
Qed.

(* ---- where it goes wrong ---- *)
Lemma pad_zero k : pad k 0 = repeat (digit 0) k.
Proof.
  induction k as [|k IH]; [reflexivity|]. cbn [pad]. change (0 / 10)%N with 0%N. change (0 mod 10)%N with 0%N. rewrite IH.
  change [digit 0] with (repeat (digit 0) 1). rewrite <- repeat_app. rewrite Nat.add_comm. reflexivity.
Qed.
Lemma small_carry p neg pos x : nonzero_fp x -> (1 <= p)%N -> (1 - / 2 * ten (- Z.of_N p) < val x <= 1)%R ->
  enc_small p neg pos x = pos :: repeat (digit 0) (N.to_nat p) ++ [neg].
Proof.
  intros Nz Hp [H H1]. pose proof (ten_pos (Z.of_N p)) as T. pose proof (ten_inv (Z.of_N p)) as E. pose proof (ten_pos (- Z.of_N p)) as T'.
  assert (T1 : (ten (- Z.of_N p) <= 1)%R) by (change 1%R with (ten 0); apply ten_le; lia).
  destruct (neg_val x (nonzero_finite x Nz)) as [Ng _].
  assert (D : dec p x = 10 ^ Z.of_N p).
  { apply Z.le_antisymm.
    - unfold dec. rewrite <- (nearest_IZR (10 ^ Z.of_N p)). apply nearest_le. rewrite <- ten_IZR by lia. rewrite Rabs_pos_eq by lra. nra.
    - pose proof (dec_near p x) as Nr. rewrite (Rabs_pos_eq (val x)) in Nr by lra. apply Rabs_le_inv in Nr.
      assert (IZR (10 ^ Z.of_N p) - 1 < IZR (dec p x))%R; [rewrite <- ten_IZR by lia; nra|].
      rewrite <- minus_IZR in H0. apply lt_IZR in H0. lia. }
  destruct x as [s|s| |s m e]; try contradiction. destruct s; [specialize (Ng eq_refl); exfalso; lra|].
  unfold enc_small, small_digits. cbn [is_zero is_neg print_fixed]. rewrite (dec_scaled p false), D.
  replace (Z.to_N (10 ^ Z.of_N p)) with (10 ^ p)%N by (apply N2Z.inj; rewrite N2Z.inj_pow, Z2N.id by lia; reflexivity).
  assert (10 ^ p <> 0)%N by (apply N.pow_nonzero; discriminate).
  rewrite N.div_same, N.mod_same by assumption. destruct (N.eqb_spec p 0) as [P0|_]; [clear - P0 Hp; lia|].
  change (to_string 1) with [digit 1]. cbn [app skipn]. rewrite pad_zero. reflexivity.
Qed.

Lemma dec_big p x : (2147483648 <= Rabs (val x))%R -> 2147483648 <= dec p x / 10 ^ Z.of_N p.
Proof.
  intros H. assert (0 < 10 ^ Z.of_N p) by (apply Z.pow_pos_nonneg; lia). apply Z.div_le_lower_bound; [lia|].
  unfold dec. rewrite <- (nearest_IZR (10 ^ Z.of_N p * 2147483648)). apply nearest_le. rewrite mult_IZR, <- ten_IZR by lia.
  rewrite (Rmult_comm (Rabs _)). apply Rmult_le_compat_l; [apply Rlt_le, ten_pos|exact H].
Qed.

(* an integer that does not fit *)
Lemma read_int_pos n r : match r with c :: _ => is_digit c = false | [] => True end -> (INT_MAX < n)%N ->
  read_int (to_string n ++ r) = (Z.of_N INT_MAX, None).
Proof.
  intros Hr Hn. destruct (to_string_spec n) as (A & B & C & _).
  assert (X : exists c s, to_string n = c :: s /\ is_digit c = true).
  { destruct (to_string n) as [|c s]; [unfold blen in C; cbn in C; lia|]. exists c, s. inversion A. auto. }
  destruct X as (c & s & E & Hc).
  assert (S : read_int (to_string n ++ r) = let ds := span_digits (to_string n ++ r) in
     match ds with [] => (0, None) | _ => if (num_prefix 0 ds <=? INT_MAX)%N then (Z.of_N (num_prefix 0 ds), Some (skipn (length ds) (to_string n ++ r))) else (Z.of_N INT_MAX, None) end).
  { rewrite E. cbn [app]. unfold read_int. destruct c as [[] [] [] [] [] [] [] []]; try discriminate Hc; reflexivity. }
  rewrite S. cbv zeta. rewrite span_app by assumption. unfold ProofElen.num in B. rewrite B. rewrite E at 1.
  destruct (N.leb_spec n INT_MAX); [lia|reflexivity].
Qed.
Lemma read_int_neg n r : match r with c :: _ => is_digit c = false | [] => True end -> (INT_MAX < n)%N ->
  fst (read_int ("-"%char :: to_string n ++ r)) = -2147483648.
Proof.
  intros Hr Hn. destruct (to_string_spec n) as (A & B & C & _). unfold read_int. rewrite span_app by assumption. unfold ProofElen.num in B. rewrite B.
  destruct (to_string n) as [|c s] eqn:E; [unfold blen in C; cbn in C; lia|].
  destruct (N.leb_spec n (INT_MAX + 1)) as [L|L]; cbn [fst]; [|reflexivity]. unfold INT_MAX in *. lia.
Qed.

Lemma large_text p s m e : let x := S754_finite s m e in
  exists r, match r with c :: _ => is_digit c = false | [] => True end /\
    print_fixed p x = to_string (Z.to_N (dec p x / 10 ^ Z.of_N p)) ++ r.
Proof.
  intros x. eexists. split; [|unfold x at 1; cbn [print_fixed]; rewrite (dec_scaled p s); fold x; f_equal; f_equal].
  - destruct (N.eqb p 0); [exact Logic.I|reflexivity].
  - pose proof (dec_pos p x). rewrite Z2N.inj_div by lia. f_equal. apply N2Z.inj. rewrite N2Z.inj_pow, Z2N.id by lia. reflexivity.
Qed.

Lemma large_over F p neg pos x : nonzero_fp x -> (2147483648 <= val x)%R ->
  exists s, enc_int int32_t 2147483647 neg pos = Ok s /\ enc_large F p neg pos x = Ok (s ++ [neg]).
Proof.
  intros Nz H. destruct (neg_val x (nonzero_finite x Nz)) as [Ng _]. destruct x as [s|s| |s m e]; try contradiction.
  destruct s; [specialize (Ng eq_refl); exfalso; lra|]. set (x := S754_finite false m e) in *.
  destruct (ipart_enc neg pos false 2147483647 ltac:(lia)) as (es & _ & E). exists es. split; [exact E|].
  unfold enc_large. cbn [x is_zero is_neg app]. fold x. destruct (large_text p false m e) as (r & Hr & T). fold x in T. rewrite T.
  pose proof (dec_big p x ltac:(rewrite Rabs_pos_eq by lra; exact H)) as B.
  rewrite read_int_pos; [|exact Hr|unfold INT_MAX; lia]. change (Z.of_N INT_MAX) with 2147483647. change (2147483647 =? 0) with false in E |- *. cbn iota in E. rewrite E.
  reflexivity.
Qed.
Lemma large_under F p neg pos x : nonzero_fp x -> (val x <= -2147483648)%R -> enc_large F p neg pos x = UB.
Proof.
  intros Nz H. destruct (neg_val x (nonzero_finite x Nz)) as [_ Ps]. destruct x as [s|s| |s m e]; try contradiction.
  destruct s; [|specialize (Ps eq_refl); exfalso; lra]. set (x := S754_finite true m e) in *.
  unfold enc_large. cbn [x is_zero is_neg app]. fold x. destruct (large_text p true m e) as (r & Hr & T). fold x in T. rewrite T.
  pose proof (dec_big p x ltac:(rewrite Rabs_left by lra; lra)) as B.
  pose proof (read_int_neg (Z.to_N (dec p x / 10 ^ Z.of_N p)) r Hr ltac:(unfold INT_MAX; lia)) as R.
  destruct (read_int _) as [z q]. cbn [fst] in R. subst z. reflexivity.
Qed.
