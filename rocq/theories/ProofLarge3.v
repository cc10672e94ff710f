(* Decimals: what is written, and its order *)
From Verif Require Import ModelBytes ProofBytes ModelKey ModelElen ModelFloat SpecElen SpecFp SpecLarge ProofElen ProofFpDecode
  ProofFpBase ProofFpMant ProofFpBits ProofFpOrder ProofFpError ModelTransform ModelLarge ProofLarge ProofLarge2.
From Coq Require Import Reals Psatz.
From Flocq Require Import Core Operations BinarySingleNaN.
Local Open Scope Z_scope.
Local Notation num := ProofElen.num.

(* the digits before the point *)
Definition ipart (neg pos : byte) (b : bool) (n : Z) (es : bytes) : Prop :=
  (n = 0 /\ es = if b then [neg; digit 9] else [pos; digit 0]) \/
  (0 < n /\ unique 4 (Z.to_N n) (if b then neg else pos) neg = Some es).
(* the digits after the point *)
Definition fpart (F : fmt) (p : N) (b : bool) (f : Z) : bytes :=
  if is_zero (read_fraction F false (pad (N.to_nat p) (Z.to_N f))) then [] else dg b (pad (N.to_nat p) (Z.to_N (frac F p f))).

Lemma span_app ds r : all_digits ds -> match r with c :: _ => is_digit c = false | [] => True end -> span_digits (ds ++ r) = ds.
Proof.
  intros H Hr. induction H as [|c s Hc _ IH]; cbn [app span_digits].
  - destruct r as [|c r]; [reflexivity|]. cbn. rewrite Hr. reflexivity.
  - rewrite Hc, IH. reflexivity.
Qed.

Lemma read_int_spec (b : bool) n r : match r with c :: _ => is_digit c = false | [] => True end -> (n <= INT_MAX)%N ->
  read_int ((if b then ["-"%char] else []) ++ to_string n ++ r) = ((if b then - Z.of_N n else Z.of_N n), Some r).
Proof.
  intros Hr Hn. destruct (to_string_spec n) as (A & B & C & _).
  assert (E : exists c s, to_string n = c :: s /\ is_digit c = true).
  { destruct (to_string n) as [|c s]; [unfold blen in C; cbn in C; lia|]. exists c, s. inversion A. auto. }
  destruct E as (c & s & E & Hc).
  assert (G : forall sg : bool, (let t := to_string n ++ r in let ds := span_digits t in
     match ds with
     | [] => (0, None)
     | _ => let v := num_prefix 0 ds in let mx := (if sg then INT_MAX + 1 else INT_MAX)%N in
            let sg' z := if sg then Z.opp z else z in
            if (v <=? mx)%N then (sg' (Z.of_N v), Some (skipn (length ds) t)) else (sg' (Z.of_N mx), None)
     end) = ((if sg then - Z.of_N n else Z.of_N n), Some r)).
  { intros sg. cbv zeta. rewrite span_app by assumption. unfold num in B. rewrite B. rewrite E at 1.
    assert (X : (n <=? (if sg then INT_MAX + 1 else INT_MAX))%N = true) by (apply N.leb_le; destruct sg; lia). rewrite X.
    rewrite skipn_app_exact. destruct sg; reflexivity. }
  destruct b; cbn [app].
  - unfold read_int. exact (G true).
  - unfold read_int. rewrite E in G |- *. cbn [app] in G |- *.
    assert (N : c <> "-"%char) by (intros ->; discriminate Hc).
    transitivity (let '(s0, t) := (false, c :: s ++ r) in
       match span_digits t with
       | [] => (0, None)
       | _ => let v := num_prefix 0 (span_digits t) in let mx := (if s0 then INT_MAX + 1 else INT_MAX)%N in
              let sg' z := if s0 then Z.opp z else z in
              if (v <=? mx)%N then (sg' (Z.of_N v), Some (skipn (length (span_digits t)) t)) else (sg' (Z.of_N mx), None)
       end).
    + destruct c as [[] [] [] [] [] [] [] []]; try reflexivity; exfalso; apply N; reflexivity.
    + exact (G false).
Qed.

Lemma ipart_enc neg pos (b : bool) n : 0 <= n <= 2147483647 ->
  exists es, ipart neg pos b n es /\
    (if n =? 0 then Ok (if b then [neg; digit 9] else [pos; digit 0]) else enc_int int32_t (if b then - n else n) neg pos) = Ok es.
Proof.
  intros H. destruct (Z.eqb_spec n 0) as [->|Nz]; [eexists; split; [left; split; reflexivity|reflexivity]|].
  assert (R : it_min int32_t = -2147483648 /\ it_max int32_t = 2147483647) by (split; reflexivity). destruct R as [R1 R2].
  assert (E : encodable int32_t (if b then - n else n)).
  { split; [rewrite R1, R2; destruct b; lia|intros _; rewrite R1; destruct b; lia]. }
  destruct (enc_int_shape int32_t (if b then - n else n) neg pos ltac:(cbn; lia) E) as [[X _]|[(L & _ & s & Hu & Hs)|(L & _ & _ & _ & s & Hu & Hs)]].
  - destruct b; lia.
  - destruct b; [lia|]. exists s. split; [right; split; [lia|exact Hu]|exact Hs].
  - destruct b; [|lia]. exists s. rewrite Z.opp_involutive in Hu. split; [right; split; [lia|exact Hu]|exact Hs].
Qed.

Lemma frac_value F p f : fmt_ok F -> 0 <= f < 10 ^ Z.of_N p ->
  let d := read_fraction F false (pad (N.to_nat p) (Z.to_N f)) in
  finite_fp d /\ valid F d /\ val d = rnd F (IZR f / ten (Z.of_N p)).
Proof.
  intros HF H d. destruct (N.eq_dec p 0) as [->|Np].
  - change (10 ^ Z.of_N 0) with 1 in H. assert (f = 0) by lia. subst f. unfold d. cbn. unfold Rdiv. rewrite Rmult_0_l, rnd_0. split; [exact Logic.I|]. split; reflexivity.
  - destruct (read_spec1 F false p f HF ltac:(lia) H) as (A & B & C). fold d in A, B, C. unfold sgn in C. rewrite Rmult_1_l in C. auto.
Qed.
Lemma frac_sign F p f : fmt_ok F -> 0 <= f < 10 ^ Z.of_N p ->
  let d := read_fraction F false (pad (N.to_nat p) (Z.to_N f)) in is_neg d = false.
Proof.
  intros HF H d. destruct (frac_value F p f HF H) as (A & B & C). fold d in A, B, C.
  destruct (neg_val d A) as [N _]. destruct (is_neg d); [|reflexivity]. specialize (N eq_refl). rewrite C in N.
  assert (0 <= rnd F (IZR f / ten (Z.of_N p)))%R; [|lra]. rewrite <- (rnd_0 F). apply rnd_le; [exact HF|].
  apply Rle_mult_inv_pos; [apply IZR_le; lia|apply ten_pos].
Qed.

Lemma fpart_digits F p (b : bool) f : fmt_ok F -> 0 <= f < 10 ^ Z.of_N p -> ((1 <= p)%N -> frac F p f < 10 ^ Z.of_N p) ->
  let d := read_fraction F false (pad (N.to_nat p) (Z.to_N f)) in
  (let d' := if b then SFopp d else d in if is_zero d' then [] else small_digits p d') = fpart F p b f.
Proof.
  intros HF H Hb d. destruct (frac_value F p f HF H) as (A & B & C). fold d in A, B, C. pose proof (frac_sign F p f HF H) as Sg. cbv zeta in Sg. fold d in Sg.
  unfold fpart. fold d. destruct d as [s|s| |s m e] eqn:Ed; try contradiction.
  - destruct b; reflexivity.
  - assert (p <> 0%N).
    { intros ->. unfold d in Ed. cbn in Ed. discriminate Ed. }
    cbn in Sg. subst s. assert (Fr : scaled m e p = frac F p f).
    { rewrite (dec_scaled p false). unfold dec. rewrite C. rewrite Rabs_pos_eq; [reflexivity|]. rewrite <- (rnd_0 F). apply rnd_le; [exact HF|].
      apply Rle_mult_inv_pos; [apply IZR_le; lia|apply ten_pos]. }
    cbn [is_zero]. pose proof (frac_pos F p f HF ltac:(lia)) as F0. specialize (Hb ltac:(lia)).
    destruct b; cbn [SFopp negb is_zero]; unfold small_digits; cbn [is_zero is_neg]; rewrite print_below by (rewrite Fr; split; assumption); rewrite Fr; reflexivity.
Qed.

Lemma div_pos_max p x : (Rabs (val x) <= 2147483647)%R -> 0 <= dec p x / 10 ^ Z.of_N p <= 2147483647.
Proof.
  intros H. pose proof (dec_pos p x) as D0. assert (0 < 10 ^ Z.of_N p) by (apply Z.pow_pos_nonneg; lia).
  split; [apply Z.div_pos; lia|]. apply Z.div_le_upper_bound; [lia|].
  unfold dec. rewrite <- (nearest_IZR (10 ^ Z.of_N p * 2147483647)). apply nearest_le. rewrite mult_IZR, <- ten_IZR by lia.
  rewrite Rmult_comm. apply Rmult_le_compat_l; [apply Rlt_le, ten_pos|exact H].
Qed.

Lemma large_shape F p neg pos x : fmt_ok F -> valid F x -> nonzero_fp x -> (Rabs (val x) <= 2147483647)%R ->
  exists es, ipart neg pos (is_neg x) (dec p x / 10 ^ Z.of_N p) es /\
    enc_large F p neg pos x = Ok (es ++ fpart F p (is_neg x) (dec p x mod 10 ^ Z.of_N p) ++ [if is_neg x then pos else neg]).
Proof.
  intros HF V Nz Hx. destruct x as [s|s| |s m e]; try contradiction. set (x := S754_finite s m e) in *.
  pose proof (div_pos_max p x Hx) as Hi. pose proof (dec_pos p x) as D0.
  assert (Q0 : 0 < 10 ^ Z.of_N p) by (apply Z.pow_pos_nonneg; lia).
  pose proof (Z.mod_pos_bound (dec p x) (10 ^ Z.of_N p) Q0) as Hf.
  destruct (ipart_enc neg pos s (dec p x / 10 ^ Z.of_N p) Hi) as (es & I1 & I2). exists es. split; [exact I1|].
  unfold enc_large. cbn [is_zero x is_neg].
  assert (T : print_fixed p x = to_string (Z.to_N (dec p x / 10 ^ Z.of_N p)) ++
     (if (p =? 0)%N then [] else "."%char :: pad (N.to_nat p) (Z.to_N (dec p x mod 10 ^ Z.of_N p)))).
  { unfold x at 1. cbn [print_fixed]. rewrite (dec_scaled p s). fold x.
    rewrite Z2N.inj_div, Z2N.inj_mod by lia.
    replace (Z.to_N (10 ^ Z.of_N p)) with (10 ^ p)%N; [reflexivity|]. apply N2Z.inj. rewrite N2Z.inj_pow, Z2N.id by lia. reflexivity. }
  fold x. rewrite T. rewrite read_int_spec.
  2: { destruct (p =? 0)%N; [exact Logic.I|reflexivity]. }
  2: { unfold INT_MAX. lia. }
  rewrite Z2N.id by lia.
  assert (Z : ((if s then - (dec p x / 10 ^ Z.of_N p) else dec p x / 10 ^ Z.of_N p) =? 0) = (dec p x / 10 ^ Z.of_N p =? 0)).
  { destruct s; [|reflexivity]. destruct (Z.eqb_spec (dec p x / 10 ^ Z.of_N p) 0) as [->|]; [reflexivity|]. apply Z.eqb_neq. lia. }
  rewrite Z, I2. cbn [obind].
  match goal with |- context [read_decimal F ?r] => assert (R : read_decimal F r = read_fraction F false (pad (N.to_nat p) (Z.to_N (dec p x mod 10 ^ Z.of_N p)))) end.
  { destruct (N.eqb_spec p 0) as [->|]; [|reflexivity]. change (10 ^ Z.of_N 0) with 1. rewrite Z.mod_1_r. reflexivity. }
  rewrite R. pose proof (fpart_digits F p s (dec p x mod 10 ^ Z.of_N p) HF Hf) as Fp.
  cbv zeta in Fp. rewrite Fp; [reflexivity|]. intros Hp. apply frac_below; assumption.
Qed.

(* ---- order ---- *)
Lemma ipart_head neg pos b n es : ipart neg pos b n es -> exists r, es = (if b then neg else pos) :: r.
Proof.
  intros [[_ ->]|[H U]]; [destruct b; eexists; reflexivity|]. destruct (unique_unfold 3 (Z.to_N n) _ _ _ ltac:(lia) U) as (l & _ & ->). eexists. reflexivity.
Qed.
Lemma ipart_slt neg pos (b : bool) n m es et : sym_ord neg pos -> ipart neg pos b n es -> ipart neg pos b m et -> n < m ->
  if b then slt et es else slt es et.
Proof.
  intros [S1 S2] [[-> ->]|[Hn Un]] [[-> ->]|[Hm Um]] L; try lia.
  - destruct (unique_unfold 3 (Z.to_N m) _ _ _ ltac:(lia) Um) as (l & Hl & ->).
    destruct b.
    + rewrite Ascii.eqb_refl. apply slt_cons. destruct Hl as [[L9 ->]|[_ Hl]].
      * rewrite to_string_1 by lia. cbn [app flip map]. rewrite flip1_of_digit by lia. apply slt_head. rewrite !N_of_digit by lia. lia.
      * destruct (unique_unfold 2 (blen (to_string (Z.to_N m))) _ _ _ ltac:(destruct (to_string_spec (Z.to_N m)) as (_ & _ & X & _); lia) Hl) as (l' & _ & ->). cbn [app]. apply slt_head. rewrite N_of_digit by lia. lia.
    + assert (E : Ascii.eqb pos neg = false) by (apply Ascii.eqb_neq; intros ->; lia). rewrite E. apply slt_cons. destruct Hl as [[L9 ->]|[_ Hl]].
      * rewrite to_string_1 by lia. cbn [app]. apply slt_head. rewrite !N_of_digit by lia. lia.
      * destruct (unique_unfold 2 (blen (to_string (Z.to_N m))) _ _ _ ltac:(destruct (to_string_spec (Z.to_N m)) as (_ & _ & X & _); lia) Hl) as (l' & _ & ->). cbn [app]. apply slt_head. rewrite N_of_digit by lia. lia.
  - destruct b.
    + apply (unique_neg_slt 4 (Z.to_N n) (Z.to_N m) neg es et S1); [lia|lia|assumption|assumption].
    + apply (unique_pos_slt 4 (Z.to_N n) (Z.to_N m) pos neg es et); [apply Ascii.eqb_neq; intros ->; lia|exact S2|lia|lia|assumption|assumption].
Qed.
Lemma ipart_det neg pos b n es et : ipart neg pos b n es -> ipart neg pos b n et -> es = et.
Proof.
  intros [[N1 ->]|[N1 U1]] [[N2 ->]|[N2 U2]]; try lia; [reflexivity|congruence].
Qed.

Lemma zero_iff x : finite_fp x -> is_zero x = true <-> val x = 0%R.
Proof.
  intros H. split; [apply zero_val|]. intros E. destruct (zero_cases x H) as [Z|N]; [exact Z|]. destruct (nonzero_val' x N E).
Qed.

Lemma fpart_le F p (b : bool) neg pos f g : fmt_ok F -> sym_ord neg pos -> 0 <= f <= g -> g < 10 ^ Z.of_N p ->
  ((1 <= p)%N -> frac F p f < 10 ^ Z.of_N p) -> ((1 <= p)%N -> frac F p g < 10 ^ Z.of_N p) ->
  let s k := fpart F p b k ++ [if b then pos else neg] in
  s f = s g \/ (if b then slt (s g) (s f) else slt (s f) (s g)).
Proof.
  intros HF [S1 S2] H Hg Bf Bg s. destruct (N.eq_dec p 0) as [->|Np].
  { change (10 ^ Z.of_N 0) with 1 in Hg. left. f_equal. lia. }
  specialize (Bf ltac:(lia)). specialize (Bg ltac:(lia)).
  destruct (frac_value F p f HF ltac:(lia)) as (A1 & _ & C1). destruct (frac_value F p g HF ltac:(lia)) as (A2 & _ & C2).
  pose proof (zero_iff _ A1) as Z1. pose proof (zero_iff _ A2) as Z2. unfold s, fpart.
  pose proof (frac_pos F p f HF ltac:(lia)) as P1. pose proof (frac_le F p f g HF ltac:(lia)) as P2.
  assert (Hd : exists c r, dg b (pad (N.to_nat p) (Z.to_N (frac F p g))) = c :: r /\ is_digit c = true).
  { destruct (pad_spec (N.to_nat p) (Z.to_N (frac F p g))) as (A & B & _).
    assert (A' : all_digits (dg b (pad (N.to_nat p) (Z.to_N (frac F p g))))) by (unfold dg; destruct b; [apply flip_digits|]; exact A).
    assert (B' : List.length (dg b (pad (N.to_nat p) (Z.to_N (frac F p g)))) = N.to_nat p) by (unfold dg; destruct b; [unfold flip; rewrite map_length|]; exact B).
    destruct (dg b _) as [|c r]; [cbn in B'; lia|]. exists c, r. inversion A'. auto. }
  destruct (is_zero (read_fraction F false (pad (N.to_nat p) (Z.to_N f)))) eqn:E1, (is_zero (read_fraction F false (pad (N.to_nat p) (Z.to_N g)))) eqn:E2.
  - left; reflexivity.
  - right. destruct Hd as (c & r & -> & Hc). apply is_digit_range in Hc. destruct b; cbn [app]; apply slt_head; lia.
  - exfalso. assert (Y : val (read_fraction F false (pad (N.to_nat p) (Z.to_N g))) = 0%R) by (apply Z2; reflexivity).
    assert (X : val (read_fraction F false (pad (N.to_nat p) (Z.to_N f))) = 0%R); [|apply Z1 in X; congruence].
    rewrite C1. rewrite C2 in Y. pose proof (ten_pos (Z.of_N p)) as T. apply Rle_antisym.
    + rewrite <- Y. apply rnd_le; [exact HF|]. apply Rmult_le_compat_r; [apply Rlt_le, Rinv_0_lt_compat; exact T|apply IZR_le; lia].
    + rewrite <- (rnd_0 F). apply rnd_le; [exact HF|]. apply Rle_mult_inv_pos; [apply IZR_le; lia|exact T].
  - destruct (pad_mono b p (frac F p f) (frac F p g) ltac:(lia) Bg) as [->|X]; [left; reflexivity|right].
    destruct b; apply slt_app; exact X.
Qed.

Lemma large_abs F p neg pos x y a b : fmt_ok F -> sym_ord neg pos ->
  valid F x -> valid F y -> nonzero_fp x -> nonzero_fp y -> is_neg x = is_neg y ->
  (Rabs (val x) <= Rabs (val y) <= 2147483647)%R -> enc_large F p neg pos x = Ok a -> enc_large F p neg pos y = Ok b ->
  a = b \/ (if is_neg x then slt b a else slt a b).
Proof.
  intros HF Sy Vx Vy Nx Ny Sg [H H'] Ea Eb.
  destruct (large_shape F p neg pos x HF Vx Nx ltac:(lra)) as (es & I1 & E1).
  destruct (large_shape F p neg pos y HF Vy Ny ltac:(lra)) as (et & I2 & E2).
  rewrite E1 in Ea. rewrite E2 in Eb. apply Ok_inj in Ea, Eb. subst a b. rewrite <- Sg in I2 |- *.
  pose proof (dec_mono p x y H) as L. pose proof (dec_pos p x) as D0.
  assert (Q0 : 0 < 10 ^ Z.of_N p) by (apply Z.pow_pos_nonneg; lia).
  pose proof (Z.div_le_mono _ _ _ Q0 L) as Li.
  destruct (Z.eq_dec (dec p x / 10 ^ Z.of_N p) (dec p y / 10 ^ Z.of_N p)) as [E|Ne].
  - rewrite <- E in I2. rewrite (ipart_det _ _ _ _ _ _ I1 I2).
    pose proof (Z.div_mod (dec p x) (10 ^ Z.of_N p) ltac:(lia)) as M1. pose proof (Z.div_mod (dec p y) (10 ^ Z.of_N p) ltac:(lia)) as M2.
    pose proof (Z.mod_pos_bound (dec p x) (10 ^ Z.of_N p) Q0) as B1. pose proof (Z.mod_pos_bound (dec p y) (10 ^ Z.of_N p) Q0) as B2.
    rewrite E in M1.
    assert (X : let s k := fpart F p (is_neg x) k ++ [if is_neg x then pos else neg] in
      s (dec p x mod 10 ^ Z.of_N p) = s (dec p y mod 10 ^ Z.of_N p) \/
      (if is_neg x then slt (s (dec p y mod 10 ^ Z.of_N p)) (s (dec p x mod 10 ^ Z.of_N p)) else slt (s (dec p x mod 10 ^ Z.of_N p)) (s (dec p y mod 10 ^ Z.of_N p)))).
    { apply fpart_le; try assumption; try lia.
      - intros Hp. destruct x; try contradiction. apply frac_below; assumption.
      - intros Hp. destruct y; try contradiction. apply frac_below; assumption. }
    cbv zeta in X. destruct X as [->|X]; [left; reflexivity|right]. destruct (is_neg x); apply slt_prefix; exact X.
  - right. pose proof (ipart_slt neg pos (is_neg x) _ _ es et Sy I1 I2 ltac:(lia)) as X.
    destruct (is_neg x); apply slt_app; exact X.
Qed.

Lemma enc_large_zero F p neg pos x : is_zero x = true -> enc_large F p neg pos x = Ok [digit 0].
Proof. intros H. unfold enc_large. rewrite H. reflexivity. Qed.

Lemma large_order F p neg pos x y : fmt_ok F -> sym_ord neg pos ->
  valid F x -> valid F y -> finite_fp x -> finite_fp y -> (Rabs (val x) <= 2147483647)%R -> (Rabs (val y) <= 2147483647)%R ->
  (val x <= val y)%R ->
  exists a b, enc_large F p neg pos x = Ok a /\ enc_large F p neg pos y = Ok b /\ (a = b \/ before a b).
Proof.
  intros HF Sy Vx Vy Fx Fy Bx By L. pose proof Sy as [S1 S2].
  destruct (neg_val x Fx) as [Nx Px]. destruct (neg_val y Fy) as [Ny Py].
  assert (D : forall z, valid F z -> nonzero_fp z -> (Rabs (val z) <= 2147483647)%R ->
     exists r, enc_large F p neg pos z = Ok ((if is_neg z then neg else pos) :: r)).
  { intros z Vz Nz Bz. destruct (large_shape F p neg pos z HF Vz Nz Bz) as (es & I1 & E1). destruct (ipart_head _ _ _ _ _ I1) as (r & ->). rewrite E1. eexists; reflexivity. }
  destruct (zero_cases x Fx) as [Zx|Zx], (zero_cases y Fy) as [Zy|Zy].
  - rewrite !enc_large_zero by assumption. do 2 eexists. split; [reflexivity|]. split; [reflexivity|]. left; reflexivity.
  - rewrite (enc_large_zero F p neg pos x) by assumption. destruct (D y Vy Zy By) as (r & E). rewrite E. do 2 eexists. split; [reflexivity|]. split; [reflexivity|].
    right. apply before_slt. destruct (is_neg y); [exfalso; specialize (Ny eq_refl); rewrite (zero_val x Zx) in L; lra|]. apply slt_head. cbn. lia.
  - rewrite (enc_large_zero F p neg pos y) by assumption. destruct (D x Vx Zx Bx) as (r & E). rewrite E. do 2 eexists. split; [reflexivity|]. split; [reflexivity|].
    right. apply before_slt. destruct (is_neg x); [apply slt_head; cbn; lia|]. exfalso. specialize (Px eq_refl). pose proof (nonzero_val' x Zx). rewrite (zero_val y Zy) in L. lra.
  - destruct (D x Vx Zx Bx) as (r & Ex). destruct (D y Vy Zy By) as (r' & Ey).
    destruct (is_neg x) eqn:Sx, (is_neg y) eqn:Sy'.
    + specialize (Nx eq_refl). specialize (Ny eq_refl). do 2 eexists. split; [exact Ex|]. split; [exact Ey|].
      pose proof (large_abs F p neg pos y x _ _ HF Sy Vy Vx Zy Zx ltac:(congruence) ltac:(rewrite (Rabs_left (val y)), (Rabs_left (val x)) by lra; rewrite Rabs_left in Bx by lra; lra) Ey Ex) as X.
      rewrite Sy' in X. destruct X as [X|X]; [left; symmetry; exact X|right; apply before_slt, X].
    + do 2 eexists. split; [exact Ex|]. split; [exact Ey|]. right. apply before_slt, slt_head. lia.
    + exfalso. specialize (Px eq_refl). specialize (Ny eq_refl). lra.
    + specialize (Px eq_refl). specialize (Py eq_refl). do 2 eexists. split; [exact Ex|]. split; [exact Ey|].
      pose proof (large_abs F p neg pos x y _ _ HF Sy Vx Vy Zx Zy ltac:(congruence) ltac:(rewrite (Rabs_pos_eq (val y)), (Rabs_pos_eq (val x)) by lra; rewrite Rabs_pos_eq in By by lra; lra) Ex Ey) as X.
      rewrite Sx in X. destruct X as [X|X]; [left; exact X|right; apply before_slt, X].
Qed.
