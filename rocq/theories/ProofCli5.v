From Verif Require Import ModelBytes ModelHist ModelKey ModelWire ModelMsg ModelStore ModelGetOp ModelDs ModelElen ModelConf ModelOptions ModelFloat ModelRoute ModelClient ModelCli SpecConf SpecOptions SpecFp SpecCli ProofBytes ProofStore ProofElen ProofConf ProofOptions ProofOptions4 ProofFpBase ProofFpBits ProofFpOrder ProofCli.
From Coq Require Import Reals Psatz.
From Flocq Require Import Core.
Local Open Scope N_scope.

(* ---- printed numbers ---- *)
Notation value := (fun ds => fold_left (fun a d : N => 10 * a + d) ds 0).
Lemma value_snoc ds d : value (ds ++ [d]) = 10 * value ds + d.
Proof. cbv beta. rewrite fold_left_app. reflexivity. Qed.
Lemma digits_text_of f n : exists ds, digits_fuel f n = text_of ds /\ ds <> [] /\ Forall (fun d => d < 10) ds /\ (n < 10 ^ N.of_nat (S f) -> value ds = n).
Proof.
  revert n. induction f as [|f IH]; intro n.
  - exists [n mod 10]. split; [reflexivity|]. split; [discriminate|]. split; [constructor; [apply N.mod_lt; discriminate|constructor]|].
    intro H. change (10 ^ N.of_nat 1) with 10 in H. cbn [fold_left]. rewrite N.mod_small by exact H. lia.
  - cbn [digits_fuel]. destruct (N.ltb_spec n 10) as [H|H].
    + exists [n]. split; [reflexivity|]. split; [discriminate|]. split; [constructor; [exact H|constructor]|]. intros _. cbn [fold_left]. lia.
    + destruct (IH (n / 10)) as [ds [E [_ [F V]]]]. exists (ds ++ [n mod 10]). split; [rewrite E; symmetry; apply map_app|].
      split; [intro X; apply app_eq_nil in X; destruct X; discriminate|]. split; [apply Forall_app; split; [exact F|constructor; [apply N.mod_lt; discriminate|constructor]]|].
      intro B. rewrite value_snoc, V.
      * pose proof (N.div_mod n 10 ltac:(lia)). lia.
      * apply N.div_lt_upper_bound; [discriminate|]. rewrite Nat2N.inj_succ, N.pow_succ_r' in B. exact B.
Qed.
Lemma to_string_text n : exists ds, to_string n = text_of ds /\ ds <> [] /\ Forall (fun d => d < 10) ds /\ value ds = n.
Proof.
  destruct (digits_text_of (N.size_nat n) n) as [ds [E [NE [F V]]]]. exists ds. split; [exact E|]. split; [exact NE|]. split; [exact F|]. apply V, size_pow.
Qed.
Lemma pad_text k : forall n, exists ds, pad k n = text_of ds /\ Forall (fun d => d < 10) ds /\ List.length ds = k /\
  forall a, fold_left (fun a d => 10 * a + d) ds a = a * 10 ^ N.of_nat k + n mod 10 ^ N.of_nat k.
Proof.
  induction k as [|k IH]; intro n.
  - exists []. split; [reflexivity|]. split; [constructor|]. split; [reflexivity|]. intro a. cbn [fold_left]. change (10 ^ N.of_nat 0) with 1. rewrite N.mod_1_r. lia.
  - cbn [pad]. destruct (IH (n / 10)) as [ds [E [F [L V]]]]. exists (ds ++ [n mod 10]). split; [rewrite E; symmetry; apply map_app|].
    split; [apply Forall_app; split; [exact F|constructor; [apply N.mod_lt; discriminate|constructor]]|]. split; [rewrite app_length, L; cbn; lia|].
    intro a. rewrite fold_left_app, V. cbn [fold_left]. rewrite Nat2N.inj_succ, N.pow_succ_r', N.mod_mul_r by (try discriminate; apply N.pow_nonzero; discriminate). ring.
Qed.
Lemma to_string_number n : number (to_string n) n.
Proof. destruct (to_string_text n) as [ds [E [NE [F V]]]]. exists ds. split; [exact NE|]. split; [exact F|]. split; [exact E|symmetry; exact V]. Qed.
Lemma show_int_whole z : whole (show_int z) z.
Proof.
  unfold show_int, whole. destruct (Z.ltb_spec z 0) as [H|H].
  - exists ["-"%char], true, (to_string (Z.to_N (- z))), (Z.to_N (- z)). split; [reflexivity|]. split; [right; right; split; reflexivity|].
    split; [apply to_string_number|]. cbn [signed_by]. lia.
  - exists [], false, (to_string (Z.to_N z)), (Z.to_N z). split; [reflexivity|]. split; [left; split; reflexivity|].
    split; [apply to_string_number|]. cbn [signed_by]. lia.
Qed.
Lemma le_dec_bound d : ModelBytes.le_dec d < 2 ^ (8 * blen d).
Proof. pose proof (le_dec_lt d) as H. unfold blen. rewrite N.pow_mul_r. exact H. Qed.
Lemma signed_mod bits n : 0 < bits -> n < 2 ^ bits -> (- 2 ^ (Z.of_N bits - 1) <= signed bits n < 2 ^ (Z.of_N bits - 1) /\ Z.of_N n = signed bits n mod 2 ^ Z.of_N bits)%Z.
Proof.
  intros B H. unfold signed. assert (2 ^ bits = 2 * 2 ^ (bits - 1)) as P by (rewrite <- N.pow_succ_r'; f_equal; lia).
  assert (2 ^ (Z.of_N bits - 1) = Z.of_N (2 ^ (bits - 1)))%Z as P1 by (rewrite N2Z.inj_pow, N2Z.inj_sub by lia; reflexivity).
  assert (2 ^ Z.of_N bits = Z.of_N (2 ^ bits))%Z as P2 by (rewrite N2Z.inj_pow; reflexivity). rewrite P1, P2.
  destruct (N.ltb_spec n (2 ^ (bits - 1))) as [L|L]; split; try lia.
  - rewrite Z.mod_small; lia.
  - replace (Z.of_N n - Z.of_N (2 ^ bits))%Z with (Z.of_N n + (-1) * Z.of_N (2 ^ bits))%Z by lia. rewrite Z.mod_add by lia. rewrite Z.mod_small; lia.
Qed.
(* what is typed in for an integer is what is printed for it *)
Lemma int_prints n d : (0 < n)%nat -> List.length d = n -> let z := signed (8 * N.of_nat n) (ModelBytes.le_dec d) in
  whole (show_int z) z /\ (- 2 ^ (8 * Z.of_nat n - 1) <= z < 2 ^ (8 * Z.of_nat n - 1))%Z /\ holds_int n d z /\
  (ModelBytes.le_dec d < 2 ^ (8 * N.of_nat n - 1) -> (0 <= z)%Z).
Proof.
  intros P L z. split; [apply show_int_whole|].
  assert (ModelBytes.le_dec d < 2 ^ (8 * N.of_nat n)) as B by (pose proof (le_dec_bound d) as B; unfold blen in B; rewrite L in B; exact B).
  destruct (signed_mod (8 * N.of_nat n) (ModelBytes.le_dec d) ltac:(lia) B) as [R M]. fold z in R, M.
  replace (Z.of_N (8 * N.of_nat n)) with (8 * Z.of_nat n)%Z in * by lia. split; [exact R|]. split; [split; [exact L|exact M]|].
  intro S. unfold z, signed. apply N.ltb_lt in S. rewrite S. lia.
Qed.
Lemma firstn_self {A} n (l : list A) : List.length l = n -> firstn n l = l.
Proof. intros <-. apply firstn_all. Qed.
Definition shown (n : nat) (d : bytes) : bytes := show_int (signed (8 * N.of_nat n) (ModelBytes.le_dec d)).
Lemma long_enough n d : List.length d = n -> (blen d <? N.of_nat n) = false.
Proof. intro L. apply N.ltb_ge. unfold blen. lia. Qed.
Lemma print_4 d t : t = T_INT32 \/ t = T_UINT32 -> List.length d = 4%nat -> print_by_type false d t = Ok (shown 4 d).
Proof.
  intros T L. transitivity (if false || (blen d <? N.of_nat 4) then UB else Ok (shown 4 (firstn 4 d))).
  - destruct T as [->| ->]; reflexivity.
  - rewrite (long_enough 4 d L), (firstn_self 4 d L). reflexivity.
Qed.
Lemma print_8 d t : t = T_INT64 \/ t = T_UINT64 -> List.length d = 8%nat -> print_by_type false d t = Ok (shown 8 d).
Proof.
  intros T L. transitivity (if false || (blen d <? N.of_nat 8) then UB else Ok (shown 8 (firstn 8 d))).
  - destruct T as [->| ->]; reflexivity.
  - rewrite (long_enough 8 d L), (firstn_self 8 d L). reflexivity.
Qed.
Lemma until_nul_all d : ~ In "000"%char d -> until_nul d = d.
Proof.
  induction d as [|c d IH]; intro H; [reflexivity|]. cbn [until_nul]. rewrite eqb_no by (intro X; apply H; left; exact X). f_equal. apply IH. intro X. apply H. right. exact X.
Qed.
Lemma print_text d : ~ In "000"%char d -> blen d < 2 ^ 31 -> print_by_type false d T_BYTE = Ok d.
Proof.
  intros H L. transitivity (if 2 ^ 31 <=? blen d then UB else Ok (until_nul d)); [reflexivity|].
  apply N.leb_gt in L. rewrite L, until_nul_all by exact H. reflexivity.
Qed.

(* ---- floats ---- *)
Lemma fixed_text p M : (0 < p) -> exists ds1 ds2, to_string (M / 10 ^ p) ++ (if (p =? 0) then [] else "."%char :: pad (N.to_nat p) (M mod 10 ^ p)) = digits_text ds1 ++ "."%char :: digits_text ds2 /\
  ds1 <> [] /\ Forall (fun d => d < 10) ds1 /\ Forall (fun d => d < 10) ds2 /\ N.of_nat (List.length ds2) = p /\ value (ds1 ++ ds2) = M.
Proof.
  intro P. destruct (to_string_text (M / 10 ^ p)) as [ds1 [E1 [N1 [F1 V1]]]]. destruct (pad_text (N.to_nat p) (M mod 10 ^ p)) as [ds2 [E2 [F2 [L2 V2]]]].
  exists ds1, ds2. split; [|split; [exact N1|split; [exact F1|split; [exact F2|split; [rewrite L2; apply N2Nat.id|]]]]].
  - rewrite E1, E2. destruct (N.eqb_spec p 0); [lia|]. reflexivity.
  - cbv beta in *. rewrite fold_left_app, V2, V1, N2Nat.id. rewrite N.mod_mod by (apply N.pow_nonzero; discriminate).
    pose proof (N.div_mod M (10 ^ p) ltac:(apply N.pow_nonzero; discriminate)). lia.
Qed.
Lemma fixed_decimal p M (s : bytes) minus : 0 < p -> is_sign s minus ->
  decimal (s ++ to_string (M / 10 ^ p) ++ (if (p =? 0) then [] else "."%char :: pad (N.to_nat p) (M mod 10 ^ p))) minus M (- Z.of_N p).
Proof.
  intros P S. destruct (fixed_text p M P) as [ds1 [ds2 [E [N1 [F1 [F2 [L V]]]]]]].
  exists s, ds1, ("."%char :: digits_text ds2), ds2, [], 0%Z. split; [rewrite E, app_nil_r; reflexivity|]. split; [exact S|]. split; [exact F1|]. split; [exact F2|].
  split; [intro X; apply app_eq_nil in X; tauto|]. split; [right; reflexivity|]. split; [left; split; reflexivity|]. split; [symmetry; exact V|]. lia.
Qed.
Lemma show_float_near p x : 0 < p -> finite_fp x ->
  exists minus m, decimal (show_float p x) minus m (- Z.of_N p) /\ (Rabs (number_of minus m (- Z.of_N p) - val x) <= ten (- Z.of_N p) / 2)%R.
Proof.
  intros P F. assert (0 < ten (- Z.of_N p))%R as TP by (apply powerRZ_lt; lra). destruct x as [s|s| |s m e]; try contradiction.
  - exists s, 0. split.
    + unfold show_float. cbn [print_fixed]. apply (fixed_decimal p 0); [exact P|]. destruct s; [right; right|left]; split; reflexivity.
    + cbn [val]. unfold number_of. change (IZR (Z.of_N 0)) with 0%R. rewrite Rmult_0_r, Rmult_0_l, Rminus_0_r, Rabs_R0. lra.
  - exists s, (Z.to_N (scaled m e p)). split.
    + unfold show_float. cbn [print_fixed]. apply (fixed_decimal p (Z.to_N (scaled m e p))); [exact P|]. destruct s; [right; right|left]; split; reflexivity.
    + set (v := (IZR (Z.pos m) * powerRZ 2 e)%R). assert (0 <= v)%R as V0.
      { unfold v. apply Rmult_le_pos; [apply IZR_le; lia|]. left. apply powerRZ_lt. lra. }
      assert (val (S754_finite s m e) = (if s then -1 else 1) * v)%R as EV by (unfold v; cbn [val]; destruct s; ring).
      rewrite EV. assert (scaled m e p = ZnearestE (v * ten (Z.of_N p))) as ES by (rewrite scaled_spec; reflexivity).
      assert (0 < ten (Z.of_N p))%R as TQ by (apply powerRZ_lt; lra).
      assert (0 <= scaled m e p)%Z as S0.
      { rewrite ES. rewrite <- (nearest_IZR 0). apply nearest_le. apply Rmult_le_pos; lra. }
      unfold number_of. rewrite Z2N.id by exact S0. rewrite ES.
      assert (ten (- Z.of_N p) * ten (Z.of_N p) = 1)%R as TT by (unfold ten; rewrite powerRZ_neg'; apply Rinv_l; apply Rgt_not_eq; exact TQ).
      set (n := IZR (ZnearestE (v * ten (Z.of_N p)))) in *.
      pose proof (Znearest_half (fun z => negb (Z.even z)) (v * ten (Z.of_N p))%R) as HH. fold n in HH.
      assert ((if s then -1 else 1) * n * ten (- Z.of_N p) - (if s then -1 else 1) * v = (if s then 1 else -1) * (ten (- Z.of_N p) * (v * ten (Z.of_N p) - n)))%R as EQ.
      { replace (ten (- Z.of_N p) * (v * ten (Z.of_N p) - n))%R with (v * (ten (- Z.of_N p) * ten (Z.of_N p)) - n * ten (- Z.of_N p))%R by ring. rewrite TT. destruct s; ring. }
      rewrite EQ, !Rabs_mult. rewrite (Rabs_pos_eq (ten (- Z.of_N p))) by lra.
      assert (Rabs (if s then 1 else -1) = 1)%R as E1 by (destruct s; unfold Rabs; destruct Rcase_abs; lra). rewrite E1.
      unfold ZnearestE in *. nra.
Qed.
Lemma print_float F t p x : (F = FLT /\ t = T_FLOAT /\ p = 9 \/ F = DBL /\ t = T_DOUBLE /\ p = 17) -> valid F x -> finite_fp x ->
  exists w minus m, print_by_type false (store_fp F x) t = Ok w /\ decimal w minus m (- Z.of_N p) /\ (Rabs (number_of minus m (- Z.of_N p) - val x) <= ten (- Z.of_N p) / 2)%R.
Proof.
  intros K V Fi. assert (fmt_ok F /\ 0 < p) as [HF P] by (destruct K as [[-> [-> ->]]|[-> [-> ->]]]; (split; [first [exact flt_ok|exact dbl_ok]|reflexivity])).
  destruct (show_float_near p x P Fi) as [minus [m [D N]]]. exists (show_float p x), minus, m. split; [|split; assumption].
  assert (not_nan x) as NN by (destruct x; try contradiction; discriminate || exact Logic.I).
  transitivity (do y <- load_fp F (store_fp F x); Ok (show_float p y)).
  - destruct K as [[-> [-> ->]]|[-> [-> ->]]]; reflexivity.
  - rewrite load_store by assumption. reflexivity.
Qed.
