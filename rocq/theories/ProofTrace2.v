(* Reading the text of numbers *)
From Verif Require Import ModelBytes ProofBytes ModelKey ModelWire ModelHist ModelMsg ModelStore ModelGetOp ModelDs ModelElen ModelRoute ModelClient
  ModelFloat SpecElen SpecFp ProofElen ProofFpDecode ProofFpBase ProofFpBits ProofFpMant ProofFpOrder ModelStats ModelDsStats SpecDsStats2 ProofLd ProofLd2
  ModelTimes SpecTimes ModelTrace SpecTrace ProofTrace.
From Coq Require Import Reals Lra.
Notation num := ProofElen.num.

(* ---- cutting ---- *)
Definition has_no (c : ascii) (s : bytes) : Prop := Forall (fun x => x <> c) s.
Lemma cut_none c s : has_no c s -> cut c s = [s].
Proof. induction 1 as [|x s H _ IH]; cbn [cut]; [reflexivity|]. apply Ascii.eqb_neq in H. rewrite H, IH. reflexivity. Qed.
Lemma cut_app c a b : has_no c a -> cut c (a ++ c :: b) = a :: cut c b.
Proof.
  induction 1 as [|x s H _ IH]; cbn [cut app]; [rewrite Ascii.eqb_refl; reflexivity|].
  apply Ascii.eqb_neq in H. rewrite H, IH. reflexivity.
Qed.
Lemma digits_has_no c s : all_digits s -> is_digit c = false -> has_no c s.
Proof. intros H D. eapply Forall_impl; [|exact H]. intros x E ->. cbv beta in E. congruence. Qed.
Lemma has_no_app c a b : has_no c a -> has_no c b -> has_no c (a ++ b).
Proof. intros A B. apply Forall_app. split; assumption. Qed.

(* ---- digits ---- *)
Local Open Scope N_scope.
Lemma read_digits_num s acc : all_digits s -> read_digits acc s = Some (num_prefix acc s).
Proof.
  revert acc; induction s as [|c s IH]; intros acc H; [reflexivity|]. inversion H; subst. cbn [read_digits num_prefix].
  change ((48 <=? N_of_ascii c) && (N_of_ascii c <=? 57)) with (is_digit c). rewrite H2. apply IH. assumption.
Qed.
Lemma read_nat_num s : all_digits s -> s <> [] -> read_nat s = Some (num s).
Proof. intros H N. destruct s as [|c s]; [congruence|]. unfold read_nat. rewrite read_digits_num by exact H. reflexivity. Qed.
Lemma nonempty_blen (s : bytes) : 1 <= blen s -> s <> [].
Proof. intros H ->. cbn in H. lia. Qed.
Lemma read_nat_to_string n : read_nat (to_string n) = Some n.
Proof. destruct (to_string_spec n) as (A & B & C & _). rewrite read_nat_num by (try apply nonempty_blen; assumption). rewrite B. reflexivity. Qed.
Lemma read_integer_digits s : all_digits s -> s <> [] -> read_integer s = Some (Z.of_N (num s)).
Proof.
  intros H N. pose proof (read_nat_num s H N) as R. destruct s as [|c s]; [congruence|]. inversion H; subst. apply is_digit_range in H2.
  assert (E : read_integer (c :: s) = option_map Z.of_N (read_nat (c :: s))).
  { unfold read_integer. destruct c as [[] [] [] [] [] [] [] []]; try reflexivity; exfalso; cbn in H2; lia. }
  rewrite E, R. reflexivity.
Qed.
Lemma read_show_int z : read_integer (show_int z) = Some z.
Proof.
  unfold show_int. destruct (Z.ltb_spec z 0) as [H|H].
  - cbn [read_integer]. rewrite read_nat_to_string. cbn [option_map]. f_equal. lia.
  - destruct (to_string_spec (Z.to_N z)) as (A & B & C & _). rewrite read_integer_digits by (try apply nonempty_blen; assumption).
    rewrite B. f_equal. lia.
Qed.

(* ---- zeros at the end ---- *)
Lemma num_app a b : all_digits a -> all_digits b -> num (a ++ b) = num a * 10 ^ blen b + num b.
Proof.
  intros A. revert b; induction a as [|c a IH]; intros b B; [cbn [app]; unfold num at 2; cbn [num_prefix]; lia|].
  inversion A; subst. cbn [app]. assert (D : all_digits (a ++ b)) by (apply Forall_app; split; assumption).
  rewrite num_cons by (constructor; assumption). rewrite (num_cons c a) by exact A. rewrite IH by assumption. rewrite blen_app, N.pow_add_r. lia.
Qed.
Lemma num_zeros j : num (repeat (digit 0) j) = 0.
Proof.
  induction j as [|j IH]; [reflexivity|]. cbn [repeat]. rewrite num_cons.
  - rewrite N_of_digit by reflexivity. rewrite IH. lia.
  - constructor; [reflexivity|]. clear. induction j; constructor; [reflexivity|assumption].
Qed.
Lemma zeros_digits j : all_digits (repeat (digit 0) j).
Proof. induction j; constructor; [reflexivity|assumption]. Qed.
Lemma strip_zeros_spec s : exists j, s = strip_zeros s ++ repeat (digit 0) j.
Proof.
  induction s as [|c s [j E]]; [exists 0%nat; reflexivity|]. cbn [strip_zeros]. destruct (strip_zeros s) as [|x r] eqn:R.
  - destruct (Ascii.eqb_spec c (digit 0)) as [->|Hc].
    + exists (S j). cbn [app repeat] in *. congruence.
    + exists j. cbn [app] in *. congruence.
  - exists j. cbn [app] in *. congruence.
Qed.
Lemma strip_zeros_digits s : all_digits s -> all_digits (strip_zeros s).
Proof. intros H. destruct (strip_zeros_spec s) as [j E]. rewrite E in H. apply Forall_app in H. tauto. Qed.
Lemma value_zeros n j k : value (n * 10 ^ N.of_nat j, (k - Z.of_nat j)%Z) = value (n, k).
Proof.
  unfold value. cbn [fst snd]. rewrite N2Z.inj_mul, mult_IZR, N2Z.inj_pow. change (Z.of_N 10) with 10%Z. rewrite nat_N_Z.
  rewrite <- (ten_IZR (Z.of_nat j)) by lia. rewrite Rmult_assoc, <- ten_plus. repeat f_equal. lia.
Qed.

(* ---- with a point ---- *)
Definition dot_chars (s : bytes) : Prop := Forall (fun c => is_digit c = true \/ c = "."%char) s.
Lemma after_point_chars b : all_digits b -> dot_chars (after_point b).
Proof.
  intros H. apply strip_zeros_digits in H. unfold after_point. destruct (strip_zeros b) as [|x r]; [constructor|].
  constructor; [right; reflexivity|]. eapply Forall_impl; [|exact H]. intros c Hc. left. exact Hc.
Qed.
Lemma digits_dot a : all_digits a -> dot_chars a.
Proof. intros H. eapply Forall_impl; [|exact H]. intros c Hc. left. exact Hc. Qed.
Lemma dot_has_no c s : dot_chars s -> is_digit c = false -> c <> "."%char -> has_no c s.
Proof. intros H D E. eapply Forall_impl; [|exact H]. intros x [X|X] ->; [cbv beta in X|]; congruence. Qed.
Lemma read_point_spec a b : all_digits a -> all_digits b -> a <> [] ->
  exists v, read_point (a ++ after_point b) = Some v /\ value v = value (num (a ++ b), (- Z.of_N (blen b))%Z).
Proof.
  intros A B NA. destruct (strip_zeros_spec b) as [j E]. pose proof (strip_zeros_digits b B) as S.
  assert (V : value (num (a ++ b), (- Z.of_N (blen b))%Z) = value (num (a ++ strip_zeros b), (- Z.of_N (blen (strip_zeros b)))%Z)).
  { rewrite E at 1 2. rewrite app_assoc, (num_app (a ++ strip_zeros b)) by (try apply zeros_digits; apply Forall_app; split; assumption).
    rewrite num_zeros, N.add_0_r, blen_app. replace (blen (repeat (digit 0) j)) with (N.of_nat j) by (unfold blen; rewrite repeat_length; reflexivity).
    rewrite <- (value_zeros (num (a ++ strip_zeros b)) j). f_equal. f_equal. lia. }
  rewrite V. unfold after_point, read_point. destruct (strip_zeros b) as [|x r] eqn:R.
  - rewrite app_nil_r, cut_none by (apply digits_has_no; [exact A|reflexivity]). rewrite read_nat_num by assumption. eexists. split; reflexivity.
  - rewrite cut_app by (apply digits_has_no; [exact A|reflexivity]). rewrite cut_none by (apply digits_has_no; [exact S|reflexivity]).
    rewrite read_nat_num; [eexists; split; reflexivity|apply Forall_app; split; assumption|destruct a; discriminate].
Qed.
Lemma read_number_plain a b : all_digits a -> all_digits b -> a <> [] ->
  exists v, read_number (a ++ after_point b) = Some v /\ value v = value (num (a ++ b), (- Z.of_N (blen b))%Z).
Proof.
  intros A B NA. destruct (read_point_spec a b A B NA) as (v & E & V). exists v. split; [|exact V].
  unfold read_number. rewrite cut_none; [exact E|]. apply dot_has_no; [|reflexivity|discriminate].
  apply Forall_app. split; [apply digits_dot, A|apply after_point_chars, B].
Qed.
Lemma value_exp m k y : value (m, (k + y)%Z) = (value (m, k) * ten y)%R.
Proof. unfold value. cbn [fst snd]. rewrite ten_plus, Rmult_assoc. reflexivity. Qed.
Lemma read_number_exp a b s y : all_digits a -> all_digits b -> a <> [] -> has_no "e"%char s -> read_integer s = Some y ->
  exists v, read_number (a ++ after_point b ++ "e"%char :: s) = Some v /\ value v = (value (num (a ++ b), (- Z.of_N (blen b))%Z) * ten y)%R.
Proof.
  intros A B NA NS RS. destruct (read_point_spec a b A B NA) as ([m k] & E & V). exists (m, (k + y)%Z). split; [|rewrite value_exp, V; reflexivity].
  unfold read_number. rewrite app_assoc, cut_app.
  2: { apply dot_has_no; [apply Forall_app; split; [apply digits_dot, A|apply after_point_chars, B]|reflexivity|discriminate]. }
  rewrite (cut_none _ s NS).
  rewrite E, RS. reflexivity.
Qed.
Lemma read_signed (x : Z) : (-12 <= x <= 21)%Z ->
  read_integer ((if (x <? 0)%Z then "-"%char else "+"%char) :: pad 2 (Z.to_N (Z.abs x))) = Some x.
Proof.
  intros H. destruct (pad_spec 2 (Z.to_N (Z.abs x))) as (A & B & C). assert (NE : pad 2 (Z.to_N (Z.abs x)) <> []) by (intros Q; rewrite Q in B; discriminate B).
  rewrite N.mod_small in C by (cbn; lia).
  destruct (Z.ltb_spec x 0) as [L|L]; cbn [read_integer]; rewrite read_nat_num, C by assumption; cbn [option_map]; f_equal; lia.
Qed.

(* ---- what is shown ---- *)
Lemma firstn_digits n s : all_digits s -> all_digits (firstn n s).
Proof. intros H. rewrite <- (firstn_skipn n s) in H. apply Forall_app in H. tauto. Qed.
Lemma skipn_digits n s : all_digits s -> all_digits (skipn n s).
Proof. intros H. rewrite <- (firstn_skipn n s) in H. apply Forall_app in H. tauto. Qed.
Lemma firstn_nonempty n (s : bytes) : s <> [] -> firstn (S n) s <> [].
Proof. destruct s; [congruence|discriminate]. Qed.
Lemma six_text d : (10 ^ 5 <= d < 10 ^ 6)%Z ->
  all_digits (to_string (Z.to_N d)) /\ num (to_string (Z.to_N d)) = Z.to_N d /\ List.length (to_string (Z.to_N d)) = 6%nat.
Proof.
  intros H. destruct (to_string_spec (Z.to_N d)) as (A & B & C & D & E). split; [exact A|]. split; [exact B|].
  pose proof (to_string_len_bound (Z.to_N d) 6 ltac:(change (10 ^ 6) with (Z.to_N (10 ^ 6)); lia) ltac:(lia)) as L.
  destruct (N.lt_ge_cases (blen (to_string (Z.to_N d))) 6) as [Q|Q]; [|unfold blen in *; lia].
  assert (P : 10 ^ blen (to_string (Z.to_N d)) <= 10 ^ 5) by (apply N.pow_le_mono_r; lia). change (10 ^ 5) with (Z.to_N (10 ^ 5)) in P. lia.
Qed.
Definition shown (d x : Z) : bytes :=
  let ds := to_string (Z.to_N d) in
  if ((-4 <=? x) && (x <? 6))%Z then
     if (0 <=? x)%Z then firstn (Z.to_nat x + 1) ds ++ after_point (skipn (Z.to_nat x + 1) ds)
     else digit 0 :: after_point (repeat (digit 0) (Z.to_nat (- x - 1)) ++ ds)
  else firstn 1 ds ++ after_point (skipn 1 ds) ++ ["e"%char; if (x <? 0)%Z then "-"%char else "+"%char] ++ pad 2 (Z.to_N (Z.abs x)).
Lemma show_g_shown m e : show_g (S754_finite false m e) = let '(d, x) := six m e in shown d x.
Proof. unfold show_g, shown. destruct (six m e) as [d x]. reflexivity. Qed.
Lemma value_d d k : (0 <= d)%Z -> value (Z.to_N d, k) = (IZR d * ten k)%R.
Proof. intros H. unfold value. cbn [fst snd]. rewrite Z2N.id by exact H. reflexivity. Qed.
Lemma shown_read d x : (10 ^ 5 <= d < 10 ^ 6)%Z -> (-12 <= x <= 21)%Z ->
  exists v, read_number (shown d x) = Some v /\ value v = (IZR d * ten (x - 5))%R.
Proof.
  intros Hd Hx. destruct (six_text d Hd) as (A & B & L). unfold shown. set (ds := to_string (Z.to_N d)) in *.
  assert (NE : ds <> []) by (intros Q; rewrite Q in L; discriminate L).
  destruct ((-4 <=? x) && (x <? 6))%Z eqn:F.
  - apply andb_prop in F as [F1 F2]. apply Z.leb_le in F1. apply Z.ltb_lt in F2. destruct (Z.leb_spec 0 x) as [P|P].
    + destruct (read_number_plain (firstn (Z.to_nat x + 1) ds) (skipn (Z.to_nat x + 1) ds)) as (v & E & V);
        [apply firstn_digits, A|apply skipn_digits, A|rewrite Nat.add_1_r; apply firstn_nonempty, NE|].
      exists v. split; [exact E|]. rewrite V, firstn_skipn, B, value_d by lia. f_equal. f_equal. unfold blen. rewrite skipn_length, L. lia.
    + destruct (read_number_plain [digit 0] (repeat (digit 0) (Z.to_nat (- x - 1)) ++ ds)) as (v & E & V);
        [apply (zeros_digits 1)|apply Forall_app; split; [apply zeros_digits|exact A]|discriminate|].
      exists v. split; [exact E|]. rewrite V. change [digit 0] with (repeat (digit 0) 1). rewrite app_assoc, <- repeat_app, num_app by (try apply zeros_digits; exact A).
      rewrite num_zeros, N.mul_0_l, N.add_0_l, B, value_d by lia. f_equal. f_equal. unfold blen. rewrite app_length, repeat_length, L. lia.
  - destruct (pad_spec 2 (Z.to_N (Z.abs x))) as (PA & _ & _).
    destruct (read_number_exp (firstn 1 ds) (skipn 1 ds) ((if (x <? 0)%Z then "-"%char else "+"%char) :: pad 2 (Z.to_N (Z.abs x))) x) as (v & E & V);
      [apply firstn_digits, A|apply skipn_digits, A|apply firstn_nonempty, NE| |apply read_signed, Hx|].
    { constructor; [destruct (x <? 0)%Z; discriminate|]. apply digits_has_no; [exact PA|reflexivity]. }
    exists v. split; [exact E|]. rewrite V, firstn_skipn, B, value_d, Rmult_assoc, <- ten_plus by lia. f_equal. f_equal.
    unfold blen. rewrite skipn_length, L. lia.
Qed.
(* characters *)
Definition number_char (c : ascii) : Prop := is_digit c = true \/ c = "."%char \/ c = "e"%char \/ c = "-"%char \/ c = "+"%char.
Lemma number_plain s : Forall number_char s -> plain s.
Proof.
  intros H. eapply Forall_impl; [|exact H]. intros c [D|[->|[->|[->| ->]]]]; try (split; discriminate).
  split; intros ->; discriminate D.
Qed.
Lemma digits_number s : all_digits s -> Forall number_char s.
Proof. intros H. eapply Forall_impl; [|exact H]. intros c D. left. exact D. Qed.
Lemma dot_number s : dot_chars s -> Forall number_char s.
Proof. intros H. eapply Forall_impl; [|exact H]. intros c [D|D]; [left|right; left]; exact D. Qed.
Lemma shown_chars d x : (10 ^ 5 <= d < 10 ^ 6)%Z -> Forall number_char (shown d x).
Proof.
  intros Hd. destruct (six_text d Hd) as (A & B & L). unfold shown. set (ds := to_string (Z.to_N d)) in *.
  destruct ((-4 <=? x) && (x <? 6))%Z; [destruct (0 <=? x)%Z|].
  - apply Forall_app. split; [apply digits_number, firstn_digits, A|apply dot_number, after_point_chars, skipn_digits, A].
  - constructor; [left; reflexivity|]. apply dot_number, after_point_chars, Forall_app. split; [apply zeros_digits|exact A].
  - apply Forall_app. split; [apply digits_number, firstn_digits, A|]. apply Forall_app. split; [apply dot_number, after_point_chars, skipn_digits, A|].
    cbn [app]. constructor; [right; right; left; reflexivity|]. constructor; [destruct (x <? 0)%Z; unfold number_char; tauto|].
    apply digits_number. apply pad_spec.
Qed.
Lemma show_int_chars z : Forall number_char (show_int z).
Proof.
  unfold show_int. destruct (z <? 0)%Z; [constructor; [unfold number_char; tauto|]|]; apply digits_number; apply to_string_spec.
Qed.
