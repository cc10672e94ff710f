From Verif Require Import ModelBytes ProofBytes ModelKey ModelElen SpecElen.
Local Open Scope N_scope.

(* ---- digits ---- *)
Lemma N_of_digit d : d < 10 -> N_of_ascii (digit d) = 48 + d.
Proof. intros H. unfold digit. apply N_ascii_embedding. lia. Qed.
Lemma is_digit_digit d : d < 10 -> is_digit (digit d) = true.
Proof. intros H. unfold is_digit. rewrite N_of_digit by exact H. lia. Qed.
Lemma is_digit_range c : is_digit c = true <-> 48 <= N_of_ascii c <= 57.
Proof. unfold is_digit. lia. Qed.

Definition all_digits (s : bytes) : Prop := Forall (fun c => is_digit c = true) s.
Definition num (s : bytes) : N := num_prefix 0 s.
Notation dv c := (N_of_ascii c - 48).

Lemma num_prefix_acc s acc : all_digits s -> num_prefix acc s = acc * 10 ^ blen s + num s.
Proof.
  revert acc; induction s as [|c s IH]; intros acc H; inversion H; subst.
  - cbn. lia.
  - unfold num. cbn [num_prefix]. rewrite H2. rewrite IH, (IH (10 * 0 + dv c)) by assumption.
    unfold blen. cbn [List.length]. rewrite Nat2N.inj_succ, N.pow_succ_r'. lia.
Qed.
Lemma num_cons c s : all_digits (c :: s) -> num (c :: s) = dv c * 10 ^ blen s + num s.
Proof.
  intros H. inversion H; subst. unfold num at 1. cbn [num_prefix]. rewrite H2, num_prefix_acc by assumption. lia.
Qed.
Lemma num_lt s : all_digits s -> num s < 10 ^ blen s.
Proof.
  induction s as [|c s IH]; intros H; [reflexivity|]. rewrite num_cons by exact H. inversion H; subst.
  apply is_digit_range in H2. specialize (IH H3). unfold blen in *. cbn [List.length].
  rewrite Nat2N.inj_succ, N.pow_succ_r'. nia.
Qed.
Lemma num_snoc s c : all_digits (s ++ [c]) -> num (s ++ [c]) = 10 * num s + dv c.
Proof.
  intros H. apply Forall_app in H as [H1 H2]. inversion H2; subst.
  unfold num. clear H2. revert H1. generalize 0 as acc. induction s as [|x s IH]; intros acc H1; cbn [app num_prefix].
  - rewrite H3. reflexivity.
  - inversion H1 as [|? ? Hx Hs]; subst. rewrite Hx. apply IH; assumption.
Qed.

Lemma all_digits_snoc s d : all_digits s -> d < 10 -> all_digits (s ++ [digit d]).
Proof. intros H Hd. apply Forall_app. split; [exact H|]. constructor; [apply is_digit_digit, Hd|constructor]. Qed.

Lemma digits_fuel_spec f n : n < 10 ^ N.of_nat (S f) ->
  all_digits (digits_fuel f n) /\ num (digits_fuel f n) = n /\ 1 <= blen (digits_fuel f n) /\
  (0 < n -> 10 ^ (blen (digits_fuel f n) - 1) <= n).
Proof.
  assert (One : forall d, d < 10 -> all_digits [digit d] /\ num [digit d] = d /\ 1 <= blen [digit d] /\
                (0 < d -> 10 ^ (blen [digit d] - 1) <= d)).
  { intros d Hd. repeat split.
    - constructor; [apply is_digit_digit, Hd|constructor].
    - unfold num. cbn [num_prefix]. rewrite is_digit_digit, N_of_digit by exact Hd. lia.
    - cbn. lia.
    - cbn. lia. }
  revert n; induction f as [|f IH]; intros n Hn.
  - cbn [digits_fuel]. assert (Hn' : n < 10) by (cbn in Hn; lia). rewrite N.mod_small by exact Hn'. apply One, Hn'.
  - cbn [digits_fuel]. destruct (N.ltb_spec n 10) as [H|H]; [apply One, H|].
    rewrite (Nat2N.inj_succ (S f)), N.pow_succ_r' in Hn.
    assert (Hd : n / 10 < 10 ^ N.of_nat (S f)) by (apply N.div_lt_upper_bound; lia).
    destruct (IH (n / 10) Hd) as (A & B & C & D).
    assert (Hm : n mod 10 < 10) by (apply N.mod_lt; lia).
    pose proof (N.div_mod n 10 ltac:(lia)) as DM.
    repeat split.
    + apply all_digits_snoc; assumption.
    + rewrite num_snoc by (apply all_digits_snoc; assumption). rewrite B, N_of_digit by exact Hm. lia.
    + rewrite blen_app. cbn. lia.
    + intros _. rewrite blen_app. change (blen [digit (n mod 10)]) with 1.
      specialize (D ltac:(lia)).
      replace (blen (digits_fuel f (n / 10)) + 1 - 1) with (N.succ (blen (digits_fuel f (n / 10)) - 1)) by lia.
      rewrite N.pow_succ_r'. lia.
Qed.

Lemma size_pow n : n < 10 ^ N.of_nat (S (N.size_nat n)).
Proof.
  assert (H : n < 2 ^ N.of_nat (N.size_nat n)).
  { destruct n as [|p]; [cbn; lia|].
    pose proof (N.size_gt (N.pos p)) as H. cbn [N.size N.size_nat] in *.
    replace (N.of_nat (Pos.size_nat p)) with (N.pos (Pos.size p)); [exact H|].
    clear H. induction p as [p IH|p IH|]; cbn [Pos.size Pos.size_nat]; [| |reflexivity];
      rewrite Nat2N.inj_succ, <- IH; reflexivity. }
  eapply N.lt_le_trans; [exact H|].
  rewrite Nat2N.inj_succ, N.pow_succ_r'.
  pose proof (N.pow_le_mono_l 2 10 (N.of_nat (N.size_nat n)) ltac:(lia)). lia.
Qed.

Lemma to_string_spec n :
  all_digits (to_string n) /\ num (to_string n) = n /\ 1 <= blen (to_string n) /\
  (0 < n -> 10 ^ (blen (to_string n) - 1) <= n) /\ n < 10 ^ blen (to_string n).
Proof.
  destruct (digits_fuel_spec (N.size_nat n) n (size_pow n)) as (A & B & C & D).
  fold (to_string n) in *. repeat (split; [assumption|]). rewrite <- B at 1. apply num_lt, A.
Qed.

Lemma to_string_small n : 0 < n < 10 -> blen (to_string n) = 1.
Proof.
  intros H. destruct (to_string_spec n) as (_ & _ & C & D & _). specialize (D ltac:(lia)).
  destruct (N.eq_dec (blen (to_string n)) 1) as [E|E]; [exact E|]. exfalso.
  assert (10 ^ 1 <= 10 ^ (blen (to_string n) - 1)) by (apply N.pow_le_mono_r; lia). lia.
Qed.
Lemma to_string_large n : 10 <= n -> 1 < blen (to_string n).
Proof.
  intros H. destruct (to_string_spec n) as (_ & _ & C & D & E).
  destruct (N.eq_dec (blen (to_string n)) 1) as [X|X]; [|lia]. rewrite X in E. lia.
Qed.
Lemma to_string_len_le n m : 0 < n -> n <= m -> blen (to_string n) <= blen (to_string m).
Proof.
  intros H0 H. destruct (to_string_spec n) as (_ & _ & C & D & E), (to_string_spec m) as (_ & _ & C' & D' & E').
  specialize (D H0). destruct (N.le_gt_cases (blen (to_string n)) (blen (to_string m))) as [X|X]; [exact X|]. exfalso.
  assert (10 ^ blen (to_string m) <= 10 ^ (blen (to_string n) - 1)) by (apply N.pow_le_mono_r; lia). lia.
Qed.
Lemma to_string_len_bound n k : n < 10 ^ k -> 1 <= k -> blen (to_string n) <= k.
Proof.
  intros H Hk. destruct (N.eq_dec n 0) as [->|Hn]; [change (blen (to_string 0)) with 1; lia|].
  destruct (to_string_spec n) as (_ & _ & C & D & E). specialize (D ltac:(lia)).
  destruct (N.le_gt_cases (blen (to_string n)) k) as [X|X]; [exact X|]. exfalso.
  assert (10 ^ k <= 10 ^ (blen (to_string n) - 1)) by (apply N.pow_le_mono_r; lia). lia.
Qed.

(* ---- order of digit strings of the same length ---- *)
Lemma digits_slt a b : all_digits a -> all_digits b -> blen a = blen b -> num a < num b -> slt a b.
Proof.
  revert b; induction a as [|x a IH]; intros [|y b] Ha Hb HL H; unfold blen in HL; cbn [List.length] in HL; try lia.
  rewrite !num_cons in H by assumption. inversion Ha; subst. inversion Hb; subst.
    apply is_digit_range in H2, H4. fold (blen a) (blen b) in *.
    assert (HLL : blen a = blen b) by (unfold blen in *; lia).
    pose proof (num_lt a H3). pose proof (num_lt b H5). rewrite HLL in *.
    destruct (N.lt_trichotomy (N_of_ascii x) (N_of_ascii y)) as [L|[E|G]].
    + apply slt_head, L.
    + rewrite E in H. apply N_of_ascii_inj in E. subst y. apply slt_cons, IH; auto; lia.
    + exfalso. assert (dv y + 1 <= dv x) by lia. nia.
Qed.

Lemma flip1_digit c : is_digit c = true -> is_digit (flip1 c) = true /\ N_of_ascii (flip1 c) = 105 - N_of_ascii c.
Proof.
  intros H. unfold flip1. rewrite H. apply is_digit_range in H.
  rewrite is_digit_range, N_ascii_embedding by lia. lia.
Qed.
Lemma flip_digits s : all_digits s -> all_digits (flip s).
Proof. intros H. apply Forall_forall. intros c Hc. apply in_map_iff in Hc as (d & <- & Hd). apply flip1_digit. exact (proj1 (Forall_forall _ _) H d Hd). Qed.
Lemma flip_flip s : all_digits s -> flip (flip s) = s.
Proof.
  induction 1 as [|c s Hc _ IH]; cbn; [reflexivity|]. f_equal; [|exact IH].
  destruct (flip1_digit c Hc) as [H1 H2]. destruct (flip1_digit (flip1 c) H1) as [H3 H4].
  apply N_of_ascii_inj. apply is_digit_range in Hc. lia.
Qed.
Lemma flip_blen s : blen (flip s) = blen s.
Proof. unfold blen, flip. rewrite map_length. reflexivity. Qed.
Lemma flip_slt a b : all_digits a -> all_digits b -> slt a b -> slt (flip b) (flip a).
Proof.
  intros Ha Hb (c & x & y & a' & b' & -> & -> & H).
  apply Forall_app in Ha as [_ Ha]. apply Forall_app in Hb as [_ Hb]. inversion Ha; subst. inversion Hb; subst.
  exists (flip c), (flip1 y), (flip1 x), (flip b'), (flip a'). unfold flip. rewrite !map_app. cbn.
  repeat split. destruct (flip1_digit x H2) as [_ ->]. destruct (flip1_digit y H4) as [_ ->].
  apply is_digit_range in H2, H4. lia.
Qed.

(* ---- unique ---- *)
(* enough fuel *)
Fixpoint fits (f : nat) (n : N) : Prop :=
  match f with O => False | S f' => n < 10 \/ fits f' (blen (to_string n)) end.

Lemma fits_64 n : n < 10 ^ 20 -> fits 4 n.
Proof.
  intros H. right. pose proof (to_string_len_bound n 20 H ltac:(discriminate)) as B.
  right. pose proof (to_string_len_bound (blen (to_string n)) 2 ltac:(lia) ltac:(lia)). left. lia.
Qed.

Lemma unique_unfold f n p neg s : 0 < n -> unique (S f) n p neg = Some s ->
  exists l, (n < 10 /\ l = [] \/ 10 <= n /\ unique f (blen (to_string n)) p neg = Some l)
    /\ s = p :: l ++ (if Ascii.eqb p neg then flip (to_string n) else to_string n).
Proof.
  intros Hn H. cbn [unique] in H. destruct (N.eqb_spec n 0); [lia|].
  destruct (N.lt_ge_cases n 10) as [L|G].
  - rewrite to_string_small in H by lia. change (1 <? 1) with false in H. cbn iota in H.
    injection H as <-. exists []. auto.
  - pose proof (to_string_large n G). destruct (N.ltb_spec 1 (blen (to_string n))); [|lia].
    destruct (unique f (blen (to_string n)) p neg) as [l|] eqn:E; [|discriminate]. injection H as <-.
    exists l. auto.
Qed.

Lemma unique_some f n p neg : fits f n -> exists s, unique f n p neg = Some s.
Proof.
  revert n; induction f as [|f IH]; intros n H; [destruct H|]. cbn [unique].
  destruct (N.eqb_spec n 0); [eauto|]. destruct (N.lt_ge_cases n 10) as [L|G].
  - rewrite to_string_small by lia. change (1 <? 1) with false. eauto.
  - destruct H as [H|H]; [lia|]. destruct (IH _ H) as [l ->]. destruct (1 <? _); eauto.
Qed.

Lemma unique_blen f n p neg s : n < 10 ^ 20 -> unique f n p neg = Some s -> blen s <= 21 * N.of_nat f.
Proof.
  revert n s; induction f as [|f IH]; intros n s Hn H; [discriminate|].
  destruct (N.eq_dec n 0) as [->|Hz]; [cbn in H; injection H as <-; unfold blen; cbn [List.length]; lia|].
  destruct (unique_unfold f n p neg s ltac:(lia) H) as (l & Hl & ->).
  pose proof (to_string_len_bound n 20 Hn ltac:(discriminate)).
  assert (Hlb : blen l <= 21 * N.of_nat f).
  { destruct Hl as [[_ ->]|[_ Hl]]; [cbn; lia|]. eapply IH; [|exact Hl]. lia. }
  change (p :: l ++ ?x) with ([p] ++ l ++ x). rewrite !blen_app. change (blen [p]) with 1.
  destruct (Ascii.eqb p neg); rewrite ?flip_blen; lia.
Qed.

(* positive values: larger value, larger string, with the difference inside both strings *)
Lemma unique_pos_slt f n m p neg a b :
  Ascii.eqb p neg = false -> 57 < N_of_ascii p ->
  0 < n -> n < m -> unique f n p neg = Some a -> unique f m p neg = Some b -> slt a b.
Proof.
  intros Hpn Hp. revert n m a b; induction f as [|f IH]; intros n m a b Hn H Ha Hb; [discriminate|].
  destruct (unique_unfold _ _ _ _ _ Hn Ha) as (la & Hla & ->).
  destruct (unique_unfold _ _ _ _ _ (N.lt_trans _ _ _ Hn H) Hb) as (lb & Hlb & ->).
  rewrite Hpn. apply slt_cons.
  destruct (to_string_spec n) as (A & B & C & _ & _), (to_string_spec m) as (A' & B' & C' & _ & _).
  pose proof (to_string_len_le n m Hn ltac:(lia)) as Hlen.
  destruct Hla as [[L ->]|[L Hla]].
  - cbn [app]. destruct Hlb as [[L' ->]|[L' Hlb]].
    + cbn [app]. apply digits_slt; auto; [rewrite !to_string_small by lia; reflexivity|lia].
    + destruct f as [|f]; [discriminate|].
      pose proof (to_string_large m L').
      destruct (unique_unfold f (blen (to_string m)) p _ _ ltac:(lia) Hlb) as (l2 & _ & ->). cbn [app].
      destruct (to_string n) as [|c s] eqn:E; [unfold blen in C; cbn in C; lia|].
      inversion A; subst. apply is_digit_range in H3. apply slt_head. lia.
  - destruct Hlb as [[L' _]|[L' Hlb]]; [lia|].
    destruct (N.eq_dec (blen (to_string n)) (blen (to_string m))) as [E|E].
    + rewrite E in Hla. rewrite Hla in Hlb. injection Hlb as ->. apply slt_prefix, digits_slt; auto. lia.
    + apply slt_app. apply (IH (blen (to_string n)) (blen (to_string m))); auto; lia.
Qed.

(* negative values: larger magnitude, smaller string *)
Lemma unique_neg_slt f n m p a b :
  N_of_ascii p < 48 ->
  0 < n -> n < m -> unique f n p p = Some a -> unique f m p p = Some b -> slt b a.
Proof.
  intros Hp. revert n m a b; induction f as [|f IH]; intros n m a b Hn H Ha Hb; [discriminate|].
  destruct (unique_unfold _ _ _ _ _ Hn Ha) as (la & Hla & ->).
  destruct (unique_unfold _ _ _ _ _ (N.lt_trans _ _ _ Hn H) Hb) as (lb & Hlb & ->).
  rewrite Ascii.eqb_refl. apply slt_cons.
  destruct (to_string_spec n) as (A & B & C & _ & _), (to_string_spec m) as (A' & B' & C' & _ & _).
  pose proof (to_string_len_le n m Hn ltac:(lia)) as Hlen.
  destruct Hla as [[L ->]|[L Hla]].
  - cbn [app]. destruct Hlb as [[L' ->]|[L' Hlb]].
    + cbn [app]. apply flip_slt; auto. apply digits_slt; auto; [rewrite !to_string_small by lia; reflexivity|lia].
    + destruct f as [|f]; [discriminate|].
      pose proof (to_string_large m L').
      destruct (unique_unfold f (blen (to_string m)) p _ _ ltac:(lia) Hlb) as (l2 & _ & ->). cbn [app].
      pose proof (flip_digits _ A) as FA. rewrite <- flip_blen in C.
      destruct (flip (to_string n)) as [|c s] eqn:E; [unfold blen in C; cbn in C; lia|].
      inversion FA; subst. apply is_digit_range in H3. apply slt_head. lia.
  - destruct Hlb as [[L' _]|[L' Hlb]]; [lia|].
    destruct (N.eq_dec (blen (to_string n)) (blen (to_string m))) as [E|E].
    + rewrite E in Hla. rewrite Hla in Hlb. injection Hlb as ->. apply slt_prefix, flip_slt, digits_slt; auto. lia.
    + apply slt_app. apply (IH (blen (to_string n)) (blen (to_string m))); auto; lia.
Qed.

(* ---- decoding ---- *)
Lemma substr_app a b c off n : off = blen a -> n = blen b -> substr (a ++ b ++ c) off n = Ok b.
Proof.
  intros -> ->. unfold substr. rewrite !blen_app. destruct (N.ltb_spec (blen a + (blen b + blen c)) (blen a)); [lia|].
  replace (N.min (blen b) (blen a + (blen b + blen c) - blen a)) with (blen b) by lia.
  unfold blen. rewrite !Nat2N.id, skipn_app_exact, firstn_app_exact. reflexivity.
Qed.

Lemma read_num_digits mx s : all_digits s -> 1 <= blen s -> num s <= mx -> read_num mx s = Ok (num s).
Proof.
  intros H H1 H2. destruct s as [|c s]; [unfold blen in H1; cbn in H1; lia|]. unfold read_num. inversion H; subst. rewrite H4.
  fold (num (c :: s)). destruct (N.leb_spec (num (c :: s)) mx); [reflexivity|lia].
Qed.

Lemma next_digits mx p neg a b c off n : n <= mx -> off = blen a ->
  b = (if Ascii.eqb p neg then flip (to_string n) else to_string n) ->
  blen (a ++ b ++ c) < 2 ^ 64 ->
  next mx p neg (a ++ b ++ c) off (blen (to_string n)) = Ok (n, blen a + blen b).
Proof.
  intros Hmx -> Hb Hl. destruct (to_string_spec n) as (A & B & C & _ & _).
  assert (Hbl : blen b = blen (to_string n)) by (rewrite Hb; destruct (Ascii.eqb p neg); rewrite ?flip_blen; reflexivity).
  unfold next. rewrite substr_app by auto. cbn [obind].
  replace (if Ascii.eqb p neg then flip b else b) with (to_string n).
  2:{ rewrite Hb. destruct (Ascii.eqb p neg); [rewrite flip_flip by exact A|]; reflexivity. }
  rewrite read_num_digits by (auto; lia). cbn [obind]. rewrite B.
  rewrite N.mod_small by (rewrite !blen_app in Hl; lia). rewrite Hbl. reflexivity.
Qed.

Lemma read_lens_snoc k p neg str q l :
  read_lens (S k) p neg str q l =
  do (q', l') <- read_lens k p neg str q l; do (l'', q'') <- next SIZE_MAX p neg str q' l'; Ok (q'', l'').
Proof.
  revert q l; induction k as [|k IH]; intros q l.
  - cbn [read_lens obind]. destruct (next SIZE_MAX p neg str q l) as [[x y]| |]; reflexivity.
  - cbn [read_lens]. destruct (next SIZE_MAX p neg str q l) as [[x y]| |] eqn:E; cbn [obind]; try reflexivity.
    rewrite <- IH. reflexivity.
Qed.

Lemma unique_decode f n p neg s : 0 < n -> n <= SIZE_MAX -> unique f n p neg = Some s ->
  exists k rest, s = repeat p (S k) ++ rest /\ (exists d r, rest = d :: r /\ is_digit d = true) /\
    forall pre tail mx, n <= mx -> blen (pre ++ rest ++ tail) < 2 ^ 64 ->
      (do (q, l) <- read_lens k p neg (pre ++ rest ++ tail) (blen pre) 1; next mx p neg (pre ++ rest ++ tail) q l)
      = Ok (n, blen pre + blen rest).
Proof.
  revert n s; induction f as [|f IH]; intros n s Hn Hmax H; [discriminate|].
  destruct (unique_unfold _ _ _ _ _ Hn H) as (l & Hl & ->).
  destruct (to_string_spec n) as (A & B & C & _ & E).
  set (str := if Ascii.eqb p neg then flip (to_string n) else to_string n) in *.
  assert (Hstr : exists d r, str = d :: r /\ is_digit d = true).
  { assert (D : all_digits str) by (unfold str; destruct (Ascii.eqb p neg); [apply flip_digits|]; exact A).
    assert (Ls : 1 <= blen str) by (unfold str; destruct (Ascii.eqb p neg); rewrite ?flip_blen; exact C).
    destruct str as [|d r]; [unfold blen in Ls; cbn in Ls; lia|]. inversion D; subst. eauto. }
  destruct Hl as [[L ->]|[L Hl]].
  - exists O, str. split; [reflexivity|]. split; [exact Hstr|].
    intros pre tail mx Hm Hlen. cbn [read_lens obind].
    pose proof (next_digits mx p neg pre str tail (blen pre) n Hm eq_refl eq_refl Hlen) as X.
    rewrite (to_string_small n) in X by lia. exact X.
  - pose proof (to_string_large n L) as Hlarge.
    assert (Hls : blen (to_string n) <= SIZE_MAX).
    { assert (blen (to_string n) <= 20) by (apply to_string_len_bound; [unfold SIZE_MAX in Hmax|]; lia).
      unfold SIZE_MAX. lia. }
    destruct (IH (blen (to_string n)) l ltac:(lia) Hls Hl) as (k & rest & -> & Hrest & F).
    exists (S k), (rest ++ str). split.
    { cbn [repeat app]. rewrite <- app_assoc. reflexivity. }
    split.
    { destruct Hrest as (d & r & -> & Hd). exists d, (r ++ str). auto. }
    intros pre tail mx Hm Hlen. rewrite read_lens_snoc.
    rewrite <- app_assoc in *.
    specialize (F pre (str ++ tail) SIZE_MAX Hls Hlen).
    destruct (read_lens k p neg (pre ++ rest ++ str ++ tail) (blen pre) 1) as [[q l]| |]; cbn [obind] in *; try discriminate.
    rewrite F. cbn [obind].
    rewrite blen_app. rewrite N.add_assoc, <- (blen_app pre rest). rewrite (app_assoc pre rest (str ++ tail)) in *.
    apply next_digits; auto.
Qed.

Lemma count_prefix_repeat p k d r : Ascii.eqb d p = false -> count_prefix p (repeat p k ++ d :: r) = k.
Proof. intros H. induction k as [|k IH]; cbn; [rewrite H; reflexivity|]. rewrite Ascii.eqb_refl, IH. reflexivity. Qed.

Lemma sym_ord_ok neg pos : sym_ord neg pos -> sym_ok neg pos.
Proof.
  intros [H1 H2]. unfold sym_ok, is_digit. repeat split; [lia|lia|]. intros ->. lia.
Qed.

Lemma digit_eqb_sym d p : is_digit d = true -> is_digit p = false -> Ascii.eqb d p = false.
Proof. intros H1 H2. destruct (Ascii.eqb_spec d p) as [->|]; [congruence|reflexivity]. Qed.

Lemma dec_int_unfold T p c t neg pos : dec_int T (p :: c :: t) neg pos =
  do k <- get_prefix_count p (p :: c :: t) pos neg;
  match k with
  | O => Throw
  | S k' =>
      do (position, len) <- read_lens k' p neg (p :: c :: t) (N.of_nat k) 1;
      do (v, _) <- next (Z.to_N (it_max T)) p neg (p :: c :: t) position len;
      if Ascii.eqb p neg
      then Ok (if it_signed T then - Z.of_N v else (- Z.of_N v) mod it_mod T)%Z
      else Ok (Z.of_N v)
  end.
Proof. reflexivity. Qed.

Lemma dec_unique T neg pos p n s : sym_ok neg pos -> p = neg \/ p = pos ->
  (it_bytes T <= 8)%nat -> 0 < n -> (Z.of_N n <= it_max T)%Z -> unique 4 n p neg = Some s ->
  dec_int T s neg pos =
    Ok (if Ascii.eqb p neg then (if it_signed T then - Z.of_N n else (- Z.of_N n) mod it_mod T) else Z.of_N n)%Z.
Proof.
  intros (Hneg & Hpos & Hnp) Hp HT Hn Hmax H.
  assert (Hmod : (it_mod T <= 2 ^ 64)%Z).
  { unfold it_mod. apply Z.pow_le_mono_r; lia. }
  assert (Hmod0 : (0 < it_mod T)%Z) by (unfold it_mod; apply Z.pow_pos_nonneg; lia).
  assert (Hn64 : n <= SIZE_MAX).
  { unfold SIZE_MAX. unfold it_max in Hmax.
    assert (it_mod T / 2 <= it_mod T)%Z by (apply Z.div_le_upper_bound; lia).
    destruct (it_signed T); lia. }
  destruct (unique_decode _ _ _ _ _ Hn Hn64 H) as (k & rest & Es & (d & r & Er & Hd) & F).
  assert (Hpd : is_digit p = false) by (destruct Hp; subst; assumption).
  assert (Hbl : blen s <= 84).
  { pose proof (unique_blen 4 n p neg s ltac:(unfold SIZE_MAX in Hn64; lia) H). cbn in H0. lia. }
  assert (Hlen2 : exists c1 c2 t, s = p :: c1 :: t /\ c2 = c1).
  { rewrite Es, Er. cbn [repeat app]. destruct (repeat p k ++ d :: r) as [|c1 t] eqn:X.
    - destruct k; discriminate X.
    - exists c1, c1, t. auto. }
  destruct Hlen2 as (c1 & _ & t & Hs & _).
  specialize (F (repeat p (S k)) [] (Z.to_N (it_max T)) ltac:(lia)).
  rewrite app_nil_r, <- Es in F. specialize (F ltac:(lia)).
  assert (Hrep : blen (repeat p (S k)) = N.of_nat (S k)) by (unfold blen; rewrite repeat_length; reflexivity).
  rewrite Hrep in F.
  assert (G : get_prefix_count p s pos neg = Ok (S k)).
  { unfold get_prefix_count. rewrite Hs at 1.
    assert (X : Ascii.eqb p (digit 0) = false).
    { destruct (Ascii.eqb_spec p (digit 0)) as [Y|]; [|reflexivity]. rewrite Y in Hpd. discriminate. }
    rewrite X. assert (Y : negb (Ascii.eqb p neg) && negb (Ascii.eqb p pos) = false).
    { destruct Hp; subst p; rewrite Ascii.eqb_refl; cbn; rewrite ?andb_false_r; reflexivity. }
    rewrite Y. rewrite Es, Er, count_prefix_repeat by (apply digit_eqb_sym; assumption).
    rewrite nth_error_app2 by (rewrite repeat_length; lia). rewrite repeat_length, Nat.sub_diag. cbn [nth_error].
    rewrite Hd. reflexivity. }
  rewrite Hs, dec_int_unfold, <- Hs, G. cbn [obind].
  destruct (read_lens k p neg s (N.of_nat (S k)) 1) as [[q l]| |]; cbn [obind] in F |- *; try discriminate.
  rewrite F. cbn [obind]. destruct (Ascii.eqb p neg); reflexivity.
Qed.

Lemma ity_bounds T : (it_bytes T <= 8)%nat -> (1 <= it_bytes T)%nat ->
  (0 < it_mod T <= 2 ^ 64)%Z /\ (it_signed T = true -> it_mod T = 2 * (it_mod T / 2))%Z.
Proof.
  intros H H1. unfold it_mod. split.
  - split; [apply Z.pow_pos_nonneg; lia|apply Z.pow_le_mono_r; lia].
  - intros _. replace (8 * Z.of_nat (it_bytes T))%Z with (Z.succ (8 * Z.of_nat (it_bytes T) - 1))%Z by lia.
    rewrite Z.pow_succ_r by lia. rewrite (Z.mul_comm 2 (2 ^ _)), Z.div_mul by lia. lia.
Qed.

Lemma enc_int_shape T v neg pos : (1 <= it_bytes T <= 8)%nat -> encodable T v ->
  (v = 0%Z /\ enc_int T v neg pos = Ok [digit 0]) \/
  ((0 < v)%Z /\ Z.to_N v < 10 ^ 20 /\ exists s, unique 4 (Z.to_N v) pos neg = Some s /\ enc_int T v neg pos = Ok s) \/
  ((v < 0)%Z /\ Z.to_N (- v) < 10 ^ 20 /\ it_signed T = true /\ (Z.of_N (Z.to_N (- v)) <= it_max T)%Z /\
     exists s, unique 4 (Z.to_N (- v)) neg neg = Some s /\ enc_int T v neg pos = Ok s).
Proof.
  intros HT [[H1 H2] H3]. destruct (ity_bounds T ltac:(lia) ltac:(lia)) as [[B0 B1] B2].
  assert (Hd : (it_mod T / 2 <= it_mod T)%Z) by (apply Z.div_le_upper_bound; lia).
  unfold it_min, it_max in *. unfold enc_int.
  destruct (Z.ltb_spec v 0) as [L|L].
  - right; right. destruct (it_signed T) eqn:Es; [|lia]. specialize (H3 eq_refl).
    unfold it_min. rewrite Es. destruct (Z.eqb_spec v (- (it_mod T / 2))) as [E|E]; [congruence|].
    assert (Hb : Z.to_N (- v) < 10 ^ 20).
    { specialize (B2 eq_refl). assert (- v < 2 ^ 64)%Z by lia. lia. }
    split; [exact L|]. split; [exact Hb|]. split; [reflexivity|]. split; [lia|].
    destruct (unique_some 4 (Z.to_N (- v)) neg neg (fits_64 _ Hb)) as [s Hs]. exists s. rewrite Hs. auto.
  - destruct (Z.ltb_spec 0 v) as [G|G].
    + right; left. assert (Hb : Z.to_N v < 10 ^ 20) by (destruct (it_signed T); lia).
      split; [exact G|]. split; [exact Hb|].
      destruct (unique_some 4 (Z.to_N v) pos neg (fits_64 _ Hb)) as [s Hs]. exists s. rewrite Hs. auto.
    + left. split; [lia|reflexivity].
Qed.

Lemma int_round_trip T v neg pos : (1 <= it_bytes T <= 8)%nat -> sym_ok neg pos -> encodable T v ->
  exists s, enc_int T v neg pos = Ok s /\ dec_int T s neg pos = Ok v.
Proof.
  intros HT Hs Hv. pose proof Hv as [[_ Hmax] _].
  destruct (enc_int_shape T v neg pos HT Hv) as [[-> E]|[(L & Hb & s & Hu & E)|(L & Hb & Hsg & Hm & s & Hu & E)]].
  - exists [digit 0]. split; [exact E|reflexivity].
  - exists s. split; [exact E|].
    rewrite (dec_unique T neg pos pos (Z.to_N v) s Hs (or_intror eq_refl)) by (auto; lia).
    destruct Hs as (_ & _ & Hne). destruct (Ascii.eqb_spec pos neg); [congruence|]. f_equal. lia.
  - exists s. split; [exact E|].
    rewrite (dec_unique T neg pos neg (Z.to_N (- v)) s Hs (or_introl eq_refl)) by (auto; lia).
    rewrite Ascii.eqb_refl, Hsg. f_equal. lia.
Qed.

Lemma slt_zero_pos neg pos f n s : sym_ord neg pos -> unique (S f) n pos neg = Some s -> 0 < n -> slt [digit 0] s.
Proof.
  intros [H1 H2] H Hn. destruct (unique_unfold _ _ _ _ _ Hn H) as (l & _ & ->). apply slt_head. cbn. lia.
Qed.
Lemma slt_neg_zero neg pos f n s : sym_ord neg pos -> unique (S f) n neg neg = Some s -> 0 < n -> slt s [digit 0].
Proof.
  intros [H1 H2] H Hn. destruct (unique_unfold _ _ _ _ _ Hn H) as (l & _ & ->). apply slt_head. cbn. lia.
Qed.

(* order, with the difference inside both strings, so that it survives anything appended *)
Lemma int_order T T' v w neg pos a b : (1 <= it_bytes T <= 8)%nat -> (1 <= it_bytes T' <= 8)%nat -> sym_ord neg pos ->
  encodable T v -> encodable T' w -> (v < w)%Z ->
  enc_int T v neg pos = Ok a -> enc_int T' w neg pos = Ok b -> slt a b.
Proof.
  intros HT HT' Hs Hv Hw Hlt Ha Hb. pose proof Hs as [Hs1 Hs2].
  destruct (enc_int_shape T v neg pos HT Hv) as [[-> E]|[(L & _ & s & Hu & E)|(L & _ & _ & _ & s & Hu & E)]];
  destruct (enc_int_shape T' w neg pos HT' Hw) as [[-> E']|[(L' & _ & s' & Hu' & E')|(L' & _ & _ & _ & s' & Hu' & E')]];
  rewrite E in Ha; rewrite E' in Hb; (assert (X : forall (x y : bytes), Ok x = Ok y -> x = y) by (intros x y Q; congruence));
  apply X in Ha; apply X in Hb; subst; try lia.
  - eapply slt_zero_pos; eauto. lia.
  - apply (unique_pos_slt 4 (Z.to_N v) (Z.to_N w) pos neg); try assumption; try lia.
    destruct (Ascii.eqb_spec pos neg) as [->|]; [lia|reflexivity].
  - eapply slt_neg_zero; eauto. lia.
  - assert (slt a [digit 0]) by (eapply slt_neg_zero; eauto; lia).
    assert (slt [digit 0] b) by (eapply slt_zero_pos; eauto; lia).
    destruct (unique_unfold 3 (Z.to_N (- v)) _ _ _ ltac:(lia) Hu) as (l & _ & ->).
    destruct (unique_unfold 3 (Z.to_N w) _ _ _ ltac:(lia) Hu') as (l' & _ & ->). apply slt_head. lia.
  - eapply (unique_neg_slt 4 (Z.to_N (- w)) (Z.to_N (- v))); try eassumption; lia.
Qed.

(* ---- fields ---- *)
Lemma load_store T v : (1 <= it_bytes T <= 8)%nat -> (it_min T <= v <= it_max T)%Z -> load T (store T v) = Ok v.
Proof.
  intros HT Hv. destruct (ity_bounds T ltac:(lia) ltac:(lia)) as [[B0 B1] B2].
  unfold load, store. unfold blen at 1. rewrite le_enc_length, N.ltb_irrefl.
  rewrite firstn_all2 by (rewrite le_enc_length; lia).
  pose proof (Z.mod_pos_bound v (it_mod T) B0) as MB.
  rewrite le_dec_enc.
  2:{ replace (256 ^ N.of_nat (it_bytes T)) with (Z.to_N (it_mod T)); [lia|].
      unfold it_mod. change 256%N with (2 ^ 8)%N. rewrite <- N.pow_mul_r. rewrite Z2N.inj_pow by lia. f_equal. lia. }
  rewrite Z2N.id by lia. f_equal. unfold it_min, it_max in Hv.
  destruct (it_signed T); cbn [andb].
  - specialize (B2 eq_refl). destruct (Z.leb_spec (it_mod T / 2) (v mod it_mod T)) as [H|H].
    + assert (v < 0)%Z. { destruct (Z.lt_ge_cases v 0) as [X|X]; [exact X|]. rewrite Z.mod_small in H by lia. lia. }
      rewrite <- (Z.mod_add v 1 (it_mod T)) by lia. rewrite Z.mod_small by lia. lia.
    + destruct (Z.lt_ge_cases v 0) as [X|X]; [|apply Z.mod_small; lia].
      rewrite <- (Z.mod_add v 1 (it_mod T)) in H by lia. rewrite Z.mod_small in H by lia. lia.
  - apply Z.mod_small. lia.
Qed.

Lemma load_range T d v : (1 <= it_bytes T <= 8)%nat -> load T d = Ok v -> (it_min T <= v <= it_max T)%Z.
Proof.
  intros HT H. destruct (ity_bounds T ltac:(lia) ltac:(lia)) as [[B0 B1] B2].
  unfold load in H. destruct (N.ltb_spec (blen d) (N.of_nat (it_bytes T))) as [X|X]; [discriminate|].
  assert (Hl : length (firstn (it_bytes T) d) = it_bytes T) by (rewrite firstn_length; unfold blen in X; lia).
  pose proof (le_dec_lt (firstn (it_bytes T) d)) as Hlt. rewrite Hl in Hlt.
  replace (256 ^ N.of_nat (it_bytes T)) with (Z.to_N (it_mod T)) in Hlt.
  2:{ unfold it_mod. change 256%N with (2 ^ 8)%N. rewrite <- N.pow_mul_r. rewrite Z2N.inj_pow by lia. f_equal. lia. }
  set (n := Z.of_N (le_dec (firstn (it_bytes T) d))) in *.
  assert (Hv : (if it_signed T && (it_mod T / 2 <=? n) then n - it_mod T else n)%Z = v) by congruence.
  unfold it_min, it_max. destruct (it_signed T); cbn [andb] in Hv.
  - specialize (B2 eq_refl). destruct (Z.leb_spec (it_mod T / 2) n); lia.
  - lia.
Qed.

Lemma store_load T d v : (1 <= it_bytes T <= 8)%nat -> blen d = N.of_nat (it_bytes T) -> load T d = Ok v -> store T v = d.
Proof.
  intros HT Hd H. destruct (ity_bounds T ltac:(lia) ltac:(lia)) as [[B0 B1] B2].
  unfold load in H. rewrite Hd, N.ltb_irrefl in H.
  assert (Hl : length d = it_bytes T) by (unfold blen in Hd; lia).
  rewrite firstn_all2 in H by lia.
  pose proof (le_dec_lt d) as Hlt. rewrite Hl in Hlt.
  replace (256 ^ N.of_nat (it_bytes T)) with (Z.to_N (it_mod T)) in Hlt.
  2:{ unfold it_mod. change 256%N with (2 ^ 8)%N. rewrite <- N.pow_mul_r. rewrite Z2N.inj_pow by lia. f_equal. lia. }
  set (n := Z.of_N (le_dec d)) in *.
  assert (Hv : (if it_signed T && (it_mod T / 2 <=? n) then n - it_mod T else n)%Z = v) by congruence.
  assert (Hm : (v mod it_mod T = n)%Z).
  { rewrite <- Hv. destruct (it_signed T && _).
    - rewrite <- (Z.mod_add _ 1 (it_mod T)) by lia. rewrite Z.mod_small; lia.
    - apply Z.mod_small; lia. }
  unfold store. rewrite Hm. unfold n. rewrite N2Z.id, <- Hl. apply le_enc_dec.
Qed.

Lemma field_round_trip T d neg pos : (1 <= it_bytes T <= 8)%nat -> sym_ok neg pos ->
  blen d = N.of_nat (it_bytes T) -> (it_signed T = true -> d <> store T (it_min T)) ->
  exists s, tr_enc_int T neg pos d = Ok (Some s) /\ tr_dec_int T neg pos s = Ok (Some d).
Proof.
  intros HT Hs Hd Hmin.
  assert (Hv : exists v, load T d = Ok v) by (unfold load; rewrite Hd, N.ltb_irrefl; eauto).
  destruct Hv as [v Hv].
  pose proof (load_range T d v HT Hv) as Hr. pose proof (store_load T d v HT Hd Hv) as Hst.
  assert (He : encodable T v).
  { split; [exact Hr|]. intros Hsg ->. apply Hmin; auto. }
  destruct (int_round_trip T v neg pos HT Hs He) as (s & Hes & Hds).
  exists s. unfold tr_enc_int, tr_dec_int. rewrite Hv. cbn [obind]. rewrite Hes, Hds. cbn [obind]. rewrite Hst. auto.
Qed.

(* ---- keys ---- *)
Lemma key_subject_order T T' v w neg pos a b t t' p q : (1 <= it_bytes T <= 8)%nat -> (1 <= it_bytes T' <= 8)%nat ->
  sym_ord neg pos -> encodable T v -> encodable T' w -> (v < w)%Z ->
  enc_int T v neg pos = Ok a -> enc_int T' w neg pos = Ok b ->
  bltb (sp_to_key (mkField a t) p) (sp_to_key (mkField b t') q) = true.
Proof.
  intros HT HT' Hs Hv Hw L Ha Hb. unfold sp_to_key. cbn [f_data f_type].
  apply bltb_true, slt_blt. apply (int_order T T' v w neg pos); assumption.
Qed.
Lemma key_predicate_order T T' v w neg pos a b t t' s : (1 <= it_bytes T <= 8)%nat -> (1 <= it_bytes T' <= 8)%nat ->
  sym_ord neg pos -> encodable T v -> encodable T' w -> (v < w)%Z ->
  enc_int T v neg pos = Ok a -> enc_int T' w neg pos = Ok b ->
  bltb (sp_to_key s (mkField a t)) (sp_to_key s (mkField b t')) = true.
Proof.
  intros HT HT' Hs Hv Hw L Ha Hb. unfold sp_to_key. cbn [f_data f_type].
  rewrite !(app_assoc (f_data s)). apply bltb_true, slt_blt, slt_prefix. apply (int_order T T' v w neg pos); assumption.
Qed.

(* ---- symbols ---- *)
Lemma enc_1 pos neg : enc_int int64_t (-1) neg pos = Ok [neg; "8"%char].
Proof.
  unfold enc_int. change (-1 <? 0)%Z with true. change (-1 =? it_min int64_t)%Z with false. cbn iota.
  change (unique 4 (Z.to_N (- -1)) neg neg) with (Some (neg :: (if Ascii.eqb neg neg then flip (to_string 1) else to_string 1))).
  rewrite Ascii.eqb_refl. reflexivity.
Qed.
Lemma enc9 pos neg : neg <> pos -> enc_int int64_t 9 neg pos = Ok [pos; "9"%char].
Proof.
  intros H. unfold enc_int. change (9 <? 0)%Z with false. change (0 <? 9)%Z with true. cbn iota.
  change (unique 4 (Z.to_N 9) pos neg) with (Some (pos :: (if Ascii.eqb pos neg then flip (to_string 9) else to_string 9))).
  destruct (Ascii.eqb_spec pos neg); [congruence|reflexivity].
Qed.
Lemma enc10 pos neg : neg <> pos -> enc_int int64_t 10 neg pos = Ok [pos; pos; "2"%char; "1"%char; "0"%char].
Proof.
  intros H. unfold enc_int. change (10 <? 0)%Z with false. change (0 <? 10)%Z with true. cbn iota.
  change (unique 4 (Z.to_N 10) pos neg) with
    (Some (pos :: (pos :: (if Ascii.eqb pos neg then flip (to_string 2) else to_string 2))
               ++ (if Ascii.eqb pos neg then flip (to_string 10) else to_string 10))).
  destruct (Ascii.eqb_spec pos neg); [congruence|reflexivity].
Qed.

Lemma bltb_head x y a b : bltb (x :: a) (y :: b) = true -> N_of_ascii x <= N_of_ascii y.
Proof. unfold bltb. cbn [bcmp]. destruct (N.compare_spec (N_of_ascii x) (N_of_ascii y)); [lia|lia|discriminate]. Qed.

Lemma enc64_range (v : Z) : (- 2 ^ 63 < v < 2 ^ 63)%Z -> encodable int64_t v.
Proof.
  intros H. unfold encodable. change (it_min int64_t) with (- 2 ^ 63)%Z. change (it_max int64_t) with (2 ^ 63 - 1)%Z.
  split; [lia|]. intros _ ->. lia.
Qed.

Lemma symbols_iff neg pos : elen_accepts neg pos = true ->
  (preserves_values neg pos /\ preserves_order neg pos) <-> sym_ord neg pos.
Proof.
  intros Hacc. assert (Hne : neg <> pos) by (intros ->; unfold elen_accepts in Hacc; lia).
  split.
  - intros [RT OR]. split.
    + (* neg < '0' *)
      destruct (N.lt_ge_cases (N_of_ascii neg) 48) as [L|G]; [exact L|exfalso].
      pose proof (OR (-1) 0 _ _ (enc64_range (-1) ltac:(lia)) (enc64_range 0 ltac:(lia)) ltac:(lia) (enc_1 pos neg) eq_refl)%Z as H.
      pose proof (bltb_head _ _ _ _ H) as H1.
      assert (neg = "0"%char) as -> by (apply N_of_ascii_inj; change (N_of_ascii (digit 0)) with 48 in H1; change (N_of_ascii "0") with 48; lia).
      discriminate H.
    + destruct (N.lt_ge_cases 57 (N_of_ascii pos)) as [L|G]; [exact L|exfalso].
      pose proof (OR 9 10 _ _ (enc64_range 9 ltac:(lia)) (enc64_range 10 ltac:(lia)) ltac:(lia) (enc9 pos neg Hne) (enc10 pos neg Hne))%Z as H.
      unfold bltb in H. cbn [bcmp] in H. rewrite N.compare_refl in H.
      assert (H1 : 57 <= N_of_ascii pos).
      { change (N_of_ascii "9") with 57 in H. destruct (N.compare_spec 57 (N_of_ascii pos)); [lia|lia|discriminate]. }
      assert (pos = "9"%char) as -> by (apply N_of_ascii_inj; change (N_of_ascii "9") with 57; lia).
      pose proof (RT 9 _ (enc64_range 9 ltac:(lia)) (enc9 _ neg Hne))%Z as D.
      rewrite dec_int_unfold in D. unfold get_prefix_count in D. destruct (Ascii.eqb "9"%char neg); discriminate D.
  - intros HS. split.
    + intros v s Hv He. destruct (int_round_trip int64_t v neg pos ltac:(cbn; lia) (sym_ord_ok _ _ HS) Hv) as (s' & E1 & E2).
      rewrite E1 in He. apply Ok_inj in He. subst. exact E2.
    + intros v w a b Hv Hw L Ha Hb. pose proof (int_order int64_t int64_t v w neg pos a b ltac:(cbn; lia) ltac:(cbn; lia) HS Hv Hw L Ha Hb) as H.
      pose proof (slt_blt _ _ [] [] H) as X. rewrite !app_nil_r in X. apply bltb_true, X.
Qed.

Lemma symbols_refuted :
  (elen_accepts "-"%char "5"%char = true /\ ~ preserves_values "-"%char "5"%char) /\
  (elen_accepts "!"%char "*"%char = true /\ ~ preserves_order "!"%char "*"%char).
Proof.
  split; split; try reflexivity.
  - intros H. pose proof (H 5 [ "5"; "5" ]%char (enc64_range 5 ltac:(lia)) eq_refl)%Z as D. discriminate D.
  - intros H.
    pose proof (H 9 10 _ _ (enc64_range 9 ltac:(lia)) (enc64_range 10 ltac:(lia)) ltac:(lia)
                  (enc9 "*"%char "!"%char ltac:(discriminate)) (enc10 "*"%char "!"%char ltac:(discriminate)))%Z as D.
    vm_compute in D. discriminate D.
Qed.

Lemma int_min_ub neg pos :
  tr_enc_int int32_t neg pos (store int32_t (- 2 ^ 31)) = UB /\
  tr_enc_int int64_t neg pos (store int64_t (- 2 ^ 63)) = UB.
Proof. split; reflexivity. Qed.

Lemma ity4 T : T = int32_t \/ T = int64_t \/ T = uint32_t \/ T = uint64_t -> (1 <= it_bytes T <= 8)%nat.
Proof. intros [->|[->|[->| ->]]]; cbn; lia. Qed.

Lemma field_round_trip4 T d neg pos :
  T = int32_t \/ T = int64_t \/ T = uint32_t \/ T = uint64_t ->
  sym_ok neg pos -> blen d = N.of_nat (it_bytes T) ->
  (it_signed T = true -> d <> store T (it_min T)) ->
  exists s, tr_enc_int T neg pos d = Ok (Some s) /\ tr_dec_int T neg pos s = Ok (Some d).
Proof. intros HT. apply field_round_trip, ity4, HT. Qed.

Lemma key_order4 T T' v w neg pos a b :
  T = int32_t \/ T = int64_t \/ T = uint32_t \/ T = uint64_t ->
  T' = int32_t \/ T' = int64_t \/ T' = uint32_t \/ T' = uint64_t ->
  sym_ord neg pos -> encodable T v -> encodable T' w -> (v < w)%Z ->
  enc_int T v neg pos = Ok a -> enc_int T' w neg pos = Ok b ->
  (forall t t' p q, bltb (sp_to_key (mkField a t) p) (sp_to_key (mkField b t') q) = true) /\
  (forall t t' s, bltb (sp_to_key s (mkField a t)) (sp_to_key s (mkField b t')) = true).
Proof.
  intros HT HT'. apply ity4 in HT, HT'. intros. split; intros.
  - apply (key_subject_order T T' v w neg pos); assumption.
  - apply (key_predicate_order T T' v w neg pos); assumption.
Qed.
