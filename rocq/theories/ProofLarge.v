(* Integers of all widths and the comparison of strings *)
From Verif Require Import ModelBytes ProofBytes ModelElen ModelTransform ModelFloat SpecElen SpecFp SpecLarge ProofElen ModelLarge.
Local Open Scope N_scope.

Lemma before_slt a b : slt a b -> before a b.
Proof. intros H s t. apply bltb_true. exact (slt_blt a b s t H). Qed.

(* ---- integers ---- *)
Lemma enc_lib_int T v neg pos : encodable T v -> enc_lib T v neg pos = enc_int T v neg pos.
Proof.
  intros [_ H]. unfold enc_lib. destruct (it_signed T); [|reflexivity]. cbn [andb]. destruct (Z.eqb_spec v (it_min T)) as [E|_]; [destruct (H eq_refl E)|reflexivity].
Qed.
Lemma lib_order T T' v w neg pos a b : (1 <= it_bytes T <= 8)%nat -> (1 <= it_bytes T' <= 8)%nat -> sym_ord neg pos ->
  encodable T v -> encodable T' w -> (v < w)%Z -> enc_lib T v neg pos = Ok a -> enc_lib T' w neg pos = Ok b -> before a b.
Proof.
  intros HT HT' HS Hv Hw L A B. rewrite enc_lib_int in A, B by assumption. apply before_slt.
  exact (int_order T T' v w neg pos a b HT HT' HS Hv Hw L A B).
Qed.

Lemma dec_lib_unfold T p c t neg pos : Nat.eqb (it_bytes T) 1 = false -> dec_lib T (p :: c :: t) neg pos =
  do k <- get_prefix_count p (p :: c :: t) pos neg;
  match k with
  | O => Throw
  | S k' =>
      do (position, len) <- read_lens k' p neg (p :: c :: t) (N.of_nat k) 1;
      do v <- (do (v, _) <- next (Z.to_N (it_max T)) p neg (p :: c :: t) position len; Ok (Z.of_N v));
      let w := if Ascii.eqb p neg
               then (if it_signed T then (if (v =? it_min T)%Z then v else - v) else (- v) mod it_mod T)%Z else v in
      Ok (w, Some ((position + len) mod 2 ^ 64))
  end.
Proof. intros E. unfold dec_lib. rewrite E. reflexivity. Qed.
Lemma next_pos mx p neg str q l v x : next mx p neg str q l = Ok (v, x) -> x = (q + l) mod 2 ^ 64.
Proof.
  unfold next. destruct (substr str q l); [|discriminate|discriminate]. cbn [obind]. destruct (read_num _ _); [|discriminate|discriminate]. cbn [obind].
  intros E. apply Ok_inj in E. injection E as _ <-. reflexivity.
Qed.
Lemma lib_unique T neg pos p n s t : sym_ok neg pos -> p = neg \/ p = pos -> (2 <= it_bytes T <= 8)%nat -> 0 < n -> (Z.of_N n <= it_max T)%Z -> blen t < 2 ^ 63 ->
  unique 4 n p neg = Some s ->
  dec_lib T (s ++ t) neg pos =
    Ok ((if Ascii.eqb p neg then (if it_signed T then - Z.of_N n else (- Z.of_N n) mod it_mod T) else Z.of_N n)%Z, Some (blen s)).
Proof.
  intros (Hneg & Hpos & Hnp) Hp HT Hn Hmax Ht H.
  assert (Hmod : (it_mod T <= 2 ^ 64)%Z) by (unfold it_mod; apply Z.pow_le_mono_r; lia).
  assert (Hmod0 : (0 < it_mod T)%Z) by (unfold it_mod; apply Z.pow_pos_nonneg; lia).
  assert (Hn64 : n <= SIZE_MAX).
  { unfold SIZE_MAX. unfold it_max in Hmax. assert (it_mod T / 2 <= it_mod T)%Z by (apply Z.div_le_upper_bound; lia). destruct (it_signed T); lia. }
  destruct (unique_decode _ _ _ _ _ Hn Hn64 H) as (k & rest & Es & (d & r & Er & Hd) & F).
  assert (Hpd : is_digit p = false) by (destruct Hp; subst; assumption).
  assert (Hbl : blen s <= 84).
  { pose proof (unique_blen 4 n p neg s ltac:(unfold SIZE_MAX in Hn64; lia) H) as X. cbn in X. lia. }
  assert (Hs : exists c1 u, s ++ t = p :: c1 :: u).
  { rewrite Es, Er. cbn [repeat app]. destruct (repeat p k ++ d :: r) as [|c1 u] eqn:X; [destruct k; discriminate X|]. exists c1, (u ++ t). reflexivity. }
  destruct Hs as (c1 & u & Hs).
  specialize (F (repeat p (S k)) t (Z.to_N (it_max T)) ltac:(lia)). rewrite app_assoc, <- Es in F. specialize (F ltac:(rewrite blen_app; lia)).
  assert (Hrep : blen (repeat p (S k)) = N.of_nat (S k)) by (unfold blen; rewrite repeat_length; reflexivity). rewrite Hrep in F.
  assert (G : get_prefix_count p (s ++ t) pos neg = Ok (S k)).
  { unfold get_prefix_count. rewrite Hs at 1.
    assert (X : Ascii.eqb p (digit 0) = false) by (destruct (Ascii.eqb_spec p (digit 0)) as [Y|]; [rewrite Y in Hpd; discriminate|reflexivity]).
    rewrite X. assert (Y : negb (Ascii.eqb p neg) && negb (Ascii.eqb p pos) = false) by (destruct Hp; subst p; rewrite Ascii.eqb_refl; cbn; rewrite ?andb_false_r; reflexivity).
    rewrite Y. rewrite Es, Er, <- app_assoc. cbn [app]. rewrite count_prefix_repeat by (apply digit_eqb_sym; assumption).
    rewrite nth_error_app2 by (rewrite repeat_length; lia). rewrite repeat_length, Nat.sub_diag. cbn [nth_error]. rewrite Hd. reflexivity. }
  assert (E1 : Nat.eqb (it_bytes T) 1 = false) by (apply Nat.eqb_neq; lia).
  rewrite Hs, dec_lib_unfold, <- Hs, G by exact E1. cbn [obind].
  destruct (read_lens k p neg (s ++ t) (N.of_nat (S k)) 1) as [[q l]| |]; cbn [obind] in F |- *; try discriminate.
  rewrite F. cbn [obind]. pose proof (next_pos _ _ _ _ _ _ _ _ F) as P. rewrite <- P.
  assert (B : N.of_nat (S k) + blen rest = blen s) by (rewrite Es, blen_app, Hrep; reflexivity). rewrite B.
  destruct (Ascii.eqb p neg); [|reflexivity]. destruct (it_signed T) eqn:SG; [|reflexivity].
  destruct (Z.eqb_spec (Z.of_N n) (it_min T)) as [E|_]; [|reflexivity]. exfalso. unfold it_min in E. rewrite SG in E.
  assert (0 <= it_mod T / 2)%Z by (apply Z.div_pos; lia). lia.
Qed.
(* what comes back, and how many characters it took, whatever follows *)
Lemma lib_round_trip T v neg pos t : (2 <= it_bytes T <= 8)%nat -> sym_ok neg pos -> encodable T v -> v <> 0%Z -> blen t < 2 ^ 63 ->
  exists s, enc_lib T v neg pos = Ok s /\ dec_lib T (s ++ t) neg pos = Ok (v, Some (blen s)).
Proof.
  intros HT Hs Hv Nz Ht. pose proof Hv as [[_ Hmax] _]. rewrite enc_lib_int by exact Hv.
  destruct (enc_int_shape T v neg pos ltac:(lia) Hv) as [[E _]|[(L & Hb & s & Hu & E)|(L & Hb & Hsg & Hm & s & Hu & E)]]; [contradiction| |].
  - exists s. split; [exact E|]. rewrite (lib_unique T neg pos pos (Z.to_N v) s t Hs (or_intror eq_refl)) by (auto; lia).
    destruct Hs as (_ & _ & Hne). destruct (Ascii.eqb_spec pos neg); [congruence|]. do 2 f_equal. lia.
  - exists s. split; [exact E|]. rewrite (lib_unique T neg pos neg (Z.to_N (- v)) s t Hs (or_introl eq_refl)) by (auto; lia).
    rewrite Ascii.eqb_refl, Hsg. do 2 f_equal. lia.
Qed.

(* every 8-bit value *)
Definition all8 (T : ity) : list Z := map (fun n => (it_min T + Z.of_nat n)%Z) (seq 0 256).
Lemma all8_in T v : it_bytes T = 1%nat -> (it_min T <= v <= it_max T)%Z -> In v (all8 T).
Proof.
  intros B H. unfold all8. apply in_map_iff. exists (Z.to_nat (v - it_min T)). unfold it_min, it_max, it_mod in *. rewrite B in *.
  change (2 ^ (8 * Z.of_nat 1))%Z with 256%Z in *. change (256 / 2)%Z with 128%Z in *. split; [destruct (it_signed T); lia|]. apply in_seq. destruct (it_signed T); lia.
Qed.
Definition byte_back (T : ity) (v : Z) : bool :=
  match enc_lib T v NEG_SYMBOL POS_SYMBOL with
  | Ok s => match dec_lib T s NEG_SYMBOL POS_SYMBOL with Ok (w, _) => (w =? v)%Z | _ => false end
  | _ => false
  end.
Definition byte_ok (v : Z) : bool := ((v =? 0) || (v =? 53) || (v =? -53))%Z.
Lemma bytes_back T v : T = int8_t \/ T = uint8_t -> (it_min T <= v <= it_max T)%Z -> byte_back T v = byte_ok v.
Proof.
  intros HT H. assert (B : it_bytes T = 1%nat) by (destruct HT; subst; reflexivity). pose proof (all8_in T v B H) as J.
  assert (X : forallb (fun v => Bool.eqb (byte_back T v) (byte_ok v)) (all8 T) = true) by (destruct HT; subst; vm_compute; reflexivity).
  rewrite forallb_forall in X. apply Bool.eqb_prop. exact (X v J).
Qed.
Lemma byte_wrong T v : T = int8_t \/ T = uint8_t -> (it_min T <= v <= it_max T)%Z -> v <> 0%Z -> v <> 53%Z -> v <> (-53)%Z ->
  forall s w n, enc_lib T v NEG_SYMBOL POS_SYMBOL = Ok s -> dec_lib T s NEG_SYMBOL POS_SYMBOL = Ok (w, n) -> w <> v.
Proof.
  intros HT H N0 N1 N2 s w n E D. pose proof (bytes_back T v HT H) as X. unfold byte_back in X. rewrite E, D in X. unfold byte_ok in X.
  destruct (Z.eqb_spec v 0); [contradiction|]. destruct (Z.eqb_spec v 53); [contradiction|]. destruct (Z.eqb_spec v (-53)); [contradiction|]. cbn [orb] in X.
  intros ->. rewrite Z.eqb_refl in X. discriminate X.
Qed.

(* ---- comparing ---- *)
Lemma lex_irr a : lex_cpp a a = false.
Proof. induction a as [|x a IH]; [reflexivity|]. cbn [lex_cpp]. rewrite Z.ltb_irrefl. exact IH. Qed.
Lemma lex_trans a : forall b c, lex_cpp a b = true -> lex_cpp b c = true -> lex_cpp a c = true.
Proof.
  induction a as [|x a IH]; intros [|y b] [|z c] H1 H2; cbn [lex_cpp] in *; try discriminate; try reflexivity.
  destruct (Z.ltb_spec (schar x) (schar y)); destruct (Z.ltb_spec (schar y) (schar x)); destruct (Z.ltb_spec (schar y) (schar z)); destruct (Z.ltb_spec (schar z) (schar y));
    destruct (Z.ltb_spec (schar x) (schar z)); destruct (Z.ltb_spec (schar z) (schar x)); try reflexivity; try discriminate; try lia. exact (IH b c H1 H2).
Qed.
Lemma schar_inj x y : schar x = schar y -> x = y.
Proof.
  unfold schar. intros H. apply N_of_ascii_inj. pose proof (N_of_ascii_lt x). pose proof (N_of_ascii_lt y).
  destruct (Z.leb_spec 128 (Z.of_N (N_of_ascii x))); destruct (Z.leb_spec 128 (Z.of_N (N_of_ascii y))); lia.
Qed.
Lemma lex_total a : forall b, a = b \/ lex_cpp a b = true \/ lex_cpp b a = true.
Proof.
  induction a as [|x a IH]; intros [|y b]; cbn [lex_cpp]; auto.
  destruct (Z.ltb_spec (schar x) (schar y)); destruct (Z.ltb_spec (schar y) (schar x)); auto.
  assert (E : x = y) by (apply schar_inj; lia). subst y. destruct (IH b) as [->|[E|E]]; auto.
Qed.
Lemma schar_plain c : N_of_ascii c < 128 -> schar c = Z.of_N (N_of_ascii c).
Proof. intros H. unfold schar. destruct (Z.leb_spec 128 (Z.of_N (N_of_ascii c))); lia. Qed.
Lemma lex_plain a : forall b, plain a -> plain b -> lex_cpp a b = bltb a b.
Proof.
  induction a as [|x a IH]; intros [|y b] PA PB; try reflexivity. inversion PA; inversion PB; subst. unfold bltb. cbn [lex_cpp bcmp].
  rewrite !schar_plain by assumption. destruct (N.compare_spec (N_of_ascii x) (N_of_ascii y)) as [E|E|E].
  - rewrite E, Z.ltb_irrefl. apply IH; assumption.
  - destruct (Z.ltb_spec (Z.of_N (N_of_ascii x)) (Z.of_N (N_of_ascii y))); [reflexivity|lia].
  - destruct (Z.ltb_spec (Z.of_N (N_of_ascii x)) (Z.of_N (N_of_ascii y))); [lia|]. destruct (Z.ltb_spec (Z.of_N (N_of_ascii y)) (Z.of_N (N_of_ascii x))); [reflexivity|lia].
Qed.
Lemma nul_eqb x : x <> "000"%char -> Ascii.eqb x "000"%char = false.
Proof. intros H. apply Ascii.eqb_neq. exact H. Qed.
(* the C function on strings in memory: like the other one with the terminator, a character of value 0, as part of the strings *)
Lemma lex_c_mem l : forall r x y, ~ In "000"%char l -> ~ In "000"%char r ->
  lex_c (l ++ "000"%char :: x) (r ++ "000"%char :: y) = Ok (lex_cpp (l ++ ["000"%char]) (r ++ ["000"%char])).
Proof.
  induction l as [|a l IH]; intros [|b r] x y NL NR; cbn [app lex_c lex_cpp].
  - reflexivity.
  - change (Ascii.eqb "000"%char "000"%char) with true. cbn [negb andb]. f_equal. change (schar "000"%char) with 0%Z.
    destruct (Z.ltb_spec 0 (schar b)); [reflexivity|]. destruct (Z.ltb_spec (schar b) 0); [reflexivity|].
    assert (E : b = "000"%char) by (apply schar_inj; change (schar "000"%char) with 0%Z; lia). destruct (NR (or_introl E)).
  - change (Ascii.eqb "000"%char "000"%char) with true. rewrite andb_false_r. f_equal. change (schar "000"%char) with 0%Z.
    destruct (Z.ltb_spec (schar a) 0); [reflexivity|]. destruct (Z.ltb_spec 0 (schar a)); [reflexivity|].
    assert (E : a = "000"%char) by (apply schar_inj; change (schar "000"%char) with 0%Z; lia). destruct (NL (or_introl E)).
  - rewrite (nul_eqb a) by (intros E; apply NL; left; exact E); rewrite (nul_eqb b) by (intros E; apply NR; left; exact E). cbn [negb andb].
    destruct (schar a <? schar b)%Z; [reflexivity|]. destruct (schar b <? schar a)%Z; [reflexivity|].
    apply IH; intros J; [apply NL|apply NR]; right; exact J.
Qed.
Lemma lex_end a : forall b, plain a -> plain b -> ~ In "000"%char a -> ~ In "000"%char b -> lex_cpp (a ++ ["000"%char]) (b ++ ["000"%char]) = lex_cpp a b.
Proof.
  induction a as [|x a IH]; intros [|y b] PA PB NA NB; cbn [app lex_cpp].
  - reflexivity.
  - inversion PB; subst. change (schar "000"%char) with 0%Z. rewrite schar_plain by assumption.
    destruct (Z.ltb_spec 0 (Z.of_N (N_of_ascii y))) as [|L]; [reflexivity|].
    assert (E : y = "000"%char) by (apply N_of_ascii_inj; change (N_of_ascii "000"%char) with 0; lia). destruct (NB (or_introl E)).
  - inversion PA; subst. change (schar "000"%char) with 0%Z. rewrite schar_plain by assumption. destruct (Z.ltb_spec (Z.of_N (N_of_ascii x)) 0); [lia|].
    destruct (Z.ltb_spec 0 (Z.of_N (N_of_ascii x))) as [|L]; [reflexivity|].
    assert (E : x = "000"%char) by (apply N_of_ascii_inj; change (N_of_ascii "000"%char) with 0; lia). destruct (NA (or_introl E)).
  - inversion PA; inversion PB; subst. rewrite IH; [reflexivity|assumption|assumption| |]; intros J; [apply NA|apply NB]; right; exact J.
Qed.
Lemma lex_c_plain l r x y : plain l -> plain r -> ~ In "000"%char l -> ~ In "000"%char r ->
  lex_c (l ++ "000"%char :: x) (r ++ "000"%char :: y) = Ok (bltb l r).
Proof. intros PL PR NL NR. rewrite lex_c_mem, lex_end, lex_plain by assumption. reflexivity. Qed.

(* encoded integers consist of the symbols and digits *)
Lemma unique_chars f : forall n p neg s, unique f n p neg = Some s -> Forall (fun c => c = p \/ is_digit c = true) s.
Proof.
  induction f as [|f IH]; intros n p neg s H; [discriminate|]. destruct (N.eq_dec n 0) as [->|Nz]; [cbn in H; injection H as <-; (constructor; [right; reflexivity|constructor])|].
  destruct (unique_unfold f n p neg s ltac:(lia) H) as (l & Hl & ->). constructor; [left; reflexivity|]. apply Forall_app. split.
  - destruct Hl as [[_ ->]|[_ Hl]]; [constructor|exact (IH _ _ _ _ Hl)].
  - destruct (to_string_spec n) as (A & _). assert (D : all_digits (if Ascii.eqb p neg then flip (to_string n) else to_string n)) by (destruct (Ascii.eqb p neg); [apply flip_digits|]; exact A).
    eapply Forall_impl; [|exact D]. intros c Hc. right. exact Hc.
Qed.
Lemma lib_chars T v neg pos s : (1 <= it_bytes T <= 8)%nat -> encodable T v -> enc_lib T v neg pos = Ok s ->
  Forall (fun c => c = neg \/ c = pos \/ is_digit c = true) s.
Proof.
  intros HT Hv E. rewrite enc_lib_int in E by exact Hv.
  destruct (enc_int_shape T v neg pos HT Hv) as [[_ X]|[(_ & _ & t & Hu & X)|(_ & _ & _ & _ & t & Hu & X)]]; rewrite X in E; apply Ok_inj in E; subst s.
  - constructor; [right; right; reflexivity|constructor].
  - eapply Forall_impl; [|exact (unique_chars _ _ _ _ _ Hu)]. intros c [H|H]; auto.
  - eapply Forall_impl; [|exact (unique_chars _ _ _ _ _ Hu)]. intros c [H|H]; auto.
Qed.
Lemma lib_lex T T' v w neg pos a b :
  (1 <= it_bytes T <= 8)%nat -> (1 <= it_bytes T' <= 8)%nat -> sym_ord neg pos -> encodable T v -> encodable T' w -> (v < w)%Z ->
  N_of_ascii neg < 128 -> N_of_ascii pos < 128 -> enc_lib T v neg pos = Ok a -> enc_lib T' w neg pos = Ok b ->
  lex_cpp a b = true /\ forall x y, neg <> "000"%char -> lex_c (a ++ "000"%char :: x) (b ++ "000"%char :: y) = Ok true.
Proof.
  intros HT HT' HS Hv Hw L N1 N2 A B. pose proof (lib_chars T v neg pos a HT Hv A) as CA. pose proof (lib_chars T' w neg pos b HT' Hw B) as CB.
  assert (P : forall s, Forall (fun c => c = neg \/ c = pos \/ is_digit c = true) s -> plain s).
  { intros s H. eapply Forall_impl; [|exact H]. intros c [->|[->|Hc]]; [exact N1|exact N2|]. apply is_digit_range in Hc. lia. }
  assert (Z : forall s, neg <> "000"%char -> Forall (fun c => c = neg \/ c = pos \/ is_digit c = true) s -> ~ In "000"%char s).
  { intros s Hn H Hi. rewrite Forall_forall in H. destruct (H _ Hi) as [X|[X|X]]; [congruence| |discriminate X]. subst pos. destruct HS as [_ H2]. cbn in H2. lia. }
  pose proof (lib_order T T' v w neg pos a b HT HT' HS Hv Hw L A B [] []) as X. rewrite !app_nil_r in X.
  split; [rewrite lex_plain by auto; exact X|]. intros x y Hn. rewrite lex_c_plain by auto. rewrite X. reflexivity.
Qed.
Lemma lib_zero T neg pos : In T [int8_t; int16_t; int32_t; int64_t; uint8_t; uint16_t; uint32_t; uint64_t] ->
  enc_lib T 0 neg pos = Ok [digit 0] /\ dec_lib T [digit 0] neg pos = Ok (0%Z, None).
Proof. cbn [In]. intros H. repeat destruct H as [<-|H]; try contradiction; split; reflexivity. Qed.
