(* What decode::floating_point makes of an encoded value *)
From Verif Require Import ModelBytes ProofBytes ModelKey ModelElen ModelFloat SpecElen SpecFp ProofElen.
Local Open Scope N_scope.
Local Notation num := ProofElen.num.
Definition dg (b : bool) (s : bytes) : bytes := if b then flip s else s.

Lemma digit_0_inj d : d < 10 -> digit d = digit 0 -> d = 0.
Proof. intros H E. apply (f_equal N_of_ascii) in E. rewrite !N_of_digit in E by lia. lia. Qed.
Lemma flip1_of_digit d : d < 10 -> flip1 (digit d) = digit (9 - d).
Proof.
  intros H. destruct (flip1_digit (digit d) (is_digit_digit d H)) as [_ E]. apply N_of_ascii_inj.
  rewrite E, !N_of_digit by lia. lia.
Qed.
Lemma to_string_1 n : 0 < n < 10 -> to_string n = [digit n].
Proof.
  intros H. pose proof (to_string_small n H) as L. destruct (to_string_spec n) as (A & B & _).
  destruct (to_string n) as [|c [|? ?]]; unfold blen in L; cbn in L; try lia.
  inversion A as [|? ? H2 _]. unfold num in B. cbn [num_prefix] in B. rewrite H2 in B. apply is_digit_range in H2.
  f_equal. apply N_of_ascii_inj. rewrite N_of_digit by lia. lia.
Qed.

(* the digit after the prefixes is '0' for a negative 9 only *)
Lemma unique_first f n p neg s : 0 < n < 10 ^ 8 -> unique f n p neg = Some s ->
  exists k d r, s = repeat p (S k) ++ d :: r /\ is_digit d = true /\
    Ascii.eqb d (digit 0) = (Ascii.eqb p neg && (n =? 9)).
Proof.
  intros Hn H. destruct f as [|f]; [discriminate|].
  destruct (unique_unfold _ _ _ _ _ (proj1 Hn) H) as (l & Hl & ->).
  assert (One : forall m, 0 < m < 10 -> exists d,
            (if Ascii.eqb p neg return list byte then flip (to_string m) else to_string m) = [d] /\ is_digit d = true /\
            Ascii.eqb d (digit 0) = (Ascii.eqb p neg && (m =? 9))).
  { intros m Hm. rewrite to_string_1 by exact Hm. destruct (Ascii.eqb p neg).
    - exists (digit (9 - m)). cbn [flip map]. rewrite flip1_of_digit by lia. split; [reflexivity|].
      split; [apply is_digit_digit; lia|]. cbn [andb].
      destruct (Ascii.eqb_spec (digit (9 - m)) (digit 0)) as [E|E].
      + apply digit_0_inj in E; [|lia]. destruct (N.eqb_spec m 9); lia.
      + destruct (N.eqb_spec m 9) as [->|]; [exfalso; apply E; reflexivity|reflexivity].
    - exists (digit m). split; [reflexivity|]. split; [apply is_digit_digit; lia|]. cbn [andb].
      destruct (Ascii.eqb_spec (digit m) (digit 0)) as [E|E]; [|reflexivity]. apply digit_0_inj in E; lia. }
  destruct Hl as [[L ->]|[L Hl]].
  - destruct (One n ltac:(lia)) as (d & E & D1 & D2). rewrite E. exists O, d, []. auto.
  - pose proof (to_string_large n L) as Ll. pose proof (to_string_len_bound n 8 (proj2 Hn) ltac:(lia)) as Lb.
    set (m := blen (to_string n)) in *.
    destruct f as [|f]; [discriminate|].
    destruct (unique_unfold f m p neg l ltac:(lia) Hl) as (l' & Hl' & ->).
    destruct Hl' as [[_ ->]|[X _]]; [|lia].
    destruct (One m ltac:(lia)) as (d & E & D1 & D2). rewrite E. cbn [app].
    exists 1%nat, d. eexists. split; [reflexivity|]. split; [exact D1|]. rewrite D2.
    destruct (N.eqb_spec m 9); [lia|]. destruct (N.eqb_spec n 9); [lia|]. reflexivity.
Qed.

Lemma front_cons c s : front_byte (c :: s) = c. Proof. reflexivity. Qed.
Lemma last_snoc s c : last_byte (s ++ [c]) = c.
Proof. unfold last_byte. apply last_last. Qed.

Lemma sign_of (b : bool) neg pos r : sym_ok neg pos ->
  fp_sign ((if b then neg else pos) :: r ++ [if b then pos else neg]) neg pos = Some b.
Proof.
  intros (_ & _ & Hne). unfold fp_sign. rewrite front_cons.
  change ((if b then neg else pos) :: r ++ [if b then pos else neg]) with
    (((if b then neg else pos) :: r) ++ [if b then pos else neg]). rewrite last_snoc.
  destruct b; rewrite ?Ascii.eqb_refl; [reflexivity|].
  destruct (Ascii.eqb_spec pos neg) as [E|_]; [congruence|]. reflexivity.
Qed.

Lemma substr_tail a b : substr (a ++ b) (blen a) (blen (a ++ b) - blen a) = Ok b.
Proof. pose proof (substr_app a b [] (blen a) (blen (a ++ b) - blen a) eq_refl) as X. rewrite app_nil_r in X. apply X. rewrite blen_app. lia. Qed.

Lemma dec_small_ok F (b : bool) neg pos D : sym_ok neg pos -> D <> [] ->
  dec_small F ((if b then neg else pos) :: D ++ [if b then pos else neg]) neg pos = Ok (read_fraction F b (dg b D)).
Proof.
  intros S HD. destruct D as [|d D]; [congruence|].
  pose proof (sign_of b neg pos (d :: D) S) as Sg. cbn [app] in *.
  unfold dec_small. set (sg := if b then neg else pos) in *. set (cl := if b then pos else neg) in *.
  destruct (D ++ [cl]) as [|c t] eqn:E; [destruct D; discriminate|]. rewrite <- E in *. clear E c t.
  assert (X : substr (sg :: d :: D ++ [cl]) 1 (blen (sg :: d :: D ++ [cl]) - 2) = Ok (d :: D)).
  { change (sg :: d :: D ++ [cl]) with ([sg] ++ (d :: D) ++ [cl]). apply substr_app; [reflexivity|].
    rewrite !blen_app. change (blen [sg]) with 1. change (blen [cl]) with 1. lia. }
  rewrite X. cbn [obind]. rewrite Sg. destruct b; reflexivity.
Qed.
Lemma dec_small_none F (b : bool) neg pos : dec_small F [if b then neg else pos; if b then pos else neg] neg pos = Throw.
Proof. reflexivity. Qed.

(* the decoder after the exponent has been read as [e] *)
Definition finish (L : libm) (F : fmt) (b : bool) (e : Z) (D : bytes) (neg pos : byte) : outcome spec_float :=
  do m <- dec_small F ((if b then neg else pos) :: D ++ [if b then pos else neg]) neg pos;
  Ok (sf_conv F (dmul (lm_pow L (if b then - e else e)%Z) (sf_conv DBL m))).

Lemma dec_struct L F (b : bool) neg pos v es D : sym_ok neg pos -> (-400 <= v <= 400)%Z ->
  enc_int int32_t v neg pos = Ok es -> blen D < 2 ^ 63 ->
  dec_fp L F ((if b then neg else pos) :: es ++ D ++ [if b then pos else neg]) neg pos =
  finish L F b (if (v =? -9)%Z then 0%Z else v) D neg pos.
Proof.
  intros S Hv E HD. pose proof S as (Sn & Sp & Sne). rename S into Sy.
  set (sg := if b then neg else pos). set (cl := if b then pos else neg).
  pose proof (sign_of b neg pos (es ++ D) Sy) as Sg. rewrite <- app_assoc in Sg. fold sg cl in Sg.
  (* every encoded exponent is p... with a digit after the prefixes *)
  assert (Enc : encodable int32_t v).
  { split; [|intros _].
    - change (it_min int32_t) with (-2147483648)%Z. change (it_max int32_t) with 2147483647%Z. lia.
    - change (it_min int32_t) with (-2147483648)%Z. lia. }
  assert (Step : exists c es', es = c :: es' /\
    (do k <- get_prefix_count c (es ++ D ++ [cl]) neg pos;
     do (e, position) <-
       (if Ascii.eqb (nth k (es ++ D ++ [cl]) "000"%char) (digit 0)
        then Ok (0, N.of_nat k + 1)
        else match k with
             | O => Throw
             | S k' => do (position, len) <- read_lens k' c neg (es ++ D ++ [cl]) (N.of_nat k) 1;
                       next (Z.to_N (it_max int32_t)) c neg (es ++ D ++ [cl]) position len
             end);
     Ok ((if Ascii.eqb c neg then - Z.of_N e else Z.of_N e)%Z, position))
    = Ok ((if (v =? -9)%Z then 0%Z else v), blen es)).
  { assert (U : forall p n, 0 < n < 10 ^ 8 -> p = neg \/ p = pos -> unique 4 n p neg = Some es ->
      exists c es', es = c :: es' /\
      (do k <- get_prefix_count c (es ++ D ++ [cl]) neg pos;
       do (e, position) <-
       (if Ascii.eqb (nth k (es ++ D ++ [cl]) "000"%char) (digit 0)
        then Ok (0, N.of_nat k + 1)
        else match k with
             | O => Throw
             | S k' => do (position, len) <- read_lens k' c neg (es ++ D ++ [cl]) (N.of_nat k) 1;
                       next (Z.to_N (it_max int32_t)) c neg (es ++ D ++ [cl]) position len
             end);
       Ok ((if Ascii.eqb c neg then - Z.of_N e else Z.of_N e)%Z, position))
      = Ok (if Ascii.eqb p neg then (if (n =? 9)%N then 0 else - Z.of_N n)%Z else Z.of_N n, blen es)).
    { intros p n Hn Hp Hu.
      assert (Hn64 : n <= SIZE_MAX) by (unfold SIZE_MAX; lia).
      destruct (unique_decode _ _ _ _ _ (proj1 Hn) Hn64 Hu) as (k & rest & Es & (d & r & Er & Hd) & R).
      destruct (unique_first _ _ _ _ _ Hn Hu) as (k2 & d2 & r2 & Es2 & Hd2 & H0).
      assert (Hpd : is_digit p = false) by (destruct Hp; subst; assumption).
      assert (Ek : k2 = k).
      { assert (X : count_prefix p es = S k) by (rewrite Es, Er; apply count_prefix_repeat, digit_eqb_sym; assumption).
        rewrite Es2, count_prefix_repeat in X by (apply digit_eqb_sym; assumption). lia. }
      subst k2. rewrite Es, Er in Es2. apply app_inv_head in Es2. assert (d2 = d) by congruence. subst d2.
      assert (Wo : es ++ D ++ [cl] = repeat p (S k) ++ d :: r ++ D ++ [cl]) by (rewrite Es, Er, <- app_assoc; reflexivity).
      exists p, (repeat p k ++ rest). split; [rewrite Es; reflexivity|].
      assert (G : get_prefix_count p (es ++ D ++ [cl]) neg pos = Ok (S k)).
      { rewrite Wo. unfold get_prefix_count. cbn [repeat app]. 
        assert (X : Ascii.eqb p (digit 0) = false).
        { destruct (Ascii.eqb_spec p (digit 0)) as [Y|]; [|reflexivity]. rewrite Y in Hpd. discriminate. }
        rewrite X. assert (Y : negb (Ascii.eqb p pos) && negb (Ascii.eqb p neg) = false).
        { destruct Hp; subst p; rewrite Ascii.eqb_refl; cbn; rewrite ?andb_false_r; reflexivity. }
        rewrite Y. change (p :: repeat p k ++ d :: r ++ D ++ [cl]) with (repeat p (S k) ++ d :: r ++ D ++ [cl]).
        rewrite count_prefix_repeat by (apply digit_eqb_sym; assumption).
        rewrite nth_error_app2 by (rewrite repeat_length; lia). rewrite repeat_length, Nat.sub_diag. cbn [nth_error].
        rewrite Hd. reflexivity. }
      rewrite G. cbn [obind].
      assert (Nth : nth (S k) (es ++ D ++ [cl]) "000"%char = d).
      { rewrite Wo, app_nth2 by (rewrite repeat_length; lia). rewrite repeat_length, Nat.sub_diag. reflexivity. }
      rewrite Nth, H0.
      assert (Hbl : blen es <= 84).
      { pose proof (unique_blen 4 n p neg es ltac:(lia) Hu) as X. cbn in X. lia. }
      destruct (Ascii.eqb p neg && (n =? 9)) eqn:C.
      - apply andb_true_iff in C as [C1 C2]. rewrite C1, C2. cbn [obind]. apply N.eqb_eq in C2. subst n.
        assert (L2 : blen es = 2).
        { destruct (unique_unfold 3 9 _ _ _ ltac:(lia) Hu) as (l & Hl & X). destruct Hl as [[_ ->]|[Y _]]; [|lia].
          rewrite X. rewrite C1. reflexivity. }
        assert (Lk : blen es = N.of_nat (S k) + 1 + blen r).
        { rewrite Es, Er. unfold blen. rewrite app_length, repeat_length. cbn [List.length]. lia. }
        rewrite Lk in L2. replace (blen es) with (N.of_nat (S k) + 1) by (rewrite Lk; lia). reflexivity.
      - specialize (R (repeat p (S k)) (D ++ [cl]) (Z.to_N (it_max int32_t))).
        assert (Hm : n <= Z.to_N (it_max int32_t)) by (change (it_max int32_t) with 2147483647%Z; lia).
        specialize (R Hm). rewrite (app_assoc (repeat p (S k)) rest), <- Es in R.
        assert (Hl : blen (es ++ D ++ [cl]) < 2 ^ 64).
        { rewrite !blen_app. change (blen [cl]) with 1. lia. }
        specialize (R Hl).
        assert (Hr : blen (repeat p (S k)) = N.of_nat (S k)) by (unfold blen; rewrite repeat_length; reflexivity).
        rewrite Hr in R.
        destruct (read_lens k p neg (es ++ D ++ [cl]) (N.of_nat (S k)) 1) as [[q l]| |]; cbn [obind] in R |- *; try discriminate.
        rewrite R. cbn [obind]. f_equal. f_equal.
        + destruct (Ascii.eqb p neg); [|reflexivity]. cbn [andb] in C. rewrite C. reflexivity.
        + rewrite Es, blen_app, Hr. reflexivity. }
    destruct (enc_int_shape int32_t v neg pos ltac:(cbn; lia) Enc) as [[-> E0]|[(L0 & Hb & s & Hu & E0)|(L0 & Hb & _ & Hm & s & Hu & E0)]];
      rewrite E0 in E; apply Ok_inj in E; subst es.
    - exists (digit 0), []. split; [reflexivity|]. cbn [app get_prefix_count]. rewrite Ascii.eqb_refl. cbn [obind nth].
      rewrite Ascii.eqb_refl. cbn [obind]. destruct (Ascii.eqb_spec (digit 0) neg) as [X|_]; reflexivity.
    - destruct (U pos (Z.to_N v) ltac:(lia) (or_intror eq_refl) Hu) as (c & es' & Ec & X). exists c, es'. split; [exact Ec|].
      rewrite X. destruct (Ascii.eqb_spec pos neg) as [Y|_]; [congruence|]. f_equal. f_equal.
      destruct (Z.eqb_spec v (-9)); lia.
    - destruct (U neg (Z.to_N (- v)) ltac:(lia) (or_introl eq_refl) Hu) as (c & es' & Ec & X). exists c, es'. split; [exact Ec|].
      rewrite X. rewrite Ascii.eqb_refl. f_equal. f_equal.
      destruct (Z.eqb_spec v (-9)) as [->|Y]; [reflexivity|]. destruct (N.eqb_spec (Z.to_N (- v)) 9); lia. }
  destruct Step as (c & es' & Ec & St). subst es. set (es := c :: es') in *.
  set (wo := es ++ D ++ [cl]) in *.
  assert (Fr : front_byte wo = c) by reflexivity.
  assert (W : blen wo = blen es + (blen D + 1)) by (unfold wo; rewrite !blen_app; reflexivity).
  assert (Lw : 1 <= blen es) by (unfold es, blen; cbn [List.length]; lia).
  assert (Ex : exists x y t, wo = x :: y :: t).
  { destruct wo as [|x [|y t]] eqn:Q; try (unfold blen in W; cbn [List.length] in W; fold (blen es) (blen D) in *; lia). eauto. }
  unfold dec_fp. destruct Ex as (x & y & t & Ex). rewrite Ex. rewrite <- Ex. rewrite Sg, Fr.
  destruct (get_prefix_count c wo neg pos) as [k| |]; cbn [obind] in St |- *; try discriminate.
  match goal with |- context [obind ?o _] => destruct o as [[e position]| |] end; cbn [obind] in St |- *; try discriminate.
  apply Ok_inj in St. 
  assert (E1 : (if Ascii.eqb c neg then - Z.of_N e else Z.of_N e)%Z = (if (v =? -9)%Z then 0%Z else v)) by congruence.
  assert (E2 : position = blen es) by congruence. rewrite E1, E2. clear St E1 E2.
  assert (Lstr : blen (sg :: wo) = 1 + blen wo) by (unfold blen; cbn [List.length]; lia).
  rewrite Lstr. destruct (N.eqb_spec (blen es) (1 + blen wo - 1)) as [Q|Q]; [lia|].
  unfold wo at 1 2. rewrite substr_tail. cbn [obind]. reflexivity.
Qed.
