From Verif Require Import ModelBytes ModelElen ModelConf ModelOptions ModelMsg ModelClient ModelFloat ModelCli SpecConf SpecOptions SpecFp SpecCli ProofBytes ProofStore ProofElen ProofConf ProofOptions ProofOptions4 ProofFpBase ProofFpError ProofCli.
From Coq Require Import Reals Psatz.
From Flocq Require Import Core.
Local Open Scope R_scope.

(* ---- floats: the value ---- *)
Lemma pow10_pos k : (0 < 10 ^ Z.max 0 k)%Z.
Proof. apply Z.pow_pos_nonneg; lia. Qed.
Lemma IZR_pow10 k : (0 <= k)%Z -> IZR (10 ^ k) = ten k.
Proof. intro H. unfold ten. rewrite <- (Z2Nat.id k) by exact H. rewrite <- pow_IZR, <- pow_powerRZ. reflexivity. Qed.
Lemma ten_opp k : ten (- k) = / ten k.
Proof. unfold ten. apply powerRZ_neg'. Qed.
Lemma decimal_ratio (minus : bool) (p : positive) (e : Z) :
  (if minus then -1 else 1) * (IZR (Z.pos (Z.to_pos (Z.pos p * 10 ^ Z.max 0 e))) / IZR (Z.pos (Z.to_pos (10 ^ Z.max 0 (- e))))) = number_of minus (Npos p) e.
Proof.
  unfold number_of. rewrite !Z2Pos.id by (try apply Z.mul_pos_pos; try lia; apply pow10_pos). rewrite mult_IZR. change (Z.of_N (N.pos p)) with (Z.pos p).
  rewrite !IZR_pow10 by lia. unfold Rdiv. rewrite !Rmult_assoc. f_equal. f_equal.
  destruct (Z_le_gt_dec 0 e) as [H|H].
  - rewrite Z.max_r, Z.max_l by lia. change (ten 0) with 1. rewrite Rinv_1. lra.
  - rewrite Z.max_l, Z.max_r by lia. change (ten 0) with 1. rewrite ten_opp, Rinv_inv. lra.
Qed.
Lemma largest_lt F : fmt_ok F -> val (largest F) < big F.
Proof.
  intro HF. pose proof (val_big F (largest F) HF (largest_valid F HF)) as H. apply Rle_lt_trans with (2 := H). apply Rle_abs.
Qed.
Lemma rnd_small F v : fmt_ok F -> Rabs v <= val (largest F) -> Rabs (rnd F v) < big F.
Proof.
  intros HF H. rewrite rnd_abs by exact HF. apply Rle_lt_trans with (val (largest F)); [|exact (largest_lt F HF)].
  rewrite <- (rnd_val F (largest F) HF (largest_valid F HF)). apply rnd_le; assumption.
Qed.
Lemma rounded_nearest F v x : fmt_ok F -> valid F x -> finite_fp x -> val x = rnd F v -> nearest F v x.
Proof.
  intros HF V Fi E. split; [exact V|]. split; [exact Fi|]. intros y Vy Fy. rewrite E.
  pose proof (fx_valid F HF) as VE. destruct (round_N_pt radix2 (fx F) (fun z => negb (Z.even z)) v) as [_ M].
  apply M. rewrite <- (rnd_val F y HF Vy). unfold rnd. apply generic_format_round; [apply fx_valid, HF|apply valid_rnd_N].
Qed.
Lemma decimal_nearest F minus m e : fmt_ok F -> Rabs (number_of minus m e) <= val (largest F) ->
  nearest F (number_of minus m e) (round_decimal F minus m e) /\ match round_decimal F minus m e with S754_infinity _ => False | _ => True end.
Proof.
  intros HF H. destruct m as [|p].
  - cbn [round_decimal]. split; [|exact Logic.I]. apply rounded_nearest; [exact HF|reflexivity|exact Logic.I|]. cbn [val]. unfold number_of. change (IZR (Z.of_N 0)) with 0.
    rewrite Rmult_0_r, Rmult_0_l. symmetry. apply rnd_0.
  - cbn [round_decimal]. pose proof (ratio_spec F minus (Z.to_pos (Z.pos p * 10 ^ Z.max 0 e)) (Z.to_pos (10 ^ Z.max 0 (- e))) HF) as S. cbv zeta in S.
    rewrite decimal_ratio in S. destruct (S (rnd_small F _ HF H)) as [Fi [V E]]. split; [apply rounded_nearest; assumption|].
    destruct (SFdiv _ _ _ _); try exact Logic.I. exact Fi.
Qed.
Local Open Scope N_scope.

(* ---- floats: the text ---- *)
Lemma skip_text ds r : skipn (List.length (text_of ds)) (text_of ds ++ r) = r.
Proof. apply skipn_text. Qed.
Definition no_digit (r : bytes) : Prop := forall c t, r = c :: t -> ~ digit_char c.
Lemma exp_no_digit ex k r : (ex = [] /\ k = 0%Z \/ exists c w', ex = c :: w' /\ (c = "e"%char \/ c = "E"%char) /\ whole w' k) -> stops r -> no_digit (ex ++ r).
Proof.
  intros [[-> _]|[c [w' [-> [C _]]]]] R.
  - cbn [app]. exact (stops_digit r R).
  - intros c' t E. injection E as <- _. unfold digit_char, code. destruct C as [->| ->]; cbn; lia.
Qed.
Lemma exponent_reads ex k r : (ex = [] /\ k = 0%Z \/ exists c w', ex = c :: w' /\ (c = "e"%char \/ c = "E"%char) /\ whole w' k) -> stops r ->
  rd_exponent (ex ++ r) = Some (k, r).
Proof.
  intros [[-> ->]|[c [w' [-> [C W]]]]] R.
  - cbn [app]. destruct R as [->|[c [t [-> W]]]]; [reflexivity|]. cbn [rd_exponent].
    assert (Ascii.eqb c "e"%char = false) as E1 by (apply eqb_no; intros ->; unfold white in W; cbn in W; intuition discriminate).
    assert (Ascii.eqb c "E"%char = false) as E2 by (apply eqb_no; intros ->; unfold white in W; cbn in W; intuition discriminate).
    rewrite E1, E2. reflexivity.
  - cbn [app rd_exponent]. assert ((Ascii.eqb c "e"%char || Ascii.eqb c "E"%char) = true) as E by (destruct C as [->| ->]; reflexivity). rewrite E.
    destruct W as [s [minus [d [n [-> [S [[ds [N [F [-> ->]]]] ->]]]]]]]. fold (text_of ds).
    assert (take_sign ((s ++ text_of ds) ++ r) = (minus, text_of ds ++ r)) as T.
    { rewrite <- app_assoc. destruct S as [[-> ->]|[[-> ->]|[-> ->]]]; [|reflexivity|reflexivity].
      cbn [app]. pose proof (text_plain ds r N F) as P. destruct (text_of ds ++ r) as [|x t]; [reflexivity|]. destruct (P x t eq_refl) as [P1 [P2 _]].
      cbn [take_sign]. rewrite (eqb_no x "-"%char P2), (eqb_no x "+"%char P1). reflexivity. }
    match goal with |- context[take_sign ?x] => change x with ((s ++ text_of ds) ++ r) end. rewrite T. rewrite take_text; [|exact F|exact (stops_digit r R)].
    destruct (text_of ds) as [|x t] eqn:X; [destruct ds; [congruence|discriminate]|]. rewrite <- X.
    rewrite skip_text, num_prefix_text by exact F. reflexivity.
Qed.
Lemma text_app a b : text_of (a ++ b) = text_of a ++ text_of b.
Proof. apply map_app. Qed.
Lemma float_spelled F w minus m e ws line : fmt_ok F -> decimal w minus m e -> (Rabs (number_of minus m e) <= val (largest F))%R -> spelled (w :: ws) line ->
  exists x r, rd_float F line = Some (x, r) /\ nearest F (number_of minus m e) x /\ spelled ws r.
Proof.
  intros HF [s [ds1 [dot [ds2 [ex [k [-> [S [F1 [F2 [NE [DOT [EX [-> ->]]]]]]]]]]]]]] H [gap [rest [-> [G [_ [R SP]]]]]].
  destruct (decimal_nearest F minus (fold_left (fun a d => 10 * a + d) (ds1 ++ ds2) 0) (k - Z.of_nat (List.length ds2)) HF H) as [NR NI].
  exists (round_decimal F minus (fold_left (fun a d => 10 * a + d) (ds1 ++ ds2) 0) (k - Z.of_nat (List.length ds2))), rest. split; [|split; [exact NR|exact SP]].
  unfold rd_float. rewrite text_eq in *.
  assert (forall c u, text_of ds1 ++ dot ++ ex ++ rest = c :: u -> c <> "+"%char /\ c <> "-"%char /\ ~ white c) as P.
  { destruct ds1 as [|d1 ds1]; [|apply text_plain; [discriminate|exact F1]]. cbn [text_of map app] in *. destruct DOT as [[-> ->]| ->]; [congruence|].
    intros c u X. injection X as <- _. split; [discriminate|]. split; [discriminate|]. intro W. unfold white in W. cbn in W. intuition discriminate. }
  assert (take_sign (skip_space (gap ++ (s ++ text_of ds1 ++ dot ++ ex) ++ rest)) = (minus, text_of ds1 ++ dot ++ ex ++ rest)) as T.
  { rewrite skip_space_white by exact G. rewrite <- !app_assoc. apply sign_skip; [exact S|exact P|]. intro X. apply app_eq_nil in X. destruct X as [_ X].
    apply app_eq_nil in X. destruct X as [X1 X2]. apply app_eq_nil in X2. destruct X2 as [X2 _]. destruct ds1; [|discriminate]. destruct DOT as [[_ ->]| ->]; [apply NE; reflexivity|discriminate]. }
  rewrite T. clear T.
  assert (no_digit (dot ++ ex ++ rest)) as ND.
  { destruct DOT as [[-> _]| ->]; [exact (exp_no_digit ex k rest EX R)|]. intros c u X. injection X as <- _. unfold digit_char, code. cbn. lia. }
  rewrite take_text by assumption. rewrite skip_text.
  assert (rd_fraction (dot ++ ex ++ rest) = (text_of ds2, ex ++ rest)) as FR.
  { destruct DOT as [[-> ->]| ->].
    - cbn [app]. assert (forall c u, ex ++ rest = c :: u -> Ascii.eqb c "."%char = false) as Q.
      { intros c u X. apply eqb_no. intros ->. destruct EX as [[-> _]|[c' [w' [-> [C _]]]]].
        - cbn [app] in X. destruct R as [->|[c' [t [-> W]]]]; [discriminate|]. injection X as -> _. unfold white in W. cbn in W. intuition discriminate.
        - injection X as X _. destruct C as [->| ->]; discriminate. }
      destruct (ex ++ rest) as [|c u]; [reflexivity|]. cbn [rd_fraction]. rewrite (Q c u eq_refl). reflexivity.
    - cbn [app rd_fraction]. change (Ascii.eqb "."%char "."%char) with true. cbv iota zeta.
      rewrite take_text by (try exact F2; exact (exp_no_digit ex k rest EX R)). rewrite skip_text. reflexivity. }
  rewrite FR. rewrite <- text_app. destruct (text_of (ds1 ++ ds2)) as [|x t] eqn:X; [destruct (ds1 ++ ds2); [congruence|discriminate]|]. rewrite <- X.
  rewrite exponent_reads with (k := k) by assumption. cbv zeta.
  rewrite num_prefix_text by (apply Forall_app; split; assumption). 
  assert (List.length (text_of ds2) = List.length ds2) as LE by apply map_length. rewrite LE.
  match goal with |- context[round_decimal ?a ?b ?c ?d] => destruct (round_decimal a b c d) end; try reflexivity. exfalso. exact NI.
Qed.
