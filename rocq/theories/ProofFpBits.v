(* Bit patterns of floating point values *)
From Verif Require Import ModelBytes ProofBytes ModelKey ModelElen ModelFloat SpecElen SpecFp ProofFpBase.
From Coq Require Import Reals.
From Flocq Require Import Core Digits BinarySingleNaN.
Local Open Scope Z_scope.

Lemma fmt_facts F : fmt_ok F -> 1 < f_prec F /\ f_prec F < f_emax F /\
  emin (f_prec F) (f_emax F) = 3 - f_emax F - f_prec F /\
  2 ^ (f_prec F - 1) * (4 * f_emax F) = 2 ^ (8 * Z.of_nat (f_bytes F)) /\ 0 < 2 ^ (f_prec F - 1).
Proof. intros [->| ->]; vm_compute; repeat split; congruence. Qed.

Lemma digits_spec m : let d := Zpos (digits2_pos m) in 2 ^ (d - 1) <= Zpos m < 2 ^ d.
Proof.
  cbv zeta. rewrite Zpos_digits2_pos. pose proof (Zdigits_correct radix2 (Zpos m)) as H.
  assert (0 < Zdigits radix2 (Zpos m)) by (apply Zdigits_gt_0; discriminate).
  rewrite Z.abs_eq in H by discriminate. exact H.
Qed.

Lemma valid_finite F s m e : fmt_ok F -> valid F (S754_finite s m e) <->
  (Zpos m < 2 ^ (f_prec F - 1) /\ e = emin (f_prec F) (f_emax F)) \/
  (2 ^ (f_prec F - 1) <= Zpos m < 2 * 2 ^ (f_prec F - 1) /\ emin (f_prec F) (f_emax F) <= e <= f_emax F - f_prec F).
Proof.
  intros HF. destruct (fmt_facts F HF) as (P1 & P2 & P3 & _ & P5). unfold valid. cbn [valid_binary].
  unfold SpecFloat.bounded, SpecFloat.canonical_mantissa, SpecFloat.fexp.
  destruct (digits_spec m) as [D1 D2]. set (d := Zpos (digits2_pos m)) in *.
  assert (P6 : 2 * 2 ^ (f_prec F - 1) = 2 ^ f_prec F).
  { rewrite <- Z.pow_succ_r by lia. f_equal. lia. }
  rewrite P6. set (p := f_prec F) in *. set (em := emin p (f_emax F)) in *.
  rewrite Bool.andb_true_iff, <- Zeq_is_eq_bool, Z.leb_le. fold em d.
  assert (A : d <= p -> Zpos m < 2 ^ p) by (intros Q; pose proof (Z.pow_le_mono_r 2 d p ltac:(lia) Q); lia).
  assert (B : p <= d -> 2 ^ (p - 1) <= Zpos m) by (intros Q; pose proof (Z.pow_le_mono_r 2 (p - 1) (d - 1) ltac:(lia) ltac:(lia)); lia).
  assert (C : d < p -> Zpos m < 2 ^ (p - 1)) by (intros Q; pose proof (Z.pow_le_mono_r 2 d (p - 1) ltac:(lia) ltac:(lia)); lia).
  assert (E : p < d -> 2 ^ p <= Zpos m) by (intros Q; pose proof (Z.pow_le_mono_r 2 p (d - 1) ltac:(lia) ltac:(lia)); lia).
  destruct (Z.lt_trichotomy d p) as [H|[H|H]].
  - specialize (C H). split; [intros [X Y]; left; split; [exact C|lia]|intros [[_ ->]|[Q _]]; [split; lia|lia]].
  - specialize (A ltac:(lia)). specialize (B ltac:(lia)).
    split; [intros [X Y]; right; split; [split; assumption|lia]|intros [[Q _]|[_ Q]]; [lia|lia]].
  - specialize (E H). split; [intros [X Y]; lia|intros [[Q _]|[Q _]]; [|lia]].
    pose proof (Z.pow_le_mono_r 2 (p - 1) p ltac:(lia) ltac:(lia)). lia.
Qed.

Definition not_nan (x : spec_float) : Prop := x <> S754_nan.

Definition sb (F : fmt) (s : bool) : Z := if s then 2 * f_emax F else 0.

(* a pattern split into sign, exponent and fraction *)
Lemma parts F s ex fr : fmt_ok F -> 0 <= ex < 2 * f_emax F -> 0 <= fr < 2 ^ (f_prec F - 1) ->
  let n := (sb F s + ex) * 2 ^ (f_prec F - 1) + fr in
  n mod 2 ^ (f_prec F - 1) = fr /\ n / 2 ^ (f_prec F - 1) mod (2 * f_emax F) = ex /\
  Z.odd (n / 2 ^ (f_prec F - 1) / (2 * f_emax F)) = s /\ 0 <= n < 2 ^ (8 * Z.of_nat (f_bytes F)).
Proof.
  intros HF He Hf n. destruct (fmt_facts F HF) as (P1 & P2 & _ & P4 & P5). rewrite <- P4. unfold n.
  set (mw := 2 ^ (f_prec F - 1)) in *. set (E := f_emax F) in *.
  assert (D : ((sb F s + ex) * mw + fr) / mw = sb F s + ex).
  { rewrite Z.div_add_l by lia. rewrite Z.div_small by lia. lia. }
  rewrite D. split; [|split; [|split]].
  - rewrite Z.add_comm, Z.mod_add by lia. apply Z.mod_small. lia.
  - unfold sb. fold E. destruct s; [|apply Z.mod_small; lia].
    rewrite Z.add_comm. replace (ex + 2 * E) with (ex + 1 * (2 * E)) by lia. rewrite Z.mod_add by lia. apply Z.mod_small. lia.
  - unfold sb. fold E. destruct s.
    + replace (2 * E + ex) with (1 * (2 * E) + ex) by lia. rewrite Z.div_add_l by lia. rewrite Z.div_small by lia. reflexivity.
    + rewrite Z.add_0_l, Z.div_small by lia. reflexivity.
  - unfold sb. fold E. destruct s; nia.
Qed.

Lemma bits_round F x : fmt_ok F -> valid F x -> not_nan x ->
  sf_of_bits F (bits_of_sf F x) = x /\ 0 <= bits_of_sf F x < 2 ^ (8 * Z.of_nat (f_bytes F)).
Proof.
  intros HF V NN. destruct (fmt_facts F HF) as (P1 & P2 & P3 & P4 & P5).
  unfold sf_of_bits, bits_of_sf. destruct x as [s|s| |s m e]; [| |contradiction|].
  - destruct (parts F s 0 0 HF ltac:(lia) ltac:(lia)) as (A & B & C & D). cbv zeta in *.
    replace (if s then 2 ^ (f_prec F - 1) * (2 * f_emax F) else 0) with ((sb F s + 0) * 2 ^ (f_prec F - 1) + 0)
      by (unfold sb; destruct s; lia).
    rewrite A, B, C. split; [reflexivity|exact D].
  - destruct (parts F s (2 * f_emax F - 1) 0 HF ltac:(lia) ltac:(lia)) as (A & B & C & D). cbv zeta in *.
    replace ((if s then 2 ^ (f_prec F - 1) * (2 * f_emax F) else 0) + (2 * f_emax F - 1) * 2 ^ (f_prec F - 1))
      with ((sb F s + (2 * f_emax F - 1)) * 2 ^ (f_prec F - 1) + 0) by (unfold sb; destruct s; lia).
    rewrite A, B, C. split; [|exact D]. rewrite Z.eqb_refl. replace (2 * f_emax F - 1 =? 0) with false by lia. reflexivity.
  - apply (valid_finite F s m e HF) in V. destruct V as [[V1 ->]|[V1 V2]].
    + destruct (parts F s 0 (Zpos m) HF ltac:(lia) ltac:(lia)) as (A & B & C & D). cbv zeta in *.
      apply Z.ltb_lt in V1. rewrite V1.
      replace ((if s then 2 ^ (f_prec F - 1) * (2 * f_emax F) else 0) + Zpos m)
        with ((sb F s + 0) * 2 ^ (f_prec F - 1) + Zpos m) by (unfold sb; destruct s; lia).
      rewrite A, B, C. split; [reflexivity|exact D].
    + set (em := emin (f_prec F) (f_emax F)) in *.
      destruct (parts F s (e - em + 1) (Zpos m - 2 ^ (f_prec F - 1)) HF ltac:(lia) ltac:(lia)) as (A & B & C & D). cbv zeta in *.
      destruct (Z.ltb_spec (Zpos m) (2 ^ (f_prec F - 1))) as [Q|_]; [lia|].
      replace ((if s then 2 ^ (f_prec F - 1) * (2 * f_emax F) else 0) + (e - em + 1) * 2 ^ (f_prec F - 1) + (Zpos m - 2 ^ (f_prec F - 1)))
        with ((sb F s + (e - em + 1)) * 2 ^ (f_prec F - 1) + (Zpos m - 2 ^ (f_prec F - 1))) by (unfold sb; destruct s; lia).
      rewrite A, B, C. split; [|exact D].
      destruct (Z.eqb_spec (e - em + 1) 0) as [Q|_]; [lia|].
      destruct (Z.eqb_spec (e - em + 1) (2 * f_emax F - 1)) as [Q|_]; [lia|].
      f_equal; [|lia]. replace (Zpos m - 2 ^ (f_prec F - 1) + 2 ^ (f_prec F - 1)) with (Zpos m) by lia. reflexivity.
Qed.

Lemma bits_valid F n : fmt_ok F -> valid F (sf_of_bits F n).
Proof.
  intros HF. destruct (fmt_facts F HF) as (P1 & P2 & P3 & P4 & P5). unfold sf_of_bits.
  set (mw := 2 ^ (f_prec F - 1)) in *. pose proof (Z.mod_pos_bound n mw P5) as Fr.
  pose proof (Z.mod_pos_bound (n / mw) (2 * f_emax F) ltac:(lia)) as Ex. cbv zeta.
  set (fr := n mod mw) in *. set (ex := n / mw mod (2 * f_emax F)) in *. set (s := Z.odd (n / mw / (2 * f_emax F))).
  destruct (Z.eqb_spec ex 0) as [E0|E0].
  - destruct fr as [|m|m]; try reflexivity. apply valid_finite; [exact HF|]. left. split; [exact (proj2 Fr)|reflexivity].
  - destruct (Z.eqb_spec ex (2 * f_emax F - 1)) as [E1|E1]; [destruct (fr =? 0); reflexivity|].
    apply valid_finite; [exact HF|]. right. rewrite Z2Pos.id by lia. fold mw. lia.
Qed.

Lemma load_store F x : fmt_ok F -> valid F x -> not_nan x -> load_fp F (store_fp F x) = Ok x.
Proof.
  intros HF V NN. destruct (bits_round F x HF V NN) as [A B]. unfold load_fp, store_fp.
  assert (L : List.length (le_enc (f_bytes F) (Z.to_N (bits_of_sf F x))) = f_bytes F) by apply le_enc_length.
  unfold blen at 1. rewrite L. rewrite N.ltb_irrefl. rewrite firstn_all2 by lia.
  rewrite le_dec_enc. 2: { apply N2Z.inj_lt. rewrite Z2N.id by lia. rewrite N2Z.inj_pow, nat_N_Z. change (Z.of_N 256) with (2 ^ 8). rewrite <- Z.pow_mul_r by lia. exact (proj2 B). }
  rewrite Z2N.id by lia. rewrite A. reflexivity.
Qed.

Lemma load_valid F d x : fmt_ok F -> load_fp F d = Ok x -> valid F x.
Proof.
  intros HF. unfold load_fp. destruct (blen d <? N.of_nat (f_bytes F))%N; [discriminate|].
  intros E. apply Ok_inj in E. subst x. apply bits_valid, HF.
Qed.

Lemma bits_back F n : fmt_ok F -> 0 <= n < 2 ^ (8 * Z.of_nat (f_bytes F)) -> not_nan (sf_of_bits F n) ->
  bits_of_sf F (sf_of_bits F n) = n.
Proof.
  intros HF Hn. destruct (fmt_facts F HF) as (P1 & P2 & P3 & P4 & P5). rewrite <- P4 in Hn. unfold sf_of_bits.
  set (mw := 2 ^ (f_prec F - 1)) in *. cbv zeta. set (E := f_emax F) in *.
  pose proof (Z.mod_pos_bound n mw P5) as Fr. pose proof (Z.div_mod n mw ltac:(lia)) as D1.
  set (fr := n mod mw) in *. set (q := n / mw) in *.
  pose proof (Z.mod_pos_bound q (2 * E) ltac:(lia)) as Ex. pose proof (Z.div_mod q (2 * E) ltac:(lia)) as D2.
  set (ex := q mod (2 * E)) in *. set (w := q / (2 * E)) in *.
  assert (Q : 0 <= q < 4 * E) by nia. assert (W : w = 0 \/ w = 1) by nia.
  assert (Sg : (if Z.odd w then mw * (2 * E) else 0) = mw * (2 * E * w)) by (destruct W as [->| ->]; cbn [Z.odd]; lia).
  destruct (Z.eqb_spec ex 0) as [E0|E0].
  - intros _. destruct fr as [|m|m] eqn:Efr; [| |lia]; unfold bits_of_sf; fold mw E; cbv beta; rewrite Sg; [nia|].
    destruct (Z.ltb_spec (Zpos m) mw) as [_|X]; [nia|lia].
  - destruct (Z.eqb_spec ex (2 * E - 1)) as [E1|E1].
    + destruct (Z.eqb_spec fr 0) as [F0|F0]; intros NN; [|exfalso; apply NN; reflexivity].
      unfold bits_of_sf; fold mw E; cbv beta; rewrite Sg. nia.
    + intros _. unfold bits_of_sf; fold mw E; cbv beta; rewrite Sg. rewrite Z2Pos.id by lia.
      destruct (Z.ltb_spec (fr + mw) mw) as [X|_]; [lia|].
      replace (ex - 1 + emin (f_prec F) E - emin (f_prec F) E + 1) with ex by lia. nia.
Qed.

Lemma store_load F d x : fmt_ok F -> blen d = N.of_nat (f_bytes F) -> load_fp F d = Ok x -> not_nan x -> store_fp F x = d.
Proof.
  intros HF Hd E NN. unfold load_fp in E. rewrite Hd, N.ltb_irrefl in E. apply Ok_inj in E. subst x.
  assert (L : List.length d = f_bytes F) by (apply Nat2N.inj; exact Hd).
  rewrite firstn_all2 in * by lia. unfold store_fp. pose proof (le_dec_lt d) as B. rewrite L in B.
  rewrite bits_back; [|exact HF| |exact NN].
  - rewrite N2Z.id, <- L. apply le_enc_dec.
  - split; [lia|]. apply N2Z.inj_lt in B. rewrite N2Z.inj_pow, nat_N_Z in B. change (Z.of_N 256) with (2 ^ 8) in B.
    rewrite <- Z.pow_mul_r in B by lia. exact B.
Qed.
