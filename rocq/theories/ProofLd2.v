(* the time of the report, and hr_size *)
From Verif Require Import ModelBytes ModelHist ModelElen ModelFloat ModelGen SpecFp ProofFpBase ProofFpBits ProofFpMant ProofFpOrder ProofGen1 ModelStats ModelDsStats SpecDsStats2 ProofLd.
From Coq Require Import Reals Psatz.
From Flocq Require Import Core Operations BinarySingleNaN Relative.
Local Open Scope R_scope.

Notation u := (bpow radix2 (-64)).
Lemma u_pos : 0 < u. Proof. apply bpow_gt_0. Qed.
Lemma u_eq : u = / 2 ^ 64. Proof. cbn [bpow]. f_equal. rewrite pow_IZR. reflexivity. Qed.
Lemma u_small : u <= / 1000. Proof. rewrite u_eq. apply Rinv_le_contravar; [lra|]. rewrite pow_IZR. apply IZR_le. vm_compute. discriminate. Qed.

Lemma nano_ns t : forward t -> IZR (Z.of_N (nano t)) = ns t /\ (nano t < 2 ^ 64)%N.
Proof.
  intros [H0 H1]. unfold nano, ns. rewrite Z.mod_small by (split; assumption). split; [|lia]. rewrite Z2N.id by exact H0. reflexivity.
Qed.
Lemma div_nonneg a b : 0 <= a -> 0 < b -> 0 <= a / b.
Proof. intros H K. unfold Rdiv. apply Rmult_le_pos; [exact H|]. left. apply Rinv_0_lt_compat. exact K. Qed.
Lemma rl_nonneg a : 0 <= a -> 0 <= rl a.
Proof. intros H. rewrite <- (rnd_0 LDBL). apply rl_le, H. Qed.
Lemma bp30 : bpow radix2 (-30) <= / 1000000000.
Proof. cbn [bpow]. apply Rinv_le_contravar; [lra|]. apply IZR_le. vm_compute. discriminate. Qed.
(* an error in proportion *)
Definition near (q a x : R) : Prop := Rabs (x - a) <= a * (q - 1).
Lemma near_mul q a x e : 0 <= a -> 1 <= q -> near q a x -> Rabs e <= u -> near (q * (1 + u)) a (x * (1 + e)).
Proof.
  unfold near. intros Ha Hq H He. pose proof u_pos.
  apply Rabs_le_inv in H. apply Rabs_le_inv in He. apply Rabs_le.
  assert (Hx : Rabs (x * e) <= a * q * u).
  { rewrite Rabs_mult. apply Rmult_le_compat; try apply Rabs_pos.
    - apply Rabs_le. split; nra.
    - apply Rabs_le. exact He. }
  apply Rabs_le_inv in Hx. split; nra.
Qed.
Lemma near_add q a b x y : near q a x -> near q b y -> near q (a + b) (x + y).
Proof. unfold near. intros H1 H2. apply Rabs_le_inv in H1, H2. apply Rabs_le. lra. Qed.
Lemma near_more q q' a x : 0 <= a -> q <= q' -> near q a x -> near q' a x.
Proof. unfold near. intros Ha Hq H. eapply Rle_trans; [exact H|]. nra. Qed.

Lemma sec_spec t : forward t -> finite_fp (sec t) /\ valid LDBL (sec t) /\ near (1 + u) (ns t / 1000000000) (val (sec t)) /\
  (val (sec t) = 0 \/ bpow radix2 (-30) <= val (sec t)) /\ val (sec t) <= bpow radix2 35.
Proof.
  intros H. destruct (nano_ns t H) as [E L]. destruct (ld_of_spec _ L) as (F & V & X).
  destruct (ld_of_spec 1000000000 eq_refl) as (Fg & Vg & Xg). change (IZR (Z.of_N 1000000000)) with 1000000000 in Xg.
  assert (D : 0 <= ns t) by (unfold ns; apply IZR_le; destruct H; lia).
  assert (U : ns t <= bpow radix2 64) by (unfold ns; change (bpow radix2 64) with (IZR (2 ^ 64)); apply IZR_le; destruct H; lia).
  assert (B : ns t / 1000000000 <= bpow radix2 35).
  { apply Rle_trans with (bpow radix2 64 / 1000000000); [unfold Rdiv; apply Rmult_le_compat_r; [lra|exact U]|].
    apply Rmult_le_reg_r with 1000000000; [lra|]. unfold Rdiv. rewrite Rmult_assoc, Rinv_l, Rmult_1_r by lra.
    change (bpow radix2 64) with (IZR (2 ^ 64)). change (bpow radix2 35) with (IZR (2 ^ 35)). rewrite <- mult_IZR. apply IZR_le. vm_compute. discriminate. }
  assert (P : 0 <= ns t / 1000000000) by (apply div_nonneg; lra).
  pose proof (ldiv_spec (ld_of (nano t)) (ld_of 1000000000) V Vg F) as Q. rewrite X, Xg, E in Q. destruct Q as (F' & V' & W).
  - apply ld_nz; [exact Fg|]. rewrite Xg. lra.
  - apply big_ld. rewrite Rabs_pos_eq by exact P. eapply Rle_trans; [exact B|]. apply bpow_le. lia.
  - fold (sec t) in F', V', W. split; [exact F'|]. split; [exact V'|].
    assert (W2 : val (sec t) <= bpow radix2 35). { rewrite W, <- (rl_bpow 35) by lia. apply rl_le. exact B. }
    destruct (Z.eq_dec (snd t - fst t) 0) as [Z0|Z0].
    + assert (N0 : ns t = 0) by (unfold ns; rewrite Z0; reflexivity).
      assert (W0 : val (sec t) = 0). { rewrite W, N0. unfold Rdiv. rewrite Rmult_0_l. apply rnd_0. }
      split; [|split; [left; exact W0|exact W2]]. unfold near. rewrite W0, N0. unfold Rdiv. rewrite Rmult_0_l, Rminus_0_r, Rabs_R0. lra.
    + assert (N1 : 1 <= ns t) by (unfold ns; apply IZR_le; destruct H; lia).
      assert (Lo : bpow radix2 (-30) <= ns t / 1000000000).
      { eapply Rle_trans; [exact bp30|]. unfold Rdiv. rewrite <- (Rmult_1_l (/ 1000000000)) at 1. apply Rmult_le_compat_r; [|exact N1]. lra. }
      split; [|split; [right|exact W2]].
      * destruct (rl_err (ns t / 1000000000)) as (e & He & Ee).
        { rewrite Rabs_pos_eq by exact P. eapply Rle_trans; [|exact Lo]. apply bpow_le. lia. }
        rewrite W, Ee. replace (1 + u) with (1 * (1 + u)) by ring. apply near_mul; [exact P|lra| |exact He].
        unfold near. rewrite !Rminus_diag_eq by reflexivity. rewrite Rabs_R0. lra.
      * rewrite W, <- (rl_bpow (-30)) by lia. apply rl_le. exact Lo.
Qed.

Lemma time_acc l : Forall (fun e => forward (ev_time e)) l -> forall t A k j,
  finite_fp t -> valid LDBL t -> 0 <= A -> near ((1 + u) ^ Datatypes.S j) A (val t) -> (val t = 0 \/ bpow radix2 (-30) <= val t) ->
  (0 <= k)%Z -> val t <= IZR k * bpow radix2 35 -> (k + Z.of_nat (length l) <= 2 ^ 64)%Z ->
  let r := fold_left (fun t e => ladd t (sec (ev_time e))) l t in
  finite_fp r /\ valid LDBL r /\ near ((1 + u) ^ Datatypes.S (length l + j)) (A + total_ns l / 1000000000) (val r) /\
  (val r = 0 \/ bpow radix2 (-30) <= val r) /\ val r <= IZR (2 ^ 64) * bpow radix2 35.
Proof.
  induction l as [|e l IH]; intros FW t A k j F V HA HN HL Hk HU Hlen; cbn [fold_left total_ns length Nat.add]; cbv zeta.
  - split; [exact F|]. split; [exact V|]. split; [|split; [exact HL|]].
    + unfold Rdiv. rewrite Rmult_0_l, Rplus_0_r. exact HN.
    + eapply Rle_trans; [exact HU|]. apply Rmult_le_compat_r; [apply bpow_ge_0|]. apply IZR_le. cbn [length] in Hlen. lia.
  - inversion FW as [|? ? F1 F2]; subst. destruct (sec_spec _ F1) as (Fs & Vs & Ns & Ls & Us).
    cbn [length] in Hlen. rewrite Nat2Z.inj_succ in Hlen.
    pose proof u_pos as up.
    assert (T0 : 0 <= val t). { destruct HL as [-> | HL]; [lra|]. eapply Rle_trans; [apply bpow_ge_0|exact HL]. }
    assert (S0 : 0 <= val (sec (ev_time e))). { destruct Ls as [-> | Ls]; [lra|]. eapply Rle_trans; [apply bpow_ge_0|exact Ls]. }
    assert (SU : val t + val (sec (ev_time e)) <= IZR (k + 1) * bpow radix2 35). { rewrite plus_IZR. lra. }
    assert (GK : rl (IZR (k + 1) * bpow radix2 35) = IZR (k + 1) * bpow radix2 35).
    { unfold rnd. apply round_generic; [apply valid_rnd_N|]. destruct (Z.eq_dec (k + 1) (2 ^ 64)) as [-> | K].
      - change (IZR (2 ^ 64)) with (bpow radix2 64). rewrite <- bpow_plus. apply generic_format_bpow. vm_compute. discriminate.
      - apply generic_format_FLT. exists (Float radix2 (k + 1) 35); [reflexivity|cbn [Fnum]; change (Z.abs (k + 1) < 2 ^ 64)%Z; lia|cbn [Fexp]; vm_compute; discriminate]. }
    destruct (ladd_spec t (sec (ev_time e)) V Vs F Fs) as (F' & V' & W).
    { apply big_ld. rewrite Rabs_pos_eq by lra. eapply Rle_trans; [exact SU|]. apply Rle_trans with (bpow radix2 64 * bpow radix2 35).
      - apply Rmult_le_compat_r; [apply bpow_ge_0|]. change (bpow radix2 64) with (IZR (2 ^ 64)). apply IZR_le. lia.
      - rewrite <- bpow_plus. apply bpow_le. lia. }
    assert (B0 : 0 <= ns (ev_time e) / 1000000000). { apply div_nonneg; [|lra]. unfold ns. apply IZR_le. destruct F1. lia. }
    assert (P1 : 1 <= (1 + u) ^ j) by (apply pow_R1_Rle; lra).
    assert (NS : near ((1 + u) ^ Datatypes.S j) (A + ns (ev_time e) / 1000000000) (val t + val (sec (ev_time e)))).
    { apply near_add; [exact HN|]. apply near_more with (1 + u); [exact B0| |exact Ns]. cbn [pow]. nra. }
    assert (LO : val t + val (sec (ev_time e)) = 0 \/ bpow radix2 (-30) <= val t + val (sec (ev_time e))).
    { destruct HL as [H0 | HL]; [destruct Ls as [H1 | Ls]; [left; lra|right; lra]|right; lra]. }
    specialize (IH F2 (ladd t (sec (ev_time e))) (A + ns (ev_time e) / 1000000000) (k + 1)%Z (Datatypes.S j)).
    cbv zeta in IH. replace (A + (ns (ev_time e) + total_ns l) / 1000000000) with (A + ns (ev_time e) / 1000000000 + total_ns l / 1000000000) by (unfold Rdiv; ring).
    replace (Datatypes.S (Datatypes.S (length l + j))) with (Datatypes.S (length l + Datatypes.S j)) by lia. apply IH; clear IH.
    + exact F'.
    + exact V'.
    + lra.
    + rewrite W. destruct LO as [Z0 | LO].
      * rewrite Z0 in *. rewrite rnd_0. apply near_more with ((1 + u) ^ Datatypes.S j); [lra| |exact NS].
        change ((1 + u) ^ Datatypes.S (Datatypes.S j)) with ((1 + u) * (1 + u) ^ Datatypes.S j).
        assert (1 <= (1 + u) ^ Datatypes.S j) by (apply pow_R1_Rle; lra). nra.
      * destruct (rl_err (val t + val (sec (ev_time e)))) as (x & Hx & Ex).
        { rewrite Rabs_pos_eq by lra. eapply Rle_trans; [|exact LO]. apply bpow_le. lia. }
        rewrite Ex. replace ((1 + u) ^ Datatypes.S (Datatypes.S j)) with ((1 + u) ^ Datatypes.S j * (1 + u)) by (cbn [pow]; ring).
        apply near_mul; [lra|apply pow_R1_Rle; lra|exact NS|exact Hx].
    + rewrite W. destruct LO as [-> | LO]; [left; apply rnd_0|right]. rewrite <- (rl_bpow (-30)) by lia. apply rl_le. exact LO.
    + lia.
    + rewrite W, <- GK. apply rl_le. exact SU.
    + lia.
Qed.
Definition report_time (l : list event) : spec_float := fold_left (fun t e => ladd t (sec (ev_time e))) l (S754_zero false).
Lemma time_spec l : Forall (fun e => forward (ev_time e)) l -> (Z.of_nat (length l) <= 2 ^ 64)%Z ->
  finite_fp (report_time l) /\ valid LDBL (report_time l) /\
  Rabs (val (report_time l) - total_ns l / 10 ^ 9) <= total_ns l / 10 ^ 9 * ((1 + / 2 ^ 64) ^ (length l + 1) - 1) /\
  (val (report_time l) = 0 \/ bpow radix2 (-30) <= val (report_time l)) /\ val (report_time l) <= bpow radix2 99.
Proof.
  intros FW HL. destruct (time_acc l FW (S754_zero false) 0 0%Z 0%nat) as (F & V & N & L & U).
  - exact Logic.I.
  - reflexivity.
  - lra.
  - unfold near. cbn [val]. rewrite Rminus_0_r, Rabs_R0. lra.
  - left. reflexivity.
  - lia.
  - cbn [val]. rewrite Rmult_0_l. lra.
  - lia.
  - fold (report_time l) in *. split; [exact F|]. split; [exact V|]. split; [|split; [exact L|rewrite (bpow_plus radix2 64 35 : bpow radix2 99 = _); exact U]].
    unfold near in N. rewrite Rplus_0_l, u_eq in N. replace (Datatypes.S (length l + 0)) with (length l + 1)%nat in N by lia.
    replace (10 ^ 9) with 1000000000 by (cbn; lra). exact N.
Qed.
