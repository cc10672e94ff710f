(* When the report is defined, and what it shows then *)
From Verif Require Import ModelBytes ProofBytes ModelHist ModelMsg ModelStore ProofStore ModelElen ModelFloat ModelGen SpecFp ProofFpBase ProofGen1 ModelStats ModelDsStats SpecRoute SpecClient SpecStats SpecDsStats2 ProofDsStats ProofLd ProofLd2 ProofLd3.
From Coq Require Import Reals Psatz.
From Flocq Require Import Core.
Local Open Scope R_scope.

Lemma pow_small v n : 0 <= v -> INR n * v <= / 2 -> (1 + v) ^ n <= 1 + 2 * INR n * v.
Proof.
  intros Hv. induction n as [|n IH]; intros H; [cbn; lra|]. rewrite S_INR in H. assert (0 <= INR n) by apply pos_INR.
  assert (INR n * v <= / 2) by nra. specialize (IH H1). cbn [pow]. rewrite S_INR. nra.
Qed.
Lemma time_near l : Forall (fun e => forward (ev_time e)) l -> (Z.of_nat (length l) <= 2 ^ 61)%Z ->
  0 <= total_ns l -> total_ns l / 10 ^ 9 / 2 <= val (report_time l) <= 2 * (total_ns l / 10 ^ 9).
Proof.
  intros F L P. destruct (time_spec l F ltac:(lia)) as (_ & _ & N & _). set (T := total_ns l / 10 ^ 9) in *.
  assert (0 <= T) by (apply div_nonneg; [exact P|cbn; lra]).
  assert (Q : (1 + / 2 ^ 64) ^ (length l + 1) <= 1 + / 2).
  { rewrite <- u_eq. assert (I : INR (length l + 1) * u <= / 4).
    { rewrite INR_IZR_INZ. apply Rle_trans with (IZR (2 ^ 62) * u).
      - apply Rmult_le_compat_r; [left; apply u_pos|]. apply IZR_le. lia.
      - change (IZR (2 ^ 62)) with (bpow radix2 62). rewrite <- bpow_plus. cbn. lra. }
    eapply Rle_trans; [apply pow_small; [left; apply u_pos|lra]|]. lra. }
  apply Rabs_le_inv in N. nra.
Qed.
Lemma total_nonneg l : Forall (fun e => forward (ev_time e)) l -> 0 <= total_ns l.
Proof.
  induction 1 as [|e l H F IH]; cbn [total_ns]; [lra|]. assert (0 <= ns (ev_time e)) by (unfold ns; apply IZR_le; destruct H; lia). lra.
Qed.

Lemma report_shows l : Forall (fun e => forward (ev_time e)) l -> (Z.of_nat (length l) <= 2 ^ 61)%Z -> 0 < total_ns l ->
  IZR (Z.of_N (sumN (map ev_size l))) / (total_ns l / 10 ^ 9) <= 2 ^ 59 -> (sumN (map ev_size l) < 2 ^ 64)%N ->
  exists x, report l = Ok x /\ ln_time x = report_time l /\
    match ln_rates x with
    | None => ln_count x = 0%N
    | Some (_, text) => shown_rate (IZR (Z.of_N (ln_size x)) / val (ln_time x)) text
    end.
Proof.
  intros F L P R B. destruct (time_spec l F ltac:(lia)) as (Fi & V & _ & Lo & Up). pose proof (time_near l F L (Rlt_le _ _ P)) as [T1 T2].
  assert (TP : 0 < total_ns l / 10 ^ 9) by (apply Rdiv_lt_0_compat; [exact P|cbn; lra]).
  unfold report. fold (report_time l). rewrite !total64_sum. rewrite (N.mod_small _ _ B).
  destruct (N.eqb_spec (sumN (map ev_count l) mod 2 ^ 64) 0) as [Z|Z].
  - eexists. split; [reflexivity|]. split; [reflexivity|]. cbn. exact Z.
  - destruct (hr_ok (sumN (map ev_size l)) (report_time l) B V Fi) as (text & H1 & H2).
    + split; [destruct Lo as [Lo|Lo]; [lra|]|]; [eapply Rle_trans; [|exact Lo]; apply bpow_le; lia|eapply Rle_trans; [exact Up|]; apply bpow_le; lia].
    + set (T := total_ns l / 10 ^ 9) in *. set (n := IZR (Z.of_N (sumN (map ev_size l)))) in *.
      assert (N0 : 0 <= n) by (apply IZR_le; lia).
      apply Rle_trans with (n / (T / 2)); [unfold Rdiv; apply Rmult_le_compat_l; [exact N0|]; apply Rinv_le_contravar; lra|].
      replace (n / (T / 2)) with (2 * (n / T)) by (field; lra). change (2 ^ 60) with (2 * 2 ^ 59). lra.
    + rewrite H1. cbn [obind]. eexists. split; [reflexivity|]. split; [reflexivity|]. cbn [ln_rates ln_size ln_time]. exact H2.
Qed.
Lemma report_ub l : (sumN (map ev_size l) mod 2 ^ 64 <> 0)%N -> (sumN (map ev_count l) mod 2 ^ 64 <> 0)%N ->
  Forall (fun e => snd (ev_time e) = fst (ev_time e)) l -> report l = UB.
Proof.
  intros S C F. unfold report. rewrite !total64_sum. destruct (N.eqb_spec (sumN (map ev_count l) mod 2 ^ 64) 0) as [Z|_]; [contradiction|].
  assert (T : fold_left (fun t e => ladd t (sec (ev_time e))) l (S754_zero false) = S754_zero false).
  { clear - F. induction F as [|e l H F IH]; [reflexivity|]. cbn [fold_left]. replace (ladd _ _) with (S754_zero false); [exact IH|].
    unfold sec, nano. rewrite H, Z.sub_diag. vm_compute. reflexivity. }
  rewrite T, hr_zero; [reflexivity|]. pose proof (N.mod_lt (sumN (map ev_size l)) (2 ^ 64) ltac:(lia)). lia.
Qed.
