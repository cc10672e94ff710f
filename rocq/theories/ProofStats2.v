(* The fill rates that the report gives *)
From Verif Require Import ModelBytes ModelMsg ModelFloat ModelGen SpecFp ProofFpBase ProofFpBits ProofFpMant ProofGen1 ModelClient ModelStats SpecStats SpecStats2.
From Coq Require Import Reals Psatz.
From Flocq Require Import Core Operations BinarySingleNaN.
Local Open Scope R_scope.

Lemma fill_from : forall l a, (a < 2 ^ 64 -> a + sumN l < 2 ^ 64 -> fold_left (fun s x => (s + x) mod 2 ^ 64) l a = a + sumN l)%N.
Proof.
  induction l as [|x l IH]; intros a Ha H; cbn [fold_left]; [cbn [sumN fold_right]; lia|].
  change (sumN (x :: l)) with (x + sumN l)%N in H |- *. rewrite N.mod_small by lia. rewrite IH by lia. lia.
Qed.
Lemma sum_range l m : Forall (fun n => 1 <= n <= m)%N l -> (lenN l <= sumN l <= lenN l * m)%N.
Proof.
  induction 1 as [|x l H _ IH]; [unfold lenN; cbn; lia|]. change (sumN (x :: l)) with (x + sumN l)%N.
  assert (E : lenN (x :: l) = (lenN l + 1)%N) by (unfold lenN; cbn [length]; lia). rewrite E, N.mul_add_distr_r. lia.
Qed.
Lemma fill_lemma l m : l <> [] -> Forall (fun n => 1 <= n <= m)%N l -> (m <= 2 ^ 46)%N -> (sumN l <= 2 ^ 53)%N -> fill_right l m.
Proof.
  intros Hl Hr Hm Hs. pose proof (sum_range l m Hr) as [S1 S2].
  assert (L1 : (1 <= lenN l)%N) by (unfold lenN; destruct l; [congruence|cbn [length]; lia]).
  assert (M1 : (1 <= m)%N) by (destruct l as [|x l]; [congruence|]; inversion Hr; lia).
  unfold fill_right, fill_avg. fold (lenN l). unfold fill_sum. rewrite fill_from by lia. rewrite N.add_0_l.
  set (s := sumN l) in *. set (n := lenN l) in *.
  destruct (of_size_spec s ltac:(lia)) as (Fs & Vs & _). pose proof (of_size_small s Hs) as Es.
  destruct (of_size_spec n ltac:(lia)) as (Fn & Vn & _). pose proof (of_size_small n ltac:(lia)) as En.
  destruct (of_size_spec m ltac:(lia)) as (Fm & Vm & _). pose proof (of_size_small m ltac:(lia)) as Em.
  pose proof (ddiv_rounded _ _ Vs Vn Fs (of_size_pos n ltac:(lia))) as Q. rewrite Es, En in Q.
  assert (A1 : 1 <= IZR (Z.of_N n)) by (apply IZR_le; lia).
  assert (A2 : IZR (Z.of_N n) <= IZR (Z.of_N s)) by (apply IZR_le; lia).
  assert (A3 : IZR (Z.of_N s) <= IZR (Z.of_N n) * IZR (Z.of_N m)) by (rewrite <- mult_IZR; apply IZR_le; lia).
  assert (A4 : 1 <= IZR (Z.of_N m)) by (apply IZR_le; lia).
  assert (A5 : IZR (Z.of_N m) <= IZR (2 ^ 46)) by (apply IZR_le; lia).
  set (x := IZR (Z.of_N s) / IZR (Z.of_N n)) in *.
  assert (X : x * IZR (Z.of_N n) = IZR (Z.of_N s)) by (unfold x; field; lra).
  assert (X1 : 1 <= x) by (clear - X A1 A2; nra). assert (X2 : x <= IZR (Z.of_N m)) by (clear - X A1 A3; nra).
  assert (B46 : IZR (2 ^ 46) <= bpow radix2 1023) by (change (IZR (2 ^ 46)) with (bpow radix2 46); apply bpow_le; lia).
  apply rounded_in in Q as (Fq & Vq & Eq); [|apply small_big; rewrite Rabs_pos_eq; lra].
  set (q := ddiv (of_size s) (of_size n)) in *.
  assert (Q1 : 1 <= val q) by (rewrite Eq, <- (rnd_int 1) by (vm_compute; discriminate); apply rnd_le; [exact dbl_ok|exact X1]).
  assert (Q2 : val q <= IZR (Z.of_N m)) by (rewrite Eq, <- (rnd_int (Z.of_N m)) by lia; apply rnd_le; [exact dbl_ok|exact X2]).
  split; [exact Fq|]. split; [split; assumption|]. split.
  { rewrite Eq. destruct (rnd_err_normal DBL x dbl_ok) as (eps & He & Ee).
    - apply Rle_trans with (bpow radix2 0); [apply bpow_le; vm_compute; discriminate|]. rewrite Rabs_pos_eq by lra. exact X1.
    - rewrite Ee. replace (x * (1 + eps) - x) with (x * eps) by ring. rewrite Rabs_mult, (Rabs_pos_eq x) by lra. apply Rmult_le_compat_l; [lra|].
      rewrite pw2. exact He. }
  unfold percent. destruct (of_size_spec 100 ltac:(lia)) as (Fh & Vh & _). pose proof (of_size_small 100 ltac:(lia)) as Eh. change (IZR (Z.of_N 100)) with 100 in Eh.
  assert (B53 : 100 * IZR (2 ^ 46) <= bpow radix2 1023).
  { apply Rle_trans with (bpow radix2 53); [change (bpow radix2 53) with (IZR (2 ^ 53)); rewrite <- mult_IZR; apply IZR_le; lia|apply bpow_le; lia]. }
  destruct (dmul_spec (of_size 100) q Vh Vq Fh Fq) as (Fp & Vp & Ep); [apply small_big; rewrite Eh, Rabs_pos_eq; lra|].
  rewrite Eh in Ep.
  assert (P1 : 1 <= val (dmul (of_size 100) q)) by (rewrite Ep, <- (rnd_int 1) by (vm_compute; discriminate); apply rnd_le; [exact dbl_ok|lra]).
  assert (P2 : val (dmul (of_size 100) q) <= 100 * IZR (Z.of_N m)).
  { rewrite Ep. rewrite <- mult_IZR. rewrite <- (rnd_int (100 * Z.of_N m)) by lia. apply rnd_le; [exact dbl_ok|]. rewrite mult_IZR. lra. }
  pose proof (ddiv_rounded _ _ Vp Vm Fp (of_size_pos m ltac:(lia))) as W. rewrite Em in W.
  set (p := dmul (of_size 100) q) in *. set (y := val p / IZR (Z.of_N m)) in *.
  assert (Y : y * IZR (Z.of_N m) = val p) by (unfold y; field; lra).
  assert (Y1 : bpow radix2 (-46) <= y).
  { change (bpow radix2 (-46)) with (/ IZR (2 ^ 46)). assert (I1 : / IZR (2 ^ 46) * IZR (2 ^ 46) = 1) by (apply Rinv_l; apply not_0_IZR; lia).
    assert (I0 : 0 < / IZR (2 ^ 46)) by (apply Rinv_0_lt_compat; apply IZR_lt; lia). set (i := / IZR (2 ^ 46)) in *. clear - Y P1 A4 A5 I1 I0. nra. }
  assert (Y2 : y <= 100) by (clear - Y P2 A4; nra).
  pose proof (bpow_gt_0 radix2 (-46)).
  apply rounded_in in W as (Fw & Vw & Ew).
  2: { apply small_big. rewrite Rabs_pos_eq by lra. apply Rle_trans with (100 * IZR (2 ^ 46)); [|exact B53]. assert (1 <= IZR (2 ^ 46)) by (apply IZR_le; lia). lra. }
  split; [exact Fw|]. rewrite Ew. split.
  - apply Rlt_le_trans with (rnd DBL (bpow radix2 (-46))); [rewrite (rnd_bpow DBL _ dbl_ok) by (vm_compute; discriminate); apply bpow_gt_0|apply rnd_le; [exact dbl_ok|exact Y1]].
  - rewrite <- (rnd_int 100) by (vm_compute; discriminate). apply rnd_le; [exact dbl_ok|exact Y2].
Qed.
