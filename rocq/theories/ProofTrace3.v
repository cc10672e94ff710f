(* Lines, traces and the buffer *)
From Verif Require Import ModelBytes ProofBytes ModelKey ModelWire ModelHist ModelMsg SpecMsg ModelStore ModelGetOp ModelDs SpecStore ProofStore ModelElen ModelRoute SpecRoute
  ModelClient SpecClient ModelFloat SpecElen SpecFp ProofElen ProofFpDecode ProofFpBase ProofFpBits ProofFpMant ProofFpOrder ModelStats ModelDsStats SpecDsStats2 ProofLd ProofLd2
  ModelTimes SpecTimes ProofTimes3 ProofTimes5 ModelTrace SpecTrace ProofTrace ProofTrace2.
From Coq Require Import Reals Lra.
From Flocq Require Import Core.
Local Open Scope R_scope.

(* ---- a duration ---- *)
Lemma sec_zero a : sec (a, a) = S754_zero false.
Proof. unfold sec, nano. cbn [fst snd]. rewrite Z.sub_diag. reflexivity. Qed.
Lemma ten_m12 : ten (-12) <= bpow radix2 (-30).
Proof.
  rewrite ten_max. cbn [Z.max Z.opp Z.compare]. change (bpow radix2 (-30)) with (/ IZR (2 ^ 30)).
  change (10 ^ 0)%Z with 1%Z. unfold Rdiv. rewrite Rmult_1_l. apply Rinv_le_contravar; [apply IZR_lt; reflexivity|apply IZR_le; discriminate].
Qed.
Lemma ten_p21 : bpow radix2 35 < ten 21.
Proof. rewrite ten_IZR by lia. change (bpow radix2 35) with (IZR (2 ^ 35)). apply IZR_lt. reflexivity. Qed.
Lemma u_small : u <= / 10 ^ 5 / 4.
Proof.
  change u with (/ IZR (2 ^ 64)). replace (/ 10 ^ 5 / 4) with (/ IZR (4 * 10 ^ 5)) by (change (4 * 10 ^ 5)%Z with 400000%Z; field).
  apply Rinv_le_contravar; [apply IZR_lt; reflexivity|apply IZR_le; discriminate].
Qed.
Lemma show_sec a b : (0 <= b - a < 2 ^ 64)%Z ->
  exists v, read_number (show_g (sec (a, b))) = Some v /\ Rabs (value v - IZR (b - a) / 10 ^ 9) <= IZR (b - a) / 10 ^ 9 * (/ 10 ^ 5) /\
    Forall number_char (show_g (sec (a, b))).
Proof.
  intros H. destruct (Z.eq_dec a b) as [->|NE].
  - rewrite sec_zero, Z.sub_diag. exists (0%N, 0%Z). split; [reflexivity|]. split; [|constructor; [left; reflexivity|constructor]].
    unfold value. cbn [fst snd]. change (IZR (Z.of_N 0)) with 0. replace (0 * ten 0 - 0 / 10 ^ 9) with 0 by (unfold Rdiv; ring).
    rewrite Rabs_R0. unfold Rdiv. rewrite !Rmult_0_l. apply Rle_refl.
  - destruct (sec_spec (a, b) H) as (F & V & N & L & U). unfold near, ns in N. cbn [fst snd] in N.
    set (t := IZR (b - a) / 1000000000) in *.
    assert (T0 : 0 < t). { unfold t. apply Rdiv_lt_0_compat; [apply IZR_lt; lia|lra]. }
    assert (Et : IZR (b - a) / 10 ^ 9 = t). { unfold t. f_equal. ring. }
    rewrite Et. replace (1 + u - 1) with u in N by ring. pose proof u_small as US. pose proof u_pos as UP.
    assert (I5 : 0 < / 10 ^ 5 < 1). { split; [apply Rinv_0_lt_compat, pow_lt; lra|]. replace 1 with (/ 1) by apply Rinv_1. apply Rinv_lt_contravar; [|]; [rewrite Rmult_1_l; apply pow_lt; lra|]. apply Rlt_pow_R1; [lra|lia]. }
    assert (NV : Rabs (val (sec (a, b)) - t) <= t * (/ 10 ^ 5 / 4)). { eapply Rle_trans; [exact N|]. apply Rmult_le_compat_l; lra. }
    assert (P : 0 < val (sec (a, b))). { apply Rabs_le_inv in NV. assert (t * (/ 10 ^ 5 / 4) < t) by (apply Rlt_le_trans with (t * 1); [apply Rmult_lt_compat_l; lra|lra]). lra. }
    destruct (sec (a, b)) as [s|s| |s m e]; cbn [val] in *; try lra.
    destruct s; [exfalso; assert (0 < IZR (Zpos m) * powerRZ 2 e) by (apply (num_pos m e)); lra|].
    replace (1 * IZR (Zpos m) * powerRZ 2 e) with (num_of m e) in * by (unfold num_of; ring).
    assert (R : ten (-12) <= num_of m e < ten 21).
    { split; [|eapply Rle_lt_trans; [exact U|exact ten_p21]]. destruct L as [L|L]; [lra|]. eapply Rle_trans; [exact ten_m12|exact L]. }
    pose proof (six_spec m e R) as S. rewrite show_g_shown. destruct (six m e) as [d x]. destruct S as (D & X & B).
    destruct (shown_read d x D X) as (v & Ev & Vv). exists v. split; [exact Ev|]. split; [|apply shown_chars, D].
    rewrite Vv. replace (IZR d * ten (x - 5) - t) with ((IZR d * ten (x - 5) - num_of m e) + (num_of m e - t)) by ring.
    eapply Rle_trans; [apply Rabs_triang|].
    assert (NU : num_of m e <= t * (5 / 4)). { apply Rabs_le_inv in NV. assert (t * (/ 10 ^ 5 / 4) <= t * (1 / 4)) by (apply Rmult_le_compat_l; lra). lra. }
    assert (B2 : num_of m e * (/ 2 * / 10 ^ 5) <= t * (5 / 4) * (/ 2 * / 10 ^ 5)) by (apply Rmult_le_compat_r; [|exact NU]; lra).
    replace (t * / 10 ^ 5) with (t * (5 / 4) * (/ 2 * / 10 ^ 5) + t * / 10 ^ 5 * (3 / 8)) by field.
    assert (t * (/ 10 ^ 5 / 4) <= t * / 10 ^ 5 * (3 / 8)).
    { replace (t * (/ 10 ^ 5 / 4)) with (t * / 10 ^ 5 * (1 / 4)) by field. apply Rmult_le_compat_l; [apply Rmult_le_pos; lra|lra]. }
    lra.
Qed.

(* ---- lines ---- *)
Definition body_of (rank epoch : Z) (v : named_event) : bytes :=
  let '(name, a, b) := v in
  show_int rank ++ " "%char :: name ++ " "%char :: to_string (nano (epoch, a)) ++ " "%char :: to_string (nano (epoch, b)) ++ " "%char :: show_g (sec (a, b)).
Lemma line_body rank epoch v : line rank epoch v = body_of rank epoch v ++ ["010"%char].
Proof. destruct v as [[name a] b]. unfold line, body_of. repeat (rewrite <- app_assoc; cbn [app]; f_equal; f_equal). Qed.
Lemma plain_space s : plain s -> has_no " "%char s.
Proof. intros H. eapply Forall_impl; [|exact H]. intros c [A _]. exact A. Qed.
Lemma plain_newline s : plain s -> has_no "010"%char s.
Proof. intros H. eapply Forall_impl; [|exact H]. intros c [_ A]. exact A. Qed.
Lemma nano_after epoch a : (0 <= a - epoch < 2 ^ 64)%Z -> nano (epoch, a) = Z.to_N (a - epoch).
Proof. intros H. unfold nano. cbn [fst snd]. rewrite Z.mod_small by exact H. reflexivity. Qed.
Lemma to_string_plain n : plain (to_string n).
Proof. apply number_plain, digits_number, to_string_spec. Qed.
Lemma body_tells rank epoch v : after epoch v -> tells rank epoch v (read_line (body_of rank epoch v)) /\ has_no "010"%char (body_of rank epoch v).
Proof.
  destruct v as [[name a] b]. intros (PN & [H1 H2] & H3). unfold body_of, tells. rewrite !nano_after by lia.
  destruct (show_sec a b ltac:(lia)) as (d & Rd & Vd & Cd). split.
  - exists d. split; [|exact Vd]. unfold read_line.
    rewrite cut_app by apply plain_space, number_plain, show_int_chars. rewrite cut_app by apply plain_space, PN.
    rewrite cut_app by apply plain_space, to_string_plain. rewrite cut_app by apply plain_space, to_string_plain.
    rewrite cut_none by apply plain_space, number_plain, Cd. rewrite read_show_int, !read_nat_to_string, Rd. reflexivity.
  - apply has_no_app; [apply plain_newline, number_plain, show_int_chars|]. constructor; [discriminate|].
    apply has_no_app; [apply plain_newline, PN|]. constructor; [discriminate|].
    apply has_no_app; [apply plain_newline, to_string_plain|]. constructor; [discriminate|].
    apply has_no_app; [apply plain_newline, to_string_plain|]. constructor; [discriminate|]. apply plain_newline, number_plain, Cd.
Qed.
Lemma lines_told rank epoch l : Forall (after epoch) l -> records rank epoch (flat_map (line rank epoch) l) l.
Proof.
  unfold records, read_trace. induction 1 as [|v l H _ IH]; [constructor|]. destruct (body_tells rank epoch v H) as [T N].
  cbn [flat_map]. rewrite line_body, <- app_assoc. cbn [app]. rewrite cut_app by exact N.
  assert (NE : cut "010"%char (flat_map (line rank epoch) l) <> []).
  { generalize (flat_map (line rank epoch) l). intros s. destruct s as [|c s]; cbn [cut]; [discriminate|]. destruct (Ascii.eqb c "010"%char); [discriminate|].
    destruct (cut "010"%char s); discriminate. }
  destruct (cut "010"%char (flat_map (line rank epoch) l)) as [|w ws] eqn:E; [congruence|].
  change (removelast (body_of rank epoch v :: w :: ws)) with (body_of rank epoch v :: removelast (w :: ws)). cbn [map]. constructor; [exact T|exact IH].
Qed.

(* ---- the buffer ---- *)
Lemma run_complete rank epoch : forall l st st' some, (some = true -> tc_buf st <> []) -> tc_up st = true -> o_good (tc_out st) = true -> tc_log st = [] ->
  careful some l -> tc_run rank epoch st l = Ok st' -> complete rank epoch (o_text (tc_out st) ++ tc_buf st) st' l.
Proof.
  assert (NL : forall v, line rank epoch v <> []). { intros v. rewrite line_body. destruct (body_of rank epoch v); discriminate. }
  unfold complete. induction l as [|a l IH]; intros [up buf o lg] st' some B U G L C R; cbn [tc_buf tc_up tc_out tc_log] in *; subst up lg; cbn [tc_run] in R.
  - apply Ok_inj in R as <-. cbn. rewrite !app_nil_r. auto.
  - destruct a as [v|x t print| |]; cbn [tc_step tc_up tc_buf tc_out tc_log obind] in R.
    + cbn [careful] in C. edestruct IH as [E G']; [| | | |exact C|exact R|]; cbn [tc_buf tc_up tc_out tc_log o_good]; auto.
      { intros _ Q. apply app_eq_nil in Q as [_ Q]. exact (NL _ Q). }
      split; [|exact G']. cbn [tc_buf tc_out flat_map printed app] in *. rewrite E, <- !app_assoc. reflexivity.
    + cbn [careful] in C. edestruct IH as [E G']; [| | | |exact C|exact R|]; cbn [tc_buf tc_up tc_out tc_log o_good]; auto.
      { intros _ Q. apply app_eq_nil in Q as [_ Q]. unfold result_events in Q. cbn [app flat_map] in Q. apply app_eq_nil in Q as [Q _]. exact (NL _ Q). }
      split; [|exact G']. cbn [tc_buf tc_out flat_map printed] in *. rewrite E. rewrite flat_map_app, <- !app_assoc. reflexivity.
    + cbn [careful] in C. destruct C as [S C]. specialize (B S). unfold insert_buf in R. rewrite G in R. destruct buf as [|c buf]; [congruence|].
      edestruct IH as [E G']; [| | | |exact C|exact R|]; cbn [tc_buf tc_up tc_out tc_log o_good]; auto; [discriminate|].
      split; [|exact G']. cbn [tc_buf tc_out o_text flat_map printed] in *. rewrite E, app_nil_r. reflexivity.
    + cbn [careful] in C. subst l. cbn [tc_run] in R. apply Ok_inj in R as <-. cbn. rewrite !app_nil_r. auto.
Qed.

(* ---- results ---- *)
Lemma names_plain : Forall plain (map bstr ["HXHIM_PUT"; "HXHIM_GET"; "HXHIM_GETOP"; "HXHIM_DELETE"; "HXHIM_HISTOGRAM"; "HXHIM_SYNC"; "Hash"; "Insert"; "Alloc"; "ProcessBulk"; "Pack";
  "Transport"; "Unpack"; "Cleanup_RPC"; "Result"; "print"]%string).
Proof. repeat (constructor; [repeat (constructor; [split; discriminate|]); constructor|]). constructor. Qed.
Lemma asc_le l a : ascending (a :: l) -> Forall (fun b => (a <= b)%Z) l.
Proof.
  revert a; induction l as [|b l IH]; intros a H; [constructor|]. destruct H as [H1 H2]. constructor; [exact H1|].
  eapply Forall_impl; [|exact (IH b H2)]. intros c Hc. cbv beta in *. lia.
Qed.
Lemma events_after epoch x t print : ascending (moments t) -> alloc_inside t -> (epoch <= fst (sn_hash (ti_send t)))%Z -> (snd (ti_result t) - epoch < 2 ^ 64)%Z ->
  (epoch <= fst print <= snd print)%Z -> (snd print - epoch < 2 ^ 64)%Z -> Forall (after epoch) (result_events x t print).
Proof.
  intros A I E U P1 P2. unfold moments in A. destruct t as [al [[h1 h2] [i1 i2]] [st [p1 p2] sd rc [u1 u2] [c1 c2] en] [r1 r2]].
  destruct print as [q1 q2]. cbn [ti_send ti_trip ti_result ti_alloc sn_hash sn_insert tr_start tr_pack tr_send tr_recv tr_unpack tr_cleanup tr_end fst snd] in *.
  cbn [ascending] in A. decompose [and] A. clear A.
  pose proof names_plain as N. cbn [map] in N.
  assert (K : forall name a b, plain name -> (epoch <= a <= b)%Z -> (b - epoch < 2 ^ 64)%Z -> after epoch (name, a, b)) by (intros; repeat split; try assumption; lia).
  repeat (let h := fresh "N" in apply Forall_cons_iff in N as [h N]).
  unfold result_events. cbn [ti_send ti_trip ti_result ti_alloc sn_hash sn_insert tr_start tr_pack tr_send tr_recv tr_unpack tr_cleanup tr_end fst snd].
  apply Forall_app. split; [|apply Forall_app; split].
  - constructor; [apply K; [destruct x; assumption|lia|lia]|]. repeat (constructor; [apply K; [assumption|lia|lia]|]). constructor.
  - destruct al as [[a1 a2]|]; [|constructor]. unfold alloc_inside in I. cbn [ti_alloc ti_send sn_insert fst snd] in I. constructor; [|constructor]. apply K; [assumption|cbn; lia|cbn; lia].
  - repeat (constructor; [apply K; [assumption|cbn; lia|cbn; lia]|]). constructor.
Qed.
Lemma event_names x t print : map (fun v => fst (fst v)) (result_events x t print) = op_name x :: parts (match ti_alloc t with Some _ => true | None => false end).
Proof. unfold result_events, parts. destruct (ti_alloc t); reflexivity. Qed.
