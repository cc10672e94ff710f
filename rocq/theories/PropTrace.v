(* C77: the trace of a session; HaveHistogram *)
From Verif Require Import ModelBytes ProofBytes ModelKey ModelWire ModelHist ModelMsg SpecMsg ModelStore ModelGetOp ModelDs SpecStore ModelElen ModelRoute SpecRoute
  ModelClient SpecClient SpecCluster ExampleClient ModelStats ModelDsStats ModelTimes SpecTimes ExampleTimes ModelTrace SpecTrace ProofTrace3 ProofTrace4 ExampleTrace.
Local Open Scope Z_scope.

(* Lines are read back: rank, name, start and end exactly, the duration within one part in 10^5 *)
Theorem C77_lines : forall rank epoch l, Forall (after epoch) l -> records rank epoch (flat_map (line rank epoch) l) l.
Proof. exact lines_told. Qed.
Print Assumptions C77_lines.
Example C77_lines_example : Forall (after 500) [tv1; tv2] /\ flat_map (line 3 500) [tv1; tv2] = bstr "3 Hash 500 750 2.5e-07
3 Result 1500 1234568500 1.23457
"%string.
Proof. split; [exact tv_after|exact tv_text]. Qed.

(* What is printed while a session is open is handed out once and in order; the rest is logged by Close.
   Missing: asking for the buffer when it is empty (C77_buffer_refuted) *)
Theorem C77_buffer_partial : forall rank epoch before l st, careful false l ->
  tc_run rank epoch (tc_opened (mkOut true before)) l = Ok st -> complete rank epoch before st l.
Proof.
  intros rank epoch before l st C R. pose proof (run_complete rank epoch l (tc_opened (mkOut true before)) st false) as K.
  cbn [tc_opened tc_buf tc_out o_text] in K. rewrite app_nil_r in K. apply K; try reflexivity; [discriminate|exact C|exact R].
Qed.
Print Assumptions C77_buffer_partial.
Example C77_buffer_example : careful false tlife /\ exists st, tc_run 3 500 (tc_opened (mkOut true [])) tlife = Ok st /\
  o_text (tc_out st) = flat_map (line 3 500) [tv1; tv2; tv2] /\ tc_log st = line 3 500 tv1.
Proof. split; [cbn; auto|exact tlife_run]. Qed.
(* a buffer that was empty when asked for: the stream fails, and everything printed afterwards is lost *)
Theorem C77_buffer_refuted : exists rank epoch l st, Forall (after epoch) (flat_map printed l) /\ flat_map printed l <> [] /\
  tc_run rank epoch (tc_opened (mkOut true [])) l = Ok st /\ o_text (tc_out st) = [] /\ tc_buf st = [] /\ tc_log st = [] /\ o_good (tc_out st) = false.
Proof. exact asked_empty. Qed.
Print Assumptions C77_buffer_refuted.

(* Calls succeed until Close; afterwards they are refused and change nothing. (Destroying a result then: C77_closed_refuted.) *)
Theorem C77_until_closed : forall rank epoch o l st a st' b, tc_run rank epoch (tc_opened o) l = Ok st -> tc_step rank epoch st a = Ok (st', b) ->
  (b = true <-> ~ In TClose l) /\ (b = false -> st' = st).
Proof.
  intros rank epoch o l st a st' b R E. destruct (step_up _ _ _ _ _ _ E) as (E1 & _ & E3). rewrite <- E1 at 1.
  split; [exact (run_up rank epoch l (tc_opened o) st R eq_refl)|exact E3].
Qed.
Print Assumptions C77_until_closed.
Example C77_until_closed_example : exists st, tc_run 3 500 (tc_opened (mkOut true [])) tlife = Ok st /\ In TClose tlife /\ tc_step 3 500 st TGet = Ok (st, false).
Proof. eexists. split; [vm_compute; reflexivity|]. split; [unfold tlife; cbn [In]; tauto|reflexivity]. Qed.

(* The results of a session (C74) print what happened to the operations they answer.
   Missing: operations that stay on the rank of the client, the first lines of which are wrong (C77_local_refuted), the other
   results of a GETOP (C77_records_refuted), and those of Sync (C74_sync_refuted) *)
Theorem C77_results_partial : forall e T epoch cl k l qs w evs xs, setting e -> steady T -> epoch <= T 0%nat ->
  t_run e T (t_opened e) (mkWorld cl k []) l = Ok (qs, w, evs, xs) -> Forall body_ok (w_wire w) ->
  exists gs lost, filter (fun x => negb (of_sync x)) xs = concat (map snd gs) /\ Permutation evs (map fst gs ++ lost) /\
    Forall (fun g => exists x t rest, snd g = (x, t) :: rest /\
      if far e (ev_id (fst g)) then traced T epoch (fst g) x t else traced_late T epoch (fst g) x t) gs.
Proof. exact session_traced. Qed.
Print Assumptions C77_results_partial.
Example C77_results_example : setting (xe 0) /\ steady ticks /\ 90 <= ticks 0%nat /\ Forall body_ok twire /\
  (exists qs w, t_run (xe 0) ticks (t_opened (xe 0)) (tstart InMemory) tacts = Ok (qs, w, tevents, tresults) /\ w_wire w = twire) /\
  match tresults with
  | (x, t) :: _ => exists st, tc_run 0 90 (tc_opened (mkOut true [])) [TResult x t (300, 307); TGet] = Ok st /\
      firstn 2 (map (option_map (fun r => fst r)) (read_trace (o_text (tc_out st)))) =
        [Some (0, bstr "HXHIM_PUT"%string, 20%N, 53%N); Some (0, bstr "Hash"%string, 20%N, 21%N)]
  | [] => False end.
Proof.
  split; [apply xe_setting; lia|]. split; [exact ticks_steady|]. split; [discriminate|]. split; [exact twire_ok|]. split; [exact tacts_run|exact first_told].
Qed.
(* the second record of a GETOP prints numbers near 2^64 *)
Theorem C77_records_refuted : exists e T cl l qs w evs xs x t, setting e /\ steady T /\
  t_run e T (t_opened e) (mkWorld cl 0 []) l = Ok (qs, w, evs, xs) /\ Forall body_ok (w_wire w) /\ In (x, t) xs /\ of_sync (x, t) = false /\ far e (from x) = true /\
  forall rank epoch print st, 0 < epoch < 2 ^ 64 -> tc_run rank epoch (tc_opened (mkOut true [])) [TResult x t print; TGet] = Ok st ->
    In (wrapped rank epoch "Hash") (read_trace (o_text (tc_out st))).
Proof. exact second_wrapped. Qed.
Print Assumptions C77_records_refuted.
(* so does a PUT on the rank of the client *)
Theorem C77_local_refuted : exists e T cl l qs w evs xs s p x t, setting e /\ steady T /\
  t_run e T (t_opened e) (mkWorld cl 0 []) l = Ok (qs, w, evs, xs) /\ Forall body_ok (w_wire w) /\
  x = XPut 0 true (arg_ref s) (arg_ref p) /\ In (x, t) xs /\ far e 0 = false /\
  forall rank epoch print st, 0 < epoch < 2 ^ 64 -> tc_run rank epoch (tc_opened (mkOut true [])) [TResult x t print; TGet] = Ok st ->
    In (wrapped rank epoch "Hash") (read_trace (o_text (tc_out st))).
Proof. exact near_wrapped. Qed.
Print Assumptions C77_local_refuted.

(* a result that is destroyed after Close reads the session that is gone *)
Theorem C77_closed_refuted : forall rank epoch o x t print l, tc_run rank epoch (tc_opened o) (TClose :: TResult x t print :: l) = UB.
Proof. exact kept_result. Qed.
Print Assumptions C77_closed_refuted.

(* GetEpoch: seconds and nanoseconds of a time after the epoch of the clock *)
Theorem C77_epoch : forall ns, 0 <= ns -> let '(s, n) := get_epoch ns in s * 10 ^ 9 + n = ns /\ 0 <= n < 10 ^ 9 /\ 0 <= s.
Proof.
  intros ns H. unfold get_epoch. pose proof (Z.quot_rem' ns 1000000000) as E. pose proof (Z.rem_bound_pos ns 1000000000 H eq_refl) as B.
  pose proof (Z.quot_pos ns 1000000000 H eq_refl) as Q. split; [lia|]. split; [exact B|exact Q].
Qed.
Print Assumptions C77_epoch.
Example C77_epoch_example : get_epoch 12345678901 = (12, 345678901).
Proof. reflexivity. Qed.

(* HaveHistogram says whether a name is among the names of the histograms of a session *)
Theorem C52_have : forall names b len r, have_histogram true names (Some b) len true = Ok (Some r) ->
  (r = true <-> In (firstn (N.to_nat len) b) names).
Proof.
  intros names b len r H. unfold have_histogram in H. cbn [andb negb] in H. destruct (blen b <? len)%N; [discriminate H|]. injection H as <-.
  rewrite existsb_exists. split.
  - intros (n & I & E). apply beqb_true in E. subst n. exact I.
  - intros I. exists (firstn (N.to_nat len) b). split; [exact I|apply beqb_refl].
Qed.
Print Assumptions C52_have.
Example C52_have_example : have_histogram true [bstr "a"%string; bstr "bc"%string] (Some (bstr "bcd"%string)) 2 true = Ok (Some true) /\
  have_histogram true [bstr "a"%string; bstr "bc"%string] (Some (bstr "bcd"%string)) 3 true = Ok (Some false).
Proof. split; reflexivity. Qed.
(* a null pointer with a length throws out of the C API *)
Theorem C52_have_refuted : exists names len, have_histogram true names None len true = Throw.
Proof. exists [], 1%N. reflexivity. Qed.
Print Assumptions C52_have_refuted.
