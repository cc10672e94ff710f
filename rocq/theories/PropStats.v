(* C72: what the statistics of a session say *)
From Verif Require Import ModelBytes ProofBytes ModelKey ModelWire ModelHist ModelMsg ModelStore ModelGetOp ModelDs ModelElen ModelRoute
  SpecStore SpecRoute ModelClient SpecClient ModelFloat ModelGen ModelStats SpecStats SpecStats2 ProofStats ProofStats2 ExampleStore ExampleClient ExampleClient2 ExampleStats.
Local Open Scope N_scope.

(* Every call that succeeds is recorded once, in order, with its times, under its operation, single calls apart from bulk calls;
   refused calls are not. Missing: a single GETOP is recorded among the bulk calls; calls some of whose pairs have no datastore *)
Theorem C72_calls_partial : forall e cl l s cl' st,
  ssteps e (opened_session e) cl no_stats l = Ok (s, cl', st) -> all_placed e l ->
  let log := calls_of e (opened_session e) cl no_stats l in
  (forall k, k <> 2 -> st_single st k = times single_call k log /\ st_bulk st k = times (fun c => negb (single_call c)) k log) /\
  st_single st 2 = [] /\ st_bulk st 2 = times (fun _ => true) 2 log.
Proof. exact recorded_calls. Qed.
Print Assumptions C72_calls_partial.
Example C72_calls_example : all_placed (xe 0) sacts /\
  ssteps_run sacts = Ok [([(10, 15)%Z], [], [2; 2; 2], [2; 1; 0]); ([(20, 22)%Z; (60, 63)%Z], [], [1], [1; 0; 0]);
    ([], [(30, 31)%Z], [1], [1; 0; 0]); ([], [(50, 55)%Z], [1; 1], [1; 1; 0]); ([], [], [], [0; 0; 0])] /\
  map snd (calls_of (xe 0) (opened_session (xe 0)) (xcl InMemory) no_stats sacts) = [true; true; true; false; true; true].
Proof.
  split; [|split; vm_compute; reflexivity]. intros c t H. unfold sacts in H. cbn [In] in H.
  repeat (destruct H as [H|H]; [first [discriminate H | injection H as <- <-; repeat (constructor; [vm_compute; reflexivity|]); constructor]|]). destruct H.
Qed.

(* a single GETOP is not recorded as a single call (GETOP.cpp:39) *)
Theorem C72_getop_refuted : ~ (forall e cl l s cl' st, ssteps e (opened_session e) cl no_stats l = Ok (s, cl', st) -> all_placed e l ->
  forall k, st_single st k = times single_call k (calls_of e (opened_session e) cl no_stats l)).
Proof.
  intros H. set (l := [SCall (CGetOp (xa 1 "s") (xa 2 "p") T_BYTE 1 0) (30%Z, 31%Z)]).
  assert (X : (do _ <- ssteps (xe 0) (opened_session (xe 0)) (xcl InMemory) no_stats l; Ok tt) = Ok tt) by (vm_compute; reflexivity).
  destruct (ssteps (xe 0) (opened_session (xe 0)) (xcl InMemory) no_stats l) as [[[s cl'] st]| |] eqn:E; [clear X|discriminate X..].
  assert (P : all_placed (xe 0) l) by (intros c t [X|[]]; injection X as <- <-; repeat (constructor; [vm_compute; reflexivity|]); constructor).
  specialize (H _ _ _ _ _ _ E P 2). destruct (C72_calls_partial _ _ _ _ _ _ E P) as (_ & F & _). rewrite F in H.
  vm_compute in H. discriminate H.
Qed.
Print Assumptions C72_getop_refuted.

(* a call that fails because its pair has no datastore is recorded nevertheless (GET.cpp:31-38) *)
Theorem C72_failed_refuted : ~ (forall e cl l s cl' st, ssteps e (opened_session e) cl no_stats l = Ok (s, cl', st) ->
  forall k, k <> 2 -> st_single st k = times single_call k (calls_of e (opened_session e) cl no_stats l)).
Proof.
  intros H. set (l := [SCall (CGet (xa 1 "t") (xa 2 "p") T_BYTE) (30%Z, 31%Z)]).
  assert (E : stats_only (ssteps he (opened_session he) (xcl InMemory) no_stats l) = Ok (record (Some (Single, 1)) (30%Z, 31%Z) no_stats)) by reflexivity.
  destruct (ssteps he (opened_session he) (xcl InMemory) no_stats l) as [[[s cl'] st]| |] eqn:F; [|discriminate E..].
  specialize (H _ _ _ _ _ _ F 1 ltac:(lia)). apply Ok_inj in E. subst st. vm_compute in H. discriminate H.
Qed.
Print Assumptions C72_failed_refuted.

(* The packets that were counted hold every operation that was issued and does not wait any more, between one and the limit
   each; each was counted for one of the datastores, which got as many as its operations need *)
Theorem C72_packets : forall e cl l s cl' st k,
  ssteps e (opened_session e) cl no_stats l = Ok (s, cl', st) -> In k [0; 1; 2; 3; 5] -> packets_counted e s st l k.
Proof. exact counted. Qed.
Print Assumptions C72_packets.
Example C72_packets_example : issues sacts = [[4; 2]; [2; 0]; [1; 0]; [1; 1]; [0; 0]].
Proof. vm_compute. reflexivity. Qed.

(* The fill rates of the report. Missing: limits above 2^46 operations per packet, more than 2^53 operations *)
Theorem C72_fill_partial : forall l m, l <> [] -> Forall (fun n => 1 <= n <= m) l -> m <= 2 ^ 46 -> sumN l <= 2 ^ 53 -> fill_right l m.
Proof. exact fill_lemma. Qed.
Print Assumptions C72_fill_partial.
Example C72_fill_example : pattern (fill_avg [2; 2; 1; 2]) = 0x3FFC000000000000 /\ pattern (percent 2 (fill_avg [2; 2; 1; 2])) = 0x4055E00000000000. (* 1.75, 87.5 *)
Proof. split; vm_compute; reflexivity. Qed.

(* The durations of the report do not add up to more than the time that passed *)
Theorem C72_time : forall e cl l s cl' st t0 t1,
  ssteps e (opened_session e) cl no_stats l = Ok (s, cl', st) -> chronological t0 l t1 -> (0 <= all_times st <= t1 - t0)%Z.
Proof. intros e cl l s cl' st t0 t1 H C. exact (times_within e l _ _ _ _ _ _ _ _ H C). Qed.
Print Assumptions C72_time.
Example C72_time_example : chronological 10 sacts 63.
Proof. cbn. lia. Qed.
