(* C36-C39 for the background PUT thread *)
From Verif Require Import ModelBytes ModelKey ModelWire ModelHist ModelMsg ModelAsync SpecAsync
  ProofAsync ProofAsync2 ProofAsync3 ProofAsync4 ProofAsync5 ProofAsync6 ProofAsync7 ExampleAsync.
Local Open Scope nat_scope.

(* C36: until Close, each accepted PUT has been carried out once, or is with the thread, or is queued; PUTs to one datastore in order.
   Missing: executions with the use after free of C38 *)
Theorem C36_once_partial : forall g p s, order_ok g -> reach g p s -> v_bad s = false -> v_running s = true ->
  Permutation (v_exec s ++ v_local s ++ v_queue s) (v_acc s) /\
  forall i, at_ds i (v_acc s) = at_ds i (v_exec s) ++ at_ds i (v_local s) ++ at_ds i (v_queue s).
Proof. intros g p s Or R Hb Hr. split; [exact (once_all g p s Or R Hb Hr)|intros i; exact (once g p s i Or R Hb Hr)]. Qed.
Print Assumptions C36_once_partial.
Example C36_once_example : order_ok ag /\ exists s, reach ag ap s /\ v_bad s = false /\ v_running s = true /\ v_acc s = [aop 0 "s"].
Proof. split; [exact ag_order|]. exists (run ag (start ag ap) a_good). split; [exists a_good; reflexivity|]. vm_compute. repeat split; reflexivity. Qed.
(* also after Close nothing is carried out twice, or without having been accepted *)
Theorem C36_at_most_once_partial : forall g p s, order_ok g -> reach g p s -> v_bad s = false ->
  (exists r, Permutation (v_exec s ++ r) (v_acc s)) /\ forall i, exists r, at_ds i (v_acc s) = at_ds i (v_exec s) ++ r.
Proof. intros g p s Or R Hb. split; [exact (prefix_all g p s Or R Hb)|intros i; exact (prefix g p s i Or R Hb)]. Qed.
Print Assumptions C36_at_most_once_partial.
Example C36_at_most_once_example : order_ok ag /\ exists s, reach ag ap s /\ v_bad s = false /\ v_running s = false /\ v_exec s = [aop 0 "s"].
Proof. split; [exact ag_order|]. exists (run ag (start ag ap) a_done). split; [exists a_done; reflexivity|]. vm_compute. repeat split; reflexivity. Qed.
(* a flush returns the results of all PUTs accepted since the one before: each result is returned once *)
Theorem C36_results_partial : forall g p s s', order_ok g -> reach g p s -> v_bad s = false -> v_c s = FDone -> step_c g s = Some s' ->
  Permutation (concat (v_out s')) (v_acc s') /\ forall i, at_ds i (concat (v_out s')) = at_ds i (v_acc s').
Proof. intros g p s s' Or R Hb Hc H. split; [exact (proj2 (flushed_perm g p s s' Or R Hb Hc H))|intros i; exact (proj2 (flushed_all g p s s' i Or R Hb Hc H))]. Qed.
Print Assumptions C36_results_partial.
Example C36_results_example : order_ok ag /\ exists s s', reach ag ap s /\ v_bad s = false /\ v_c s = FDone /\ step_c ag s = Some s' /\ v_out s' = [[aop 0 "s"]].
Proof.
  split; [exact ag_order|]. exists (run ag (start ag ap) a_good). eexists. split; [exists a_good; reflexivity|]. split; [vm_compute; reflexivity|]. split; [vm_compute; reflexivity|].
  split; [vm_compute; reflexivity|reflexivity].
Qed.
(* Close forgets what is queued; it also throws away results of PUTs that have been carried out *)
Theorem C36_close_refuted : exists g p s o, order_ok g /\ reach g p s /\ v_bad s = false /\ finished s /\ v_acc s = [o] /\ v_exec s = [].
Proof.
  exists ag2, ap_close, (run ag2 (start ag2 ap_close) a_drop), (aop 0 "s"). split; [exact ag2_order|]. split; [exists a_drop; reflexivity|].
  split; [vm_compute; reflexivity|]. split; [right; vm_compute; reflexivity|]. split; vm_compute; reflexivity.
Qed.
Print Assumptions C36_close_refuted.
Theorem C36_close_results_refuted : exists g p s o, order_ok g /\ reach g p s /\ v_bad s = false /\ finished s /\ v_exec s = [o] /\ v_out s = [].
Proof.
  exists ag, ap_close, (run ag (start ag ap_close) a_lose), (aop 0 "s"). split; [exact ag_order|]. split; [exists a_lose; reflexivity|].
  split; [vm_compute; reflexivity|]. split; [right; vm_compute; reflexivity|]. split; vm_compute; reflexivity.
Qed.
Print Assumptions C36_close_results_refuted.

(* C37: when FlushPuts returns, all accepted PUTs have been carried out. Missing: executions with the use after free of C38 *)
Theorem C37_flush_waits_partial : forall g p s s', order_ok g -> reach g p s -> v_bad s = false -> v_c s = FDone -> step_c g s = Some s' ->
  Permutation (v_exec s') (v_acc s') /\ forall i, at_ds i (v_exec s') = at_ds i (v_acc s').
Proof. intros g p s s' Or R Hb Hc H. split; [exact (proj1 (flushed_perm g p s s' Or R Hb Hc H))|intros i; exact (proj1 (flushed_all g p s s' i Or R Hb Hc H))]. Qed.
Print Assumptions C37_flush_waits_partial.
Example C37_flush_waits_example : order_ok ag /\ exists s s', reach ag ap s /\ v_bad s = false /\ v_c s = FDone /\ step_c ag s = Some s' /\ v_acc s' = [aop 0 "s"].
Proof.
  split; [exact ag_order|]. exists (run ag (start ag ap) a_good). eexists. split; [exists a_good; reflexivity|]. split; [vm_compute; reflexivity|]. split; [vm_compute; reflexivity|].
  split; [vm_compute; reflexivity|reflexivity].
Qed.
(* every execution ends: the number of steps is bounded, apart from two for each wake-up out of the blue *)
Theorem C37_terminates : forall g p n w s, order_ok g -> 1 <= g_max g -> steps g n w (start g p) s -> n <= work p + 2 * w.
Proof. exact terminates. Qed.
Print Assumptions C37_terminates.
(* and if neither thread can go on, the client has carried out all commands: no deadlock, no wake-up that was missed *)
Theorem C37_no_deadlock : forall g p n w s, order_ok g -> steps g n w (start g p) s -> step_c g s = None -> step_t g s = None -> v_bad s = true \/ finished s.
Proof. exact ends. Qed.
Print Assumptions C37_no_deadlock.
Example C37_steps_example : order_ok ag4 /\ 1 <= g_max ag4 /\ exists n w s, steps ag4 n w (start ag4 ap4) s /\ step_c ag4 s = None /\ step_t ag4 s = None.
Proof. exact ap4_steps. Qed.

(* C38: the two threads use the results at the same time, and the thread appends to results that have been freed *)
Theorem C38_race_refuted : exists g p s, order_ok g /\ g_rs g = g_total g /\ in_range g p /\ reach g p s /\ v_bad s = false /\ racing s.
Proof.
  exists ag, ap, (run ag (start ag ap) a_race). split; [exact ag_order|]. split; [reflexivity|]. split; [exact ap_range|]. split; [exists a_race; reflexivity|].
  split; [exact (proj2 a_race_racing)|exact (proj1 a_race_racing)].
Qed.
Print Assumptions C38_race_refuted.
Theorem C38_use_after_free_refuted : exists g p s, order_ok g /\ g_rs g = g_total g /\ in_range g p /\ reach g p s /\ v_bad s = true.
Proof.
  exists ag, ap, (run ag (start ag ap) a_bad). split; [exact ag_order|]. split; [reflexivity|]. split; [exact ap_range|]. split; [exists a_bad; reflexivity|exact a_bad_bad].
Qed.
Print Assumptions C38_use_after_free_refuted.
(* no race and no undefined behaviour as long as the thread is not started by the number of queued PUTs. Missing: what the refutations show *)
Theorem C38_flushed_only_partial : forall g p s, order_ok g -> g_rs g = g_total g -> below g 0 p -> in_range g p -> reach g p s -> v_bad s = false /\ ~ racing s.
Proof. exact below_safe. Qed.
Print Assumptions C38_flushed_only_partial.
Example C38_flushed_only_example : order_ok ag4 /\ g_rs ag4 = g_total ag4 /\ below ag4 0 ap4 /\ in_range ag4 ap4 /\
  exists s, reach ag4 ap4 s /\ v_out s = [[aop 1 "t"; aop 0 "s"]; [aop 1 "u"]].
Proof.
  split; [exact ag4_order|]. split; [reflexivity|]. split; [exact (proj1 ap4_below)|]. split; [exact (proj2 ap4_below)|].
  exists (run ag4 (start ag4 ap4) (weave 200)). split; [exists (weave 200); reflexivity|vm_compute; reflexivity].
Qed.
(* in every program: a thread that races has nothing to store *)
Theorem C38_race_empty_partial : forall g p s, order_ok g -> reach g p s -> v_bad s = false -> racing s -> v_tres s = [].
Proof. exact race_empty. Qed.
Print Assumptions C38_race_empty_partial.
Example C38_race_empty_example : order_ok ag /\ exists s, reach ag ap s /\ v_bad s = false /\ racing s.
Proof. split; [exact ag_order|]. exists (run ag (start ag ap) a_race). split; [exists a_race; reflexivity|]. split; [exact (proj2 a_race_racing)|exact (proj1 a_race_racing)]. Qed.

(* C39: with the background thread there is a queue for each range server: a PUT is undefined iff it is for a datastore beyond *)
Theorem C39_background_partial : forall g p s l, order_ok g -> reach g p s -> v_bad s = false -> v_c s = CPutDo l ->
  exists s', step_c g s = Some s' /\ (v_bad s' = true <-> exists o, In o l /\ g_rs g <= o_ds o).
Proof. exact put_ub. Qed.
Print Assumptions C39_background_partial.
Example C39_background_example : order_ok ag3 /\ exists s, reach ag3 ap_two s /\ v_bad s = false /\ v_c s = CPutDo [aop 1 "s"].
Proof. split; [exact ag3_order|]. exists (run ag3 (start ag3 ap_two) a_put). split; [exists a_put; reflexivity|]. split; [exact (proj2 a_put_run)|exact (proj1 a_put_run)]. Qed.
(* two datastores on one range server: a PUT to the second is undefined *)
Theorem C39_background_refuted : exists g p s, order_ok g /\ in_range g p /\ reach g p s /\ v_bad s = true.
Proof. exists ag3, ap_two, (run ag3 (start ag3 ap_two) (a_put ++ cs 1)). split; [exact ag3_order|]. split; [exact ap_two_range|]. split; [eexists; reflexivity|exact a_put_bad]. Qed.
Print Assumptions C39_background_refuted.
