(* Claims about the life of a session: C61 to C64 *)
From Verif Require Import ModelBytes ModelElen ModelRoute SpecRoute ModelLife SpecLife ProofLife ProofLife2 ProofLife3 ProofLife4 ExampleLife.
Local Open Scope Z_scope.

(* C61. When nothing outside prevents it, Init and Open give a session with all queues, all ranks and the datastores of this rank. *)
Theorem C61_open : forall o k, healthy o k -> exists p t,
  do_calls o [CInit true k; COpen] (Hx None) = Ok ([HXHIM_SUCCESS; HXHIM_SUCCESS], Hx (Some p), t) /\ ready o k p.
Proof. intros o k H. destruct (open_healthy o k H) as (p & t & E & R & _). exists p, t. split; [exact E|exact R]. Qed.
Print Assumptions C61_open.
Example C61_open_example : healthy up0 k1 /\ healthy up1 k1 /\ hosted (world up1 k1) (o_rank up1) = [1].
Proof. split; [exact healthy_up0|]. split; [exact healthy_up1|reflexivity]. Qed.

(* A transport that cannot be set up is reported. Missing: datastores (false, C61_success_refuted), background PUTs (false, C61_terminate_refuted). *)
Theorem C61_fails_partial : forall o k, fits o k -> k_async k = 0 -> ~ broken o k -> ~ connects o k -> exists rc t,
  do_calls o [CInit true k; COpen] (Hx None) = Ok ([HXHIM_SUCCESS; rc], Hx None, t) /\ rc <> HXHIM_SUCCESS.
Proof. intros o k F A B C. destruct (proj2 (open_fails o k F A) B C) as (t & E). exists (open_rc ETransport), t. split; [exact E|discriminate]. Qed.
Print Assumptions C61_fails_partial.
Example C61_fails_partial_example : fits off1 k1 /\ k_async k1 = 0 /\ ~ broken off1 k1 /\ ~ connects off1 k1.
Proof.
  split; [exact fits_off1|]. split; [reflexivity|]. split; [|exact (proj2 not_connected)].
  intros (_ & id & _ & X). discriminate X.
Qed.

(* HXHIM_OPEN_ERROR_DATASTORE is the number HXHIM_SUCCESS: a datastore that cannot be opened is reported as success, without a session. *)
Theorem C61_success_refuted : forall o k, fits o k -> k_async k = 0 -> broken o k -> exists t,
  do_calls o [CInit true k; COpen] (Hx None) = Ok ([HXHIM_SUCCESS; HXHIM_SUCCESS], Hx None, t).
Proof. intros o k F A B. exact (proj1 (open_fails o k F A) B). Qed.
Print Assumptions C61_success_refuted.
(* With background PUTs a failure of Open ends in joining a thread that was never started. *)
Theorem C61_terminate_refuted : forall o k, fits o k -> k_async k <> 0 -> ~ connects o k \/ broken o k ->
  do_calls o [CInit true k; COpen] (Hx None) = Throw.
Proof. exact open_throws. Qed.
Print Assumptions C61_terminate_refuted.
Example C61_refuted_example : (fits bad1 k1 /\ k_async k1 = 0 /\ broken bad1 k1) /\ fits bad1 k1a /\ k_async k1a <> 0 /\ broken bad1 k1a.
Proof. split; [split; [exact fits_bad1|split; [reflexivity|exact (proj1 broken_bad1)]]|]. split; [exact fits_bad1a|]. split; [discriminate|exact (proj2 broken_bad1)]. Qed.
(* Init without a communicator closes the session, which waits for the other ranks of no communicator. *)
Theorem C61_null_comm_refuted : forall k p, init false k (Hx p) = Throw.
Proof. exact null_comm. Qed.
Print Assumptions C61_null_comm_refuted.
(* OpenOne releases the configuration of the datastores and then reads it. *)
Theorem C61_open_one_refuted : forall o k, 0 <= o_rank o -> o_size o = 1 -> do_calls o [CInit true k; COpenOne] (Hx None) = UB.
Proof. intros o k Hr Hs. cbn [do_calls do_call init obind fst snd]. rewrite open_one_ub; [reflexivity|reflexivity|reflexivity|exact Hr|exact Hs]. Qed.
Print Assumptions C61_open_one_refuted.
Example C61_open_one_refuted_example : 0 <= o_rank alone /\ o_size alone = 1.
Proof. split; [discriminate|reflexivity]. Qed.

(* C62. After any calls in an order that makes sense nothing has been released twice, and if the session is closed, nothing is left.
   Missing: two datastores on one other rank (false, C62_leak_refuted). *)
Theorem C62_memory_partial : forall o l rs h t, orderly (apart o) o l (Hx None) -> do_calls o l (Hx None) = Ok (rs, h, t) ->
  exists live, replay t [] = Some live /\ (h = Hx None -> live = []).
Proof. exact memory. Qed.
Print Assumptions C62_memory_partial.
(* A session that is opened, used and closed gets through, every call succeeds and everything is released. *)
Theorem C62_session_partial : forall o k l, healthy o k -> apart o k -> k_transport k <> TrNull \/ o_size o = 1 -> Forall (work o k) l ->
  exists t, do_calls o (CInit true k :: COpen :: l ++ [CClose]) (Hx None) = Ok (repeat HXHIM_SUCCESS (length l + 3), Hx None, t) /\ released t.
Proof. exact session. Qed.
Print Assumptions C62_session_partial.
Example C62_example : healthy up0 k1 /\ apart up0 k1 /\ k_transport k1 <> TrNull /\ Forall (work up0 k1) some_work.
Proof. split; [exact healthy_up0|]. split; [split; [exact fits_up0|left; reflexivity]|]. split; [discriminate|exact some_work_ok]. Qed.
Theorem C62_leak_refuted : exists o l rs t, orderly (fits o) o l (Hx None) /\ do_calls o l (Hx None) = Ok (rs, Hx None, t) /\ replay t [] = Some [OPacket 0].
Proof. exact leak_refuted. Qed.
Print Assumptions C62_leak_refuted.

(* C63. Calls on a session that is not open return an error and change nothing. Missing: Open, OpenOne, Flush and hxhim_results_destroy (false). *)
Theorem C63_rejected_partial : forall o h, started h = false ->
  (forall q id new, do_call o (CEnqueue q id new) h = Ok (HXHIM_ERROR, h, [])) /\ do_call o CSync h = Ok (HXHIM_ERROR, h, [])
  /\ do_call o CChange h = Ok (HXHIM_ERROR, h, []) /\ do_call o CAccessor h = Ok (HXHIM_ERROR, h, [])
  /\ ((h = HNull \/ h = Hx None) -> do_call o CClose h = Ok (HXHIM_ERROR, h, []) /\ forall f, do_call o (CSetOption f) h = Ok (HXHIM_ERROR, h, [])).
Proof. exact rejected. Qed.
Print Assumptions C63_rejected_partial.
(* An open session cannot be opened or configured again. *)
Theorem C63_running : forall o h, started h = true ->
  do_call o COpen h = Ok (HXHIM_ERROR, h, []) /\ do_call o COpenOne h = Ok (HXHIM_ERROR, h, []) /\ forall f, do_call o (CSetOption f) h = Ok (HXHIM_ERROR, h, []).
Proof. exact running_rejects. Qed.
Print Assumptions C63_running.
Theorem C63_undefined_refuted : forall o h, h = HNull \/ h = Hx None ->
  do_call o COpen h = UB /\ do_call o COpenOne h = UB /\ do_call o CFlush h = UB /\ do_call o CResultsDestroy h = UB.
Proof. exact undefined. Qed.
Print Assumptions C63_undefined_refuted.
Example C63_example : started (Hx None) = false /\ started (Hx (Some (fresh true k1 true))) = false
  /\ started (Hx (Some (st up0 k1 [Some 0] true (st_queues up0 k1) (st_ranks up0 k1) false))) = true.
Proof. split; [reflexivity|]. split; reflexivity. Qed.

(* C64. Ranks whose calls agree, except for those that are local, make the same collective calls in the same order.
   Missing: a rank on which Open fails (false, C64_refuted). *)
Theorem C64_collectives_partial : forall (P : conf -> Prop) o1 o2 l1 l2 r1 h1 t1 r2 h2 t2,
  (forall k, P k -> healthy o1 k /\ healthy o2 k) -> shared l1 = shared l2 ->
  orderly P o1 l1 (Hx None) -> orderly P o2 l2 (Hx None) ->
  do_calls o1 l1 (Hx None) = Ok (r1, h1, t1) -> do_calls o2 l2 (Hx None) = Ok (r2, h2, t2) -> collectives t1 = collectives t2.
Proof. exact same_collectives. Qed.
Print Assumptions C64_collectives_partial.
Example C64_example : (forall k, k = k1 -> healthy up0 k /\ healthy up1 k)
  /\ shared (CInit true k1 :: COpen :: some_work ++ [CClose]) = shared [CInit true k1; COpen; CFlush; CSync; CClose]
  /\ exists r0 t0 r1 t1, do_calls up0 (CInit true k1 :: COpen :: some_work ++ [CClose]) (Hx None) = Ok (r0, Hx None, t0)
     /\ do_calls up1 [CInit true k1; COpen; CFlush; CSync; CClose] (Hx None) = Ok (r1, Hx None, t1)
     /\ collectives t0 = [AllReduce; AllGather; Barrier; Barrier; Barrier].
Proof.
  split; [intros k ->; split; [exact healthy_up0|exact healthy_up1]|]. split; [reflexivity|]. do 4 eexists.
  split; [vm_compute; reflexivity|]. split; [vm_compute; reflexivity|]. vm_compute. reflexivity.
Qed.
(* If a datastore of one rank cannot be opened, the others wait in a collective call that it does not make. *)
Theorem C64_refuted : exists o1 o2 k l r1 h1 t1 r2 h2 t2, fits o1 k /\ fits o2 k /\ o_size o1 = o_size o2
  /\ do_calls o1 l (Hx None) = Ok (r1, h1, t1) /\ do_calls o2 l (Hx None) = Ok (r2, h2, t2)
  /\ collectives t1 = [AllReduce; AllGather; Barrier] /\ collectives t2 = [Barrier; Barrier].
Proof. exact diverge_refuted. Qed.
Print Assumptions C64_refuted.
