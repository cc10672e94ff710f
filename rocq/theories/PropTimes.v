(* C74: the times of results *)
From Verif Require Import ModelBytes ProofBytes ModelKey ModelWire ModelHist ModelMsg SpecMsg ModelStore ModelGetOp ModelDs
  SpecStore ModelElen ModelRoute SpecRoute ExampleStore ModelClient SpecClient SpecCluster ExampleClient ModelTimes SpecTimes
  ProofTimes ProofTimes3 ProofTimes5 ExampleTimes.
Local Open Scope N_scope.

(* The results of a session come in groups, one for an operation, and no operation has two groups. The first result of a group
   has the readings of the clock that were taken while the operation was queued, and its times are in order.
   Missing: operations that stay on the rank of the client lose the times of the hash function and of the insertion
   (C74_local_refuted); the other results of a GETOP have no times (C74_records_refuted); those of Sync (C74_sync_refuted) *)
Theorem C74_times_partial : forall e T cl k l qs w evs xs, setting e -> steady T ->
  t_run e T (t_opened e) (mkWorld cl k []) l = Ok (qs, w, evs, xs) -> Forall body_ok (w_wire w) ->
  exists gs lost, filter (fun x => negb (of_sync x)) xs = concat (map snd gs) /\ Permutation evs (map fst gs ++ lost) /\
    Forall (fun g => accounted e T (fst g) (snd g)) gs.
Proof. intros e T cl k l qs w evs xs HS HT R W. exact (run_ok e HS T HT l _ (mkWorld cl k []) _ _ _ _ [] (opened_inv e T k) R W). Qed.
Print Assumptions C74_times_partial.
Example C74_times_example : setting (xe 0) /\ steady ticks /\ Forall body_ok twire /\
  (exists qs w, t_run (xe 0) ticks (t_opened (xe 0)) (tstart InMemory) tacts = Ok (qs, w, tevents, tresults) /\ w_wire w = twire) /\
  map (fun ev => (ev_id ev, ev_before ev, ev_after ev)) tevents =
    [(0%Z, 0, 6); (0%Z, 6, 10); (1%Z, 10, 16); (0%Z, 16, 22); (1%Z, 22, 26); (0%Z, 26, 32); (1%Z, 75, 81)]%nat /\
  map (fun x => fst (sn_hash (ti_send (snd x)))) tresults = [110; 122; 0; 0; 0; 0; 175; 0; 193]%Z /\
  map (fun x => ti_alloc (snd x)) tresults =
    [Some (113, 114); None; Some (103, 104); None; Some (119, 120); Some (129, 130); Some (178, 179); None; None]%Z.
Proof. split; [apply xe_setting; lia|]. split; [exact ticks_steady|]. split; [exact twire_ok|]. split; [exact tacts_run|]. repeat split. Qed.

(* Times change nothing else: operations, Flush and Sync are those of the client without times *)
Theorem C74_times_change_nothing : forall e T, (forall x, Permutation (e_iter e x) x) ->
  (forall k qs o qs' k' b, t_op e T k qs o = Ok (qs', k', b) -> queue_op e (bare_queues qs) o = Ok (bare_queues qs', b)) /\
  (forall qs w qs' w' xs up n kept, t_flush e T qs w = Ok (qs', w', xs) ->
     flush e (mkSession up (bare_queues qs) n kept) (w_cl w) = Ok (mkSession up (bare_queues qs') 0 kept, w_cl w', map fst xs)) /\
  (forall offs w w' xs, t_sync_local e T w offs = Ok (w', xs) -> sync_local e (w_cl w) offs = Ok (w_cl w', map fst xs)).
Proof.
  intros e T HI. split; [intros; eapply op_bare; eassumption|]. split; [intros; eapply flush_bare; eassumption|].
  intros offs w w' xs H. exact (proj1 (proj2 (sync_bare e T offs w w' xs H))).
Qed.
Print Assumptions C74_times_change_nothing.
(* its hypotheses: C74_times_example *)

(* results of a GETOP after the first have no times *)
Theorem C74_records_refuted : exists e T cl l qs w evs xs x, setting e /\ steady T /\
  t_run e T (t_opened e) (mkWorld cl 0 []) l = Ok (qs, w, evs, xs) /\ Forall body_ok (w_wire w) /\
  In x xs /\ of_sync x = false /\ far e (from (fst x)) = true /\ forall ev, In ev evs -> ti_send (snd x) <> event_send T ev.
Proof. exact second_record. Qed.
Print Assumptions C74_records_refuted.
(* the result of a PUT on the rank of the client does not say when it was hashed and queued *)
Theorem C74_local_refuted : exists e T cl l qs w evs xs s p x, setting e /\ steady T /\
  t_run e T (t_opened e) (mkWorld cl 0 []) l = Ok (qs, w, evs, xs) /\ Forall body_ok (w_wire w) /\
  fst x = XPut 0 true (arg_ref s) (arg_ref p) /\ In x xs /\ far e 0 = false /\ forall ev, In ev evs -> ti_send (snd x) <> event_send T ev.
Proof. exact near_result. Qed.
Print Assumptions C74_local_refuted.

(* the times of results of Sync are never in order *)
Theorem C74_sync_refuted : forall e T, (forall i, 0 < T i)%Z -> (forall i j, (i < j)%nat -> (T i < T j)%Z) ->
  forall offs w w' xs, t_sync_local e T w offs = Ok (w', xs) ->
  Forall (fun x => ~ ascending (moments (snd x)) /\ (snd (tr_unpack (ti_trip (snd x))) < tr_start (ti_trip (snd x)))%Z /\
    tr_cleanup (ti_trip (snd x)) = no_stamp) xs.
Proof. exact sync_times. Qed.
Print Assumptions C74_sync_refuted.
Example C74_sync_example :
  (do (w, xs) <- t_sync_local (xe 0) ticks (tstart InMemory) (upto 1); Ok (w_now w, map (fun x => tr_start (ti_trip (snd x))) xs)) = Ok (14%nat, [110%Z]).
Proof. exact tsync_example. Qed.
