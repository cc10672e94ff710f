(* C85: calls and flushes of several clients in any order *)
From Verif Require Import ModelBytes ProofBytes ModelKey ModelWire ModelHist ModelMsg SpecMsg ModelStore ModelGetOp ModelDs
  SpecStore ProofDs ModelElen ModelRoute SpecRoute ModelClient SpecClient SpecCluster ExampleStore ExampleClient
  SpecGetOp SpecScan SpecMixed SpecMixed2 ProofMixed ProofMixed2 ExampleMixed SpecTyped ExampleTyped SpecMixed3 ProofMixed3 ProofMixed4 ProofHx2 ExampleHx SpecStore.
Local Open Scope N_scope.

(* Any number of clients; every one calls, and flushes all of its operations or those of one kind, whenever it likes. Operations wait, and
   take effect on the one map when they are flushed: each flush returns the results of what waited and was asked for, and of nothing else.
   Missing: flushes that use two datastores of the same other rank (C33), and the requests excluded by scannable (C76) *)
Theorem C85_moves_partial : forall E k c e0 S cl l,
  (forall i, In i (map fst l) -> good_client (E i) /\ same_cluster e0 (E i) /\ fresh (E i) (S i)) ->
  holds e0 cl (fun _ => opened k c) -> moves_fine E k c no_triples (fun _ => idle) l ->
  exists cl' rs, moves E S cl l = Ok (cl', rs) /\ moves_seen E k c no_triples (fun _ => idle) l rs.
Proof. exact cluster_moves. Qed.
Print Assumptions C85_moves_partial.
Example C85_example : forall k,
  (forall i, In i (map fst mixed) -> good_client (xe i) /\ same_cluster (xe 0) (xe i) /\ fresh (xe i) (opened_session (xe i))) /\
  holds (xe 0) (xcl k) (fun _ => opened k ex_codec) /\ moves_fine xe k ex_codec no_triples (fun _ => idle) mixed /\
  rerun k mixed = Ok
    [[XGet 1 false (xr 1) (xr 2) blob_none]; [XPut 1 true (xr 1) (xr 2)]; [XGet 1 true (xr 1) (xr 2) (xb_of "c")];
     [XGetOp 1 true (xb_of "a") (xb_of "b") (xb_of "c")]; [XDel 1 true (xr 1) (xr 2)]; [XGet 1 false (xr 1) (xr 2) blob_none]; []].
Proof. intro k. split; [exact mixed_clients|]. split; [apply xcl_holds|]. split; [apply mixed_fine|apply mixed_run]. Qed.

(* With one datastore on every range server, and without GETOPs, nothing has to be assumed of the order. *)
Theorem C85_one_each : forall E k c e0 S cl l,
  (forall i, In i (map fst l) -> good_client (E i) /\ same_cluster e0 (E i) /\ fresh (E i) (S i)) -> l_per (e_layout e0) = 1%Z ->
  holds e0 cl (fun _ => opened k c) -> Forall (data_move c) l ->
  exists cl' rs, moves E S cl l = Ok (cl', rs) /\ moves_seen E k c no_triples (fun _ => idle) l rs.
Proof. exact moves_per_one. Qed.
Print Assumptions C85_one_each.
Example C85_one_each_example : l_per (e_layout (xe 0)) = 1%Z /\ Forall (data_move ex_codec) own.
Proof.
  split; [reflexivity|]. constructor; [cbn [data_move snd data_call]; xargs|]. constructor; [cbn [data_move snd data_call ab_get]; xargs; reflexivity|].
  constructor; [exact Logic.I|]. constructor; [exact Logic.I|constructor].
Qed.

(* Calls and then Flush, with nothing waiting, are a turn of C35 and C76. *)
Theorem C85_turns : forall e k c M cs ys, let w := fold_left (wait e) cs idle in
  fold_left without (pieces None) w = idle /\ left_all e k M w (pieces None) = fst (batch e k M cs) /\
  (give e k c M w (pieces None) ys -> exists gs, Forall2 (scan_result e c (seen_by_scans e M cs)) (flat_map call_getops cs) gs /\ Permutation ys (snd (batch e k M cs) ++ concat gs)).
Proof. exact turn_is_batch. Qed.
Print Assumptions C85_turns.
Example C85_turns_example : exists ys, give (xe 0) InMemory ex_codec no_triples (fold_left (wait (xe 0)) [CPut (xa 1 "a") (xa 2 "b") (xa 3 "c") 1; CGet (xa 1 "a") (xa 2 "b") T_BYTE] idle) (pieces None) ys /\ List.length ys = 2%nat.
Proof. exact one_turn. Qed.

(* A GET after the PUT of the same pair does not see it if only GETs are flushed. *)
Theorem C85_own_put_refuted : forall k, own = [(0, Say (CPut (xa 1 "a") (xa 2 "b") (xa 3 "c") 1)); (0, Say (CGet (xa 1 "a") (xa 2 "b") T_BYTE)); (0, Send (Some Gets)); (0, Send None)]%Z /\
  rerun k own = Ok [[XGet 1 false (xr 1) (xr 2) blob_none]; [XPut 1 true (xr 1) (xr 2)]].
Proof. intro k. split; [reflexivity|apply own_run]. Qed.
Print Assumptions C85_own_put_refuted.

(* Objects need not come back as they were stored: what clients see is the map of what the callbacks make of them.
   Missing: flushes that use two datastores of the same other rank (C33), GETOPs, and objects in keys that do not come back as they were *)
Theorem C85_objects_partial : forall E k c e0 S cl l,
  (forall i, In i (map fst l) -> good_client (E i) /\ same_cluster e0 (E i) /\ fresh (E i) (S i)) ->
  holds e0 cl (fun _ => opened k c) -> Forall (obj_move c) l -> moves_apart E (fun _ => idle) l ->
  exists cl' rs, moves E S cl l = Ok (cl', rs) /\ moves_seen E k c no_triples (fun _ => idle) (map (kept_move c) l) rs.
Proof. exact cluster_moves2. Qed.
Print Assumptions C85_objects_partial.
Example C85_objects_example : forall k, (forall i, In i (map fst hl) -> good_client (xe i) /\ same_cluster (xe 0) (xe i) /\ fresh (xe i) (opened_session (xe i))) /\
  holds (xe 0) (ncl k) (fun _ => opened k ncodec) /\ Forall (obj_move ncodec) hl /\ moves_apart xe (fun _ => idle) hl.
Proof. intro k. split; [exact hl_clients|]. split; [apply ncl_holds|]. split; [exact hl_objects|exact hl_apart]. Qed.

(* A client that asks only for pairs which no other client changes sees what it would see alone. *)
Theorem C85_alone : forall K E k c i l rs, moves_seen E k c no_triples (fun _ => idle) l rs -> Forall (left_to K E i) l ->
  moves_seen E k c no_triples (fun _ => idle) (alone i l) (mine i l rs).
Proof. exact client_alone. Qed.
Print Assumptions C85_alone.
Example C85_alone_example : Forall (left_to (of_rank hh 2 1) xe 1) (map (kept_move ncodec) hl) /\ List.length (alone 1 hl) = 9%nat /\ List.length hl = 18%nat.
Proof. split; [exact hl_left|]. split; vm_compute; reflexivity. Qed.
