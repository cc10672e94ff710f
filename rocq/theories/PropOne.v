(* C88: BPUTs of one type among other calls and flushes *)
From Verif Require Import ModelBytes ModelKey ModelWire ModelHist ModelMsg SpecMsg ModelStore ModelGetOp ModelDs SpecStore ProofDs ModelElen ModelRoute SpecRoute
  ModelClient SpecClient SpecCluster ExampleStore ExampleClient SpecMixed SpecMixed3 SpecOne ProofOne ExampleOne.
Local Open Scope N_scope.

(* Every client sees the one map. A BPUT of one type after which max_queued PUTs wait changes the map at once, and the results of these PUTs are in no
   list of results (C54). Missing: two datastores of the same other rank in one flush (C33), GETOPs *)
Theorem C88_moves_partial : forall E k c e0 S cl l,
  (forall i, In i (map fst l) -> good_client (E i) /\ same_cluster e0 (E i) /\ fresh (E i) (S i) /\ s_count (S i) = 0) ->
  holds e0 cl (fun _ => opened k c) -> Forall (any_move c) l -> all_apart E (fun _ => idle) l ->
  exists cl' rs, moves E S cl l = Ok (cl', rs) /\ all_seen E k c no_triples (fun _ => idle) (map (kept_any c) l) rs.
Proof. exact cluster_all. Qed.
Print Assumptions C88_moves_partial.
Example C88_example : forall k,
  (forall i, In i (map fst ones) -> good_client (oe i) /\ same_cluster (oe 0) (oe i) /\ fresh (oe i) (opened_session (oe i)) /\ s_count (opened_session (oe i)) = 0) /\
  holds (oe 0) (xcl k) (fun _ => opened k ex_codec) /\ Forall (any_move ex_codec) ones /\ all_apart oe (fun _ => idle) ones /\
  ones_run k = Ok [[XGet 1 false (o_r 1) (o_r 2) blob_none]; [XGet 1 true (o_r 1) (o_r 2) (mkBlob false (bstr "d") T_BYTE)];
    [XPut 1 true (o_r 1) (o_r 2)]; [XGet 1 true (o_r 1) (o_r 2) (mkBlob false (bstr "c") T_BYTE)]].
Proof. intro k. split; [exact ones_clients|]. split; [apply ocl_holds|]. split; [exact ones_any|]. split; [exact ones_apart|apply ones_ran]. Qed.

(* With one datastore on every range server nothing is assumed of the flushes. *)
Theorem C88_one_each : forall E k c e0 S cl l,
  (forall i, In i (map fst l) -> good_client (E i) /\ same_cluster e0 (E i) /\ fresh (E i) (S i) /\ s_count (S i) = 0) -> l_per (e_layout e0) = 1%Z ->
  holds e0 cl (fun _ => opened k c) -> Forall (any_move c) l ->
  exists cl' rs, moves E S cl l = Ok (cl', rs) /\ all_seen E k c no_triples (fun _ => idle) (map (kept_any c) l) rs.
Proof.
  intros E k c e0 S cl l HE H1 H HF. eapply cluster_all; [exact HE|exact H|exact HF|]. apply all_apart_one. intros i Hi. destruct (HE i Hi) as ((A & _) & (B & _) & _).
  split; [exact A|]. rewrite <- B. exact H1.
Qed.
Print Assumptions C88_one_each.
Example C88_one_each_example : l_per (e_layout (oe 0)) = 1%Z.
Proof. reflexivity. Qed.

(* Without BPUTs of one type this is what C85 says. *)
Theorem C88_others : forall E k c l M W rs, (forall i x, In (i, Say x) l -> one_type x = false) -> (all_seen E k c M W l rs <-> moves_seen E k c M W l rs).
Proof. exact seen_others. Qed.
Print Assumptions C88_others.
Example C88_others_example : one_type ab_ask = false /\ one_type ab_put = true.
Proof. split; reflexivity. Qed.
