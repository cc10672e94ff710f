(* C76: GETOPs through the whole cluster *)
From Verif Require Import ModelBytes ProofBytes ModelKey ModelWire ModelHist ModelMsg SpecMsg ModelStore ModelGetOp ModelDs
  SpecStore ProofDs ModelElen ModelRoute SpecRoute ModelClient SpecClient SpecCluster ExampleStore ExampleClient
  SpecGetOp SpecScan ProofScan2 ProofScan3 ExampleScan SpecStore.
Local Open Scope N_scope.

(* Any number of clients taking turns with PUTs, GETs, GETOPs and DELETEs. The other operations see one map; a GETOP sees, of the map after
   the PUTs of its turn, the pairs that have the same datastore as its own.
   Missing: turns that use two datastores of the same other rank (C33), and the requests excluded by scannable; see the refutations. *)
Theorem C76_scans_partial : forall E k c e0 S cl l,
  (forall i, In i (map fst l) -> good_client (E i) /\ same_cluster e0 (E i) /\ fresh (E i) (S i)) ->
  holds e0 cl (fun _ => opened k c) -> scans_fine E k c no_triples l ->
  exists cl' rs, play E S cl l = Ok (cl', rs) /\ scans_seen E k c no_triples l rs.
Proof. exact cluster_scans. Qed.
Print Assumptions C76_scans_partial.
Example C76_example : forall k,
  (forall i, In i (map fst scans) -> good_client (xe i) /\ same_cluster (xe 0) (xe i) /\ fresh (xe i) (opened_session (xe i))) /\
  holds (xe 0) (xcl k) (fun _ => opened k ex_codec) /\ scans_fine xe k ex_codec no_triples scans.
Proof. intros k. split; [exact scans_clients|]. split; [apply xcl_holds|apply scans_ok]. Qed.

(* What comes back are triples of the one map ... *)
Theorem C76_sound : forall e c M t xs id s p o, scan_result e c M t xs -> 1 <= snd (fst t) -> In (XGetOp id true s p o) xs ->
  id = at_ e (fst (fst (fst (fst t)))) (snd (fst (fst (fst t)))) /\ M (fld s) (fld p) = Some (fld o) /\
  e_hash e (e_rank e) (e_total e) (b_data s) (b_data p) = Ok id.
Proof. exact scan_sound. Qed.
Print Assumptions C76_sound.
(* ... FIRST gives all of its datastore ... *)
Theorem C76_first : forall e c M s p ty n ts xs, scan_result e c M (s, p, ty, n, GETOP_FIRST) xs -> contents c (share e (at_ e s p) M) ts -> ts <> [] ->
  N.of_nat (length ts) <= n ->
  xs = map (fun t => XGetOp (at_ e s p) true (blob_of (t_sub t)) (blob_of (t_pred t)) (blob_of (t_obj t))) ts.
Proof. exact scan_first. Qed.
Print Assumptions C76_first.
(* ... and if there is only one, the answers are those of C12 to C17 for the whole map. *)
Theorem C76_one_datastore : forall e c M s p ty n op xs, total_hash e -> e_total e = 1%Z ->
  (forall s p o, M s p = Some o -> blen (f_data s) < 2 ^ 32 /\ blen (f_data p) < 2 ^ 32) ->
  good_arg c s -> good_arg c p -> scan_result e c M (s, p, ty, n, op) xs ->
  exists ts, contents c M ts /\ xs = scan_results 0 s p (reply c ts (getop_req (s, p, ty, n, op))).
Proof. exact scan_alone. Qed.
Print Assumptions C76_one_datastore.

(* With two datastores FIRST does not give the first triple of the store: a/b is there and comes before a/c. *)
Theorem C76_first_refuted : forall k, exists xs,
  run k [(0%Z, xcalls0); (1%Z, scans1)] = Ok [xs; [ XGet 1 true (mkRef 1 1 T_BYTE) (mkRef 2 1 T_BYTE) (bx "c");
    XGetOp 0 true (bx "a") (bx "c") (bx "b"); XGetOp 0 true (bx "b") (bx "a") (bx "c");
    XGetOp 1 true (bx "a") (bx "b") (bx "c"); XGetOp 1 true (bx "c") (bx "a") (bx "b") ]] /\
  scans1 = [CGetOp (xa 1 "s") (xa 2 "p") T_BYTE 2 GETOP_FIRST; CGet (xa 1 "a") (xa 2 "b") T_BYTE;
            CBGetOp (Some [(xa 5 "a", xa 6 "b", T_BYTE, 2, GETOP_NEXT)])] /\
  bltb (key ex_codec (fa (xa 1 "a")) (fa (xa 2 "b"))) (key ex_codec (fa (xa 1 "a")) (fa (xa 2 "c"))) = true.
Proof. intros k. exists (match run k [(0%Z, xcalls0)] with Ok [xs] => xs | _ => [] end). split; [exact (scans_run k)|]. split; [reflexivity|exact ab_first]. Qed.
Print Assumptions C76_first_refuted.

(* FIRST of an empty datastore: an error if it is on the own rank, undefined behaviour if it is on another. *)
Theorem C76_empty_refuted : forall k,
  run k [(0%Z, [CGetOp (xa 1 "s") (xa 2 "p") T_BYTE 1 GETOP_FIRST])] = Ok [[XGetOp 0 false (bx "s") (bx "p") blob_none]] /\
  run k [(1%Z, [CGetOp (xa 1 "s") (xa 2 "p") T_BYTE 1 GETOP_FIRST])] = UB /\ far (xe 1) (at_ (xe 1) (xa 1 "s") (xa 2 "p")) = true.
Proof. intros k. split; [exact (first_near k)|exact (first_far k)]. Qed.
Print Assumptions C76_empty_refuted.

(* LOWEST of a pair that does not occur: a success without records, of which the client makes a result that it has freed. *)
Theorem C76_lowest_refuted : forall k, run k [(0%Z, xcalls0); (0%Z, [CGetOp (xa 1 "c") (xa 2 "d") T_BYTE 1 GETOP_LOWEST])] = UB.
Proof. exact lowest_none. Qed.
Print Assumptions C76_lowest_refuted.
