(* Clients working at the same time (C57) *)
From Verif Require Import ModelBytes ModelKey ModelWire ModelHist ModelMsg ModelStore ModelGetOp ModelDs SpecStore ProofDs ModelElen ModelRoute SpecRoute
  ExampleStore ModelClient SpecClient SpecCluster ProofClient ExampleClient ModelPar SpecPar
  ProofPar ProofPar2 ProofPar3 ProofPar4 ProofPar5 ProofPar6 ExamplePar.
Local Open Scope N_scope.

(* C57: whatever the clients call and however their requests interleave, nothing fails, what they see is explained by operations on
   one map that take effect one at a time, each during the Flush that sends it, and a client in a Flush can complete it on its own.
   A GETOP sees the map as it is at one moment of the Flush, and steady says which never fail: the others read no bytes or a null pointer
   when no triple answers them (C76), which depends on what the other clients have done.
   Missing: Flushes that use two datastores of the same other rank (C57_left_partial), GETOPs that are not steady, histograms, the background thread. *)
Theorem C57_parallel_partial E k c e0 S cl ls :
  (forall i, In i (map who ls) -> good_client (E i) /\ same_cluster e0 (E i) /\ fresh (E i) (S i)) ->
  holds e0 cl (fun _ => opened k c) -> Forall (label_ok E k c) ls ->
  exists st h, run E (starting S cl) ls = Ok (st, h) /\ explained E k c h /\
    forall i, In i (map who ls) -> ~ idle st i ->
      exists ls' st' xs, Forall (fun l => who l = i) ls' /\ run E st ls' = Ok (st', [Returned i xs]) /\ idle st' i.
Proof. exact (parallel_explained E k c e0 S cl ls). Qed.
Print Assumptions C57_parallel_partial.
(* two clients; the second sees one of the two triples that the first is storing *)
Example C57_parallel_example :
  (forall i, In i (map who plabels) -> good_client (xe i) /\ same_cluster (xe 0) (xe i) /\ fresh (xe i) (opened_session (xe i))) /\
  holds (xe 0) (xcl InMemory) (fun _ => opened InMemory ex_codec) /\ Forall (label_ok xe InMemory ex_codec) plabels /\
  exists st h, run xe (starting (fun i => opened_session (xe i)) (xcl InMemory)) plabels = Ok (st, h) /\
    seen_of h = [(1%Z, [None; Some (bstr "c")]); (0%Z, []); (1%Z, [Some (bstr "o"); Some (bstr "c")])].
Proof. destruct p_hypotheses as (H1 & H2 & H3). exact (conj H1 (conj H2 (conj H3 p_run))). Qed.

(* two clients; the second asks for the triples from two places on *)
Example C57_scans_example :
  (forall i, In i (map who rlabels) -> good_client (xe i) /\ same_cluster (xe 0) (xe i) /\ fresh (xe i) (opened_session (xe i))) /\
  Forall (label_ok xe InMemory ex_codec) rlabels /\
  exists st h, run xe (starting (fun i => opened_session (xe i)) (xcl InMemory)) rlabels = Ok (st, h) /\
    scanned_of h = [(1%Z, [None; Some (bstr "a", bstr "b", bstr "c")]); (0%Z, []);
                    (1%Z, [Some (bstr "s", bstr "p", bstr "o"); Some (bstr "a", bstr "b", bstr "c")])].
Proof. destruct r_hypotheses as (H1 & H2). exact (conj H1 (conj H2 r_run)). Qed.

(* a PUT whose Flush has returned is seen by every GET called afterwards, by any client, unless someone changes the triple *)
Theorem C57_completed_put_partial E k c e0 S cl ls st i j s p o cs h1 h2 h3 h4 h5 ys xs :
  (forall n, In n (map who ls) -> good_client (E n) /\ same_cluster e0 (E n) /\ fresh (E n) (S n)) ->
  holds e0 cl (fun _ => opened k c) -> Forall (label_ok E k c) ls ->
  run E (starting S cl) ls = Ok (st, h1 ++ Called i [CPut s p o 1] :: h2 ++ Returned i ys :: h3 ++ Called j cs :: h4 ++ Returned j xs :: h5) ->
  still i h2 -> still j h4 -> untouched E (fa s) (fa p) (h1 ++ h2 ++ h3 ++ Called j cs :: h4) ->
  forall x y ty, In (OGet x y ty) (opers (E j) cs) -> fa x = fa s -> fa y = fa p ->
    In (XGet (at_ (E j) x y) true (rf x) (rf y) (mkBlob false (a_data o) (a_type o))) xs.
Proof. exact (completed_put_seen E k c e0 S cl ls st i j s p o cs h1 h2 h3 h4 h5 ys xs). Qed.
Print Assumptions C57_completed_put_partial.
Example C57_completed_put_example :
  (forall i, In i (map who qlabels) -> good_client (xe i) /\ same_cluster (xe 0) (xe i) /\ fresh (xe i) (opened_session (xe i))) /\
  Forall (label_ok xe InMemory ex_codec) qlabels /\
  (exists st h3 ys xs h4 h5,
    run xe (starting (fun i => opened_session (xe i)) (xcl InMemory)) qlabels =
      Ok (st, [] ++ Called 0 qput :: [] ++ Returned 0 ys :: h3 ++ Called 1 pgets :: h4 ++ Returned 1 xs :: h5) /\
    still 0 [] /\ still 1 h4 /\ untouched xe (fa (xa 1 "s")) (fa (xa 2 "p")) ([] ++ [] ++ h3 ++ Called 1 pgets :: h4)) /\
  In (OGet (xa 11 "s") (xa 12 "p") T_BYTE) (opers (xe 1) pgets) /\ fa (xa 11 "s") = fa (xa 1 "s") /\ fa (xa 12 "p") = fa (xa 2 "p").
Proof. destruct q_hypotheses as (H1 & H2). refine (conj H1 (conj H2 (conj q_run (conj _ (conj eq_refl eq_refl))))). left. reflexivity. Qed.

(* the steps of one client, taken in order, are its Flush *)
Theorem C57_alone e s cl : flush e s cl = do (cl', xs) <- alone e (flush_tasks e s) cl; Ok (flushed s, cl', xs).
Proof. exact (flush_alone e s cl). Qed.
Print Assumptions C57_alone.
