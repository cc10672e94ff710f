(* C26, C31, C32, C33, C57 with several datastores per rank: what gets lost and what happens to the rest (SpecLost.v) *)
From Verif Require Import ModelBytes ModelKey ModelWire ModelHist ModelMsg SpecMsg ModelStore ModelGetOp ModelDs SpecStore ProofStore ProofDs ProofDs2 ModelElen ModelRoute SpecRoute
  ExampleStore ModelClient SpecClient SpecCluster ProofClient ExampleClient ExampleClient2 ModelPar SpecPar SpecLost ProofLost3 ProofLost4 ProofLost6 ExampleLost.
Local Open Scope Z_scope.

(* C31: whatever is queued, a Flush does to every datastore what serving the packets sent to it (sent_to) one after the other does *)
Theorem C31_flush : forall e s cl (D D' : Z -> ds) (X : Z -> list result),
  setting e -> queues_ok e s -> holds e cl D -> sendable e D (sent_to e s) ->
  (forall id, an_id e id -> serve_all (far e id) id (D id) (sent_to e s id) = Ok (D' id, X id)) ->
  exists s' cl' xs, flush e s cl = Ok (s', cl', xs) /\ s' = mkSession (s_up s) (s_qs (opened_session e)) 0 (s_kept s) /\ holds e cl' D' /\
    (forall r off, elsewhere e r off -> cl' r off = cl r off) /\
    (forall id, an_id e id -> filter (of_id id) xs = X id) /\ Permutation xs (flat_map X (upto (e_total e))).
Proof. exact flush_lost. Qed.
Print Assumptions C31_flush.
(* the same for calls followed by a Flush, an operation at a time, for all packet limits *)
Theorem C31_order : forall e s cl cs s1 cl1 oks (D D' : Z -> ds) (X : Z -> list result),
  setting e -> fresh e s -> holds e cl D -> Forall plain cs -> do_calls e s cl cs = Ok (s1, cl1, oks) ->
  sendable e D (ops_sent e s1) ->
  (forall id, an_id e id -> serve_all (far e id) id (D id) (ops_sent e s1 id) = Ok (D' id, X id)) ->
  cl1 = cl /\ exists s2 cl2 xs, flush e s1 cl1 = Ok (s2, cl2, xs) /\ fresh e s2 /\ s_kept s2 = s_kept s /\ holds e cl2 D' /\
    (forall r off, elsewhere e r off -> cl2 r off = cl r off) /\
    (forall id, an_id e id -> filter (of_id id) xs = X id) /\ Permutation xs (flat_map X (upto (e_total e))).
Proof. exact calls_then_flush_lost. Qed.
Print Assumptions C31_order.
(* what is sent is in the order of the calls; something at the front may be missing; nothing is missing on this rank or if no later datastore
   of that rank is used *)
Theorem C31_sent : forall e s cl cs s1 cl1 oks, fresh e s -> Forall plain cs -> do_calls e s cl cs = Ok (s1, cl1, oks) -> forall id, an_id e id ->
  ending (concat (sent e (q_puts (s_qs s1)) id)) (puts_to e id cs) /\ ending (concat (sent e (q_gets (s_qs s1)) id)) (gets_to e id cs) /\
  ending (concat (sent e (q_getops (s_qs s1)) id)) (getops_to e id cs) /\ ending (concat (sent e (q_dels (s_qs s1)) id)) (dels_to e id cs) /\
  ending (concat (sent e (q_hists (s_qs s1)) id)) (hists_to e id cs) /\
  (far e id = false \/ (forall j, an_id e j -> id < j -> rank_of e j = rank_of e id -> requests_to e j cs = []) -> ops_sent e s1 id = requests_to e id cs).
Proof. exact sent_endings. Qed.
Print Assumptions C31_sent.
Example C31_lost_example : exists s1 oks D D' X, setting (ye 0) /\ fresh (ye 0) (opened_session (ye 0)) /\ holds (ye 0) (ycl InMemory) D /\ Forall plain lcalls /\
  do_calls (ye 0) (opened_session (ye 0)) (ycl InMemory) lcalls = Ok (s1, ycl InMemory, oks) /\ sendable (ye 0) D (ops_sent (ye 0) s1) /\
  (forall id, an_id (ye 0) id -> d_open (D id) = true) /\
  (forall id, an_id (ye 0) id -> serve_all (far (ye 0) id) id (D id) (ops_sent (ye 0) s1 id) = Ok (D' id, X id)).
Proof. exact l_hypotheses. Qed.
Example C31_sent_example : match calls_session (do_calls (ye 0) (opened_session (ye 0)) (ycl InMemory) lcalls) with
  | Ok s => objects_sent s = [(2, [bstr "5"], 0%nat, 1%nat); (3, [bstr "x"; bstr "y"; bstr "z"], 1%nat, 0%nat)] | _ => False end.
Proof. exact l_sent. Qed.

(* C32: one result for every operation that is sent (hypotheses: C31_lost_example) *)
Theorem C32_sent_partial : forall e s cl cs s1 cl1 oks (D D' : Z -> ds) (X : Z -> list result),
  setting e -> fresh e s -> holds e cl D -> Forall plain cs -> do_calls e s cl cs = Ok (s1, cl1, oks) ->
  sendable e D (ops_sent e s1) -> (forall id, an_id e id -> d_open (D id) = true) ->
  (forall id, an_id e id -> serve_all (far e id) id (D id) (ops_sent e s1 id) = Ok (D' id, X id)) ->
  exists s2 cl2 xs, flush e s1 cl1 = Ok (s2, cl2, xs) /\ Permutation (flat_map result_tag xs) (flat_map (tags_sent e s1) (upto (e_total e))).
Proof. exact one_result_sent. Qed.
Print Assumptions C32_sent_partial.

(* C33: any clients taking turns see one map on which what is left of every turn takes effect *)
Theorem C33_left_partial : forall E k c e0 S cl l,
  (forall i, In i (map fst l) -> good_client (E i) /\ same_cluster e0 (E i) /\ fresh (E i) (S i)) ->
  holds e0 cl (fun _ => opened k c) -> Forall (fun ic => Forall (data_call c) (snd ic)) l ->
  exists l' cl' rs, Forall2 (turn_left E) l l' /\ play E S cl l = Ok (cl', rs) /\ Forall2 (@Permutation result) rs (expected E k no_triples l').
Proof. exact cluster_left. Qed.
Print Assumptions C33_left_partial.
Theorem C33_nothing_lost : forall A e (place : A -> Z) l l', Forall (fun a => an_id e (place a)) l -> fewer e place l l' ->
  (forall i j, In i (map place l) -> In j (map place l) -> far e i = true -> rank_of e j = rank_of e i -> i = j) -> l' = l.
Proof. exact @fewer_all. Qed.
Print Assumptions C33_nothing_lost.
Example C33_left_example : (forall i, In i (map fst [(0, lcalls); (0, lcalls)]) -> good_client (ye 0) /\ same_cluster (ye 0) (ye 0) /\ fresh (ye 0) (opened_session (ye 0))) /\
  holds (ye 0) (ycl InMemory) (fun _ => opened InMemory ex_codec) /\ Forall (fun ic : Z * list call => Forall (data_call ex_codec) (snd ic)) [(0, lcalls); (0, lcalls)].
Proof. exact l_play. Qed.

(* C26: a permutation that is not stored, although PUT and Flush report nothing *)
Theorem C26_lost_refuted : exists e k c cl s p o mask a b ty cl' xs id x, good_client e /\ holds e cl (fun _ => opened k c) /\ data_call c (CPut s p o mask) /\
  data_call c (CGet a b ty) /\ In (a, b, o) (put_triples s p o mask) /\
  play (fun _ => e) (fun _ => opened_session e) cl [(0, [CPut s p o mask]); (0, [CGet a b ty])] = Ok (cl', [xs; [XGet id false (rf a) (rf b) x]]).
Proof. exact permutation_lost. Qed.
Print Assumptions C26_lost_refuted.

(* C57: any clients working at the same time: what they see is what is explained by operations on one map if the lost ones are left out *)
Theorem C57_left_partial : forall E k c e0 S cl ls,
  (forall i, In i (map who ls) -> good_client (E i) /\ same_cluster e0 (E i) /\ fresh (E i) (S i)) ->
  holds e0 cl (fun _ => opened k c) -> Forall (label_data E k c) ls ->
  exists st h h', run E (starting S cl) ls = Ok (st, h) /\ Forall2 (call_left E) h h' /\ explained E k c h' /\
    forall i, In i (map who ls) -> ~ idle st i ->
      exists ls' st' xs, Forall (fun l => who l = i) ls' /\ run E st ls' = Ok (st', [Returned i xs]) /\ idle st' i.
Proof. exact parallel_left. Qed.
Print Assumptions C57_left_partial.
Example C57_left_example : (forall i, In i (map who ylabels) -> good_client (ye 0) /\ same_cluster (ye 0) (ye 0) /\ fresh (ye 0) (opened_session (ye 0))) /\
  holds (ye 0) (ycl InMemory) (fun _ => opened InMemory ex_codec) /\ Forall (label_data (fun _ => ye 0) InMemory ex_codec) ylabels /\
  exists st x, run (fun _ => ye 0) (starting (fun _ => opened_session (ye 0)) (ycl InMemory)) ylabels = Ok (st, [Called 0 yputs; Returned 0 [x]]).
Proof. exact y_labels. Qed.
Theorem C57_lost_refuted : exists e k c cl ls st h, good_client e /\ holds e cl (fun _ => opened k c) /\
  Forall (fun l => match l with LCall _ cs => Forall (data_call c) cs | _ => True end) ls /\
  run (fun _ => e) (starting (fun _ => opened_session e) cl) ls = Ok (st, h) /\ ~ explained (fun _ => e) k c h.
Proof. exact unexplained. Qed.
Print Assumptions C57_lost_refuted.
