(* C25, C26, C30-C35, C39, C54: the client side of a session (async_puts disabled) *)
From Verif Require Import ModelBytes ModelKey ModelWire ModelHist ModelMsg SpecMsg ModelStore ModelGetOp ModelDs SpecStore ProofStore ProofDs ProofDs2 ModelElen ModelRoute SpecRoute
  ExampleStore ModelClient SpecClient SpecCluster
  ProofClient ProofClient2 ProofClient3 ProofClient4 ProofClient5 ProofClient6 ProofClient7 ProofClient8 ProofCluster ProofCluster2 ProofCluster3
  ExampleClient ExampleClient2 ProofClose.
Local Open Scope N_scope.

(* C25 *)
Theorem C25_refused : forall e s cl c, s_up s = false \/ invalid c -> do_call e s cl c = Ok (s, cl, false).
Proof. exact refused_call. Qed.
Print Assumptions C25_refused.
Example C25_example : invalid (CPut (xa 1 "s") (mkArg 0 [] T_BYTE) (xa 3 "o") 1) /\ invalid (CGet (xa 1 "") (xa 2 "p") T_BYTE) /\
  ~ invalid (CGetOp (xa 1 "s") (mkArg 0 [] T_BYTE) T_BYTE 1 GETOP_EQ) /\ ~ invalid (CPut (xa 1 "s") (xa 2 "p") (xa 3 "o") 1).
Proof. cbn [invalid]. split; [right; left; reflexivity|]. split; [left; reflexivity|]. split; [discriminate|]. intros [H|[H|H]]; discriminate. Qed.

(* C26: after any history l, client i stores with a mask, client j reads. Missing: two permutations on different
   datastores of the same other rank ([spread]; see C32_lost_refuted) *)
Theorem C26_permutations_partial : forall E k c e0 S cl l i j s p o mask a b ty,
  (forall n, In n (i :: j :: map fst l) -> good_client (E n) /\ same_cluster e0 (E n) /\ fresh (E n) (S n)) ->
  holds e0 cl (fun _ => opened k c) ->
  Forall (fun ic => Forall (data_call c) (snd ic) /\ spread (E (fst ic)) (snd ic)) (l ++ [(i, [CPut s p o mask]); (j, [CGet a b ty])]) ->
  exists cl' rs r1 r2, play E S cl (l ++ [(i, [CPut s p o mask]); (j, [CGet a b ty])]) = Ok (cl', rs ++ [r1; r2]) /\
    Permutation r1 (map (fun '(x, y, _) => XPut (at_ (E i) x y) true (rf x) (rf y)) (put_triples s p o mask)) /\
    (forall x y z, In (x, y, z) (put_triples s p o mask) -> fa x = fa a -> fa y = fa b ->
       r2 = [XGet (at_ (E j) a b) true (rf a) (rf b) (mkBlob false (a_data z) (a_type z))]) /\
    ((forall x y z, In (x, y, z) (put_triples s p o mask) -> ~ (fa x = fa a /\ fa y = fa b)) ->
       exists cl2 rs2, play E S cl (l ++ [(j, [CGet a b ty])]) = Ok (cl2, rs2 ++ [r2])).
Proof. exact permutations_stored. Qed.
Print Assumptions C26_permutations_partial.
Example C26_example : put_triples (xa 1 "s") (xa 2 "p") (xa 3 "o") 33 = [(xa 1 "s", xa 2 "p", xa 3 "o"); (xa 3 "o", xa 2 "p", xa 1 "s")] /\
  (forall n, In n (0%Z :: 1%Z :: map fst xplay) -> good_client (xe n) /\ same_cluster (xe 0) (xe n) /\ fresh (xe n) (opened_session (xe n))) /\
  holds (xe 0) (xcl InMemory) (fun _ => opened InMemory ex_codec) /\
  Forall (fun ic => Forall (data_call ex_codec) (snd ic) /\ spread (xe (fst ic)) (snd ic))
    (xplay ++ [(0%Z, [CPut (xa 1 "s") (xa 2 "p") (xa 3 "o") 33]); (1%Z, [CGet (xa 1 "o") (xa 2 "p") T_BYTE])]).
Proof.
  split; [reflexivity|]. split; [|split; [apply xcl_holds|]].
  - intros n [<-|[<-|H]]; [| |apply xplay_ok, H]; (split; [apply xe_client; lia|]); (split; [apply xe_same|split; reflexivity]).
  - apply Forall_app. split; [apply xplay_ok|]. constructor; [|constructor; [|constructor]]; cbn [fst snd].
    + split; [|apply xe_spread; lia]. constructor; [cbn [data_call]; xargs|constructor].
    + split; [|apply xe_spread; lia]. constructor; [cbn [data_call]; xargs; reflexivity|constructor].
Qed.

(* C30: the number of operations; the size except for what the check leaves out (slack: 16 or 20 bytes) *)
Theorem C30_packets_partial : forall e cl l s cl', acts e (opened_session e) cl l = Ok (s, cl') ->
  Forall (fun q => ops_ok e q /\ size_ok e (slack q) q) (packets s).
Proof. exact (fun e cl l s cl' H => proj2 (opened_acts e cl l s cl' H)). Qed.
Print Assumptions C30_packets_partial.
Example C30_example : exists s cl', acts (ge 200) (opened_session (ge 200)) zcl gacts = Ok (s, cl') /\ length (packets s) = 1%nat.
Proof. exact (proj2 g_example). Qed.
(* the size limit itself is not kept *)
Theorem C30_size_refuted : exists e cl l s cl', setting e /\ acts e (opened_session e) cl l = Ok (s, cl') /\ ~ Forall (size_ok e 0) (packets s).
Proof. exact g_refutes. Qed.
Print Assumptions C30_size_refuted.

(* C31: a Flush does to every datastore what serving the requests for it one by one does (requests_to: in the order of the calls,
   PUTs, GETs, GETOPs, DELETEs, HISTOGRAMs), for all packet limits. Missing: calls that use two datastores of the same other rank. *)
Theorem C31_order_partial : forall e s cl cs s1 cl1 oks (D D' : Z -> ds) (X : Z -> list result),
  setting e -> fresh e s -> holds e cl D -> Forall plain cs -> do_calls e s cl cs = Ok (s1, cl1, oks) ->
  spread e cs -> reachable e D cs ->
  (forall id, an_id e id -> serve_all (far e id) id (D id) (requests_to e id cs) = Ok (D' id, X id)) ->
  cl1 = cl /\ exists s2 cl2 xs, flush e s1 cl1 = Ok (s2, cl2, xs) /\ fresh e s2 /\ s_kept s2 = s_kept s /\ holds e cl2 D' /\
    (forall r off, elsewhere e r off -> cl2 r off = cl r off) /\
    (forall id, an_id e id -> filter (of_id id) xs = X id) /\ Permutation xs (flat_map X (upto (e_total e))).
Proof. exact calls_then_flush. Qed.
Print Assumptions C31_order_partial.
Example C31_example : exists s1 oks D D' X, setting (xe 0) /\ fresh (xe 0) (opened_session (xe 0)) /\ holds (xe 0) (xcl InMemory) D /\ Forall plain xcalls /\
  do_calls (xe 0) (opened_session (xe 0)) (xcl InMemory) xcalls = Ok (s1, xcl InMemory, oks) /\ spread (xe 0) xcalls /\ reachable (xe 0) D xcalls /\
  (forall id, an_id (xe 0) id -> d_open (D id) = true) /\
  (forall id, an_id (xe 0) id -> serve_all (far (xe 0) id) id (D id) (requests_to (xe 0) id xcalls) = Ok (D' id, X id)).
Proof. exact x_hypotheses. Qed.
Example C31_requests : map (fun id => length (requests_to (xe 0) id xcalls)) [0; 1]%Z = [10; 4]%nat.
Proof. exact x_requests. Qed.

(* C32: under the hypotheses of C31, with all datastores open. A GETOP gives as many results as it finds records. *)
Theorem C32_results_partial : forall e s cl cs s1 cl1 oks (D D' : Z -> ds) (X : Z -> list result),
  setting e -> fresh e s -> holds e cl D -> Forall plain cs -> do_calls e s cl cs = Ok (s1, cl1, oks) ->
  spread e cs -> reachable e D cs -> (forall id, an_id e id -> d_open (D id) = true) ->
  (forall id, an_id e id -> serve_all (far e id) id (D id) (requests_to e id cs) = Ok (D' id, X id)) ->
  exists s2 cl2 xs, flush e s1 cl1 = Ok (s2, cl2, xs) /\ Permutation (flat_map result_tag xs) (flat_map (call_tags e) cs).
Proof. exact one_result_each. Qed.
Print Assumptions C32_results_partial.
(* its hypotheses: C31_example *)
Example C32_example : length (flat_map (call_tags (xe 0)) xcalls) = 14%nat.
Proof. vm_compute. reflexivity. Qed.
(* two PUTs to different datastores of another rank: both accepted, one is sent *)
Theorem C32_lost_refuted : exists e cl cs s1 cl1 s2 cl2 x,
  good_client e /\ holds e cl (fun _ => opened InMemory ex_codec) /\ Forall (data_call ex_codec) cs /\ length cs = 2%nat /\
  do_calls e (opened_session e) cl cs = Ok (s1, cl1, [true; true]) /\ flush e s1 cl1 = Ok (s2, cl2, [x]) /\ option_map d_rows (cl2 1%Z 0%Z) = Some [].
Proof. exact lost_result. Qed.
Print Assumptions C32_lost_refuted.
(* datastores that are not open give no results *)
Theorem C32_closed_refuted : exists e cl cs s1 cl1 s2 cl2,
  good_client e /\ (forall cs', spread e cs') /\ cs <> [] /\ do_calls e (opened_session e) cl cs = Ok (s1, cl1, map (fun _ => true) cs) /\ flush e s1 cl1 = Ok (s2, cl2, []).
Proof. exact closed_none. Qed.
Print Assumptions C32_closed_refuted.
(* a GETOP for no records *)
Theorem C32_getop_refuted : exists e cl s p ty s1 cl1 oks, good_client e /\ holds e cl (fun _ => opened InMemory ex_codec) /\
  do_calls e (opened_session e) cl [CGetOp s p ty 0 GETOP_EQ] = Ok (s1, cl1, oks) /\ flush e s1 cl1 = UB.
Proof. exact getop_none. Qed.
Print Assumptions C32_getop_refuted.

(* C33: any number of clients taking turns see one map. Missing: turns that use two datastores of the same other rank.
   [spread] holds of everything if ranks have one datastore each, or if there is one rank. *)
Theorem C33_one_map_partial : forall E k c e0 S cl l,
  (forall i, In i (map fst l) -> good_client (E i) /\ same_cluster e0 (E i) /\ fresh (E i) (S i)) ->
  holds e0 cl (fun _ => opened k c) ->
  Forall (fun ic => Forall (data_call c) (snd ic) /\ spread (E (fst ic)) (snd ic)) l ->
  exists cl' rs, play E S cl l = Ok (cl', rs) /\ Forall2 (@Permutation result) rs (expected E k no_triples l).
Proof. exact cluster_is_map. Qed.
Print Assumptions C33_one_map_partial.
Theorem C33_one_datastore_each : forall e cs, setting e -> l_per (e_layout e) = 1%Z -> spread e cs.
Proof. exact one_each. Qed.
Print Assumptions C33_one_datastore_each.
Theorem C33_one_rank : forall e cs, setting e -> l_size (e_layout e) = 1%Z -> spread e cs.
Proof. exact one_rank. Qed.
Print Assumptions C33_one_rank.
Example C33_example : (forall i, In i (map fst xplay) -> good_client (xe i) /\ same_cluster (xe 0) (xe i) /\ fresh (xe i) (opened_session (xe i))) /\
  holds (xe 0) (xcl InMemory) (fun _ => opened InMemory ex_codec) /\
  Forall (fun ic => Forall (data_call ex_codec) (snd ic) /\ spread (xe (fst ic)) (snd ic)) xplay /\
  map (map (fun x => match x with XGet _ ok _ _ o => (1, ok, o) | XPut _ ok _ _ => (0, ok, blob_none) | XDel _ ok _ _ => (3, ok, blob_none) | _ => (9, false, blob_none) end))
    (expected xe InMemory no_triples xplay) =
  [ repeat (0, true, blob_none) 9;
    [(1, true, xb_of "new"); (1, true, xb_of "a"); (1, false, blob_none); (3, true, blob_none); (3, false, blob_none)];
    [(1, false, blob_none); (1, true, xb_of "new")] ].
Proof. split; [apply xplay_ok|]. split; [apply xcl_holds|]. split; [apply xplay_ok|exact xplay_expected]. Qed.
(* with two datastores on another rank *)
Theorem C33_unread_refuted : exists e k c cl s p o ty cl' xs b,
  good_client e /\ holds e cl (fun _ => opened k c) /\ good_arg c s /\ good_arg c p /\ good_arg c o /\
  (exists s2 p2 o2, play (fun _ => e) (fun _ => opened_session e) cl [(0%Z, [CPut s p o 1; CPut s2 p2 o2 1]); (0%Z, [CGet s p ty])]
    = Ok (cl', [xs; [XGet (at_ e s p) false (rf s) (rf p) b]]) /\ fa s <> fa s2).
Proof. exact unread. Qed.
Print Assumptions C33_unread_refuted.

(* C34: whatever is queued, Close does to the cluster what it does with nothing queued *)
Theorem C34_close_drops_refuted : forall e s cl, close e s cl = close e (opened_session e) cl \/
  (exists s1 s2 cl', close e s cl = Ok (s1, cl') /\ close e (opened_session e) cl = Ok (s2, cl')).
Proof. exact close_drops. Qed.
Print Assumptions C34_close_drops_refuted.
Theorem C34_lost_refuted : exists e k c cl s p o s1 cl1 s2 cl2, good_client e /\ holds e cl (fun _ => opened k c) /\ (forall cs', spread e cs') /\ data_call c (CPut s p o 1) /\
  do_calls e (opened_session e) cl [CPut s p o 1] = Ok (s1, cl1, [true]) /\ close e s1 cl1 = Ok (s2, cl2) /\ option_map d_rows (cl2 (rank_of e (at_ e s p)) 0%Z) = Some [].
Proof. exact close_loses. Qed.
Print Assumptions C34_lost_refuted.
(* and after Close nothing is queued, and every call fails and changes nothing *)
Theorem C34_closed : forall e s cl s' cl', close e s cl = Ok (s', cl') ->
  (forall x cl2, do_call e s' cl2 x = Ok (s', cl2, false)) /\ (forall cl2, sync e s' cl2 = Ok (s', cl2, None)) /\ s_kept s' = [] /\
  Forall (fun q => q = []) (q_puts (s_qs s')) /\ Forall (fun q => q = []) (q_gets (s_qs s')) /\ Forall (fun q => q = []) (q_getops (s_qs s')) /\
  Forall (fun q => q = []) (q_dels (s_qs s')) /\ Forall (fun q => q = []) (q_hists (s_qs s')).
Proof. exact close_ends. Qed.
Print Assumptions C34_closed.
Example C34_closed_example : exists e s1 cl1 s2 cl2, s_up s1 = true /\ close e s1 cl1 = Ok (s2, cl2).
Proof.
  destruct C34_lost_refuted as (e & k & c & cl & s & p & o & s1 & cl1 & s2 & cl2 & _ & _ & _ & _ & D & L & _). exists e, s1, cl1, s2, cl2. split; [|exact L].
  apply calls_grown in D as [_ D]; [|repeat constructor|reflexivity]. exact (gr_up _ _ _ _ _ _ _ _ D).
Qed.
(* with a Flush the row is there *)
Example C34_example : exists xs r, probe (xe 0) (opened_session (xe 0)) (xcl LevelDB) cput 0 0 = Ok ([true], xs, Some [r]).
Proof. exact c_flushed. Qed.

(* C35: if every pair of the call has a datastore; and for single calls except that a PUT that fails may have queued something *)
Theorem C35_placed_partial : forall e s cl c s' cl' ok, plain c -> s_up s = true -> do_call e s cl c = Ok (s', cl', ok) ->
  Forall (fun x => placed e (fst x) (snd x) = true) (asked_pairs c) -> (ok = true -> all_queued e s s' c) /\ (ok = false -> s' = s).
Proof. exact placed_call. Qed.
Print Assumptions C35_placed_partial.
Theorem C35_single_partial : forall e s cl c s' cl' ok, single c -> s_up s = true -> do_call e s cl c = Ok (s', cl', ok) ->
  (ok = true -> all_queued e s s' c) /\ (ok = false -> (forall a b d m, c <> CPut a b d m) -> s' = s).
Proof. exact single_call. Qed.
Print Assumptions C35_single_partial.
Example C35_example : exists s', sessions_only (do_call (xe 0) (opened_session (xe 0)) zcl (CPut (xa 1 "s") (xa 2 "p") (xa 3 "o") 63)) = Ok (s', true) /\
  forallb (fun x => placed (xe 0) (fst x) (snd x)) (asked_pairs (CPut (xa 1 "s") (xa 2 "p") (xa 3 "o") 63)) = true /\
  length (asked_pairs (CPut (xa 1 "s") (xa 2 "p") (xa 3 "o") 63)) = 6%nat.
Proof. eexists. split; [vm_compute; reflexivity|]. split; vm_compute; reflexivity. Qed.
Theorem C35_put_refuted : exists e s p o mask s' cl cl', setting e /\ do_call e (opened_session e) cl (CPut s p o mask) = Ok (s', cl', false) /\ s' <> opened_session e.
Proof. exact half_queued. Qed.
Print Assumptions C35_put_refuted.
Theorem C35_bulk_refuted : exists e s p ty cl cl', setting e /\ do_call e (opened_session e) cl (CBGet (Some [(s, p, ty)])) = Ok (opened_session e, cl', true).
Proof. exact nothing_queued. Qed.
Print Assumptions C35_bulk_refuted.

(* C39: sessions opened by Open, without the background thread *)
Theorem C39_queues_partial : forall e cl l s cl' c, setting e -> defined_hash e -> 0 < e_max_ops e ->
  acts e (opened_session e) cl l = Ok (s, cl') -> sane_call c -> plain c -> queues_ok e s /\ exists r, do_call e s cl' c = Ok r.
Proof. exact acts_then_call. Qed.
Print Assumptions C39_queues_partial.
Example C39_example : setting (xe 0) /\ defined_hash (xe 0) /\ exists s cl', acts (xe 0) (opened_session (xe 0)) (xcl InMemory) xacts = Ok (s, cl').
Proof. split; [apply xe_setting; lia|]. split; [exact xe_defined|exact xacts_run]. Qed.
(* OpenOne, if it got that far (C61_open_one_refuted): every PUT and every GET indexes a queue that does not exist *)
Theorem C39_open_one_refuted : forall e cl s p o mask, given s = true -> given p = true -> given o = true -> N.testbit mask 0 = true ->
  do_call (one_env e) (opened_session (one_env e)) cl (CPut s p o mask) = UB.
Proof. exact one_put_ub. Qed.
Print Assumptions C39_open_one_refuted.
Theorem C39_open_one_get_refuted : forall e cl s p ty, given s = true -> given p = true ->
  do_call (one_env e) (opened_session (one_env e)) cl (CGet s p ty) = UB.
Proof. exact one_get_ub. Qed.
Print Assumptions C39_open_one_get_refuted.
Example C39_open_one_example : given (xa 1 "s") = true /\ given (xa 2 "p") = true /\ given (xa 3 "o") = true /\ N.testbit 1 0 = true.
Proof. repeat split; reflexivity. Qed.

(* C54: BGET; BPUT as long as fewer than max_queued PUTs are queued *)
Theorem C54_bget_partial : forall e s cl ty l,
  do_call e s cl (CBGetOne true ty (Some l)) = do_call e s cl (CBGet (Some (map (fun '(x, y) => (x, y, ty)) l))).
Proof. exact bget_one. Qed.
Print Assumptions C54_bget_partial.
Theorem C54_bput_partial : forall e s cl ty l s' cl' ok,
  do_call e s cl (CBPut (Some (map (fun '(s, p, o, m) => (s, p, mkArg (a_addr o) (a_data o) ty, m)) l))) = Ok (s', cl', ok) -> s_count s' < e_max_queued e ->
  do_call e s cl (CBPutOne true ty (Some l)) = Ok (s', cl', ok).
Proof. exact bput_one. Qed.
Print Assumptions C54_bput_partial.
Example C54_example : exists s', sessions_only (do_call (xe 0) (opened_session (xe 0)) zcl (CBPut (Some (map (retype T_BYTE) bputs)))) = Ok (s', true) /\
  s_count s' = 1 /\ e_max_queued (xe 0) = 100.
Proof. eexists. split; [vm_compute; reflexivity|]. split; vm_compute; reflexivity. Qed.
(* at the limit BPUT of one type executes what is queued, and no Flush returns the results *)
Theorem C54_bput_refuted : exists e cl ty l s1 cl1 oks s2 cl2 s1' cl1' s2' cl2' x, setting e /\
  do_calls e (opened_session e) cl [CBPutOne true ty (Some l)] = Ok (s1, cl1, oks) /\ flush e s1 cl1 = Ok (s2, cl2, []) /\
  do_calls e (opened_session e) cl [CBPut (Some (map (retype ty) l))] = Ok (s1', cl1', oks) /\ flush e s1' cl1' = Ok (s2', cl2', [x]).
Proof. exact kept_results. Qed.
Print Assumptions C54_bput_refuted.
(* BGETOP of one type is always an error *)
Theorem C54_bgetop_refuted : forall e s cl ty types l, s_up s = true -> do_call e s cl (CBGetOpOne types true ty (Some l)) = Ok (s, cl, false).
Proof. exact bgetop_one. Qed.
Print Assumptions C54_bgetop_refuted.
Example C54_bgetop_example : s_up (opened_session (xe 0)) = true.
Proof. reflexivity. Qed.
