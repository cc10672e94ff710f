(* C67: requests over Thallium, buffers and the end of a session *)
From Verif Require Import ModelBytes ModelKey ModelWire ModelHist ModelMsg SpecMsg ModelStore ModelGetOp ModelDs ModelElen ModelRoute
  SpecStore SpecRoute ModelClient SpecClient SpecCluster ModelPar SpecPar ModelThal SpecThal ModelThalServe SpecThal2 ExampleStore ExampleClient.
From Verif Require Import ProofThal4 ProofThal5 ExampleThal.
From Verif Require ProofDs.
From Coq Require Import Permutation.
Local Open Scope nat_scope.

(* in whatever order the steps come, and whatever the datastore does: no buffer is used after it was freed, none is freed twice,
   and when the threads have made their requests the buffers that are left are those of the cleanups on their way *)
Theorem C67_memory store (handle : Z -> store -> bytes -> outcome (store * bytes)) accept eps debug threads ranks s0 ls st :
  run handle accept eps debug (started ranks threads s0) ls = Some st ->
  n_fault st <> Some UseAfterFree /\ n_fault st <> Some DoubleFree /\ NoDup (map fst (n_heap st)) /\
  (finished st -> Permutation (map fst (n_heap st)) (n_clean st)).
Proof.
  intros R. destruct (thal_memory _ _ _ _ _ _ _ _ _ R) as [A B]. destruct (thal_buffers _ _ _ _ _ _ _ _ _ R) as [C D]. auto.
Qed.
Print Assumptions C67_memory.
Example C67_memory_example : exists st, xrun false true (both 0 18) = Some st /\ length (n_heap st) = 6 /\ length (n_clean st) = 2.
Proof. destruct (digest_some _ _ _ _ _ _ x_middle) as (st & R & _ & H & C & _). exists st. rewrite C. auto. Qed.

(* each thread gets for each request in turn the response that its server made for this request, and each request with an endpoint is
   carried out once; the servers carry out the requests one after the other *)
Theorem C67_answers store (handle : Z -> store -> bytes -> outcome (store * bytes)) accept eps debug threads ranks s0 ls st :
  run handle accept eps debug (started ranks threads s0) ls = Some st ->
  carried handle s0 (n_hist st) (n_store st) /\
  forall i t, nth_error (n_thr st) i = Some t ->
  exists q done tail, nth_error threads i = Some (h_rank t, h_main t, q) /\ q = done ++ h_todo t /\ answered accept (eps (h_rank t)) done (h_log t) /\
    carried_for i (n_hist st) = reached (h_log t) ++ tail /\ length tail <= 1 /\ (h_at t = TIdle -> tail = []).
Proof. intros R. split; [exact (thal_carried _ _ _ _ _ _ _ _ _ R)|]. intros i t E. exact (thal_answers _ _ _ _ _ _ _ _ _ _ _ R E). Qed.
Print Assumptions C67_answers.
Example C67_answers_example : exists st, xrun false true (both 0 26 ++ repeat (Clean 0) 4 ++ close_all) = Some st /\
  map (fun t => (length (h_todo t), length (h_log t))) (n_thr st) = [(0, 2); (0, 2)].
Proof.
  destruct (digest_some _ _ _ _ _ _ x_whole) as (st & R & _ & _ & _ & _ & T). exists st. split; [exact R|].
  apply (f_equal (map (fun x => (fst (fst x), length (snd x))))) in T. rewrite map_map in T. cbn [map fst snd length] in T. rewrite <- T.
  apply map_ext. intros t. cbn [fst snd]. rewrite map_length. reflexivity.
Qed.

(* nothing waits for ever: a run that cannot go on has ended with all requests made, no buffer left and all ranks closed, or with a fault;
   every run can be continued to such an end, and none is longer than this bound *)
Theorem C67_ends store (handle : Z -> store -> bytes -> outcome (store * bytes)) accept eps debug threads ranks s0 ls st :
  run handle accept eps debug (started ranks threads s0) ls = Some st ->
  length ls <= 1 + 3 * length ranks + 14 * length (flat_map snd threads) /\
  (n_fault st = None -> (forall l, step handle accept eps debug st l = None) ->
     finished st /\ n_heap st = [] /\ n_clean st = [] /\ Forall (fun x => snd x = RDown) (n_ranks st)) /\
  exists more st', run handle accept eps debug (started ranks threads s0) (ls ++ more) = Some st' /\
    (n_fault st' <> None \/ (finished st' /\ n_heap st' = [] /\ n_clean st' = [] /\ Forall (fun x => snd x = RDown) (n_ranks st'))).
Proof.
  intros R. split; [exact (thal_bound _ _ _ _ _ _ _ _ _ R)|]. split; [exact (thal_stuck _ _ _ _ _ _ _ _ _ R)|].
  exact (thal_completes _ _ _ _ _ _ _ _ _ R).
Qed.
Print Assumptions C67_ends.
Example C67_ends_example : exists st, xrun false true (both 0 26 ++ repeat (Clean 0) 4 ++ close_all) = Some st /\ n_fault st = None /\ n_heap st = [].
Proof.
  destruct (digest_some _ _ _ _ _ _ x_whole) as (st & R & F & H & _). exists st. split; [exact R|]. split; [exact F|]. destruct (n_heap st); [reflexivity|discriminate H].
Qed.

(* the requests of clients: what can fail *)
Theorem C67_clients_partial E e0 k c eps threads debug ranks cl ls st :
  clients E e0 k c eps threads -> holds e0 cl (fun _ => ProofDs.opened k c) ->
  run (thal_handle e0) thal_accept eps debug (started ranks threads cl) ls = Some st ->
  (n_fault st = None \/ n_fault st = Some Late \/ n_fault st = Some Gone) /\
  ((forall me m q, In (me, m, q) threads -> m = true /\ In me ranks) -> n_fault st = None \/ n_fault st = Some Late) /\
  ((forall j, ~ In (Close j) ls) -> n_fault st = None).
(* missing: that nothing fails while the session ends, which is false: see below *)
Proof.
  intros C H R. split; [exact (real_faults E e0 k c eps threads C debug ranks cl H ls st R)|].
  split; [intros M; exact (real_main E e0 k c eps threads C debug ranks cl H ls st M R)|intros N; exact (real_open E e0 k c eps threads C debug ranks cl H ls st N R)].
Qed.
Print Assumptions C67_clients_partial.
Example C67_clients_example : clients xe (xe 0) InMemory ex_codec xeps (xthreads false) /\ holds (xe 0) (xcl InMemory) (fun _ => ProofDs.opened InMemory ex_codec) /\
  (forall me m q, In (me, m, q) (xthreads false) -> m = true /\ In me [0%Z; 1%Z]) /\
  exists st, xrun false true (both 0 26 ++ repeat (Clean 0) 4 ++ close_all) = Some st.
Proof.
  split; [apply xthreads_clients|]. split; [apply xcl_holds|]. split.
  - intros me m q J. unfold xthreads, negb in J. revert J. generalize (far_bytes (xe 0) xcalls0) (far_bytes (xe 1) xcalls1). intros q0 q1 [J|[J|[]]]; injection J as <- <- <-; cbn [In]; auto.
  - destruct (digest_some _ _ _ _ _ _ x_whole) as (st & R & _). exists st. exact R.
Qed.
(* every request that a client is done with was answered *)
Theorem C67_responses E e0 k c eps threads debug ranks cl ls st i t :
  clients E e0 k c eps threads -> holds e0 cl (fun _ => ProofDs.opened k c) ->
  run (thal_handle e0) thal_accept eps debug (started ranks threads cl) ls = Some st -> nth_error (n_thr st) i = Some t ->
  exists q done, nth_error threads i = Some (h_rank t, h_main t, q) /\ q = done ++ h_todo t /\
    Forall2 (fun '(dst, b) '(b', f) => b' = b /\ exists r m, f = Got r m /\ lookup dst (eps (h_rank t)) = Some r /\ thal_accept m = true) done (h_log t).
Proof. intros C H R. exact (real_answers E e0 k c eps threads C debug ranks cl H ls st i t R). Qed.
Print Assumptions C67_responses.
Example C67_responses_example : map (fun x => map (fun y => (fst y, length (snd y))) (snd x)) (xthreads false) = [[(1%Z, 134); (1%Z, 79)]; [(0%Z, 118); (0%Z, 110)]].
Proof. vm_compute. reflexivity. Qed.

(* an exchange does what the client model takes a call to do *)
Theorem C67_exchange e route cl k m r : route k = Some r -> remote_call e route cl k m =
  obind (msg_pack m) (fun b => obind (thal_handle e r cl b) (fun x => obind (unpack_response (snd x)) (fun a => Ok (fst x, a)))).
Proof. exact (thal_call e route cl k m r). Qed.
Print Assumptions C67_exchange.
Example C67_exchange_example : tl_route xl 0 [] 1 = Some 1%Z.
Proof. reflexivity. Qed.

(* the RPC "cleanup" has no response: a rank may have closed when it arrives, although no client is at work any more *)
Theorem C67_late_refuted : ~ forall E e0 k c eps threads debug ranks cl ls st,
  clients E e0 k c eps threads -> holds e0 cl (fun _ => ProofDs.opened k c) -> (forall me m q, In (me, m, q) threads -> m = true /\ In me ranks) ->
  run (thal_handle e0) thal_accept eps debug (started ranks threads cl) ls = Some st -> n_fault st = None.
Proof.
  intros H. destruct C67_clients_example as (C & D & M & _). destruct (digest_some _ _ _ _ _ _ x_late) as (st & R & F & _).
  specialize (H _ _ _ _ _ _ true _ _ _ _ C D M R). congruence.
Qed.
Print Assumptions C67_late_refuted.
(* Close waits for the background thread after the barrier: another rank may have closed when it sends *)
Theorem C67_gone_refuted : ~ forall E e0 k c eps threads debug ranks cl ls st,
  clients E e0 k c eps threads -> holds e0 cl (fun _ => ProofDs.opened k c) ->
  run (thal_handle e0) thal_accept eps debug (started ranks threads cl) ls = Some st -> n_fault st <> Some Gone.
Proof.
  intros H. destruct (digest_some _ _ _ _ _ _ x_gone) as (st & R & F & _).
  exact (H _ _ _ _ _ _ true _ _ _ _ (xthreads_clients true) (xcl_holds InMemory 0) R F).
Qed.
Print Assumptions C67_gone_refuted.
(* not every request of a client in a good setting has an endpoint (C40): the response is a null pointer, which is followed if the message is
   logged; if not, the request has vanished and nothing has failed *)
Theorem C67_endpoint_refuted : exists e k c threads, setting e /\ e_transport e = Some (fun d => lookup d (weps (e_rank e))) /\
  (forall me m q, In (me, m, q) threads -> me = e_rank e /\ q <> [] /\ Forall (asked e k c) q) /\
  (exists ls st, run (thal_handle e) thal_accept weps true (started (upto 6) threads (xcl InMemory)) ls = Some st /\ n_fault st = Some Null) /\
  (exists ls st b, run (thal_handle e) thal_accept weps false (started (upto 6) threads (xcl InMemory)) ls = Some st /\ n_fault st = None /\ finished st /\
     map h_log (n_thr st) = [[(b, Nowhere)]]).
Proof.
  exists (we 0), InMemory, ex_codec, wthreads. split; [exact we_setting|]. split; [reflexivity|]. split; [|split].
  - pose proof wthreads_asked as [A B]. unfold wthreads. revert A B. generalize (far_bytes (we 0) wcalls). intros q0 A B me m q [J|[]]. injection J as <- <- <-.
    split; [reflexivity|]. split; [intros ->; discriminate B|exact A].
  - destruct (digest_some _ _ _ _ _ _ w_null) as (st & R & F & _). exists [Thr 0 0], st. split; [exact R|exact F].
  - destruct (digest_some _ _ _ _ _ _ w_nowhere) as (st & R & F & _ & _ & _ & T). exists [Thr 0 0], st. unfold finished.
    destruct (n_thr st) as [|t [|]]; try discriminate T. injection T as T1 T2 T3. destruct (h_log t) as [|[b f] [|]] eqn:L; try discriminate T3.
    exists b. split; [exact R|]. split; [exact F|]. split.
    + constructor; [|constructor]. split; [destruct (h_todo t); [reflexivity|discriminate T1]|exact T2].
    + cbn [map]. rewrite L. destruct f; try discriminate T3. reflexivity.
Qed.
Print Assumptions C67_endpoint_refuted.
