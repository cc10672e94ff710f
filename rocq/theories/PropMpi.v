(* C65, C66: the MPI transport *)
From Verif Require Import ModelBytes ModelRoute ModelMpi SpecMpi ProofMpi ProofMpi6 ExampleMpi.
From Verif Require ModelMsg SpecMsg ModelClient ModelMpiServe SpecRoute.
From Coq Require Import Permutation.
Local Open Scope nat_scope.

(* C65: what a client receives answers what it sent. Missing: more than one thread of a rank that sends; range servers not numbered like
   ranks; and the constant that the code compares with (okc stands for it): see the refutations. *)
Theorem C65_answers_partial : forall store (handle : Z -> store -> bytes -> outcome (store * (Z * bytes))) eager okc eps listeners clients s0 ls st i c th,
  ids_are_ranks eps -> NoDup (map fst clients) -> (forall me cs k, In (me, cs) clients -> In k cs -> call_ok handle me k) ->
  run handle eager okc eps (started listeners clients s0) ls = Some st -> nth_error (n_cli st) i = Some (c, th) ->
  exists calls done, nth_error clients i = Some (c, calls) /\ calls = done ++ h_todo th /\
    map fst (h_log th) ++ cur (h_at th) = map (targets okc eps c) done /\
    Forall (fun x => Permutation (map fst (fst x)) (map (fun y => snd (fst y)) (snd x))) (h_log th) /\
    forall s, exists tail, exchanged c s (n_hist st) = completed s (h_log th) ++ tail /\ length tail <= 1 /\ (h_at th = CIdle -> tail = []).
Proof. intros store handle eager okc eps listeners clients s0 ls st i c th A B C R E. exact (mpi_logs handle eager okc eps listeners clients s0 A B C ls st i c th R E). Qed.
Print Assumptions C65_answers_partial.
(* what the servers did is a sequence of whole requests *)
Theorem C65_carried_partial : forall store (handle : Z -> store -> bytes -> outcome (store * (Z * bytes))) eager okc eps listeners clients s0 ls st,
  ids_are_ranks eps -> NoDup (map fst clients) -> (forall me cs k, In (me, cs) clients -> In k cs -> call_ok handle me k) ->
  run handle eager okc eps (started listeners clients s0) ls = Some st -> carried handle s0 (n_hist st) (n_store st).
Proof. intros store handle eager okc eps listeners clients s0 ls st A B C R. exact (mpi_carried handle eager okc eps listeners clients s0 A B C ls st R). Qed.
Print Assumptions C65_carried_partial.
(* no message is longer or shorter than the buffer it is received in; a failure is that of a request that cannot be served *)
Theorem C65_faults_partial : forall store (handle : Z -> store -> bytes -> outcome (store * (Z * bytes))) eager okc eps listeners clients s0 ls st,
  ids_are_ranks eps -> NoDup (map fst clients) -> (forall me cs k, In (me, cs) clients -> In k cs -> call_ok handle me k) ->
  run handle eager okc eps (started listeners clients s0) ls = Some st ->
  n_fault st = None \/
  (n_fault st = Some Failed /\ exists me c b cs k d, In (me, LGot c b) (n_lis st) /\ In (c, cs) clients /\ In k cs /\ In (d, b) k /\ lookup d (eps c) = Some me /\
     forall x, handle me (n_store st) b <> Ok x).
Proof. intros store handle eager okc eps listeners clients s0 ls st A B C R. exact (mpi_faults handle eager okc eps listeners clients s0 A B C ls st R). Qed.
Print Assumptions C65_faults_partial.
(* three ranks ask each other; any run *)
Example C65_example : ids_are_ranks (eps_all 3) /\ NoDup (map fst round) /\ (forall me cs k, In (me, cs) round -> In k cs -> call_ok echo me k) /\
  run echo sizes_only MESSAGE_SUCCESS (eps_all 3) (started [0; 1; 2]%Z round []) circle = Some circle_in /\ length (n_hist circle_in) = 3.
Proof.
  split; [exact ids3|]. split; [cbn [round map fst]; repeat (constructor; [cbn; intuition discriminate|]); constructor|]. split; [exact round_ok|].
  split; [exact (proj1 circle_run)|vm_compute; reflexivity].
Qed.
(* layouts that are so: every rank is a range server, or there are no more ranks than in one group *)
Theorem C65_layouts_partial : forall L group, SpecRoute.good L -> (l_cr L <= l_sr L \/ l_size L <= l_cr L)%Z -> ids_are_ranks (fun me => mpi_endpoints L me (group me)).
Proof. exact mpi_ids. Qed.
Print Assumptions C65_layouts_partial.
Example C65_layouts_example : SpecRoute.good (mkLayout 3 1 1 1) /\ mpi_endpoints (mkLayout 3 1 1 1) 1 (upto 3) = [(0, 0); (2, 2)]%Z.
Proof. split; [exact good3|reflexivity]. Qed.
(* the requests of hxhim are answered to the rank that sent them *)
Theorem C65_requests_partial : forall e me c, NoDup (map fst c) ->
  Forall (fun x => exists m, SpecMsg.is_request m /\ SpecMsg.msg_ok m /\ ModelMsg.m_src m = me /\ ModelMsg.msg_pack m = Ok (snd x)) c ->
  call_ok (ModelMpiServe.mpi_handle e) me c.
Proof. exact mpi_call_ok. Qed.
Print Assumptions C65_requests_partial.
(* one exchange has the effect and the answer of remote_call, on which the theorems about whole operations rest *)
Theorem C65_exchange_partial : forall e route cl k m r, route k = Some r -> ModelClient.remote_call e route cl k m =
  obind (ModelMsg.msg_pack m) (fun b => obind (ModelMpiServe.mpi_handle e r cl b) (fun x => obind (ModelMsg.unpack_response (snd (snd x))) (fun a => Ok (fst x, a)))).
Proof. exact mpi_call. Qed.
Print Assumptions C65_exchange_partial.
(* two threads of a rank: the program ends because a message is longer than the buffer; a thread gets the answer of the other *)
Theorem C65_truncated_refuted : exists (handle : Z -> list bytes -> bytes -> outcome (list bytes * (Z * bytes))) eager eps listeners clients s0 ls st,
  (forall me cs k, In (me, cs) clients -> In k cs -> call_ok handle me k) /\ eps = eps_all 2 /\
  run handle eager MESSAGE_SUCCESS eps (started listeners clients s0) ls = Some st /\ n_fault st = Some Truncated.
Proof.
  destruct (run echo always MESSAGE_SUCCESS (eps_all 2) (started [1%Z] long_short []) cut) as [st|] eqn:E; [|pose proof cut_run as R; rewrite E in R; discriminate R].
  pose proof cut_run as R. rewrite E in R. exists echo, always, (eps_all 2), [1%Z], long_short, [], cut, st.
  split; [exact long_short_ok|]. split; [reflexivity|]. split; [exact E|]. cbn [option_map] in R. congruence.
Qed.
Print Assumptions C65_truncated_refuted.
Theorem C65_swapped_refuted : exists (handle : Z -> list bytes -> bytes -> outcome (list bytes * (Z * bytes))) eager eps listeners clients s0 ls st c d,
  (forall me cs k, In (me, cs) clients -> In k cs -> call_ok handle me k) /\ eps = eps_all 2 /\
  run handle eager MESSAGE_SUCCESS eps (started listeners clients s0) ls = Some st /\ n_fault st = None /\ c <> d /\
  map (fun x => h_log (snd x)) (n_cli st) = [[([(1%Z, c)], [(0, 1%Z, d ++ bstr "!")])]; [([(1%Z, d)], [(0, 1%Z, c ++ bstr "!")])]] /\
  (forall me s b, exists s' a, handle me s b = Ok (s', (a, b ++ bstr "!"))).
Proof.
  destruct (run echo always MESSAGE_SUCCESS (eps_all 2) (started [1%Z] same_length []) swap) as [st|] eqn:E; [|pose proof swap_run as R; rewrite E in R; discriminate R].
  pose proof swap_run as R. rewrite E in R. cbn [option_map] in R. injection R as R1 R2. exists echo, always, (eps_all 2), [1%Z], same_length, [], swap, st, (bstr "0a"), (bstr "0b").
  split; [exact same_length_ok|]. split; [reflexivity|]. split; [exact E|]. split; [exact R1|]. split; [discriminate|]. split; [exact R2|].
  intros me s b. eexists _, _. reflexivity.
Qed.
Print Assumptions C65_swapped_refuted.
(* the code compares the result of packing with TRANSPORT_SUCCESS: nothing is sent, carried out or returned, whatever is asked *)
Theorem C65_nothing_refuted : forall store (handle : Z -> store -> bytes -> outcome (store * (Z * bytes))) eager eps s0 listeners clients ls st,
  run handle eager TRANSPORT_SUCCESS eps (started listeners clients s0) ls = Some st ->
  n_pks st = [] /\ n_hist st = [] /\ n_store st = s0 /\ Forall (fun x => Forall (fun y => y = ([], [])) (h_log (snd x))) (n_cli st).
Proof. intros store handle eager eps s0 listeners clients ls st. exact (mpi_nothing handle eager TRANSPORT_SUCCESS eps (fun E => ltac:(discriminate E)) s0 listeners clients ls st). Qed.
Print Assumptions C65_nothing_refuted.
(* nor would the answers be returned if they came *)
Theorem C65_returned_refuted : forall l x, ModelMpiServe.mpi_returned TRANSPORT_SUCCESS l = Ok x -> x = [].
Proof. intros l x. exact (mpi_returned_none TRANSPORT_SUCCESS l x (fun E => ltac:(discriminate E))). Qed.
Print Assumptions C65_returned_refuted.
Example C65_nothing_example : option_map (fun st => (n_hist st, map (fun x => (h_todo (snd x), h_log (snd x))) (n_cli st)))
  (run echo always TRANSPORT_SUCCESS (eps_all 2) (started [1%Z] [(0%Z, [[(1%Z, bstr "0a")]])] []) (rep 5 (Cli 0 0))) = Some ([], [([], [([], [])])]).
Proof. vm_compute. reflexivity. Qed.

(* C66: runs are short and do not get stuck. Missing: as for C65; with fewer listeners than client threads, MPI must not wait for a receiver. *)
Theorem C66_bounded_partial : forall store (handle : Z -> store -> bytes -> outcome (store * (Z * bytes))) eager okc eps listeners clients s0 ls st,
  run handle eager okc eps (started listeners clients s0) ls = Some st ->
  length ls <= 1 + fold_right Nat.add 0 (map (fun c => 5 + 12 * length c) (flat_map snd clients)).
Proof. intros store handle eager okc eps listeners clients s0 ls st. exact (mpi_bound handle eager okc eps listeners clients s0 ls st). Qed.
Print Assumptions C66_bounded_partial.
Theorem C66_stuck_partial : forall store (handle : Z -> store -> bytes -> outcome (store * (Z * bytes))) eager okc eps listeners clients s0 ls st,
  ids_are_ranks eps -> NoDup (map fst clients) -> (forall me cs k, In (me, cs) clients -> In k cs -> call_ok handle me k) ->
  ((forall p, eager p = true) /\ listening eps 1 listeners) \/ listening eps (length clients) listeners ->
  run handle eager okc eps (started listeners clients s0) ls = Some st -> n_fault st = None ->
  (forall l, step handle eager okc eps st l = None) -> finished st.
Proof.
  intros store handle eager okc eps listeners clients s0 ls st A B C L R. exact (mpi_done handle eager okc eps listeners clients s0 A B C ls st R L).
Qed.
Print Assumptions C66_stuck_partial.
Theorem C66_completes_partial : forall store (handle : Z -> store -> bytes -> outcome (store * (Z * bytes))) eager okc eps listeners clients s0 ls st,
  ids_are_ranks eps -> NoDup (map fst clients) -> (forall me cs k, In (me, cs) clients -> In k cs -> call_ok handle me k) ->
  ((forall p, eager p = true) /\ listening eps 1 listeners) \/ listening eps (length clients) listeners ->
  (forall me cs c d b r s, In (me, cs) clients -> In c cs -> In (d, b) c -> exists x, handle r s b = Ok x) ->
  run handle eager okc eps (started listeners clients s0) ls = Some st ->
  exists more st', run handle eager okc eps (started listeners clients s0) (ls ++ more) = Some st' /\ finished st'.
Proof.
  intros store handle eager okc eps listeners clients s0 ls st A B C L S R. exact (mpi_completes handle eager okc eps listeners clients s0 A B C ls st R L S).
Qed.
Print Assumptions C66_completes_partial.
(* three ranks that ask each other, with three listeners each *)
Example C66_example : listening (eps_all 3) (length round) three_each /\ (forall me s b, exists x, echo me s b = Ok x) /\
  exists more st', run echo sizes_only MESSAGE_SUCCESS (eps_all 3) (started three_each round []) ([] ++ more) = Some st' /\ finished st'.
Proof.
  split; [exact three_listen|]. split; [intros; eexists; reflexivity|].
  apply (C66_completes_partial _ echo sizes_only MESSAGE_SUCCESS (eps_all 3) three_each round [] [] (started three_each round []) ids3 (proj1 (proj2 C65_example)) round_ok (or_intror three_listen)).
  - intros. eexists. reflexivity.
  - reflexivity.
Qed.
(* one listener each, and data that waits for its receiver: everybody waits for somebody *)
Theorem C66_deadlock_refuted : exists (handle : Z -> list bytes -> bytes -> outcome (list bytes * (Z * bytes))) eager eps listeners clients s0 ls st,
  ids_are_ranks eps /\ NoDup (map fst clients) /\ (forall me cs k, In (me, cs) clients -> In k cs -> call_ok handle me k) /\ listening eps 1 listeners /\
  (forall n, eager (PSize n) = true) /\ run handle eager MESSAGE_SUCCESS eps (started listeners clients s0) ls = Some st /\
  n_fault st = None /\ (forall l, step handle eager MESSAGE_SUCCESS eps st l = None) /\ ~ finished st.
Proof.
  exists echo, sizes_only, (eps_all 3), [0; 1; 2]%Z, round, [], circle, circle_in.
  split; [exact ids3|]. split; [exact (proj1 (proj2 C65_example))|]. split; [exact round_ok|]. split; [exact one_listens|]. split; [reflexivity|].
  split; [exact (proj1 circle_run)|]. split; [exact (proj1 (proj2 circle_run))|]. split; [exact circle_stuck|exact circle_waits].
Qed.
Print Assumptions C66_deadlock_refuted.
(* range servers not numbered like ranks: the answer is expected from another rank than the request was sent to *)
Theorem C66_ids_refuted : exists (handle : Z -> list bytes -> bytes -> outcome (list bytes * (Z * bytes))) eager L listeners clients s0 ls st, let eps := fun me => mpi_endpoints L me (upto (l_size L)) in
  SpecRoute.good L /\ NoDup (map fst clients) /\ (forall me cs k, In (me, cs) clients -> In k cs -> call_ok handle me k) /\ listening eps 1 listeners /\
  (forall p, eager p = true) /\ run handle eager MESSAGE_SUCCESS eps (started listeners clients s0) ls = Some st /\
  n_fault st = None /\ (forall l, step handle eager MESSAGE_SUCCESS eps st l = None) /\ ~ finished st.
Proof.
  exists echo, always, L7, [0; 1; 3; 4; 6]%Z, ask, [], lost, lost_in. cbv zeta.
  split; [exact L7_good|]. split; [constructor; [intros []|constructor]|]. split; [exact ask_ok|]. split; [exact listens7|]. split; [reflexivity|].
  split; [exact (proj1 lost_run)|]. split; [vm_compute; reflexivity|]. split; [exact lost_stuck|exact lost_waits].
Qed.
Print Assumptions C66_ids_refuted.
