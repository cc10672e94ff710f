(* The life of a session on one rank: Init, Open, OpenOne, queueing, Flush, Sync, ChangeDatastoreName, Close, with the objects
   that are allocated and released and the collective MPI calls that are made.
   Without the background PUT thread's work (ModelAsync.v): here it is only started and joined.
   What the requests contain and what datastores do with them is in ModelClient.v. *)
From Verif Require Import ModelBytes ModelElen ModelRoute.
Local Open Scope Z_scope.

(* include/hxhim/constants.h:22, 25, 28-41: the errors of Open are numbered from 0 *)
Definition HXHIM_SUCCESS : Z := 3.
Definition HXHIM_ERROR : Z := 4.
Inductive open_error := EBootstrap | ESetRunning | EHash | EDatastore | ETransport | EQueues | EAsyncPut.
Definition open_rc (e : open_error) : Z :=
  match e with EBootstrap => 0 | ESetRunning => 1 | EHash => 2 | EDatastore => 3 | ETransport => 4 | EQueues => 5 | EAsyncPut => 6 end.

(* objects on the heap, and the thread. Datastores of one session differ in their ids, packets in a number. *)
Inductive obj :=
| OPrivate                 (* hx->p *)
| ODsConfig                (* hx->p->range_server.datastores.config *)
| OTrConfig                (* hx->p->transport.config *)
| OCallbacks (id : Z)      (* the transformations given to Datastore::Init *)
| ODatastore (id : Z)
| OTransport
| OThread                  (* a running std::thread *)
| OPacket (n : N).         (* a request that has not been sent *)
(* what a call does, in order *)
Inductive ev := New (o : obj) | Del (o : obj) | Barrier | AllReduce | AllGather.

Inductive transport_kind := TrNull | TrMPI | TrThallium.
(* what a successful reading of the configuration leaves (ModelOptions.v); the options all have defaults *)
Record conf := mkConf { k_cr : Z; k_sr : Z; k_per : Z; k_async : Z; k_transport : transport_kind; k_open_init : bool }.
(* what is not decided by HXHIM: the communicator, whether the datastore with an id can be opened, whether the transport can
   be set up. Not modelled: MPI calls on a valid communicator that fail. *)
Record outside := mkOutside { o_rank : Z; o_size : Z; o_opens : Z -> bool; o_transport : bool }.

(* hxhim_private, include/hxhim/private/hxhim.hpp:52-140: the members that matter here. p_queues: puts, gets, getops, deletes,
   histograms, each indexed by datastore. p_comm: not MPI_COMM_NULL. p_ds: nullptr is None. *)
Record priv := mkPriv {
  p_comm : bool; p_rank : Z; p_size : Z; p_running : bool;
  p_conf : conf; p_config : bool; p_tconfig : bool;
  p_id : Z; p_total_rs : Z; p_total : Z; p_ds : list (option Z); p_transport : bool;
  p_queues : list (list (list N)); p_ds_to_rank : list Z; p_thread : bool; p_next : N }.
Definition set_comm p c r s := mkPriv c r s (p_running p) (p_conf p) (p_config p) (p_tconfig p) (p_id p) (p_total_rs p) (p_total p) (p_ds p) (p_transport p) (p_queues p) (p_ds_to_rank p) (p_thread p) (p_next p).
Definition set_running p x := mkPriv (p_comm p) (p_rank p) (p_size p) x (p_conf p) (p_config p) (p_tconfig p) (p_id p) (p_total_rs p) (p_total p) (p_ds p) (p_transport p) (p_queues p) (p_ds_to_rank p) (p_thread p) (p_next p).
Definition set_conf p k := mkPriv (p_comm p) (p_rank p) (p_size p) (p_running p) k (p_config p) (p_tconfig p) (p_id p) (p_total_rs p) (p_total p) (p_ds p) (p_transport p) (p_queues p) (p_ds_to_rank p) (p_thread p) (p_next p).
Definition set_config p x := mkPriv (p_comm p) (p_rank p) (p_size p) (p_running p) (p_conf p) x (p_tconfig p) (p_id p) (p_total_rs p) (p_total p) (p_ds p) (p_transport p) (p_queues p) (p_ds_to_rank p) (p_thread p) (p_next p).
Definition set_totals p i a b := mkPriv (p_comm p) (p_rank p) (p_size p) (p_running p) (p_conf p) (p_config p) (p_tconfig p) i a b (p_ds p) (p_transport p) (p_queues p) (p_ds_to_rank p) (p_thread p) (p_next p).
Definition set_ds p d := mkPriv (p_comm p) (p_rank p) (p_size p) (p_running p) (p_conf p) (p_config p) (p_tconfig p) (p_id p) (p_total_rs p) (p_total p) d (p_transport p) (p_queues p) (p_ds_to_rank p) (p_thread p) (p_next p).
Definition set_transport p x c := mkPriv (p_comm p) (p_rank p) (p_size p) (p_running p) (p_conf p) (p_config p) c (p_id p) (p_total_rs p) (p_total p) (p_ds p) x (p_queues p) (p_ds_to_rank p) (p_thread p) (p_next p).
Definition set_queues p q d n := mkPriv (p_comm p) (p_rank p) (p_size p) (p_running p) (p_conf p) (p_config p) (p_tconfig p) (p_id p) (p_total_rs p) (p_total p) (p_ds p) (p_transport p) q d (p_thread p) n.
Definition set_thread p x := mkPriv (p_comm p) (p_rank p) (p_size p) (p_running p) (p_conf p) (p_config p) (p_tconfig p) (p_id p) (p_total_rs p) (p_total p) (p_ds p) (p_transport p) (p_queues p) (p_ds_to_rank p) x (p_next p).

(* a pointer to a hxhim_t: null, or with hx->p null or not *)
Inductive handle := HNull | Hx (p : option priv).
(* started, src/hxhim/private.cpp:90-92 *)
Definition started (h : handle) : bool := match h with Hx (Some p) => p_running p | _ => false end.
Definition p_layout (p : priv) : layout := mkLayout (p_size p) (k_cr (p_conf p)) (k_sr (p_conf p)) (k_per (p_conf p)).
Definition async_enabled (p : priv) : bool := negb (k_async (p_conf p) =? 0).   (* options.cpp:469 *)

(* the five queues, each a vector of lists of packets *)
Definition no_queues : list (list (list N)) := [[]; []; []; []; []].

(* ---- Close ---- *)
(* MPI_Barrier on MPI_COMM_NULL is an error; the default error handler MPI_ERRORS_ARE_FATAL ends the process *)
Definition barrier (comm : bool) : outcome (list ev) := if comm then Ok [Barrier] else Throw.
(* destroy::async_puts, src/hxhim/destroy.cpp:39-52. wait_for_background_puts (private.cpp:25-58) with clear_queued drops the
   queued PUTs; it does not wait because running is false. std::thread::join throws std::system_error
   if the thread was never started. *)
Definition drop (l : list (list N)) : list ev := map (fun n => Del (OPacket n)) (concat l).
Definition destroy_async_puts (p : priv) : outcome (priv * list ev) :=
  if async_enabled p then
    let d := match p_queues p with puts :: _ => drop puts | [] => [] end in
    let p1 := set_queues p (match p_queues p with _ :: q => [] :: q | [] => [] end) (p_ds_to_rank p) (p_next p) in
    if p_thread p then Ok (set_thread p1 false, d ++ [Del OThread]) else Throw
  else Ok (p, []).
(* destroy::queues, destroy.cpp:69-87: the packets are released, the queues keep the pointers *)
Definition destroy_queues (p : priv) : list ev := concat (map drop (p_queues p)).
(* destroy::transport, Transport::destroy: src/transport/transports.cpp:46-56 *)
Definition destroy_transport (p : priv) : priv * list ev :=
  (set_transport p false false,
   (if p_transport p then [Del OTransport] else []) ++ (if p_tconfig p then [Del OTrConfig] else [])).
(* destroy::datastore, Datastore::destroy: src/datastore/datastores.cpp:139-154; ~Datastore releases the transformations
   (datastore.cpp:45-48) *)
Definition drop_ds (o : option Z) : list ev := match o with Some i => [Del (OCallbacks i); Del (ODatastore i)] | None => [] end.
Definition destroy_datastore (p : priv) : priv * list ev :=
  (set_config (set_ds p (map (fun _ => None) (p_ds p))) false,
   concat (map drop_ds (p_ds p)) ++ (if p_config p then [Del ODsConfig] else [])).
(* Close, src/hxhim/hxhim.cpp:231-276. Sync does nothing because running is already false (ops/SYNC.cpp:15-17). *)
Definition close (h : handle) : outcome (Z * handle * list ev) :=
  match h with
  | HNull | Hx None => Ok (HXHIM_ERROR, h, [])
  | Hx (Some p) =>
      let p1 := set_running p false in
      do b <- barrier (p_comm p1);
      do (p2, a) <- destroy_async_puts p1;
      let q := destroy_queues p2 in
      let (p3, t) := destroy_transport p2 in
      let (p4, d) := destroy_datastore p3 in
      Ok (HXHIM_SUCCESS, Hx None, b ++ a ++ q ++ t ++ d ++ [Del OPrivate])
  end.

(* ---- Init ---- *)
(* hxhim::Init, hxhim.cpp:54-72; hxhim_private::hxhim_private, private.cpp:7-20. default_reader (config.cpp:410-446) fails only
   if the communicator is MPI_COMM_NULL or the built-in default configuration is not accepted; the former is stored in
   either case (hxhim_set_mpi_bootstrap, options.cpp:19-25). An existing hx->p is overwritten.
   comm: not MPI_COMM_NULL. k: what the configuration says *)
Definition fresh (comm : bool) (k : conf) (configs : bool) : priv :=
  mkPriv comm 0 0 false k configs configs 0 0 0 [] false no_queues [] false 0.
Definition no_conf : conf := mkConf 0 0 0 0 TrNull true.
Definition init (comm : bool) (k : conf) (h : handle) : outcome (Z * handle * list ev) :=
  match h with
  | HNull => Ok (HXHIM_ERROR, h, [])
  | Hx _ =>
      if comm then Ok (HXHIM_SUCCESS, Hx (Some (fresh true k true)), [New OPrivate; New ODsConfig; New OTrConfig])
      else do (r, t) <- close (Hx (Some (fresh false no_conf false)));
           Ok (HXHIM_ERROR, snd r, New OPrivate :: t)
  end.

(* ---- Open ---- *)
(* init::bootstrap, src/hxhim/init.cpp:18-31 *)
Definition init_bootstrap (o : outside) (p : priv) : option priv :=
  if p_comm p then Some (set_comm p true (o_rank o) (o_size o)) else None.
(* Datastore::Init, src/datastore/datastores.cpp:20-137, in the calls of init::datastore. The transformations have been
   allocated by init::transform (init.cpp:84-100) before.
   Not modelled: mkdir_p, reading the histograms (ModelDs.v) *)
Definition ds_init (o : outside) (p : priv) (id : Z) : outcome (bool * list ev) :=
  if (p_rank p <? 0) || (id <? 0) then Ok (false, [New (OCallbacks id)])
  else if negb (p_config p) then UB                                    (* config->type *)
  else if negb (k_open_init (p_conf p)) || o_opens o id then Ok (true, [New (OCallbacks id); New (ODatastore id)])
  else Ok (false, [New (OCallbacks id); New (ODatastore id); Del (OCallbacks id); Del (ODatastore id)]).
(* the loop of init::datastore, init.cpp:155-170: stops at the first failure, the rest stay nullptr *)
Fixpoint ds_inits (o : outside) (p : priv) (n : nat) (id : Z) : outcome (list (option Z) * bool * list ev) :=
  match n with
  | O => Ok ([], true, [])
  | S n' =>
      do (ok, t) <- ds_init o p id;
      if ok then do (r, t') <- ds_inits o p n' (id + 1); Ok (Some id :: fst r, snd r, t ++ t')
      else Ok (repeat None n, false, t)
  end.
(* init::datastore, init.cpp:110-174 *)
Definition init_stores (o : outside) (p : priv) : outcome (priv * bool * list ev) :=
  let L := p_layout p in
  if (l_cr L =? 0) || (l_sr L =? 0) || (l_per L =? 0) then Ok (p, false, [])
  else
    let p1 := set_totals p (rs_get_id_in (p_rank p) (l_size L) (l_cr L) (l_sr L)) (total_range_servers L) (total_datastores L) in
    if p_id p1 <? 0 then Ok (p1, true, [])
    else do (r, t) <- ds_inits o p1 (Z.to_nat (l_per L)) (ds_get_id_in (p_rank p) 0 (l_size L) (l_cr L) (l_sr L) (l_per L));
         Ok (set_ds p1 (fst r), snd r, t).
(* init::transport, init.cpp:324-348; Transport::init, transports.cpp:4-44; the collective calls of get_addrs,
   src/transport/backend/Thallium/Utilities.cpp:11-50. A failure of Thallium::init comes after them. *)
Definition init_transport (o : outside) (p : priv) : outcome (priv * bool * list ev) :=
  if (k_cr (p_conf p) =? 0) || (k_sr (p_conf p) =? 0) then Ok (p, false, [])
  else if negb (p_tconfig p) then UB                                   (* opts->type *)
  else match k_transport (p_conf p) with
       | TrNull => Ok (p, true, [])
       | k => let c := match k with TrThallium => [AllReduce; AllGather] | _ => [] end in
              if o_transport o then Ok (set_transport p true (p_tconfig p), true, c ++ [New OTransport])
              else Ok (p, false, c)
       end.
(* init::queues, init.cpp:53-80. std::vector::resize keeps what is there. *)
Definition resize {A} (l : list A) (n : nat) (x : A) : list A := firstn n l ++ repeat x (n - length l).
Definition init_queues (p : priv) : priv :=
  let n := Z.to_nat (p_total p) in
  set_queues p (map (fun q => resize q n []) (p_queues p)) (map (ds_to_rank (p_layout p)) (upto (p_total p))) (p_next p).
(* init::async_puts, init.cpp:290-306 *)
Definition init_async_puts (p : priv) : priv * list ev :=
  let p1 := set_running p true in
  if async_enabled p1 then (set_thread p1 true, [New OThread]) else (p1, []).

(* the label error of Open, hxhim.cpp:157-163. What Close returns is not looked at. *)
Definition open_fail (e : open_error) (p : priv) (t : list ev) : outcome (Z * handle * list ev) :=
  do b <- match e with EBootstrap => Ok [] | _ => barrier (p_comm p) end;
  do (r, t') <- close (Hx (Some p));
  Ok (open_rc e, snd r, t ++ b ++ t').
(* Open, hxhim.cpp:94-164. init::running, hash, queues and async_puts do not fail. *)
Definition open (o : outside) (h : handle) : outcome (Z * handle * list ev) :=
  if started h then Ok (HXHIM_ERROR, h, []) else
  match h with
  | HNull | Hx None => UB                                               (* hx->p->debug_level *)
  | Hx (Some p) =>
      match init_bootstrap o p with
      | None => open_fail EBootstrap p []
      | Some p1 =>
          let p2 := set_running p1 true in
          do (p3ok, t1) <- init_stores o p2;
          if negb (snd p3ok) then open_fail EDatastore (fst p3ok) t1 else
          do (p4ok, t2) <- init_transport o (fst p3ok);
          if negb (snd p4ok) then open_fail ETransport (fst p4ok) (t1 ++ t2) else
          let p5 := init_queues (fst p4ok) in
          let (p6, t3) := init_async_puts p5 in
          do b <- barrier (p_comm p6);
          Ok (HXHIM_SUCCESS, Hx (Some p6), t1 ++ t2 ++ t3 ++ b)
      end
  end.

(* ---- OpenOne, hxhim.cpp:186-209; init::one_datastore, init.cpp:184-215 ---- *)
Definition init_one_datastore (o : outside) (p : priv) : outcome (priv * bool * list ev) :=
  let (p1, t1) := destroy_datastore p in
  let k := p_conf p1 in
  let p2 := set_conf p1 (mkConf 1 1 (k_per k) (k_async k) (k_transport k) (k_open_init k)) in
  do (ok, t2) <- ds_init o p2 0;
  if ok then Ok (set_totals (set_ds p2 (p_ds p2 ++ [Some 0])) 0 1 (p_total p2), true, t1 ++ t2) else Ok (p2, false, t1 ++ t2).
Definition open_one_fail (p : priv) (t : list ev) : outcome (Z * handle * list ev) :=
  do b <- barrier (p_comm p);
  do (r, t') <- close (Hx (Some p));
  Ok (HXHIM_ERROR, snd r, t ++ b ++ t').
Definition open_one (o : outside) (h : handle) : outcome (Z * handle * list ev) :=
  if started h then Ok (HXHIM_ERROR, h, []) else
  match h with
  | HNull | Hx None => UB
  | Hx (Some p) =>
      match init_bootstrap o p with
      | None => open_one_fail p []
      | Some p1 =>
          if negb (p_size p1 =? 1) then open_one_fail p1 [] else
          do (p3ok, t1) <- init_one_datastore o (set_running p1 true);
          if negb (snd p3ok) then open_one_fail (fst p3ok) t1 else
          let (p5, t2) := init_async_puts (init_queues (fst p3ok)) in
          do b <- barrier (p_comm p5);
          Ok (HXHIM_SUCCESS, Hx (Some p5), t1 ++ t2 ++ b)
      end
  end.

(* ---- between Open and Close ---- *)
Fixpoint upd {A} (l : list A) (n : nat) (f : A -> A) : option (list A) :=
  match l, n with
  | [], _ => None
  | x :: l', O => Some (f x :: l')
  | x :: l', S n' => option_map (cons x) (upd l' n' f)
  end.
(* Put, Get, GetOp, Delete, Histogram of queue k (0 to 4), on a datastore; setup_packet, ops/impl.cpp:37-49, either allocates a
   packet or uses the last one. Indexing a vector past its end is undefined. *)
Definition enqueue (k : nat) (id : Z) (new : bool) (h : handle) : outcome (Z * handle * list ev) :=
  match h with
  | Hx (Some p) =>
      if negb (p_running p) then Ok (HXHIM_ERROR, h, []) else
      if id <? 0 then UB else
      match nth_error (p_queues p) k with
      | None => UB
      | Some q =>
          match nth_error q (Z.to_nat id) with
          | None => UB
          | Some l =>
              if new || match l with [] => true | _ => false end then
                match upd q (Z.to_nat id) (fun l => l ++ [p_next p]) with
                | None => UB
                | Some q' =>
                    match upd (p_queues p) k (fun _ => q') with
                    | None => UB
                    | Some qs => Ok (HXHIM_SUCCESS, Hx (Some (set_queues p qs (p_ds_to_rank p) (p_next p + 1)%N)), [New (OPacket (p_next p))])
                    end
                end
              else Ok (HXHIM_SUCCESS, h, [])
          end
      end
  | _ => Ok (HXHIM_ERROR, h, [])
  end.

(* one round of process, include/hxhim/private/process.hpp:28-150: the first packet of every non-empty queue. Packets for
   this rank are carried out and released; packets for other ranks are put into a map by rank (a second packet
   for the same rank replaces the first, which is then in no list any more), sent, and released. *)
Definition map_set (m : list (Z * N)) (r : Z) (n : N) : list (Z * N) :=
  filter (fun x => negb (fst x =? r)) m ++ [(r, n)].
Fixpoint fronts (me : Z) (ranks : list Z) (q : list (list N)) (local : list N) (remote : list (Z * N)) : outcome (list (list N) * list N * list (Z * N)) :=
  match q with
  | [] => Ok ([], local, remote)
  | [] :: q' =>
      do (r, m) <- fronts me (tl ranks) q' local remote; Ok ([] :: fst r, snd r, m)
  | (n :: l) :: q' =>
      match ranks with
      | [] => UB                                                       (* ds_to_rank[dst] *)
      | r :: ranks' =>
          do (x, m) <- (if r =? me then fronts me ranks' q' (local ++ [n]) remote
                        else fronts me ranks' q' local (map_set remote r n));
          Ok (l :: fst x, snd x, m)
      end
  end.
(* hx->p->transport.transport->communicate: null without a transport *)
Definition round (p : priv) (q : list (list N)) : outcome (list (list N) * list ev) :=
  do (x, remote) <- fronts (p_rank p) (p_ds_to_rank p) q [] [];
  match remote, p_transport p with
  | _ :: _, false => UB
  | _, _ => Ok (fst x, map (fun rn => Del (OPacket (snd rn))) remote ++ map (fun n => Del (OPacket n)) (snd x))
  end.
Fixpoint rounds (fuel : nat) (p : priv) (q : list (list N)) : outcome (list (list N) * list ev) :=
  match fuel with
  | O => Ok (q, [])
  | S fuel' =>
      if forallb (fun l => match l with [] => true | _ => false end) q then Ok (q, [])
      else do (q', t) <- round p q; do (q'', t') <- rounds fuel' p q'; Ok (q'', t ++ t')
  end.
(* every round takes a packet away *)
Definition process (p : priv) (q : list (list N)) : outcome (list (list N) * list ev) := rounds (length (concat q)) p q.
Fixpoint process_all (p : priv) (qs : list (list (list N))) : outcome (list (list (list N)) * list ev) :=
  match qs with
  | [] => Ok ([], [])
  | q :: qs' => do (q', t) <- process p q; do (r, t') <- process_all p qs'; Ok (q' :: r, t ++ t')
  end.
(* Flush, ops/FLUSH.cpp:211-235, and what it calls; nothing checks the session. Results are not objects here (ModelResults.v). *)
Definition flush (h : handle) : outcome (Z * handle * list ev) :=
  match h with
  | HNull | Hx None => UB
  | Hx (Some p) => do (qs, t) <- process_all p (p_queues p); Ok (HXHIM_SUCCESS, Hx (Some (set_queues p qs (p_ds_to_rank p) (p_next p))), t)
  end.
(* Sync, ops/SYNC.cpp:14-60. HXHIM_ERROR stands for a null pointer. *)
Definition sync (h : handle) : outcome (Z * handle * list ev) :=
  if negb (started h) then Ok (HXHIM_ERROR, h, []) else
  do (r, t) <- flush h;
  match snd r with
  | Hx (Some p) => do b <- barrier (p_comm p); Ok (HXHIM_SUCCESS, snd r, t ++ b)
  | _ => UB
  end.
(* ChangeDatastoreName, hxhim.cpp:363-406, and ChangeHash, 299-330: Sync, then two barriers; the datastore objects stay *)
Definition change (h : handle) : outcome (Z * handle * list ev) :=
  if negb (started h) then Ok (HXHIM_ERROR, h, []) else
  do (r, t) <- sync h;
  match snd r with
  | Hx (Some p) => do b <- barrier (p_comm p); do b' <- barrier (p_comm p); Ok (HXHIM_SUCCESS, snd r, t ++ b ++ b')
  | _ => UB
  end.

(* the functions of accessors.cpp that ask started (117-123, 158-164, 195-201, 236-242, 316-322, 337-346, 381-387, 432-438), and
   those of options.cpp that want a session that exists and is not running (e.g. 19-25, 34-42) *)
Definition accessor (h : handle) : outcome (Z * handle * list ev) :=
  Ok (if started h then HXHIM_SUCCESS else HXHIM_ERROR, h, []).
(* hxhim_set_start_async_puts_at, options.cpp:464-473, as an example of an option that is set *)
Definition set_option (k : conf -> conf) (h : handle) : outcome (Z * handle * list ev) :=
  match h with
  | Hx (Some p) => if p_running p then Ok (HXHIM_ERROR, h, []) else Ok (HXHIM_SUCCESS, Hx (Some (set_conf p (k (p_conf p)))), [])
  | _ => Ok (HXHIM_ERROR, h, [])
  end.
(* hxhim_results_destroy, src/hxhim/Results.cpp:779-788, of results of this session; they are released *)
Definition results_destroy (h : handle) : outcome (Z * handle * list ev) :=
  match h with Hx (Some _) => Ok (HXHIM_SUCCESS, h, []) | _ => UB end.

Inductive call :=
| CInit (comm : bool) (k : conf) | COpen | COpenOne | CClose
| CEnqueue (k : nat) (id : Z) (new : bool) | CFlush | CSync | CChange | CAccessor | CSetOption (k : conf -> conf) | CResultsDestroy.
Definition do_call (o : outside) (c : call) (h : handle) : outcome (Z * handle * list ev) :=
  match c with
  | CInit comm k => init comm k h | COpen => open o h | COpenOne => open_one o h | CClose => close h
  | CEnqueue k id new => enqueue k id new h | CFlush => flush h | CSync => sync h | CChange => change h
  | CAccessor => accessor h | CSetOption k => set_option k h | CResultsDestroy => results_destroy h
  end.
Fixpoint do_calls (o : outside) (l : list call) (h : handle) : outcome (list Z * handle * list ev) :=
  match l with
  | [] => Ok ([], h, [])
  | c :: l' =>
      do (r, t) <- do_call o c h;
      do (r', t') <- do_calls o l' (snd r);
      Ok (fst r :: fst r', snd r', t ++ t')
  end.
