(* The client side of a session: queueing operations, flushing them, turning responses into results.
   src/hxhim/ops/*.cpp, include/hxhim/private/process.hpp, src/hxhim/Results.cpp, src/hxhim/private.cpp.
   One client at a time, without the background thread (async_puts disabled; see ModelAsync.v).
   Memory a call refers to is assumed to stay as it is until it is flushed. Statistics are in ModelStats.v; times in ModelTimes.v; logging
   is not modelled. *)
From Verif Require Import ModelBytes ModelKey ModelWire ModelHist ModelMsg ModelStore ModelGetOp ModelDs ModelElen ModelRoute.
Local Open Scope N_scope.

(* What is fixed when a session is opened: include/hxhim/private/hxhim.hpp 51-151.
   e_total: range_server.datastores.total. e_transport: None if transport.transport is null
   (TRANSPORT_NULL), otherwise the rank that a request with a given dst_rank is delivered to
   (tl_route for Thallium; always None for MPI, which sends nothing). e_iter: the order in which an
   unordered_map is walked. *)
Record env := mkEnv {
  e_layout : layout; e_total : Z; e_rank : Z; e_hash : hash_fn;
  e_max_ops : N; e_max_size : N; e_max_queued : N; e_hist_write : bool;
  e_transport : option (Z -> option Z);
  e_iter : list (Z * msg) -> list (Z * msg)
}.

(* datastores by rank and offset; None: no such element of range_server.datastores.ds *)
Definition cluster := Z -> Z -> option ds.
Definition cl_set (cl : cluster) (r off : Z) (d : ds) : cluster :=
  fun r' off' => if (r' =? r)%Z && (off' =? off)%Z then Some d else cl r' off'.

(* A field passed by the caller: address, bytes, type. Address 0 is the null pointer. *)
Record arg := mkArg { a_addr : N; a_data : bytes; a_type : N }.
(* ReferenceBlob, src/utils/Blob.cpp:273-276 *)
Definition ref_blob (a : arg) : blob := mkBlob (a_addr a =? 0) (a_data a) (a_type a).
(* not null and not of length 0 *)
Definition given (a : arg) : bool := negb (a_addr a =? 0) && negb (blen (a_data a) =? 0).

(* ---- queues ---- *)
(* A packet is the list of its items; a queue the list of its packets (std::list); queues are indexed by
   datastore id (std::vector): include/hxhim/private/hxhim.hpp 29-35 *)
Record queues := mkQs {
  q_puts : list (list (list put_item)); q_gets : list (list (list get_item));
  q_getops : list (list (list getop_item)); q_dels : list (list (list del_item));
  q_hists : list (list (list blob))
}.
(* Message::size of a request packet, src/message/Message.cpp:3-29 *)
Definition packet_size {A} (sz : A -> N) (p : list A) : N := header_size + sumN (map sz p).
(* setup_packet, src/hxhim/ops/impl.cpp:38-49: the last packet can take another item *)
Definition fits {A} (e : env) (sz : A -> N) (additional : N) (p : list A) : bool :=
  (N.of_nat (length p) <? e_max_ops e) &&
  ((e_max_size e =? 0) || (packet_size sz p + additional <=? e_max_size e)).
(* setup_packet followed by add: to the last packet or to a new one *)
Fixpoint put_last {A} (ok : list A -> bool) (q : list (list A)) (a : A) : list (list A) :=
  match q with
  | [] => [[a]]
  | [p] => if ok p then [p ++ [a]] else [p; [a]]
  | p :: q' => p :: put_last ok q' a
  end.
Definition set_nth {A} (n : nat) (x : A) (l : list A) : list A := firstn n l ++ x :: skipn (S n) l.
(* queues[id] of a vector; a packet for 0 operations has no arrays to write to (new_request, impl.cpp:19-25) *)
Definition enqueue {A} (e : env) (sz : A -> N) (additional : N) (qs : list (list (list A))) (id : Z) (a : A)
  : outcome (list (list (list A))) :=
  match nth_error qs (Z.to_nat id) with
  | None => UB
  | Some q => if e_max_ops e =? 0 then UB
              else Ok (set_nth (Z.to_nat id) (put_last (fits e sz additional) q a) qs)
  end.

(* the call of the hash function. A null pointer with a length is counted as undefined
   (functions that look at the key would read it). *)
Definition hash_of (e : env) (s p : arg) : outcome Z :=
  if ((a_addr s =? 0) && negb (blen (a_data s) =? 0)) || ((a_addr p =? 0) && negb (blen (a_data p) =? 0)) then UB
  else e_hash e (e_rank e) (e_total e) (a_data s) (a_data p).

(* HXHIM_PUT_SPO ... OPS, include/hxhim/constants.h 48-53, in the order of src/hxhim/hxhim.cpp 14-21 *)
Definition PERMUTATIONS : list N := [1; 2; 4; 8; 16; 32].
(* impl.cpp:120-157 *)
Definition permuted {T} (bit : N) (s p o : T) : T * T * T :=
  if bit =? 1 then (s, p, o) else if bit =? 2 then (s, o, p) else if bit =? 4 then (p, s, o)
  else if bit =? 8 then (p, o, s) else if bit =? 16 then (o, s, p) else (o, p, s).
(* PutImpl, impl.cpp:107-194: the queues, the number queued, and success *)
Fixpoint put_loop (e : env) (bits : list N) (mask : N) (s p o : arg) (qs : list (list (list put_item))) (n : N)
  : outcome (list (list (list put_item)) * N * bool) :=
  match bits with
  | [] => Ok (qs, n, true)
  | bit :: bits' =>
      if N.land mask bit =? 0 then put_loop e bits' mask s p o qs n else
      let '(a, b, c) := permuted bit s p o in
      do id <- hash_of e a b;
      if (id <? 0)%Z then Ok (qs, n, false) else
      do qs' <- enqueue e sz_put (blob_pack_size true (ref_blob a) + blob_pack_size true (ref_blob b)
                                  + blob_pack_size true (ref_blob c)) qs id
                  (mkPut (ref_blob a) (a_addr a) (ref_blob b) (a_addr b) (ref_blob c));
      put_loop e bits' mask s p o qs' (n + 1)
  end.
Definition put_impl (e : env) (s p o : arg) (mask : N) (qs : list (list (list put_item)))
  : outcome (list (list (list put_item)) * N * bool) := put_loop e PERMUTATIONS mask s p o qs 0.

(* get_packet, impl.cpp:67-92, with the add that follows it in GetImpl 209-229, GetOpImpl 246-266,
   DeleteImpl 280-299 *)
Definition key_impl {A} (e : env) (sz : A -> N) (a : A) (s p : arg) (qs : list (list (list A)))
  : outcome (list (list (list A)) * bool) :=
  do id <- hash_of e s p;
  if (id <? 0)%Z then Ok (qs, false) else
  do qs' <- enqueue e sz (blob_pack_size true (ref_blob s) + blob_pack_size true (ref_blob p)) qs id a;
  Ok (qs', true).
Definition get_impl e (s p : arg) (ty : N) := key_impl e sz_get (mkGet (ref_blob s) (a_addr s) (ref_blob p) (a_addr p) ty) s p.
Definition getop_impl e (s p : arg) (ty n op : N) := key_impl e sz_getop (mkGetOp op (ref_blob s) (ref_blob p) ty n) s p.
Definition del_impl e (s p : arg) := key_impl e sz_del (mkDel (ref_blob s) (a_addr s) (ref_blob p) (a_addr p)) s p.
(* HistogramImpl, impl.cpp:312-342; the type of the name is BYTE *)
Definition hist_impl (e : env) (id : Z) (name : arg) (qs : list (list (list blob))) :=
  enqueue e sz_name (blob_pack_size false (ref_blob name)) qs id (mkBlob (a_addr name =? 0) (a_data name) T_BYTE).

(* ---- results, src/hxhim/Results.cpp; include/hxhim/private/Results.hpp ---- *)
(* range server (the datastore id), success, and the data *)
Inductive result :=
| XPut (from : Z) (ok : bool) (s p : ref)
| XGet (from : Z) (ok : bool) (s p : ref) (o : blob)
| XGetOp (from : Z) (ok : bool) (s p o : blob)
| XDel (from : Z) (ok : bool) (s p : ref)
| XHist (from : Z) (ok : bool) (h : option hist)
| XSync (rank : Z) (ok : bool).

(* Result::init for one GETOP, Results.cpp:177-204: without records the only node is destroyed and returned *)
Definition getop_results (from : Z) (i : gotop_item) : outcome (list result) :=
  match gp_recs i with
  | [] => UB
  | rs => let ok := status_ok (gp_status i) in
          Ok (map (fun r => XGetOp from ok (rc_sub r) (rc_pred r) (if ok then rc_obj r else blob_none)) rs)
  end.
(* AddAll, Results.cpp:238-246; Result::init 101-231; Results::Add 284-297 *)
Definition results_of (m : msg) : outcome (list result) :=
  let from := m_src m in
  match m_body m with
  | RPut l => Ok (map (fun i => XPut from (status_ok (si_status i)) (si_sub i) (si_pred i)) l)
  | RGet l => Ok (map (fun i => XGet from (status_ok (go_status i)) (go_sub i) (go_pred i)
                                  (if status_ok (go_status i) then go_obj i else blob_none)) l)
  | RGetOp l => do r <- omap (getop_results from) l; Ok (concat r)
  | RDel l => Ok (map (fun i => XDel from (status_ok (si_status i)) (si_sub i) (si_pred i)) l)
  | RHist l => Ok (map (fun i => XHist from (status_ok (hi_status i)) (if status_ok (hi_status i) then hi_hist i else None)) l)
  | _ => Ok []
  end.

(* s_up: started(), src/hxhim/private.cpp:91-93. s_count: queues.puts.count.
   s_kept: async_puts.results, which serial_puts writes *)
Record session := mkSession { s_up : bool; s_qs : queues; s_count : N; s_kept : list result }.

(* ---- carrying out a request ---- *)
(* an empty response of the right kind, include/transport/backend/local/RangeServer.hpp:44 *)
Definition no_response (q : body) : body :=
  match q with
  | QPut _ => RPut [] | QGet _ => RGet [] | QGetOp _ => RGetOp [] | QDel _ => RDel [] | QHist _ => RHist [] | b => b
  end.
(* local::range_server, RangeServer.hpp:35-86, on rank r *)
Definition serve (e : env) (cl : cluster) (r : Z) (m : msg) : outcome (cluster * msg) :=
  let off := (m_dst m mod l_per (e_layout e))%Z in
  match cl r off with
  | None => UB
  | Some d =>
      do (d', b) <- operate d (m_body m);
      Ok (cl_set cl r off d', mkMsg (m_dst m) (m_src m) (match b with Some b => b | None => no_response (m_body m) end))
  end.
(* process_request and RangeServer::process of Thallium, src/transport/backend/Thallium/EndpointGroup.cpp:98-185,
   RangeServer.cpp:52-101. A request the server cannot unpack is answered with too few values: undefined.
   None: nullptr. (The log line after it reads response->src; only if debug output is on, not modelled.) *)
Definition remote_call (e : env) (route : Z -> option Z) (cl : cluster) (dst_rank : Z) (m : msg)
  : outcome (cluster * option msg) :=
  match route dst_rank with
  | None => Ok (cl, None)
  | Some r =>
      do b <- msg_pack m; do m1 <- unpack_request b;
      match m1 with
      | None => UB
      | Some m1 =>
          do (cl', m2) <- serve e cl r m1;
          do b2 <- msg_pack m2; do m3 <- unpack_response b2; Ok (cl', m3)
      end
  end.
(* process_requests, EndpointGroup.cpp:203-259, and AddAll of what it returns *)
Fixpoint communicate (e : env) (route : Z -> option Z) (cl : cluster) (l : list (Z * msg)) : outcome (cluster * list result) :=
  match l with
  | [] => Ok (cl, [])
  | (k, m) :: l' =>
      do (cl1, r) <- remote_call e route cl k m;
      do xs <- (match r with None => Ok [] | Some r => results_of r end);
      do (cl2, ys) <- communicate e route cl1 l'; Ok (cl2, xs ++ ys)
  end.
(* process.hpp:127-161 *)
Fixpoint run_local (e : env) (cl : cluster) (l : list msg) : outcome (cluster * list result) :=
  match l with
  | [] => Ok (cl, [])
  | m :: l' =>
      do (cl1, r) <- serve e cl (e_rank e) m;
      do xs <- results_of r;
      do (cl2, ys) <- run_local e cl1 l'; Ok (cl2, xs ++ ys)
  end.

(* ---- process, include/hxhim/private/process.hpp:31-171 ---- *)
(* 49-81: the first packet of every queue, addressed; what remains *)
Fixpoint pop {A} (wrap : list A -> body) (rank id : Z) (qs : list (list (list A))) : list msg * list (list (list A)) :=
  match qs with
  | [] => ([], [])
  | q :: qs' =>
      let '(ms, r) := pop wrap rank (id + 1)%Z qs' in
      match q with
      | [] => (ms, [] :: r)
      | p :: q' => (mkMsg rank id (wrap p) :: ms, q' :: r)
      end
  end.
(* remote[req->dst_rank] = req, line 68: an unordered_map; an earlier request under the same rank is replaced *)
Fixpoint map_set (k : Z) (m : msg) (l : list (Z * msg)) : list (Z * msg) :=
  match l with
  | [] => [(k, m)]
  | (k', m') :: l' => if (k =? k')%Z then (k, m) :: l' else (k', m') :: map_set k m l'
  end.
Definition dst_rank (e : env) (m : msg) : Z := ds_to_rank (e_layout e) (m_dst m).
Definition is_local (e : env) (m : msg) : bool := (dst_rank e m =? e_rank e)%Z.
Definition remote_map (e : env) (ms : list msg) : list (Z * msg) :=
  fold_left (fun l m => map_set (dst_rank e m) m l) (filter (fun m => negb (is_local e m)) ms) [].
Definition round (e : env) (cl : cluster) (ms : list msg) : outcome (cluster * list result) :=
  do (cl1, xs) <- (match remote_map e ms with
                   | [] => Ok (cl, [])
                   | remote => match e_transport e with
                               | None => UB                            (* transport.transport is null, line 96 *)
                               | Some route => communicate e route cl (e_iter e remote)
                               end
                   end);
  do (cl2, ys) <- run_local e cl1 (filter (is_local e) ms);
  Ok (cl2, xs ++ ys).
(* remaining, 18-25 *)
Definition remaining {A} (qs : list (list (list A))) : nat := length (concat qs).
(* the while loop, 43-162; every round takes at least one packet, so [remaining] rounds are enough *)
Fixpoint rounds {A} (f : nat) (e : env) (wrap : list A -> body) (qs : list (list (list A))) (cl : cluster)
  : outcome (cluster * list result) :=
  match f with
  | O => Ok (cl, [])
  | S f' =>
      match remaining qs with
      | O => Ok (cl, [])
      | _ => let '(ms, qs') := pop wrap (e_rank e) 0%Z qs in
             do (cl1, xs) <- round e cl ms;
             do (cl2, ys) <- rounds f' e wrap qs' cl1; Ok (cl2, xs ++ ys)
      end
  end.
Definition process {A} (e : env) (wrap : list A -> body) (qs : list (list (list A))) (cl : cluster) :=
  rounds (remaining qs) e wrap qs cl.

(* ---- the API, src/hxhim/ops/*.cpp ---- *)
(* The float and double variants (float.cpp, double.cpp) only fill in the type. A bulk call with a null array
   is None; otherwise the arrays are the list of their items. *)
Inductive call :=
| CPut (s p o : arg) (mask : N) | CGet (s p : arg) (ty : N) | CGetOp (s p : arg) (ty n op : N) | CDelete (s p : arg)
| CHist (id : Z) (name : arg)
| CBPut (l : option (list (arg * arg * arg * N))) | CBGet (l : option (list (arg * arg * N)))
| CBGetOp (l : option (list (arg * arg * N * N * N))) | CBDelete (l : option (list (arg * arg)))
| CBHist (l : option (list (Z * arg)))
(* single_type.cpp: types = false if an array of subject or predicate types is null (not checked);
   ops = false if the array of GETOPs is null *)
| CBPutOne (types : bool) (ty : N) (l : option (list (arg * arg * arg * N)))
| CBGetOne (types : bool) (ty : N) (l : option (list (arg * arg)))
| CBGetOpOne (types ops : bool) (ty : N) (l : option (list (arg * arg * N * N))).

(* The bulk loops: BPUT.cpp:42-49, BGET.cpp:34-40, BGETOP.cpp:37-44, BDELETE.cpp:31-36, BHISTOGRAM.cpp:38-40.
   The result of each item is dropped. *)
Fixpoint bput_loop (e : env) (l : list (arg * arg * arg * N)) (qs : list (list (list put_item))) (n : N)
  : outcome (list (list (list put_item)) * N) :=
  match l with
  | [] => Ok (qs, n)
  | (s, p, o, m) :: l' => do (qk, _) <- put_impl e s p o m qs; bput_loop e l' (fst qk) (n + snd qk)
  end.
Fixpoint each {A Q} (f : A -> Q -> outcome (Q * bool)) (l : list A) (qs : Q) : outcome Q :=
  match l with
  | [] => Ok qs
  | a :: l' => do (qs', _) <- f a qs; each f l' qs'
  end.
Fixpoint bhist_loop (e : env) (l : list (Z * arg)) (qs : list (list (list blob))) : outcome (list (list (list blob))) :=
  match l with
  | [] => Ok qs
  | (id, n) :: l' => do qs' <- hist_impl e id n qs; bhist_loop e l' qs'
  end.

Definition with_puts (s : session) q n := mkSession (s_up s) (mkQs q (q_gets (s_qs s)) (q_getops (s_qs s)) (q_dels (s_qs s)) (q_hists (s_qs s))) n (s_kept s).
Definition with_gets (s : session) q := mkSession (s_up s) (mkQs (q_puts (s_qs s)) q (q_getops (s_qs s)) (q_dels (s_qs s)) (q_hists (s_qs s))) (s_count s) (s_kept s).
Definition with_getops (s : session) q := mkSession (s_up s) (mkQs (q_puts (s_qs s)) (q_gets (s_qs s)) q (q_dels (s_qs s)) (q_hists (s_qs s))) (s_count s) (s_kept s).
Definition with_dels (s : session) q := mkSession (s_up s) (mkQs (q_puts (s_qs s)) (q_gets (s_qs s)) (q_getops (s_qs s)) q (q_hists (s_qs s))) (s_count s) (s_kept s).
Definition with_histq (s : session) q := mkSession (s_up s) (mkQs (q_puts (s_qs s)) (q_gets (s_qs s)) (q_getops (s_qs s)) (q_dels (s_qs s)) q) (s_count s) (s_kept s).
(* queues after process, which takes every packet out *)
Definition drained {A} (qs : list (list (list A))) : list (list (list A)) := map (fun _ => []) qs.

(* serial_puts, src/hxhim/private.cpp:71-89 *)
Definition serial_puts (e : env) (s : session) (cl : cluster) : outcome (session * cluster) :=
  if e_max_queued e <=? s_count s then
    do (cl', xs) <- process e QPut (q_puts (s_qs s)) cl;
    let s' := with_puts s (drained (q_puts (s_qs s))) 0 in
    Ok (mkSession (s_up s') (s_qs s') (s_count s') (s_kept s' ++ xs), cl')
  else Ok (s, cl).

Definition accepts (e : env) (id : Z) : bool := histogram_accepts (e_layout e) id.
(* Put PUT.cpp:19-56, Get GET.cpp:19-39, GetOp GETOP.cpp:19-41, Delete DELETE.cpp:16-34, Histogram HISTOGRAM.cpp:12-33,
   BPut BPUT.cpp:20-59, BGet BGET.cpp:19-45, BGetOp BGETOP.cpp:20-49, BDelete BDELETE.cpp:18-41,
   BHistogram BHISTOGRAM.cpp:13-45, single_type.cpp:7-46, 62-91, 105-137. false: HXHIM_ERROR *)
Definition do_call (e : env) (s : session) (cl : cluster) (c : call) : outcome (session * cluster * bool) :=
  let q := s_qs s in
  let error := Ok (s, cl, false) in
  if negb (s_up s) then error else
  match c with
  | CPut x y z m =>
      if given x && given y && given z then
        do (qk, ok) <- put_impl e x y z m (q_puts q); Ok (with_puts s (fst qk) (s_count s + snd qk), cl, ok)
      else error
  | CGet x y ty =>
      if given x && given y then do (q', ok) <- get_impl e x y ty (q_gets q); Ok (with_gets s q', cl, ok) else error
  | CGetOp x y ty n op =>
      if given x then do (q', ok) <- getop_impl e x y ty n op (q_getops q); Ok (with_getops s q', cl, ok) else error
  | CDelete x y =>
      if given x && given y then do (q', ok) <- del_impl e x y (q_dels q); Ok (with_dels s q', cl, ok) else error
  | CHist id n =>
      if accepts e id then do q' <- hist_impl e id n (q_hists q); Ok (with_histq s q', cl, true) else error
  | CBPut None | CBGet None | CBGetOp None | CBDelete None | CBHist None
  | CBPutOne _ _ None | CBGetOne _ _ None | CBGetOpOne _ _ _ None => error
  | CBPut (Some l) => do qk <- bput_loop e l (q_puts q) 0; Ok (with_puts s (fst qk) (s_count s + snd qk), cl, true)
  | CBGet (Some l) => do q' <- each (fun '(x, y, ty) => get_impl e x y ty) l (q_gets q); Ok (with_gets s q', cl, true)
  | CBGetOp (Some l) => do q' <- each (fun '(x, y, ty, n, op) => getop_impl e x y ty n op) l (q_getops q); Ok (with_getops s q', cl, true)
  | CBDelete (Some l) => do q' <- each (fun '(x, y) => del_impl e x y) l (q_dels q); Ok (with_dels s q', cl, true)
  | CBHist (Some l) =>
      if forallb (fun x => accepts e (fst x)) l
      then do q' <- bhist_loop e l (q_hists q); Ok (with_histq s q', cl, true) else error
  | CBPutOne types ty (Some l) =>
      if negb types && negb (N.of_nat (length l) =? 0) then UB else
      do qk <- bput_loop e (map (fun '(x, y, z, m) => (x, y, mkArg (a_addr z) (a_data z) ty, m)) l) (q_puts q) 0;
      do (s', cl') <- serial_puts e (with_puts s (fst qk) (s_count s + snd qk)) cl; Ok (s', cl', true)
  | CBGetOne types ty (Some l) =>
      if negb types && negb (N.of_nat (length l) =? 0) then UB else
      do q' <- each (fun '(x, y) => get_impl e x y ty) l (q_gets q); Ok (with_gets s q', cl, true)
  | CBGetOpOne types ops ty (Some l) =>
      if ops then error                                (* the test of ops is the wrong way round, line 116 *)
      else if negb (N.of_nat (length l) =? 0) then UB  (* ops[i] *)
      else Ok (s, cl, true)
  end.
Fixpoint do_calls (e : env) (s : session) (cl : cluster) (l : list call) : outcome (session * cluster * list bool) :=
  match l with
  | [] => Ok (s, cl, [])
  | c :: l' => do (sc, ok) <- do_call e s cl c; do (sc', oks) <- do_calls e (fst sc) (snd sc) l'; Ok (sc', ok :: oks)
  end.

(* FlushPuts (async_puts disabled), FlushGets, FlushGetOps, FlushDeletes, FlushHistograms, Flush:
   src/hxhim/ops/FLUSH.cpp:33-66, 88-96, 118-126, 148-156, 178-186, 211-235. They do not ask started(). *)
Definition flush_puts (e : env) (s : session) (cl : cluster) :=
  do (cl', xs) <- process e QPut (q_puts (s_qs s)) cl; Ok (with_puts s (drained (q_puts (s_qs s))) 0, cl', xs).
Definition flush_gets (e : env) (s : session) (cl : cluster) :=
  do (cl', xs) <- process e QGet (q_gets (s_qs s)) cl; Ok (with_gets s (drained (q_gets (s_qs s))), cl', xs).
Definition flush_getops (e : env) (s : session) (cl : cluster) :=
  do (cl', xs) <- process e QGetOp (q_getops (s_qs s)) cl; Ok (with_getops s (drained (q_getops (s_qs s))), cl', xs).
Definition flush_dels (e : env) (s : session) (cl : cluster) :=
  do (cl', xs) <- process e QDel (q_dels (s_qs s)) cl; Ok (with_dels s (drained (q_dels (s_qs s))), cl', xs).
Definition flush_hists (e : env) (s : session) (cl : cluster) :=
  do (cl', xs) <- process e QHist (q_hists (s_qs s)) cl; Ok (with_histq s (drained (q_hists (s_qs s))), cl', xs).
Definition flush (e : env) (s : session) (cl : cluster) : outcome (session * cluster * list result) :=
  do (a, xp) <- flush_puts e s cl;
  do (b, xg) <- flush_gets e (fst a) (snd a);
  do (c, xo) <- flush_getops e (fst b) (snd b);
  do (d, xd) <- flush_dels e (fst c) (snd c);
  do (f, xh) <- flush_hists e (fst d) (snd d);
  Ok (f, xp ++ xg ++ xo ++ xd ++ xh).

(* Sync, src/hxhim/ops/SYNC.cpp:14-60: the datastores of this rank, by offset. None: a null pointer *)
Fixpoint sync_local (e : env) (cl : cluster) (offs : list Z) : outcome (cluster * list result) :=
  match offs with
  | [] => Ok (cl, [])
  | off :: offs' =>
      match cl (e_rank e) off with
      | None => sync_local e cl offs'
      | Some d =>
          do (d', st) <- ds_sync d (e_hist_write e);
          do (cl', xs) <- sync_local e (cl_set cl (e_rank e) off d') offs'; Ok (cl', XSync (e_rank e) (status_ok st) :: xs)
      end
  end.
Definition sync (e : env) (s : session) (cl : cluster) : outcome (session * cluster * option (list result)) :=
  if negb (s_up s) then Ok (s, cl, None) else
  do (a, xs) <- flush e s cl;
  do (cl', ys) <- sync_local e (snd a) (upto (l_per (e_layout e))); Ok (fst a, cl', Some (xs ++ ys)).

(* Datastore::destroy, src/datastore/datastores.cpp:139-154 *)
Fixpoint close_local (e : env) (cl : cluster) (offs : list Z) : outcome cluster :=
  match offs with
  | [] => Ok cl
  | off :: offs' =>
      match cl (e_rank e) off with
      | None => close_local e cl offs'
      | Some d => do d' <- ds_close d (e_hist_write e); close_local e (cl_set cl (e_rank e) off d') offs'
      end
  end.
(* Close, src/hxhim/hxhim.cpp:231-276; destroy::running, queues src/hxhim/destroy.cpp:27-30, 69-86 *)
Definition close (e : env) (s : session) (cl : cluster) : outcome (session * cluster) :=
  let s1 := mkSession false (s_qs s) (s_count s) (s_kept s) in
  do (a, _) <- sync e s1 cl;
  let q := s_qs (fst a) in
  do cl' <- close_local e (snd a) (upto (l_per (e_layout e)));
  Ok (mkSession false (mkQs (drained (q_puts q)) (drained (q_gets q)) (drained (q_getops q)) (drained (q_dels q)) (drained (q_hists q))) 0 [], cl').

(* the queues after opening: init::queues, src/hxhim/init.cpp:53-80 *)
Definition empty_queues {A} (n : Z) : list (list (list A)) := repeat [] (Z.to_nat n).
Definition opened_session (e : env) : session :=
  let n := e_total e in
  mkSession true (mkQs (empty_queues n) (empty_queues n) (empty_queues n) (empty_queues n) (empty_queues n)) 0 [].

(* OpenOne, src/hxhim/hxhim.cpp:186-209: init::one_datastore, src/hxhim/init.cpp:184-215, sets the ratios to 1, the hash
   function to hxhim_hash_DatastoreZero and total_range_servers to 1. It does not set datastores.total, which is 0
   from the start (range_server(), src/hxhim/private.cpp:7-20). *)
Definition one_env (e : env) : env :=
  mkEnv (mkLayout (l_size (e_layout e)) 1 1 (l_per (e_layout e))) 0 (e_rank e) h_zero (e_max_ops e) (e_max_size e) (e_max_queued e)
    (e_hist_write e) (e_transport e) (e_iter e).
