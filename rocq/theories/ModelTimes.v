(* The times that operations and results carry: what is read from the clock while an operation is queued, sent and
   answered, and where it is kept. include/utils/Stats.hpp 35-61, include/message/Message.hpp 41-46, src/message/Message.cpp,
   src/hxhim/ops/impl.cpp, include/transport/backend/local/RangeServer.hpp, src/transport/backend/Thallium/EndpointGroup.cpp,
   src/hxhim/Results.cpp, src/hxhim/ops/SYNC.cpp.
   The clock (std::chrono::steady_clock, Stats::now, src/utils/Stats.cpp) is a sequence of readings; the world counts the
   readings that were taken. Other readings (of datastores, of other threads, for PRINT_TIMESTAMPS) are not counted: any
   number of them may lie between two of these. A call that queues several operations does so one after the other
   (BPUT.cpp:42-49 etc.); here the operations themselves are the steps. *)
From Verif Require Import ModelBytes ModelKey ModelWire ModelHist ModelMsg ModelStore ModelGetOp ModelDs ModelElen ModelRoute ModelClient.
Local Open Scope N_scope.

Definition clock := nat -> Z.
(* Stats::Chronostamp *)
Definition stamp : Type := Z * Z.
(* Stats::Send: hash, insert *)
Record send := mkSend { sn_hash : stamp; sn_insert : stamp }.
(* Stats::SendRecv *)
Record trip := mkTrip { tr_start : Z; tr_pack : stamp; tr_send : Z; tr_recv : Z; tr_unpack : stamp; tr_cleanup : stamp; tr_end : Z }.
(* hxhim::Result::Timestamps, include/hxhim/Results.hpp: alloc is a pointer, null unless set *)
Record times := mkTimes { ti_alloc : option stamp; ti_send : send; ti_trip : trip; ti_result : stamp }.
(* value-initialized *)
Definition no_stamp : stamp := (0, 0)%Z.
Definition no_send : send := mkSend no_stamp no_stamp.
Definition no_trip : trip := mkTrip 0 no_stamp 0 0 no_stamp no_stamp 0.
Definition no_times : times := mkTimes None no_send no_trip no_stamp.

(* ---- queueing ---- *)
(* A request packet while it is queued: its items, timestamps.allocate, timestamps.reqs (max_ops elements) *)
Record packet (A : Type) := mkPacket { pk_items : list A; pk_alloc : stamp; pk_reqs : list send }.
Arguments mkPacket {A}. Arguments pk_items {A}. Arguments pk_alloc {A}. Arguments pk_reqs {A}.
(* new_request, impl.cpp:19-25; Message::alloc, Message.cpp:35-44 *)
Definition new_packet {A} (e : env) (T : clock) (k : nat) : packet A * nat :=
  (mkPacket [] (T k, T (k + 1)%nat) (repeat no_send (N.to_nat (e_max_ops e))), (k + 2)%nat).
(* timestamps.reqs[i] = s *)
Definition write_req (i : nat) (s : send) (l : list send) : outcome (list send) :=
  if (i <? length l)%nat then Ok (set_nth i s l) else UB.
(* put->add, then hash, insert.start and insert.end of the element count - 1 (or count, before the add) *)
Definition add_item {A} (T : clock) (k : nat) (hash : stamp) (start : Z) (p : packet A) (a : A) : outcome (packet A) :=
  do r <- write_req (length (pk_items p)) (mkSend hash (start, T k)) (pk_reqs p);
  Ok (mkPacket (pk_items p ++ [a]) (pk_alloc p) r).
(* setup_packet, impl.cpp:38-49, and what follows it *)
Fixpoint t_last {A} (e : env) (ok : list A -> bool) (T : clock) (k : nat) (hash : stamp) (start : Z) (q : list (packet A)) (a : A)
  : outcome (list (packet A) * nat) :=
  let fresh pre :=
    let '(p, k1) := new_packet e T k in do p' <- add_item T k1 hash start p a; Ok (pre ++ [p'], (k1 + 1)%nat) in
  match q with
  | [] => fresh []
  | [p] => if ok (pk_items p) then do p' <- add_item T k hash start p a; Ok ([p'], (k + 1)%nat) else fresh [p]
  | p :: q' => do (r, k') <- t_last e ok T k hash start q' a; Ok (p :: r, k')
  end.
(* PutImpl for one permutation, impl.cpp:159-187; get_packet 70-92 with GetImpl 219-225, GetOpImpl 256-262,
   DeleteImpl 289-295; HistogramImpl 319-338. id: the datastore; the clock is read twice around the hash function before this *)
Definition t_insert {A} (e : env) (sz : A -> N) (additional : N) (T : clock) (k : nat) (qs : list (list (packet A))) (id : Z) (a : A)
  : outcome (list (list (packet A)) * nat) :=
  match nth_error qs (Z.to_nat id) with
  | None => UB
  | Some q =>
      do (q', k') <- t_last e (fits e sz additional) T (k + 3) (T k, T (k + 1)%nat) (T (k + 2)%nat) q a;
      Ok (set_nth (Z.to_nat id) q' qs, k')
  end.

(* ---- sending ---- *)
(* a message with its times *)
Record tmsg := mkTmsg { tm_msg : msg; tm_alloc : stamp; tm_reqs : list send; tm_trip : trip }.
(* the datastores, the number of readings, and (for stating things) what crossed the wire *)
Record world := mkWorld { w_cl : cluster; w_now : nat; w_wire : list body }.

(* local::range_server, include/transport/backend/local/RangeServer.hpp:35-86. The response has an array of count send times of its
   own (RangeServer.hpp:42), in which nothing is ever written: steal_timestamps (45; src/message/Message.cpp:73-89) takes the time
   of the allocation and those of the transport only, the times of the operations are moved to the response of the datastore (61),
   and steal (64; src/message/BPut.cpp, BGet.cpp, BGetOp.cpp, BDelete.cpp, BHistogram.cpp) does not take them from there *)
Definition t_local (e : env) (T : clock) (w : world) (q : tmsg) : outcome (world * tmsg) :=
  let k := w_now w in
  do (cl, r) <- serve e (w_cl w) (e_rank e) (tm_msg q);
  let n := N.to_nat (body_count (m_body r)) in
  if (length (tm_reqs q) <? n)%nat then UB else                                   (* 59-66 *)
  Ok (mkWorld cl (k + 7) (w_wire w),
      mkTmsg r (tm_alloc q) (repeat no_send (N.to_nat (body_count (m_body (tm_msg q)))))
        (mkTrip (T k) (T (k + 1)%nat, T (k + 1)%nat) (T (k + 2)%nat) (T (k + 3)%nat)
                (T (k + 4)%nat, T (k + 4)%nat) (T (k + 5)%nat, T (k + 5)%nat) (T (k + 6)%nat))).
(* process_request, EndpointGroup.cpp:98-185; data as in remote_call of ModelClient.v *)
Definition t_remote (e : env) (route : Z -> option Z) (T : clock) (w : world) (dst_rank : Z) (q : tmsg)
  : outcome (world * option tmsg) :=
  let k := w_now w in
  match route dst_rank with
  | None => Ok (w, None)
  | Some r =>
      do b <- msg_pack (tm_msg q); do m1 <- unpack_request b;
      match m1 with
      | None => UB
      | Some m1 =>
          do (cl', m2) <- serve e (w_cl w) r m1;
          do b2 <- msg_pack m2; do m3 <- unpack_response b2;
          let wire := w_wire w ++ [m_body (tm_msg q); m_body m2] in
          match m3 with
          | None => Ok (mkWorld cl' (k + 9) wire, None)
          | Some m3 =>
              Ok (mkWorld cl' (k + 10) wire,
                  Some (mkTmsg m3 (tm_alloc q) (tm_reqs q)
                          (mkTrip (T k) (T (k + 1)%nat, T (k + 2)%nat) (T (k + 3)%nat) (T (k + 4)%nat)
                                  (T (k + 5)%nat, T (k + 6)%nat) (T (k + 7)%nat, T (k + 8)%nat) (T (k + 9)%nat))))
          end
      end
  end.

(* ---- results ---- *)
(* the results of every item of a response; those of one GETOP are a list *)
Definition item_results (m : msg) : outcome (list (list result)) :=
  let from := m_src m in
  match m_body m with
  | RPut l => Ok (map (fun i => [XPut from (status_ok (si_status i)) (si_sub i) (si_pred i)]) l)
  | RGet l => Ok (map (fun i => [XGet from (status_ok (go_status i)) (go_sub i) (go_pred i)
                                   (if status_ok (go_status i) then go_obj i else blob_none)]) l)
  | RGetOp l => omap (getop_results from) l
  | RDel l => Ok (map (fun i => [XDel from (status_ok (si_status i)) (si_sub i) (si_pred i)]) l)
  | RHist l => Ok (map (fun i => [XHist from (status_ok (hi_status i)) (if status_ok (hi_status i) then hi_hist i else None)]) l)
  | _ => Ok []
  end.
(* Result::init, Results.cpp:101-153, for the items from i on: only the first result of an item is given times *)
Fixpoint t_init (T : clock) (k : nat) (m : tmsg) (i : nat) (l : list (list result)) : outcome (list (result * times) * nat) :=
  match l with
  | [] => Ok ([], k)
  | g :: l' =>
      match g, nth_error (tm_reqs m) i with
      | x :: rest, Some s =>
          let t := mkTimes (match i with O => Some (tm_alloc m) | _ => None end) s (tm_trip m) (T k, T (k + 1)%nat) in
          do (ys, k') <- t_init T (k + 2) m (S i) l';
          Ok ((x, t) :: map (fun y => (y, no_times)) rest ++ ys, k')
      | _, _ => UB
      end
  end.
(* AddAll, Results.cpp:238-246: the responses are linked by next *)
Fixpoint t_addall (T : clock) (k : nat) (l : list tmsg) : outcome (list (result * times) * nat) :=
  match l with
  | [] => Ok ([], k)
  | m :: l' =>
      do g <- item_results (tm_msg m); do (xs, k1) <- t_init T k m 0 g;
      do (ys, k2) <- t_addall T k1 l'; Ok (xs ++ ys, k2)
  end.
Definition at_time (w : world) (k : nat) : world := mkWorld (w_cl w) k (w_wire w).

(* ---- process, process.hpp:31-171 ---- *)
(* process_requests, EndpointGroup.cpp:211-259 (not ASYNC_THALLIUM) *)
Fixpoint t_communicate (e : env) (route : Z -> option Z) (T : clock) (w : world) (l : list (Z * tmsg)) : outcome (world * list tmsg) :=
  match l with
  | [] => Ok (w, [])
  | (k, q) :: l' =>
      do (w1, r) <- t_remote e route T w k q;
      do (w2, rs) <- t_communicate e route T w1 l';
      Ok (w2, match r with Some r => r :: rs | None => rs end)
  end.
Fixpoint t_run_local (e : env) (T : clock) (w : world) (l : list tmsg) : outcome (world * list (result * times)) :=
  match l with
  | [] => Ok (w, [])
  | q :: l' =>
      do (w1, r) <- t_local e T w q;
      do (xs, k) <- t_addall T (w_now w1) [r];
      do (w2, ys) <- t_run_local e T (at_time w1 k) l'; Ok (w2, xs ++ ys)
  end.
Fixpoint t_pop {A} (wrap : list A -> body) (rank id : Z) (qs : list (list (packet A))) : list tmsg * list (list (packet A)) :=
  match qs with
  | [] => ([], [])
  | q :: qs' =>
      let '(ms, r) := t_pop wrap rank (id + 1)%Z qs' in
      match q with
      | [] => (ms, [] :: r)
      | p :: q' => (mkTmsg (mkMsg rank id (wrap (pk_items p))) (pk_alloc p) (pk_reqs p) no_trip :: ms, q' :: r)
      end
  end.
Fixpoint t_map_set (k : Z) (m : tmsg) (l : list (Z * tmsg)) : list (Z * tmsg) :=
  match l with
  | [] => [(k, m)]
  | (k', m') :: l' => if (k =? k')%Z then (k, m) :: l' else (k', m') :: t_map_set k m l'
  end.
Definition t_remote_map (e : env) (ms : list tmsg) : list (Z * tmsg) :=
  fold_left (fun l m => t_map_set (dst_rank e (tm_msg m)) m l) (filter (fun m => negb (is_local e (tm_msg m))) ms) [].
(* the order in which the map is walked: e_iter is about messages without times, and keys are unique *)
Definition t_iter (e : env) (l : list (Z * tmsg)) : list (Z * tmsg) :=
  flat_map (fun x => match find (fun y => fst y =? fst x)%Z l with Some y => [y] | None => [] end)
           (e_iter e (map (fun y => (fst y, tm_msg (snd y))) l)).
Definition t_round (e : env) (T : clock) (w : world) (ms : list tmsg) : outcome (world * list (result * times)) :=
  do (w1, xs) <- (match t_remote_map e ms with
                  | [] => Ok (w, [])
                  | remote => match e_transport e with
                              | None => UB
                              | Some route =>
                                  do (w1, rs) <- t_communicate e route T w (t_iter e remote);
                                  do (xs, k) <- t_addall T (w_now w1) rs; Ok (at_time w1 k, xs)
                              end
                  end);
  do (w2, ys) <- t_run_local e T w1 (filter (fun m => is_local e (tm_msg m)) ms);
  Ok (w2, xs ++ ys).
Fixpoint t_rounds {A} (f : nat) (e : env) (wrap : list A -> body) (T : clock) (qs : list (list (packet A))) (w : world)
  : outcome (world * list (result * times)) :=
  match f with
  | O => Ok (w, [])
  | S f' =>
      match length (concat qs) with
      | O => Ok (w, [])
      | _ => let '(ms, qs') := t_pop wrap (e_rank e) 0%Z qs in
             do (w1, xs) <- t_round e T w ms;
             do (w2, ys) <- t_rounds f' e wrap T qs' w1; Ok (w2, xs ++ ys)
      end
  end.
Definition t_process {A} (e : env) (wrap : list A -> body) (T : clock) (qs : list (list (packet A))) (w : world) :=
  t_rounds (length (concat qs)) e wrap T qs w.

(* ---- a session ---- *)
(* one permutation of a PUT, a GET, a GETOP, a DELETE, a request for a histogram *)
Inductive op :=
| OPut (s p o : arg) | OGet (s p : arg) (ty : N) | OGetOp (s p : arg) (ty n how : N) | ODel (s p : arg) | OHist (id : Z) (name : arg).
Record tqueues := mkTqs {
  tq_puts : list (list (packet put_item)); tq_gets : list (list (packet get_item)); tq_getops : list (list (packet getop_item));
  tq_dels : list (list (packet del_item)); tq_hists : list (list (packet blob))
}.
(* hxhim_hash of the key of an operation; a histogram names its datastore *)
Definition op_id (e : env) (o : op) : outcome Z :=
  match o with
  | OPut s p _ | OGet s p _ | OGetOp s p _ _ _ | ODel s p => hash_of e s p
  | OHist id _ => Ok id
  end.
(* the Impl functions of impl.cpp; true: queued *)
Definition t_op (e : env) (T : clock) (k : nat) (qs : tqueues) (o : op) : outcome (tqueues * nat * bool) :=
  do id <- op_id e o;
  if (id <? 0)%Z then Ok (qs, (k + 2)%nat, false) else
  match o with
  | OPut s p o =>
      do (q, k') <- t_insert e sz_put (blob_pack_size true (ref_blob s) + blob_pack_size true (ref_blob p) + blob_pack_size true (ref_blob o))
                      T k (tq_puts qs) id (mkPut (ref_blob s) (a_addr s) (ref_blob p) (a_addr p) (ref_blob o));
      Ok (mkTqs q (tq_gets qs) (tq_getops qs) (tq_dels qs) (tq_hists qs), k', true)
  | OGet s p ty =>
      do (q, k') <- t_insert e sz_get (blob_pack_size true (ref_blob s) + blob_pack_size true (ref_blob p))
                      T k (tq_gets qs) id (mkGet (ref_blob s) (a_addr s) (ref_blob p) (a_addr p) ty);
      Ok (mkTqs (tq_puts qs) q (tq_getops qs) (tq_dels qs) (tq_hists qs), k', true)
  | OGetOp s p ty n how =>
      do (q, k') <- t_insert e sz_getop (blob_pack_size true (ref_blob s) + blob_pack_size true (ref_blob p))
                      T k (tq_getops qs) id (mkGetOp how (ref_blob s) (ref_blob p) ty n);
      Ok (mkTqs (tq_puts qs) (tq_gets qs) q (tq_dels qs) (tq_hists qs), k', true)
  | ODel s p =>
      do (q, k') <- t_insert e sz_del (blob_pack_size true (ref_blob s) + blob_pack_size true (ref_blob p))
                      T k (tq_dels qs) id (mkDel (ref_blob s) (a_addr s) (ref_blob p) (a_addr p));
      Ok (mkTqs (tq_puts qs) (tq_gets qs) (tq_getops qs) q (tq_hists qs), k', true)
  | OHist _ n =>
      do (q, k') <- t_insert e sz_name (blob_pack_size false (ref_blob n)) T k (tq_hists qs) id (mkBlob (a_addr n =? 0) (a_data n) T_BYTE);
      Ok (mkTqs (tq_puts qs) (tq_gets qs) (tq_getops qs) (tq_dels qs) q, k', true)
  end.
Definition t_drained {A} (qs : list (list (packet A))) : list (list (packet A)) := map (fun _ => []) qs.
(* Flush, FLUSH.cpp:211-235 *)
Definition t_flush (e : env) (T : clock) (qs : tqueues) (w : world) : outcome (tqueues * world * list (result * times)) :=
  do (w1, xp) <- t_process e QPut T (tq_puts qs) w;
  do (w2, xg) <- t_process e QGet T (tq_gets qs) w1;
  do (w3, xo) <- t_process e QGetOp T (tq_getops qs) w2;
  do (w4, xd) <- t_process e QDel T (tq_dels qs) w3;
  do (w5, xh) <- t_process e QHist T (tq_hists qs) w4;
  Ok (mkTqs (t_drained (tq_puts qs)) (t_drained (tq_gets qs)) (t_drained (tq_getops qs)) (t_drained (tq_dels qs)) (t_drained (tq_hists qs)),
      w5, xp ++ xg ++ xo ++ xd ++ xh).
(* Sync, SYNC.cpp:26-58: one result per datastore of this rank; timestamps.transport.cleanup_rpc is not set *)
Fixpoint t_sync_local (e : env) (T : clock) (w : world) (offs : list Z) : outcome (world * list (result * times)) :=
  match offs with
  | [] => Ok (w, [])
  | off :: offs' =>
      match w_cl w (e_rank e) off with
      | None => t_sync_local e T w offs'
      | Some d =>
          let k := w_now w in
          do (d', st) <- ds_sync d (e_hist_write e);
          let t := mkTimes None (mkSend (T k, T (k + 1)%nat) (T (k + 2)%nat, T (k + 3)%nat))
                     (mkTrip (T (k + 10)%nat) (T (k + 4)%nat, T (k + 5)%nat) (T (k + 6)%nat) (T (k + 7)%nat)
                             (T (k + 8)%nat, T (k + 9)%nat) no_stamp (T (k + 11)%nat))
                     (T (k + 12)%nat, T (k + 13)%nat) in
          do (w', xs) <- t_sync_local e T (mkWorld (cl_set (w_cl w) (e_rank e) off d') (k + 14) (w_wire w)) offs';
          Ok (w', (XSync (e_rank e) (status_ok st), t) :: xs)
      end
  end.

Definition no_queue {A} (n : Z) : list (list (packet A)) := repeat [] (Z.to_nat n).
Definition t_opened (e : env) : tqueues :=
  let n := e_total e in mkTqs (no_queue n) (no_queue n) (no_queue n) (no_queue n) (no_queue n).
Inductive step := SOp (o : op) | SFlush | SSync.
(* what is seen of a run: the operations that were queued, with the number of readings before and after; the results *)
Record event := mkEvent { ev_op : op; ev_id : Z; ev_before : nat; ev_after : nat }.
Fixpoint t_run (e : env) (T : clock) (qs : tqueues) (w : world) (l : list step)
  : outcome (tqueues * world * list event * list (result * times)) :=
  match l with
  | [] => Ok (qs, w, [], [])
  | SOp o :: l' =>
      do r <- t_op e T (w_now w) qs o;
      let '(qs1, k, queued) := r in
      do id <- op_id e o;
      do s <- t_run e T qs1 (at_time w k) l';
      let '(qs2, w2, evs, xs) := s in
      Ok (qs2, w2, (if queued then [mkEvent o id (w_now w) k] else []) ++ evs, xs)
  | SFlush :: l' =>
      do r <- t_flush e T qs w;
      let '(qs1, w1, xs) := r in
      do s <- t_run e T qs1 w1 l'; let '(qs2, w2, evs, ys) := s in Ok (qs2, w2, evs, xs ++ ys)
  | SSync :: l' =>
      do r <- t_flush e T qs w;
      let '(qs1, w1, xs) := r in
      do (w2, zs) <- t_sync_local e T w1 (upto (l_per (e_layout e)));
      do s <- t_run e T qs1 w2 l'; let '(qs2, w3, evs, ys) := s in Ok (qs2, w3, evs, xs ++ zs ++ ys)
  end.
