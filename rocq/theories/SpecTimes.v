(* What the times of a result should be *)
From Verif Require Import ModelBytes ModelWire ModelHist ModelMsg SpecMsg ModelStore ModelGetOp ModelDs ModelElen ModelRoute ModelClient SpecClient ModelTimes.
Local Open Scope Z_scope.

(* the clock does not go back *)
Definition steady (T : clock) : Prop := forall i j, (i <= j)%nat -> T i <= T j.
Fixpoint ascending (l : list Z) : Prop :=
  match l with a :: (b :: _) as r => a <= b /\ ascending r | _ => True end.
(* the moments in the life of an operation, in the order in which they should come *)
Definition moments (t : times) : list Z :=
  [fst (sn_hash (ti_send t)); snd (sn_hash (ti_send t)); fst (sn_insert (ti_send t)); snd (sn_insert (ti_send t));
   tr_start (ti_trip t); fst (tr_pack (ti_trip t)); snd (tr_pack (ti_trip t)); tr_send (ti_trip t); tr_recv (ti_trip t);
   fst (tr_unpack (ti_trip t)); snd (tr_unpack (ti_trip t)); fst (tr_cleanup (ti_trip t)); snd (tr_cleanup (ti_trip t)); tr_end (ti_trip t);
   fst (ti_result t); snd (ti_result t)].
(* the time to allocate a packet is part of the time to insert *)
Definition alloc_inside (t : times) : Prop :=
  match ti_alloc t with
  | Some (a, b) => fst (sn_insert (ti_send t)) <= a /\ a <= b /\ b <= snd (sn_insert (ti_send t))
  | None => True
  end.

(* what the clock said while an operation was queued: two readings around the hash function, one before and one after the
   insertion; with two more in between a packet was allocated *)
Definition event_send (T : clock) (ev : event) : send :=
  let k := ev_before ev in mkSend (T k, T (k + 1)%nat) (T (k + 2)%nat, T (ev_after ev - 1)%nat).
Definition event_alloc (T : clock) (ev : event) : option stamp :=
  let k := ev_before ev in if (ev_after ev =? k + 6)%nat then Some (T (k + 3)%nat, T (k + 4)%nat) else None.

(* the results g answer the operation: from its datastore, with its subject and predicate *)
Definition answers (ev : event) (g : list result) : Prop :=
  let id := ev_id ev in
  match ev_op ev with
  | OPut s p _ => exists ok, g = [XPut id ok (arg_ref s) (arg_ref p)]
  | OGet s p _ => exists ok o, g = [XGet id ok (arg_ref s) (arg_ref p) o]
  | OGetOp _ _ _ _ _ => g <> [] /\ Forall (fun x => exists ok s p o, x = XGetOp id ok s p o) g
  | ODel s p => exists ok, g = [XDel id ok (arg_ref s) (arg_ref p)]
  | OHist _ _ => exists ok h, g = [XHist id ok h]
  end.
(* different readings of the clock, one after the other *)
Fixpoint rising (l : list nat) : Prop :=
  match l with a :: (b :: _) as r => (a < b)%nat /\ rising r | _ => True end.
Definition readings (T : clock) (l : list Z) : Prop := exists ks, rising ks /\ l = map T ks.
(* what stays on the rank is not packed, unpacked or cleaned up: this takes no time; the other moments *)
Definition stays (t : trip) : Prop :=
  fst (tr_pack t) = snd (tr_pack t) /\ fst (tr_unpack t) = snd (tr_unpack t) /\ fst (tr_cleanup t) = snd (tr_cleanup t).
Definition brief (t : times) : list Z :=
  [tr_start (ti_trip t); fst (tr_pack (ti_trip t)); tr_send (ti_trip t); tr_recv (ti_trip t); fst (tr_unpack (ti_trip t));
   fst (tr_cleanup (ti_trip t)); tr_end (ti_trip t); fst (ti_result t); snd (ti_result t)].
(* the times are those of the operation, in order, and each was read for itself; an operation that stays on the rank of the client
   loses those of the hash function and of the insertion, and the others come after them *)
Definition times_of (e : env) (T : clock) (ev : event) (t : times) : Prop :=
  ti_alloc t = event_alloc T ev /\
  if far e (ev_id ev) then ti_send t = event_send T ev /\ ascending (moments t) /\ alloc_inside t /\ readings T (moments t)
  else ti_send t = no_send /\ ascending (snd (sn_insert (event_send T ev)) :: skipn 4 (moments t)) /\
       stays (ti_trip t) /\ readings T (brief t).
(* the first result has the times of the operation; the others of a GETOP have none *)
Definition accounted (e : env) (T : clock) (ev : event) (g : list (result * times)) : Prop :=
  answers ev (map fst g) /\
  match g with (_, t) :: rest => times_of e T ev t /\ Forall (fun y => snd y = no_times) rest | [] => False end.
Definition of_sync (x : result * times) : bool := match fst x with XSync _ _ => true | _ => false end.

(* without times *)
Definition bare {A} (qs : list (list (packet A))) : list (list (list A)) := map (map pk_items) qs.
Definition bare_queues (q : tqueues) : queues :=
  mkQs (bare (tq_puts q)) (bare (tq_gets q)) (bare (tq_getops q)) (bare (tq_dels q)) (bare (tq_hists q)).
(* one operation without times: the loop body of put_loop, key_impl, hist_impl of ModelClient.v *)
Definition queue_op (e : env) (q : queues) (o : op) : outcome (queues * bool) :=
  match o with
  | OPut s p x => do (r, ok) <- put_impl e s p x 1 (q_puts q);
                  Ok (mkQs (fst r) (q_gets q) (q_getops q) (q_dels q) (q_hists q), ok)
  | OGet s p ty => do (r, ok) <- get_impl e s p ty (q_gets q); Ok (mkQs (q_puts q) r (q_getops q) (q_dels q) (q_hists q), ok)
  | OGetOp s p ty n how => do (r, ok) <- getop_impl e s p ty n how (q_getops q); Ok (mkQs (q_puts q) (q_gets q) r (q_dels q) (q_hists q), ok)
  | ODel s p => do (r, ok) <- del_impl e s p (q_dels q); Ok (mkQs (q_puts q) (q_gets q) (q_getops q) r (q_hists q), ok)
  | OHist id n => if (id <? 0)%Z then Ok (q, false)
                  else do r <- hist_impl e id n (q_hists q); Ok (mkQs (q_puts q) (q_gets q) (q_getops q) (q_dels q) r, true)
  end.
