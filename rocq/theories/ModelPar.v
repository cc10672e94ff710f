(* Several clients working at the same time. A Flush is cut into the requests that it sends; between any two of them the other
   clients may do anything. include/hxhim/private/process.hpp, src/hxhim/ops/FLUSH.cpp,
   src/transport/backend/Thallium/EndpointGroup.cpp, RangeServer.cpp, src/datastore/datastore.cpp.
   One request is one step: the datastore holds its mutex while it carries out a request (datastore.cpp:117-172), the request has
   been unpacked before that, and the response to a PUT, GET or DELETE owns its bytes when the mutex is released
   (a histogram does not: see ModelHistRace.v). Without the background thread (async_puts disabled). *)
From Verif Require Import ModelBytes ModelKey ModelWire ModelHist ModelMsg ModelStore ModelGetOp ModelDs ModelElen ModelRoute ModelClient.

(* ---- the requests of a Flush ---- *)
(* One pass of the loop of process, process.hpp:43-162: the requests to other ranks, by rank, and the requests to this rank.
   Those to other ranks are all outstanding at once if ASYNC_THALLIUM is set and sent one after the other if not
   (EndpointGroup.cpp:203-259); any order is allowed here. *)
Record task := mkTask { t_far : list (Z * msg); t_near : list msg }.
Definition round_task (e : env) (ms : list msg) : task := mkTask (remote_map e ms) (filter (is_local e) ms).
(* process takes the packets out of the queues without looking at responses *)
Fixpoint rounds_tasks {A} (f : nat) (e : env) (wrap : list A -> body) (qs : list (list (list A))) : list task :=
  match f with
  | O => []
  | S f' =>
      match remaining qs with
      | O => []
      | _ => let '(ms, qs') := pop wrap (e_rank e) 0%Z qs in round_task e ms :: rounds_tasks f' e wrap qs'
      end
  end.
Definition process_tasks {A} (e : env) (wrap : list A -> body) (qs : list (list (list A))) : list task :=
  rounds_tasks (remaining qs) e wrap qs.
(* Flush, FLUSH.cpp:211-235 *)
Definition flush_tasks (e : env) (s : session) : list task :=
  process_tasks e QPut (q_puts (s_qs s)) ++ process_tasks e QGet (q_gets (s_qs s)) ++ process_tasks e QGetOp (q_getops (s_qs s)) ++
  process_tasks e QDel (q_dels (s_qs s)) ++ process_tasks e QHist (q_hists (s_qs s)).
Definition flushed (s : session) : session :=
  let q := s_qs s in
  mkSession (s_up s) (mkQs (drained (q_puts q)) (drained (q_gets q)) (drained (q_getops q)) (drained (q_dels q)) (drained (q_hists q)))
    0 (s_kept s).

(* ---- clients ---- *)
(* between calls, or in Flush with the requests that are left and the results so far *)
Inductive mode := Idle | Busy (ts : list task) (xs : list result).
Record client := mkClient { c_ses : session; c_mode : mode }.
Definition system := ((Z -> client) * cluster)%type.
Definition set_client (C : Z -> client) (i : Z) (x : client) : Z -> client := fun j => if (j =? i)%Z then x else C j.

(* what one of the clients does next. LFar i j: the j-th outstanding request to another rank is carried out *)
Inductive label := LCall (i : Z) (cs : list call) | LFar (i : Z) (j : nat) | LNear (i : Z) | LNext (i : Z) | LReturn (i : Z).
Definition who (l : label) : Z := match l with LCall i _ | LFar i _ | LNear i | LNext i | LReturn i => i end.
(* what the caller sees *)
Inductive shown := Called (i : Z) (cs : list call) | Returned (i : Z) (xs : list result).
Definition drop_nth {A} (n : nat) (l : list A) : list A := firstn n l ++ skipn (S n) l.

(* A label that does not fit the state of its client changes nothing. *)
Definition step (E : Z -> env) (st : system) (l : label) : outcome (system * list shown) :=
  let '(C, cl) := st in
  let stay := Ok (st, []) in
  let i := who l in
  let c := C i in
  match l, c_mode c with
  | LCall _ cs, Idle =>                        (* calls followed by Flush *)
      do (a, _) <- do_calls (E i) (c_ses c) cl cs;
      Ok ((set_client C i (mkClient (flushed (fst a)) (Busy (flush_tasks (E i) (fst a)) [])), snd a), [Called i cs])
  | LFar _ j, Busy (t :: ts) xs =>             (* process.hpp:84-123 *)
      match nth_error (t_far t) j with
      | None => stay
      | Some (r, m) =>
          match e_transport (E i) with
          | None => UB
          | Some route =>
              do (cl', a) <- remote_call (E i) route cl r m;
              do ys <- (match a with None => Ok [] | Some a => results_of a end);
              Ok ((set_client C i (mkClient (c_ses c) (Busy (mkTask (drop_nth j (t_far t)) (t_near t) :: ts) (xs ++ ys))), cl'), [])
          end
      end
  | LNear _, Busy (mkTask [] (m :: ms) :: ts) xs =>  (* process.hpp:127-161, after the others *)
      do (cl', a) <- serve (E i) cl (e_rank (E i)) m;
      do ys <- results_of a;
      Ok ((set_client C i (mkClient (c_ses c) (Busy (mkTask [] ms :: ts) (xs ++ ys))), cl'), [])
  | LNext _, Busy (mkTask [] [] :: ts) xs => Ok ((set_client C i (mkClient (c_ses c) (Busy ts xs)), cl), [])
  | LReturn _, Busy [] xs => Ok ((set_client C i (mkClient (c_ses c) Idle), cl), [Returned i xs])
  | _, _ => stay
  end.
Fixpoint run (E : Z -> env) (st : system) (ls : list label) : outcome (system * list shown) :=
  match ls with
  | [] => Ok (st, [])
  | l :: ls' => do (st1, h1) <- step E st l; do (st2, h2) <- run E st1 ls'; Ok (st2, h1 ++ h2)
  end.
Definition starting (S : Z -> session) (cl : cluster) : system := (fun i => mkClient (S i) Idle, cl).

(* one client alone carrying out the requests in the order of process *)
Fixpoint alone (e : env) (ts : list task) (cl : cluster) : outcome (cluster * list result) :=
  match ts with
  | [] => Ok (cl, [])
  | t :: ts' =>
      do (cl1, xs) <- (match t_far t with
                       | [] => Ok (cl, [])
                       | fs => match e_transport e with None => UB | Some route => communicate e route cl (e_iter e fs) end
                       end);
      do (cl2, ys) <- run_local e cl1 (t_near t);
      do (cl3, zs) <- alone e ts' cl2; Ok (cl3, (xs ++ ys) ++ zs)
  end.
