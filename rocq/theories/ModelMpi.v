(* The MPI transport: include/transport/backend/MPI/EndpointGroup.tpp, src/transport/backend/MPI/RangeServer.cpp.
   Threads that send requests and threads that serve them, taking steps in any order.
   MPI: packets with the same sender, receiver and tag arrive in the order they were sent. Any thread that waits for a packet may
   take it (MPI prefers the receive posted first; threads may post in any order). A call of MPI does not fail, except that a packet
   longer than the buffer ends the program (MPI_ERR_TRUNCATE). Not modelled: a session that is closed while requests are on the way. *)
From Verif Require Import ModelBytes ModelRoute.
Local Open Scope N_scope.

(* include/transport/backend/MPI/constants.h *)
Inductive tag := RqSize | RqData | RsSize | RsData.
Definition tag_eqb (a b : tag) : bool :=
  match a, b with RqSize, RqSize | RqData, RqData | RsSize, RsSize | RsData, RsData => true | _, _ => false end.
Inductive payload := PSize (n : N) | PData (b : bytes).
(* a packet that MPI_Isend was called with and that no receive has taken *)
Record packet := mkPk { k_from : Z; k_to : Z; k_tag : tag; k_ticket : nat; k_load : payload }.
Definition on (from to : Z) (t : tag) (k : packet) : bool :=
  ((k_from k =? from)%Z && (k_to k =? to)%Z && tag_eqb (k_tag k) t)%bool.
(* the oldest packet from a rank to a rank with a tag *)
Fixpoint take (from to : Z) (t : tag) (l : list packet) : option (packet * list packet) :=
  match l with
  | [] => None
  | k :: l' => if on from to t k then Some (k, l')
               else match take from to t l' with Some (x, r) => Some (x, k :: r) | None => None end
  end.

(* ---- threads ---- *)
(* RangeServer::listener_thread, RangeServer.cpp:43-76.
   LTop: recv waits for a size from any rank (98-106). LData c n: for data of that length from rank c (108-116).
   LGot: to be served. LSend d l: packets to be sent to d (131-150). LWait k d l: MPI_Test until packet k is sent, then l. *)
Inductive lstate :=
| LTop
| LData (c : Z) (n : N)
| LGot (c : Z) (b : bytes)
| LSend (d : Z) (l : list (tag * payload))
| LWait (k : nat) (p : payload) (d : Z) (l : list (tag * payload)).
(* return_msgs, EndpointGroup.tpp:330-378. A call is a list of packed requests and the dst they have.
   CSend: packets to be sent (62-97); the tickets of those sent; what was sent where. CWait: until all are sent (104-137).
   CSizes: the sizes to be received, by position in srcs, and those received (186-236). CDatas: likewise for data (238-290). *)
Definition call := list (Z * bytes).
Inductive cstate :=
| CIdle
| CSend (l : list (Z * tag * payload)) (ks : list (nat * payload)) (sent : call)
| CWait (ks : list (nat * payload)) (sent : call)
| CSizes (wait : list (nat * Z)) (lens : list (nat * N)) (sent : call)
| CDatas (wait : list (nat * Z * N)) (got : list (nat * Z * bytes)) (sent : call).
(* what a call sent, and what it received *)
Record thread := mkTh { h_todo : list call; h_at : cstate; h_log : list (call * list (nat * Z * bytes)) }.

Inductive fault := Truncated | Short | Failed.

Section Net.
Context {store : Type}.
(* local::range_server between unpacking and packing, RangeServer.cpp:55-68, on a rank: the destination and bytes of the response *)
Context (handle : Z -> store -> bytes -> outcome (store * (Z * bytes))).
(* whether MPI_Isend of a packet completes although no receive has taken it *)
Context (eager : payload -> bool).
(* the value that the result of Packer::pack is compared with (44): TRANSPORT_SUCCESS in the code *)
Context (okc : Z).
(* `ranks` of each rank: range servers and their ranks, as ModelRoute.mpi_endpoints makes it *)
Context (eps : Z -> list (Z * Z)).

Record net := mkNet {
  n_lis : list (Z * lstate); n_cli : list (Z * thread); n_pks : list packet; n_tick : nat; n_store : store; n_fault : option fault;
  (* not in the code: what was served, in order: client, server, request, response *)
  n_hist : list (Z * Z * bytes * bytes) }.

(* 36-53, 67-71: the messages that are packed and have an endpoint, with the rank they are sent to *)
Definition targets (me : Z) (c : call) : call :=
  flat_map (fun '(dst, b) => if (MESSAGE_SUCCESS =? okc)%Z then match lookup dst (eps me) with Some r => [(r, b)] | None => [] end else []) c.
(* 73-97 *)
Definition to_send (c : call) : list (Z * tag * payload) := flat_map (fun '(r, b) => [(r, RqSize, PSize (blen b)); (r, RqData, PData b)]) c.
(* srvs holds ranks (90), parallel_recv looks them up as if they were range servers (190-193) *)
Definition post_sizes (me : Z) (srcs : list Z) : list (nat * Z) :=
  flat_map (fun '(i, s) => match lookup s (eps me) with Some r => [(i, r)] | None => [] end) (combine (seq 0 (length srcs)) srcs).
(* 238-257: only the first size_req_count entries of srcs are looked at *)
Definition len_of (i : nat) (lens : list (nat * N)) : N := match find (fun x => Nat.eqb (fst x) i) lens with Some (_, n) => n | None => 0 end.
Definition post_datas (me : Z) (srcs : list Z) (count : nat) (lens : list (nat * N)) : list (nat * Z * N) :=
  map (fun '(i, r) => (i, r, len_of i lens)) (post_sizes me (firstn count srcs)).

Definition sent_k (st : net) (k : nat * payload) : bool :=
  eager (snd k) || negb (existsb (fun x => Nat.eqb (k_ticket x) (fst k)) (n_pks st)).

Definition with_lis (st : net) (i : nat) (r : Z) (x : lstate) : net :=
  mkNet (firstn i (n_lis st) ++ (r, x) :: skipn (S i) (n_lis st)) (n_cli st) (n_pks st) (n_tick st) (n_store st) (n_fault st) (n_hist st).
Definition with_cli (st : net) (i : nat) (r : Z) (x : thread) : net :=
  mkNet (n_lis st) (firstn i (n_cli st) ++ (r, x) :: skipn (S i) (n_cli st)) (n_pks st) (n_tick st) (n_store st) (n_fault st) (n_hist st).
Definition with_pks (st : net) (l : list packet) : net :=
  mkNet (n_lis st) (n_cli st) l (n_tick st) (n_store st) (n_fault st) (n_hist st).
Definition isend (st : net) (from to : Z) (t : tag) (p : payload) : net :=
  mkNet (n_lis st) (n_cli st) (n_pks st ++ [mkPk from to t (n_tick st) p]) (S (n_tick st)) (n_store st) (n_fault st) (n_hist st).
Definition served (st : net) (s : store) (h : Z * Z * bytes * bytes) : net :=
  mkNet (n_lis st) (n_cli st) (n_pks st) (n_tick st) s (n_fault st) (n_hist st ++ [h]).
Definition fails (st : net) (f : fault) : net :=
  mkNet (n_lis st) (n_cli st) (n_pks st) (n_tick st) (n_store st) (Some f) (n_hist st).
(* data for a buffer of n bytes *)
Definition misfit (n : N) (b : bytes) : option fault :=
  if n <? blen b then Some Truncated else if blen b <? n then Some Short else None.

(* one step of listener i; c: the rank it takes a size from *)
Definition lis_step (st : net) (i : nat) (c : Z) : option net :=
  match nth_error (n_lis st) i with
  | None => None
  | Some (me, LTop) =>
      match take c me RqSize (n_pks st) with
      | Some (mkPk _ _ _ _ (PSize n), l) => Some (with_lis (with_pks st l) i me (LData c n))
      | _ => None
      end
  | Some (me, LData c n) =>
      match take c me RqData (n_pks st) with
      | Some (mkPk _ _ _ _ (PData b), l) =>
          match misfit n b with
          | Some f => Some (fails st f)
          | None => Some (with_lis (with_pks st l) i me (LGot c b))
          end
      | _ => None
      end
  | Some (me, LGot c b) =>
      match handle me (n_store st) b with
      | Ok (s, (d, a)) => Some (with_lis (served st s (c, me, b, a)) i me (LSend d [(RsSize, PSize (blen a)); (RsData, PData a)]))
      | _ => Some (fails st Failed)
      end
  | Some (me, LSend d []) => Some (with_lis st i me LTop)
  | Some (me, LSend d ((t, p) :: l)) => Some (with_lis (isend st me d t p) i me (LWait (n_tick st) p d l))
  | Some (me, LWait k p d l) => if sent_k st (k, p) then Some (with_lis st i me (LSend d l)) else None
  end.

(* one step of client thread i; j: which of the receives it waits for is completed *)
Definition cli_step (st : net) (i j : nat) : option net :=
  match nth_error (n_cli st) i with
  | None => None
  | Some (me, mkTh todo x log) =>
      let go y := Some (with_cli st i me (mkTh todo y log)) in
      match x with
      | CIdle => match todo with
                 | [] => None
                 | c :: todo' => let t := targets me c in Some (with_cli st i me (mkTh todo' (CSend (to_send t) [] t) log))
                 end
      | CSend [] ks sent => go (CWait ks sent)
      | CSend ((r, t, p) :: l) ks sent => Some (with_cli (isend st me r t p) i me (mkTh todo (CSend l (ks ++ [(n_tick st, p)]) sent) log))
      | CWait ks sent => if forallb (sent_k st) ks then go (CSizes (post_sizes me (map fst sent)) [] sent) else None
      | CSizes [] lens sent => go (CDatas (post_datas me (map fst sent) (length (post_sizes me (map fst sent))) lens) [] sent)
      | CSizes w lens sent =>
          match nth_error w j with
          | None => None
          | Some (n, r) =>
              match take r me RsSize (n_pks st) with
              | Some (mkPk _ _ _ _ (PSize z), l) =>
                  Some (with_cli (with_pks st l) i me (mkTh todo (CSizes (firstn j w ++ skipn (S j) w) ((n, z) :: lens) sent) log))
              | _ => None
              end
          end
      | CDatas [] got sent => Some (with_cli st i me (mkTh todo CIdle (log ++ [(sent, got)])))
      | CDatas w got sent =>
          match nth_error w j with
          | None => None
          | Some (n, r, z) =>
              match take r me RsData (n_pks st) with
              | Some (mkPk _ _ _ _ (PData b), l) =>
                  match misfit z b with
                  | Some f => Some (fails st f)
                  | None => Some (with_cli (with_pks st l) i me (mkTh todo (CDatas (firstn j w ++ skipn (S j) w) ((n, r, b) :: got) sent) log))
                  end
              | _ => None
              end
          end
      end
  end.

Inductive label := Lis (i : nat) (c : Z) | Cli (i j : nat).
(* after a fault nothing happens *)
Definition step (st : net) (l : label) : option net :=
  match n_fault st with
  | Some _ => None
  | None => match l with Lis i c => lis_step st i c | Cli i j => cli_step st i j end
  end.
Fixpoint run (st : net) (ls : list label) : option net :=
  match ls with [] => Some st | l :: ls' => match step st l with Some st' => run st' ls' | None => None end end.

(* listeners on these ranks (RangeServer.cpp:14-27: one entry for each), client threads on these ranks with their calls *)
Definition started (listeners : list Z) (clients : list (Z * list call)) (s : store) : net :=
  mkNet (map (fun r => (r, LTop)) listeners) (map (fun '(r, cs) => (r, mkTh cs CIdle [])) clients) [] 0 s None [].
End Net.
