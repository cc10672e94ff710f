(* The Thallium transport: src/transport/backend/Thallium/{EndpointGroup,RangeServer}.cpp, its buffers, and the end of a session
   (hxhim::Close, src/hxhim/hxhim.cpp:231-276; Transport::~Transport, src/transport/transport.cpp).
   Threads that call communicate, the handlers of the RPCs they cause, and the ranks that close, taking steps in any order.
   A thread waits for the response to an RPC, so that what happens to its request until then, also on the other rank, is part of its
   state; only the RPC "cleanup" (disable_response) goes on by itself.
   Simplifications: Thallium and Mercury deliver every RPC to a rank that has its range server, and a bulk transfer copies the bytes that the
   remote buffer holds at that time. Registration of memory (engine->expose) is left out, and mlog, except that an argument of it may be a null
   pointer (its arguments are evaluated if the message is logged). operator new does not fail and may give out any address that is not in use. *)
From Verif Require Import ModelBytes ModelRoute.
Local Open Scope nat_scope.

(* ---- buffers of all ranks: rank, address, contents ---- *)
Definition key := (Z * nat)%type.
Definition key_eqb (a b : key) : bool := ((fst a =? fst b)%Z && Nat.eqb (snd a) (snd b))%bool.
Definition heap := list (key * bytes).
Fixpoint peek (h : heap) (k : key) : option bytes :=
  match h with [] => None | (x, b) :: h' => if key_eqb x k then Some b else peek h' k end.
(* dealloc, src/utils/memory.cpp: of an address that is in use *)
Fixpoint release (h : heap) (k : key) : heap :=
  match h with [] => [] | (x, b) :: h' => if key_eqb x k then h' else (x, b) :: release h' k end.

(* ---- threads ---- *)
(* where a request is: process_request, EndpointGroup.cpp:105-185 (T...), and RangeServer::process, RangeServer.cpp:52-106 (H...).
   r: the rank of the endpoint; a: req_buf of the client; c: req_buf of the server; d: res_buf of the server; e: res_buf of the client *)
Inductive phase :=
| TIdle                                     (* between requests *)
| TPacked (r : Z) (a : nat)                 (* packed: 121-130 *)
| TSent (r : Z) (a : nat) (len : N)         (* the RPC is on its way: 139-141 *)
| HStart (r : Z) (a : nat) (len : N)        (* the handler runs: 53-55 *)
| HRecv (r : Z) (a : nat) (len : N) (c : nat) (* alloc: 56 *)
| HGot (r : Z) (a : nat) (c : nat)          (* bulk.on(ep) >> local: 59-63 *)
| HDone (r : Z) (a : nat) (b : bytes)       (* unpacked, dealloc, served: 67-82; the response *)
| HSend (r : Z) (a : nat) (d : nat) (len : N) (* response packed: 86-91 *)
| TResp (r : Z) (a : nat) (d : nat) (len : N) (* req.respond: 94-98 *)
| TFreed (r : Z) (d : nat) (len : N)        (* dealloc(req_buf): 143-151 *)
| TRecv (r : Z) (d : nat) (len : N) (e : nat) (* alloc: 154 *)
| TGot (r : Z) (d : nat) (e : nat)          (* res_bulk.on(...) >> local: 155-158 *)
| TClean (r : Z) (d : nat) (b : bytes).     (* unpacked, dealloc: 163-167 *)
(* what became of a request: no endpoint; the response of a rank that could not be unpacked; the response of a rank *)
Inductive fate := Nowhere | Unread (r : Z) (m : bytes) | Got (r : Z) (m : bytes).
(* h_main: the thread that calls Close; the others are background threads. The requests of a thread: dst_rank and bytes; those of several calls
   one after the other. h_log: the requests it is done with *)
Record thread := mkTh { h_rank : Z; h_main : bool; h_todo : list (Z * bytes); h_at : phase; h_log : list (bytes * fate) }.
Definition idle (t : thread) : bool := match h_todo t, h_at t with [], TIdle => true | _, _ => false end.

(* hxhim::Close: RAt: in MPI_Barrier (252), RPast: after it, RDown: Transport::destroy has destroyed the range server and the engine *)
Inductive rstate := RUp | RAt | RPast | RDown.
(* UseAfterFree, DoubleFree: of a buffer. Null: a null pointer is followed. Failed: undefined behaviour in the datastore or while unpacking.
   Gone: a request for a rank whose transport is destroyed. Late: a cleanup for such a rank *)
Inductive fault := UseAfterFree | DoubleFree | Null | Failed | Gone | Late.

Section Net.
Context {store : Type}.
(* RangeServer::process between unpacking and packing, on a rank *)
Context (handle : Z -> store -> bytes -> outcome (store * bytes)).
(* whether Unpacker::unpack of a response succeeds *)
Context (accept : bytes -> bool).
(* endpoints of each rank, as ModelRoute.tl_endpoints makes them *)
Context (eps : Z -> list (Z * Z)).
(* whether messages of level THALLIUM_DBG are logged *)
Context (debug : bool).

Record net := mkNet {
  n_thr : list thread; n_heap : heap; n_clean : list key; n_ranks : list (Z * rstate); n_store : store; n_fault : option fault;
  (* not in the code: what was served, in order: number of the thread, server, request, response *)
  n_hist : list (nat * Z * bytes * bytes) }.

Definition down (st : net) (r : Z) : bool := existsb (fun x => (fst x =? r)%Z && match snd x with RDown => true | _ => false end)%bool (n_ranks st).
Definition with_thr (st : net) (i : nat) (t : thread) : net :=
  mkNet (firstn i (n_thr st) ++ t :: skipn (S i) (n_thr st)) (n_heap st) (n_clean st) (n_ranks st) (n_store st) (n_fault st) (n_hist st).
Definition with_heap (st : net) (h : heap) : net := mkNet (n_thr st) h (n_clean st) (n_ranks st) (n_store st) (n_fault st) (n_hist st).
Definition with_clean (st : net) (l : list key) : net := mkNet (n_thr st) (n_heap st) l (n_ranks st) (n_store st) (n_fault st) (n_hist st).
Definition with_ranks (st : net) (l : list (Z * rstate)) : net := mkNet (n_thr st) (n_heap st) (n_clean st) l (n_store st) (n_fault st) (n_hist st).
Definition served (st : net) (s : store) (h : nat * Z * bytes * bytes) : net :=
  mkNet (n_thr st) (n_heap st) (n_clean st) (n_ranks st) s (n_fault st) (n_hist st ++ [h]).
Definition fails (st : net) (f : fault) : option net := Some (mkNet (n_thr st) (n_heap st) (n_clean st) (n_ranks st) (n_store st) (Some f) (n_hist st)).
Definition at_phase (t : thread) (p : phase) : thread := mkTh (h_rank t) (h_main t) (h_todo t) p (h_log t).

(* alloc and fill; address x must not be in use *)
Definition alloc (st : net) (k : key) (b : bytes) (go : net -> option net) : option net :=
  match peek (n_heap st) k with Some _ => None | None => go (with_heap st ((k, b) :: n_heap st)) end.
Definition dealloc (st : net) (k : key) (go : net -> option net) : option net :=
  match peek (n_heap st) k with None => fails st DoubleFree | Some _ => go (with_heap st (release (n_heap st) k)) end.
(* a bulk transfer of len bytes into the buffer dst of that length *)
Definition pull (st : net) (src : key) (len : N) (dst : key) (go : net -> option net) : option net :=
  match peek (n_heap st) src with
  | None => fails st UseAfterFree
  | Some b => if (blen b <? len)%N then fails st UseAfterFree
              else match peek (n_heap st) dst with
                   | None => fails st UseAfterFree
                   | Some _ => go (with_heap st ((dst, firstn (N.to_nat len) b) :: release (n_heap st) dst))
                   end
  end.
Definition read (st : net) (k : key) (go : bytes -> option net) : option net :=
  match peek (n_heap st) k with None => fails st UseAfterFree | Some b => go b end.
(* a step of a handler, or a transfer from a rank *)
Definition there (st : net) (r : Z) (go : option net) : option net := if down st r then fails st Gone else go.

(* one step of thread i; x: the address that operator new gives out *)
Definition thr_step (st : net) (i x : nat) : option net :=
  match nth_error (n_thr st) i with
  | None => None
  | Some t =>
      let me := h_rank t in
      let to p st := Some (with_thr st i (at_phase t p)) in
      match h_at t with
      | TIdle =>
          match h_todo t with
          | [] => None
          | (dst, b) :: todo => match lookup dst (eps me) with
                                (* 107-112: process_request returns nullptr; process_requests logs response->src (236) *)
                                | None => if debug then fails st Null else Some (with_thr st i (mkTh me (h_main t) todo TIdle (h_log t ++ [(b, Nowhere)])))
                                | Some r => alloc st (me, x) b (to (TPacked r x))
                                end
          end
      | TPacked r a => read st (me, a) (fun b => to (TSent r a (blen b)) st)
      | TSent r a len => there st r (to (HStart r a len) st)
      | HStart r a len => there st r (alloc st (r, x) (repeat "000"%char (N.to_nat len)) (to (HRecv r a len x)))
      | HRecv r a len c => there st r (pull st (me, a) len (r, c) (to (HGot r a c)))
      | HGot r a c => there st r (read st (r, c) (fun b =>
          match handle r (n_store st) b with
          | Ok (s, m) => dealloc st (r, c) (fun st => Some (with_thr (served st s (i, r, b, m)) i (at_phase t (HDone r a m))))
          | _ => fails st Failed
          end))
      | HDone r a m => there st r (alloc st (r, x) m (to (HSend r a x (blen m))))
      | HSend r a d len => there st r (to (TResp r a d len) st)
      | TResp r a d len => dealloc st (me, a) (to (TFreed r d len))
      | TFreed r d len => alloc st (me, x) (repeat "000"%char (N.to_nat len)) (to (TRecv r d len x))
      | TRecv r d len e => there st r (pull st (r, d) len (me, e) (to (TGot r d e)))
      | TGot r d e => read st (me, e) (fun b => dealloc st (me, e) (to (TClean r d b)))
      (* 170-173; 177-180 and 236: a response that cannot be unpacked is a null pointer *)
      | TClean r d m =>
          if (negb (accept m) && debug)%bool then fails st Null
          else match h_todo t with
               | [] => None
               | (_, b) :: todo => Some (with_thr (with_clean st (n_clean st ++ [(r, d)])) i
                                           (mkTh me (h_main t) todo TIdle (h_log t ++ [(b, if accept m then Got r m else Unread r m)])))
               end
      end
  end.
(* RangeServer::cleanup, RangeServer.cpp:108-112, for the j-th cleanup RPC on its way *)
Definition clean_step (st : net) (j : nat) : option net :=
  match nth_error (n_clean st) j with
  | None => None
  | Some (r, d) =>
      if down st r then fails st Late
      else dealloc st (r, d) (fun st => Some (with_clean st (firstn j (n_clean st) ++ skipn (S j) (n_clean st))))
  end.
(* Close on the j-th rank: the calls of its main threads have returned; MPI_Barrier; destroy::async_puts joins the background thread
   (destroy.cpp:39-51), then Transport::destroy *)
Definition close_step (st : net) (j : nat) : option net :=
  match nth_error (n_ranks st) j with
  | None => None
  | Some (r, x) =>
      let go y := Some (with_ranks st (firstn j (n_ranks st) ++ (r, y) :: skipn (S j) (n_ranks st))) in
      match x with
      | RUp => if forallb (fun t => negb (h_rank t =? r)%Z || negb (h_main t) || idle t)%bool (n_thr st) then go RAt else None
      | RAt => if forallb (fun x => match snd x with RUp => false | _ => true end) (n_ranks st) then go RPast else None
      | RPast => if forallb (fun t => negb (h_rank t =? r)%Z || idle t)%bool (n_thr st) then go RDown else None
      | RDown => None
      end
  end.

Inductive label := Thr (i x : nat) | Clean (j : nat) | Close (j : nat).
(* after a fault nothing happens *)
Definition step (st : net) (l : label) : option net :=
  match n_fault st with
  | Some _ => None
  | None => match l with Thr i x => thr_step st i x | Clean j => clean_step st j | Close j => close_step st j end
  end.
Fixpoint run (st : net) (ls : list label) : option net :=
  match ls with [] => Some st | l :: ls' => match step st l with Some st' => run st' ls' | None => None end end.

(* threads on ranks, with their requests *)
Definition started (ranks : list Z) (threads : list (Z * bool * list (Z * bytes))) (s : store) : net :=
  mkNet (map (fun '(r, m, q) => mkTh r m q TIdle []) threads) [] [] (map (fun r => (r, RUp)) ranks) s None [].
End Net.
