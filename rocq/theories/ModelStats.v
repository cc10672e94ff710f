(* The statistics of a session: include/hxhim/private/Stats.hpp, src/hxhim/Stats.cpp, what src/hxhim/ops/*.cpp and
   include/hxhim/private/process.hpp add to them. Without the background thread, as ModelClient.v.
   The members transport and incoming are never written and left out. *)
From Coq Require Import Floats.SpecFloat.
From Verif Require Import ModelBytes ModelMsg ModelHist ModelStore ModelGetOp ModelDs ModelRoute ModelClient ModelFloat ModelGen.
Local Open Scope N_scope.

(* ::Stats::Chronostamp, include/utils/Stats.hpp:17-20: two readings of the steady clock in nanoseconds *)
Definition stamp := (Z * Z)%type.
(* struct Global, Stats.hpp:15-35. std::map<op, ...>: functions from the number of the operation (ModelMsg.body_op);
   an operation without entries is one that is not in the map *)
Record stats := mkStats {
  st_single : N -> list stamp; st_bulk : N -> list stamp;
  st_used : N -> list N; st_out : N -> Z -> N
}.
Definition no_stats : stats := mkStats (fun _ => []) (fun _ => []) (fun _ => []) (fun _ _ => 0).

Definition push {A} (f : N -> list A) (k : N) (a : A) : N -> list A := fun k' => if k' =? k then f k' ++ [a] else f k'.
Definition O_PUT := 0. Definition O_GET := 1. Definition O_GETOP := 2. Definition O_DEL := 3. Definition O_HIST := 5.

(* ---- calls ---- *)
(* Where a call is recorded, None: it returns before that. PUT.cpp:25-30, 54; GET.cpp:24-27, 37; GETOP.cpp:25-28, 39
   (in bulk_op); DELETE.cpp:20-24, 32; HISTOGRAM.cpp:15-19, 30; BPUT.cpp:26-32, 57; BGET.cpp:25-29, 43;
   BGETOP.cpp:27-32, 47; BDELETE.cpp:23-26, 39; BHISTOGRAM.cpp:18-34, 43; single_type.cpp:15-21, 44, 69-73, 89, 113-118, 135 *)
Inductive table := Single | Bulk.
Definition recorded (e : env) (s : session) (c : call) : option (table * N) :=
  if negb (s_up s) then None else
  match c with
  | CPut x y z _ => if given x && given y && given z then Some (Single, O_PUT) else None
  | CGet x y _ => if given x && given y then Some (Single, O_GET) else None
  | CGetOp x _ _ _ _ => if given x then Some (Bulk, O_GETOP) else None
  | CDelete x y => if given x && given y then Some (Single, O_DEL) else None
  | CHist id _ => if accepts e id then Some (Single, O_HIST) else None
  | CBPut None | CBGet None | CBGetOp None | CBDelete None | CBHist None
  | CBPutOne _ _ None | CBGetOne _ _ None | CBGetOpOne _ _ _ None => None
  | CBPut (Some _) | CBPutOne _ _ (Some _) => Some (Bulk, O_PUT)
  | CBGet (Some _) | CBGetOne _ _ (Some _) => Some (Bulk, O_GET)
  | CBGetOp (Some _) => Some (Bulk, O_GETOP)
  | CBDelete (Some _) => Some (Bulk, O_DEL)
  | CBHist (Some l) => if forallb (fun x => accepts e (fst x)) l then Some (Bulk, O_HIST) else None
  | CBGetOpOne _ ops _ (Some _) => if ops then None else Some (Bulk, O_GETOP)
  end.
Definition record (w : option (table * N)) (t : stamp) (st : stats) : stats :=
  match w with
  | None => st
  | Some (Single, k) => mkStats (push (st_single st) k t) (st_bulk st) (st_used st) (st_out st)
  | Some (Bulk, k) => mkStats (st_single st) (push (st_bulk st) k t) (st_used st) (st_out st)
  end.

(* ---- packets ---- *)
(* process.hpp:74-75; filled() is the count of the packet, Message.cpp:31-33 *)
Definition note (st : stats) (m : msg) : stats :=
  let k := body_op (m_body m) in
  mkStats (st_single st) (st_bulk st) (push (st_used st) k (body_count (m_body m)))
    (fun k' d => if (k' =? k) && (d =? m_dst m)%Z then st_out st k' d + 1 else st_out st k' d).
(* the while loop of process, process.hpp:43-162, as ModelClient.rounds: what it adds to the statistics does not depend
   on the answers *)
Fixpoint rounds_st {A} (f : nat) (e : env) (wrap : list A -> body) (qs : list (list (list A))) (st : stats) : stats :=
  match f with
  | O => st
  | S f' =>
      match remaining qs with
      | O => st
      | _ => let '(ms, qs') := pop wrap (e_rank e) 0%Z qs in rounds_st f' e wrap qs' (fold_left note ms st)
      end
  end.
Definition process_st {A} (e : env) (wrap : list A -> body) (qs : list (list (list A))) (st : stats) : stats :=
  rounds_st (remaining qs) e wrap qs st.

(* ---- a session at work ---- *)
(* a call with the readings of the clock before and after its work; FlushPuts ... FlushHistograms; Flush; Sync *)
Inductive sact := SCall (c : call) (t : stamp) | SFlushPuts | SFlushGets | SFlushGetOps | SFlushDels | SFlushHists | SFlush | SSync.
(* BPutSingleType sends the queue if there are max_queued PUTs, before it records itself: single_type.cpp:25-44,
   private.cpp:71-89 *)
Definition early_st (e : env) (s : session) (c : call) (st : stats) : outcome stats :=
  match c with
  | CBPutOne types ty (Some l) =>
      if negb (s_up s) then Ok st else
      do qk <- bput_loop e (map (fun '(x, y, z, m) => (x, y, mkArg (a_addr z) (a_data z) ty, m)) l) (q_puts (s_qs s)) 0;
      Ok (if e_max_queued e <=? s_count s + snd qk then process_st e QPut (fst qk) st else st)
  | _ => Ok st
  end.
(* src/hxhim/ops/FLUSH.cpp:211-235 *)
Definition flush_st (e : env) (s : session) (st : stats) : stats :=
  let q := s_qs s in
  process_st e QHist (q_hists q) (process_st e QDel (q_dels q) (process_st e QGetOp (q_getops q)
    (process_st e QGet (q_gets q) (process_st e QPut (q_puts q) st)))).
Definition sstep (e : env) (s : session) (cl : cluster) (st : stats) (a : sact) : outcome (session * cluster * stats) :=
  let q := s_qs s in
  match a with
  | SCall c t => do (r, _) <- do_call e s cl c; do st' <- early_st e s c st; Ok (r, record (recorded e s c) t st')
  | SFlushPuts => do (r, _) <- flush_puts e s cl; Ok (r, process_st e QPut (q_puts q) st)
  | SFlushGets => do (r, _) <- flush_gets e s cl; Ok (r, process_st e QGet (q_gets q) st)
  | SFlushGetOps => do (r, _) <- flush_getops e s cl; Ok (r, process_st e QGetOp (q_getops q) st)
  | SFlushDels => do (r, _) <- flush_dels e s cl; Ok (r, process_st e QDel (q_dels q) st)
  | SFlushHists => do (r, _) <- flush_hists e s cl; Ok (r, process_st e QHist (q_hists q) st)
  | SFlush => do (r, _) <- flush e s cl; Ok (r, flush_st e s st)
  | SSync => do (r, _) <- sync e s cl; Ok (r, if s_up s then flush_st e s st else st)
  end.
Fixpoint ssteps (e : env) (s : session) (cl : cluster) (st : stats) (l : list sact) : outcome (session * cluster * stats) :=
  match l with
  | [] => Ok (s, cl, st)
  | a :: l' => do (r, st') <- sstep e s cl st a; ssteps e (fst r) (snd r) st' l'
  end.

(* ---- the report, Stats.cpp:6-81 ---- *)
(* 20-26, 41-47: the duration printed for one operation, in nanoseconds (signed 64 bit) *)
Definition op_time (l : list stamp) : Z := fold_left (fun t x => (t + (snd x - fst x))%Z) l 0%Z.
(* 55-65: sums of size_t; the average of one operation, as a double, and the percentage of max_ops_per_send *)
Definition fill_sum (l : list N) : N := fold_left (fun s x => (s + x) mod 2 ^ 64) l 0.
Definition fill_avg (l : list N) : spec_float := ddiv (of_size (fill_sum l)) (of_size (N.of_nat (length l))).
Definition percent (max : N) (avg : spec_float) : spec_float := ddiv (dmul (of_size 100) avg) (of_size max).
