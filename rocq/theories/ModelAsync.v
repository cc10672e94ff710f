(* The background PUT thread and the thread of the client: src/hxhim/init.cpp 217-305, src/hxhim/private.cpp 26-59,
   src/hxhim/ops/PUT.cpp 37-51, BPUT.cpp 37-54, FLUSH.cpp 33-66, src/hxhim/destroy.cpp 27-53, src/hxhim/hxhim.cpp 231-258.
   Two threads that take turns step by step; every step of a thread reads or writes one thing that is shared
   (or several while it holds the mutex that protects them). Sequential consistency is assumed, as the C++ memory
   model grants to programs without data races; whether there are races is a question of its own (C38).
   Carrying out PUTs is one step per PUT; each gives one result (C31, C32). Only one thread of the application
   uses the session. *)
From Verif Require Import ModelBytes ModelKey ModelWire ModelHist ModelMsg.
Local Open Scope nat_scope.

(* a PUT that was hashed to a datastore *)
Record op := mkOp { o_ds : nat; o_put : put_item }.
(* g_max: async_puts.max_queued. g_total: datastores.total. g_rs: total_range_servers. g_order: the order in which
   process carries out what is in a queue *)
Record cfg := mkCfg { g_max : nat; g_total : nat; g_rs : nat; g_order : list op -> list op }.

(* what the application does with the session after opening it; nothing after Close *)
Inductive cmd := KPut (l : list op) | KFlush | KClose.

(* who has called wait_for_background_puts: init::async_puts, FlushPuts, destroy::async_puts *)
Inductive caller := FromOpen | FromFlush | FromClose.

(* where the client is *)
Inductive cpc :=
| CIdle
| CPutLock (l : list op)              (* PUT.cpp:37-39 *)
| CPutDo (l : list op)                (* PUT.cpp:41-51, BPUT.cpp:42-54; has puts.mutex *)
| WLock (k : caller)                  (* private.cpp:28 *)
| WReset (k : caller) (i : bool)      (* 33; has async_puts.mutex; i: second round *)
| WPuts (k : caller) (i : bool)       (* 37 *)
| WSet (k : caller) (i : bool)        (* 38-51; has both *)
| WTest (k : caller) (i : bool)       (* 54-57: the condition; has async_puts.mutex *)
| WWait (k : caller) (i : bool)       (* blocked *)
| WWake (k : caller) (i : bool)       (* woken up, has to get the mutex *)
| FAppend                             (* FLUSH.cpp:45 *)
| FFree                               (* 46 *)
| FNull                               (* 47 *)
| FLock                               (* 49 *)
| FRun                                (* 53-55; has puts.mutex *)
| FDone                               (* 56-65 *)
| XStop                               (* destroy::running, destroy.cpp:27-30 *)
| XJoin                               (* destroy.cpp:43 *)
| XFree                               (* 47-48, and destroy::queues 69-80 *)
| CGone.

(* where the background thread is, init.cpp:223-281 *)
Inductive tpc :=
| TLoop        (* 230 *)
| TLock        (* 235 *)
| TTest        (* 236-243: the condition; has puts.mutex *)
| TWait | TWake
| TTake        (* 247-255; has puts.mutex *)
| TRun         (* 261 *)
| TStore       (* 265 *)
| TApp         (* 266-267 *)
| TSet         (* 270 *)
| TDoneLock    (* 273 *)
| TDone        (* 274; has async_puts.mutex *)
| TNotify      (* 277 *)
| TEnd.

Inductive who := Client | Thread.
(* async_puts.results *)
Inductive rptr := PNull | PLive (l : list op) | PFreed.

(* v_len: the number of elements of queues.puts.queue. v_queue: all PUTs in it, oldest first.
   v_local, v_tres: puts and results of the thread. v_res: res in FlushPuts.
   History: v_acc: PUTs accepted; v_exec: carried out; v_out: results returned by FlushPuts.
   v_bad: undefined behaviour has happened *)
Record st := mkSt {
  v_c : cpc; v_t : tpc; v_prog : list cmd;
  v_running : bool; v_pm : option who; v_am : option who;
  v_len : nat; v_queue : list op; v_count : nat; v_flushed : bool; v_done : bool; v_ptr : rptr;
  v_local : list op; v_tres : list op; v_res : list op;
  v_acc : list op; v_exec : list op; v_out : list (list op); v_bad : bool
}.

(* setters *)
Definition set_c s x := mkSt x (v_t s) (v_prog s) (v_running s) (v_pm s) (v_am s) (v_len s) (v_queue s) (v_count s) (v_flushed s) (v_done s) (v_ptr s) (v_local s) (v_tres s) (v_res s) (v_acc s) (v_exec s) (v_out s) (v_bad s).
Definition set_t s x := mkSt (v_c s) x (v_prog s) (v_running s) (v_pm s) (v_am s) (v_len s) (v_queue s) (v_count s) (v_flushed s) (v_done s) (v_ptr s) (v_local s) (v_tres s) (v_res s) (v_acc s) (v_exec s) (v_out s) (v_bad s).
Definition set_prog s x := mkSt (v_c s) (v_t s) x (v_running s) (v_pm s) (v_am s) (v_len s) (v_queue s) (v_count s) (v_flushed s) (v_done s) (v_ptr s) (v_local s) (v_tres s) (v_res s) (v_acc s) (v_exec s) (v_out s) (v_bad s).
Definition set_running s x := mkSt (v_c s) (v_t s) (v_prog s) x (v_pm s) (v_am s) (v_len s) (v_queue s) (v_count s) (v_flushed s) (v_done s) (v_ptr s) (v_local s) (v_tres s) (v_res s) (v_acc s) (v_exec s) (v_out s) (v_bad s).
Definition set_pm s x := mkSt (v_c s) (v_t s) (v_prog s) (v_running s) x (v_am s) (v_len s) (v_queue s) (v_count s) (v_flushed s) (v_done s) (v_ptr s) (v_local s) (v_tres s) (v_res s) (v_acc s) (v_exec s) (v_out s) (v_bad s).
Definition set_am s x := mkSt (v_c s) (v_t s) (v_prog s) (v_running s) (v_pm s) x (v_len s) (v_queue s) (v_count s) (v_flushed s) (v_done s) (v_ptr s) (v_local s) (v_tres s) (v_res s) (v_acc s) (v_exec s) (v_out s) (v_bad s).
Definition set_queue s n q c f := mkSt (v_c s) (v_t s) (v_prog s) (v_running s) (v_pm s) (v_am s) n q c f (v_done s) (v_ptr s) (v_local s) (v_tres s) (v_res s) (v_acc s) (v_exec s) (v_out s) (v_bad s).
Definition set_done s x := mkSt (v_c s) (v_t s) (v_prog s) (v_running s) (v_pm s) (v_am s) (v_len s) (v_queue s) (v_count s) (v_flushed s) x (v_ptr s) (v_local s) (v_tres s) (v_res s) (v_acc s) (v_exec s) (v_out s) (v_bad s).
Definition set_ptr s x := mkSt (v_c s) (v_t s) (v_prog s) (v_running s) (v_pm s) (v_am s) (v_len s) (v_queue s) (v_count s) (v_flushed s) (v_done s) x (v_local s) (v_tres s) (v_res s) (v_acc s) (v_exec s) (v_out s) (v_bad s).
Definition set_local s x y := mkSt (v_c s) (v_t s) (v_prog s) (v_running s) (v_pm s) (v_am s) (v_len s) (v_queue s) (v_count s) (v_flushed s) (v_done s) (v_ptr s) x y (v_res s) (v_acc s) (v_exec s) (v_out s) (v_bad s).
Definition set_res s x := mkSt (v_c s) (v_t s) (v_prog s) (v_running s) (v_pm s) (v_am s) (v_len s) (v_queue s) (v_count s) (v_flushed s) (v_done s) (v_ptr s) (v_local s) (v_tres s) x (v_acc s) (v_exec s) (v_out s) (v_bad s).
Definition set_hist s a x o := mkSt (v_c s) (v_t s) (v_prog s) (v_running s) (v_pm s) (v_am s) (v_len s) (v_queue s) (v_count s) (v_flushed s) (v_done s) (v_ptr s) (v_local s) (v_tres s) (v_res s) a x o (v_bad s).
Definition set_bad s := mkSt (v_c s) (v_t s) (v_prog s) (v_running s) (v_pm s) (v_am s) (v_len s) (v_queue s) (v_count s) (v_flushed s) (v_done s) (v_ptr s) (v_local s) (v_tres s) (v_res s) (v_acc s) (v_exec s) (v_out s) true.

(* notify_all of the two condition variables *)
Definition notify_thread (s : st) : st := match v_t s with TWait => set_t s TWake | _ => s end.
Definition notify_client (s : st) : st := match v_c s with WWait k i => set_c s (WWake k i) | _ => s end.
(* the conditions *)
Definition t_cond (g : cfg) (s : st) : bool := negb (v_running s) || (g_max g <=? v_count s) || v_flushed s.
Definition c_cond (s : st) : bool := negb (v_running s) || v_done s.

(* what follows wait_for_background_puts *)
Definition after (k : caller) : cpc := match k with FromOpen => CIdle | FromFlush => FAppend | FromClose => XJoin end.

(* one step of the client; None: it has to wait, or is finished *)
Definition step_c (g : cfg) (s : st) : option st :=
  if v_bad s then None else
  match v_c s with
  | CIdle =>
      match v_prog s with
      | [] => None
      | KPut l :: p => Some (set_prog (set_c s (CPutLock l)) p)
      | KFlush :: p => Some (set_prog (set_res (set_c s (WLock FromFlush)) []) p)
      | KClose :: _ => Some (set_prog (set_c s XStop) [])
      end
  | CPutLock l => match v_pm s with None => Some (set_c (set_pm s (Some Client)) (CPutDo l)) | _ => None end
  | CPutDo l =>
      (* queues.puts.queue[id] of a vector, impl.cpp:179-183 *)
      if forallb (fun o => o_ds o <? v_len s) l
      then let s1 := set_queue s (v_len s) (v_queue s ++ l) (v_count s + length l) (v_flushed s) in
           let s2 := set_hist s1 (v_acc s ++ l) (v_exec s) (v_out s) in
           Some (set_c (set_pm (notify_thread s2) None) CIdle)
      else Some (set_bad s)
  | WLock k => match v_am s with None => Some (set_c (set_am s (Some Client)) (WReset k false)) | _ => None end
  | WReset k i => Some (set_c (set_done s false) (WPuts k i))
  | WPuts k i => match v_pm s with None => Some (set_c (set_pm s (Some Client)) (WSet k i)) | _ => None end
  | WSet k i =>
      let s1 := match k with
                | FromClose => set_queue s 0 [] (v_count s) true        (* clear_queued *)
                | _ => set_queue s (v_len s) (v_queue s) (v_count s) true
                end in
      Some (set_c (set_pm (notify_thread s1) None) (WTest k i))
  | WTest k i =>
      if c_cond s
      then if i then Some (set_c (set_am s None) (after k)) else Some (set_c s (WReset k true))
      else Some (set_c (set_am s None) (WWait k i))
  | WWait _ _ => None
  | WWake k i => match v_am s with None => Some (set_c (set_am s (Some Client)) (WTest k i)) | _ => None end
  | FAppend =>
      match v_ptr s with
      | PNull => Some (set_c s FFree)
      | PLive l => Some (set_c (set_ptr (set_res s (v_res s ++ l)) (PLive [])) FFree)
      | PFreed => Some (set_bad s)
      end
  | FFree =>
      match v_ptr s with
      | PNull => Some (set_c s FNull)
      | PLive _ => Some (set_c (set_ptr s PFreed) FNull)
      | PFreed => Some (set_bad s)
      end
  | FNull => Some (set_c (set_ptr s PNull) FLock)
  | FLock => match v_pm s with None => Some (set_c (set_pm s (Some Client)) FRun) | _ => None end
  | FRun =>
      match g_order g (v_queue s) with
      | [] => Some (set_c s FDone)
      | q => (* all of them; the thread cannot look at the queue meanwhile *)
          Some (set_c (set_res (set_hist (set_queue s (v_len s) [] (v_count s) (v_flushed s)) (v_acc s) (v_exec s ++ q) (v_out s)) (v_res s ++ q)) FDone)
      end
  | FDone =>
      let s1 := set_queue s (v_len s) (v_queue s) 0 (v_flushed s) in
      Some (set_c (set_pm (set_hist s1 (v_acc s) (v_exec s) (v_out s ++ [v_res s])) None) CIdle)
  | XStop => Some (set_c (set_running s false) (WLock FromClose))
  | XJoin => match v_t s with TEnd => Some (set_c s XFree) | _ => None end
  | XFree =>
      match v_ptr s with
      | PFreed => Some (set_bad s)
      | _ => Some (set_c (set_queue (set_ptr s PNull) 0 [] 0 (v_flushed s)) CGone)
      end
  | CGone => None
  end.

(* one step of the background thread *)
Definition step_t (g : cfg) (s : st) : option st :=
  if v_bad s then None else
  match v_t s with
  | TLoop => Some (set_t s (if v_running s then TLock else TEnd))
  | TLock | TWake => match v_pm s with None => Some (set_t (set_pm s (Some Thread)) TTest) | _ => None end
  | TTest => if t_cond g s then Some (set_t s TTake) else Some (set_t (set_pm s None) TWait)
  | TWait => None
  | TTake =>
      (* resize to the number of range servers, line 252 *)
      Some (set_t (set_pm (set_local (set_queue s (g_rs g) [] 0 false) (g_order g (v_queue s)) []) None) TRun)
  | TRun =>
      match v_local s with
      | [] => Some (set_t s TStore)
      | o :: l => Some (set_local (set_hist s (v_acc s) (v_exec s ++ [o]) (v_out s)) l (v_tres s ++ [o]))
      end
  | TStore => match v_ptr s with PNull => Some (set_t s TSet) | _ => Some (set_t s TApp) end
  | TApp =>
      match v_ptr s with
      | PLive l => Some (set_t (set_local (set_ptr s (PLive (l ++ v_tres s))) (v_local s) []) TDoneLock)
      | _ => Some (set_bad s)             (* freed, or null by now *)
      end
  | TSet => Some (set_t (set_local (set_ptr s (PLive (v_tres s))) (v_local s) []) TDoneLock)
  | TDoneLock => match v_am s with None => Some (set_t (set_am s (Some Thread)) TDone) | _ => None end
  | TDone => Some (set_t (set_am (set_done s true) None) TNotify)
  | TNotify => Some (set_t (notify_client s) TLoop)
  | TEnd => None
  end.

(* wake-ups without a notification *)
Definition wake_c (s : st) : option st := match v_c s with WWait k i => Some (set_c s (WWake k i)) | _ => None end.
Definition wake_t (s : st) : option st := match v_t s with TWait => Some (set_t s TWake) | _ => None end.

(* when the background thread has been started: init.cpp:290-305 *)
Definition start (g : cfg) (p : list cmd) : st :=
  mkSt (WLock FromOpen) TLoop p true None None (g_total g) [] 0 false false PNull [] [] [] [] [] [] false.

(* schedules: whose turn it is; a turn of a thread that has to wait changes nothing *)
Inductive move := MClient | MThread | MWakeClient | MWakeThread.
Definition turn (g : cfg) (s : st) (m : move) : option st :=
  match m with MClient => step_c g s | MThread => step_t g s | MWakeClient => wake_c s | MWakeThread => wake_t s end.
Fixpoint run (g : cfg) (s : st) (l : list move) : st :=
  match l with [] => s | m :: l' => run g (match turn g s m with Some s' => s' | None => s end) l' end.
