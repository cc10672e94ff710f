(* What the two threads should achieve *)
From Verif Require Import ModelBytes ModelKey ModelWire ModelHist ModelMsg ModelAsync.
From Coq Require Export Permutation.
Local Open Scope nat_scope.

(* the PUTs for datastore i, in order *)
Definition at_ds (i : nat) (l : list op) : list op := filter (fun o => o_ds o =? i) l.
(* process carries out everything once, and PUTs to one datastore in order (C31) *)
Definition order_ok (g : cfg) : Prop := forall l, Permutation (g_order g l) l /\ forall i, at_ds i (g_order g l) = at_ds i l.
(* s is a state of some execution of the program p *)
Definition reach (g : cfg) (p : list cmd) (s : st) : Prop := exists l, s = run g (start g p) l.
(* the client has done everything *)
Definition finished (s : st) : Prop := v_c s = CIdle /\ v_prog s = [] \/ v_c s = CGone.
(* a thread is about to read or write async_puts.results or what it points to *)
Definition c_uses (c : cpc) : bool := match c with FAppend | FFree | FNull | XFree => true | _ => false end.
Definition t_uses (t : tpc) : bool := match t with TStore | TApp | TSet => true | _ => false end.
Definition racing (s : st) : Prop := c_uses (v_c s) = true /\ t_uses (v_t s) = true.
(* n steps of the two threads, with w wake-ups out of the blue in between *)
Inductive steps (g : cfg) : nat -> nat -> st -> st -> Prop :=
| steps_0 s : steps g 0 0 s s
| steps_c n w s s1 s' : step_c g s = Some s1 -> steps g n w s1 s' -> steps g (S n) w s s'
| steps_t n w s s1 s' : step_t g s = Some s1 -> steps g n w s1 s' -> steps g (S n) w s s'
| steps_wc n w s s1 s' : wake_c s = Some s1 -> steps g n w s1 s' -> steps g n (S w) s s'
| steps_wt n w s s1 s' : wake_t s = Some s1 -> steps g n w s1 s' -> steps g n (S w) s s'.
(* how many steps a program can take: those of the thread included *)
Fixpoint work (p : list cmd) : nat :=
  match p with
  | [] => 43
  | KPut l :: p' => 17 + length l + work p'
  | KFlush :: p' => 46 + work p'
  | KClose :: p' => 55 + work p'
  end.
(* programs whose PUTs are for existing datastores *)
Definition in_range (g : cfg) (p : list cmd) : Prop := Forall (fun c => match c with KPut l => Forall (fun o => o_ds o < g_total g) l | _ => True end) p.
(* programs that never have as many PUTs queued as start the thread; n: queued so far *)
Fixpoint below (g : cfg) (n : nat) (p : list cmd) : Prop :=
  match p with
  | [] => n < g_max g
  | KPut l :: p' => below g (n + length l) p'
  | KFlush :: p' => n < g_max g /\ below g 0 p'
  | KClose :: _ => n < g_max g
  end.
