(* A session with the background PUT thread in a cluster (C79): the two threads of ModelAsync.v, and for what they send the requests of
   ModelPar.v. The thread of the client and the background thread each are a client of ModelPar.v of the same rank: m and t.
   src/hxhim/init.cpp 223-281, FLUSH.cpp 33-66, include/hxhim/private/process.hpp 43-162.
   The other threads and ranks work meanwhile. The results of PUTs are those of ModelAsync.v (C36). *)
From Verif Require Import ModelBytes ModelKey ModelWire ModelHist ModelMsg ModelStore ModelGetOp ModelDs ModelElen ModelRoute ModelClient ModelPar ModelAsync.

(* A queued PUT as a call. A queue keeps the addresses of subject and predicate; that of the object is only compared with
   null, src/hxhim/ops/impl.cpp:95-177 *)
Definition arg_of (b : blob) (addr : N) : arg := mkArg addr (b_data b) (b_type b).
Definition call_of (o : op) : call :=
  let 'mkPut s sa p pa x := o_put o in CPut (arg_of s sa) (arg_of p pa) (arg_of x (if b_null x then 0%N else 1%N)) 1.

Record both := mkBoth { b_a : st; b_s : system }.
(* a step of the session as in ModelAsync.v, or one that has to do with requests *)
Inductive bmove := BA (x : move) | BP (l : label).
Definition is_idle (s : system) (i : Z) : bool := match c_mode (fst s i) with Idle => true | _ => false end.
Definition ready (s : system) (i : Z) : bool := match c_mode (fst s i) with Busy [] _ => true | _ => false end.

Section Back.
Context (g : cfg) (E : Z -> env) (m t : Z).
Definition par (w : both) (l : label) (a : st) : outcome (both * list shown) :=
  do (s', h) <- ModelPar.step E (b_s w) l; Ok (mkBoth a s', h).
Definition plain (w : both) (x : move) : outcome (both * list shown) :=
  match turn g (b_a w) x with Some a => Ok (mkBoth a (b_s w), []) | None => Ok (w, []) end.
(* process returns: all PUTs that the thread took have been carried out, init.cpp:261 *)
Definition finish (a : st) : st := ModelAsync.run g a (repeat MThread (Datatypes.S (length (v_local a)))).
(* nothing after undefined behaviour *)
Definition bstep (w : both) (x : bmove) : outcome (both * list shown) :=
  let a := b_a w in
  if v_bad a then Ok (w, []) else
  match x with
  | BA MThread =>
      match v_t a with
      | TTake => match step_t g a with Some a' => par w (LCall t (map call_of (v_queue a))) a' | None => Ok (w, []) end
      | TRun => Ok (w, [])                                  (* waits for its requests *)
      | _ => plain w MThread
      end
  | BA MClient =>
      if is_idle (b_s w) m then
        match v_c a, v_queue a with
        | FRun, _ :: _ => par w (LCall m (map call_of (v_queue a))) a   (* FLUSH.cpp:53-55 *)
        | _, _ => plain w MClient
        end
      else Ok (w, [])
  | BA y => plain w y
  | BP (LCall i cs) =>
      if (i =? t)%Z then Ok (w, [])
      else if (i =? m)%Z then match v_c a with CIdle => par w (LCall i cs) a | _ => Ok (w, []) end   (* operations other than PUTs *)
      else par w (LCall i cs) a
  | BP (LReturn i) =>
      if (i =? t)%Z then if ready (b_s w) t then par w (LReturn i) (finish a) else Ok (w, [])
      else if (i =? m)%Z
      then match v_c a, ready (b_s w) m with
           | FRun, true => match step_c g a with Some a' => par w (LReturn i) a' | None => Ok (w, []) end
           | _, _ => par w (LReturn i) a
           end
      else par w (LReturn i) a
  | BP l => par w l a
  end.
Fixpoint brun (w : both) (xs : list bmove) : outcome (both * list shown) :=
  match xs with
  | [] => Ok (w, [])
  | x :: xs' => do (w1, h1) <- bstep w x; do (w2, h2) <- brun w1 xs'; Ok (w2, h1 ++ h2)
  end.
End Back.
(* the session has just been opened *)
Definition bstart (g : cfg) (p : list cmd) (S : Z -> session) (cl : cluster) : both := mkBoth (start g p) (starting S cl).
