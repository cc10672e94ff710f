(* Lists of results: src/hxhim/Results.cpp, include/hxhim/Results.hpp, include/hxhim/private/Results.hpp *)
From Verif Require Import ModelBytes ModelKey ModelWire ModelHist ModelMsg ModelStore ModelElen ModelRoute ModelDs ModelClient.
Local Open Scope N_scope.

(* ---- hxhim::Results: a deque and an iterator ----
   The iterator is the number of elements before it; None = invalidated: adding to a deque invalidates
   all its iterators, and using one of those is undefined behaviour. *)
Record results := mkResults { rs_list : list result; rs_it : option nat }.

(* Results.cpp:257-260 *)
Definition results_new : results := mkResults [] (Some O).
(* Add, Results.cpp:284-297, of the nodes of one Result::init (none for a null pointer) *)
Definition results_add (l : list result) (r : results) : results :=
  match l with [] => r | _ => mkResults (rs_list r ++ l) None end.
(* Append, Results.cpp:304-309, of another list; also what is left of the other list *)
Definition results_append (o r : results) : results * results :=
  (mkResults (rs_list r ++ rs_list o) None, mkResults [] None).

(* it == results.end() *)
Definition at_end (r : results) : outcome bool :=
  match rs_it r with None => UB | Some i => Ok (Nat.eqb i (length (rs_list r))) end.
(* ValidIterator, Results.cpp:316-318 *)
Definition valid_iterator (r : results) : outcome bool := do e <- at_end r; Ok (negb e).
(* GoToHead, Results.cpp:339-341 *)
Definition goto_head (r : results) : results := mkResults (rs_list r) (Some O).
(* GoToNext, Results.cpp:364-368 *)
Definition goto_next (r : results) : outcome results :=
  do v <- valid_iterator r;
  Ok (if v then mkResults (rs_list r) (option_map S (rs_it r)) else r).
(* Size, Results.cpp:393-395 *)
Definition results_size (r : results) : N := N.of_nat (length (rs_list r)).
(* *it; past the end it is undefined *)
Definition deref (r : results) : outcome result :=
  match rs_it r with
  | None => UB
  | Some i => match nth_error (rs_list r) i with Some x => Ok x | None => UB end
  end.

(* ---- the current result ---- *)
Inductive kind := KPut | KGet | KGetOp | KDel | KSync | KHist.
(* Result::op, set by the constructors, Results.cpp:80-99, private/Results.hpp:40-45 *)
Definition x_op (x : result) : kind :=
  match x with
  | XPut _ _ _ _ => KPut | XGet _ _ _ _ _ => KGet | XGetOp _ _ _ _ _ => KGetOp
  | XDel _ _ _ _ => KDel | XHist _ _ _ => KHist | XSync _ _ => KSync
  end.
(* Result::status and range_server *)
Definition x_ok (x : result) : bool :=
  match x with
  | XPut _ b _ _ | XGet _ b _ _ _ | XGetOp _ b _ _ _ | XDel _ b _ _ | XHist _ b _ | XSync _ b => b
  end.
Definition x_from (x : result) : Z :=
  match x with
  | XPut f _ _ _ | XGet f _ _ _ _ | XGetOp f _ _ _ _ | XDel f _ _ _ | XHist f _ _ | XSync f _ => f
  end.
(* a field of a result: a pointer into the memory of the caller, or data *)
Inductive field := FRef (r : ref) | FBlob (b : blob).
(* static_cast to SubjectPredicate, to Get and to Hist: undefined for the other kinds.
   A GETOP result is read through the type of a GET result (Results.cpp:634), which has the same layout *)
Definition x_subject (x : result) : outcome field :=
  match x with
  | XPut _ _ s _ | XGet _ _ s _ _ | XDel _ _ s _ => Ok (FRef s)
  | XGetOp _ _ s _ _ => Ok (FBlob s)
  | _ => UB
  end.
Definition x_predicate (x : result) : outcome field :=
  match x with
  | XPut _ _ _ p | XGet _ _ _ p _ | XDel _ _ _ p => Ok (FRef p)
  | XGetOp _ _ _ p _ => Ok (FBlob p)
  | _ => UB
  end.
Definition x_object (x : result) : outcome blob :=
  match x with XGet _ _ _ _ o | XGetOp _ _ _ _ o => Ok o | _ => UB end.
Definition x_hist (x : result) : outcome (option hist) :=
  match x with XHist _ _ h => Ok h | _ => UB end.

Definition keqb (a b : kind) : bool :=
  match a, b with
  | KPut, KPut | KGet, KGet | KGetOp, KGetOp | KDel, KDel | KSync, KSync | KHist, KHist => true
  | _, _ => false
  end.

(* ---- accessors: None = HXHIM_ERROR ---- *)
Definition current {A} (f : result -> outcome (option A)) (r : results) : outcome (option A) :=
  do e <- at_end r; if e then Ok None else do x <- deref r; f x.
(* Op, Results.cpp:425-435; Status 460-470; RangeServer 495-505 *)
Definition get_op : results -> outcome (option kind) := current (fun x => Ok (Some (x_op x))).
Definition get_status : results -> outcome (option bool) := current (fun x => Ok (Some (x_ok x))).
Definition get_range_server : results -> outcome (option Z) := current (fun x => Ok (Some (x_from x))).
(* Subject, Results.cpp:532-549; Predicate 578-594 *)
Definition has_sp (k : kind) : bool := keqb k KPut || keqb k KGet || keqb k KGetOp || keqb k KDel.
Definition get_subject : results -> outcome (option field) :=
  current (fun x => if negb (has_sp (x_op x)) then Ok None else do s <- x_subject x; Ok (Some s)).
Definition get_predicate : results -> outcome (option field) :=
  current (fun x => if negb (has_sp (x_op x)) then Ok None else do s <- x_predicate x; Ok (Some s)).
(* Object, Results.cpp:622-637 *)
Definition get_object : results -> outcome (option blob) :=
  current (fun x => if negb (keqb (x_op x) KGet) && negb (keqb (x_op x) KGetOp) || negb (x_ok x) then Ok None
                    else do o <- x_object x; Ok (Some o)).
(* Histogram, Results.cpp:668-689: name and data; a null histogram is dereferenced *)
Definition get_histogram : results -> outcome (option (bytes * (option (list N) * N * option (list N) * N))) :=
  current (fun x => if negb (keqb (x_op x) KHist) || negb (x_ok x) then Ok None
                    else do h <- x_hist x;
                         match h with
                         | None => UB
                         | Some h => Ok (match hist_get h with Some d => Some (h_name h, d) | None => None end)
                         end).
(* Histogram, Results.cpp:718-735: the pointer *)
Definition get_histogram_ptr : results -> outcome (option (option hist)) :=
  current (fun x => if negb (keqb (x_op x) KHist) || negb (x_ok x) then Ok None
                    else do h <- x_hist x; Ok (Some h)).

(* the hxhim_results_ and hxhim_result_ functions of the C interface: a null list is HXHIM_ERROR (Results.cpp:253-255) *)
Definition c_access {A} (f : results -> outcome (option A)) (r : option results) : outcome (option A) :=
  match r with None => Ok None | Some r => f r end.
(* hxhim_results_goto_head, Results.cpp:350-357; hxhim_results_goto_next 377-384; true = HXHIM_SUCCESS *)
Definition c_goto_head (r : option results) : outcome (option results * bool) :=
  match r with
  | None => Ok (None, false)
  | Some r => let r' := goto_head r in do v <- valid_iterator r'; Ok (Some r', v)
  end.
Definition c_goto_next (r : option results) : outcome (option results * bool) :=
  match r with
  | None => Ok (None, false)
  | Some r => do r' <- goto_next r; do v <- valid_iterator r'; Ok (Some r', v)
  end.

(* the loop of an application, as in examples/: for(GoToHead(); ValidIterator(); GoToNext()) body; what the
   bodies see, and the list afterwards; None = still running after [fuel] rounds *)
Fixpoint loop (fuel : nat) (r : results) : outcome (option (list result * results)) :=
  match fuel with
  | O => Ok None
  | S fuel' =>
      do v <- valid_iterator r;
      if negb v then Ok (Some ([], r))
      else do x <- deref r; do r' <- goto_next r; do rest <- loop fuel' r';
           Ok (match rest with Some (l, r'') => Some (x :: l, r'') | None => None end)
  end.

(* ---- the nodes of a GETOP ----
   Memory holding GetOp nodes; a node that was destroyed is None. *)
Record node := mkNode { nd_sub : blob; nd_pred : blob; nd_obj : blob; nd_next : option nat }.
Definition memory := list (option node).
Definition empty_node : node := mkNode blob_none blob_none blob_none None.
(* construct<GetOp>: a new node *)
Definition nalloc (m : memory) : memory * nat := (m ++ [Some empty_node], length m).
Definition nread (m : memory) (a : nat) : outcome node :=
  match nth_error m a with Some (Some n) => Ok n | _ => UB end.
Definition nset (m : memory) (a : nat) (n : option node) : memory := firstn a m ++ n :: skipn (S a) m.
Definition nwrite (m : memory) (a : nat) (n : node) : outcome memory :=
  do _ <- nread m a; Ok (nset m a (Some n)).
(* destruct *)
Definition nfree (m : memory) (a : nat) : outcome memory := do _ <- nread m a; Ok (nset m a None).

(* the loop of Result::init(BGetOp), Results.cpp:184-195 *)
Fixpoint getop_nodes (ok : bool) (rs : list rec3) (m : memory) (prev : option nat) (curr : nat)
  : outcome (memory * option nat * nat) :=
  match rs with
  | [] => Ok (m, prev, curr)
  | r :: rs' =>
      do n <- nread m curr;
      do m1 <- nwrite m curr (mkNode (rc_sub r) (rc_pred r) (if ok then rc_obj r else nd_obj n) (nd_next n));
      let '(m2, c) := nalloc m1 in
      do n1 <- nread m2 curr;
      do m3 <- nwrite m2 curr (mkNode (nd_sub n1) (nd_pred n1) (nd_obj n1) (Some c));
      getop_nodes ok rs' m3 (Some curr) c
  end.
(* Result::init(BGetOp), Results.cpp:177-204: the address of the first node *)
Definition getop_init (ok : bool) (rs : list rec3) (m : memory) : outcome (memory * nat) :=
  let '(m0, top) := nalloc m in
  do (m1, prev, curr) <- getop_nodes ok rs m0 None top;
  do m2 <- match prev with
           | Some p => do n <- nread m1 p; nwrite m1 p (mkNode (nd_sub n) (nd_pred n) (nd_obj n) None)
           | None => Ok m1
           end;
  do m3 <- nfree m2 curr;
  Ok (m3, top).
(* Add, Results.cpp:287-292: the addresses pushed. It reads op, then follows next; [fuel] bounds the number
   of nodes (a chain of distinct nodes is not longer than the memory) *)
Fixpoint add_nodes (fuel : nat) (m : memory) (a : option nat) : outcome (list nat) :=
  match a with
  | None => Ok []
  | Some a =>
      match fuel with
      | O => Throw
      | S fuel' => do n <- nread m a; do l <- add_nodes fuel' m (nd_next n); Ok (a :: l)
      end
  end.
Definition getop_add (m : memory) (top : nat) : outcome (list nat) :=
  do _ <- nread m top; add_nodes (length m) m (Some top).
(* what is read from the pushed nodes *)
Definition node_result (from : Z) (ok : bool) (n : node) : result := XGetOp from ok (nd_sub n) (nd_pred n) (nd_obj n).
Definition getop_pointers (from : Z) (i : gotop_item) (m : memory) : outcome (list result) :=
  let ok := status_ok (gp_status i) in
  do (m', top) <- getop_init ok (gp_recs i) m;
  do l <- getop_add m' top;
  omap (fun a => do n <- nread m' a; Ok (node_result from ok n)) l.
