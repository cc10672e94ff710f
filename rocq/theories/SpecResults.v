(* What a list of results shows *)
From Verif Require Import ModelBytes ModelKey ModelWire ModelHist ModelMsg ModelStore ModelElen ModelRoute ModelDs ModelClient ModelResults.
Local Open Scope N_scope.

(* what each accessor gives for a result, None = error *)
Definition shows_op (x : result) : kind :=
  match x with
  | XPut _ _ _ _ => KPut | XGet _ _ _ _ _ => KGet | XGetOp _ _ _ _ _ => KGetOp
  | XDel _ _ _ _ => KDel | XHist _ _ _ => KHist | XSync _ _ => KSync
  end.
Definition shows_subject (x : result) : option field :=
  match x with
  | XPut _ _ s _ => Some (FRef s) | XGet _ _ s _ _ => Some (FRef s) | XDel _ _ s _ => Some (FRef s)
  | XGetOp _ _ s _ _ => Some (FBlob s)
  | XHist _ _ _ => None | XSync _ _ => None
  end.
Definition shows_predicate (x : result) : option field :=
  match x with
  | XPut _ _ _ p => Some (FRef p) | XGet _ _ _ p _ => Some (FRef p) | XDel _ _ _ p => Some (FRef p)
  | XGetOp _ _ _ p _ => Some (FBlob p)
  | XHist _ _ _ => None | XSync _ _ => None
  end.
Definition shows_object (x : result) : option blob :=
  match x with
  | XGet _ true _ _ o => Some o
  | XGetOp _ true _ _ o => Some o
  | _ => None
  end.
(* a histogram that has not seen enough values shows nothing *)
Definition shows_histogram (x : result) : option (bytes * (option (list N) * N * option (list N) * N)) :=
  match x with
  | XHist _ true (Some h) =>
      if h_count h <? h_first_n h then None
      else Some (h_name h, (h_buckets h, h_upper h, h_counts h, h_size h))
  | _ => None
  end.

(* a successful histogram result has a histogram *)
Definition has_histogram (x : result) : Prop := match x with XHist _ true None => False | _ => True end.

(* all accessors of a list that is at position n *)
Definition shows {A} (f : results -> outcome (option A)) (what : result -> option A) (l : list result) : Prop :=
  forall n, (n <= length l)%nat ->
    f (mkResults l (Some n)) = Ok (match nth_error l n with Some x => what x | None => None end).

(* stepping n times from the head *)
Fixpoint steps (n : nat) (r : results) : outcome results :=
  match n with O => Ok r | S n' => do r' <- goto_next r; steps n' r' end.

(* the results of one answer to a GETOP *)
Definition getop_expected (from : Z) (i : gotop_item) : list result :=
  let ok := (gp_status i =? 1)%Z in
  map (fun r => XGetOp from ok (rc_sub r) (rc_pred r) (if ok then rc_obj r else mkBlob true [] 0)) (gp_recs i).

(* what servers are asked *)
Definition is_request (b : body) : Prop :=
  match b with QPut _ | QGet _ | QGetOp _ | QDel _ | QHist _ => True | _ => False end.
