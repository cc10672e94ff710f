(* What the statistics of a session should say *)
From Verif Require Import ModelBytes ModelKey ModelWire ModelHist ModelMsg ModelStore ModelGetOp ModelDs ModelElen ModelRoute
  SpecStore SpecRoute ModelClient SpecClient ModelFloat ModelGen ModelStats.
Local Open Scope N_scope.

Definition lenN {A} (l : list A) : N := N.of_nat (length l).

(* ---- calls ---- *)
(* one item, and several items *)
Definition single_call (c : call) : bool :=
  match c with CPut _ _ _ _ | CGet _ _ _ | CGetOp _ _ _ _ _ | CDelete _ _ | CHist _ _ => true | _ => false end.
Definition call_op (c : call) : N :=
  match c with
  | CPut _ _ _ _ | CBPut _ | CBPutOne _ _ _ => 0
  | CGet _ _ _ | CBGet _ | CBGetOne _ _ _ => 1
  | CGetOp _ _ _ _ _ | CBGetOp _ | CBGetOpOne _ _ _ _ => 2
  | CDelete _ _ | CBDelete _ => 3
  | CHist _ _ | CBHist _ => 5
  end.
(* the calls of a history, with the times of each and whether it succeeded *)
Fixpoint calls_of (e : env) (s : session) (cl : cluster) (st : stats) (l : list sact) : list (call * stamp * bool) :=
  match l with
  | [] => []
  | a :: l' =>
      match sstep e s cl st a with
      | Ok (r, st') =>
          (match a with
           | SCall c t => match do_call e s cl c with Ok (_, ok) => [(c, t, ok)] | _ => [] end
           | _ => []
           end) ++ calls_of e (fst r) (snd r) st' l'
      | _ => []
      end
  end.
(* the times of the successful calls of operation k *)
Definition times (f : call -> bool) (k : N) (l : list (call * stamp * bool)) : list stamp :=
  map (fun x => snd (fst x)) (filter (fun x => snd x && f (fst (fst x)) && (call_op (fst (fst x)) =? k)) l).
(* every pair that the calls name has a datastore *)
Definition all_placed (e : env) (l : list sact) : Prop :=
  forall c t, In (SCall c t) l -> Forall (fun x => placed e (fst x) (snd x) = true) (asked_pairs c).

(* ---- packets ---- *)
(* the number of operations of kind k that a call issues to datastore id *)
Definition puts_of (e : env) (c : call) : list (arg * arg * arg) :=
  match c with
  | CBPutOne _ ty (Some l) => flat_map (fun '(s, p, o, m) => one_put e s p (mkArg (a_addr o) (a_data o) ty) m) l
  | _ => call_puts e c
  end.
Definition issued1 (e : env) (k : N) (id : Z) (c : call) : N :=
  if k =? 0 then lenN (filter (fun '(s, p, _) => goes e id s p) (puts_of e c))
  else if k =? 1 then lenN (gets_to e id [c]) else if k =? 2 then lenN (getops_to e id [c])
  else if k =? 3 then lenN (dels_to e id [c]) else if k =? 5 then lenN (hists_to e id [c]) else 0.
Definition issued (e : env) (l : list sact) (k : N) (id : Z) : N :=
  sumN (map (fun a => match a with SCall c _ => issued1 e k id c | _ => 0 end) l).
(* operations that are still in the queues *)
Definition waiting (s : session) (k : N) (id : Z) : N :=
  if k =? 0 then lenN (queued (q_puts (s_qs s)) id) else if k =? 1 then lenN (queued (q_gets (s_qs s)) id)
  else if k =? 2 then lenN (queued (q_getops (s_qs s)) id) else if k =? 3 then lenN (queued (q_dels (s_qs s)) id)
  else if k =? 5 then lenN (queued (q_hists (s_qs s)) id) else 0.
Definition over_ids (e : env) (f : Z -> N) : N := sumN (map f (upto (e_total e))).

(* the statistics account for the packets *)
Record packets_counted (e : env) (s : session) (st : stats) (l : list sact) (k : N) : Prop := {
  (* every operation is in a packet that was counted or still waits *)
  pc_total : sumN (st_used st k) + over_ids e (waiting s k) = over_ids e (issued e l k);
  (* each counted packet was counted for one datastore *)
  pc_packets : lenN (st_used st k) = over_ids e (st_out st k);
  pc_range : Forall (fun n => 1 <= n <= e_max_ops e) (st_used st k);
  (* every datastore got as many packets as its operations need *)
  pc_each : forall id, an_id e id -> st_out st k id + waiting s k id <= issued e l k id <= st_out st k id * e_max_ops e + waiting s k id;
  pc_others : forall id, ~ an_id e id -> st_out st k id = 0
}.

(* ---- times ---- *)
(* the clock does not go back: everything happens after t0 and before t1 *)
Fixpoint chronological (t0 : Z) (l : list sact) (t1 : Z) : Prop :=
  match l with
  | [] => (t0 <= t1)%Z
  | SCall _ (a, b) :: l' => (t0 <= a <= b)%Z /\ chronological b l' t1
  | _ :: l' => chronological t0 l' t1
  end.
Definition sumZ (l : list Z) : Z := fold_right Z.add 0%Z l.
Definition all_times (st : stats) : Z :=
  sumZ (map (fun k => op_time (st_single st k) + op_time (st_bulk st k))%Z [0; 1; 2; 3; 5]).
