(* What a client's calls should do, item by item *)
From Verif Require Import ModelBytes ModelKey ModelWire ModelHist ModelMsg SpecMsg ModelStore ModelGetOp ModelDs ModelElen ModelRoute
  SpecStore SpecRoute ModelClient.
From Coq Require Export Permutation.
Local Open Scope N_scope.

(* ---- what is asked for ---- *)
(* the triples that a PUT with this mask stores, constants.h:48-53 *)
Definition put_triples (s p o : arg) (mask : N) : list (arg * arg * arg) :=
  flat_map (fun x => if N.testbit mask (fst x) then [snd x] else [])
    [(0, (s, p, o)); (1, (s, o, p)); (2, (p, s, o)); (3, (p, o, s)); (4, (o, s, p)); (5, (o, p, s))].

(* the datastore that a pair goes to; negative: the hash function failed *)
Definition target (e : env) (s p : arg) : option Z :=
  match e_hash e (e_rank e) (e_total e) (a_data s) (a_data p) with Ok id => Some id | _ => None end.
Definition goes (e : env) (id : Z) (s p : arg) : bool :=
  match target e s p with Some i => (i =? id)%Z | None => false end.
Definition placed (e : env) (s p : arg) : bool := match target e s p with Some i => (0 <=? i)%Z | None => false end.

Fixpoint while {A} (f : A -> bool) (l : list A) : list A :=
  match l with [] => [] | a :: l' => if f a then a :: while f l' else [] end.

(* the operations that a call adds, in order. A PUT stops at the first permutation that has no datastore. *)
Definition one_put (e : env) (s p o : arg) (mask : N) : list (arg * arg * arg) :=
  while (fun '(a, b, _) => placed e a b) (put_triples s p o mask).
Definition call_puts (e : env) (c : call) : list (arg * arg * arg) :=
  match c with
  | CPut s p o m => if given s && given p && given o then one_put e s p o m else []
  | CBPut (Some l) => flat_map (fun '(s, p, o, m) => one_put e s p o m) l
  | _ => []
  end.
Definition call_gets (c : call) : list (arg * arg * N) :=
  match c with
  | CGet s p ty => if given s && given p then [(s, p, ty)] else []
  | CBGet (Some l) => l
  | CBGetOne _ ty (Some l) => map (fun '(s, p) => (s, p, ty)) l
  | _ => []
  end.
Definition call_getops (c : call) : list (arg * arg * N * N * N) :=
  match c with
  | CGetOp s p ty n op => if given s then [(s, p, ty, n, op)] else []
  | CBGetOp (Some l) => l
  | _ => []
  end.
Definition call_dels (c : call) : list (arg * arg) :=
  match c with
  | CDelete s p => if given s && given p then [(s, p)] else []
  | CBDelete (Some l) => l
  | _ => []
  end.
(* a bulk call with one unacceptable id asks for nothing *)
Definition call_hists (e : env) (c : call) : list (Z * arg) :=
  match c with
  | CHist id n => if accepts e id then [(id, n)] else []
  | CBHist (Some l) => if forallb (fun x => accepts e (fst x)) l then l else []
  | _ => []
  end.

(* as requests *)
Definition put_req (t : arg * arg * arg) : put_item :=
  let '(s, p, o) := t in mkPut (ref_blob s) (a_addr s) (ref_blob p) (a_addr p) (ref_blob o).
Definition get_req (t : arg * arg * N) : get_item :=
  let '(s, p, ty) := t in mkGet (ref_blob s) (a_addr s) (ref_blob p) (a_addr p) ty.
Definition getop_req (t : arg * arg * N * N * N) : getop_item :=
  let '(s, p, ty, n, op) := t in mkGetOp op (ref_blob s) (ref_blob p) ty n.
Definition del_req (t : arg * arg) : del_item :=
  let '(s, p) := t in mkDel (ref_blob s) (a_addr s) (ref_blob p) (a_addr p).
Definition hist_req (t : Z * arg) : blob := mkBlob (a_addr (snd t) =? 0) (a_data (snd t)) T_BYTE.

(* the operations of the calls cs that go to datastore id, in the order they were issued *)
Definition puts_to (e : env) (id : Z) (cs : list call) : list put_item :=
  map put_req (filter (fun '(s, p, _) => goes e id s p) (flat_map (call_puts e) cs)).
Definition gets_to (e : env) (id : Z) (cs : list call) : list get_item :=
  map get_req (filter (fun '(s, p, _) => goes e id s p) (flat_map call_gets cs)).
Definition getops_to (e : env) (id : Z) (cs : list call) : list getop_item :=
  map getop_req (filter (fun '(s, p, _, _, _) => goes e id s p) (flat_map call_getops cs)).
Definition dels_to (e : env) (id : Z) (cs : list call) : list del_item :=
  map del_req (filter (fun '(s, p) => goes e id s p) (flat_map call_dels cs)).
Definition hists_to (e : env) (id : Z) (cs : list call) : list blob :=
  map hist_req (filter (fun x => (fst x =? id)%Z) (flat_map (call_hists e) cs)).
(* one request per operation, kind by kind *)
Definition requests_to (e : env) (id : Z) (cs : list call) : list body :=
  map (fun i => QPut [i]) (puts_to e id cs) ++ map (fun i => QGet [i]) (gets_to e id cs) ++
  map (fun i => QGetOp [i]) (getops_to e id cs) ++ map (fun i => QDel [i]) (dels_to e id cs) ++
  map (fun i => QHist [i]) (hists_to e id cs).

(* calls that only queue *)
Definition plain (c : call) : Prop := match c with CBPutOne _ _ _ => False | _ => True end.

(* ---- one datastore executing requests one after the other ---- *)
(* far: request and response cross the wire (SpecMsg.v) *)
Definition serve_one (far : bool) (id : Z) (d : ds) (q : body) : outcome (ds * list result) :=
  do (d', r) <- operate d (if far then seen_body q else q);
  let r' := match r with Some r => r | None => no_response q end in
  do xs <- results_of (mkMsg id 0 (if far then seen_body r' else r')); Ok (d', xs).
Fixpoint serve_all (far : bool) (id : Z) (d : ds) (l : list body) : outcome (ds * list result) :=
  match l with
  | [] => Ok (d, [])
  | q :: l' => do (d1, xs) <- serve_one far id d q; do (d2, ys) <- serve_all far id d1 l'; Ok (d2, xs ++ ys)
  end.
(* requests and responses are such that the wire format carries them *)
Fixpoint fits_wire (d : ds) (l : list body) : Prop :=
  match l with
  | [] => True
  | q :: l' => body_ok q /\ exists d' r, operate d (seen_body q) = Ok (d', r) /\
               body_ok (match r with Some r => r | None => no_response q end) /\ fits_wire d' l'
  end.

(* ---- the session's surroundings ---- *)
Definition rank_of (e : env) (id : Z) : Z := ds_to_rank (e_layout e) id.
Definition far (e : env) (id : Z) : bool := negb (rank_of e id =? e_rank e)%Z.
Definition an_id (e : env) (id : Z) : Prop := (0 <= id < e_total e)%Z.
(* an opened session on one of the ranks of a well-formed layout *)
Record setting (e : env) : Prop := {
  set_layout : good (e_layout e);
  set_total : e_total e = datastores (e_layout e);
  set_rank : (0 <= e_rank e < l_size (e_layout e))%Z;
  set_ops : e_max_ops e < 2 ^ 64;
  set_iter : forall l, Permutation (e_iter e l) l
}.
(* the datastores of the cluster by id *)
Definition holds (e : env) (cl : cluster) (D : Z -> ds) : Prop :=
  forall id, an_id e id -> cl (rank_of e id) (id mod l_per (e_layout e))%Z = Some (D id).
(* requests reach the rank of datastore id *)
Definition routed (e : env) (id : Z) : Prop :=
  exists route, e_transport e = Some route /\ route (rank_of e id) = Some (rank_of e id).
(* of the datastores in use, no two are on the same other rank *)
Definition one_per_rank (e : env) (used : Z -> Prop) : Prop :=
  forall i j, an_id e i -> an_id e j -> used i -> used j -> far e i = true -> rank_of e i = rank_of e j -> i = j.

Definition from (x : result) : Z :=
  match x with XPut f _ _ _ | XGet f _ _ _ _ | XGetOp f _ _ _ _ | XDel f _ _ _ | XHist f _ _ | XSync f _ => f end.
Definition of_id (id : Z) (x : result) : bool := (from x =? id)%Z.

(* a session with nothing queued *)
Definition fresh (e : env) (s : session) : Prop := s_up s = true /\ s_qs s = s_qs (opened_session e).
(* for every kind of operation: of the datastores that the calls use, no two are on the same other rank *)
Definition spread (e : env) (cs : list call) : Prop :=
  one_per_rank e (fun id => puts_to e id cs <> []) /\ one_per_rank e (fun id => gets_to e id cs <> []) /\
  one_per_rank e (fun id => getops_to e id cs <> []) /\ one_per_rank e (fun id => dels_to e id cs <> []) /\
  one_per_rank e (fun id => hists_to e id cs <> []).
(* requests to other ranks reach them and can be carried by the wire *)
Definition reachable (e : env) (D : Z -> ds) (cs : list call) : Prop :=
  forall id, an_id e id -> far e id = true -> requests_to e id cs <> [] ->
    routed e id /\ fits_wire (D id) (requests_to e id cs).
(* the place of a datastore; other places are not touched *)
Definition elsewhere (e : env) (r off : Z) : Prop :=
  forall id, an_id e id -> (rank_of e id, id mod l_per (e_layout e))%Z <> (r, off).

(* ---- calls that make sense ---- *)
(* a null pointer only for nothing; lengths fit into 32 bits *)
Definition sane (a : arg) : Prop := (a_addr a = 0 -> a_data a = []) /\ blen (a_data a) < 2 ^ 32.
(* the hash function gives an id or a negative number for every pair (of C27) *)
Definition defined_hash (e : env) : Prop :=
  forall s p, blen s < 2 ^ 32 -> blen p < 2 ^ 32 -> exists id, e_hash e (e_rank e) (e_total e) s p = Ok id /\ (id < e_total e)%Z.
Definition sane_call (c : call) : Prop :=
  match c with
  | CPut s p o _ => sane s /\ sane p /\ sane o
  | CGet s p _ | CGetOp s p _ _ _ | CDelete s p => sane s /\ sane p
  | CBPut (Some l) => Forall (fun '(s, p, o, _) => sane s /\ sane p /\ sane o) l
  | CBGet (Some l) => Forall (fun '(s, p, _) => sane s /\ sane p) l
  | CBGetOp (Some l) => Forall (fun '(s, p, _, _, _) => sane s /\ sane p) l
  | CBDelete (Some l) => Forall (fun '(s, p) => sane s /\ sane p) l
  | CBGetOne types _ (Some l) => types = true /\ Forall (fun '(s, p) => sane s /\ sane p) l \/ l = []
  | CBGetOpOne _ ops _ (Some l) => ops = true \/ l = []
  | CBPutOne types _ (Some l) => types = true /\ Forall (fun '(s, p, o, _) => sane s /\ sane p /\ sane o) l \/ l = []
  | _ => True
  end.

(* ---- calls that must be refused ---- *)
Definition invalid (c : call) : Prop :=
  match c with
  | CPut s p o _ => given s = false \/ given p = false \/ given o = false
  | CGet s p _ | CDelete s p => given s = false \/ given p = false
  | CGetOp s _ _ _ _ => given s = false
  | CBPut None | CBGet None | CBGetOp None | CBDelete None | CBHist None
  | CBPutOne _ _ None | CBGetOne _ _ None | CBGetOpOne _ _ _ None => True
  | _ => False
  end.

(* ---- limits of packets ---- *)
(* a request of n operations *)
Definition ops_ok (e : env) (q : body) : Prop := 0 < body_count q /\ body_count q <= e_max_ops e.
(* with more than one operation, at most [slack] bytes more than the limit *)
Definition size_ok (e : env) (slack : N) (q : body) : Prop :=
  e_max_size e <> 0 -> 1 < body_count q -> msg_size (mkMsg 0 0 q) <= e_max_size e + slack.
(* the packets in the queues of a session *)
Definition packets (s : session) : list body :=
  map QPut (concat (q_puts (s_qs s))) ++ map QGet (concat (q_gets (s_qs s))) ++ map QGetOp (concat (q_getops (s_qs s))) ++
  map QDel (concat (q_dels (s_qs s))) ++ map QHist (concat (q_hists (s_qs s))).
(* what the size check leaves out *)
Definition slack (q : body) : N := match q with QPut _ | QDel _ | QGetOp _ => 16 | QGet _ => 20 | _ => 0 end.

(* ---- what a session does ---- *)
Inductive action := ACall (c : call) | AFlush | ASync.
Definition act (e : env) (s : session) (cl : cluster) (a : action) : outcome (session * cluster) :=
  match a with
  | ACall c => do (r, _) <- do_call e s cl c; Ok r
  | AFlush => do (r, _) <- flush e s cl; Ok r
  | ASync => do (r, _) <- sync e s cl; Ok r
  end.
Fixpoint acts (e : env) (s : session) (cl : cluster) (l : list action) : outcome (session * cluster) :=
  match l with [] => Ok (s, cl) | a :: l' => do r <- act e s cl a; acts e (fst r) (snd r) l' end.
(* every datastore has its queues *)
Definition queues_ok (e : env) (s : session) : Prop :=
  let n := Z.to_nat (e_total e) in
  length (q_puts (s_qs s)) = n /\ length (q_gets (s_qs s)) = n /\ length (q_getops (s_qs s)) = n /\
  length (q_dels (s_qs s)) = n /\ length (q_hists (s_qs s)) = n.

(* ---- what was queued for datastore id ---- *)
Definition queued {A} (qs : list (list (list A))) (id : Z) : list A := concat (nth (Z.to_nat id) qs []).
(* everything a call asks for *)
Definition asked_puts (c : call) : list (arg * arg * arg) :=
  match c with
  | CPut s p o m => put_triples s p o m
  | CBPut (Some l) => flat_map (fun '(s, p, o, m) => put_triples s p o m) l
  | _ => []
  end.
Definition asked_pairs (c : call) : list (arg * arg) :=
  map fst (asked_puts c) ++ map fst (call_gets c) ++ map (fun x => fst (fst (fst x))) (call_getops c) ++ call_dels c.
Definition all_queued (e : env) (s s' : session) (c : call) : Prop :=
  Forall (fun x => placed e (fst x) (snd x) = true) (asked_pairs c) /\
  forall id, (0 <= id)%Z ->
    queued (q_puts (s_qs s')) id = queued (q_puts (s_qs s)) id ++ map put_req (filter (fun '(s, p, _) => goes e id s p) (asked_puts c)) /\
    queued (q_gets (s_qs s')) id = queued (q_gets (s_qs s)) id ++ gets_to e id [c] /\
    queued (q_getops (s_qs s')) id = queued (q_getops (s_qs s)) id ++ getops_to e id [c] /\
    queued (q_dels (s_qs s')) id = queued (q_dels (s_qs s)) id ++ dels_to e id [c] /\
    queued (q_hists (s_qs s')) id = queued (q_hists (s_qs s)) id ++ hists_to e id [c].
Definition single (c : call) : Prop := match c with CPut _ _ _ _ | CGet _ _ _ | CGetOp _ _ _ _ _ | CDelete _ _ => True | _ => False end.

(* ---- which operation a result is for ---- *)
Inductive tag := TPut (id : Z) (s p : ref) | TGet (id : Z) (s p : ref) | TDel (id : Z) (s p : ref) | THist (id : Z).
Definition result_tag (x : result) : list tag :=
  match x with
  | XPut f _ s p => [TPut f s p] | XGet f _ s p _ => [TGet f s p] | XDel f _ s p => [TDel f s p] | XHist f _ _ => [THist f]
  | _ => []
  end.
Definition arg_ref (a : arg) : ref := mkRef (a_addr a) (blen (a_data a)) (a_type a).
Definition pair_tag (e : env) (t : Z -> ref -> ref -> tag) (s p : arg) : list tag :=
  match target e s p with Some id => if (0 <=? id)%Z then [t id (arg_ref s) (arg_ref p)] else [] | None => [] end.
(* the operations of a call that were queued *)
Definition call_tags (e : env) (c : call) : list tag :=
  flat_map (fun '(s, p, _) => pair_tag e TPut s p) (call_puts e c) ++ flat_map (fun '(s, p, _) => pair_tag e TGet s p) (call_gets c) ++
  flat_map (fun '(s, p) => pair_tag e TDel s p) (call_dels c) ++ map (fun x => THist (fst x)) (call_hists e c).
