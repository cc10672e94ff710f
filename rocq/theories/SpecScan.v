(* GETOPs and the whole cluster: what they should see of the one map of SpecCluster.v *)
From Verif Require Import ModelBytes ModelKey ModelWire ModelHist ModelMsg SpecMsg ModelStore ModelGetOp ModelDs ModelElen ModelRoute
  SpecStore SpecRoute ModelClient SpecClient SpecCluster SpecGetOp.
Local Open Scope N_scope.

(* the pairs of M whose datastore is id *)
Definition share (e : env) (id : Z) (M : tmap) : tmap := fun s p =>
  match e_hash e (e_rank e) (e_total e) (f_data s) (f_data p) with
  | Ok i => if (i =? id)%Z then M s p else None
  | _ => None
  end.

(* the answer of a datastore with the triples ts, in key order; None: an error *)
Definition some_of (us : list triple) (l : list triple) : option (list triple) := match us with [] => None | _ => Some l end.
Definition reply (c : codec) (ts : list triple) (i : getop_item) : option (list triple) :=
  let P := prefix_of c all_can i in
  let up := filter (over c P) ts in
  let from_P := filter (over c (least c all_can i)) ts in
  let to_P := filter (under c (least c all_can i)) ts in
  let n := oi_num i in
  let op := oi_op i in
  if op =? GETOP_EQ then some_of up (firstn 1 up)
  else if op =? GETOP_NEXT then some_of up (first n up)
  else if op =? GETOP_PREV then some_of up (first n (firstn 1 up ++ rev (filter (under c P) ts)))
  else if op =? GETOP_FIRST then some_of ts (first n ts)
  else if op =? GETOP_LAST then some_of ts (first n (rev ts))
  else if op =? GETOP_LOWEST then some_of from_P (first n (filter (fun t => starts_with P (tkey c t)) from_P))
  else if op =? GETOP_HIGHEST then some_of to_P (first n (rev (filter (fun t => starts_with P (tkey c t)) to_P)))
  else None.

(* ---- one GETOP of a client ---- *)
Definition asked : Type := arg * arg * N * N * N.
Definition blob_of (f : field) : blob := mkBlob false (f_data f) (f_type f).
(* one result for every record, with data; an error has the subject and predicate of the call *)
Definition scan_results (id : Z) (s p : arg) (a : option (list triple)) : list result :=
  match a with
  | Some us => map (fun t => XGetOp id true (blob_of (t_sub t)) (blob_of (t_pred t)) (blob_of (t_obj t))) us
  | None => [XGetOp id false (ref_blob s) (ref_blob p) blob_none]
  end.
(* what it gives when the cluster holds M: the datastore of its pair answers from its own triples *)
Definition scan_result (e : env) (c : codec) (M : tmap) (t : asked) (xs : list result) : Prop :=
  let '(s, p, ty, n, op) := t in
  exists ts, contents c (share e (at_ e s p) M) ts /\ xs = scan_results (at_ e s p) s p (reply c ts (getop_req t)).

(* ---- what is assumed of GETOPs ---- *)
(* subject and predicate are given, and at least one record is asked for *)
Definition good_scan (c : codec) (t : asked) : Prop :=
  let '(s, p, ty, n, op) := t in good_arg c s /\ good_arg c p /\ u32 ty /\ u32 op /\ u64 n /\ 1 <= n.
Definition scan_call (c : codec) (x : call) : Prop :=
  match x with
  | CGetOp s p ty n op => good_scan c (s, p, ty, n, op)
  | CBGetOp (Some l) => Forall (good_scan c) l
  | _ => data_call c x
  end.
(* when the cluster holds M: not HIGHEST of an in-memory datastore, not LAST of an empty one, not FIRST or LAST of an empty one on
   another rank, and LOWEST and HIGHEST find something or fail *)
Definition scannable (e : env) (k : backend) (c : codec) (M : tmap) (t : asked) : Prop :=
  let '(s, p, ty, n, op) := t in
  (k = InMemory -> op <> GETOP_HIGHEST) /\
  forall ts, contents c (share e (at_ e s p) M) ts ->
    reply c ts (getop_req t) <> Some [] /\ (op = GETOP_LAST -> k = InMemory -> ts <> []) /\
    (op = GETOP_FIRST \/ op = GETOP_LAST -> far e (at_ e s p) = true -> ts <> []).

(* ---- turns with GETOPs ---- *)
(* GETOPs come after the PUTs of their turn and before the DELETEs *)
Definition seen_by_scans (e : env) (M : tmap) (cs : list call) : tmap := put_all M (flat_map (call_puts e) cs).
Fixpoint scans_fine (E : Z -> env) (k : backend) (c : codec) (M : tmap) (l : list (Z * list call)) : Prop :=
  match l with
  | [] => True
  | (i, cs) :: l' =>
      Forall (scan_call c) cs /\ spread (E i) cs /\
      Forall (scannable (E i) k c (seen_by_scans (E i) M cs)) (flat_map call_getops cs) /\
      scans_fine E k c (fst (batch (E i) k M cs)) l'
  end.
(* the results of every Flush, in some order *)
Fixpoint scans_seen (E : Z -> env) (k : backend) (c : codec) (M : tmap) (l : list (Z * list call)) (rs : list (list result)) : Prop :=
  match l, rs with
  | [], [] => True
  | (i, cs) :: l', xs :: rs' =>
      (exists gs, Forall2 (scan_result (E i) c (seen_by_scans (E i) M cs)) (flat_map call_getops cs) gs /\
                  Permutation xs (snd (batch (E i) k M cs) ++ concat gs)) /\
      scans_seen E k c (fst (batch (E i) k M cs)) l' rs'
  | _, _ => False
  end.
