(* Clients working at the same time: what they may see *)
From Verif Require Import ModelBytes ModelKey ModelWire ModelHist ModelMsg SpecMsg ModelStore ModelGetOp ModelDs ModelElen ModelRoute
  SpecStore SpecRoute ModelClient SpecClient SpecCluster SpecScan ModelPar.
Local Open Scope N_scope.

(* ---- operations on one map ---- *)
Inductive oper := OPut (s p o : arg) | OGet (s p : arg) (ty : N) | OScan (t : asked) | ODel (s p : arg).
(* PUTs come before GETs, GETs before GETOPs, GETOPs before DELETEs *)
Definition phase (a : oper) : nat := match a with OPut _ _ _ => 0 | OGet _ _ _ => 1 | OScan _ => 2 | ODel _ _ => 3 end.
Definition place (e : env) (a : oper) : Z :=
  match a with OPut s p _ | OGet s p _ | ODel s p => at_ e s p | OScan t => let '(s, p, _, _, _) := t in at_ e s p end.
(* what an operation does to M, and its results. LevelDB reports success for pairs that do not exist (C07) *)
Definition effect (e : env) (k : backend) (c : codec) (M : tmap) (a : oper) (M' : tmap) (xs : list result) : Prop :=
  match a with
  | OPut s p o => M' = tset M (fa s) (fa p) (Some (fa o)) /\ xs = [XPut (at_ e s p) true (rf s) (rf p)]
  | OGet s p ty => M' = M /\ xs = [match M (fa s) (fa p) with
                                   | Some o => XGet (at_ e s p) true (rf s) (rf p) (mkBlob false (f_data o) (f_type o))
                                   | None => XGet (at_ e s p) false (rf s) (rf p) blob_none
                                   end]
  | OScan t => M' = M /\ scan_result e c M t xs
  | ODel s p => M' = tset M (fa s) (fa p) None /\
                xs = [XDel (at_ e s p) (match M (fa s) (fa p), k with None, InMemory => false | _, _ => true end) (rf s) (rf p)]
  end.
(* the operations of some calls *)
Definition opers (e : env) (cs : list call) : list oper :=
  map (fun '(s, p, o) => OPut s p o) (flat_map (call_puts e) cs) ++ map (fun '(s, p, ty) => OGet s p ty) (flat_map call_gets cs) ++
  map OScan (flat_map call_getops cs) ++ map (fun '(s, p) => ODel s p) (flat_map call_dels cs).

(* ---- what may happen ---- *)
(* EOper: an operation takes effect, at once *)
Inductive event := ECall (i : Z) (cs : list call) | EOper (i : Z) (a : oper) | EReturn (i : Z) (xs : list result).
(* for each client in a Flush: the operations that have not taken effect, the results of those that have *)
Definition pending := Z -> option (list oper * list result).
Definition upd {A} (P : Z -> A) (i : Z) (x : A) : Z -> A := fun j => if (j =? i)%Z then x else P j.
Section Legal.
Context (E : Z -> env) (k : backend) (c : codec).
Inductive legal : tmap -> pending -> list event -> Prop :=
| legal_nil M P : legal M P []
| legal_call M P i cs tr : P i = None -> legal M (upd P i (Some (opers (E i) cs, []))) tr -> legal M P (ECall i cs :: tr)
(* an operation only overtakes operations of the same kind on other datastores *)
| legal_oper M P i a l1 l2 xs M' ys tr : P i = Some (l1 ++ a :: l2, xs) ->
    (forall b, In b l1 -> phase b = phase a /\ place (E i) b <> place (E i) a) ->
    effect (E i) k c M a M' ys -> legal M' (upd P i (Some (l1 ++ l2, xs ++ ys))) tr -> legal M P (EOper i a :: tr)
(* Flush returns when all have taken effect, with their results in some order *)
| legal_return M P i xs ys tr : P i = Some ([], ys) -> Permutation xs ys -> legal M (upd P i None) tr -> legal M P (EReturn i xs :: tr).
End Legal.
Definition visible (tr : list event) : list shown :=
  flat_map (fun x => match x with ECall i cs => [Called i cs] | EReturn i xs => [Returned i xs] | EOper _ _ => [] end) tr.
(* what was seen can be explained by operations on one map that take effect one at a time, each while its Flush is going on *)
Definition explained (E : Z -> env) (k : backend) (c : codec) (h : list shown) : Prop :=
  exists tr, legal E k c no_triples (fun _ => None) tr /\ visible tr = h.

(* GETOPs that are answered whatever the cluster holds: EQ, NEXT and PREV, and FIRST and LAST of a datastore of this rank, LAST only if
   the datastores are not in memory *)
Definition steady (e : env) (k : backend) (t : asked) : Prop :=
  let '(s, p, ty, n, op) := t in
  op = GETOP_EQ \/ op = GETOP_NEXT \/ op = GETOP_PREV \/
  (far e (at_ e s p) = false /\ (op = GETOP_FIRST \/ op = GETOP_LAST /\ k = LevelDB)).
(* the calls that clients make *)
Definition label_ok (E : Z -> env) (k : backend) (c : codec) (l : label) : Prop :=
  match l with
  | LCall i cs => Forall (scan_call c) cs /\ Forall (steady (E i) k) (flat_map call_getops cs) /\ spread (E i) cs
  | _ => True
  end.
Definition idle (st : system) (i : Z) : Prop := c_mode (fst st i) = Idle.

(* ---- a consequence that can be read off: a completed PUT is seen ---- *)
Definition changes (s p : field) (a : oper) : Prop :=
  match a with OPut x y _ | ODel x y => fa x = s /\ fa y = p | OGet _ _ _ | OScan _ => False end.
(* no call in h stores or removes an object for s and p *)
Definition untouched (E : Z -> env) (s p : field) (h : list shown) : Prop :=
  forall i cs, In (Called i cs) h -> forall a, In a (opers (E i) cs) -> ~ changes s p a.
(* client i does not return in h *)
Definition still (i : Z) (h : list shown) : Prop := forall xs, ~ In (Returned i xs) h.
