(* What a Flush sends if several datastores of one other rank are in use. In every round process takes the first packet of every queue
   and keeps one packet per rank, that of the last datastore: a datastore loses as many packets as a later datastore of the
   same rank has. *)
From Verif Require Import ModelBytes ModelKey ModelWire ModelHist ModelMsg SpecMsg ModelStore ModelGetOp ModelDs ModelElen ModelRoute SpecRoute
  ModelClient SpecClient SpecCluster SpecScan ModelPar SpecPar.
Local Open Scope Z_scope.

(* len j: packets queued for datastore j *)
Definition later (e : env) (id : Z) : list Z := filter (fun j => (id <? j) && (rank_of e j =? rank_of e id)) (upto (e_total e)).
Definition most (l : list nat) : nat := fold_right Nat.max O l.
Definition lost (e : env) (len : Z -> nat) (id : Z) : nat := if far e id then most (map len (later e id)) else O.

(* the packets of datastore id that are sent *)
Definition sent {A} (e : env) (qs : list (list (list A))) (id : Z) : list (list A) :=
  skipn (lost e (fun j => length (nth (Z.to_nat j) qs [])) id) (nth (Z.to_nat id) qs []).
Definition sent_to (e : env) (s : session) (id : Z) : list body :=
  map QPut (sent e (q_puts (s_qs s)) id) ++ map QGet (sent e (q_gets (s_qs s)) id) ++ map QGetOp (sent e (q_getops (s_qs s)) id) ++
  map QDel (sent e (q_dels (s_qs s)) id) ++ map QHist (sent e (q_hists (s_qs s)) id).
(* the same, an operation at a time *)
Definition ops_sent (e : env) (s : session) (id : Z) : list body :=
  map (fun i => QPut [i]) (concat (sent e (q_puts (s_qs s)) id)) ++ map (fun i => QGet [i]) (concat (sent e (q_gets (s_qs s)) id)) ++
  map (fun i => QGetOp [i]) (concat (sent e (q_getops (s_qs s)) id)) ++ map (fun i => QDel [i]) (concat (sent e (q_dels (s_qs s)) id)) ++
  map (fun i => QHist [i]) (concat (sent e (q_hists (s_qs s)) id)).
(* those sent to other ranks reach them and can be carried by the wire *)
Definition sendable (e : env) (D : Z -> ds) (l : Z -> list body) : Prop :=
  forall id, an_id e id -> far e id = true -> l id <> [] -> routed e id /\ fits_wire (D id) (l id).

(* l is what is left of l0 after something at the front is dropped *)
Definition ending {A} (l l0 : list A) : Prop := exists front, l0 = front ++ l.

(* what the results of the operations sent to datastore id are about (SpecClient.tag) *)
Definition item_ref (addr : N) (b : blob) : ref := mkRef addr (blen (b_data b)) (b_type b).
Definition tags_sent (e : env) (s : session) (id : Z) : list tag :=
  map (fun i => TPut id (item_ref (pi_sub_addr i) (pi_sub i)) (item_ref (pi_pred_addr i) (pi_pred i))) (concat (sent e (q_puts (s_qs s)) id)) ++
  map (fun i => TGet id (item_ref (gi_sub_addr i) (gi_sub i)) (item_ref (gi_pred_addr i) (gi_pred i))) (concat (sent e (q_gets (s_qs s)) id)) ++
  map (fun i => TDel id (item_ref (di_sub_addr i) (di_sub i)) (item_ref (di_pred_addr i) (di_pred i))) (concat (sent e (q_dels (s_qs s)) id)) ++
  map (fun _ => THist id) (concat (sent e (q_hists (s_qs s)) id)).

(* ---- the operations of a turn that take effect ---- *)
(* n id: how many operations are lost at datastore id; only if a later datastore of the same other rank is used *)
Definition lossy (e : env) (n : Z -> nat) (used : list Z) : Prop :=
  forall id, an_id e id -> n id <> O -> far e id = true /\ exists j, In j used /\ id < j /\ rank_of e j = rank_of e id.
(* without the first n id operations of every datastore id *)
Fixpoint drop_at {A} (place : A -> Z) (n : Z -> nat) (l : list A) : list A :=
  match l with
  | [] => []
  | a :: l' => match n (place a) with
               | O => a :: drop_at place n l'
               | S m => drop_at place (fun id => if id =? place a then m else n id) l'
               end
  end.
Definition fewer {A} (e : env) (place : A -> Z) (l l' : list A) : Prop :=
  exists n, lossy e n (map place l) /\ l' = drop_at place n l.
(* the turn ic' does what is left of the turn ic *)
Definition turn_left (E : Z -> env) (ic ic' : Z * list call) : Prop :=
  let e := E (fst ic) in let cs := snd ic in let cs' := snd ic' in
  fst ic' = fst ic /\
  fewer e (fun '(s, p, _) => at_ e s p) (flat_map (call_puts e) cs) (flat_map (call_puts e) cs') /\
  fewer e (fun '(s, p, _) => at_ e s p) (flat_map call_gets cs) (flat_map call_gets cs') /\
  fewer e (fun '(s, p, _, _, _) => at_ e s p) (flat_map call_getops cs) (flat_map call_getops cs') /\
  fewer e (fun '(s, p) => at_ e s p) (flat_map call_dels cs) (flat_map call_dels cs').
(* what clients working at the same time see, and what they would see if they asked for what is left (ModelPar.shown) *)
Definition call_left (E : Z -> env) (x y : shown) : Prop :=
  match x, y with
  | Called i cs, Called j cs' => turn_left E (i, cs) (j, cs')
  | Returned i xs, Returned j ys => i = j /\ xs = ys
  | _, _ => False
  end.
(* calls that store, read and delete, anywhere, and GETOPs that are always answered (SpecPar.steady) *)
Definition label_data (E : Z -> env) (k : backend) (c : codec) (l : label) : Prop :=
  match l with LCall i cs => Forall (scan_call c) cs /\ Forall (steady (E i) k) (flat_map call_getops cs) | _ => True end.
