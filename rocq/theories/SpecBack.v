(* What a session with the background PUT thread should achieve in a cluster *)
From Verif Require Import ModelBytes ModelKey ModelWire ModelHist ModelMsg SpecMsg ModelStore ModelGetOp ModelDs ModelElen ModelRoute
  SpecStore SpecRoute ModelClient SpecClient SpecCluster SpecScan ModelPar SpecPar ModelAsync SpecAsync ModelBack.
Local Open Scope N_scope.

(* the PUTs of a program *)
Definition all_puts (p : list cmd) : list op := flat_map (fun c => match c with KPut l => l | _ => [] end) p.
(* values that can be stored; not null *)
Definition good_op (c : codec) (o : op) : Prop :=
  let 'mkPut s sa p pa x := o_put o in
  good_arg c (arg_of s sa) /\ good_arg c (arg_of p pa) /\ good_arg c (arg_of x 1) /\ b_null x = false.
Definition good_program (c : codec) (e : env) (p : list cmd) : Prop :=
  Forall (good_op c) (all_puts p) /\ one_per_rank e (fun id => puts_to e id (map call_of (all_puts p)) <> []).
(* what else is called, by whom; the session's own thread makes no other PUTs *)
Definition bmove_ok (E : Z -> env) (k : backend) (c : codec) (m : Z) (W : Z -> Prop) (x : bmove) : Prop :=
  match x with
  | BP l => W (ModelPar.who l) /\ label_ok E k c l /\
            match l with LCall i cs => i = m -> flat_map (call_puts (E i)) cs = [] | _ => True end
  | BA _ => True
  end.
(* the object of the last of these PUTs of a pair *)
Fixpoint last_put (s p : field) (l : list op) : option field :=
  match l with
  | [] => None
  | o :: l' =>
      match last_put s p l' with
      | Some x => Some x
      | None => let 'mkPut a _ b _ x := o_put o in if feqb (fld a) s && feqb (fld b) p then Some (fld x) else None
      end
  end.
(* what a GET of a pair gives when the store holds v for it *)
Definition get_gives (e : env) (x y : arg) (v : option field) : result :=
  match v with
  | Some o => XGet (at_ e x y) true (rf x) (rf y) (mkBlob false (f_data o) (f_type o))
  | None => XGet (at_ e x y) false (rf x) (rf y) blob_none
  end.
(* no client but t stores or removes an object for the pair *)
Definition only (E : Z -> env) (t : Z) (s p : field) (h : list shown) : Prop :=
  forall i cs, i <> t -> In (Called i cs) h -> forall a, In a (opers (E i) cs) -> ~ changes s p a.
