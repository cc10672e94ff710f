(* Objects that do not come back as they were stored: what clients of the whole cluster should see *)
From Verif Require Import ModelBytes ModelKey ModelWire ModelHist ModelMsg SpecMsg ModelStore ModelGetOp ModelDs ModelElen ModelRoute
  SpecStore SpecRoute ProofDs ModelClient SpecClient SpecCluster ModelTyped.
Local Open Scope N_scope.

(* what the callbacks make of an object that is encoded when it is stored and decoded when it is read *)
Definition back (c : codec) (f : field) : field :=
  match c_enc c (f_type f) false (f_data f) with
  | Ok (Some e) => match c_dec c (f_type f) e with Ok (Some d) => mkField d (f_type f) | _ => f end
  | _ => f
  end.
(* the callbacks take it both ways *)
Definition codable (c : codec) (f : field) : Prop :=
  f_data f <> [] /\ f_type f < 256 /\
  exists e d, c_enc c (f_type f) false (f_data f) = Ok (Some e) /\ c_dec c (f_type f) e = Ok (Some d) /\ d <> [] /\ u64 (blen d).
Definition good_obj (c : codec) (a : arg) : Prop :=
  given a = true /\ codable c (fa a) /\ u64 (a_addr a) /\ blen (a_data a) < 2 ^ 32.

(* the calls: as data_call (SpecCluster.v), but objects need not come back as they were if the triple is stored
   in the order subject, predicate, object only (mask 1: the object is no part of a key) *)
Definition obj_fits (c : codec) (s p o : arg) (mask : N) : Prop :=
  good_arg c s /\ good_arg c p /\ good_obj c o /\ (mask = 1 \/ good_arg c o).
Definition obj_call (c : codec) (x : call) : Prop :=
  match x with
  | CPut s p o m => obj_fits c s p o m
  | CBPut (Some l) => Forall (fun '(s, p, o, m) => obj_fits c s p o m) l
  | CGet s p ty => good_arg c s /\ good_arg c p /\ u32 ty
  | CDelete s p => good_arg c s /\ good_arg c p
  | CBGet (Some l) => Forall (fun '(s, p, ty) => good_arg c s /\ good_arg c p /\ u32 ty) l
  | CBDelete (Some l) => Forall (fun '(s, p) => good_arg c s /\ good_arg c p) l
  | CBGetOne true ty (Some l) => u32 ty /\ Forall (fun '(s, p) => good_arg c s /\ good_arg c p) l
  | _ => False
  end.

(* the same calls with the objects that will come back *)
Definition kept_arg (c : codec) (a : arg) : arg := mkArg (a_addr a) (f_data (back c (fa a))) (a_type a).
Definition kept (c : codec) (x : call) : call :=
  match x with
  | CPut s p o m => CPut s p (kept_arg c o) m
  | CBPut (Some l) => CBPut (Some (map (fun '(s, p, o, m) => (s, p, kept_arg c o, m)) l))
  | _ => x
  end.
Definition kept_turn (c : codec) (ic : Z * list call) : Z * list call := (fst ic, map (kept c) (snd ic)).

(* no PUT and no DELETE of the pair (s, p) *)
Definition leaves (e : env) (s p : field) (x : call) : Prop :=
  Forall (fun t => let '(s', p', _) := t in (fa s', fa p') <> (s, p)) (call_puts e x) /\
  Forall (fun t => let '(s', p') := t in (fa s', fa p') <> (s, p)) (call_dels x).

(* client i stores the number that q points to (of type t) under (s, p); after the turns l2 client j reads (s, p) *)
Definition story (l1 : list (Z * list call)) (i : Z) (t : N) (s p : arg) (q : fp_ptr) (l2 : list (Z * list call)) (j : Z) (ty : N) : list (Z * list call) :=
  l1 ++ (i, [put_fp t s p q 1]) :: l2 ++ [(j, [get_fp ty s p])].
(* what is assumed of it; c: the callbacks of the datastores *)
Record story_ok (c : codec) (E : Z -> env) (S : Z -> session) (e0 : env) (k : backend) (cl : cluster)
  (l1 : list (Z * list call)) (i : Z) (t : N) (s p : arg) (q : fp_ptr) (l2 : list (Z * list call)) (j : Z) (ty : N) : Prop := {
  st_clients : forall a, In a (map fst (story l1 i t s p q l2 j ty)) -> good_client (E a) /\ same_cluster e0 (E a) /\ fresh (E a) (S a);
  st_start : holds e0 cl (fun _ => opened k c);
  st_spread : Forall (fun ic => spread (E (fst ic)) (snd ic)) (story l1 i t s p q l2 j ty);
  st_calls : Forall (fun ic => Forall (obj_call c) (snd ic)) (l1 ++ l2);
  st_left : Forall (fun ic => Forall (leaves (E (fst ic)) (fa s) (fa p)) (snd ic)) l2;
  st_pair : good_arg c s /\ good_arg c p;
  st_type : u32 ty;
  st_ptr : fp_addr q <> 0 /\ u64 (fp_addr q) }.
