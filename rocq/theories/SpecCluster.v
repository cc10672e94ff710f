(* What clients of the whole cluster should see: one map *)
From Verif Require Import ModelBytes ModelKey ModelWire ModelHist ModelMsg SpecMsg ModelStore ModelGetOp ModelDs ModelElen ModelRoute
  SpecStore SpecRoute ModelClient SpecClient.
Local Open Scope N_scope.

Definition fa (a : arg) : field := mkField (a_data a) (a_type a).
Definition rf (a : arg) : ref := mkRef (a_addr a) (blen (a_data a)) (a_type a).
Definition at_ (e : env) (s p : arg) : Z := match target e s p with Some i => i | None => (-1)%Z end.

(* ---- one batch: calls and a Flush ---- *)
Fixpoint put_all (M : tmap) (l : list (arg * arg * arg)) : tmap :=
  match l with [] => M | (s, p, o) :: l' => put_all (tset M (fa s) (fa p) (Some (fa o))) l' end.
Definition put_result (e : env) (t : arg * arg * arg) : result := let '(s, p, _) := t in XPut (at_ e s p) true (rf s) (rf p).
Definition get_result (e : env) (M : tmap) (t : arg * arg * N) : result :=
  let '(s, p, _) := t in
  match M (fa s) (fa p) with
  | Some o => XGet (at_ e s p) true (rf s) (rf p) (mkBlob false (f_data o) (f_type o))
  | None => XGet (at_ e s p) false (rf s) (rf p) blob_none
  end.
(* LevelDB reports success for pairs that do not exist (C07) *)
Fixpoint del_all (e : env) (k : backend) (M : tmap) (l : list (arg * arg)) : tmap * list result :=
  match l with
  | [] => (M, [])
  | (s, p) :: l' =>
      let there := match M (fa s) (fa p) with Some _ => true | None => match k with InMemory => false | LevelDB => true end end in
      let '(M', r) := del_all e k (tset M (fa s) (fa p) None) l' in (M', XDel (at_ e s p) there (rf s) (rf p) :: r)
  end.
(* PUTs, then GETs, then DELETEs *)
Definition batch (e : env) (k : backend) (M : tmap) (cs : list call) : tmap * list result :=
  let puts := flat_map (call_puts e) cs in
  let M1 := put_all M puts in
  let '(M2, r) := del_all e k M1 (flat_map call_dels cs) in
  (M2, map (put_result e) puts ++ map (get_result e M1) (flat_map call_gets cs) ++ r).

(* ---- several clients taking turns; client i is the process E i with session S i ---- *)
Definition next (S : Z -> session) (i : Z) (s : session) : Z -> session := fun j => if (j =? i)%Z then s else S j.
Fixpoint play (E : Z -> env) (S : Z -> session) (cl : cluster) (l : list (Z * list call)) : outcome (cluster * list (list result)) :=
  match l with
  | [] => Ok (cl, [])
  | (i, cs) :: l' =>
      do (a, _) <- do_calls (E i) (S i) cl cs;
      do (b, xs) <- flush (E i) (fst a) (snd a);
      do (cl', r) <- play E (next S i (fst b)) (snd b) l'; Ok (cl', xs :: r)
  end.
Fixpoint expected (E : Z -> env) (k : backend) (M : tmap) (l : list (Z * list call)) : list (list result) :=
  match l with
  | [] => []
  | (i, cs) :: l' => let '(M', xs) := batch (E i) k M cs in xs :: expected E k M' l'
  end.

(* ---- what is assumed ---- *)
(* arguments: present, not empty, handled by the callbacks, representable *)
Definition good_arg (c : codec) (a : arg) : Prop :=
  given a = true /\ lossless c (fa a) /\ u64 (a_addr a) /\ blen (a_data a) < 2 ^ 32.
Definition data_call (c : codec) (x : call) : Prop :=
  match x with
  | CPut s p o _ => good_arg c s /\ good_arg c p /\ good_arg c o
  | CGet s p ty => good_arg c s /\ good_arg c p /\ u32 ty
  | CDelete s p => good_arg c s /\ good_arg c p
  | CBPut (Some l) => Forall (fun '(s, p, o, _) => good_arg c s /\ good_arg c p /\ good_arg c o) l
  | CBGet (Some l) => Forall (fun '(s, p, ty) => good_arg c s /\ good_arg c p /\ u32 ty) l
  | CBDelete (Some l) => Forall (fun '(s, p) => good_arg c s /\ good_arg c p) l
  | CBGetOne true ty (Some l) => u32 ty /\ Forall (fun '(s, p) => good_arg c s /\ good_arg c p) l
  | _ => False
  end.
(* every pair has a datastore (C27) *)
Definition total_hash (e : env) : Prop :=
  forall s p, blen s < 2 ^ 32 -> blen p < 2 ^ 32 -> exists id, e_hash e (e_rank e) (e_total e) s p = Ok id /\ an_id e id.
(* every other rank with datastores can be reached *)
Definition connected (e : env) : Prop := forall id, an_id e id -> far e id = true -> routed e id.
(* two clients of the same cluster: same layout, and pairs go to the same datastores *)
Definition same_cluster (e e' : env) : Prop :=
  e_layout e = e_layout e' /\ e_total e = e_total e' /\
  forall s p, e_hash e (e_rank e) (e_total e) s p = e_hash e' (e_rank e') (e_total e') s p.
Definition good_client (e : env) : Prop := setting e /\ total_hash e /\ connected e /\ 0 < e_max_ops e.
