(* What is expected of the life of a session *)
From Verif Require Import ModelBytes ModelElen ModelRoute SpecRoute ModelLife.
Local Open Scope Z_scope.

(* memory: the objects that exist after t; None: something was released that did not exist, or made twice *)
Definition obj_dec (a b : obj) : {a = b} + {a <> b}.
Proof. decide equality; (apply Z.eq_dec || apply N.eq_dec). Defined.
Fixpoint replay (t : list ev) (live : list obj) : option (list obj) :=
  match t with
  | [] => Some live
  | New o :: t' => if in_dec obj_dec o live then None else replay t' (o :: live)
  | Del o :: t' => if in_dec obj_dec o live then replay t' (remove obj_dec o live) else None
  | _ :: t' => replay t' live
  end.
(* everything made is released, once *)
Definition released (t : list ev) : Prop := replay t [] = Some [].

(* the collective calls a rank makes; ranks that make different ones wait for each other for ever *)
Definition collective (e : ev) : bool := match e with New _ | Del _ => false | _ => true end.
Definition collectives (t : list ev) : list ev := filter collective t.

(* a rank of a world with a layout that can be configured *)
Definition world (o : outside) (k : conf) : layout := mkLayout (o_size o) (k_cr k) (k_sr k) (k_per k).
Definition fits (o : outside) (k : conf) : Prop := good (world o k) /\ 0 <= o_rank o < o_size o.
(* the datastores of this rank can be opened *)
Definition opens (o : outside) (k : conf) : Prop := forall id, In id (hosted (world o k) (o_rank o)) -> o_opens o id = true.
(* a session as Open should leave it *)
Definition ready (o : outside) (k : conf) (p : priv) : Prop :=
  p_running p = true
  /\ (forall kind id, (kind < 5)%nat -> 0 <= id < datastores (world o k) ->
        exists q, nth_error (p_queues p) kind = Some q /\ nth_error q (Z.to_nat id) = Some [])
  /\ (forall r off id, hosts (world o k) r off id -> nth_error (p_ds_to_rank p) (Z.to_nat id) = Some r)
  /\ p_ds p = map Some (hosted (world o k) (o_rank o)).

(* calls in an order that makes sense: Init only without a session; P holds of the settings throughout *)
Fixpoint orderly (P : conf -> Prop) (o : outside) (l : list call) (h : handle) : Prop :=
  match l with
  | [] => True
  | c :: l' =>
      match c with CInit _ k => h = Hx None /\ P k | CSetOption f => forall k, P k -> P (f k) | _ => True end
      /\ forall r t, do_call o c h = Ok (r, t) -> orderly P o l' (snd r)
  end.
(* no two datastores on one other rank *)
Definition apart (o : outside) (k : conf) : Prop := fits o k /\ (k_per k = 1 \/ o_size o = 1).

(* calls a rank can make without the others *)
Definition local (c : call) : bool := match c with CEnqueue _ _ _ | CFlush | CAccessor | CResultsDestroy => true | _ => false end.
(* the calls that have to be the same everywhere *)
Definition shared (l : list call) : list call := filter (fun c => negb (local c)) l.
(* the transport can be set up, if one is configured *)
Definition connects (o : outside) (k : conf) : Prop := k_transport k = TrNull \/ o_transport o = true.
(* nothing outside prevents Open *)
Definition healthy (o : outside) (k : conf) : Prop := fits o k /\ opens o k /\ connects o k.
(* a datastore of this rank has to be opened and cannot *)
Definition broken (o : outside) (k : conf) : Prop := k_open_init k = true /\ exists id, In id (hosted (world o k) (o_rank o)) /\ o_opens o id = false.
(* what an application does with an open session *)
Definition work (o : outside) (k : conf) (c : call) : Prop :=
  match c with
  | CEnqueue q id _ => (q < 5)%nat /\ 0 <= id < datastores (world o k)
  | CFlush | CSync | CChange | CAccessor | CResultsDestroy => True
  | _ => False
  end.
