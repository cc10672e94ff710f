(* Clients that call and flush in any order, all or only one kind of operation: what they should see of the one map of SpecCluster.v *)
From Verif Require Import ModelBytes ModelKey ModelWire ModelHist ModelMsg SpecMsg ModelStore ModelGetOp ModelDs ModelElen ModelRoute
  SpecStore SpecRoute ModelClient SpecClient SpecCluster SpecGetOp SpecScan.
Local Open Scope N_scope.

Inductive piece := Puts | Gets | GetOps | Dels.
(* None: Flush *)
Inductive move := Say (x : call) | Send (p : option piece).
Definition pieces (p : option piece) : list piece := match p with Some q => [q] | None => [Puts; Gets; GetOps; Dels] end.

(* ---- what happens ---- *)
Definition send (e : env) (s : session) (cl : cluster) (p : option piece) : outcome (session * cluster * list result) :=
  match p with
  | Some Puts => flush_puts e s cl | Some Gets => flush_gets e s cl | Some GetOps => flush_getops e s cl | Some Dels => flush_dels e s cl
  | None => flush e s cl
  end.
(* moves of clients; client i is the process E i with session S i. The results of the flushes *)
Fixpoint moves (E : Z -> env) (S : Z -> session) (cl : cluster) (l : list (Z * move)) : outcome (cluster * list (list result)) :=
  match l with
  | [] => Ok (cl, [])
  | (i, Say x) :: l' => do (a, _) <- do_call (E i) (S i) cl x; moves E (next S i (fst a)) (snd a) l'
  | (i, Send p) :: l' => do (a, xs) <- send (E i) (S i) cl p; do (cl', r) <- moves E (next S i (fst a)) (snd a) l'; Ok (cl', xs :: r)
  end.

(* ---- what should happen ---- *)
(* the operations of a client that have not been flushed *)
Record waiting := mkWaiting { w_puts : list (arg * arg * arg); w_gets : list (arg * arg * N); w_getops : list asked; w_dels : list (arg * arg) }.
Definition idle : waiting := mkWaiting [] [] [] [].
Definition wait (e : env) (w : waiting) (x : call) : waiting :=
  mkWaiting (w_puts w ++ call_puts e x) (w_gets w ++ call_gets x) (w_getops w ++ call_getops x) (w_dels w ++ call_dels x).
Definition without (w : waiting) (p : piece) : waiting :=
  match p with
  | Puts => mkWaiting [] (w_gets w) (w_getops w) (w_dels w) | Gets => mkWaiting (w_puts w) [] (w_getops w) (w_dels w)
  | GetOps => mkWaiting (w_puts w) (w_gets w) [] (w_dels w) | Dels => mkWaiting (w_puts w) (w_gets w) (w_getops w) []
  end.
Definition left_ (e : env) (k : backend) (M : tmap) (w : waiting) (p : piece) : tmap :=
  match p with Puts => put_all M (w_puts w) | Dels => fst (del_all e k M (w_dels w)) | _ => M end.
Definition gives (e : env) (k : backend) (c : codec) (M : tmap) (w : waiting) (p : piece) (xs : list result) : Prop :=
  match p with
  | Puts => xs = map (put_result e) (w_puts w)
  | Gets => xs = map (get_result e M) (w_gets w)
  | GetOps => exists gs, Forall2 (scan_result e c M) (w_getops w) gs /\ xs = concat gs
  | Dels => xs = snd (del_all e k M (w_dels w))
  end.
Fixpoint give (e : env) (k : backend) (c : codec) (M : tmap) (w : waiting) (ps : list piece) (xs : list result) : Prop :=
  match ps with
  | [] => xs = []
  | p :: ps' => exists ys zs, gives e k c M w p ys /\ give e k c (left_ e k M w p) (without w p) ps' zs /\ xs = ys ++ zs
  end.
Fixpoint left_all (e : env) (k : backend) (M : tmap) (w : waiting) (ps : list piece) : tmap :=
  match ps with [] => M | p :: ps' => left_all e k (left_ e k M w p) (without w p) ps' end.
Definition waits (W : Z -> waiting) (i : Z) (w : waiting) : Z -> waiting := fun j => if (j =? i)%Z then w else W j.
(* the results of every flush, in some order *)
Fixpoint moves_seen (E : Z -> env) (k : backend) (c : codec) (M : tmap) (W : Z -> waiting) (l : list (Z * move)) (rs : list (list result)) : Prop :=
  match l with
  | [] => rs = []
  | (i, Say x) :: l' => moves_seen E k c M (waits W i (wait (E i) (W i) x)) l' rs
  | (i, Send p) :: l' => exists xs ys rs', rs = xs :: rs' /\ Permutation xs ys /\ give (E i) k c M (W i) (pieces p) ys /\
      moves_seen E k c (left_all (E i) k M (W i) (pieces p)) (waits W i (fold_left without (pieces p) (W i))) l' rs'
  end.

(* ---- what is assumed ---- *)
(* of the datastores that are used, no two are on the same other rank; GETOPs are as in SpecScan.v *)
Definition used (e : env) (w : waiting) (p : piece) (id : Z) : Prop :=
  match p with
  | Puts => exists s q o, In (s, q, o) (w_puts w) /\ goes e id s q = true
  | Gets => exists s q t, In (s, q, t) (w_gets w) /\ goes e id s q = true
  | GetOps => exists s q t n op, In (s, q, t, n, op) (w_getops w) /\ goes e id s q = true
  | Dels => exists s q, In (s, q) (w_dels w) /\ goes e id s q = true
  end.
Fixpoint pieces_fine (e : env) (k : backend) (c : codec) (M : tmap) (w : waiting) (ps : list piece) : Prop :=
  match ps with
  | [] => True
  | p :: ps' => one_per_rank e (used e w p) /\ (p = GetOps -> Forall (scannable e k c M) (w_getops w)) /\ pieces_fine e k c (left_ e k M w p) (without w p) ps'
  end.
Fixpoint moves_fine (E : Z -> env) (k : backend) (c : codec) (M : tmap) (W : Z -> waiting) (l : list (Z * move)) : Prop :=
  match l with
  | [] => True
  | (i, Say x) :: l' => scan_call c x /\ moves_fine E k c M (waits W i (wait (E i) (W i) x)) l'
  | (i, Send p) :: l' => pieces_fine (E i) k c M (W i) (pieces p) /\
      moves_fine E k c (left_all (E i) k M (W i) (pieces p)) (waits W i (fold_left without (pieces p) (W i))) l'
  end.
