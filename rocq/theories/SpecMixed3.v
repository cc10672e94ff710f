(* Calls and flushes in any order (SpecMixed.v) with objects that do not come back as they were stored (SpecTyped.v), and what a client
   sees of pairs that only it changes *)
From Verif Require Import ModelBytes ModelKey ModelWire ModelHist ModelMsg SpecMsg ModelStore ModelGetOp ModelDs ModelElen ModelRoute
  SpecStore SpecRoute ModelClient SpecClient SpecCluster SpecGetOp SpecScan SpecTyped SpecMixed.
Local Open Scope N_scope.

(* the moves, and the moves that store what comes back *)
Definition obj_move (c : codec) (m : Z * move) : Prop := match snd m with Say x => obj_call c x | Send _ => True end.
Definition kept_move (c : codec) (m : Z * move) : Z * move := (fst m, match snd m with Say x => Say (kept c x) | Send p => Send p end).
(* no flush uses two datastores of the same other rank *)
Fixpoint pieces_apart (e : env) (w : waiting) (ps : list piece) : Prop :=
  match ps with [] => True | p :: ps' => one_per_rank e (used e w p) /\ pieces_apart e (without w p) ps' end.
Fixpoint moves_apart (E : Z -> env) (W : Z -> waiting) (l : list (Z * move)) : Prop :=
  match l with
  | [] => True
  | (i, Say x) :: l' => moves_apart E (waits W i (wait (E i) (W i) x)) l'
  | (i, Send p) :: l' => pieces_apart (E i) (W i) (pieces p) /\ moves_apart E (waits W i (fold_left without (pieces p) (W i))) l'
  end.

(* ---- one client among others ---- *)
(* the moves of client i, and the results of its flushes *)
Definition alone (i : Z) (l : list (Z * move)) : list (Z * move) := filter (fun m => (fst m =? i)%Z) l.
Fixpoint mine (i : Z) (l : list (Z * move)) (rs : list (list result)) : list (list result) :=
  match l, rs with
  | (_, Say _) :: l', _ => mine i l' rs
  | (j, Send _) :: l', r :: rs' => if (j =? i)%Z then r :: mine i l' rs' else mine i l' rs'
  | _, _ => []
  end.
(* K: pairs that are left to client i. The others do not change them; i asks only for them (and for no GETOP) *)
Definition within (K : field -> field -> Prop) (e : env) (x : call) : Prop :=
  Forall (fun t => let '(s, p, _) := t in K (fa s) (fa p)) (call_puts e x) /\ Forall (fun t => let '(s, p, _) := t in K (fa s) (fa p)) (call_gets x) /\
  Forall (fun t => let '(s, p) := t in K (fa s) (fa p)) (call_dels x) /\ call_getops x = [].
Definition outside (K : field -> field -> Prop) (e : env) (x : call) : Prop :=
  Forall (fun t => let '(s, p, _) := t in ~ K (fa s) (fa p)) (call_puts e x) /\ Forall (fun t => let '(s, p) := t in ~ K (fa s) (fa p)) (call_dels x).
Definition left_to (K : field -> field -> Prop) (E : Z -> env) (i : Z) (m : Z * move) : Prop :=
  match snd m with Say x => if (fst m =? i)%Z then within K (E i) x else outside K (E (fst m)) x | Send _ => True end.
