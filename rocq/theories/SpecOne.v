(* BPUTs of one type among other calls and flushes (SpecMixed.v, SpecMixed3.v): what clients should see of the one map *)
From Verif Require Import ModelBytes ModelKey ModelWire ModelHist ModelMsg SpecMsg ModelStore ModelGetOp ModelDs ModelElen ModelRoute
  SpecStore SpecRoute ModelClient SpecClient SpecCluster SpecGetOp SpecScan SpecTyped SpecMixed SpecMixed3.
Local Open Scope N_scope.

(* the BPUT that a BPUT of one type stands for *)
Definition one_type (x : call) : bool := match x with CBPutOne _ _ _ => true | _ => false end.
Definition spelled (x : call) : call :=
  match x with
  | CBPutOne true ty (Some l) => CBPut (Some (map (fun '(s, p, o, m) => (s, p, mkArg (a_addr o) (a_data o) ty, m)) l))
  | _ => x
  end.
(* w: what waits after the call. A BPUT of one type after which max_queued PUTs wait does what FlushPuts does *)
Definition at_limit (e : env) (x : call) (w : waiting) : bool := one_type x && (e_max_queued e <=? N.of_nat (length (w_puts w))).
(* as moves_seen, but no client is given the results of such PUTs *)
Fixpoint all_seen (E : Z -> env) (k : backend) (c : codec) (M : tmap) (W : Z -> waiting) (l : list (Z * move)) (rs : list (list result)) : Prop :=
  match l with
  | [] => rs = []
  | (i, Say x) :: l' =>
      let w := wait (E i) (W i) (spelled x) in
      if at_limit (E i) x w then all_seen E k c (put_all M (w_puts w)) (waits W i (without w Puts)) l' rs
      else all_seen E k c M (waits W i w) l' rs
  | (i, Send p) :: l' => exists xs ys rs', rs = xs :: rs' /\ Permutation xs ys /\ give (E i) k c M (W i) (pieces p) ys /\
      all_seen E k c (left_all (E i) k M (W i) (pieces p)) (waits W i (fold_left without (pieces p) (W i))) l' rs'
  end.

(* ---- what is assumed ---- *)
Definition any_move (c : codec) (m : Z * move) : Prop := match snd m with Say x => obj_call c (spelled x) | Send _ => True end.
(* the moves that store what comes back *)
Definition kept_one (c : codec) (x : call) : call :=
  match x with CBPutOne types ty (Some l) => CBPutOne types ty (Some (map (fun '(s, p, o, m) => (s, p, kept_arg c (mkArg (a_addr o) (a_data o) ty), m)) l)) | _ => kept c x end.
Definition kept_any (c : codec) (m : Z * move) : Z * move := (fst m, match snd m with Say x => Say (kept_one c x) | Send p => Send p end).
(* no flush, and no such BPUT, uses two datastores of the same other rank *)
Fixpoint all_apart (E : Z -> env) (W : Z -> waiting) (l : list (Z * move)) : Prop :=
  match l with
  | [] => True
  | (i, Say x) :: l' =>
      let w := wait (E i) (W i) (spelled x) in
      if at_limit (E i) x w then one_per_rank (E i) (used (E i) w Puts) /\ all_apart E (waits W i (without w Puts)) l'
      else all_apart E (waits W i w) l'
  | (i, Send p) :: l' => pieces_apart (E i) (W i) (pieces p) /\ all_apart E (waits W i (fold_left without (pieces p) (W i))) l'
  end.
