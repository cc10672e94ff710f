(* Options: every one has the value given last *)
From Verif Require Import ModelBytes ModelConf ModelOptions ModelSet.
From Coq Require Export Permutation.
Local Open Scope N_scope.

(* the predefined hashes and generators of buckets *)
Definition hashes : list bytes := 
  [bstr "DATASTORE_0"; bstr "RANK_MOD_DATASTORES"; bstr "SUM_MOD_DATASTORES"; bstr "UTHASH_BER"; bstr "UTHASH_SAX"; bstr "UTHASH_FNV"; bstr "UTHASH_OAT"; bstr "UTHASH_JEN"; bstr "UTHASH_SFH"].
Definition generators : list bytes :=
  [bstr "10_BUCKETS"; bstr "SQUARE_ROOT_CHOICE"; bstr "STURGES_FORMULA"; bstr "RICE_RULE"; bstr "SCOTTS_NORMAL_REFERENCE_RULE"; bstr "UNIFORM_LOG2"; bstr "UNIFORM_LOG10"].
(* what the documentation of options wants of arguments *)
Definition proper (c : setter) : Prop :=
  match c with
  | SComm z => z <> 0%Z
  | SClient n | SServer n | SPer n => 1 <= n
  | SAdd i => (0 <= i)%Z
  | SHash (Some n) => In n hashes
  | SGen (Some n) => In n generators
  | SHashFun _ f _ | SGenFun f _ => f <> None
  | _ => True
  end.
(* no null pointers for strings *)
Definition no_null (c : setter) : Prop :=
  match c with
  | SName p b q => p <> None /\ b <> None /\ q <> None
  | SHash n | SGen n | STrThallium n _ => n <> None
  | SHashFun n f _ => n <> None
  | _ => True
  end.
(* the value of the last call that gives one *)
Fixpoint latest {A} (gives : setter -> option A) (d : A) (l : list setter) : A :=
  match l with [] => d | c :: l' => latest gives (match gives c with Some a => a | None => d end) l' end.
Definition g_client c := match c with SClient n => Some n | _ => None end.
Definition g_server c := match c with SServer n => Some n | _ => None end.
Definition g_per c := match c with SPer n => Some n | _ => None end.
Definition g_debug c := match c with SDebug n => Some n | _ => None end.
Definition g_comm c := match c with SComm n => Some n | _ => None end.
Definition g_open c := match c with SOpenInit n => Some n | _ => None end.
Definition g_hists c := match c with SHists r w => Some (r, w) | _ => None end.
Definition g_name c := match c with SName (Some p) (Some b) (Some q) => Some (p, b, q) | _ => None end.
Definition g_ds c := match c with SDs d => Some (Some d) | _ => None end.
Definition g_hash c := match c with SHash (Some n) => Some (n, Named n, 0) | SHashFun (Some n) (Some f) a => Some (n, Given f, a) | _ => None end.
Definition g_tr c := match c with STrNull => Some (Some TrNull) | STrMpi n => Some (Some (TrMpi n)) | STrThallium (Some m) n => Some (Some (TrThallium m n)) | _ => None end.
Definition g_async c := match c with SAsync n => Some n | _ => None end.
Definition g_ops c := match c with SOps n => Some n | _ => None end.
Definition g_size c := match c with SSize n => Some n | _ => None end.
Definition g_first c := match c with SFirst n => Some n | _ => None end.
(* the numbers that the predefined generators are given: of buckets, or the base of the logarithm *)
Definition numbers : list (bytes * N) := [(bstr "UNIFORM_LOG10", 10); (bstr "UNIFORM_LOG2", 2); (bstr "10_BUCKETS", 10)].
Definition number_of (n : bytes) : N := match find (fun x => beqb (fst x) n) numbers with Some x => snd x | None => 0 end.
Definition g_gen c := match c with SGen (Some n) => Some (Named n, number_of n) | SGenFun (Some f) a => Some (Given f, a) | _ => None end.

(* s' is s after the calls l, all of them proper *)
Definition after (s s' : settings) (l : list setter) : Prop :=
  z_comm s' = latest g_comm (z_comm s) l /\ z_debug s' = latest g_debug (z_debug s) l /\
  z_client s' = latest g_client (z_client s) l /\ z_server s' = latest g_server (z_server s) l /\ z_per s' = latest g_per (z_per s) l /\
  z_open s' = latest g_open (z_open s) l /\ z_hists s' = latest g_hists (z_hists s) l /\ z_name s' = latest g_name (z_name s) l /\
  option_map snd (z_ds s') = latest g_ds (option_map snd (z_ds s)) l /\ z_hash s' = latest g_hash (z_hash s) l /\
  option_map (fun x => fst (snd x)) (z_tr s') = latest g_tr (option_map (fun x => fst (snd x)) (z_tr s)) l /\
  snd (z_async s') = latest g_async (snd (z_async s)) l /\ z_ops s' = latest g_ops (z_ops s) l /\ z_size s' = latest g_size (z_size s) l /\
  z_first s' = latest g_first (z_first s) l /\ z_gen s' = latest g_gen (z_gen s) l.
(* the endpoints added since the last clear, and all tracked predicates *)
Definition added (l : list setter) (i : Z) : Prop := exists l1 l2, l = l1 ++ SAdd i :: l2 /\ ~ In SClear l2.
Definition sets_after (s s' : settings) (l : list setter) : Prop :=
  (forall i, In i (z_group s') <-> added l i \/ (In i (z_group s) /\ ~ In SClear l)) /\
  (forall n, In n (z_names s') <-> In (STrack n) l \/ In n (z_names s)).
(* the thread for PUTs is wanted exactly when a limit is set *)
Definition async_agrees (s : settings) : Prop := fst (z_async s) = negb (snd (z_async s) =? 0).

(* the objects that the settings point to *)
Definition holds (h : holder) : list N :=
  match h with
  | Has _ s => match z_ds s with Some (i, _) => [i] | None => [] end ++ match z_tr s with Some (i, _) => [i] | None => [] end
  | _ => []
  end.
(* nothing is lost, nothing is destroyed twice *)
Definition kept (y : state) : Prop := NoDup (y_live y) /\ Permutation (holds (y_h y)) (y_live y).
(* a session is only initialized when there is none, and only opened when there is one; no null pointers *)
Definition orderly (y : state) (e : event) : Prop :=
  match e with
  | EInit => match y_h y with Has _ _ => False | _ => True end
  | EOpen => match y_h y with Has _ _ => True | _ => False end
  | ESet (STrMpi _) => match y_h y with Has _ _ => True | _ => False end
  | ESet c => no_null c
  | EClose => True
  end.
Fixpoint all_orderly (y : state) (l : list event) : Prop :=
  match l with [] => True | e :: l' => orderly y e /\ forall y', occur y e = Ok y' -> all_orderly y' l' end.
Definition nothing_yet : state := mkState NoP 0 [].
(* the calls of l that were answered with HXHIM_SUCCESS *)
Fixpoint answered (l : list setter) (rs : list bool) : list setter :=
  match l, rs with c :: l', r :: rs' => (if r then [c] else []) ++ answered l' rs' | _, _ => [] end.
