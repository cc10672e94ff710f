(* Setting the options of a session one by one: src/hxhim/options.cpp. Simplifications: strings are what C strings show, without the 0 at
   their end, None for a null pointer; functions and arguments given by the user are numbers, None for a null function pointer; the callbacks and symbols of transforms are in ModelTransform.v; reading the settings
   from configurations is in ModelOptions.v. *)
From Verif Require Import ModelBytes ModelElen ModelConf ModelOptions.
Local Open Scope N_scope.

(* a function of the library, by name, or one of the user *)
Inductive fn := Named (n : bytes) | Given (f : N) | Nobody.
(* the settings in hxhim_private_t, include/hxhim/private/hxhim.hpp:54-152; the sets endpointgroup and names as lists; z_ds and z_tr: pointers to
   objects with their contents; the communicator is a number, 0 for MPI_COMM_NULL and for one that was never set *)
Record settings := mkSettings {
  z_comm : Z; z_debug : Z; z_client : N; z_server : N; z_per : N; z_open : bool; z_hists : bool * bool; z_name : bytes * bytes * bytes; z_ds : option (N * ds_config); z_hash : bytes * fn * N; z_tr : option (N * (tr_config * Z)); z_group : list Z; z_async : bool * N; z_ops : N; z_size : N; z_first : N; z_gen : fn * N; z_names : list bytes }.
Definition up_comm (s : settings) x := mkSettings x (z_debug s) (z_client s) (z_server s) (z_per s) (z_open s) (z_hists s) (z_name s) (z_ds s) (z_hash s) (z_tr s) (z_group s) (z_async s) (z_ops s) (z_size s) (z_first s) (z_gen s) (z_names s).
Definition up_debug (s : settings) x := mkSettings (z_comm s) x (z_client s) (z_server s) (z_per s) (z_open s) (z_hists s) (z_name s) (z_ds s) (z_hash s) (z_tr s) (z_group s) (z_async s) (z_ops s) (z_size s) (z_first s) (z_gen s) (z_names s).
Definition up_client (s : settings) x := mkSettings (z_comm s) (z_debug s) x (z_server s) (z_per s) (z_open s) (z_hists s) (z_name s) (z_ds s) (z_hash s) (z_tr s) (z_group s) (z_async s) (z_ops s) (z_size s) (z_first s) (z_gen s) (z_names s).
Definition up_server (s : settings) x := mkSettings (z_comm s) (z_debug s) (z_client s) x (z_per s) (z_open s) (z_hists s) (z_name s) (z_ds s) (z_hash s) (z_tr s) (z_group s) (z_async s) (z_ops s) (z_size s) (z_first s) (z_gen s) (z_names s).
Definition up_per (s : settings) x := mkSettings (z_comm s) (z_debug s) (z_client s) (z_server s) x (z_open s) (z_hists s) (z_name s) (z_ds s) (z_hash s) (z_tr s) (z_group s) (z_async s) (z_ops s) (z_size s) (z_first s) (z_gen s) (z_names s).
Definition up_open (s : settings) x := mkSettings (z_comm s) (z_debug s) (z_client s) (z_server s) (z_per s) x (z_hists s) (z_name s) (z_ds s) (z_hash s) (z_tr s) (z_group s) (z_async s) (z_ops s) (z_size s) (z_first s) (z_gen s) (z_names s).
Definition up_hists (s : settings) x := mkSettings (z_comm s) (z_debug s) (z_client s) (z_server s) (z_per s) (z_open s) x (z_name s) (z_ds s) (z_hash s) (z_tr s) (z_group s) (z_async s) (z_ops s) (z_size s) (z_first s) (z_gen s) (z_names s).
Definition up_name (s : settings) x := mkSettings (z_comm s) (z_debug s) (z_client s) (z_server s) (z_per s) (z_open s) (z_hists s) x (z_ds s) (z_hash s) (z_tr s) (z_group s) (z_async s) (z_ops s) (z_size s) (z_first s) (z_gen s) (z_names s).
Definition up_ds (s : settings) x := mkSettings (z_comm s) (z_debug s) (z_client s) (z_server s) (z_per s) (z_open s) (z_hists s) (z_name s) x (z_hash s) (z_tr s) (z_group s) (z_async s) (z_ops s) (z_size s) (z_first s) (z_gen s) (z_names s).
Definition up_hash (s : settings) x := mkSettings (z_comm s) (z_debug s) (z_client s) (z_server s) (z_per s) (z_open s) (z_hists s) (z_name s) (z_ds s) x (z_tr s) (z_group s) (z_async s) (z_ops s) (z_size s) (z_first s) (z_gen s) (z_names s).
Definition up_tr (s : settings) x := mkSettings (z_comm s) (z_debug s) (z_client s) (z_server s) (z_per s) (z_open s) (z_hists s) (z_name s) (z_ds s) (z_hash s) x (z_group s) (z_async s) (z_ops s) (z_size s) (z_first s) (z_gen s) (z_names s).
Definition up_group (s : settings) x := mkSettings (z_comm s) (z_debug s) (z_client s) (z_server s) (z_per s) (z_open s) (z_hists s) (z_name s) (z_ds s) (z_hash s) (z_tr s) x (z_async s) (z_ops s) (z_size s) (z_first s) (z_gen s) (z_names s).
Definition up_async (s : settings) x := mkSettings (z_comm s) (z_debug s) (z_client s) (z_server s) (z_per s) (z_open s) (z_hists s) (z_name s) (z_ds s) (z_hash s) (z_tr s) (z_group s) x (z_ops s) (z_size s) (z_first s) (z_gen s) (z_names s).
Definition up_ops (s : settings) x := mkSettings (z_comm s) (z_debug s) (z_client s) (z_server s) (z_per s) (z_open s) (z_hists s) (z_name s) (z_ds s) (z_hash s) (z_tr s) (z_group s) (z_async s) x (z_size s) (z_first s) (z_gen s) (z_names s).
Definition up_size (s : settings) x := mkSettings (z_comm s) (z_debug s) (z_client s) (z_server s) (z_per s) (z_open s) (z_hists s) (z_name s) (z_ds s) (z_hash s) (z_tr s) (z_group s) (z_async s) (z_ops s) x (z_first s) (z_gen s) (z_names s).
Definition up_first (s : settings) x := mkSettings (z_comm s) (z_debug s) (z_client s) (z_server s) (z_per s) (z_open s) (z_hists s) (z_name s) (z_ds s) (z_hash s) (z_tr s) (z_group s) (z_async s) (z_ops s) (z_size s) x (z_gen s) (z_names s).
Definition up_gen (s : settings) x := mkSettings (z_comm s) (z_debug s) (z_client s) (z_server s) (z_per s) (z_open s) (z_hists s) (z_name s) (z_ds s) (z_hash s) (z_tr s) (z_group s) (z_async s) (z_ops s) (z_size s) (z_first s) x (z_names s).
Definition up_names (s : settings) x := mkSettings (z_comm s) (z_debug s) (z_client s) (z_server s) (z_per s) (z_open s) (z_hists s) (z_name s) (z_ds s) (z_hash s) (z_tr s) (z_group s) (z_async s) (z_ops s) (z_size s) (z_first s) (z_gen s) x.
(* hxhim_private::hxhim_private, private.cpp:7-20, private/hxhim.hpp:141; debug_level is MLOG_DBG3 *)
Definition fresh : settings := mkSettings 0%Z 0x10000%Z 0 0 0 true (false, false) ([], [], []) None ([], Nobody, 0) None [] (false, 0) 0 0 0 (Nobody, 0) [].

(* hx is null, hx->p is null, or there are settings, of a session that runs or not *)
Inductive holder := NoHx | NoP | Has (running : bool) (s : settings).
(* y_live: the Datastore::Config and Transport::Options objects that are not destroyed *)
Record state := mkState { y_h : holder; y_next : N; y_live : list N }.
(* destruct of a pointer, include/utils/memory.hpp:22-25 *)
Definition free (p : option N) (live : list N) : outcome (list N) :=
  match p with None => Ok live | Some i => if existsb (N.eqb i) live then Ok (filter (fun j => negb (N.eqb j i)) live) else UB end.

Inductive setter :=
| SComm (c : Z) | SDebug (l : Z) | SClient (n : N) | SServer (n : N) | SPer (n : N) | SOpenInit (b : bool) | SHists (r w : bool)
| SName (prefix base post : option bytes) | SDs (c : ds_config) | SHash (name : option bytes) | SHashFun (name : option bytes) (f : option N) (args : N)
| STrNull | STrMpi (listeners : N) | STrThallium (module : option bytes) (threads : Z) | SAdd (id : Z) | SClear | SAsync (n : N) | SOps (n : N) | SSize (n : N)
| SFirst (n : N) | SGen (name : option bytes) | SGenFun (f : option N) (args : N) | STrack (name : bytes).

(* a setter that changes the settings: the test that all of them begin with; None: HXHIM_ERROR with nothing changed *)
Definition change (y : state) (f : settings -> outcome (bool * settings)) : outcome (bool * state) :=
  match y_h y with
  | Has false s => do (r, s') <- f s; Ok (r, mkState (Has false s') (y_next y) (y_live y))
  | _ => Ok (false, y)
  end.
Definition always (s : settings) : outcome (bool * settings) := Ok (true, s).
(* std::string of a C string *)
Definition str (p : option bytes) : outcome bytes := match p with Some b => Ok b | None => UB end.
(* hxhim_set_datastore, options.cpp:157-167, and its callers, 198-245 *)
Definition set_datastore (y : state) (c : ds_config) : outcome (bool * state) :=
  let id := y_next y in let live := id :: y_live y in
  match y_h y with
  | Has false s => do live' <- free (option_map fst (z_ds s)) live; Ok (true, mkState (Has false (up_ds s (Some (id, c)))) (id + 1) live')
  | _ => do live' <- free (Some id) live; Ok (false, mkState (y_h y) (id + 1) live')
  end.
(* hxhim_set_transport, options.cpp:338-348, and its callers, 357-413; comm: the communicator in the options of MPI *)
Definition set_transport (y : state) (c : tr_config) (comm : Z) : outcome (bool * state) :=
  let id := y_next y in let live := id :: y_live y in
  match y_h y with
  | Has false s => do live' <- free (option_map fst (z_tr s)) live; Ok (true, mkState (Has false (up_tr s (Some (id, (c, comm))))) (id + 1) live')
  | _ => do live' <- free (Some id) live; Ok (false, mkState (y_h y) (id + 1) live')
  end.
(* inserting into a std::set *)
Definition insert_id (l : list Z) (i : Z) : list Z := if existsb (Z.eqb i) l then l else i :: l.
(* the extra arguments of the generators, config.hpp:164-172 *)
Definition extra (n : bytes) : N :=
  if beqb n (bstr "10_BUCKETS") then 10 else if beqb n (bstr "UNIFORM_LOG2") then 2 else if beqb n (bstr "UNIFORM_LOG10") then 10 else 0.

Definition set_one (y : state) (c : setter) : outcome (bool * state) :=
  match c with
  | SComm z => change y (fun s => Ok (negb (z =? 0)%Z, up_comm s z))                                       (* 20-26 *)
  | SDebug l => change y (fun s => always (up_debug s l))                                                  (* 35-43 *)
  | SClient n => change y (fun s => if n <? 1 then Ok (false, s) else always (up_client s n))             (* 52-64 *)
  | SServer n => change y (fun s => if n <? 1 then Ok (false, s) else always (up_server s n))             (* 73-85 *)
  | SPer n => change y (fun s => if n =? 0 then Ok (false, s) else always (up_per s n))                   (* 95-107 *)
  | SOpenInit b => change y (fun s => always (up_open s b))                                                (* 117-125 *)
  | SHists r w => change y (fun s => always (up_hists s (r, w)))                                           (* 137-146 *)
  | SName p b q => change y (fun s => do p' <- str p; do b' <- str b; do q' <- str q; always (up_name s (p', b', q')))   (* 178-188 *)
  | SDs d => set_datastore y d
  | SHash n => change y (fun s => do n' <- str n; match assoc HASHES n' with Some _ => always (up_hash s (n', Named n', 0)) | None => Ok (false, s) end)   (* 258-274 *)
  | SHashFun n f a => change y (fun s => match f with None => Ok (false, s) | Some f' => do n' <- str n; always (up_hash s (n', Given f', a)) end)         (* 287-301 *)
  | STrNull => set_transport y TrNull 0%Z                                                                  (* 357-365 *)
  | STrMpi n => match y_h y with Has _ s => set_transport y (TrMpi n) (z_comm s) | _ => UB end             (* 375-383: hx->p is used before it is tested *)
  | STrThallium m n => do m' <- str m; set_transport y (TrThallium m' n) 0%Z                               (* 394-413 *)
  | SAdd i => change y (fun s => if (i <? 0)%Z then Ok (false, s) else always (up_group s (insert_id (z_group s) i)))   (* 425-437 *)
  | SClear => change y (fun s => always (up_group s []))                                                   (* 446-454 *)
  | SAsync n => change y (fun s => always (up_async s (negb (n =? 0), n)))                                 (* 464-473 *)
  | SOps n => change y (fun s => always (up_ops s n))                                                      (* 483-491 *)
  | SSize n => change y (fun s => always (up_size s n))                                                    (* 501-509 *)
  | SFirst n => change y (fun s => always (up_first s n))                                                  (* 519-527 *)
  | SGen n => change y (fun s => do n' <- str n; match assoc GENERATORS n' with Some _ => always (up_gen s (Named n', extra n')) | None => Ok (false, s) end)   (* 539-558 *)
  | SGenFun f a => change y (fun s => match f with None => Ok (false, s) | Some f' => always (up_gen s (Given f', a)) end)   (* 586-599 *)
  | STrack n => change y (fun s => always (up_names s (add_name (z_names s) n)))                           (* 620-627 *)
  end.
Fixpoint set_all (y : state) (l : list setter) : outcome (list bool * state) :=
  match l with [] => Ok ([], y) | c :: l' => do (r, y1) <- set_one y c; do (rs, y2) <- set_all y1 l'; Ok (r :: rs, y2) end.

(* ---- the life of a session, as far as the settings are concerned ---- *)
Inductive event := EInit | ESet (c : setter) | EOpen | EClose.
Definition occur (y : state) (e : event) : outcome state :=
  match e with
  (* Init, hxhim.cpp:55-72: an existing hx->p is overwritten *)
  | EInit => match y_h y with NoHx => Ok y | _ => Ok (mkState (Has false fresh) (y_next y) (y_live y)) end
  | ESet c => do (r, y') <- set_one y c; Ok y'
  (* Open, hxhim.cpp:96-165, when it succeeds: the session runs *)
  | EOpen => match y_h y with Has _ s => Ok (mkState (Has true s) (y_next y) (y_live y)) | _ => UB end
  (* Close, hxhim.cpp:231-272: Transport::destroy, transports.cpp:45-55, Datastore::destroy, datastores.cpp:139-154 *)
  | EClose => match y_h y with
              | Has _ s => do l1 <- free (option_map fst (z_tr s)) (y_live y); do l2 <- free (option_map fst (z_ds s)) l1; Ok (mkState NoP (y_next y) l2)
              | _ => Ok y
              end
  end.
Fixpoint happen (y : state) (l : list event) : outcome state :=
  match l with [] => Ok y | e :: l' => do y' <- occur y e; happen y' l' end.
