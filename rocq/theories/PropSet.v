(* C91 Options: every option has the value that was given last, and refused calls change nothing *)
From Verif Require Import ModelBytes ModelElen ModelConf ModelOptions ModelSet SpecSet ProofSet ExampleSet.
Local Open Scope N_scope.

(* Before Open every call is answered with success exactly when its arguments are proper, and afterwards every option has the value of the
   last call that was answered with success, whatever the others were and wherever they came; refused calls change nothing *)
Theorem C91_latest : forall e y s l, all_orderly nothing_yet e -> happen nothing_yet e = Ok y -> y_h y = Has false s ->
  Forall no_null l -> ~ In (SComm 0%Z) l ->
  exists rs y' s', set_all y l = Ok (rs, y') /\ y_h y' = Has false s' /\ Forall2 (fun c r => r = true <-> proper c) l rs /\
    after s s' (answered l rs) /\ sets_after s s' (answered l rs) /\ async_agrees s'.
Proof.
  intros e y s l O E Hs N C. destruct (lived e y O E) as (T & A). unfold agrees in A. rewrite Hs in A.
  destruct (all l y s T Hs N C A) as (rs & y' & s' & R). exists rs, y', s'. tauto.
Qed.
Print Assumptions C91_latest.
Example C91_latest_ex : all_orderly nothing_yet xset /\ (exists y s, happen nothing_yet xset = Ok y /\ y_h y = Has false s) /\
  Forall no_null xsetters /\ ~ In (SComm 0%Z) xsetters /\
  (exists y rs y' s', happen nothing_yet xset = Ok y /\ set_all y xsetters = Ok (rs, y') /\ y_h y' = Has false s' /\
     rs = [true; true; true; true; false; true; false; true; false; true; true; true] /\ z_client s' = 4 /\ z_group s' = [5%Z] /\ fst (fst (z_hash s')) = bstr "SUM_MOD_DATASTORES").
Proof.
  split; [ exact xset_orderly |]. split; [ eexists; eexists; split; vm_compute; reflexivity |].
  split; [ exact (proj1 xsetters_fine) |]. split; [ exact (proj2 xsetters_fine) |].
  eexists. eexists. eexists. eexists. split; [ vm_compute; reflexivity |]. split; [ vm_compute; reflexivity |]. repeat split.
Qed.

(* Options that are not set after Init are 0 or off, except that datastores are opened and everything is logged: nothing stands in for the
   ratios, for the datastores of a server and for their kind *)
Theorem C91_unset : forall l, Forall no_null l -> ~ In (SComm 0%Z) l ->
  exists y rs y' s', happen nothing_yet [EInit] = Ok y /\ set_all y l = Ok (rs, y') /\ y_h y' = Has false s' /\
  ((forall n, ~ In (SClient n) l) -> z_client s' = 0) /\ ((forall n, ~ In (SServer n) l) -> z_server s' = 0) /\
  ((forall n, ~ In (SPer n) l) -> z_per s' = 0) /\ ((forall d, ~ In (SDs d) l) -> option_map snd (z_ds s') = None) /\
  ((forall n, ~ In (SDebug n) l) -> z_debug s' = 65536%Z) /\ ((forall b, ~ In (SOpenInit b) l) -> z_open s' = true) /\
  ((forall r w, ~ In (SHists r w) l) -> z_hists s' = (false, false)) /\ ((forall n, ~ In (SAsync n) l) -> snd (z_async s') = 0) /\
  ((forall n, ~ In (SOps n) l) -> z_ops s' = 0) /\ ((forall n, ~ In (SSize n) l) -> z_size s' = 0) /\ ((forall n, ~ In (SFirst n) l) -> z_first s' = 0).
Proof.
  intros l N C. destruct start_tidy as (T0 & A0). destruct (happen_tidy [EInit] _ T0 A0) as (y & E & T & _).
  { cbn [all_orderly orderly nothing_yet y_h]. split; [ exact Logic.I | intros y' _; exact Logic.I ]. }
  assert (Hy : y_h y = Has false fresh) by (vm_compute in E; injection E as <-; reflexivity).
  destruct (all l y fresh T Hy N C eq_refl) as (rs & y' & s' & E1 & H1 & _ & _ & _ & A & _).
  exists y, rs, y', s'. split; [ exact E |]. split; [ exact E1 |]. split; [ exact H1 |]. exact (unset fresh s' l rs A).
Qed.
Print Assumptions C91_unset.
Example C91_unset_ex : Forall no_null xsetters /\ ~ In (SComm 0%Z) xsetters /\ (forall n, ~ In (SServer n) xsetters).
Proof.
  split; [ exact (proj1 xsetters_fine) |]. split; [ exact (proj2 xsetters_fine) |].
  intros n H. cbn in H. repeat (destruct H as [H | H]; [ discriminate H |]). exact H.
Qed.

(* Sessions that run, and (but for hxhim_set_transport_mpi) sessions that do not exist, refuse every call and stay as they are *)
Theorem C91_refused : forall e y c, all_orderly nothing_yet e -> happen nothing_yet e = Ok y -> no_null c ->
  match y_h y with Has r _ => r = true | _ => forall n, c <> STrMpi n end ->
  exists y', set_one y c = Ok (false, y') /\ y_h y' = y_h y /\ kept y'.
Proof.
  intros e y c O E N H. destruct (refused y c (proj1 (lived e y O E)) N H) as (y' & R & Hh & (K & _)). exists y'. auto.
Qed.
Print Assumptions C91_refused.
Example C91_refused_ex : all_orderly nothing_yet (xset ++ [EOpen]) /\ (exists y s, happen nothing_yet (xset ++ [EOpen]) = Ok y /\ y_h y = Has true s) /\ no_null (SDs DsMemory).
Proof.
  split; [| split; [ eexists; eexists; split; vm_compute; reflexivity | exact Logic.I ] ].
  cbn [xset app all_orderly].
  repeat (split; [ cbn; exact Logic.I | let w := fresh in let E := fresh in intros w E; vm_compute in E; injection E as <- ]). exact Logic.I.
Qed.

(* The objects with the settings of datastore and transport are destroyed exactly once: those in use are the ones the session points to,
   whatever was set, refused, opened and closed, and after Close there are none *)
Theorem C91_objects : forall e, all_orderly nothing_yet e -> exists y, happen nothing_yet e = Ok y /\ kept y.
Proof. intros e O. destruct start_tidy as (T & A). destruct (happen_tidy e _ T A O) as (y & E & (K & _) & _). exists y. auto. Qed.
Print Assumptions C91_objects.
Example C91_objects_ex : all_orderly nothing_yet xset /\ (exists y, happen nothing_yet xset = Ok y /\ length (y_live y) = 2%nat).
Proof. split; [ exact xset_orderly |]. eexists. split; vm_compute; reflexivity. Qed.
Theorem C91_closed : forall e y, all_orderly nothing_yet e -> happen nothing_yet e = Ok y -> y_h y <> NoHx -> exists y', occur y EClose = Ok y' /\ y_live y' = [].
Proof.
  intros e y O E H. destruct (lived e y O E) as (T & A). destruct (occur_tidy y EClose T A Logic.I) as (y' & E' & _ & _ & L). exists y'. auto.
Qed.
Print Assumptions C91_closed.
Example C91_closed_ex : all_orderly nothing_yet xset /\ (exists y, happen nothing_yet xset = Ok y /\ y_h y <> NoHx /\ y_live y <> []).
Proof. split; [ exact xset_orderly |]. eexists. split; [ vm_compute; reflexivity |]. split; discriminate. Qed.

(* MPI_COMM_NULL is answered with HXHIM_ERROR and stored nevertheless *)
Theorem C91_comm_refuted : forall y s, y_h y = Has false s -> exists y' s', set_one y (SComm 0%Z) = Ok (false, y') /\ y_h y' = Has false s' /\ z_comm s' = 0%Z.
Proof. intros y s E. cbn [set_one]. unfold change. rewrite E. eexists. eexists. split; [ reflexivity |]. split; reflexivity. Qed.
Print Assumptions C91_comm_refuted.
Example C91_comm_refuted_ex : exists y s, happen nothing_yet xset = Ok y /\ y_h y = Has false s /\ z_comm s = 1%Z.
Proof. eexists. eexists. split; [ vm_compute; reflexivity |]. split; reflexivity. Qed.

(* The options of the transport MPI keep the communicator of the moment: setting another one afterwards does not reach them *)
Theorem C91_stale_refuted : forall e y s n c, all_orderly nothing_yet e -> happen nothing_yet e = Ok y -> y_h y = Has false s -> c <> 0%Z ->
  exists y' s' i, set_all y [STrMpi n; SComm c] = Ok ([true; true], y') /\ y_h y' = Has false s' /\ z_comm s' = c /\ z_tr s' = Some (i, (TrMpi n, z_comm s)).
Proof. intros e y s n c O E. exact (stale y s n c (proj1 (lived e y O E))). Qed.
Print Assumptions C91_stale_refuted.
Example C91_stale_refuted_ex : all_orderly nothing_yet xset /\ (exists y s, happen nothing_yet xset = Ok y /\ y_h y = Has false s /\ z_comm s <> 7%Z).
Proof. split; [ exact xset_orderly |]. eexists. eexists. split; [ vm_compute; reflexivity |]. split; [ reflexivity | discriminate ]. Qed.

(* hxhim_set_transport_mpi reads the session before it tests for it; null pointers for strings are not tested for at all *)
Theorem C91_null_refuted : forall n h, (h = NoHx \/ h = NoP) -> set_one (mkState h 0 []) (STrMpi n) = UB /\ (forall t, set_one (mkState h 0 []) (STrThallium None t) = UB).
Proof. intros n h [-> | ->]; split; reflexivity. Qed.
Print Assumptions C91_null_refuted.
Theorem C91_string_refuted : forall y s, y_h y = Has false s -> set_one y (SHash None) = UB /\ set_one y (SGen None) = UB /\ (forall b q, set_one y (SName None b q) = UB).
Proof. intros y s E. cbn [set_one]. unfold change. rewrite E. repeat split. Qed.
Print Assumptions C91_string_refuted.
Example C91_string_refuted_ex : exists y s, happen nothing_yet xset = Ok y /\ y_h y = Has false s.
Proof. eexists. eexists. split; [ vm_compute; reflexivity |]. reflexivity. Qed.

(* Init of a session that exists loses its objects: not even Close destroys them *)
Theorem C91_again_refuted : exists y, happen nothing_yet (xset ++ [EInit; EClose]) = Ok y /\ length (y_live y) = 2%nat.
Proof. eexists. split; vm_compute; reflexivity. Qed.
Print Assumptions C91_again_refuted.
