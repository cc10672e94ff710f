From Verif Require Import ModelBytes ModelElen ModelConf ModelOptions ModelSet SpecSet.
Local Open Scope N_scope.

(* a session that is initialized and gets a datastore and a transport twice *)
Definition xset : list event :=
  [EInit; ESet (SComm 1); ESet (SDs DsMemory); ESet (STrMpi 2); ESet (SDs (DsLevel true)); ESet STrNull; ESet (SClient 0)].
Lemma xset_orderly : all_orderly nothing_yet xset.
Proof.
  unfold xset. cbn [all_orderly].
  repeat (split; [ cbn; exact Logic.I | let w := fresh in let E := fresh in intros w E; vm_compute in E; injection E as <- ]). exact Logic.I.
Qed.
Definition xsetters : list setter :=
  [SClient 4; SHash (Some (bstr "SUM_MOD_DATASTORES")); SAdd 3; SClear; SAdd (-1); SAdd 5; SHash (Some (bstr "MD5")); STrack (bstr "temp"); SClient 0; SPer 2; SAsync 7; SGen (Some (bstr "UNIFORM_LOG2"))].
Lemma xsetters_fine : Forall no_null xsetters /\ ~ In (SComm 0%Z) xsetters.
Proof.
  split; [ repeat constructor; cbn; try exact Logic.I; discriminate |].
  cbn. intros H. repeat (destruct H as [H | H]; [ discriminate H |]). exact H.
Qed.
