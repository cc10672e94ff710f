(* A session after Close *)
From Verif Require Import ModelBytes ProofBytes ModelKey ModelWire ModelHist ModelMsg ModelStore ModelGetOp ModelDs ModelRoute ModelClient ProofStore.
Local Open Scope N_scope.

Lemma drained_none {A} (qs : list (list (list A))) : Forall (fun q => q = []) (drained qs).
Proof. apply Forall_map, Forall_forall. reflexivity. Qed.
Lemma close_ends e s cl s' cl' : close e s cl = Ok (s', cl') ->
  (forall x cl2, do_call e s' cl2 x = Ok (s', cl2, false)) /\ (forall cl2, sync e s' cl2 = Ok (s', cl2, None)) /\ s_kept s' = [] /\
  Forall (fun q => q = []) (q_puts (s_qs s')) /\ Forall (fun q => q = []) (q_gets (s_qs s')) /\ Forall (fun q => q = []) (q_getops (s_qs s')) /\
  Forall (fun q => q = []) (q_dels (s_qs s')) /\ Forall (fun q => q = []) (q_hists (s_qs s')).
Proof.
  unfold close. intro H. obind H a Ea. destruct a as [[a1 a2] a3]. obind H b Eb. apply Ok_inj in H. injection H as <- _. cbn [s_qs s_kept q_puts q_gets q_getops q_dels q_hists].
  split; [intros x cl2; reflexivity|]. split; [intros cl2; reflexivity|]. split; [reflexivity|]. repeat (split; [apply drained_none|]). apply drained_none.
Qed.
