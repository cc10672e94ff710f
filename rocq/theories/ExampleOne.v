(* Two clients with BPUTs of one type; at most two PUTs wait *)
From Verif Require Import ModelBytes ProofBytes ModelKey ModelWire ModelHist ModelMsg SpecMsg ModelStore ModelGetOp ModelDs
  SpecStore ProofDs ModelElen ModelRoute SpecRoute ModelClient SpecClient SpecCluster ProofCluster ProofCluster2 ExampleStore ExampleClient ProofTyped ProofTyped2
  SpecGetOp SpecScan SpecMixed SpecMixed3 SpecOne ProofOne SpecTyped SpecStore.
Local Open Scope N_scope.

Definition oe (r : Z) : env := mkEnv xl 2 r h_jen 2 0 2 false (Some (tl_route xl r [])) (@rev _).
Lemma oe_setting r : (0 <= r < 2)%Z -> setting (oe r).
Proof. intros H. constructor; [exact xl_good|reflexivity|exact H|reflexivity|]. intros l. apply Permutation_sym, Permutation_rev. Qed.
Lemma oe_client r : (0 <= r < 2)%Z -> good_client (oe r).
Proof. intro H. destruct (xe_client r H) as (_ & B & C & D). split; [apply oe_setting, H|]. split; [exact B|]. split; [exact C|exact D]. Qed.
Lemma oe_same r : same_cluster (oe 0) (oe r).
Proof. exact (xe_same 0 r). Qed.
Lemma ocl_holds k : holds (oe 0) (xcl k) (fun _ => opened k ex_codec).
Proof. exact (xcl_holds k 0%Z). Qed.
Definition ab_put : call := CBPutOne true T_BYTE (Some [(xa 1 "a", xa 2 "b", xa 3 "c", 1)]).
Definition ab_again : call := CBPutOne true T_BYTE (Some [(xa 1 "a", xa 2 "b", xa 4 "d", 1)]).
Definition ab_ask : call := CGet (xa 1 "a") (xa 2 "b") T_BYTE.
(* the second BPUT stores both *)
Definition ones : list (Z * move) :=
  [(0, Say ab_put); (1, Say ab_ask); (1, Send (Some Gets)); (0, Say ab_again); (1, Say ab_ask); (1, Send None); (0, Say ab_put); (0, Send None); (1, Say ab_ask); (1, Send None)]%Z.
Lemma ones_clients : forall i, In i (map fst ones) -> good_client (oe i) /\ same_cluster (oe 0) (oe i) /\ fresh (oe i) (opened_session (oe i)) /\ s_count (opened_session (oe i)) = 0.
Proof.
  intros i Hi. assert (0 <= i < 2)%Z by (cbn [ones map fst In] in Hi; lia). split; [apply oe_client; assumption|]. split; [apply oe_same|]. split; [split; reflexivity|reflexivity].
Qed.
Lemma ones_any : Forall (any_move ex_codec) ones.
Proof.
  assert (G : any_move ex_codec (1, Say ab_ask)%Z) by (cbn [any_move snd spelled ab_ask obj_call]; xargs; reflexivity).
  assert (A : any_move ex_codec (0, Say ab_put)%Z).
  { cbn [any_move snd spelled ab_put obj_call map]. constructor; [|constructor]. split; [xargs|]. split; [xargs|]. split; [apply good_arg_obj; xargs|left; reflexivity]. }
  assert (B : any_move ex_codec (0, Say ab_again)%Z).
  { cbn [any_move snd spelled ab_again obj_call map]. constructor; [|constructor]. split; [xargs|]. split; [xargs|]. split; [apply good_arg_obj; xargs|left; reflexivity]. }
  unfold ones. repeat (constructor; [first [exact A | exact B | exact G | exact Logic.I]|]). constructor.
Qed.
Lemma ones_apart : all_apart oe (fun _ => idle) ones.
Proof. apply all_apart_one. intros i Hi. assert (0 <= i < 2)%Z by (cbn [ones map fst In] in Hi; lia). split; [apply oe_setting; assumption|reflexivity]. Qed.
Definition ones_run (k : backend) : outcome (list (list result)) := do (_, rs) <- moves oe (fun i => opened_session (oe i)) (xcl k) ones; Ok rs.
Definition o_r (a : N) : ref := mkRef a 1 T_BYTE.
Lemma ones_ran k : ones_run k = Ok [[XGet 1 false (o_r 1) (o_r 2) blob_none]; [XGet 1 true (o_r 1) (o_r 2) (mkBlob false (bstr "d") T_BYTE)];
  [XPut 1 true (o_r 1) (o_r 2)]; [XGet 1 true (o_r 1) (o_r 2) (mkBlob false (bstr "c") T_BYTE)]].
Proof. destruct k; vm_compute; reflexivity. Qed.
