(* A session with the background PUT thread: its two threads, and the requests that they send *)
From Verif Require Import ModelBytes ProofBytes ModelKey ModelWire ModelHist ModelMsg SpecMsg ModelStore ModelGetOp ModelDs
  ProofStore ModelElen ModelRoute SpecRoute ModelClient SpecClient SpecCluster ProofClient SpecScan ModelPar SpecPar ProofPar3 ProofPar4
  ModelAsync SpecAsync ProofAsync ProofAsync4 ModelBack SpecStore SpecBack ProofBack.
Local Open Scope N_scope.

(* ---- runs of requests ---- *)
Lemma prun_app E : forall l1 st l2, ModelPar.run E st (l1 ++ l2) = do (st1, h1) <- ModelPar.run E st l1; do (st2, h2) <- ModelPar.run E st1 l2; Ok (st2, h1 ++ h2).
Proof.
  induction l1 as [|l l1 IH]; intros st l2; cbn [ModelPar.run app obind].
  - destruct (ModelPar.run E st l2) as [[a b]| |]; reflexivity.
  - destruct (ModelPar.step E st l) as [[st1 h1]| |]; cbn [obind]; [|reflexivity|reflexivity]. rewrite IH.
    destruct (ModelPar.run E st1 l1) as [[st2 h2]| |]; cbn [obind]; [|reflexivity|reflexivity].
    destruct (ModelPar.run E st2 l2) as [[st3 h3]| |]; cbn [obind]; [|reflexivity|reflexivity]. rewrite app_assoc. reflexivity.
Qed.
Lemma prun_one E st l : ModelPar.run E st [l] = ModelPar.step E st l.
Proof. cbn [ModelPar.run]. destruct (ModelPar.step E st l) as [[a b]| |]; cbn [obind]; [rewrite app_nil_r|..]; reflexivity. Qed.
Lemma brun_app g E m t : forall l1 w l2, brun g E m t w (l1 ++ l2) = do (w1, h1) <- brun g E m t w l1; do (w2, h2) <- brun g E m t w1 l2; Ok (w2, h1 ++ h2).
Proof.
  induction l1 as [|l l1 IH]; intros st l2; cbn [brun app obind].
  - destruct (brun g E m t st l2) as [[a b]| |]; reflexivity.
  - destruct (bstep g E m t st l) as [[st1 h1]| |]; cbn [obind]; [|reflexivity|reflexivity]. rewrite IH.
    destruct (brun g E m t st1 l1) as [[st2 h2]| |]; cbn [obind]; [|reflexivity|reflexivity].
    destruct (brun g E m t st2 l2) as [[st3 h3]| |]; cbn [obind]; [|reflexivity|reflexivity]. rewrite app_assoc. reflexivity.
Qed.
Lemma brun_one g E m t w x : brun g E m t w [x] = bstep g E m t w x.
Proof. cbn [brun]. destruct (bstep g E m t w x) as [[a b]| |]; cbn [obind]; [rewrite app_nil_r|..]; reflexivity. Qed.
Lemma arun_app g : forall l1 s l2, ModelAsync.run g s (l1 ++ l2) = ModelAsync.run g (ModelAsync.run g s l1) l2.
Proof. induction l1 as [|x l1 IH]; intros s l2; [reflexivity|]. cbn [app ModelAsync.run]. apply IH. Qed.
Lemma reach_run g p s l : reach g p s -> reach g p (ModelAsync.run g s l).
Proof. intros [l0 ->]. exists (l0 ++ l). rewrite arun_app. reflexivity. Qed.
Lemma reach_turn g p s x s' : reach g p s -> turn g s x = Some s' -> reach g p s'.
Proof. intros R H. replace s' with (ModelAsync.run g s [x]); [apply reach_run, R|]. cbn [ModelAsync.run]. rewrite H. reflexivity. Qed.

(* ---- PUTs as calls ---- *)
Lemma good_call c o : good_op c o -> data_call c (call_of o).
Proof.
  destruct o as [i [s sa p pa x]]. unfold good_op, call_of. cbn [o_put]. intros (H1 & H2 & H3 & H4). rewrite H4. split; [exact H1|]. split; assumption.
Qed.
Lemma call_only e o : exists a, flat_map (call_puts e) [call_of o] = a /\ call_gets (call_of o) = [] /\ call_getops (call_of o) = [] /\ call_dels (call_of o) = [] /\ call_hists e (call_of o) = [].
Proof. destruct o as [i [s sa p pa x]]. eexists. split; [reflexivity|]. repeat split; reflexivity. Qed.
Lemma calls_only e l : flat_map call_gets (map call_of l) = [] /\ flat_map call_getops (map call_of l) = [] /\ flat_map call_dels (map call_of l) = [] /\ flat_map (call_hists e) (map call_of l) = [].
Proof.
  induction l as [|o l (A & B & C & D)]; [auto|]. destruct (call_only e o) as (_ & _ & A1 & B1 & C1 & D1). cbn [map flat_map]. rewrite A, B, C, D, A1, B1, C1, D1. auto.
Qed.
Lemma puts_to_incl e id l l' : incl l l' -> puts_to e id (map call_of l') = [] -> puts_to e id (map call_of l) = [].
Proof.
  intros I X. destruct (puts_to e id (map call_of l)) as [|z zs] eqn:F; [reflexivity|]. exfalso.
  assert (Hz : In z (puts_to e id (map call_of l))) by (rewrite F; left; reflexivity). unfold puts_to in *. apply map_eq_nil in X. apply in_map_iff in Hz as (q & _ & Hq). apply filter_In in Hq as (Hq & Hg).
  apply in_flat_map in Hq as (y & Hy & Hq). apply in_map_iff in Hy as (o & <- & Ho).
  assert (Y : In q []); [|destruct Y]. rewrite <- X. apply filter_In. split; [|exact Hg]. apply in_flat_map. exists (call_of o). split; [apply in_map, I, Ho|exact Hq].
Qed.
Lemma batch_spread e l l' : one_per_rank e (fun id => puts_to e id (map call_of l') <> []) -> incl l l' -> spread e (map call_of l).
Proof.
  intros H I. destruct (calls_only e l) as (A & B & C & D). unfold spread, gets_to, getops_to, dels_to, hists_to. rewrite A, B, C, D.
  split; [|repeat split; intros i j _ _ X; exfalso; apply X; reflexivity].
  intros i j Hi Hj Ui Uj. apply (H i j Hi Hj); intros X; [apply Ui|apply Uj]; eapply puts_to_incl; eassumption.
Qed.
Lemma batch_ok E k c i l p : good_program c (E i) p -> incl l (all_puts p) -> label_ok E k c (LCall i (map call_of l)).
Proof.
  intros [G Sp] I. assert (D : Forall (data_call c) (map call_of l)).
  { apply Forall_forall. intros x Hx. apply in_map_iff in Hx as (o & <- & Ho). rewrite Forall_forall in G. apply good_call, G, I, Ho. }
  destruct (data_scans (E i) k c _ D) as [A B]. split; [exact A|]. split; [exact B|]. eapply batch_spread; eassumption.
Qed.
