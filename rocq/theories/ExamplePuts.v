(* puts.c on two ranks, two rounds of two triples *)
From Verif Require Import ModelBytes ProofBytes ModelKey ModelWire ModelHist ModelMsg SpecMsg ModelStore ModelGetOp ModelDs
  SpecStore ProofStore ProofDs ModelElen ModelTransform ModelFloat ModelRoute SpecRoute ModelClient SpecClient SpecCluster ExampleClient
  SpecScan ModelTyped ProofFpLibm ExampleFloat ExampleTyped SpecMixed SpecMixed3 SpecOne ProofOne ExampleOne ModelLowest ProofTemps SpecHx ExampleHx ModelPuts SpecPuts ProofPuts.
From Verif Require Import SpecFp SpecTyped SpecCluster.
Local Open Scope N_scope.

Definition pm (r : Z) : puts_memory := mkPm (fun t i => 100 + 10 * t + i) (fun t i => 200 + 10 * t + i) (fun t i => 300 + 10 * t + i).
Definition prnd (r : Z) (i : N) : N := i * i + 3 * i + Z.to_N r.
Definition pprog (r : Z) : list (Z * move) := map (pair r) (puts_moves (pm r) (prnd r) 2 2).
Definition pl : list (Z * move) := turns (pprog 0) (pprog 1).
Lemma pl_runs : ranks_run [0; 1]%Z (fun r => Ok (puts_moves (pm r) (prnd r) 2 2)) pl.
Proof.
  split.
  - intros r [<-|[<-|[]]]; (eexists; split; [reflexivity|vm_compute; reflexivity]).
  - assert (F : forallb (fun m => (fst m =? 0) || (fst m =? 1))%Z pl = true) by (vm_compute; reflexivity).
    intros m Hm. rewrite forallb_forall in F. specialize (F m Hm). apply orb_true_iff in F as [F|F]; apply Z.eqb_eq in F; rewrite F; [left|right; left]; reflexivity.
Qed.
Lemma pm_good r : good_places (pm r) 2 2.
Proof. intros t i Ht Hi. unfold good_place. cbn [pm pm_subject pm_predicate pm_object]. repeat split; lia. Qed.
Lemma pranks r : In r [0; 1]%Z -> good_client (oe r) /\ same_cluster (oe 0) (oe r) /\ fresh (oe r) (opened_session (oe r)) /\ s_count (opened_session (oe r)) = 0 /\ good_places (pm r) 2 2.
Proof.
  intros H. assert (0 <= r < 2)%Z by (cbn [In] in H; lia). split; [apply oe_client; assumption|]. split; [apply oe_same|]. split; [split; reflexivity|]. split; [reflexivity|apply pm_good].
Qed.
Lemma pcl_holds k : holds (oe 0) (ncl k) (fun _ => opened k ncodec).
Proof. exact (ncl_holds k 0%Z). Qed.
(* rank 0 asks for a pair of rank 1 and for one that was not made *)
Definition pq : list (arg * arg * N) :=
  [(mkArg 500 (f_data (its_subject (prnd 1) 2 1 0)) T_BYTE, mkArg 600 (f_data (its_predicate (prnd 1) 2 1 0)) T_BYTE, T_BYTE); (mkArg 501 (bstr "no") T_BYTE, mkArg 601 (bstr "such") T_BYTE, T_BYTE)].
Lemma pq_good : Forall good_question pq.
Proof. repeat constructor; try discriminate; vm_compute; reflexivity. Qed.
Lemma p_apart l : (forall m, In m l -> In (fst m) [0; 1]%Z) -> all_apart oe (fun _ => idle) l.
Proof.
  intro H. apply all_apart_one. intros i Hi. apply in_map_iff in Hi as (m & <- & Hm). specialize (H m Hm). assert (0 <= fst m < 2)%Z by (cbn [In] in H; lia).
  split; [apply oe_setting; assumption|reflexivity].
Qed.
Lemma pl_apart : all_apart oe (fun _ => idle) (pl ++ then_ask 0 pq).
Proof.
  apply p_apart. intros m Hm. apply in_app_or in Hm as [Hm|[<-|[<-|[]]]]; [exact (proj2 pl_runs m Hm)| |]; left; reflexivity.
Qed.
Definition p_last (k : backend) : option (list result) :=
  match moves oe (fun r => opened_session (oe r)) (ncl k) (pl ++ then_ask 0 pq) with Ok (_, rs) => Some (last rs []) | _ => None end.
Definition p_sorted (xs : list result) : list (bool * bytes) := map (fun x => match x with XGet _ ok _ _ o => (ok, b_data o) | _ => (false, []) end) xs.
Lemma p_ran k : option_map p_sorted (p_last k) = Some [(true, f_data (its_object (prnd 1) 2 1 0)); (false, [])] \/ option_map p_sorted (p_last k) = Some [(false, []); (true, f_data (its_object (prnd 1) 2 1 0))].
Proof. destruct k; vm_compute; auto. Qed.
(* rand starts the same way on both *)
Definition pl0 : list (Z * move) := turns (map (pair 0%Z) (puts_moves (pm 0) (prnd 0) 2 2)) (map (pair 1%Z) (puts_moves (pm 1) (prnd 0) 2 2)).
Lemma pl0_runs : ranks_run [0; 1]%Z (fun r => Ok (puts_moves (pm r) (prnd 0) 2 2)) pl0.
Proof.
  split.
  - intros r [<-|[<-|[]]]; (eexists; split; [reflexivity|vm_compute; reflexivity]).
  - assert (F : forallb (fun m => (fst m =? 0) || (fst m =? 1))%Z pl0 = true) by (vm_compute; reflexivity).
    intros m Hm. rewrite forallb_forall in F. specialize (F m Hm). apply orb_true_iff in F as [F|F]; apply Z.eqb_eq in F; rewrite F; [left|right; left]; reflexivity.
Qed.
Lemma pl0_apart : all_apart oe (fun _ => idle) (pl0 ++ then_ask 0 pq).
Proof.
  apply p_apart. intros m Hm. apply in_app_or in Hm as [Hm|[<-|[<-|[]]]]; [exact (proj2 pl0_runs m Hm)| |]; left; reflexivity.
Qed.
