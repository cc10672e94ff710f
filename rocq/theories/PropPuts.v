(* C89: the example puts.c *)
From Verif Require Import ModelBytes ModelKey ModelWire ModelHist ModelMsg SpecMsg ModelStore ModelGetOp ModelDs SpecStore ProofDs ModelElen ModelTransform ModelFloat ModelRoute SpecRoute
  ModelClient SpecClient SpecCluster ProofFpLibm ExampleFloat ExampleTyped SpecMixed SpecMixed3 SpecOne ProofOne ExampleOne ModelLowest SpecHx ModelPuts SpecPuts ProofPuts ProofPuts2 ProofPuts3 ExamplePuts.
From Verif Require Import SpecFp SpecTyped SpecCluster.
Local Open Scope N_scope.

(* Any number of ranks run the program, in any order; then one of them asks for pairs. The cluster has an object of every pair that some rank made, one that
   was made with the pair, and no other pair. Missing: flushes that use two datastores of the same other rank (C33) *)
Theorem C89_puts_partial : forall L u E k e0 S cl h rnd n times ranks l j asked,
  (forall r, In r ranks -> good_client (E r) /\ same_cluster e0 (E r) /\ fresh (E r) (S r) /\ s_count (S r) = 0 /\ good_places (h r) n times) ->
  holds e0 cl (fun _ => opened k (session L u)) -> ranks_run ranks (fun r => Ok (puts_moves (h r) (rnd r) n times)) l -> In j ranks -> Forall good_question asked ->
  all_apart E (fun _ => idle) (l ++ then_ask j asked) ->
  exists cl' rs r M, moves E S cl (l ++ then_ask j asked) = Ok (cl', rs ++ [r]) /\ holds_made ranks rnd n times M /\ Permutation r (map (get_result (E j) M) asked).
Proof.
  intros L u E k e0 S cl h rnd n times ranks l j asked HE Hc HR Hj Hq HA.
  apply (puts_run L u E h rnd n times ranks) with (k := k) (e0 := e0); try assumption; intros r Hr; destruct (HE r Hr) as (A & B & C & D & F); auto.
Qed.
Print Assumptions C89_puts_partial.
Example C89_example : forall k,
  (forall r, In r [0; 1]%Z -> good_client (oe r) /\ same_cluster (oe 0) (oe r) /\ fresh (oe r) (opened_session (oe r)) /\ s_count (opened_session (oe r)) = 0 /\ good_places (pm r) 2 2) /\
  holds (oe 0) (ncl k) (fun _ => opened k (session exact_libm u_d)) /\ ranks_run [0; 1]%Z (fun r => Ok (puts_moves (pm r) (prnd r) 2 2)) pl /\ Forall good_question pq /\
  all_apart oe (fun _ => idle) (pl ++ then_ask 0 pq).
Proof. intro k. split; [exact pranks|]. split; [apply pcl_holds|]. split; [exact pl_runs|]. split; [exact pq_good|exact pl_apart]. Qed.

(* One rank alone: of every pair, the cluster has the object that was made last. *)
Theorem C89_alone_partial : forall L u E h rnd n times k e0 S cl r asked,
  good_client (E r) -> good_places h n times -> same_cluster e0 (E r) -> fresh (E r) (S r) -> s_count (S r) = 0 ->
  holds e0 cl (fun _ => opened k (session L u)) -> Forall good_question asked -> let l := map (pair r) (puts_moves h rnd n times) ++ then_ask r asked in all_apart E (fun _ => idle) l ->
  exists cl' rs x M, moves E S cl l = Ok (cl', rs ++ [x]) /\ (forall s p, M s p = last_made rnd n times s p) /\ Permutation x (map (get_result (E r) M) asked).
Proof. exact puts_alone. Qed.
Print Assumptions C89_alone_partial.
Example C89_alone_example : all_apart oe (fun _ => idle) (map (pair 1%Z) (puts_moves (pm 1) (fun _ => 65) 2 2) ++ then_ask 1 pq) /\
  last_made (fun i => if i <? 110 then 65 else i) 2 2 (mkField (bstr "AAAAAAAA") T_BYTE) (mkField (bstr "AAAA") T_BYTE) = Some (its_object (fun i => if i <? 110 then 65 else i) 2 1 1).
Proof.
  split; [|vm_compute; reflexivity]. apply p_apart. intros m Hm. apply in_app_or in Hm as [Hm|[<-|[<-|[]]]]; [apply in_map_iff in Hm as (x & <- & _)| |]; right; left; reflexivity.
Qed.

(* The program does not call srand. Where rand starts the same way in every process, all ranks together store the pairs of one: times * n, however many ranks there are,
   while every rank reports times * n PUTs. *)
Theorem C89_seed_refuted : forall L u E k e0 S cl h rnd0 n times ranks l j asked,
  (forall r, In r ranks -> good_client (E r) /\ same_cluster e0 (E r) /\ fresh (E r) (S r) /\ s_count (S r) = 0 /\ good_places (h r) n times) ->
  holds e0 cl (fun _ => opened k (session L u)) -> ranks_run ranks (fun r => Ok (puts_moves (h r) rnd0 n times)) l -> In j ranks -> Forall good_question asked ->
  all_apart E (fun _ => idle) (l ++ then_ask j asked) ->
  exists cl' rs r M ps, moves E S cl (l ++ then_ask j asked) = Ok (cl', rs ++ [r]) /\ Permutation r (map (get_result (E j) M) asked) /\
    N.of_nat (List.length ps) = times * n /\ forall s p, M s p <> None -> In (s, p) ps.
Proof.
  intros L u E k e0 S cl h rnd0 n times ranks l j asked HE Hc HR Hj Hq HA.
  destruct (C89_puts_partial L u E k e0 S cl h (fun _ => rnd0) n times ranks l j asked HE Hc HR Hj Hq HA) as (cl' & rs & r & M & A & B & C).
  exists cl', rs, r, M, (its_pairs rnd0 n times). split; [exact A|]. split; [exact C|]. split; [apply pairs_length|]. exact (same_pairs ranks rnd0 n times M B).
Qed.
Print Assumptions C89_seed_refuted.
Example C89_seed_example : ranks_run [0; 1]%Z (fun r => Ok (puts_moves (pm r) (prnd 0) 2 2)) pl0 /\ all_apart oe (fun _ => idle) (pl0 ++ then_ask 0 pq) /\
  List.length (filter (fun m => match snd m with Say _ => true | _ => false end) pl0) = 4%nat.
Proof. split; [exact pl0_runs|]. split; [exact pl0_apart|]. vm_compute. reflexivity. Qed.
