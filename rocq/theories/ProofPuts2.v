(* puts.c on any number of ranks *)
From Verif Require Import ModelBytes ProofBytes ModelKey ModelWire ModelHist ModelMsg SpecMsg ModelStore ModelGetOp ModelDs
  SpecStore ProofStore ProofDs ModelElen ModelTransform ModelFloat ModelRoute SpecRoute ModelClient SpecClient SpecCluster ProofCluster ProofCluster2
  SpecGetOp SpecScan ModelTyped SpecTyped ProofTyped ProofTyped2 SpecFp SpecMixed ProofMixed ProofMixed2 SpecMixed3 ProofMixed3 ProofTemps3 SpecOne ProofOne ModelLowest ProofTemps SpecHx ProofHx ProofHx2 ModelPuts SpecPuts ProofPuts SpecStore.
From Verif Require Import SpecFp SpecTyped SpecCluster.
Local Open Scope N_scope.

Section Ranks.
Context (L : libm) (u : callbacks) (E : Z -> env) (h : Z -> puts_memory) (rnd : Z -> N -> N) (n times : N) (ranks : list Z).
Let c := session L u.
Context (GC : forall r, In r ranks -> good_client (E r)) (Mem : forall r, In r ranks -> good_places (h r) n times).
Let prog (r : Z) : outcome (list move) := Ok (puts_moves (h r) (rnd r) n times).
Lemma taken_full rn a k : k <> 0 -> taken rn a k <> [].
Proof. intros Hk H. pose proof (taken_length rn a k) as E1. rewrite H in E1. cbn in E1. congruence. Qed.
Lemma place_arg a d : good_place a -> d <> [] -> blen d < 2 ^ 32 -> good_arg c (mkArg a d T_BYTE).
Proof. intros [A B] Hd Hl. apply (text_arg L u (fun _ => ModelHx.mkHx (fun _ => 0) (fun _ => 0) 0) (fun _ _ => S754_nan) (fun _ _ => S754_nan)); assumption. Qed.
Lemma item_good r t i : In r ranks -> t < times -> i < n ->
  let '(s, p, o, m) := its_item (h r) (rnd r) n t i in good_arg c s /\ good_arg c p /\ good_arg c o /\ m = 1.
Proof.
  intros Hr Ht Hi. destruct (Mem r Hr t i Ht Hi) as (A & B & C). unfold its_item, its_subject, its_predicate, its_object. cbn [f_data].
  repeat split; try (apply place_arg; [assumption|apply taken_full; discriminate|rewrite taken_length; reflexivity]).
Qed.
Lemma call_any r t : In r ranks -> t < times -> obj_call c (spelled (its_call (h r) (rnd r) n t)).
Proof.
  intros Hr Ht. cbn [its_call spelled obj_call]. rewrite map_map. apply Forall_map, Forall_forall. intros i Hi. apply in_below in Hi.
  pose proof (item_good r t i Hr Ht Hi) as G. unfold its_item in *. destruct G as (A & B & C & _). cbn [a_addr a_data]. split; [exact A|]. split; [exact B|]. split; [apply good_arg_obj, C|left; reflexivity].
Qed.
Lemma call_said r t : In r ranks -> t < times -> call_puts (E r) (spelled (its_call (h r) (rnd r) n t)) = map (fun i => fst (its_item (h r) (rnd r) n t i)) (below_n n).
Proof.
  intros Hr Ht. cbn [its_call spelled call_puts]. rewrite map_map.
  rewrite (flat_one (fun '(s, p, o, m) => one_put (E r) s p o m) _ (fun i => fst (its_item (h r) (rnd r) n t i))); [reflexivity|].
  intros i Hi. apply in_below in Hi. pose proof (item_good r t i Hr Ht Hi) as G. unfold its_item in *. destruct G as (A & B & C & _). cbn [fst a_addr a_data].
  destruct (GC r Hr) as (_ & T & _). destruct (at_total c (E r) _ _ T A B) as (_ & _ & Pl). unfold one_put. change (put_triples ?s ?p ?o 1) with [(s, p, o)]. cbn [while]. rewrite Pl. reflexivity.
Qed.
Lemma call_kept r t : In r ranks -> t < times -> kept_one c (its_call (h r) (rnd r) n t) = its_call (h r) (rnd r) n t.
Proof.
  intros Hr Ht. unfold its_call. cbn [kept_one]. f_equal. f_equal. rewrite map_map. apply map_ext_in. intros i Hi. apply in_below in Hi.
  pose proof (item_good r t i Hr Ht Hi) as G. unfold its_item in *. destruct G as (_ & _ & C & _). cbn [a_addr a_data]. rewrite (proj2 (good_arg_obj c _ C)). reflexivity.
Qed.
Context (l : list (Z * move)) (HR : ranks_run ranks prog l).
Lemma run_said r x : In (r, Say x) l -> In r ranks /\ exists t, t < times /\ x = its_call (h r) (rnd r) n t.
Proof.
  intros H. pose proof (proj2 HR _ H) as Hr. cbn [fst] in Hr. split; [exact Hr|]. destruct (proj1 HR r Hr) as (ms & Ep & Ea). apply Ok_inj in Ep. subst ms.
  apply alone_In in H. rewrite Ea in H. apply in_map_iff in H as (m & Em & Hm). injection Em as ->. apply program_says in Hm. exact Hm.
Qed.
Lemma run_any : Forall (any_move c) l.
Proof. apply Forall_forall. intros [r [x|p]] H; [|exact Logic.I]. destruct (run_said r x H) as (Hr & t & Ht & ->). apply call_any; assumption. Qed.
Lemma run_kept : map (kept_any c) l = l.
Proof.
  rewrite <- (map_id l) at 2. apply map_ext_in. intros [r [x|p]] H; [|reflexivity]. destruct (run_said r x H) as (Hr & t & Ht & ->). change ((r, Say (kept_one c (its_call (h r) (rnd r) n t))) = (r, Say (its_call (h r) (rnd r) n t))). rewrite (call_kept r t Hr Ht). reflexivity.
Qed.
Lemma run_no_dels : Forall no_dels l.
Proof. apply Forall_forall. intros [r [x|p]] H; [|exact Logic.I]. destruct (run_said r x H) as (Hr & t & Ht & ->). reflexivity. Qed.
Lemma run_made s p o : made ranks rnd n times s p o <-> exists a b d, In (a, b, d) (flat_map (said E) l) /\ s = fa a /\ p = fa b /\ o = fa d.
Proof.
  split.
  - intros (r & t & i & Hr & Ht & Hi & -> & -> & ->). destruct (proj1 HR r Hr) as (ms & Ep & Ea). apply Ok_inj in Ep. subst ms.
    exists (mkArg (pm_subject (h r) t i) (f_data (its_subject (rnd r) n t i)) T_BYTE), (mkArg (pm_predicate (h r) t i) (f_data (its_predicate (rnd r) n t i)) T_BYTE),
      (mkArg (pm_object (h r) t i) (f_data (its_object (rnd r) n t i)) T_BYTE). split; [|repeat split].
    apply in_flat_map. exists (r, Say (its_call (h r) (rnd r) n t)). split.
    + assert (I : In (r, Say (its_call (h r) (rnd r) n t)) (alone r l)) by (rewrite Ea; apply in_map, program_said, Ht). apply filter_In in I. apply I.
    + cbn [said snd fst]. rewrite call_said by assumption. apply in_map_iff. exists i. split; [reflexivity|apply in_below, Hi].
  - intros (a & b & d & I & -> & -> & ->). apply in_flat_map in I as ([r [x|q]] & H & I); [|destruct I]. destruct (run_said r x H) as (Hr & t & Ht & ->).
    cbn [said snd fst] in I. rewrite call_said in I by assumption. apply in_map_iff in I as (i & Ei & Hi). apply in_below in Hi. injection Ei as <- <- <-.
    exists r, t, i. repeat (split; [assumption|]). repeat split.
Qed.
Lemma run_settled i : settled i idle l.
Proof.
  destruct (in_dec Z.eq_dec i ranks) as [Hi|Hi].
  - destruct (proj1 HR i Hi) as (ms & Ep & Ea). apply Ok_inj in Ep. subst ms. unfold settled. rewrite Ea. destruct (program_ends (h i) (rnd i) n times) as [->|(ms & ->)]; [left; split; reflexivity|].
    right. exists (map (pair i) ms). rewrite map_app. reflexivity.
  - left. split; [|reflexivity]. destruct (alone i l) as [|[j m] a] eqn:Ea; [reflexivity|]. assert (I : In (j, m) (alone i l)) by (rewrite Ea; left; reflexivity).
    apply filter_In in I as [I J]. cbn [fst] in J. apply Z.eqb_eq in J. subst j. destruct (Hi (proj2 HR _ I)).
Qed.
Lemma question_good q : good_question q -> let '(s, p, ty) := q in good_arg c s /\ good_arg c p /\ u32 ty.
Proof. destruct q as [[[sa sd st] [pa pd pt]] ty]. cbn [good_question a_type a_data a_addr]. intros ((-> & A2 & A3 & A4) & (-> & B2 & B3 & B4) & C). split; [apply place_arg; assumption|]. split; [apply place_arg; assumption|exact C]. Qed.
Lemma puts_run k e0 S cl j asked : (forall r, In r ranks -> same_cluster e0 (E r) /\ fresh (E r) (S r) /\ s_count (S r) = 0) -> holds e0 cl (fun _ => opened k c) ->
  In j ranks -> Forall good_question asked -> all_apart E (fun _ => idle) (l ++ then_ask j asked) ->
  exists cl' rs r M, moves E S cl (l ++ then_ask j asked) = Ok (cl', rs ++ [r]) /\ holds_made ranks rnd n times M /\ Permutation r (map (get_result (E j) M) asked).
Proof.
  intros HE Hc Hj Hq HA.
  destruct (cluster_all E k c e0 S cl (l ++ then_ask j asked)) as (cl' & rs & Em & Seen).
  - intros r Hi. rewrite map_app in Hi. assert (Hr : In r ranks).
    { apply in_app_or in Hi as [Hi|Hi]; [apply in_map_iff in Hi as (m & <- & Hm); exact (proj2 HR m Hm)|]. cbn [then_ask map fst In] in Hi. destruct Hi as [<-|[<-|[]]]; exact Hj. }
    split; [apply GC, Hr|apply HE, Hr].
  - exact Hc.
  - apply Forall_app. split; [exact run_any|]. constructor; [|constructor; [exact Logic.I|constructor]]. cbn [any_move snd spelled obj_call]. revert Hq. apply Forall_impl.
    intros [[s p] ty] Q. exact (question_good _ Q).
  - exact HA.
  - rewrite map_app, run_kept in Seen. change (map (kept_any c) (then_ask j asked)) with (then_ask j asked) in Seen.
    destruct (all_known E k c l no_triples (fun _ => idle) [] (then_ask j asked) rs Seen run_no_dels) as (M & W & rs1 & rs2 & -> & Hs & K & Hi).
    { constructor; try discriminate; try contradiction; reflexivity. }
    cbn [then_ask all_seen] in Hs. change (at_limit (E j) (CBGet (Some asked)) (wait (E j) (W j) (spelled (CBGet (Some asked))))) with false in Hs.
    destruct Hs as (xs & ys & rs' & -> & P & G & ->). rewrite waits_same, (Hi j (run_settled j)) in G.
    cbn [spelled wait idle w_puts w_gets w_getops w_dels call_puts call_gets call_getops call_dels app] in G.
    cbn [pieces give gives left_ without w_puts w_gets w_getops w_dels put_all map del_all fst snd] in G.
    destruct G as (a1 & b1 & -> & (a2 & b2 & -> & (a3 & b3 & (gs & G & ->) & (a4 & b4 & -> & -> & ->) & ->) & ->) & ->). inversion G; subst gs.
    cbn [concat app] in P. rewrite app_nil_r in P. exists cl', rs1, xs, M. split; [exact Em|]. split; [|exact P]. split.
    + intros s p o H. apply run_made. exact (kn_only _ _ _ K s p o H).
    + intros s p o H. apply run_made in H as (a & b & d & I & -> & -> & ->). destruct (kn_all _ _ _ K a b d I) as [H|(i & H)]; [exact H|]. rewrite (Hi i (run_settled i)) in H. destruct H.
Qed.
End Ranks.
