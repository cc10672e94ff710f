(* puts.c on one rank, and on ranks with the same values of rand *)
From Verif Require Import ModelBytes ProofBytes ModelKey ModelWire ModelHist ModelMsg SpecMsg ModelStore ModelGetOp ModelDs
  SpecStore ProofStore ProofDs ModelElen ModelTransform ModelFloat ModelRoute SpecRoute ModelClient SpecClient SpecCluster ProofCluster ProofCluster2
  SpecGetOp SpecScan ModelTyped SpecTyped ProofTyped ProofTyped2 SpecFp SpecMixed ProofMixed ProofMixed2 SpecMixed3 ProofMixed3 ProofTemps3 SpecOne ProofOne ModelLowest ProofTemps SpecHx ProofHx ProofHx2 ModelPuts SpecPuts ProofPuts ProofPuts2 SpecStore.
From Verif Require Import SpecFp SpecTyped SpecCluster.
Local Open Scope N_scope.

Lemma put_all_app l1 : forall M l2, put_all M (l1 ++ l2) = put_all (put_all M l1) l2.
Proof. induction l1 as [|[[a b] d] l1 IH]; intros M l2; [reflexivity|]. apply IH. Qed.
(* the map of one client, once what waits is stored *)
Lemma one_known E k c i : forall l M W l2 rs, all_seen E k c M W (l ++ l2) rs -> Forall no_dels l -> Forall (fun m => fst m = i) l -> w_dels (W i) = [] ->
  exists M' W' rs1 rs2, rs = rs1 ++ rs2 /\ all_seen E k c M' W' l2 rs2 /\ put_all M' (w_puts (W' i)) = put_all M (w_puts (W i) ++ flat_map (said E) l) /\
    (settled i (W i) l -> W' i = idle).
Proof.
  induction l as [|[j [x|p]] l IH]; intros M W l2 rs H HF HI Hw.
  - exists M, W, [], rs. split; [reflexivity|]. split; [exact H|]. split; [cbn [flat_map]; rewrite app_nil_r; reflexivity|]. intros [[_ Hi]|(ms & Hi)]; [exact Hi|]. destruct ms; discriminate Hi.
  - apply Forall_cons_iff in HF as [Hd HF]. apply Forall_cons_iff in HI as [Hj HI]. cbn [fst] in Hj. subst j. cbn [app all_seen] in H. cbn [no_dels snd] in Hd.
    destruct (at_limit (E i) x (wait (E i) (W i) (spelled x))).
    + destruct (IH _ _ _ _ H HF HI) as (M' & W' & rs1 & rs2 & A & B & C & D). { rewrite waits_same. cbn [without wait w_dels]. rewrite Hd, Hw. reflexivity. }
      exists M', W', rs1, rs2. split; [exact A|]. split; [exact B|]. split; [|intros Hs; apply D; eapply settled_step; [exact Hs|discriminate]].
      rewrite C, waits_same. cbn [without w_puts app wait flat_map said snd fst]. rewrite <- put_all_app, <- app_assoc. reflexivity.
    + destruct (IH _ _ _ _ H HF HI) as (M' & W' & rs1 & rs2 & A & B & C & D). { rewrite waits_same. cbn [wait w_dels]. rewrite Hd, Hw. reflexivity. }
      exists M', W', rs1, rs2. split; [exact A|]. split; [exact B|]. split; [|intros Hs; apply D; eapply settled_step; [exact Hs|discriminate]].
      rewrite C, waits_same. cbn [w_puts wait flat_map said snd fst]. rewrite <- app_assoc. reflexivity.
  - apply Forall_cons_iff in HF as [_ HF]. apply Forall_cons_iff in HI as [Hj HI]. cbn [fst] in Hj. subst j. cbn [app all_seen] in H. destruct H as (xs & ys & rs' & -> & _ & _ & H).
    destruct (IH _ _ _ _ H HF HI) as (M' & W' & rs1 & rs2 & -> & B & C & D).
    { rewrite waits_same. destruct p as [[| | |]|]; cbn [pieces fold_left without w_dels]; try exact Hw; reflexivity. }
    exists M', W', (xs :: rs1), rs2. split; [reflexivity|]. split; [exact B|]. split; [|intros Hs; apply D; eapply settled_step; [exact Hs|intros [= ->]; reflexivity]].
    rewrite C, waits_same. cbn [flat_map said snd app].
    destruct p as [[| | |]|]; cbn [pieces left_all left_ fold_left without w_puts w_gets w_getops w_dels app]; try rewrite Hw; cbn [del_all fst]; try reflexivity; rewrite put_all_app; reflexivity.
Qed.
Lemma put_all_fold (l : list (arg * arg * arg)) s p : forall M, put_all M l s p = fold_left (fun x t => let '(a, b, d) := t in if feqb (fa a) s && feqb (fa b) p then Some (fa d) else x) l (M s p).
Proof. induction l as [|[[a b] d] l IH]; intro M; [reflexivity|]. cbn [put_all fold_left]. rewrite IH. reflexivity. Qed.
Lemma fold_left_map {A B C} (f : C -> B -> C) (g : A -> B) l : forall x, fold_left f (map g l) x = fold_left (fun x a => f x (g a)) l x.
Proof. induction l as [|a l IH]; intro x; [reflexivity|]. cbn [map fold_left]. apply IH. Qed.
Lemma flat_map_map {A B C} (f : B -> list C) (g : A -> B) l : flat_map f (map g l) = flat_map (fun a => f (g a)) l.
Proof. induction l as [|a l IH]; [reflexivity|]. cbn [map flat_map]. rewrite IH. reflexivity. Qed.
Lemma map_flat_map {A B C} (f : B -> C) (g : A -> list B) l : map f (flat_map g l) = flat_map (fun a => map f (g a)) l.
Proof. induction l as [|a l IH]; [reflexivity|]. cbn [flat_map]. rewrite map_app, IH. reflexivity. Qed.
Lemma flat_map_ext_in {A B} (f g : A -> list B) l : (forall a, In a l -> f a = g a) -> flat_map f l = flat_map g l.
Proof. induction l as [|a l IH]; intro H; [reflexivity|]. cbn [flat_map]. rewrite H by (left; reflexivity). f_equal. apply IH. intros b Hb. apply H. right. exact Hb. Qed.
Lemma flat_map_flat {A B C} (f : B -> list C) (g : A -> list B) l : flat_map f (flat_map g l) = flat_map (fun a => flat_map f (g a)) l.
Proof. induction l as [|a l IH]; [reflexivity|]. cbn [flat_map]. rewrite flat_map_app, IH. reflexivity. Qed.

Lemma puts_alone L u E h rnd n times k e0 S cl r asked : good_client (E r) -> good_places h n times -> same_cluster e0 (E r) -> fresh (E r) (S r) -> s_count (S r) = 0 ->
  holds e0 cl (fun _ => opened k (session L u)) -> Forall good_question asked -> let l := map (pair r) (puts_moves h rnd n times) ++ then_ask r asked in all_apart E (fun _ => idle) l ->
  exists cl' rs x M, moves E S cl l = Ok (cl', rs ++ [x]) /\ (forall s p, M s p = last_made rnd n times s p) /\ Permutation x (map (get_result (E r) M) asked).
Proof.
  intros GC Mem Same Fr Hn Hc Hq l HA. set (c := session L u) in *. set (m := map (pair r) (puts_moves h rnd n times)) in *.
  assert (HR : ranks_run [r] (fun r => Ok (puts_moves ((fun _ => h) r) ((fun _ => rnd) r) n times)) m).
  { split.
    - intros r' [<-|[]]. eexists. split; [reflexivity|]. fold m. unfold alone. assert (F : forall q, (forall y, In y q -> (fst y =? r)%Z = true) -> filter (fun y : Z * move => (fst y =? r)%Z) q = q).
      { induction q as [|y q IH]; intro Hy; [reflexivity|]. cbn [filter]. rewrite (Hy y (or_introl eq_refl)), IH; [reflexivity|]. intros z Hz. apply Hy. right. exact Hz. }
      apply F. intros y Hy. apply in_map_iff in Hy as (z & <- & _). apply Z.eqb_refl.
    - intros y Hy. apply in_map_iff in Hy as (z & <- & _). left. reflexivity. }
  assert (GC' : forall r', In r' [r] -> good_client (E r')) by (intros r' [<-|[]]; exact GC).
  assert (Mem' : forall r', In r' [r] -> good_places ((fun _ => h) r') n times) by (intros r' [<-|[]]; exact Mem).
  destruct (cluster_all E k c e0 S cl l) as (cl' & rs & Em & Seen).
  - intros r' Hi. assert (r' = r) as ->.
    { unfold l in Hi. rewrite map_app in Hi. apply in_app_or in Hi as [Hi|Hi]; [apply in_map_iff in Hi as (y & <- & Hy); destruct (proj2 HR y Hy) as [<-|[]]; reflexivity|].
      cbn [then_ask map fst In] in Hi. destruct Hi as [<-|[<-|[]]]; reflexivity. }
    auto.
  - exact Hc.
  - apply Forall_app. split; [apply (run_any L u (fun _ => h) (fun _ => rnd) n times [r] Mem' m HR)|]. constructor; [|constructor; [exact Logic.I|constructor]]. cbn [any_move snd spelled obj_call]. revert Hq. apply Forall_impl.
    intros [[s p] ty] Q. exact (question_good L u _ Q).
  - exact HA.
  - pose proof (run_kept L u (fun _ => h) (fun _ => rnd) n times [r] Mem' m HR) as Rk. fold c in Rk. unfold l in Seen. rewrite map_app, Rk in Seen. change (map (kept_any c) (then_ask r asked)) with (then_ask r asked) in Seen.
    destruct (one_known E k c r m no_triples (fun _ => idle) (then_ask r asked) rs Seen (run_no_dels (fun _ => h) (fun _ => rnd) n times [r] m HR)) as (M & W & rs1 & rs2 & -> & Hs & K & Hi).
    { apply Forall_forall. intros y Hy. destruct (proj2 HR y Hy) as [<-|[]]. reflexivity. } { reflexivity. }
    specialize (Hi (run_settled (fun _ => h) (fun _ => rnd) n times [r] m HR r)).
    cbn [then_ask all_seen] in Hs. change (at_limit (E r) (CBGet (Some asked)) (wait (E r) (W r) (spelled (CBGet (Some asked))))) with false in Hs.
    destruct Hs as (xs & ys & rs' & -> & P & G & ->). rewrite waits_same, Hi in G. rewrite Hi in K.
    cbn [spelled wait idle w_puts w_gets w_getops w_dels call_puts call_gets call_getops call_dels app] in G.
    cbn [pieces give gives left_ without w_puts w_gets w_getops w_dels put_all map del_all fst snd] in G.
    destruct G as (a1 & b1 & -> & (a2 & b2 & -> & (a3 & b3 & (gs & G & ->) & (a4 & b4 & -> & -> & ->) & ->) & ->) & ->). inversion G; subst gs.
    cbn [concat app] in P. rewrite app_nil_r in P. exists cl', rs1, xs, M. split; [exact Em|]. split; [|exact P].
    intros s p. cbn [idle w_puts put_all app] in K. rewrite K, put_all_fold. unfold m. rewrite flat_map_map, program_is, flat_map_flat.
    rewrite (flat_map_ext_in _ (fun t => map (fun i => fst (its_item h rnd n t i)) (below_n n))).
    + unfold last_made. change (no_triples s p) with (@None field).
      assert (F : forall (q : list N) x, fold_left (fun x t => let '(a, b, d) := t in if feqb (fa a) s && feqb (fa b) p then Some (fa d) else x) (flat_map (fun t => map (fun i => fst (its_item h rnd n t i)) (below_n n)) q) x =
        fold_left (fun x '(t, i) => if feqb (its_subject rnd n t i) s && feqb (its_predicate rnd n t i) p then Some (its_object rnd n t i) else x) (flat_map (fun t => map (pair t) (below_n n)) q) x).
      { induction q as [|t q IH]; intro x; [reflexivity|]. cbn [flat_map]. rewrite !fold_left_app, IH. f_equal. rewrite !fold_left_map. reflexivity. }
      apply F.
    + intros t Ht. apply in_below in Ht. cbn [flat_map said snd fst app]. rewrite app_nil_r. apply (call_said L u E (fun _ => h) (fun _ => rnd) n times [r] GC' Mem'); [left; reflexivity|exact Ht].
Qed.

(* ranks whose rand starts the same way make the same pairs *)
Lemma below_length n : List.length (below_n n) = N.to_nat n.
Proof. unfold below_n. rewrite map_length, seq_length. reflexivity. Qed.
Lemma pairs_length rnd n times : N.of_nat (List.length (its_pairs rnd n times)) = times * n.
Proof.
  unfold its_pairs. assert (F : forall q, List.length (flat_map (fun t => map (fun i => (its_subject rnd n t i, its_predicate rnd n t i)) (below_n n)) q) = (List.length q * N.to_nat n)%nat).
  { induction q as [|t q IH]; [reflexivity|]. cbn [flat_map List.length]. rewrite app_length, map_length, below_length, IH. reflexivity. }
  rewrite F, below_length. lia.
Qed.
Lemma same_pairs ranks rnd0 n times M : holds_made ranks (fun _ => rnd0) n times M -> forall s p, M s p <> None -> In (s, p) (its_pairs rnd0 n times).
Proof.
  intros [H _] s p Hm. destruct (M s p) as [o|] eqn:E; [|congruence]. destruct (H s p o E) as (r & t & i & _ & Ht & Hi & -> & -> & _).
  apply in_flat_map. exists t. split; [apply in_below, Ht|]. apply in_map_iff. exists i. split; [reflexivity|apply in_below, Hi].
Qed.
