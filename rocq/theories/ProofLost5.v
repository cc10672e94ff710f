(* Clients working at the same time that lose operations *)
From Verif Require Import ModelBytes ProofBytes ModelKey ModelWire ModelHist ModelMsg SpecMsg ProofMsg ModelStore ModelGetOp ModelDs
  SpecStore ProofStore ProofDs ProofDs2 ProofDs3 ModelElen ModelRoute SpecRoute ProofRoute ProofRoute2 ModelClient SpecClient SpecCluster ProofClient ProofClient2
  ProofClient3 ProofClient4 ProofClient5 ProofClient6 ProofClient8 ProofCluster ProofCluster2 ModelPar SpecPar ProofPar ProofPar2 ProofPar3 ProofPar4
  SpecLost ProofLost ProofLost2 ProofLost3 ProofLost4.
From Coq Require Import Sorted.
Local Open Scope Z_scope.

(* ---- the rounds of one kind ---- *)
Section Rounds.
Context {A T : Type} (n : nat) (wrap : list A -> body) (f : T -> A) (mk : T -> oper).
Context (Hbody : forall l, body_of n (map mk l) = wrap (map f l)).
Context (e : env) (k : backend) (c : codec).

Definition keeps (es : list (Z * list oper)) (x : Z * list oper) : bool :=
  negb (far e (fst x)) || forallb (fun y => negb (far e (fst y)) || negb (rank_of e (fst y) =? rank_of e (fst x)) || (fst y <=? fst x)) es.
Lemma is_local_req x : is_local e (req e n x) = negb (far e (fst x)).
Proof. unfold is_local, far, rank_of, dst_rank. cbn [req m_dst]. destruct (_ =? _); reflexivity. Qed.
Lemma goes_out_req es x : goes_out e (map (req e n) es) (req e n x) = keeps es x.
Proof.
  unfold goes_out, keeps. rewrite is_local_req. f_equal. induction es as [|y es IH]; [reflexivity|]. cbn [map forallb]. rewrite IH, is_local_req. reflexivity.
Qed.
Lemma filter_map_req (g : msg -> bool) l : filter g (map (req e n) l) = map (req e n) (filter (fun x => g (req e n x)) l).
Proof. induction l as [|x l IH]; [reflexivity|]. cbn [map filter]. destruct (g (req e n x)); cbn [map]; rewrite IH; reflexivity. Qed.
Lemma round_left es : StronglySorted (fun x y : Z * list oper => fst x < fst y) es ->
  exists fs, round_task e (map (req e n) es) = task_of e (n, (fs, filter (fun x => negb (far e (fst x))) es)) /\
    Permutation fs (filter (fun x => far e (fst x)) (filter (keeps es) es)).
Proof.
  intros Hs. assert (Sb : StronglySorted before (map (req e n) es)).
  { induction Hs as [|x l Hs IH Hx]; [constructor|]. cbn [map]. constructor; [exact IH|]. apply Forall_forall. intros m Hm. apply in_map_iff in Hm as (y & <- & Hy).
    rewrite Forall_forall in Hx. exact (Hx y Hy). }
  pose proof (remote_map_spec e _ Sb) as P. rewrite !filter_map_req, map_map in P. apply Permutation_map_inv in P as (fs & E1 & P1). exists fs. split.
  - unfold round_task, task_of. cbn [fst snd]. f_equal; [exact E1|]. rewrite filter_map_req. f_equal. apply filter_ext. intros x. apply is_local_req.
  - rewrite (filter_ext (keeps es) (fun x => goes_out e (map (req e n) es) (req e n x))) by (intros x; symmetry; apply goes_out_req).
    rewrite (filter_ext (fun x => far e (fst x)) (fun x => negb (is_local e (req e n x)))) by (intros x; rewrite is_local_req, negb_involutive; reflexivity).
    apply Permutation_sym, P1.
Qed.
Lemma apop_sorted : forall (qs : list (list (list T))) id, 0 <= id -> StronglySorted (fun x y : Z * list oper => fst x < fst y) (apop mk id qs).
Proof.
  induction qs as [|q qs IH]; intros id H; [constructor|]. cbn [apop]. destruct q as [|p q]; [apply IH; lia|]. constructor; [apply IH; lia|].
  apply Forall_forall. intros x Hx. apply (apop_In n wrap f mk Hbody) in Hx as (m & p' & q' & _ & E & _); [|lia]. cbn [fst]. lia.
Qed.
Lemma apop_has (qs : list (list (list T))) id p q : length qs = Z.to_nat (e_total e) -> an_id e id -> queue_of qs id = p :: q -> In (id, map mk p) (apop mk 0 qs).
Proof.
  intros L [H0 H1] Eq. unfold queue_of in Eq. assert (Hm : (Z.to_nat id < length qs)%nat) by lia.
  assert (G : forall (qs : list (list (list T))) m i, (m < length qs)%nat -> nth m qs [] = p :: q -> In (i + Z.of_nat m, map mk p) (apop mk i qs)).
  { clear. induction qs as [|q0 qs IH]; intros m i Hm En; [cbn [length] in Hm; lia|]. destruct m as [|m].
    - cbn [nth] in En. subst q0. cbn [apop]. left. f_equal. lia.
    - cbn [nth length] in *. replace (i + Z.of_nat (S m)) with (i + 1 + Z.of_nat m) by lia. assert (X := IH m (i + 1) ltac:(lia) En). cbn [apop]. destruct q0; [exact X|right; exact X]. }
  specialize (G qs (Z.to_nat id) 0 Hm Eq). rewrite Z.add_0_l, Z2Nat.id in G by lia. exact G.
Qed.
(* what is kept of a round *)
Lemma keeps_lost qs x : sane_queues n mk e k c qs -> In x (apop mk 0 qs) -> keeps (apop mk 0 qs) x = true <-> lost e (lens qs) (fst x) = O.
Proof.
  intros G Hx. pose proof G as (L & _). rewrite lost_0. unfold keeps. split.
  - intros K Hf j Hj Hl Hr. rewrite Hf in K. cbn [negb orb] in K. rewrite forallb_forall in K. destruct (queue_of qs j) as [|p q] eqn:Eq; [reflexivity|].
    specialize (K _ (apop_has qs j p q L Hj Eq)). cbn [fst] in K. unfold far in K, Hf. rewrite Hr, Z.eqb_refl in K. rewrite Hf in K. cbn [negb orb] in K. apply Z.leb_le in K. lia.
  - intros H. destruct (far e (fst x)) eqn:Hf; [|reflexivity]. cbn [negb orb]. apply forallb_forall. intros y Hy. destruct (far e (fst y)); [|reflexivity]. cbn [negb orb].
    destruct (Z.eqb_spec (rank_of e (fst y)) (rank_of e (fst x))) as [E|]; [|reflexivity]. cbn [negb orb]. apply Z.leb_le.
    destruct (apop_entry n wrap f mk Hbody e k c qs y G Hy) as (Iy & (p & q & Eq & _) & _). destruct (Z.le_gt_cases (fst y) (fst x)) as [Hle|Hgt]; [exact Hle|].
    rewrite (H eq_refl (fst y) Iy Hgt E) in Eq. discriminate Eq.
Qed.
Lemma ops_in_filter g id : forall l, (forall x, In x l -> fst x = id -> g x = true) -> ops_in id (filter g l) = ops_in id l.
Proof.
  induction l as [|x l IH]; intros H; [reflexivity|]. cbn [filter]. assert (IH' := IH (fun y Hy => H y (or_intror Hy))). destruct (g x) eqn:Eg; cbn [ops_in flat_map].
  - f_equal. exact IH'.
  - destruct (Z.eqb_spec (fst x) id) as [E|]; [rewrite (H x (or_introl eq_refl) E) in Eg; discriminate|]. exact IH'.
Qed.
Lemma filter_fst_NoDup g : forall l : list (Z * list oper), NoDup (map fst l) -> NoDup (map fst (filter g l)).
Proof.
  induction l as [|x l IH]; intros H; [constructor|]. cbn [map] in H. inversion H as [|? ? H1 H2]; subst. cbn [filter]. destruct (g x); [|apply IH, H2].
  cbn [map]. constructor; [|apply IH, H2]. intros I. apply H1. apply in_map_iff in I as (y & E & I). apply filter_In in I as [I _]. rewrite <- E. apply in_map, I.
Qed.
Lemma kept_split (es : list (Z * list oper)) fs : Permutation fs (filter (fun x => far e (fst x)) (filter (keeps es) es)) ->
  Permutation (fs ++ filter (fun x => negb (far e (fst x))) es) (filter (keeps es) es).
Proof.
  intros P. rewrite P. assert (E : filter (fun x => negb (far e (fst x))) es = filter (fun x => negb (far e (fst x))) (filter (keeps es) es)).
  { assert (G : forall l, filter (fun x => negb (far e (fst x))) l = filter (fun x => negb (far e (fst x))) (filter (keeps es) l)); [|apply G].
    induction l as [|x l IH]; [reflexivity|]. cbn [filter]. destruct (far e (fst x)) eqn:Ef; cbn [negb].
    - destruct (keeps es x); [|exact IH]. cbn [filter]. rewrite Ef. exact IH.
    - unfold keeps at 1. rewrite Ef. cbn [negb orb filter]. rewrite Ef. cbn [negb]. rewrite IH. reflexivity. }
  rewrite E. apply filter_split.
Qed.
Lemma rounds_left : forall g qs, (remaining qs <= g)%nat -> sane_queues n mk e k c qs ->
  exists ts, rounds_tasks g e wrap (map (map (map f)) qs) = map (task_of e) ts /\ Forall (fun t => a_kind t = n /\ task_ok e k c t) ts /\
    forall id, an_id e id -> ops_at id ts = map mk (concat (sent e qs id)).
Proof.
  induction g as [|g IH]; intros qs Hr G.
  - exists []. cbn [rounds_tasks map]. split; [reflexivity|]. split; [constructor|]. intros id _. rewrite sent_none by lia. reflexivity.
  - cbn [rounds_tasks]. rewrite remaining_lift. destruct (remaining qs) as [|r] eqn:Er.
    + exists []. split; [reflexivity|]. split; [constructor|]. intros id _. rewrite sent_none by exact Er. reflexivity.
    + rewrite (pop_lift n wrap f mk Hbody). destruct (remaining_tl qs) as [Rt _]. specialize (Rt ltac:(lia)).
      destruct (IH (map (@tl _) qs)) as (ts & E1 & F1 & O1); [lia|apply sane_tl, G|]. rewrite E1.
      destruct (round_left (apop mk 0 qs)) as (fs & Et & Pf); [apply apop_sorted; lia|]. rewrite Et.
      set (t := (n, (fs, filter (fun x => negb (far e (fst x))) (apop mk 0 qs))) : atask).
      pose proof (apop_NoDup n wrap f mk Hbody qs 0 (Z.le_refl 0)) as N0.
      assert (Pa : Permutation (a_all t) (filter (keeps (apop mk 0 qs)) (apop mk 0 qs))) by (apply kept_split, Pf).
      assert (Na : NoDup (map fst (a_all t))).
      { apply (Permutation_NoDup (l := map fst (filter (keeps (apop mk 0 qs)) (apop mk 0 qs)))); [apply Permutation_map, Permutation_sym, Pa|]. apply filter_fst_NoDup, N0. }
      exists (t :: ts). split; [reflexivity|]. split.
      * constructor; [|exact F1]. split; [reflexivity|]. unfold task_ok, t. cbn [fst snd]. split; [|split].
        -- apply Forall_forall. intros x Hx. apply (Permutation_in _ Pf) in Hx. apply filter_In in Hx as [Hx Fx]. apply filter_In in Hx as [Hx _]. rewrite <- Fx.
           apply (apop_entry n wrap f mk Hbody e k c qs x G Hx).
        -- apply Forall_forall. intros x Hx. apply filter_In in Hx as [Hx Fx]. apply negb_true_iff in Fx. rewrite <- Fx. apply (apop_entry n wrap f mk Hbody e k c qs x G Hx).
        -- exact Na.
      * intros id Hid. cbn [ops_at flat_map]. fold (ops_at id ts). rewrite (O1 id Hid).
        rewrite (NoDup_perm_ops id (a_all t) _ Na Pa).
        destruct (lost e (lens qs) id) as [|n0] eqn:El.
        -- rewrite ops_in_filter.
           ++ rewrite (apop_ops n wrap f mk Hbody) by (destruct Hid; lia). rewrite Z.sub_0_r. rewrite <- map_app. f_equal. destruct (sent_kept e qs id El) as [K1 K2]. rewrite K1, K2.
              unfold queue_of. destruct (nth (Z.to_nat id) qs []); reflexivity.
           ++ intros x Hx Ex. apply (keeps_lost qs x G Hx). rewrite Ex. exact El.
        -- rewrite ops_in_none.
           ++ cbn [app]. rewrite sent_lost by (rewrite El; discriminate). reflexivity.
           ++ intros Hi. apply in_map_iff in Hi as (x & Ex & Hi). apply filter_In in Hi as [Hi Hk]. apply (keeps_lost qs x G Hi) in Hk. rewrite Ex, El in Hk. discriminate Hk.
Qed.
Lemma kind_left (qs : list (list (list A))) (L : Z -> list T) : setting e -> holding e qs (fun id => map f (L id)) ->
  (forall id, an_id e id -> Forall (fun t => good_oper e k c (mk t) /\ place e (mk t) = id /\ phase (mk t) = n) (L id)) ->
  exists qT ts, holding e qT L /\ process_tasks e wrap qs = map (task_of e) ts /\ Forall (fun t => a_kind t = n /\ task_ok e k c t) ts /\
    (forall id, an_id e id -> ops_at id ts = map mk (concat (sent e qT id))).
Proof.
  intros S (HL & HT & HC) HG. destruct (lift_queues f qs (fun m => L (Z.of_nat m))) as (qT & -> & HqT).
  - intros m Hm. assert (Hid : an_id e (Z.of_nat m)) by (unfold an_id; lia). rewrite <- (HC _ Hid). unfold queue_of. rewrite Nat2Z.id. reflexivity.
  - rewrite map_length in HL. assert (Q : forall id, an_id e id -> concat (queue_of qT id) = L id).
    { intros id Hid. unfold queue_of. destruct Hid as [H0 H1]. rewrite HqT by (rewrite map_length; lia). f_equal. lia. }
    assert (Td : tidy e qT).
    { unfold tidy in *. rewrite Forall_forall in HT |- *. intros q Hq. specialize (HT _ (in_map _ _ _ Hq)). rewrite Forall_forall in HT |- *. intros p Hp.
      destruct (HT _ (in_map _ _ _ Hp)) as [P1 P2]. rewrite map_length in P2. split; [intros ->; apply P1; reflexivity|exact P2]. }
    unfold process_tasks. rewrite remaining_lift. destruct (rounds_left (remaining qT) qT) as (ts & E & F & O); [lia| |].
    + split; [exact HL|]. split.
      * unfold tidy in Td. rewrite Forall_forall in Td |- *. intros q Hq. specialize (Td _ Hq). rewrite Forall_forall in Td |- *. intros p Hp.
        destruct (Td _ Hp) as [P1 P2]. split; [exact P1|]. pose proof (set_ops _ S). unfold u64. lia.
      * intros id Hid. rewrite Q by exact Hid. apply HG, Hid.
    + exists qT, ts. split; [split; [exact HL|split; [exact Td|exact Q]]|]. auto.
Qed.
End Rounds.
