(* Clients working at the same time: the queues as lists of operations; operations taking effect *)
From Verif Require Import ModelBytes ProofBytes ModelKey ModelWire ModelHist ModelMsg SpecMsg ModelStore ModelGetOp ModelDs
  SpecStore ProofStore ProofDs ProofDs2 ModelElen ModelRoute SpecRoute ProofRoute ProofRoute2 ModelClient SpecClient SpecCluster
  ProofClient ProofClient2 ProofClient3 ProofClient4 ProofClient5 ProofClient6 ProofCluster ProofCluster2 SpecScan ModelPar SpecPar ProofPar.
From Coq Require Import Sorted.
Local Open Scope N_scope.

(* a task as operations: kind, requests to other ranks, requests to this rank *)
Definition atask := (nat * (list (Z * list oper) * list (Z * list oper)))%type.
Definition a_kind (t : atask) : nat := fst t.
Definition a_all (t : atask) : list (Z * list oper) := fst (snd t) ++ snd (snd t).
Definition task_of (e : env) (t : atask) : task :=
  mkTask (map (fun x => (rank_of e (fst x), req e (fst t) x)) (fst (snd t))) (map (req e (fst t)) (snd (snd t))).
Definition task_ok (e : env) (k : backend) (c : codec) (t : atask) : Prop :=
  Forall (entry_ok e k c (fst t) true) (fst (snd t)) /\ Forall (entry_ok e k c (fst t) false) (snd (snd t)) /\ NoDup (map fst (a_all t)).
Definition ops_in (id : Z) (l : list (Z * list oper)) : list oper := flat_map (fun x => if (fst x =? id)%Z then snd x else []) l.
Definition ops_at (id : Z) (ts : list atask) : list oper := flat_map (fun t => ops_in id (a_all t)) ts.

Lemma ops_in_app id l1 l2 : ops_in id (l1 ++ l2) = ops_in id l1 ++ ops_in id l2.
Proof. apply flat_map_app. Qed.
Lemma ops_at_app id l1 l2 : ops_at id (l1 ++ l2) = ops_at id l1 ++ ops_at id l2.
Proof. apply flat_map_app. Qed.
Lemma ops_in_none id l : ~ In id (map fst l) -> ops_in id l = [].
Proof.
  induction l as [|x l IH]; intros H; [reflexivity|]. cbn [ops_in flat_map]. destruct (Z.eqb_spec (fst x) id) as [E|E].
  - exfalso. apply H. left. exact E.
  - apply IH. intros H'. apply H. right. exact H'.
Qed.
Lemma NoDup_perm_ops id l l' : NoDup (map fst l) -> Permutation l l' -> ops_in id l = ops_in id l'.
Proof.
  intros N P. induction P as [|x l l' P IH|x y l|l1 l2 l3 P1 IH1 P2 IH2].
  - reflexivity.
  - cbn [ops_in flat_map]. cbn [map] in N. inversion N; subst. f_equal. apply IH. assumption.
  - cbn [ops_in flat_map map] in *. inversion N as [|? ? H1 H2]; subst. destruct (Z.eqb_spec (fst y) id) as [E1|], (Z.eqb_spec (fst x) id) as [E2|]; try reflexivity.
    exfalso. apply H1. left. congruence.
  - rewrite IH1 by exact N. apply IH2. apply (Permutation_NoDup (l := map fst l1)); [apply Permutation_map, P1|exact N].
Qed.

(* ---- lifting queues ---- *)
Lemma lift_map {A B} (f : A -> B) : forall p q L, p ++ q = map f L -> exists L1 L2, p = map f L1 /\ q = map f L2 /\ L = L1 ++ L2.
Proof.
  induction p as [|b p IH]; intros q L H.
  - exists [], L. auto.
  - destruct L as [|a L]; [discriminate|]. cbn [app map] in H. injection H as -> H. destruct (IH q L H) as (L1 & L2 & -> & -> & ->).
    exists (a :: L1), L2. auto.
Qed.
Lemma lift_queue {A B} (f : A -> B) : forall q L, concat q = map f L -> exists qT, q = map (map f) qT /\ concat qT = L.
Proof.
  induction q as [|p q IH]; intros L H.
  - destruct L; [|discriminate]. exists []. auto.
  - cbn [concat] in H. apply lift_map in H as (L1 & L2 & -> & H & ->). destruct (IH L2 H) as (qT & -> & <-). exists (L1 :: qT). auto.
Qed.
Lemma lift_queues {A B} (f : A -> B) : forall qs (T : nat -> list A), (forall n, (n < length qs)%nat -> concat (nth n qs []) = map f (T n)) ->
  exists qT, qs = map (map (map f)) qT /\ forall n, (n < length qs)%nat -> concat (nth n qT []) = T n.
Proof.
  induction qs as [|q qs IH]; intros T H.
  - exists []. split; [reflexivity|]. cbn [length]. intros n Hn. lia.
  - destruct (lift_queue f q (T O) (H O ltac:(cbn [length]; lia))) as (q0 & -> & H0).
    destruct (IH (fun n => T (S n))) as (qT & E & HT).
    + intros n Hn. apply (H (S n)). cbn [length]. lia.
    + exists (q0 :: qT). split; [cbn [map]; congruence|]. intros [|n] Hn; [exact H0|]. cbn [nth]. apply HT. cbn [length] in Hn. lia.
Qed.

(* ---- the rounds of one kind ---- *)
Section Rounds.
Context {A T : Type} (n : nat) (wrap : list A -> body) (f : T -> A) (mk : T -> oper).
Context (Hbody : forall l, body_of n (map mk l) = wrap (map f l)).
Context (e : env) (k : backend) (c : codec).

Fixpoint apop (id : Z) (qs : list (list (list T))) : list (Z * list oper) :=
  match qs with
  | [] => []
  | [] :: qs' => apop (id + 1) qs'
  | (p :: _) :: qs' => (id, map mk p) :: apop (id + 1) qs'
  end.
Definition around (es : list (Z * list oper)) : atask := (n, (filter (fun x => far e (fst x)) es, filter (fun x => negb (far e (fst x))) es)).
Fixpoint arounds (g : nat) (qs : list (list (list T))) : list atask :=
  match g with
  | O => []
  | S g' => match remaining qs with O => [] | _ => around (apop 0 qs) :: arounds g' (map (@tl _) qs) end
  end.

Lemma pop_lift : forall qs id, pop wrap (e_rank e) id (map (map (map f)) qs) = (map (req e n) (apop id qs), map (map (map f)) (map (@tl _) qs)).
Proof.
  induction qs as [|q qs IH]; intros id; [reflexivity|]. cbn [map pop apop]. rewrite IH. destruct q as [|p q]; cbn [map tl]; [reflexivity|].
  change (req e n (id, map mk p)) with (mkMsg (e_rank e) id (body_of n (map mk p))). rewrite Hbody. reflexivity.
Qed.
Lemma remaining_lift (qs : list (list (list T))) : remaining (map (map (map f)) qs) = remaining qs.
Proof. unfold remaining. rewrite <- concat_map. rewrite map_length. reflexivity. Qed.
Lemma apop_In : forall qs id x, (0 <= id)%Z -> In x (apop id qs) -> exists m p q, nth_error qs m = Some (p :: q) /\ fst x = (id + Z.of_nat m)%Z /\ snd x = map mk p.
Proof.
  induction qs as [|q qs IH]; intros id x Hid H; [destruct H|]. cbn [apop] in H.
  assert (R : In x (apop (id + 1) qs) -> exists m p q0, nth_error (q :: qs) m = Some (p :: q0) /\ fst x = (id + Z.of_nat m)%Z /\ snd x = map mk p).
  { intros I. destruct (IH (id + 1)%Z x ltac:(lia) I) as (m & p & q0 & E1 & E2 & E3). exists (S m), p, q0. split; [exact E1|]. split; [lia|exact E3]. }
  destruct q as [|p q]; [auto|]. destruct H as [<-|H]; [|auto]. exists O, p, q. cbn [nth_error fst snd]. split; [reflexivity|]. split; [lia|reflexivity].
Qed.
Lemma apop_NoDup : forall qs id, (0 <= id)%Z -> NoDup (map fst (apop id qs)).
Proof.
  induction qs as [|q qs IH]; intros id Hid; [constructor|]. cbn [apop]. destruct q as [|p q]; [apply IH; lia|]. cbn [map fst]. constructor; [|apply IH; lia].
  intros H. apply in_map_iff in H as (x & E & H). apply apop_In in H as (m & ? & ? & _ & E2 & _); [|lia]. lia.
Qed.
Lemma apop_ops : forall qs id j, (id <= j)%Z -> (0 <= id)%Z -> ops_in j (apop id qs) = map mk (hd [] (nth (Z.to_nat (j - id)) qs [])).
Proof.
  induction qs as [|q qs IH]; intros id j H H0.
  - cbn [apop ops_in flat_map]. rewrite nth_overflow by (cbn [length]; lia). reflexivity.
  - destruct (Z.eq_dec j id) as [->|Hn].
    + replace (Z.to_nat (id - id)) with O by lia. cbn [nth]. cbn [apop].
      assert (Z0 : ops_in id (apop (id + 1) qs) = []).
      { apply ops_in_none. intros I. apply in_map_iff in I as (x & E & I). apply apop_In in I as (m & ? & ? & _ & E2 & _); lia. }
      destruct q as [|p q]; [exact Z0|]. cbn [ops_in flat_map fst snd hd]. rewrite Z.eqb_refl. unfold ops_in in Z0. rewrite Z0, app_nil_r. reflexivity.
    + replace (Z.to_nat (j - id)) with (S (Z.to_nat (j - (id + 1)))) by lia. cbn [nth]. rewrite <- IH by lia. cbn [apop].
      destruct q as [|p q]; [reflexivity|]. cbn [ops_in flat_map fst snd]. destruct (Z.eqb_spec id j); [lia|reflexivity].
Qed.
Lemma filter_split {X} (g : X -> bool) l : Permutation (filter g l ++ filter (fun x => negb (g x)) l) l.
Proof.
  induction l as [|x l IH]; [constructor|]. cbn [filter]. destruct (g x); cbn [negb app].
  - constructor. exact IH.
  - apply Permutation_sym, Permutation_cons_app, Permutation_sym, IH.
Qed.
Lemma around_all es : Permutation (a_all (around es)) es.
Proof. unfold a_all, around. cbn [fst snd]. apply filter_split. Qed.

Lemma round_lift es : NoDup (map fst es) -> (forall x y, In x es -> In y es -> far e (fst x) = true -> rank_of e (fst x) = rank_of e (fst y) -> fst x = fst y) ->
  round_task e (map (req e n) es) = task_of e (around es).
Proof.
  intros Hn Ho. unfold round_task, task_of, around. cbn [fst snd].
  assert (Fl : forall l, filter (fun m => negb (is_local e m)) (map (req e n) l) = map (req e n) (filter (fun x => far e (fst x)) l) /\
               filter (is_local e) (map (req e n) l) = map (req e n) (filter (fun x => negb (far e (fst x))) l)).
  { induction l as [|x l [IH1 IH2]]; [auto|]. cbn [map filter]. unfold is_local, dst_rank, far, rank_of in *. cbn [req m_dst]. rewrite IH1, IH2.
    destruct (ds_to_rank (e_layout e) (fst x) =? e_rank e)%Z; cbn [negb map]; auto. }
  destruct (Fl es) as [F1 F2]. f_equal; [|exact F2]. unfold remote_map. rewrite F1.
  assert (Hsub : forall x, In x (filter (fun x => far e (fst x)) es) -> In x es /\ far e (fst x) = true) by (intros x Hx; apply filter_In in Hx; exact Hx).
  assert (Hn' : NoDup (map fst (filter (fun x => far e (fst x)) es))).
  { pose proof (Permutation_map fst (filter_split (fun x => far e (fst x)) es)) as P. rewrite map_app in P. apply Permutation_sym in P. apply (Permutation_NoDup P) in Hn.
    apply NoDup_app_remove_r in Hn. exact Hn. }
  generalize dependent (filter (fun x => far e (fst x)) es). intros l _ Hsub Hn'.
  rewrite map_set_all; [cbn [app]; rewrite map_map; reflexivity|]. cbn [map app]. rewrite map_map.
  induction l as [|x l IH]; [constructor|]. cbn [map] in Hn' |- *. inversion Hn' as [|? ? H1 H2]; subst. constructor.
  - intros I. apply in_map_iff in I as (y & E & I). apply H1. apply in_map_iff. exists y. split; [|exact I]. unfold dst_rank in E. cbn [req m_dst] in E.
    destruct (Hsub x (or_introl eq_refl)) as [I1 G1]. destruct (Hsub y (or_intror I)) as [I2 G2]. apply Ho; [exact I2|exact I1|exact G2|exact E].
  - apply IH; [|exact H2]. intros y Hy. apply Hsub. right. exact Hy.
Qed.

Definition sane_queues (qs : list (list (list T))) : Prop :=
  length qs = Z.to_nat (e_total e) /\
  Forall (Forall (fun p => p <> [] /\ u64 (N.of_nat (length p)))) qs /\
  (forall id, an_id e id -> Forall (fun t => good_oper e k c (mk t) /\ place e (mk t) = id /\ phase (mk t) = n) (concat (queue_of qs id))).
Definition good_queues (qs : list (list (list T))) : Prop := sane_queues qs /\ one_per_rank e (fun id => concat (queue_of qs id) <> []).
Lemma concat_tl {X} (q : list (list X)) : exists p, concat q = p ++ concat (tl q).
Proof. destruct q as [|p q]; [exists []; reflexivity|exists p; reflexivity]. Qed.
Lemma sane_tl qs : sane_queues qs -> sane_queues (map (@tl _) qs).
Proof.
  intros (L & HF & G). split; [rewrite map_length; exact L|]. split.
  - apply Forall_forall. intros q Hq. apply in_map_iff in Hq as (q0 & <- & Hq). rewrite Forall_forall in HF. specialize (HF q0 Hq).
    destruct q0; [constructor|]. inversion HF; assumption.
  - intros id Hid. rewrite queue_tl. specialize (G id Hid). destruct (concat_tl (queue_of qs id)) as [p E]. rewrite E in G. apply Forall_app in G. apply G.
Qed.
Lemma good_tl qs : good_queues qs -> good_queues (map (@tl _) qs).
Proof.
  intros (G & O). split; [apply sane_tl, G|]. intros i j Hi Hj Ui Uj. apply O; try assumption; rewrite queue_tl in *.
  - destruct (concat_tl (queue_of qs i)) as [p E]. intros X. rewrite E in X. apply app_eq_nil in X. apply Ui, X.
  - destruct (concat_tl (queue_of qs j)) as [p E]. intros X. rewrite E in X. apply app_eq_nil in X. apply Uj, X.
Qed.
Lemma apop_entry qs x : sane_queues qs -> In x (apop 0 qs) -> an_id e (fst x) /\ (exists p q, queue_of qs (fst x) = p :: q /\ snd x = map mk p /\ p <> []) /\ entry_ok e k c n (far e (fst x)) x.
Proof.
  intros (L & HF & G) Hx. apply apop_In in Hx as (m & p & q & E1 & E2 & E3); [|lia].
  assert (Lm : (m < length qs)%nat) by (apply nth_error_Some; congruence).
  assert (Hid : an_id e (fst x)). { unfold an_id. rewrite E2, Z.add_0_l. lia. }
  assert (Eq : queue_of qs (fst x) = p :: q). { unfold queue_of. rewrite E2, Z.add_0_l, Nat2Z.id. apply nth_error_nth. exact E1. }
  rewrite Forall_forall in HF. pose proof (HF _ (nth_error_In _ _ E1)) as Fq. inversion Fq as [|? ? [Hp Hu] _]; subst.
  split; [exact Hid|]. split; [exists p, q; auto|]. unfold entry_ok. split; [exact Hid|]. split; [reflexivity|]. rewrite E3. split; [destruct p; [congruence|discriminate]|].
  split; [rewrite map_length; exact Hu|]. specialize (G _ Hid). rewrite Eq in G. cbn [concat] in G. apply Forall_app in G as [G _].
  apply Forall_forall. intros a Ha. apply in_map_iff in Ha as (t & <- & Ht). rewrite Forall_forall in G. apply G, Ht.
Qed.
Lemma arounds_spec : forall g qs, (remaining qs <= g)%nat -> good_queues qs ->
  rounds_tasks g e wrap (map (map (map f)) qs) = map (task_of e) (arounds g qs) /\
  Forall (fun t => a_kind t = n /\ task_ok e k c t) (arounds g qs) /\
  (forall id, an_id e id -> ops_at id (arounds g qs) = map mk (concat (queue_of qs id))).
Proof.
  induction g as [|g IH]; intros qs Hr G.
  - cbn [rounds_tasks arounds map]. split; [reflexivity|]. split; [constructor|]. intros id _. cbn [ops_at flat_map].
    unfold queue_of. rewrite remaining_0 by lia. reflexivity.
  - cbn [rounds_tasks arounds]. rewrite remaining_lift. destruct (remaining qs) as [|r] eqn:Er.
    + cbn [map]. split; [reflexivity|]. split; [constructor|]. intros id _. cbn [ops_at flat_map]. unfold queue_of. rewrite remaining_0 by exact Er. reflexivity.
    + rewrite pop_lift. destruct (remaining_tl qs) as [Rt _]. specialize (Rt ltac:(lia)).
      destruct (IH (map (@tl _) qs)) as (E1 & F1 & O1); [lia|apply good_tl, G|]. cbn [map]. rewrite E1. pose proof (apop_NoDup qs 0 (Z.le_refl 0)) as N0.
      split; [|split].
      * f_equal. apply round_lift; [exact N0|]. intros x y Hx Hy Fx Er'.
        destruct (apop_entry qs x (proj1 G) Hx) as (Ix & (px & qx & Qx & _ & Nx) & _). destruct (apop_entry qs y (proj1 G) Hy) as (Iy & (py & qy & Qy & _ & Ny) & _).
        destruct G as (_ & O). apply O; try assumption; [rewrite Qx|rewrite Qy]; cbn [concat]; intros X; apply app_eq_nil in X; tauto.
      * constructor; [|exact F1]. split; [reflexivity|]. unfold task_ok, around. cbn [fst snd]. split; [|split].
        -- apply Forall_forall. intros x Hx. apply filter_In in Hx as [Hx Fx]. rewrite <- Fx. apply (apop_entry qs x (proj1 G) Hx).
        -- apply Forall_forall. intros x Hx. apply filter_In in Hx as [Hx Fx]. apply negb_true_iff in Fx. rewrite <- Fx. apply (apop_entry qs x (proj1 G) Hx).
        -- apply (Permutation_NoDup (l := map fst (apop 0 qs))); [apply Permutation_map, Permutation_sym, around_all|exact N0].
      * intros id Hid. cbn [ops_at flat_map]. fold (ops_at id (arounds g (map (@tl _) qs))). rewrite (O1 id Hid), queue_tl.
        rewrite <- (NoDup_perm_ops id (apop 0 qs)) by (try exact N0; apply Permutation_sym, around_all).
        rewrite apop_ops by (destruct Hid; lia). rewrite Z.sub_0_r. rewrite <- map_app. f_equal. unfold queue_of. destruct (nth (Z.to_nat id) qs []); reflexivity.
Qed.

(* from the queues of a session *)
Lemma kind_tasks (qs : list (list (list A))) (L : Z -> list T) : setting e -> holding e qs (fun id => map f (L id)) ->
  (forall id, an_id e id -> Forall (fun t => good_oper e k c (mk t) /\ place e (mk t) = id /\ phase (mk t) = n) (L id)) ->
  one_per_rank e (fun id => map f (L id) <> []) ->
  exists ts, process_tasks e wrap qs = map (task_of e) ts /\ Forall (fun t => a_kind t = n /\ task_ok e k c t) ts /\
    (forall id, an_id e id -> ops_at id ts = map mk (L id)).
Proof.
  intros S (HL & HT & HC) HG HO. destruct (lift_queues f qs (fun m => L (Z.of_nat m))) as (qT & -> & HqT).
  - intros m Hm. assert (Hid : an_id e (Z.of_nat m)) by (unfold an_id; lia). rewrite <- (HC _ Hid). unfold queue_of. rewrite Nat2Z.id. reflexivity.
  - rewrite map_length in HL. assert (Q : forall id, an_id e id -> concat (queue_of qT id) = L id).
    { intros id Hid. unfold queue_of. destruct Hid as [H0 H1]. rewrite HqT by (rewrite map_length; lia). f_equal. lia. }
    unfold process_tasks. rewrite remaining_lift. destruct (arounds_spec (remaining qT) qT) as (E & F & O); [lia| |].
    + split; [split; [exact HL|split]|].
      * unfold tidy in HT. rewrite Forall_forall in HT |- *. intros q Hq. specialize (HT _ (in_map _ _ _ Hq)). rewrite Forall_forall in HT |- *. intros p Hp.
        destruct (HT _ (in_map _ _ _ Hp)) as [P1 P2]. rewrite map_length in P2. split; [intros ->; apply P1; reflexivity|]. pose proof (set_ops _ S). unfold u64. lia.
      * intros id Hid. rewrite Q by exact Hid. apply HG, Hid.
      * intros i j Hi Hj Ui Uj. rewrite Q in Ui, Uj by assumption. apply HO; try assumption; [destruct (L i)|destruct (L j)]; try congruence; discriminate.
    + exists (arounds (remaining qT) qT). split; [exact E|]. split; [exact F|]. intros id Hid. rewrite O, Q by exact Hid. reflexivity.
Qed.
End Rounds.
