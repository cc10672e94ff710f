(* Clients working at the same time: every run, and every client can go on *)
From Verif Require Import ModelBytes ProofBytes ModelKey ModelWire ModelHist ModelMsg SpecMsg ModelStore ModelGetOp ModelDs
  SpecStore ProofStore ProofDs ProofDs2 ModelElen ModelRoute SpecRoute ProofRoute ProofRoute2 ModelClient SpecClient SpecCluster
  ProofClient ProofClient2 ProofClient3 ProofClient4 ProofClient5 ProofClient6 ProofCluster ProofCluster2 SpecScan ProofScan ProofScan2 ModelPar SpecPar ProofPar ProofPar2 ProofPar3.
From Coq Require Import Sorted.
Local Open Scope N_scope.

Definition client_ok (e : env) (k : backend) (c : codec) (x : client) (p : option (list oper * list result)) : Prop :=
  fresh e (c_ses x) /\
  match c_mode x, p with
  | Idle, None => True
  | Busy ts xs, Some (l, ys) => xs = ys /\ exists ats, ts = map (task_of e) ats /\ going e k c ats l
  | _, _ => False
  end.
Definition t_size (t : task) : nat := S (length (t_far t) + length (t_near t)).
Definition m_size (m : mode) : nat := match m with Idle => O | Busy ts _ => S (list_sum (map t_size ts)) end.
Lemma busy_size t ts xs : m_size (Busy (t :: ts) xs) = (S (length (t_far t) + length (t_near t)) + m_size (Busy ts xs))%nat.
Proof. unfold m_size. cbn [map list_sum fold_right]. unfold t_size at 1. change (fold_right Nat.add 0%nat (map t_size ts)) with (list_sum (map t_size ts)). lia. Qed.
Lemma size_xs ts xs ys : m_size (Busy ts xs) = m_size (Busy ts ys).
Proof. reflexivity. Qed.
(* the label fits the state of its client *)
Definition fits_label (C : Z -> client) (l : label) : bool :=
  match l, c_mode (C (who l)) with
  | LCall _ _, Idle => true
  | LFar _ j, Busy (t :: _) _ => match nth_error (t_far t) j with None => false | Some _ => true end
  | LNear _, Busy (mkTask [] (_ :: _) :: _) _ => true
  | LNext _, Busy (mkTask [] [] :: _) _ => true
  | LReturn _, Busy [] _ => true
  | _, _ => false
  end.
Definition is_call (l : label) : bool := match l with LCall _ _ => true | _ => false end.

Lemma nth_drop {A} j : forall (l : list A) x, nth_error l j = Some x -> Permutation l (x :: drop_nth j l) /\ S (length (drop_nth j l)) = length l.
Proof.
  intros l x H. assert (P : Permutation l (x :: drop_nth j l)).
  { pose proof (firstn_skipn j l) as F. unfold drop_nth. assert (Hs : skipn j l = x :: skipn (S j) l).
    { clear F. revert j H. induction l as [|a l IH]; intros [|j] H; cbn [nth_error] in H; try discriminate.
      - injection H as ->. reflexivity.
      - cbn [skipn]. rewrite (IH j H). reflexivity. }
    rewrite Hs in F. rewrite <- F at 1. apply Permutation_sym, Permutation_middle. }
  split; [exact P|]. apply Permutation_length in P. cbn [length] in P. lia.
Qed.
Lemma drop_map {A B} (f : A -> B) j l : drop_nth j (map f l) = map f (drop_nth j l).
Proof. unfold drop_nth. rewrite firstn_map, skipn_map, map_app. reflexivity. Qed.
Lemma NoDup_perm_cons {A} (l : list A) x l' : Permutation l (x :: l') -> NoDup l -> NoDup l'.
Proof. intros P N. apply (Permutation_NoDup P) in N. inversion N; assumption. Qed.

Section Run.
Context (E : Z -> env) (k : backend) (c : codec) (e0 : env) (W : Z -> Prop).
Context (HE : forall i, W i -> good_client (E i) /\ same_cluster e0 (E i)).

Definition inv (st : system) (M : tmap) (P : pending) : Prop :=
  stores e0 k c (snd st) M /\ named M /\ forall i, W i -> client_ok (E i) k c (fst st i) (P i).

Lemma set_same C i x : set_client C i x i = x.
Proof. unfold set_client. rewrite Z.eqb_refl. reflexivity. Qed.
Lemma set_other C i x j : j <> i -> set_client C i x j = C j.
Proof. intros H. unfold set_client. destruct (Z.eqb_spec j i); [contradiction|reflexivity]. Qed.
Lemma inv_set C cl M (P P' : pending) i x cl' M' : inv (C, cl) M P -> stores e0 k c cl' M' -> named M' -> client_ok (E i) k c x (P' i) -> (forall j, j <> i -> P' j = P j) ->
  inv (set_client C i x, cl') M' P'.
Proof.
  intros (_ & _ & H) St N' Hx Ho. split; [exact St|]. split; [exact N'|]. intros j Hj. cbn [fst]. destruct (Z.eq_dec j i) as [->|Hn]; [rewrite set_same; exact Hx|].
  rewrite set_other by exact Hn. rewrite (Ho j Hn). apply H, Hj.
Qed.
Lemma upd_same {A} (P : Z -> A) i x : upd P i x i = x.
Proof. unfold upd. rewrite Z.eqb_refl. reflexivity. Qed.
Lemma upd_other {A} (P : Z -> A) i x j : j <> i -> upd P i x j = P j.
Proof. intros H. unfold upd. destruct (Z.eqb_spec j i); [contradiction|reflexivity]. Qed.
Lemma visible_opers i l tr : visible (map (EOper i) l ++ tr) = visible tr.
Proof. induction l as [|a l IH]; [reflexivity|exact IH]. Qed.

Definition steps_to (st : system) (M : tmap) (P : pending) (l : label) : Prop :=
  exists st' tr0 M' P', step E st l = Ok (st', visible tr0) /\ inv st' M' P' /\ (forall tr, legal E k c M' P' tr -> legal E k c M P (tr0 ++ tr)) /\
    (fits_label (fst st) l = true -> is_call l = false -> (m_size (c_mode (fst st' (who l))) < m_size (c_mode (fst st (who l))))%nat /\
       visible tr0 = match c_mode (fst st' (who l)), c_mode (fst st (who l)) with Idle, Busy _ xs => [Returned (who l) xs] | _, _ => [] end).
Lemma stays st M P l : inv st M P -> step E st l = Ok (st, []) -> fits_label (fst st) l = false -> steps_to st M P l.
Proof. intros I H F. exists st, [], M, P. split; [exact H|]. split; [exact I|]. split; [intros tr L; exact L|congruence]. Qed.

(* one request *)
Lemma entry_step C cl M P i t t' ts ats l x b ses xs (t1 : task) :
  W i -> inv (C, cl) M P -> fresh (E i) ses -> P i = Some (l, xs) -> going (E i) k c (t :: ats) l -> ts = map (task_of (E i)) ats -> a_kind t' = a_kind t -> task_ok (E i) k c t' ->
  Permutation (a_all t) (x :: a_all t') -> entry_ok (E i) k c (a_kind t) b x -> t1 = task_of (E i) t' ->
  exists cl' ys tr0 M' P',
    (b = false -> exists a, serve (E i) cl (e_rank (E i)) (req (E i) (a_kind t) x) = Ok (cl', a) /\ results_of a = Ok ys) /\
    (b = true -> exists route a, e_transport (E i) = Some route /\ remote_call (E i) route cl (rank_of (E i) (fst x)) (req (E i) (a_kind t) x) = Ok (cl', Some a) /\
                   results_of a = Ok ys) /\
    inv (set_client C i (mkClient ses (Busy (t1 :: ts) (xs ++ ys))), cl') M' P' /\ visible tr0 = [] /\ forall tr, legal E k c M' P' tr -> legal E k c M P (tr0 ++ tr).
Proof.
  intros Wi I Fs HP G -> Hk Ht' Hp He ->. destruct (HE i Wi) as ((S & T & Co & _) & Same). pose proof I as (St & Nm & _). cbn [snd] in St.
  destruct (entry_served (E i) k c T S Co cl M (a_kind t) b x (stores_same _ _ _ _ _ _ Same St) Nm He) as (cl' & M' & ys & Ef & St' & Nm' & H1 & H2).
  destruct (going_entry E k c i t t' ats l x b M M' ys P xs Ef G Hk Ht' Hp He HP) as (l' & P' & Q1 & Q2 & Q3 & Q4).
  exists cl', ys, (map (EOper i) (snd x)), M', P'. split; [exact H1|]. split; [exact H2|]. split; [|split].
  - eapply inv_set; [exact I| |exact Nm'| |exact Q2].
    + eapply stores_same; [apply same_sym, Same|exact St'].
    + rewrite Q1. split; [exact Fs|]. cbn [c_mode]. split; [reflexivity|]. exists (t' :: ats). split; [reflexivity|exact Q3].
  - rewrite <- (app_nil_r (map (EOper i) (snd x))). apply visible_opers.
  - exact Q4.
Qed.

Lemma step_other st M P l : W (who l) -> inv st M P -> (is_call l = true -> fits_label (fst st) l = false) -> steps_to st M P l.
Proof.
  intros Wi I Hl. destruct st as [C cl]. pose proof I as (St & Nm & HC). cbn [fst snd] in St, HC. pose proof (HC _ Wi) as [Fs Cm].
  destruct (HE _ Wi) as (Gc & Same).
  destruct (c_mode (C (who l))) as [|ts xs] eqn:Em.
  - destruct (P (who l)) as [[? ?]|] eqn:EP; [destruct Cm|].
    destruct l as [i cs|i j|i|i|i]; cbn [who] in *; try (apply stays; [exact I|cbn [step who]; rewrite Em; reflexivity|unfold fits_label; cbn [who fst]; rewrite Em; reflexivity]).
    specialize (Hl eq_refl). unfold fits_label in Hl. cbn [who fst] in Hl. rewrite Em in Hl. discriminate Hl.
  - destruct (P (who l)) as [[ol ys]|] eqn:EP; [|destruct Cm]. destruct Cm as (<- & ats & -> & G).
    destruct l as [i cs|i j|i|i|i]; cbn [who] in *.
    + apply stays; [exact I|cbn [step who]; rewrite Em; reflexivity|unfold fits_label; cbn [who fst]; rewrite Em; reflexivity].
    + (* a request to another rank *)
      destruct ats as [|t ats]; cbn [map] in Em; [apply stays; [exact I|cbn [step who]; rewrite Em; reflexivity|unfold fits_label; cbn [who fst]; rewrite Em; reflexivity]|].
      destruct (nth_error (t_far (task_of (E i) t)) j) as [[r m]|] eqn:En;
        [|apply stays; [exact I|cbn [step who]; rewrite Em, En; reflexivity|unfold fits_label; cbn [who fst]; rewrite Em, En; reflexivity]].
      pose proof En as En'. unfold task_of in En'. cbn [t_far] in En'. rewrite nth_error_map in En'. destruct (nth_error (fst (snd t)) j) as [x|] eqn:Ex; [|discriminate].
      cbn [option_map] in En'. injection En' as <- <-. destruct (nth_drop j _ _ Ex) as [Px Lx].
      pose proof (go_tasks _ _ _ _ _ G) as Ft. inversion Ft as [|? ? (T1 & T2 & T3) _]; subst.
      assert (He : entry_ok (E i) k c (a_kind t) true x) by (rewrite Forall_forall in T1; apply T1; eapply nth_error_In; exact Ex).
      set (t' := (fst t, (drop_nth j (fst (snd t)), snd (snd t))) : atask).
      assert (Pa : Permutation (a_all t) (x :: a_all t')) by (unfold a_all, t'; cbn [fst snd]; apply (Permutation_app_tail (snd (snd t))) in Px; exact Px).
      assert (Ht' : task_ok (E i) k c t').
      { unfold t'. split; [|split]; cbn [fst snd].
        - rewrite Forall_forall in T1 |- *. intros y Hy. apply T1. apply (Permutation_in _ (Permutation_sym Px)). right. exact Hy.
        - exact T2.
        - apply (NoDup_perm_cons (map fst (a_all t)) (fst x)); [|exact T3]. apply (Permutation_map fst) in Pa. exact Pa. }
      destruct (entry_step C cl M P i t t' (map (task_of (E i)) ats) ats ol x true (c_ses (C i)) xs (task_of (E i) t') Wi I Fs EP G eq_refl eq_refl Ht' Pa He eq_refl)
        as (cl' & zs & tr0 & M' & P' & _ & H2 & I' & V & L).
      destruct (H2 eq_refl) as (route & a & Et & Er & Ea).
      eexists (_, cl'), tr0, M', P'. split; [|split; [exact I'|split; [exact L|]]].
      * cbn [step who]. rewrite Em, En, Et. unfold a_kind in Er. rewrite Er. cbn [obind]. rewrite Ea. cbn [obind]. unfold task_of at 1 2. cbn [t_far t_near]. rewrite drop_map, V. reflexivity.
      * intros _ _. cbn [fst who]. rewrite set_same. cbn [c_mode]. rewrite Em. rewrite !busy_size, (size_xs _ _ xs). cbn [task_of t' t_far t_near fst snd].
        rewrite !map_length. split; [lia|exact V].
    + (* a request to this rank *)
      destruct ats as [|t ats]; cbn [map] in Em; [apply stays; [exact I|cbn [step who]; rewrite Em; reflexivity|unfold fits_label; cbn [who fst]; rewrite Em; reflexivity]|].
      destruct t as [n [fs ns]]. destruct fs as [|f0 fs].
      2:{ apply stays; [exact I|cbn [step who]; rewrite Em; reflexivity|unfold fits_label; cbn [who fst]; rewrite Em; reflexivity]. }
      destruct ns as [|x ns]; [apply stays; [exact I|cbn [step who]; rewrite Em; reflexivity|unfold fits_label; cbn [who fst]; rewrite Em; reflexivity]|].
      pose proof (go_tasks _ _ _ _ _ G) as Ft. inversion Ft as [|? ? (T1 & T2 & T3) _]; subst. cbn [fst snd] in T1, T2, T3. inversion T2 as [|? ? He T2']; subst.
      set (t' := (n, ([], ns)) : atask).
      assert (Ht' : task_ok (E i) k c t').
      { unfold t'. split; [constructor|]. split; [exact T2'|]. cbn [fst snd a_all app map] in T3 |- *. inversion T3; assumption. }
      destruct (entry_step C cl M P i (n, ([], x :: ns)) t' (map (task_of (E i)) ats) ats ol x false (c_ses (C i)) xs (task_of (E i) t') Wi I Fs EP G eq_refl eq_refl Ht'
        (Permutation_refl _) He eq_refl) as (cl' & zs & tr0 & M' & P' & H1 & _ & I' & V & L).
      destruct (H1 eq_refl) as (a & Er & Ea).
      eexists (_, cl'), tr0, M', P'. split; [|split; [exact I'|split; [exact L|]]].
      * cbn [step who]. rewrite Em. cbn [task_of fst snd map]. unfold a_kind in Er. cbn [fst] in Er. rewrite Er. cbn [obind]. rewrite Ea. cbn [obind]. rewrite V. reflexivity.
      * intros _ _. cbn [fst who]. rewrite set_same. cbn [c_mode]. rewrite Em. rewrite !busy_size, (size_xs _ _ xs). cbn [task_of t' t_far t_near fst snd].
        cbn [map length]. split; [lia|exact V].
    + (* next round *)
      destruct ats as [|t ats]; cbn [map] in Em; [apply stays; [exact I|cbn [step who]; rewrite Em; reflexivity|unfold fits_label; cbn [who fst]; rewrite Em; reflexivity]|].
      destruct t as [n [fs ns]]. destruct fs as [|f0 fs]; [|apply stays; [exact I|cbn [step who]; rewrite Em; reflexivity|unfold fits_label; cbn [who fst]; rewrite Em; reflexivity]].
      destruct ns as [|x ns]; [|apply stays; [exact I|cbn [step who]; rewrite Em; reflexivity|unfold fits_label; cbn [who fst]; rewrite Em; reflexivity]].
      eexists (_, cl), [], M, P. split; [cbn [step who]; rewrite Em; reflexivity|]. split; [|split; [intros tr L; exact L|]].
      * eapply inv_set; [exact I|exact St|exact Nm| |reflexivity]. rewrite EP. split; [exact Fs|]. cbn [c_mode]. split; [reflexivity|]. exists ats. split; [reflexivity|].
        eapply going_next; [exact G|reflexivity].
      * intros _ _. cbn [fst who]. rewrite set_same. cbn [c_mode]. rewrite Em. rewrite busy_size. split; [lia|reflexivity].
    + (* return *)
      destruct ats as [|t ats]; cbn [map] in Em.
      2:{ apply stays; [exact I|cbn [step who]; rewrite Em; reflexivity|unfold fits_label; cbn [who fst]; rewrite Em; reflexivity]. }
      apply going_done in G. subst ol.
      eexists (_, cl), [EReturn i xs], M, (upd P i None). split; [cbn [step who]; rewrite Em; reflexivity|]. split; [|split].
      * eapply inv_set; [exact I|exact St|exact Nm| |intros j Hj; apply upd_other, Hj]. rewrite upd_same. split; [exact Fs|exact Logic.I].
      * intros tr L. cbn [app]. eapply legal_return; [exact EP|apply Permutation_refl|exact L].
      * intros _ _. cbn [fst who]. rewrite set_same. cbn [c_mode]. rewrite Em. cbn [m_size]. split; [lia|reflexivity].
Qed.

Lemma step_ok st M P l : W (who l) -> inv st M P -> label_ok E k c l -> steps_to st M P l.
Proof.
  intros Wi I Hl. destruct st as [C cl]. pose proof I as (St & Nm & HC). cbn [fst snd] in St, HC. pose proof (HC _ Wi) as [Fs Cm].
  destruct (HE _ Wi) as (Gc & _).
  destruct l as [i cs|i j|i|i|i]; try (apply step_other; [exact Wi|exact I|discriminate]). cbn [who] in *.
  destruct (c_mode (C i)) as [|ts xs] eqn:Em; [|apply step_other; [exact Wi|exact I|intros _; unfold fits_label; cbn [who fst]; rewrite Em; reflexivity]].
  destruct (P i) as [[? ?]|] eqn:EP; [destruct Cm|].
  destruct Hl as (Hd & Hst & Hs). destruct (calls_going (E i) k c (c_ses (C i)) cl cs Gc Fs Hd Hst Hs) as (s1 & oks & ats & Ec & F1 & Ef & G).
  exists (set_client C i (mkClient (flushed s1) (Busy (flush_tasks (E i) s1) [])), cl), [ECall i cs], M, (upd P i (Some (opers (E i) cs, []))).
  split; [|split; [|split]].
- cbn [step who]. rewrite Em, Ec. cbn [obind fst snd]. reflexivity.
- eapply inv_set; [exact I|exact St|exact Nm| |intros j Hj; apply upd_other, Hj]. rewrite upd_same. split; [exact F1|]. cbn [c_mode]. split; [reflexivity|]. exists ats. auto.
- intros tr L. cbn [app]. apply legal_call; [exact EP|exact L].
- intros _ X. discriminate.
Qed.

Lemma visible_app t1 t2 : visible (t1 ++ t2) = visible t1 ++ visible t2.
Proof. apply flat_map_app. Qed.
Lemma run_ok : forall ls st M P, Forall (fun l => W (who l) /\ label_ok E k c l) ls -> inv st M P ->
  exists st' tr M' P', run E st ls = Ok (st', visible tr) /\ inv st' M' P' /\ legal E k c M P tr.
Proof.
  induction ls as [|l ls IH]; intros st M P HF I.
  - exists st, [], M, P. split; [reflexivity|]. split; [exact I|constructor].
  - inversion HF as [|? ? [Wl Hl] HF']; subst. destruct (step_ok st M P l Wl I Hl) as (st1 & tr0 & M1 & P1 & E1 & I1 & L1 & _).
    destruct (IH st1 M1 P1 HF' I1) as (st2 & tr & M2 & P2 & E2 & I2 & L2). exists st2, (tr0 ++ tr), M2, P2.
    cbn [run]. rewrite E1. cbn [obind]. rewrite E2. cbn [obind]. rewrite visible_app. auto.
Qed.

(* there is always something for a client in a Flush to do *)
Lemma enabled C i ts xs : c_mode (C i) = Busy ts xs -> exists l, who l = i /\ is_call l = false /\ fits_label C l = true.
Proof.
  intros Em. destruct ts as [|[fs ns] ts].
  - exists (LReturn i). unfold fits_label. cbn [who is_call]. rewrite Em. auto.
  - destruct fs as [|f0 fs].
    + destruct ns as [|n0 ns].
      * exists (LNext i). unfold fits_label. cbn [who is_call]. rewrite Em. auto.
      * exists (LNear i). unfold fits_label. cbn [who is_call]. rewrite Em. auto.
    + exists (LFar i 0). unfold fits_label. cbn [who is_call]. rewrite Em. auto.
Qed.
Lemma go_on i : W i -> forall n st M P, inv st M P -> (m_size (c_mode (fst st i)) <= n)%nat -> ~ idle st i ->
  exists ls st' xs, Forall (fun l => who l = i /\ is_call l = false) ls /\ run E st ls = Ok (st', [Returned i xs]) /\ idle st' i /\ (exists M' P', inv st' M' P').
Proof.
  intros Wi. induction n as [|n IH]; intros st M P I Hn Hi.
  - exfalso. apply Hi. unfold idle. destruct (c_mode (fst st i)); [reflexivity|]. cbn [m_size] in Hn. lia.
  - unfold idle in Hi. destruct st as [C cl]. cbn [fst] in *. destruct (c_mode (C i)) as [|ts xs] eqn:Em; [congruence|].
    destruct (enabled C i ts xs Em) as (l & Wl & Cl & Fl). assert (Hl : label_ok E k c l) by (destruct l; try exact Logic.I; discriminate).
    rewrite <- Wl in Wi. destruct (step_ok (C, cl) M P l Wi I Hl) as (st1 & tr0 & M1 & P1 & E1 & I1 & _ & D). destruct (D Fl Cl) as [D1 D2]. rewrite Wl in *. cbn [fst] in D1, D2.
    rewrite Em in D1, D2. destruct (c_mode (fst st1 i)) as [|ts1 xs1] eqn:Em1.
    + exists [l], st1, xs. split; [constructor; [auto|constructor]|]. cbn [run]. rewrite E1. cbn [obind]. rewrite D2. split; [reflexivity|]. split; [exact Em1|]. eauto.
    + destruct (IH st1 M1 P1 I1) as (ls & st2 & ys & F2 & R2 & I2 & J2); [rewrite Em1; lia|unfold idle; congruence|]. exists (l :: ls), st2, ys.
      split; [constructor; auto|]. cbn [run]. rewrite E1. cbn [obind]. rewrite R2. cbn [obind]. rewrite D2. auto.
Qed.
End Run.

Lemma opened_stores e0 k c cl : holds e0 cl (fun _ => opened k c) -> stores e0 k c cl no_triples.
Proof.
  intros H id Hid. exists (opened k c), no_triples. split; [apply H, Hid|]. split.
  - exists []. split; [reflexivity|]. split; [apply agrees_empty|]. intros s p o Ho. discriminate.
  - intros s p. destruct (goesf _ id s p); reflexivity.
Qed.
Lemma parallel_explained E k c e0 S cl ls :
  (forall i, In i (map who ls) -> good_client (E i) /\ same_cluster e0 (E i) /\ fresh (E i) (S i)) ->
  holds e0 cl (fun _ => opened k c) -> Forall (label_ok E k c) ls ->
  exists st h, run E (starting S cl) ls = Ok (st, h) /\ explained E k c h /\
    forall i, In i (map who ls) -> ~ idle st i ->
      exists ls' st' xs, Forall (fun l => who l = i) ls' /\ run E st ls' = Ok (st', [Returned i xs]) /\ idle st' i.
Proof.
  intros HE H HF. set (W := fun i => In i (map who ls)).
  assert (HW : forall i, W i -> good_client (E i) /\ same_cluster e0 (E i)) by (intros i Hi; destruct (HE i Hi) as (A & B & _); auto).
  assert (I0 : inv E k c e0 W (starting S cl) no_triples (fun _ => None)).
  { split; [apply opened_stores, H|]. split; [intros s p o Ho; discriminate|]. intros i Hi. split; [apply HE, Hi|exact I]. }
  destruct (run_ok E k c e0 W HW ls (starting S cl) no_triples (fun _ => None)) with (2 := I0) as (st & tr & M' & P' & R & Iv & L).
  - apply Forall_forall. intros l Hl. rewrite Forall_forall in HF. split; [apply in_map, Hl|apply HF, Hl].
  - exists st, (visible tr). split; [exact R|]. split; [exists tr; auto|]. intros i Hi Hn.
    destruct (go_on E k c e0 W HW i Hi _ st M' P' Iv (Nat.le_refl _) Hn) as (ls' & st' & xs & F' & R' & I' & _). exists ls', st', xs.
    split; [revert F'; apply Forall_impl; tauto|auto].
Qed.
