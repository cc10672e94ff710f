(* A session with the background PUT thread: the thread can complete what it has taken *)
From Verif Require Import ModelBytes ProofBytes ModelKey ModelWire ModelHist ModelMsg SpecMsg ModelStore ModelGetOp ModelDs
  ProofStore ProofDs ModelElen ModelRoute SpecRoute ModelClient SpecClient SpecCluster ProofClient SpecScan ModelPar SpecPar ProofPar3 ProofPar4 ProofPar6
  ModelAsync SpecAsync ProofAsync ProofAsync2 ProofAsync4 ModelBack SpecStore SpecBack ProofBack ProofBack2 ProofBack3 ProofBack4.
Local Open Scope N_scope.

Section Complete.
Context (g : cfg) (E : Z -> env) (m : Z).
(* labels that do not fit *)
Lemma rest_idle t : forall ls w st h, v_bad (b_a w) = false -> Forall (fun l => ModelPar.who l = t /\ ProofPar4.is_call l = false) ls -> c_mode (fst (b_s w) t) = Idle ->
  ModelPar.run E (b_s w) ls = Ok (st, h) -> st = b_s w /\ h = [] /\ brun g E m t w (map BP ls) = Ok (w, []).
Proof.
  induction ls as [|l ls IH]; intros w st h Hb F Id R; [injection R as <- <-; auto|]. inversion F as [|? ? [Hl Hc] F']; subst. cbn [ModelPar.run] in R.
  assert (St : ModelPar.step E (b_s w) l = Ok (b_s w, [])).
  { destruct (b_s w) as [C cl]. cbn [fst] in Id. destruct l; cbn [ModelPar.who] in *; [discriminate| | | |]; unfold ModelPar.step; cbn [ModelPar.who]; rewrite Id; reflexivity. }
  rewrite St in R. cbn [obind] in R. apply obind_ok in R as ([s2 h2] & R & X). injection X as <- <-. destruct (IH w s2 h2 Hb F' Id R) as (-> & -> & B). split; [reflexivity|]. split; [reflexivity|].
  cbn [map brun]. assert (Bs : bstep g E m (ModelPar.who l) w (BP l) = Ok (w, [])).
  { unfold bstep, par. rewrite Hb, St. cbn [obind]. assert (Rd : ready (b_s w) (ModelPar.who l) = false) by (unfold ready; rewrite Id; reflexivity).
    destruct w as [a s]. destruct l; cbn [ModelPar.who b_a b_s] in *; try discriminate; try reflexivity. rewrite Z.eqb_refl, Rd. reflexivity. }
  rewrite Bs. cbn [obind]. rewrite B. reflexivity.
Qed.
Lemma thread_done t : forall ls w st xs, v_bad (b_a w) = false -> v_t (b_a w) = TRun -> Forall (fun l => ModelPar.who l = t /\ ProofPar4.is_call l = false) ls ->
  ModelPar.run E (b_s w) ls = Ok (st, [Returned t xs]) -> brun g E m t w (map BP ls) = Ok (mkBoth (finish g (b_a w)) st, [Returned t xs]).
Proof.
  induction ls as [|l ls IH]; intros w st xs Hb Ht F R; [discriminate|]. inversion F as [|? ? [Hl Hc] F']; subst. cbn [ModelPar.run] in R.
  apply obind_ok in R as ([s1 h1] & Es & R). apply obind_ok in R as ([s2 h2] & R & X). injection X as <- X. destruct (pstep_shape _ _ _ _ _ Es) as (_ & B).
  assert (Go : forall w1, b_a w1 = b_a w -> b_s w1 = s1 -> h1 = [] -> bstep g E m (ModelPar.who l) w (BP l) = Ok (w1, h1) ->
    brun g E m (ModelPar.who l) w (map BP (l :: ls)) = Ok (mkBoth (finish g (b_a w)) s2, [Returned (ModelPar.who l) xs])).
  { intros w1 Ea Ess -> Bs. cbn [map brun]. rewrite Bs. cbn [obind]. cbn [app] in X. subst h2. rewrite (IH w1 s2 xs); [rewrite Ea; reflexivity|rewrite Ea; exact Hb|rewrite Ea; exact Ht|exact F'|rewrite Ess; exact R]. }
  destruct l as [i cs|i j|i|i|i]; cbn [ModelPar.who] in *; [discriminate| | | |].
  - apply (Go (mkBoth (b_a w) s1)); try reflexivity; [tauto|]. unfold bstep, par. rewrite Hb, Es. reflexivity.
  - apply (Go (mkBoth (b_a w) s1)); try reflexivity; [tauto|]. unfold bstep, par. rewrite Hb, Es. reflexivity.
  - apply (Go (mkBoth (b_a w) s1)); try reflexivity; [tauto|]. unfold bstep, par. rewrite Hb, Es. reflexivity.
  - destruct (ready (b_s w) i) eqn:Rd.
    + destruct B as [[ys ->] Id]. injection X as -> ->. cbn [map brun]. unfold bstep at 1. rewrite Hb, Z.eqb_refl, Rd. unfold par. rewrite Es. cbn [obind].
      destruct (finish_fields g _ (b_a w) Hb Ht eq_refl) as (_ & _ & _ & _ & Hb' & _).
      destruct (rest_idle i ls (mkBoth (finish g (b_a w)) s1) s2 []) as (-> & _ & Br); [exact Hb'|exact F'| |exact R|].
      * cbn [b_s]. unfold is_idle in Id. destruct (c_mode (fst s1 i)); [reflexivity|discriminate].
      * rewrite Br. reflexivity.
    + destruct B as [-> ->]. apply (Go w); try reflexivity. unfold bstep. rewrite Hb, Z.eqb_refl, Rd. reflexivity.
Qed.
Lemma finish_exec : forall l a, v_bad a = false -> v_t a = TRun -> v_local a = l ->
  let a' := ModelAsync.run g a (repeat MThread (Datatypes.S (length l))) in v_exec a' = v_exec a ++ l /\ v_local a' = [].
Proof.
  induction l as [|o l IH]; intros a Hb Ht Hl.
  - cbn [length repeat ModelAsync.run turn]. unfold step_t. rewrite Hb, Ht, Hl. fields. rewrite app_nil_r. auto.
  - change (repeat MThread (Datatypes.S (length (o :: l)))) with (MThread :: repeat MThread (Datatypes.S (length l))). cbn [ModelAsync.run turn]. unfold step_t at 1 2. rewrite Hb, Ht, Hl.
    set (a1 := set_local _ _ _). destruct (IH a1) as (A & B); [exact Hb|exact Ht|reflexivity|]. cbn zeta. rewrite A. unfold a1. fields. rewrite <- app_assoc. auto.
Qed.
End Complete.

Lemma completes g E k c e0 S cl p m t (W : Z -> Prop) w h : order_ok g ->
  (forall i, W i -> good_client (E i) /\ same_cluster e0 (E i) /\ fresh (E i) (S i)) -> W t -> holds e0 cl (fun _ => opened k c) ->
  known g E k c S cl p t W w h -> v_bad (b_a w) = false -> v_running (b_a w) = true -> v_t (b_a w) = TRun ->
  exists ls w' xs, Forall (fun l => ModelPar.who l = t) ls /\ brun g E m t w (map BP ls) = Ok (w', [Returned t xs]) /\
    v_t (b_a w') = TStore /\ v_exec (b_a w') = v_exec (b_a w) ++ v_local (b_a w) /\ v_local (b_a w') = [].
Proof.
  intros Or HW Wt Hcl K Hb Hr Ht. pose proof K as ((ls & R & F) & _ & _ & Co). destruct (Co Hb Hr) as (C1 & _).
  assert (HW' : forall i, W i -> good_client (E i) /\ same_cluster e0 (E i)) by (intros i Hi; destruct (HW i Hi) as (A & B & _); auto).
  assert (I0 : ProofPar4.inv E k c e0 W (starting S cl) no_triples (fun _ => None)).
  { split; [apply opened_stores, Hcl|]. split; [intros s q o Ho; discriminate|]. intros i Hi. split; [apply HW, Hi|exact Logic.I]. }
  destruct (run_ok E k c e0 W HW' ls (starting S cl) no_triples (fun _ => None) F I0) as (st & tr & M' & P' & R' & Iv & _). rewrite R in R'. injection R' as <- _.
  destruct (go_on E k c e0 W HW' t Wt _ (b_s w) M' P' Iv (Nat.le_refl _)) as (ls' & st' & xs & F' & R2 & _ & _).
  { unfold idle. intros X. apply (proj1 C1); [|exact Ht]. unfold is_idle. rewrite X. reflexivity. }
  exists ls', (mkBoth (finish g (b_a w)) st'), xs. split; [revert F'; apply Forall_impl; tauto|]. split; [apply thread_done; assumption|]. cbn [b_a].
  destruct (finish_fields g _ (b_a w) Hb Ht eq_refl) as (F1 & _). destruct (finish_exec g _ (b_a w) Hb Ht eq_refl) as (F2 & F3). auto.
Qed.
