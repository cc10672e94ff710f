(* A session with the background PUT thread: invariants of the whole *)
From Verif Require Import ModelBytes ProofBytes ModelKey ModelWire ModelHist ModelMsg SpecMsg ModelStore ModelGetOp ModelDs
  ProofStore ModelElen ModelRoute SpecRoute ModelClient SpecClient SpecCluster ProofClient SpecScan ModelPar SpecPar ProofPar3 ProofPar4 ProofPar6
  ModelAsync SpecAsync ProofAsync ProofAsync2 ProofAsync4 ModelBack SpecStore SpecBack ProofBack ProofBack2.
Local Open Scope N_scope.

(* ---- what a step of the two threads keeps ---- *)
Ltac turns H := first [discriminate H | apply (f_equal (fun z => match z with Some y => y | None => start (mkCfg 0 0 0 (fun l => l)) [] end)) in H; subst].
Ltac fields := cbn [set_c set_t set_prog set_running set_pm set_am set_queue set_done set_ptr set_local set_res set_hist set_bad v_c v_t v_prog v_running v_pm v_am v_len v_queue v_count v_flushed v_done v_ptr v_local v_tres v_res v_acc v_exec v_out v_bad notify_thread notify_client] in *.
Definition owns (A : list op) (s : st) : Prop :=
  incl (v_queue s) A /\ incl (all_puts (v_prog s)) A /\ match v_c s with CPutLock l | CPutDo l => incl l A | _ => True end.
Lemma incl_nil_ {X} (A : list X) : incl [] A.
Proof. intros x []. Qed.
Lemma owns_turn g A s x s' : owns A s -> turn g s x = Some s' -> owns A s'.
Proof.
  unfold owns. destruct s as [c t p ru pm am n q k f d r lo tr re a e o b]. intros (Q & P & C) H. fields.
  destruct x; cbn [turn] in H; unfold step_c, step_t, wake_c, wake_t in H; fields.
  - destruct b; [discriminate|]. destruct c; fields.
    + destruct p as [|[l| |] p]; turns H; fields; cbn [all_puts flat_map app] in P.
      * split; [exact Q|]. split; [intros y Hy; apply P, in_app_iff; auto|intros y Hy; apply P, in_app_iff; auto].
      * auto.
      * split; [exact Q|]. split; [apply incl_nil_|exact Logic.I].
    + destruct pm; turns H; fields; auto.
    + destruct (forallb _ l); turns H; fields; [|auto]. destruct t; fields; (split; [apply incl_app; assumption|auto]).
    + destruct am; turns H; fields; auto.
    + turns H; fields; auto.
    + destruct pm; turns H; fields; auto.
    + destruct k0; turns H; destruct t; fields; (split; [first [exact Q|apply incl_nil_]|auto]).
    + destruct (c_cond _); [destruct i|]; turns H; fields; [|auto|auto]. destruct k0; cbn [after]; auto.
    + discriminate.
    + destruct am; turns H; fields; auto.
    + destruct r; turns H; fields; auto.
    + destruct r; turns H; fields; auto.
    + turns H; fields; auto.
    + destruct pm; turns H; fields; auto.
    + destruct (g_order g q); turns H; fields; (split; [first [exact Q|apply incl_nil_]|auto]).
    + turns H; fields; auto.
    + turns H; fields; auto.
    + destruct t; turns H; fields; auto.
    + destruct r; turns H; fields; (split; [first [exact Q|apply incl_nil_]|auto]).
    + discriminate.
  - destruct b; [discriminate|]. destruct t; fields.
    + turns H; fields; auto.
    + destruct pm; turns H; fields; auto.
    + destruct (t_cond _ _); turns H; fields; auto.
    + discriminate.
    + destruct pm; turns H; fields; auto.
    + turns H; fields. split; [apply incl_nil_|auto].
    + destruct lo; turns H; fields; auto.
    + destruct r; turns H; fields; auto.
    + destruct r; turns H; fields; auto.
    + turns H; fields; auto.
    + destruct am; turns H; fields; auto.
    + turns H; fields; auto.
    + turns H. destruct c; fields; auto.
    + discriminate.
  - destruct c; turns H; fields; auto.
  - destruct t; turns H; fields; auto.
Qed.
Lemma running_turn g s x s' : turn g s x = Some s' -> v_running s' = true -> v_running s = true.
Proof.
  destruct s as [c t p ru pm am n q k f d r lo tr re a e o b]. intros H R. destruct ru; [reflexivity|]. fields.
  destruct x; cbn [turn] in H; unfold step_c, step_t, wake_c, wake_t in H; fields.
  - destruct b; [discriminate|]. destruct c; fields; try discriminate H;
      repeat match type of H with context [match ?z with _ => _ end] => lazymatch z with context [match _ with _ => _ end] => fail | _ => destruct z end end; turns H; fields; try discriminate; try (destruct t; fields; discriminate).
  - destruct b; [discriminate|]. destruct t; fields; try discriminate H;
      repeat match type of H with context [match ?z with _ => _ end] => lazymatch z with context [match _ with _ => _ end] => fail | _ => destruct z end end; turns H; fields; try discriminate; try (destruct c; fields; discriminate).
  - destruct c; turns H; fields; discriminate.
  - destruct t; turns H; fields; discriminate.
Qed.
(* a step that neither takes PUTs nor carries them out *)
Definition calm (s : st) (x : move) : Prop :=
  match x with MThread => v_t s <> TTake /\ v_t s <> TRun | MClient => v_c s = FRun -> v_queue s = [] | _ => True end.
Lemma calm_turn g s x s' : order_ok g -> calm s x -> turn g s x = Some s' -> v_running s' = negb (closing (v_c s')) -> v_running s = negb (closing (v_c s)) -> v_running s' = true ->
  (v_t s' = TRun <-> v_t s = TRun) /\ v_local s' = v_local s /\ exists l, v_queue s' = v_queue s ++ l /\ v_acc s' = v_acc s ++ l.
Proof.
  intros Or. pose proof (order_nil g Or) as On.
  assert (N : forall (P : Prop) (q a : list op), P -> P /\ exists l, q = q ++ l /\ a = a ++ l) by (intros P q0 a0 HP; split; [exact HP|]; exists []; rewrite !app_nil_r; auto).
  assert (N2 : forall (P Q : Prop) (q a : list op), P -> Q -> P /\ Q /\ exists l, q = q ++ l /\ a = a ++ l) by (intros P Q0 q0 a0 HP HQ; split; [exact HP|]; apply N; exact HQ).
  destruct s as [c t p ru pm am n q k f d r lo tr re a e o b]. unfold calm. intros C H R' R Rt. fields.
  destruct x; cbn [turn] in H; unfold step_c, step_t, wake_c, wake_t in H; fields.
  - destruct b; [discriminate|]. destruct c; fields.
    + destruct p as [|[l| |] p]; turns H; fields; apply N2; tauto.
    + destruct pm; turns H; fields; apply N2; tauto.
    + destruct (forallb _ l); turns H; fields; [|apply N2; tauto]. destruct t; fields; (split; [split; discriminate || tauto|]; split; [reflexivity|exists l; auto]).
    + destruct am; turns H; fields; apply N2; tauto.
    + turns H; fields; apply N2; tauto.
    + destruct pm; turns H; fields; apply N2; tauto.
    + destruct k0; turns H; destruct t; fields; try (apply N2; [first [tauto|split; discriminate]|reflexivity]); exfalso; cbn [closing negb] in *; congruence.
    + destruct (c_cond _); [destruct i|]; turns H; fields; apply N2; tauto.
    + discriminate.
    + destruct am; turns H; fields; apply N2; tauto.
    + destruct r; turns H; fields; apply N2; tauto.
    + destruct r; turns H; fields; apply N2; tauto.
    + turns H; fields; apply N2; tauto.
    + destruct pm; turns H; fields; apply N2; tauto.
    + rewrite (C eq_refl) in *. rewrite On in H. turns H; fields; apply N2; tauto.
    + turns H; fields; apply N2; tauto.
    + turns H; fields; apply N2; tauto.
    + destruct t; turns H; fields; apply N2; tauto.
    + destruct r; turns H; fields; exfalso; cbn [closing negb] in *; congruence.
    + discriminate.
  - destruct b; [discriminate|]. destruct t; fields.
    + turns H; fields. apply N2; [destruct (negb (closing c)); split; discriminate|reflexivity].
    + destruct pm; turns H; fields; apply N2; [split; discriminate|reflexivity].
    + destruct (t_cond _ _); turns H; fields; apply N2; try (split; discriminate); reflexivity.
    + discriminate.
    + destruct pm; turns H; fields; apply N2; [split; discriminate|reflexivity].
    + exfalso. apply (proj1 C). reflexivity.
    + exfalso. apply (proj2 C). reflexivity.
    + destruct r; turns H; fields; apply N2; try (split; discriminate); reflexivity.
    + destruct r; turns H; fields; apply N2; try (split; discriminate); reflexivity.
    + turns H; fields; apply N2; try (split; discriminate); reflexivity.
    + destruct am; turns H; fields; apply N2; try (split; discriminate); reflexivity.
    + turns H; fields; apply N2; try (split; discriminate); reflexivity.
    + turns H. destruct c; fields; apply N2; try (split; discriminate); reflexivity.
    + discriminate.
  - destruct c; turns H; fields; apply N2; tauto.
  - destruct t; turns H; fields; apply N2; try (split; discriminate); reflexivity.
Qed.
Lemma finish_fields g : forall l a, v_bad a = false -> v_t a = TRun -> v_local a = l ->
  let a' := ModelAsync.run g a (repeat MThread (Datatypes.S (length l))) in
  v_t a' = TStore /\ v_queue a' = v_queue a /\ v_acc a' = v_acc a /\ v_running a' = v_running a /\ v_bad a' = false /\ v_c a' = v_c a.
Proof.
  induction l as [|o l IH]; intros a Hb Ht Hl.
  - cbn [length repeat ModelAsync.run turn]. unfold step_t. rewrite Hb, Ht, Hl. fields. repeat split; auto.
  - change (repeat MThread (Datatypes.S (length (o :: l)))) with (MThread :: repeat MThread (Datatypes.S (length l))). cbn [ModelAsync.run turn]. unfold step_t at 1 2 3 4 5 6. rewrite Hb, Ht, Hl.
    set (a1 := set_local _ _ _). destruct (IH a1) as (A & B & C & D & F & G); [exact Hb|exact Ht|reflexivity|]. cbn zeta. split; [exact A|]. split; [exact B|]. split; [exact C|]. auto.
Qed.
