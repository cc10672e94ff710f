(* Concrete schedules of the two threads *)
From Verif Require Import ModelBytes ModelKey ModelWire ModelHist ModelMsg ModelAsync SpecAsync ProofAsync ProofAsync2 ProofAsync4 ProofAsync5 ProofAsync7.
Local Open Scope nat_scope.

Definition aop (i : nat) (s : string) : op := mkOp i (mkPut (mkBlob false (bstr s) 0%N) 1%N (mkBlob false (bstr "p") 0%N) 2%N (mkBlob false (bstr "o") 0%N)).
Definition cs (n : nat) : list move := repeat MClient n.
Definition ts (n : nat) : list move := repeat MThread n.
(* one datastore; the thread starts with the first PUT *)
Definition ag : cfg := mkCfg 1 1 1 (fun l => l).
Lemma ag_order : order_ok ag.
Proof. intros l. split; [apply Permutation_refl|reflexivity]. Qed.
Definition ap : list cmd := [KPut [aop 0 "s"]; KFlush; KClose].
(* opening; the PUT; the thread takes it and the client starts to flush; the thread begins with the next round before the
   client has asked for it a second time, and with one more when the client no longer waits *)
Definition a_open : list move := cs 5 ++ ts 10 ++ cs 6 ++ ts 10 ++ cs 2.
Definition a_race : list move := a_open ++ cs 3 ++ ts 4 ++ cs 6 ++ ts 11 ++ cs 6 ++ ts 6 ++ cs 2 ++ ts 5.
Definition a_bad : list move := a_race ++ ts 1 ++ cs 2 ++ ts 1.
Lemma a_race_racing : racing (run ag (start ag ap) a_race) /\ v_bad (run ag (start ag ap) a_race) = false.
Proof. vm_compute. repeat split; reflexivity. Qed.
Lemma a_bad_bad : v_bad (run ag (start ag ap) a_bad) = true.
Proof. vm_compute. reflexivity. Qed.
(* a schedule that goes well: until the end of the flush, and until the end *)
Definition a_good : list move := a_open ++ cs 3 ++ ts 12 ++ cs 6 ++ ts 10 ++ cs 6 ++ ts 10 ++ cs 2 ++ cs 5.
Definition a_parts (s : st) := (v_c s, v_t s, v_bad s, v_acc s, v_exec s, v_local s, v_out s, v_running s).
Lemma a_good_run : a_parts (run ag (start ag ap) a_good) = (FDone, TLock, false, [aop 0 "s"], [aop 0 "s"], [], [], true).
Proof. vm_compute. reflexivity. Qed.
Definition a_done : list move := a_good ++ cs 20 ++ ts 20 ++ cs 20.
Lemma a_done_run : a_parts (run ag (start ag ap) a_done) = (CGone, TEnd, false, [aop 0 "s"], [aop 0 "s"], [], [[aop 0 "s"]], false).
Proof. vm_compute. reflexivity. Qed.
(* PUTs that were not flushed before Close: not carried out; or carried out, but the results are lost *)
Definition ag2 : cfg := mkCfg 2 1 1 (fun l => l).
Lemma ag2_order : order_ok ag2.
Proof. intros l. split; [apply Permutation_refl|reflexivity]. Qed.
Definition ap_close : list cmd := [KPut [aop 0 "s"]; KClose].
Definition a_drop : list move := a_open ++ cs 3 ++ cs 20 ++ ts 20 ++ cs 20.
Lemma a_drop_run : a_parts (run ag2 (start ag2 ap_close) a_drop) = (CGone, TEnd, false, [aop 0 "s"], [], [], [], false).
Proof. vm_compute. reflexivity. Qed.
Definition a_lose : list move := a_open ++ cs 3 ++ ts 20 ++ cs 20 ++ ts 20 ++ cs 20.
Lemma a_lose_run : a_parts (run ag (start ag ap_close) a_lose) = (CGone, TEnd, false, [aop 0 "s"], [aop 0 "s"], [], [], false).
Proof. vm_compute. reflexivity. Qed.
(* two datastores, one range server *)
Definition ag3 : cfg := mkCfg 5 2 1 (fun l => l).
Lemma ag3_order : order_ok ag3.
Proof. intros l. split; [apply Permutation_refl|reflexivity]. Qed.
Definition ap_two : list cmd := [KPut [aop 1 "s"]].
Definition a_put : list move := a_open ++ cs 2.
Lemma a_put_run : let s := run ag3 (start ag3 ap_two) a_put in v_c s = CPutDo [aop 1 "s"] /\ v_bad s = false.
Proof. vm_compute. split; reflexivity. Qed.
Lemma a_put_bad : v_bad (run ag3 (start ag3 ap_two) (a_put ++ cs 1)) = true.
Proof. vm_compute. reflexivity. Qed.
(* three PUTs to two datastores of which never three are queued *)
Definition ag4 : cfg := mkCfg 3 2 2 (fun l => filter (fun o => o_ds o =? 1) l ++ filter (fun o => negb (o_ds o =? 1)) l).
Lemma ag4_order : order_ok ag4.
Proof.
  intros l. cbn [g_order ag4]. split.
  - induction l as [|o l IH]; [apply Permutation_refl|]. cbn [filter]. destruct (o_ds o =? 1); cbn [negb app]; [apply perm_skip, IH|].
    apply Permutation_sym, Permutation_cons_app, Permutation_sym, IH.
  - intros i. rewrite at_app. unfold at_ds. induction l as [|o l IH]; [reflexivity|]. cbn [filter].
    destruct (o_ds o =? 1) eqn:E1; cbn [negb filter]; destruct (o_ds o =? i) eqn:Ei; cbn [app]; try (rewrite IH; reflexivity); try exact IH.
    apply Nat.eqb_eq in Ei. subst i. rewrite <- IH. clear IH.
    assert (N : filter (fun x => o_ds x =? o_ds o) (filter (fun x => o_ds x =? 1) l) = []).
    { induction l as [|y l IH]; [reflexivity|]. cbn [filter]. destruct (o_ds y =? 1) eqn:Ey; [|exact IH]. cbn [filter]. apply Nat.eqb_eq in Ey. rewrite Ey, Nat.eqb_sym, E1. exact IH. }
    rewrite N. reflexivity.
Qed.
Definition ap4 : list cmd := [KPut [aop 0 "s"; aop 1 "t"]; KFlush; KPut [aop 1 "u"]; KFlush; KClose].
Lemma ap4_below : below ag4 0 ap4 /\ in_range ag4 ap4.
Proof. split; [cbn; lia|]. unfold in_range, ap4. repeat (apply Forall_cons || apply Forall_nil); cbn; try exact I; lia. Qed.
Fixpoint weave (n : nat) : list move := match n with O => [] | S m => MClient :: MThread :: MWakeThread :: weave m end.
Lemma ap4_run : a_parts (run ag4 (start ag4 ap4) (weave 200)) =
  (CGone, TEnd, false, [aop 0 "s"; aop 1 "t"; aop 1 "u"], [aop 1 "t"; aop 0 "s"; aop 1 "u"], [], [[aop 1 "t"; aop 0 "s"]; [aop 1 "u"]], false).
Proof. vm_compute. reflexivity. Qed.
Lemma ap_range : in_range ag ap.
Proof. unfold in_range, ap. repeat (apply Forall_cons || apply Forall_nil); cbn; try exact I; lia. Qed.
Lemma ap_two_range : in_range ag3 ap_two.
Proof. unfold in_range, ap_two. repeat (apply Forall_cons || apply Forall_nil); cbn; try exact I; lia. Qed.
(* counting the steps of a schedule *)
Fixpoint count_run (g : cfg) (s : st) (l : list move) : nat * nat * st :=
  match l with
  | [] => (0, 0, s)
  | m :: l' =>
      match turn g s m with
      | None => count_run g s l'
      | Some s1 => let '(n, w, s') := count_run g s1 l' in match m with MClient | MThread => (S n, w, s') | _ => (n, S w, s') end
      end
  end.
Lemma count_steps g l : forall s n w s', count_run g s l = (n, w, s') -> steps g n w s s'.
Proof.
  induction l as [|m l IH]; intros s n w s' H; cbn [count_run] in H.
  - assert (E : n = 0 /\ w = 0 /\ s' = s) by (repeat split; congruence). destruct E as (-> & -> & ->). constructor.
  - destruct (turn g s m) as [s1|] eqn:E; [|apply IH; exact H]. destruct (count_run g s1 l) as [[n1 w1] s2] eqn:E1. apply IH in E1.
    destruct m; cbn [turn] in E.
    + assert (G : n = S n1 /\ w = w1 /\ s' = s2) by (repeat split; congruence). destruct G as (-> & -> & ->). eapply steps_c; eassumption.
    + assert (G : n = S n1 /\ w = w1 /\ s' = s2) by (repeat split; congruence). destruct G as (-> & -> & ->). eapply steps_t; eassumption.
    + assert (G : n = n1 /\ w = S w1 /\ s' = s2) by (repeat split; congruence). destruct G as (-> & -> & ->). eapply steps_wc; eassumption.
    + assert (G : n = n1 /\ w = S w1 /\ s' = s2) by (repeat split; congruence). destruct G as (-> & -> & ->). eapply steps_wt; eassumption.
Qed.
Lemma ap4_steps : order_ok ag4 /\ 1 <= g_max ag4 /\ exists n w s, steps ag4 n w (start ag4 ap4) s /\ step_c ag4 s = None /\ step_t ag4 s = None.
Proof.
  split; [exact ag4_order|]. split; [cbn; lia|]. destruct (count_run ag4 (start ag4 ap4) (weave 200)) as [[n w] s] eqn:E.
  exists n, w, s. split; [exact (count_steps _ _ _ _ _ _ E)|].
  assert (F : s = snd (count_run ag4 (start ag4 ap4) (weave 200))) by (rewrite E; reflexivity). rewrite F. split; vm_compute; reflexivity.
Qed.
