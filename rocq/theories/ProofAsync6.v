(* Queues of the background thread, and programs without races *)
From Verif Require Import ModelBytes ModelKey ModelWire ModelHist ModelMsg ModelAsync SpecAsync ProofAsync ProofAsync2 ProofAsync3 ProofAsync4 ProofAsync5.
Local Open Scope nat_scope.

(* the size of queues.puts.queue *)
Definition opening (c : cpc) : bool :=
  match c with WLock FromOpen | WReset FromOpen false | WPuts FromOpen false | WSet FromOpen false | WTest FromOpen false | WWait FromOpen false | WWake FromOpen false => true | _ => false end.
Definition not_taken (t : tpc) : bool := match t with TLoop | TLock | TTest | TWait | TWake | TTake => true | _ => false end.
Definition inv_len (g : cfg) (s : st) : Prop :=
  v_running s = true -> v_len s = g_rs g \/ v_len s = g_total g /\ opening (v_c s) = true /\ v_done s = false /\ not_taken (v_t s) = true.
Lemma nt_shape2 z : exists t', notify_thread z = set_t z t' /\ (not_taken (v_t z) = true -> not_taken t' = true).
Proof. unfold notify_thread. destruct z as [c t]; pcs. destruct t; eexists; split; try reflexivity; auto. Qed.
Lemma nc_shape2 z : exists c', notify_client z = set_c z c' /\ opening c' = opening (v_c z).
Proof. unfold notify_client. destruct z as [c t]; pcs. destruct c; eexists; split; try reflexivity; destruct k, i; reflexivity. Qed.

Lemma len_c g s s' : inv_wait g s -> inv_len g s -> step_c g s = Some s' -> inv_len g s'.
Proof.
  destruct s as [c t p ru pm am n q k f d r lo tr re a x o b]. unfold inv_wait, inv_len. pcs. intros (W1 & _) L H. subst ru.
  unfold step_c in H. cbn [v_bad] in H. destruct b; [discriminate|].
  destruct c as [|l|l|w|w i|w i|w i|w i|w i|w i| | | | | | | | | |]; cbn [v_c] in H; cbv zeta in H;
    try (match type of H with context [notify_thread ?z] => let E := fresh in destruct (nt_shape2 z) as (t' & E & Et); rewrite E in H; clear E end);
    try destruct w; try destruct i; pcs; split_step H; pcs; cbn [opening] in *; intros Hr; try discriminate Hr; use; fin; destruct L as [L|(L & Lo & Ld & Lt)]; fin.
  right. auto.
Qed.
Lemma len_t g s s' : inv_len g s -> step_t g s = Some s' -> inv_len g s'.
Proof.
  destruct s as [c t p ru pm am n q k f d r lo tr re a x o b]. unfold inv_len. pcs. intros L H.
  unfold step_t in H. cbn [v_bad] in H. destruct b; [discriminate|]. cbn [v_t] in H.
  destruct t; try (match type of H with context [notify_client ?z] => let E := fresh in destruct (nc_shape2 z) as (c' & E & Ec); rewrite E in H; clear E end);
    pcs; split_step H; pcs; cbn [not_taken] in *; intros Hr; try discriminate Hr; use; fin; destruct L as [L|(L & Lo & Ld & Lt)]; fin.
Qed.
Lemma len_wake_c g s s' : inv_len g s -> wake_c s = Some s' -> inv_len g s'.
Proof.
  destruct s as [c t p ru pm am n q k f d r lo tr re a x o b]. unfold inv_len, wake_c. pcs. intros L H.
  destruct c; split_step H; pcs. destruct k0, i; exact L.
Qed.
Lemma len_wake_t g s s' : inv_len g s -> wake_t s = Some s' -> inv_len g s'.
Proof.
  destruct s as [c t p ru pm am n q k f d r lo tr re a x o b]. unfold inv_len, wake_t. pcs. intros L H.
  destruct t; split_step H; pcs. exact L.
Qed.

(* an invariant of all executions without undefined behaviour *)
Lemma run_induct g (P : st -> Prop) : order_ok g ->
  (forall s s', inv g s -> P s -> step_c g s = Some s' -> v_bad s' = false -> P s') ->
  (forall s s', inv g s -> P s -> step_t g s = Some s' -> v_bad s' = false -> P s') ->
  (forall s s', inv g s -> P s -> wake_c s = Some s' -> P s') ->
  (forall s s', inv g s -> P s -> wake_t s = Some s' -> P s') ->
  forall l s, inv g s -> P s -> v_bad (run g s l) = false -> P (run g s l).
Proof.
  intros Or Pc Pt Pwc Pwt. induction l as [|m l IH]; intros s I HP Hb; [exact HP|]. cbn [run] in *.
  destruct (turn g s m) as [s1|] eqn:E; [|apply IH; assumption].
  assert (Hb1 : v_bad s1 = false) by (destruct (v_bad s1) eqn:Eb; [rewrite (run_bad g l s1 Eb) in Hb; discriminate|reflexivity]).
  assert (I1 : inv g s1) by (destruct m; cbn [turn] in E; [eapply inv_c|eapply inv_t|eapply wake_c_inv|eapply wake_t_inv]; eassumption).
  apply IH; [exact I1| |exact Hb]. destruct m; cbn [turn] in E; [exact (Pc _ _ I HP E Hb1)|exact (Pt _ _ I HP E Hb1)|exact (Pwc _ _ I HP E)|exact (Pwt _ _ I HP E)].
Qed.
Lemma reach_len g p s : order_ok g -> reach g p s -> v_bad s = false -> inv_len g s.
Proof.
  intros Or [l ->] Hb. apply run_induct; try assumption.
  - intros s s' (_ & W & _) L H _. eapply len_c; eassumption.
  - intros s s' _ L H _. eapply len_t; eassumption.
  - intros s s' _. apply len_wake_c.
  - intros s s' _. apply len_wake_t.
  - apply start_inv.
  - intros _. right. repeat split; reflexivity.
Qed.
(* at the time of a PUT there is a queue for each range server, and for no more datastores *)
Lemma put_len g p s l : order_ok g -> reach g p s -> v_bad s = false -> v_c s = CPutDo l -> v_len s = g_rs g.
Proof.
  intros Or R Hb Hc. pose proof (reach_inv g p s Or R Hb) as (_ & (W & _) & _). rewrite Hc in W. pcs.
  destruct (reach_len g p s Or R Hb W) as [E|(_ & E & _)]; [exact E|rewrite Hc in E; discriminate].
Qed.
Lemma put_ub g p s l : order_ok g -> reach g p s -> v_bad s = false -> v_c s = CPutDo l ->
  exists s', step_c g s = Some s' /\ (v_bad s' = true <-> exists o, In o l /\ g_rs g <= o_ds o).
Proof.
  intros Or R Hb Hc. pose proof (put_len g p s l Or R Hb Hc) as E. unfold step_c. rewrite Hb, Hc, E.
  destruct (forallb (fun o => o_ds o <? g_rs g) l) eqn:F; eexists; (split; [reflexivity|]).
  - pcs. unfold notify_thread. pcs. rewrite forallb_forall in F. split.
    + intros F9. exfalso. destruct (v_t s); pcs; congruence.
    + intros (o & Ho & H9). specialize (F o Ho). apply Nat.ltb_lt in F. lia.
  - split; [intros _|reflexivity]. clear -F. induction l as [|o l IH]; [discriminate|]. cbn [forallb] in F. destruct (o_ds o <? g_rs g) eqn:E; [destruct (IH F) as (o' & H1 & H2); exists o'; split; [right; exact H1|exact H2]|].
    exists o. split; [left; reflexivity|apply Nat.ltb_ge, E].
Qed.

(* programs that never fill the queue: the thread works only while the client waits for it *)
Definition quiet (t : tpc) : bool := match t with TNotify | TLoop | TLock | TTest | TWake | TWait => true | _ => false end.
(* what the client has yet to do, with n PUTs queued at most *)
Definition left_ok (g : cfg) (n : nat) (c : cpc) (p : list cmd) : Prop :=
  match c with
  | CIdle => below g n p
  | CPutLock l | CPutDo l => below g (n + length l) p
  | WLock FromFlush | WReset FromFlush _ | WPuts FromFlush _ | WSet FromFlush _ | WTest FromFlush _ | WWait FromFlush _ | WWake FromFlush _
  | FAppend | FFree | FNull | FLock | FRun | FDone => n < g_max g /\ below g 0 p
  | WLock FromOpen | WReset FromOpen _ | WPuts FromOpen _ | WSet FromOpen _ | WTest FromOpen _ | WWait FromOpen _ | WWake FromOpen _ => below g n p
  | _ => n < g_max g
  end.
Definition calm (s : st) : Prop :=
  v_running s = true ->
  match v_c s with
  | WTest _ _ | WWait _ _ | WWake _ _ =>
      if v_done s then quiet (v_t s) = true /\ v_flushed s = false
      else v_flushed s = true /\ (quiet (v_t s) = true \/ v_t s = TTake) \/ v_flushed s = false /\ busy (v_t s) = true
  | _ => quiet (v_t s) = true /\ v_flushed s = false
  end.
Definition inv_below (g : cfg) (s : st) : Prop :=
  (exists n, v_count s <= n /\ left_ok g n (v_c s) (v_prog s)) /\ calm s /\ (v_t s = TApp -> exists l, v_ptr s = PLive l) /\ (v_c s = XFree -> v_t s = TEnd).
Lemma below_max g p : forall n, below g n p -> n < g_max g.
Proof. induction p as [|[l| |] p IH]; intros n; cbn [below]; [auto| |tauto|auto]. intros H. apply IH in H. lia. Qed.
Lemma below_mono g p : forall n m, m <= n -> below g n p -> below g m p.
Proof. induction p as [|[l| |] p IH]; intros n m Hm; cbn [below]; [lia| |intros [H1 H2]; split; [lia|exact H2]|lia]. apply IH. lia. Qed.
Lemma left_max g n c p : left_ok g n c p -> n < g_max g.
Proof.
  destruct c as [|l|l|w|w i|w i|w i|w i|w i|w i| | | | | | | | | |]; try destruct w; cbn [left_ok]; try tauto; intros H; apply below_max in H; lia.
Qed.

Lemma nt_shape3 z : exists t', notify_thread z = set_t z t' /\ (quiet (v_t z) = true -> quiet t' = true) /\ (t' = TApp -> v_t z = TApp) /\ (t' = TEnd <-> v_t z = TEnd) /\ (busy t' = busy (v_t z)) /\ (v_t z = TTake -> t' = TTake).
Proof. unfold notify_thread. destruct z as [c t]; pcs. destruct t; eexists; (split; [reflexivity|]); repeat split; auto; discriminate. Qed.
Lemma below_c g s s' : inv g s -> inv_below g s -> step_c g s = Some s' -> v_bad s' = false -> inv_below g s'.
Proof.
  destruct s as [c t p ru pm am n q k f d r lo tr re a x o b]. unfold inv, inv_lock, inv_wait, inv_below, calm. pcs.
  intros ((H1 & H2 & H3 & H4) & (W1 & W2 & W3 & W4 & W5) & _ & L & _) ((m & Hm & Lm) & C & Ta & Tx) H Hb. subst ru pm am.
  unfold step_c in H. cbn [v_bad] in H. destruct b; [discriminate|].
  destruct c as [|l|l|w|w i|w i|w i|w i|w i|w i| | | | | | | | | |]; cbn [v_c] in H; cbv zeta in H;
    try (match type of H with context [notify_thread ?z] => let E := fresh in destruct (nt_shape3 z) as (t' & E & N1 & N2 & N3 & N4 & N5); rewrite E in H; clear E end);
    try destruct w; pcs; split_step H; pcs; cbn [left_ok below] in *; use.
  all: (split; [first [exists m; split; [lia|]; solve [tauto|auto] | exists (m + length l); split; [lia|]; solve [tauto|auto] | exists 0; split; [lia|tauto] | idtac]|]).
  all: try (split; [intros; fin; use; try tauto; fin|split; fin]; fail).
  all: (split; [auto|split; [intros ->; discriminate|discriminate]]).
Qed.
Lemma nc_shape3 z : exists c', notify_client z = set_c z c' /\ (c' = v_c z \/ exists k i, v_c z = WWait k i /\ c' = WWake k i).
Proof. unfold notify_client. destruct z as [c t]; pcs. destruct c; eexists; (split; [reflexivity|]); eauto 6. Qed.
Lemma below_t g s s' : inv g s -> inv_below g s -> step_t g s = Some s' -> v_bad s' = false -> inv_below g s'.
Proof.
  destruct s as [c t p ru pm am n q k f d r lo tr re a x o b]. unfold inv, inv_lock, inv_wait, inv_below, calm. pcs.
  intros ((H1 & H2 & H3 & H4) & (W1 & W2 & W3 & W4 & W5) & _ & L & _) ((m & Hm & Lm) & C & Ta & Tx) H Hb. pose proof (left_max _ _ _ _ Lm) as Mm. subst pm am.
  unfold inv_local in L. pcs. destruct L as (_ & _ & _ & L4 & _).
  unfold step_t in H. cbn [v_bad] in H. destruct b; [discriminate|]. cbn [v_t] in H.
  destruct t; pcs; cbn [quiet] in *; split_step H;
    (destruct c as [|l9|l9|w|w i|w i|w i|w i|w i|w i| | | | | | | | | |]; pcs; try discriminate;
     (split; [exists m; split; [cbn; lia|exact Lm]|]); try (split; [intros Hr; use; fin|split; [fin|fin]]; fail)).
  all: cbn [quiet] in *; try (specialize (Tx eq_refl); discriminate); try (specialize (L4 eq_refl); discriminate); try (specialize (C eq_refl); destruct C; discriminate).
  all: assert (Km : (g_max g <=? k) = false) by (apply Nat.leb_gt; lia); rewrite ?Km in *; rewrite ?orb_false_r in *.
  all: try (split; [intros Hr; subst; rewrite ?Hr in *; cbn [negb orb] in *; use; try destruct d; use; try discriminate; repeat (match goal with H : _ \/ _ |- _ => destruct H end; use; try discriminate); fin|split; [eauto; fin|fin]]; fail).
Qed.
