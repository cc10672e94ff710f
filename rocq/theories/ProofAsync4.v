(* Every accepted PUT is executed once and its result returned once *)
From Verif Require Import ModelBytes ModelKey ModelWire ModelHist ModelMsg ModelAsync SpecAsync ProofAsync ProofAsync2 ProofAsync3.
Local Open Scope nat_scope.

Lemma at_concat i a b : at_ds i (concat (a ++ [b])) = at_ds i (concat a) ++ at_ds i b.
Proof. rewrite concat_app, at_app. cbn [concat]. rewrite app_nil_r. reflexivity. Qed.
Ltac lists := repeat first [rewrite at_app in * | rewrite at_concat in * | rewrite at_nil in * | rewrite <- app_assoc in * | rewrite app_nil_r in * | rewrite app_nil_l in *].

Lemma nt_shape z : exists t', notify_thread z = set_t z t'.
Proof. unfold notify_thread. destruct z as [c t]; pcs. destruct t; eexists; reflexivity. Qed.
Lemma nc_shape z : exists c', notify_client z = set_c z c' /\ closing c' = closing (v_c z) /\ has_res c' = has_res (v_c z).
Proof. unfold notify_client. destruct z as [c t]; pcs. destruct c; eexists; (split; [reflexivity|split; reflexivity]). Qed.

Lemma data_c g s s' : order_ok g -> inv_lock s -> inv_wait g s -> inv_local s -> inv_round s -> inv_data s -> step_c g s = Some s' -> v_bad s' = false -> inv_data s'.
Proof.
  intros Or. pose proof (order_nil g Or) as On. destruct s as [c t p ru pm am n q k f d r lo tr re a x o b]. unfold inv_lock, inv_wait, inv_round, inv_local, inv_data.
  pcs. intros _ (W1 & _) (_ & _ & _ & _ & L5 & L6) R D H Hb i0. subst ru.
  specialize (D i0). destruct D as ((rr & D1 & D2) & D3).
  unfold step_c in H. cbn [v_bad] in H. destruct b; [discriminate|].
  destruct c as [|l|l|w|w i|w i|w i|w i|w i|w i| | | | | | | | | |]; cbn [v_c] in H; cbv zeta in H;
    try (match type of H with context [notify_thread ?z] => let E := fresh in destruct (nt_shape z) as [t' E]; rewrite E in H; clear E end); try destruct w; pcs; split_step H; pcs; use; subst; pcs; use;
    try rewrite On in *; try discriminate; lists; (split; [|intros; use; subst; lists; fin]);
    try (exists []; lists; split; [fin|auto]; fail); try (exists rr; lists; split; [fin|intros; use; fin]; fail).
  - exists []. rewrite D1. lists. auto.
  - exists (at_ds i0 q ++ rr). split; [exact D1|discriminate].
  - rewrite L5 in D3. lists. exact D3.
  - exists (at_ds i0 q ++ rr). split; [exact D1|discriminate].
  - exists (at_ds i0 q ++ rr). split; [exact D1|discriminate].
Qed.
Lemma data_t g s s' : order_ok g -> inv_lock s -> inv_wait g s -> inv_local s -> inv_round s -> inv_data s -> step_t g s = Some s' -> v_bad s' = false -> inv_data s'.
Proof.
  intros Or. destruct s as [c t p ru pm am n q k f d r lo tr re a x o b]. unfold inv_lock, inv_wait, inv_round, inv_local, inv_data.
  pcs. intros _ (W1 & _) (L1 & L2 & L3 & L4 & _ & _) R D H Hb i0. subst ru.
  specialize (D i0). destruct D as ((rr & D1 & D2) & D3). destruct (Or q) as [_ Oq]. specialize (Oq i0).
  unfold step_t in H. cbn [v_bad] in H. destruct b; [discriminate|]. cbn [v_t] in H.
  destruct t; try (match type of H with context [notify_client ?z] => let E := fresh in destruct (nc_shape z) as (c' & E & Ec & Eh); rewrite E in H; clear E end);
    pcs; split_step H; pcs; use; subst; pcs; try discriminate; try rewrite Ec in *; try rewrite Eh in *; lists;
    (split; [first [exists rr; split; [|exact D2] | exists []; split; [|reflexivity]]; lists; try exact D1|try exact D3]).
  - rewrite Oq. exact D1.
  - rewrite D1. change (o0 :: l) with ([o0] ++ l). lists. reflexivity.
  - intros Hc. rewrite (D3 Hc). lists. reflexivity.
Qed.

Lemma wake_c_inv g s s' : inv g s -> wake_c s = Some s' -> inv g s'.
Proof.
  unfold inv, inv_lock, inv_wait, inv_round, inv_local, inv_data. destruct s as [c t p ru pm am n q k f d r lo tr re a x o b]. unfold wake_c. pcs.
  destruct c; try discriminate. intros (A & B & C & D & E) H. apply (f_equal (fun z => match z with Some y => y | None => s' end)) in H. subst s'. pcs.
  split; [exact A|]. destruct B as (B1 & B2 & B3 & B4 & B5). split; [destruct k0; [| |contradiction]; repeat split; fin; use; fin|]. split; [exact C|].
  destruct D as (D1 & D2 & D3 & D4 & D5 & D6). split; [repeat split; fin; intros; use; fin|exact E].
Qed.
Lemma wake_t_inv g s s' : inv g s -> wake_t s = Some s' -> inv g s'.
Proof.
  unfold inv, inv_lock, inv_wait, inv_round, inv_local, inv_data. destruct s as [c t p ru pm am n q k f d r lo tr re a x o b]. unfold wake_t. pcs.
  destruct t; try discriminate. intros (A & B & C & D & E) H. apply (f_equal (fun z => match z with Some y => y | None => s' end)) in H. subst s'. pcs.
  split; [exact A|]. destruct B as (B1 & B2 & B3 & B4 & B5). split; [|split; [exact C|]].
  - split; [exact B1|]. split; [discriminate|]. split; [discriminate|]. split; [discriminate|].
    destruct c as [|l9|l9|w|w i|w i|w i|w i|w i|w i| | | | | | | | | |]; try destruct w; pcs; auto; intros Hd; specialize (B5 Hd); discriminate.
  - destruct D as (D1 & D2 & D3 & D4 & D5 & D6). split; [|exact E]. split; [intros; apply D1; discriminate|]. split; [exact D2|]. split; [discriminate|]. auto.
Qed.
Lemma inv_c g s s' : order_ok g -> inv g s -> step_c g s = Some s' -> v_bad s' = false -> inv g s'.
Proof.
  intros Or (A & B & C & D & E) H Hb. split; [eapply lock_c; eassumption|]. split; [eapply wait_c; eassumption|]. split; [eapply round_c; eassumption|].
  split; [eapply local_c; eassumption|eapply data_c; eassumption].
Qed.
Lemma inv_t g s s' : order_ok g -> inv g s -> step_t g s = Some s' -> v_bad s' = false -> inv g s'.
Proof.
  intros Or (A & B & C & D & E) H Hb. split; [eapply lock_t; eassumption|]. split; [eapply wait_t; eassumption|]. split; [eapply round_t; eassumption|].
  split; [eapply local_t; eassumption|eapply data_t; eassumption].
Qed.
Lemma wake_bad s s' m g : turn g s m = Some s' -> v_bad s = true -> v_bad s' = true.
Proof.
  destruct m; cbn [turn]; unfold step_c, step_t, wake_c, wake_t; intros H Hb; rewrite ?Hb in H; try discriminate.
  - destruct (v_c s); try discriminate. apply (f_equal (fun z => match z with Some y => v_bad y | None => true end)) in H. rewrite <- H. exact Hb.
  - destruct (v_t s); try discriminate. apply (f_equal (fun z => match z with Some y => v_bad y | None => true end)) in H. rewrite <- H. exact Hb.
Qed.
Lemma run_bad g l : forall s, v_bad s = true -> v_bad (run g s l) = true.
Proof. induction l as [|m l IH]; intros s H; [exact H|]. cbn [run]. apply IH. destruct (turn g s m) eqn:E; [eapply wake_bad; eassumption|exact H]. Qed.
Lemma run_inv g l : order_ok g -> forall s, inv g s -> v_bad (run g s l) = false -> inv g (run g s l).
Proof.
  intros Or. induction l as [|m l IH]; intros s I Hb; [exact I|]. cbn [run] in *.
  destruct (turn g s m) as [s1|] eqn:E; [|apply IH; assumption]. apply IH; [|exact Hb].
  assert (Hb1 : v_bad s1 = false) by (destruct (v_bad s1) eqn:Eb; [rewrite (run_bad g l s1 Eb) in Hb; discriminate|reflexivity]).
  destruct m; cbn [turn] in E; [eapply inv_c|eapply inv_t|eapply wake_c_inv|eapply wake_t_inv]; eassumption.
Qed.
Lemma reach_inv g p s : order_ok g -> reach g p s -> v_bad s = false -> inv g s.
Proof. intros Or [l ->] Hb. apply run_inv; [exact Or|apply start_inv|exact Hb]. Qed.

(* every accepted PUT is in exactly one place, in order *)
Lemma once g p s i : order_ok g -> reach g p s -> v_bad s = false -> v_running s = true ->
  at_ds i (v_acc s) = at_ds i (v_exec s) ++ at_ds i (v_local s) ++ at_ds i (v_queue s).
Proof.
  intros Or R Hb Hr. destruct (reach_inv g p s Or R Hb) as (_ & _ & _ & _ & D). destruct (D i) as ((r & E & Er) & _). rewrite E, (Er Hr), app_nil_r. reflexivity.
Qed.
(* at all times: what was executed is the beginning of what was accepted *)
Lemma prefix g p s i : order_ok g -> reach g p s -> v_bad s = false -> exists r, at_ds i (v_acc s) = at_ds i (v_exec s) ++ r.
Proof. intros Or R Hb. destruct (reach_inv g p s Or R Hb) as (_ & _ & _ & _ & D). destruct (D i) as ((r & E & Er) & _). rewrite E. eauto. Qed.
(* when FlushPuts returns, everything accepted has been executed, and the results returned so far are those of everything accepted *)
Lemma flushed_all g p s s' i : order_ok g -> reach g p s -> v_bad s = false -> v_c s = FDone -> step_c g s = Some s' ->
  at_ds i (v_exec s') = at_ds i (v_acc s') /\ at_ds i (concat (v_out s')) = at_ds i (v_acc s').
Proof.
  intros Or R Hb Hc H. destruct (reach_inv g p s Or R Hb) as (_ & W & Ro & L & D). unfold step_c in H. rewrite Hb, Hc in H.
  assert (E : s' = set_c (set_pm (set_hist (set_queue s (v_len s) (v_queue s) 0 (v_flushed s)) (v_acc s) (v_exec s) (v_out s ++ [v_res s])) None) CIdle) by congruence.
  subst s'. pcs. destruct W as (W1 & _). unfold inv_round in Ro. rewrite Hc in *. pcs. specialize (Ro W1). destruct Ro as (Q1 & Q2 & Q3).
  destruct (D i) as ((r & E & Er) & E2). rewrite Hc in *. pcs. specialize (Er W1). specialize (E2 eq_refl). subst r. rewrite Q1, Q2, Q3 in *. lists.
  destruct L as (_ & _ & _ & _ & Hh & _). rewrite Hc in Hh. rewrite (Hh eq_refl) in E2. lists. split; congruence.
Qed.
