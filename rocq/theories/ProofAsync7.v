(* Programs that never fill the queue have neither races nor undefined behaviour *)
From Verif Require Import ModelBytes ModelKey ModelWire ModelHist ModelMsg ModelAsync SpecAsync ProofAsync ProofAsync2 ProofAsync3 ProofAsync4 ProofAsync5 ProofAsync6.
Local Open Scope nat_scope.

Lemma below_wake_c g s s' : inv_below g s -> wake_c s = Some s' -> inv_below g s'.
Proof.
  destruct s as [c t p ru pm am n q k f d r lo tr re a x o b]. unfold inv_below, calm, wake_c. pcs. intros ((m & Hm & Lm) & C & Ta & Tx) H.
  destruct c; split_step H; pcs. split; [exists m; split; [exact Hm|destruct k0; exact Lm]|]. split; [exact C|]. split; [exact Ta|discriminate].
Qed.
Lemma below_wake_t g s s' : inv_below g s -> wake_t s = Some s' -> inv_below g s'.
Proof.
  destruct s as [c t p ru pm am n q k f d r lo tr re a x o b]. unfold inv_below, calm, wake_t. pcs. intros ((m & Hm & Lm) & C & Ta & Tx) H.
  destruct t; split_step H; pcs. split; [exists m; split; [exact Hm|exact Lm]|]. cbn [quiet] in *. split; [|split; [discriminate|intros Ex; specialize (Tx Ex); discriminate]].
  intros Hr. specialize (C Hr). destruct c; try exact C; (destruct d; [exact C|]; destruct C as [[C1 C2]|[C1 C2]]; [auto|discriminate]).
Qed.
Definition range_c (g : cfg) (c : cpc) : Prop := match c with CPutLock l | CPutDo l => Forall (fun o => o_ds o < g_total g) l | _ => True end.
Definition inv_range (g : cfg) (s : st) : Prop := in_range g (v_prog s) /\ range_c g (v_c s).
Lemma range_turn g s s' m : inv_range g s -> turn g s m = Some s' -> inv_range g s'.
Proof.
  destruct s as [c t p ru pm am n q k f d r lo tr re a x o b]. unfold inv_range, in_range. pcs. intros [P C] H.
  destruct m; cbn [turn] in H.
  - unfold step_c in H. cbn [v_bad] in H. destruct b; [discriminate|]. cbn [v_c] in H. cbv zeta in H.
    destruct c as [|l|l|w|w i|w i|w i|w i|w i|w i| | | | | | | | | |];
    try (match type of H with context [notify_thread ?z] => let E := fresh in destruct (nt_shape z) as [t' E]; rewrite E in H; clear E end);
    try destruct w; pcs; split_step H; pcs; cbn [range_c] in *; try (split; [exact P|exact I]); try (split; [exact P|exact C]);
    inversion P; subst; auto.
  - unfold step_t in H. cbn [v_bad] in H. destruct b; [discriminate|]. cbn [v_t] in H.
    destruct t; try (match type of H with context [notify_client ?z] => let E := fresh in destruct (nc_shape3 z) as (c' & E & Ec); rewrite E in H; clear E end);
    pcs; split_step H; pcs; try (split; [exact P|exact C]).
    destruct Ec as [-> | (k1 & i1 & -> & ->)]; split; auto; exact I.
  - unfold wake_c in H. pcs. destruct c; split_step H; pcs. split; [exact P|exact I].
  - unfold wake_t in H. pcs. destruct t; split_step H; pcs. split; [exact P|exact C].
Qed.
Lemma no_bad_c g s s' : inv g s -> inv_len g s -> inv_range g s -> g_rs g = g_total g -> v_bad s = false -> step_c g s = Some s' -> v_bad s' = false.
Proof.
  intros (_ & (W & _) & _ & (_ & _ & _ & L4 & _) & _) Ln [_ Rc] Eg Hb H. unfold step_c in H. rewrite Hb in H.
  destruct (v_c s) as [|l|l|w|w i|w i|w i|w i|w i|w i| | | | | | | | | |] eqn:Hc; cbv zeta in H;
    try (match type of H with context [notify_thread ?z] => let E := fresh in destruct (nt_shape z) as [t' E]; rewrite E in H; clear E end).
  3: { assert (F : forallb (fun o => o_ds o <? v_len s) l = true).
       { apply forallb_forall. intros o Ho. apply Nat.ltb_lt. cbn [range_c] in Rc. rewrite Forall_forall in Rc. specialize (Rc o Ho).
         destruct (Ln W) as [E|(E & _)]; rewrite E; lia. }
       rewrite F in H. assert (E : s' = set_c (set_pm (set_t (set_hist (set_queue s (v_len s) (v_queue s ++ l) (v_count s + length l) (v_flushed s)) (v_acc s ++ l) (v_exec s) (v_out s)) t') None) CIdle) by congruence.
       rewrite E. pcs. exact Hb. }
  all: split_step H; pcs; try exact Hb; specialize (L4 eq_refl); congruence.
Qed.
Lemma no_bad_t g s s' : inv_below g s -> v_bad s = false -> step_t g s = Some s' -> v_bad s' = false.
Proof.
  intros (_ & _ & Ta & _) Hb H. unfold step_t in H. rewrite Hb in H. destruct (v_t s) eqn:Ht;
    try (match type of H with context [notify_client ?z] => let E := fresh in destruct (nc_shape3 z) as (c' & E & Ec); rewrite E in H; clear E end).
  all: split_step H; pcs; try exact Hb; destruct (Ta eq_refl); congruence.
Qed.
Definition all_inv g s := v_bad s = false /\ inv g s /\ inv_len g s /\ inv_below g s /\ inv_range g s.
Lemma all_turn g s s' m : order_ok g -> g_rs g = g_total g -> all_inv g s -> turn g s m = Some s' -> all_inv g s'.
Proof.
  intros Or Eg (Hb & I & Ln & B & R) H. assert (Hb' : v_bad s' = false).
  { destruct m; cbn [turn] in H; [eapply no_bad_c; eassumption|eapply no_bad_t; eassumption| |].
    - unfold wake_c in H. destruct (v_c s); try discriminate. split_step H. exact Hb.
    - unfold wake_t in H. destruct (v_t s); try discriminate. split_step H. exact Hb. }
  split; [exact Hb'|]. assert (I' := I). destruct I' as (_ & W & _).
  split; [destruct m; cbn [turn] in H; [eapply inv_c|eapply inv_t|eapply wake_c_inv|eapply wake_t_inv]; eassumption|].
  split; [destruct m; cbn [turn] in H; [eapply len_c|eapply len_t|eapply len_wake_c|eapply len_wake_t]; eassumption|].
  split; [destruct m; cbn [turn] in H; [eapply below_c|eapply below_t|eapply below_wake_c|eapply below_wake_t]; eassumption|].
  eapply range_turn; eassumption.
Qed.
Lemma all_reach g p s : order_ok g -> g_rs g = g_total g -> below g 0 p -> in_range g p -> reach g p s -> all_inv g s.
Proof.
  intros Or Eg B R [l ->]. assert (A : all_inv g (start g p)).
  { split; [reflexivity|]. split; [apply start_inv|]. split; [intros _; right; repeat split; reflexivity|].
    split; [|split; [exact R|exact I]]. split; [exists 0; split; [apply le_n|exact B]|]. split; [split; reflexivity|]. split; discriminate. }
  revert A. generalize (start g p). induction l as [|m l IH]; intros s A; [exact A|]. cbn [run]. apply IH. destruct (turn g s m) eqn:E; [eapply all_turn; eassumption|exact A].
Qed.
Lemma below_safe g p s : order_ok g -> g_rs g = g_total g -> below g 0 p -> in_range g p -> reach g p s -> v_bad s = false /\ ~ racing s.
Proof.
  intros Or Eg B R H. destruct (all_reach g p s Or Eg B R H) as (Hb & (_ & (W & _) & _) & _ & (_ & C & _ & Tx) & _). split; [exact Hb|].
  intros [Rc Rt]. unfold calm in C. destruct (v_c s) eqn:Ec; try discriminate; cbn [closing negb] in W.
  - destruct (C W) as [Q _]. destruct (v_t s); discriminate.
  - destruct (C W) as [Q _]. destruct (v_t s); discriminate.
  - destruct (C W) as [Q _]. destruct (v_t s); discriminate.
  - rewrite (Tx eq_refl) in Rt. discriminate.
Qed.

(* the thread has ended when Close frees the results *)
Lemma joined g p s : order_ok g -> reach g p s -> v_bad s = false -> v_c s = XFree \/ v_c s = CGone -> v_t s = TEnd.
Proof.
  intros Or [l ->] Hb. apply (run_induct g (fun s => v_c s = XFree \/ v_c s = CGone -> v_t s = TEnd)); try assumption.
  - intros [c t p9 ru pm am n q k f d r lo tr re a x o b] s' _ P H _. unfold step_c in H. cbn [v_bad] in H. destruct b; [discriminate|]. cbn [v_c v_t] in *. cbv zeta in H.
    destruct c as [|l9|l9|w|w i|w i|w i|w i|w i|w i| | | | | | | | | |];
    try (match type of H with context [notify_thread ?z] => let E := fresh in destruct (nt_shape z) as [t' E]; rewrite E in H; clear E end);
    try destruct w; pcs; split_step H; pcs; intros [Q|Q]; try discriminate Q; auto.
  - intros [c t p9 ru pm am n q k f d r lo tr re a x o b] s' _ P H _. unfold step_t in H. cbn [v_bad] in H. destruct b; [discriminate|]. cbn [v_c v_t] in *.
    destruct t; try (match type of H with context [notify_client ?z] => let E := fresh in destruct (nc_shape3 z) as (c' & E & Ec); rewrite E in H; clear E end);
    pcs; split_step H; pcs; intros Q; try (specialize (P Q); discriminate P).
    destruct Ec as [-> | (k1 & i1 & -> & ->)]; [specialize (P Q); discriminate P|destruct Q; discriminate].
  - intros s s' _ P H. unfold wake_c in H. destruct (v_c s) eqn:E; try discriminate. split_step H. pcs. intros [Q|Q]; discriminate.
  - intros s s' _ P H. unfold wake_t in H. destruct (v_t s) eqn:E; try discriminate. split_step H. pcs. intros Q. specialize (P Q). discriminate.
  - apply start_inv.
  - intros [Q|Q]; discriminate.
Qed.
(* in any program: if the two threads race, the thread has no results *)
Lemma race_empty g p s : order_ok g -> reach g p s -> v_bad s = false -> racing s -> v_tres s = [].
Proof.
  intros Or R Hb [Rc Rt]. destruct (reach_inv g p s Or R Hb) as (_ & (W & _) & Ro & _ & _). unfold inv_round in Ro.
  pose proof (joined g p s Or R Hb) as J.
  destruct (v_c s); try discriminate; try (apply (Ro W)). rewrite (J (or_introl eq_refl)) in Rt. discriminate.
Qed.

(* the same PUTs for each datastore in the same order: the same PUTs altogether *)
Lemma at_first i l o r : at_ds i l = o :: r -> exists l1 l2, l = l1 ++ o :: l2 /\ at_ds i l1 = [] /\ at_ds i l2 = r.
Proof.
  unfold at_ds. induction l as [|y l IH]; [discriminate|]. cbn [filter]. destruct (o_ds y =? i) eqn:E.
  - intros H. injection H as -> <-. exists [], l. auto.
  - intros H. destruct (IH H) as (l1 & l2 & -> & H1 & H2). exists (y :: l1), l2. cbn [app filter]. rewrite E. auto.
Qed.
Lemma same_all a : forall b, (forall i, at_ds i a = at_ds i b) -> Permutation a b.
Proof.
  induction a as [|o a IH]; intros b H.
  - destruct b as [|o b]; [constructor|]. specialize (H (o_ds o)). unfold at_ds in H. cbn [filter] in H. rewrite Nat.eqb_refl in H. discriminate.
  - assert (E : at_ds (o_ds o) b = o :: at_ds (o_ds o) a) by (rewrite <- H; unfold at_ds; cbn [filter]; rewrite Nat.eqb_refl; reflexivity).
    destruct (at_first _ _ _ _ E) as (b1 & b2 & -> & E1 & E2). apply Permutation_cons_app, IH. intros i. rewrite at_app.
    destruct (Nat.eq_dec (o_ds o) i) as [<- | D].
    + rewrite E1. cbn [app]. symmetry. exact E2.
    + specialize (H i). rewrite at_app in H. unfold at_ds in *. cbn [filter] in H. apply Nat.eqb_neq in D. rewrite D in H. exact H.
Qed.
Lemma once_all g p s : order_ok g -> reach g p s -> v_bad s = false -> v_running s = true -> Permutation (v_exec s ++ v_local s ++ v_queue s) (v_acc s).
Proof. intros Or R Hb Hr. apply same_all. intros i. rewrite (once g p s i Or R Hb Hr), !at_app. reflexivity. Qed.
Lemma prefix_all g p s : order_ok g -> reach g p s -> v_bad s = false -> exists r, Permutation (v_exec s ++ r) (v_acc s).
Proof.
  intros Or R Hb. destruct (reach_inv g p s Or R Hb) as (_ & _ & _ & _ & D).
  assert (G : forall a x, (forall i, exists r, at_ds i a = at_ds i x ++ r) -> exists r, Permutation (x ++ r) a).
  { clear. intros a x. revert a. induction x as [|o x IH]; intros a H; [exists a; apply Permutation_refl|].
    destruct (H (o_ds o)) as [r E]. unfold at_ds in E at 2. cbn [filter] in E. rewrite Nat.eqb_refl in E. cbn [app] in E.
    destruct (at_first _ _ _ _ E) as (b1 & b2 & -> & E1 & E2). destruct (IH (b1 ++ b2)) as [r' P].
    - intros i. rewrite at_app. destruct (Nat.eq_dec (o_ds o) i) as [<- | N].
      + exists r. rewrite E1. exact E2.
      + destruct (H i) as [r1 F]. exists r1. rewrite at_app in F. unfold at_ds in *. cbn [filter] in F. apply Nat.eqb_neq in N. rewrite N in F. exact F.
    - exists r'. cbn [app]. apply Permutation_cons_app, P. }
  apply G. intros i. destruct (D i) as ((r & E & _) & _). rewrite E. eexists. reflexivity.
Qed.
Lemma flushed_perm g p s s' : order_ok g -> reach g p s -> v_bad s = false -> v_c s = FDone -> step_c g s = Some s' ->
  Permutation (v_exec s') (v_acc s') /\ Permutation (concat (v_out s')) (v_acc s').
Proof. intros Or R Hb Hc H. split; apply same_all; intros i; apply (flushed_all g p s s' i Or R Hb Hc H). Qed.
