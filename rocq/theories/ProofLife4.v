(* A session that is used in the usual way gets through *)
From Verif Require Import ModelBytes ProofBytes ModelElen ModelRoute SpecRoute ProofRoute ProofRoute2 ModelLife SpecLife ProofLife ProofLife2 ProofLife3.
From Verif Require ProofStore.
From Coq Require Import Permutation.
Local Notation obind_ok := ProofStore.obind_ok.
Local Open Scope Z_scope.

Lemma fronts_total me q : forall ranks local remote, length q = length ranks -> exists q' local' remote',
  fronts me ranks q local remote = Ok (q', local', remote') /\ length q' = length q /\ (Forall (fun r => r = me) ranks -> remote' = remote).
Proof.
  induction q as [|[|n l] q IH]; intros ranks local remote L; (destruct ranks as [|r ranks]; try discriminate L); cbn [fronts tl].
  - do 3 eexists. split; [reflexivity|]. split; [reflexivity|]. intros _. reflexivity.
  - injection L as L. destruct (IH ranks local remote L) as (q' & a & b & -> & L' & R). cbn [obind fst snd]. do 3 eexists. split; [reflexivity|].
    split; [cbn; f_equal; exact L'|]. intros F. inversion F; subst. apply R. assumption.
  - injection L as L. destruct (Z.eqb_spec r me).
    + destruct (IH ranks (local ++ [n]) remote L) as (q' & a & b & -> & L' & R). cbn [obind fst snd]. do 3 eexists. split; [reflexivity|].
      split; [cbn; f_equal; exact L'|]. intros F. inversion F; subst. apply R. assumption.
    + destruct (IH ranks local (map_set remote r n) L) as (q' & a & b & -> & L' & R). cbn [obind fst snd]. do 3 eexists. split; [reflexivity|].
      split; [cbn; f_equal; exact L'|]. intros F. inversion F; subst. contradiction.
Qed.
Definition fit (p : priv) : Prop :=
  length (p_queues p) = 5%nat /\ Forall (fun q => length q = length (p_ds_to_rank p)) (p_queues p)
  /\ (p_transport p = true \/ Forall (fun r => r = p_rank p) (p_ds_to_rank p)).
Lemma round_total p q : (p_transport p = true \/ Forall (fun r => r = p_rank p) (p_ds_to_rank p)) -> length q = length (p_ds_to_rank p) ->
  exists q' t, round p q = Ok (q', t) /\ length q' = length q.
Proof.
  intros T L. unfold round. destruct (fronts_total (p_rank p) q (p_ds_to_rank p) [] [] L) as (q' & a & b & -> & L' & R). cbn [obind fst snd].
  destruct T as [->|T].
  - destruct b; do 2 eexists; (split; [reflexivity|exact L']).
  - rewrite (R T). do 2 eexists. split; [reflexivity|exact L'].
Qed.
Lemma rounds_total p : (p_transport p = true \/ Forall (fun r => r = p_rank p) (p_ds_to_rank p)) -> forall fuel q, length q = length (p_ds_to_rank p) ->
  exists q' t, rounds fuel p q = Ok (q', t) /\ length q' = length q.
Proof.
  intros T. induction fuel as [|fuel IH]; intros q L; cbn [rounds].
  - do 2 eexists. split; [reflexivity|reflexivity].
  - destruct (forallb _ q); [do 2 eexists; split; reflexivity|]. destruct (round_total p q T L) as (q1 & t1 & -> & L1). cbn [obind].
    destruct (IH q1 ltac:(congruence)) as (q2 & t2 & -> & L2). cbn [obind]. do 2 eexists. split; [reflexivity|congruence].
Qed.
Lemma process_all_total p : (p_transport p = true \/ Forall (fun r => r = p_rank p) (p_ds_to_rank p)) -> forall qs, Forall (fun q => length q = length (p_ds_to_rank p)) qs ->
  exists qs' t, process_all p qs = Ok (qs', t) /\ length qs' = length qs /\ Forall (fun q => length q = length (p_ds_to_rank p)) qs'.
Proof.
  intros T. induction qs as [|q qs IH]; intros F; cbn [process_all].
  - do 2 eexists. split; [reflexivity|]. split; [reflexivity|constructor].
  - inversion F as [|? ? F1 F2]; subst. destruct (rounds_total p T (length (concat q)) q F1) as (q1 & t1 & E & L1). unfold process. rewrite E. cbn [obind].
    destruct (IH F2) as (qs' & t2 & -> & L2 & F3). cbn [obind]. do 2 eexists. split; [reflexivity|]. split; [cbn; f_equal; exact L2|]. constructor; [congruence|exact F3].
Qed.
Definition alive (o : outside) (k : conf) (p : priv) : Prop :=
  p_running p = true /\ p_comm p = true /\ p_conf p = k /\ p_thread p = is_async k /\ length (p_ds_to_rank p) = Z.to_nat (datastores (world o k)) /\ fit p.
Lemma flush_total o k p : alive o k p -> exists p' t, flush (Hx (Some p)) = Ok (HXHIM_SUCCESS, Hx (Some p'), t) /\ alive o k p'.
Proof.
  intros (R & C & K & T & N & L & F & Tr). unfold flush. destruct (process_all_total p Tr (p_queues p) F) as (qs' & t & -> & L' & F'). cbn [obind].
  do 2 eexists. split; [reflexivity|]. split; [exact R|]. split; [exact C|]. split; [exact K|]. split; [exact T|]. split; [exact N|]. split; [|split; [exact F'|exact Tr]].
  cbn [p_queues set_queues]. congruence.
Qed.
Lemma sync_total o k p : alive o k p -> exists p' t, sync (Hx (Some p)) = Ok (HXHIM_SUCCESS, Hx (Some p'), t) /\ alive o k p'.
Proof.
  intros A. unfold sync. cbn [started]. rewrite (proj1 A). cbn [negb]. destruct (flush_total o k p A) as (p' & t & -> & A'). cbn [obind fst snd].
  pose proof A' as (_ & C & _). unfold barrier. rewrite C. cbn [obind]. do 2 eexists. split; [reflexivity|exact A'].
Qed.
Lemma change_total o k p : alive o k p -> exists p' t, change (Hx (Some p)) = Ok (HXHIM_SUCCESS, Hx (Some p'), t) /\ alive o k p'.
Proof.
  intros A. unfold change. cbn [started]. rewrite (proj1 A). cbn [negb]. destruct (sync_total o k p A) as (p' & t & -> & A'). cbn [obind fst snd].
  pose proof A' as (_ & C & _). unfold barrier. rewrite C. cbn [obind]. do 2 eexists. split; [reflexivity|exact A'].
Qed.
Lemma upd_some {A} (l : list A) f : forall n x, nth_error l n = Some x -> exists l', upd l n f = Some l' /\ length l' = length l /\ forall Q, Forall Q l -> Q (f x) -> Forall Q l'.
Proof.
  induction l as [|y l IH]; intros n x E; [destruct n; discriminate E|]. destruct n as [|n]; cbn [nth_error upd] in *.
  - injection E as ->. eexists. split; [reflexivity|]. split; [reflexivity|]. intros Q F H. inversion F; subst. constructor; assumption.
  - destruct (IH n x E) as (l' & -> & L & F'). eexists. split; [reflexivity|]. split; [cbn; f_equal; exact L|]. intros Q F H. inversion F; subst. constructor; [assumption|].
    apply F'; assumption.
Qed.
Lemma enqueue_total o k q id new p : alive o k p -> (q < 5)%nat -> 0 <= id < datastores (world o k) ->
  exists p' t, enqueue q id new (Hx (Some p)) = Ok (HXHIM_SUCCESS, Hx (Some p'), t) /\ alive o k p'.
Proof.
  intros (R & C & K & T & N & L & F & Tr) Hq Hid. unfold enqueue. rewrite R. cbn [negb]. destruct (Z.ltb_spec id 0); [lia|].
  destruct (nth_error (p_queues p) q) as [x|] eqn:Eq; [|apply nth_error_None in Eq; lia].
  assert (Lx : length x = Z.to_nat (datastores (world o k))).
  { rewrite Forall_forall in F. rewrite (F x (nth_error_In _ _ Eq)). exact N. }
  destruct (nth_error x (Z.to_nat id)) as [l|] eqn:Ex; [|apply nth_error_None in Ex; lia].
  destruct (new || _).
  - destruct (upd_some x (fun l => l ++ [p_next p]) _ _ Ex) as (x' & -> & Lx' & _). destruct (upd_some (p_queues p) (fun _ => x') _ _ Eq) as (qs & -> & Lq & Fq).
    do 2 eexists. split; [reflexivity|]. split; [exact R|]. split; [exact C|]. split; [exact K|]. split; [exact T|]. split; [exact N|].
    split; [cbn [p_queues set_queues]; congruence|]. split; [|exact Tr]. cbn [p_queues p_ds_to_rank set_queues]. apply Fq; [exact F|congruence].
  - do 2 eexists. split; [reflexivity|]. split; [exact R|]. split; [exact C|]. split; [exact K|]. split; [exact T|]. split; [exact N|]. split; [exact L|]. split; [exact F|exact Tr].
Qed.
Lemma work_total o k l : Forall (work o k) l -> forall p, alive o k p -> exists p' t,
  do_calls o l (Hx (Some p)) = Ok (repeat HXHIM_SUCCESS (length l), Hx (Some p'), t) /\ alive o k p'.
Proof.
  induction l as [|c l IH]; intros W p A; cbn [do_calls].
  - exists p, []. split; [reflexivity|exact A].
  - inversion W as [|? ? W1 W2]; subst.
    assert (S : exists p' t, do_call o c (Hx (Some p)) = Ok (HXHIM_SUCCESS, Hx (Some p'), t) /\ alive o k p').
    { destruct c as [comm k0| | | |q id new| | | | |f|]; cbn [work] in W1; try contradiction; cbn [do_call].
      - apply (enqueue_total o k q id new p A); apply W1.
      - apply (flush_total o k p A).
      - apply (sync_total o k p A).
      - apply (change_total o k p A).
      - exists p, []. unfold accessor. cbn [started]. rewrite (proj1 A). split; [reflexivity|exact A].
      - exists p, []. split; [reflexivity|exact A]. }
    destruct S as (p1 & t1 & -> & A1). cbn [obind fst snd]. destruct (IH W2 p1 A1) as (p2 & t2 & -> & A2). cbn [obind fst snd]. exists p2, (t1 ++ t2). split; [reflexivity|exact A2].
Qed.

Lemma do_calls_app o l1 : forall l2 h, do_calls o (l1 ++ l2) h =
  do (r, t) <- do_calls o l1 h; do (r', t') <- do_calls o l2 (snd r); Ok (fst r ++ fst r', snd r', t ++ t').
Proof.
  induction l1 as [|c l1 IH]; intros l2 h; cbn [app do_calls].
  - cbn [obind fst snd]. destruct (do_calls o l2 h) as [[[a b] t]| |]; reflexivity.
  - destruct (do_call o c h) as [[r t]| |]; [|reflexivity|reflexivity]. cbn [obind]. rewrite IH. destruct (do_calls o l1 (snd r)) as [[r1 t1]| |]; [|reflexivity|reflexivity].
    cbn [obind fst snd]. destruct (do_calls o l2 (snd r1)) as [[r2 t2]| |]; [|reflexivity|reflexivity]. cbn [obind fst snd]. rewrite app_assoc. reflexivity.
Qed.

(* a session as Open leaves it is alive *)
Lemma open_alive o k : healthy o k -> has_tr k = true \/ o_size o = 1 ->
  exists p t, do_calls o [CInit true k; COpen] (Hx None) = Ok ([HXHIM_SUCCESS; HXHIM_SUCCESS], Hx (Some p), t) /\ alive o k p.
Proof.
  intros (F & Op & Cn) Tr. rewrite init_open. destruct (open_spec o k F) as (l & ok & t1 & Cl & T & Fa & M & Eo). rewrite Eo.
  apply tr_ok_connects in Cn. rewrite Cn. pose proof (proj2 (totals (world o k) (proj1 F))) as Tt. destruct ok.
  - cbn [obind fst snd]. do 2 eexists. split; [reflexivity|].
    assert (Lr : length (st_ranks o k) = Z.to_nat (datastores (world o k))) by (unfold st_ranks; rewrite map_length, upto_length, Tt; reflexivity).
    split; [reflexivity|]. split; [reflexivity|]. split; [reflexivity|]. split; [reflexivity|]. split; [exact Lr|]. split; [reflexivity|].
    cbn [p_queues p_ds_to_rank st p_transport p_rank]. split.
    + unfold st_queues. apply Forall_forall. intros q Hq. apply repeat_spec in Hq. subst q. rewrite repeat_length, Lr, Tt. reflexivity.
    + destruct Tr as [Tr|Tr]; [left; exact Tr|right]. apply Forall_forall. intros r Hr. unfold st_ranks in Hr. rewrite Tt in Hr. apply in_map_iff in Hr.
      destruct Hr as (id & <- & Hid). apply upto_In in Hid. destruct F as (G & Hro). destruct (hosts_exists (world o k) id G Hid) as (r & off & Hh).
      apply hosts_spec in Hh; [|exact G]. destruct Hh as (A1 & A2 & A3 & ->). rewrite ds_to_rank_spec by assumption. cbn [l_size world] in A1. lia.
  - destruct (Fa eq_refl) as (id & Hid & U). apply Op in Hid. unfold usable in U. rewrite Hid, orb_true_r in U. discriminate U.
Qed.
Lemma orderly_app P o l1 : forall l2 h, orderly P o l1 h -> (forall r t, do_calls o l1 h = Ok (r, t) -> orderly P o l2 (snd r)) -> orderly P o (l1 ++ l2) h.
Proof.
  induction l1 as [|c l1 IH]; intros l2 h O N; cbn [app].
  - apply (N ([], h) [] eq_refl).
  - destruct O as [L O]. split; [exact L|]. intros r t E. apply IH; [apply (O r t E)|]. intros r2 t2 E2. cbn [do_calls] in N. rewrite E in N. cbn [obind] in N. rewrite E2 in N.
    apply (N (fst r :: fst r2, snd r2) (t ++ t2) eq_refl).
Qed.
Lemma orderly_work (P : conf -> Prop) o k l : Forall (work o k) l -> forall h, orderly P o l h.
Proof.
  induction l as [|c l IH]; intros W h; [exact Logic.I|]. inversion W as [|? ? W1 W2]; subst. split; [destruct c; try exact Logic.I; contradiction W1|]. intros r t _. apply IH, W2.
Qed.
Lemma session o k l : healthy o k -> apart o k -> k_transport k <> TrNull \/ o_size o = 1 -> Forall (work o k) l ->
  exists t, do_calls o (CInit true k :: COpen :: l ++ [CClose]) (Hx None) = Ok (repeat HXHIM_SUCCESS (length l + 3), Hx None, t) /\ released t.
Proof.
  intros He Ap Tr W. assert (Tr' : has_tr k = true \/ o_size o = 1) by (destruct Tr as [Tr|Tr]; [left; unfold has_tr; destruct (k_transport k); congruence|right; exact Tr]).
  change (CInit true k :: COpen :: l ++ [CClose]) with ([CInit true k; COpen] ++ l ++ [CClose]).
  destruct (open_alive o k He Tr') as (p & t0 & E0 & A0). destruct (work_total o k l W p A0) as (p1 & t1 & E1 & A1).
  destruct A1 as (R & C & K & T & _).
  destruct (close_spec p1 C) as (ds & E2 & _). { intros X. rewrite T. unfold async_enabled in X. rewrite K in X. exact X. }
  assert (E : do_calls o ([CInit true k; COpen] ++ l ++ [CClose]) (Hx None) = Ok (repeat HXHIM_SUCCESS (length l + 3), Hx None, t0 ++ t1 ++ (Barrier :: map Del ds) ++ [])).
  { rewrite do_calls_app, E0. cbn [obind fst snd]. rewrite do_calls_app, E1. cbn [obind fst snd do_calls do_call]. rewrite E2. cbn [obind fst snd].
    f_equal. f_equal. f_equal. rewrite <- (repeat_app HXHIM_SUCCESS 2) || idtac. change [HXHIM_SUCCESS; HXHIM_SUCCESS] with (repeat HXHIM_SUCCESS 2).
    change [HXHIM_SUCCESS] with (repeat HXHIM_SUCCESS 1). rewrite <- !repeat_app. f_equal. lia. }
  eexists. split; [exact E|].
  assert (O : orderly (apart o) o ([CInit true k; COpen] ++ l ++ [CClose]) (Hx None)).
  { apply orderly_app.
    - split; [split; [reflexivity|exact Ap]|]. intros r t _. split; [exact Logic.I|]. intros r2 t2 _. exact Logic.I.
    - intros r t _. apply orderly_app; [apply (orderly_work _ o k l W)|]. intros r2 t2 _. split; [exact Logic.I|]. intros r3 t3 _. exact Logic.I. }
  destruct (memory o _ _ _ _ O E) as (live & Rl & Z0). unfold released. rewrite Rl. f_equal. apply Z0. reflexivity.
Qed.
