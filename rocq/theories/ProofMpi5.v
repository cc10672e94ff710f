(* The MPI transport: a network that cannot move has finished *)
From Verif Require Import ModelBytes ProofBytes ModelRoute ModelMpi SpecMpi ProofMpi ProofMpi2 ProofMpi3 ProofMpi4.
From Coq Require Import Permutation.
Local Open Scope nat_scope.

Lemma chan_head f t g l p q : chan f t g l = p :: q -> exists k r, take f t g l = Some (k, r) /\ k_load k = p.
Proof.
  intros E. destruct (take f t g l) as [[k r]|] eqn:T.
  - exists k, r. split; [reflexivity|]. destruct (chan_take _ _ _ _ _ _ T) as (_ & C & _). congruence.
  - apply chan_take_none in T. congruence.
Qed.
Lemma chan_in f t g l x : In x l -> on f t g x = true -> In (k_load x) (chan f t g l).
Proof. intros I O. apply in_map. apply filter_In. split; assumption. Qed.
Lemma eng_in c s l x : In x (eng c s l) -> In (s, x) l /\ engaged c x = true.
Proof.
  intros I. apply in_flat_map in I as ([r y] & I & J). destruct (Z.eqb_spec r s) as [->|]; [|destruct J]. cbn [andb] in J.
  destruct (engaged c y) eqn:E; [|destruct J]. destruct J as [<-|[]]. split; assumption.
Qed.
Lemma in_eng c s l x : In (s, x) l -> engaged c x = true -> In x (eng c s l).
Proof. intros I E. apply in_flat_map. exists (s, x). split; [exact I|]. rewrite Z.eqb_refl, E. left. reflexivity. Qed.
Lemma nodup_map_split {A B} (f : A -> B) l : (forall l1 x l2 y l3, l = l1 ++ x :: l2 ++ y :: l3 -> f x <> f y) -> NoDup (map f l).
Proof.
  induction l as [|a l IH]; intros H; [constructor|]. cbn [map]. constructor.
  - intros I. apply in_map_iff in I as (y & E & I). apply in_split in I as (l2 & l3 & ->). exact (H [] a l2 y l3 eq_refl (eq_sym E)).
  - apply IH. intros l1 x l2 y l3 E. apply (H (a :: l1) x l2 y l3). rewrite E. reflexivity.
Qed.

Section Stuck.
Context {store : Type} (handle : Z -> store -> bytes -> outcome (store * (Z * bytes))).
Context (eager : payload -> bool) (okc : Z) (eps : Z -> list (Z * Z)).
Context (s0 : store) (progs : list (Z * list call)) (listeners : list Z) (st : @net store).
Notation step := (step handle eager okc eps).
Context (IDS : ids_are_ranks eps) (H : inv handle okc eps s0 progs st) (K : kinv listeners st).
Context (NF : n_fault st = None) (ST : forall l, step st l = None).
Context (LI : ((forall p, eager p = true) /\ listening eps 1 listeners) \/ listening eps (length progs) listeners).

Lemma stuck_lis i c : lis_step handle eager st i c = None.
Proof. pose proof (ST (Lis i c)) as E. unfold ModelMpi.step in E. rewrite NF in E. exact E. Qed.
Lemma stuck_cli i j : cli_step eager okc eps st i j = None.
Proof. pose proof (ST (Cli i j)) as E. unfold ModelMpi.step in E. rewrite NF in E. exact E. Qed.

Lemma thread_nth c th : thread_of c (n_cli st) = Some th -> exists i, nth_error (n_cli st) i = Some (c, th).
Proof.
  unfold thread_of. destruct (find (fun x => (fst x =? c)%Z) (n_cli st)) as [[r y]|] eqn:F; [|discriminate]. cbn. intros E. injection E as ->.
  apply find_some in F as [I E]. cbn in E. apply Z.eqb_eq in E. subst r. apply In_nth_error. exact I.
Qed.
(* no client is sending *)
Lemma no_send c th l ks sent : thread_of c (n_cli st) = Some th -> h_at th = CSend l ks sent -> False.
Proof.
  intros T A. destruct (thread_nth _ _ T) as [i E]. pose proof (stuck_cli i 0) as C. unfold cli_step in C. rewrite E in C. destruct th as [todo a log]. cbn [h_at] in A. subst a.
  destruct l as [|[[r t] p] l]; discriminate C.
Qed.
Lemma view_tdata c s b : view st c s = Some (b, TData) -> False.
Proof.
  unfold view. destruct (thread_of c (n_cli st)) as [th|] eqn:T; [|discriminate]. intros V. destruct (h_at th) as [|l ks sent|ks sent|w lens sent|w got sent] eqn:A.
  - unfold tview in V. destruct (locate s 0 []) as [[? ?]|]; discriminate V.
  - exact (no_send _ _ _ _ _ T A).
  - unfold tview in V. destruct (locate s 0 sent) as [[? ?]|]; discriminate V.
  - unfold tview in V. destruct (locate s 0 sent) as [[? ?]|]; [|discriminate V]. destruct (existsb _ w); discriminate V.
  - unfold tview in V. destruct (locate s 0 sent) as [[? ?]|]; [|discriminate V]. destruct (find _ w) as [[[? ?] ?]|]; [discriminate V|]. destruct (got_from s got); discriminate V.
Qed.

(* every listener is at the top or waits until a message it sent is received *)
Lemma lis_at i me x : nth_error (n_lis st) i = Some (me, x) ->
  x = LTop \/ exists k p d l, x = LWait k p d l /\ sent_k eager st (k, p) = false.
Proof.
  intros E. pose proof (fun c => stuck_lis i c) as S. unfold lis_step in S. rewrite E in S. destruct x as [|d n|d b|d l|k p d l].
  - left. reflexivity.
  - exfalso. specialize (S 0%Z). destruct (i_pairs _ _ _ _ _ _ H d me) as (tail & P & _).
    assert (G : eng d me (n_lis st) = [LData d n]).
    { pose proof (in_eng d me (n_lis st) (LData d n) (nth_error_In _ _ E) (Z.eqb_refl d)) as I. destruct (pair_eng _ _ _ _ _ _ _ _ P) as [Q | [z Q]]; rewrite Q in I; [destruct I|].
      destruct I as [I|[]]. rewrite Q, I. reflexivity. }
    rewrite G in P. inversion P as [| | |b V Q1 Q2 Q3 Q4 Q5 Q6| |b V Q1 Q2 Q3 Q4 Q5 Q6| | | | | | | | | ]; subst.
    + symmetry in V. exact (view_tdata _ _ _ V).
    + symmetry in Q2. destruct (chan_head _ _ _ _ _ _ Q2) as ([kf kt kg kk kl] & r & T & L). cbn [k_load] in L. subst kl. rewrite T in S. destruct (misfit (blen b) b); discriminate S.
  - exfalso. specialize (S 0%Z). destruct (handle me (n_store st) b) as [[s [d' a]]| |]; discriminate S.
  - exfalso. specialize (S 0%Z). destruct l as [|[t p] l]; discriminate S.
  - right. exists k, p, d, l. split; [reflexivity|]. specialize (S 0%Z). destruct (sent_k eager st (k, p)); [discriminate S|reflexivity].
Qed.
Lemma lis_in me x : In (me, x) (n_lis st) -> x = LTop \/ exists k p d l, x = LWait k p d l /\ sent_k eager st (k, p) = false.
Proof. intros I. apply In_nth_error in I as [i E]. exact (lis_at _ _ _ E). Qed.

(* a message that has not been received *)
Lemma unsent k p : sent_k eager st (k, p) = false -> eager p = false /\ exists x, In x (n_pks st) /\ k_ticket x = k.
Proof.
  unfold sent_k. cbn [fst snd]. intros E. apply Bool.orb_false_iff in E as [A B]. split; [exact A|]. apply Bool.negb_false_iff in B.
  apply existsb_exists in B as (x & I & X). apply Nat.eqb_eq in X. exists x. split; assumption.
Qed.
Lemma wait_packet me k p d l : In (me, LWait k p d l) (n_lis st) -> exists x, In x (n_pks st) /\ k_ticket x = k /\ on me d (next_tag l) x = true.
Proof.
  intros I. destruct (lis_in _ _ I) as [Q|(k' & p' & d' & l' & Q & U)]; [discriminate Q|]. injection Q as <- <- <- <-.
  destruct (unsent _ _ U) as (_ & x & X & T). exists x. split; [exact X|]. split; [exact T|].
  pose proof (proj1 (Forall_forall _ _) (k_lis _ _ K) _ I) as (_ & _ & G). cbn [fst snd] in G. rewrite Forall_forall in G. exact (G x X T).
Qed.
(* whom a listener waits for is a client that waits for that listener *)
Lemma wait_client me k p d l : In (me, LWait k p d l) (n_lis st) -> In d (map fst (n_cli st)) /\
  (chan d me RqSize (n_pks st) = []).
Proof.
  intros I. destruct (wait_packet _ _ _ _ _ I) as (x & X & T & O). pose proof (chan_in _ _ _ _ _ X O) as C.
  destruct (i_pairs _ _ _ _ _ _ H d me) as (tail & P & _).
  assert (V : view st d me <> None /\ chan d me RqSize (n_pks st) = []).
  { destruct l; cbn [next_tag] in C; inversion P as [Q0 Q1 Q2 Q3 Q4 Q5 Q6|b Q0 Q1 Q2 Q3 Q4 Q5 Q6|b Q0 Q1 Q2 Q3 Q4 Q5 Q6|b Q0 Q1 Q2 Q3 Q4 Q5 Q6|b Q0 Q1 Q2 Q3 Q4 Q5 Q6|b Q0 Q1 Q2 Q3 Q4 Q5 Q6|b Q0 Q1 Q2 Q3 Q4 Q5 Q6
      |b a Q0 Q1 Q2 Q3 Q4 Q5 Q6|b a k' p' Q0 Q1 Q2 Q3 Q4 Q5 Q6|b a Q0 Q1 Q2 Q3 Q4 Q5 Q6|b a Q0 Q1 Q2 Q3 Q4 Q5 Q6|b a k' p' Q0 Q1 Q2 Q3 Q4 Q5 Q6|b a Q0 Q1 Q2 Q3 Q4 Q5 Q6|b a Q0 Q1 Q2 Q3 Q4 Q5 Q6|b a Q0 Q1 Q2 Q3 Q4 Q5 Q6];
    try rewrite <- Q3 in C; try rewrite <- Q4 in C; try (exfalso; exact C); (split; [discriminate|congruence]). }
  destruct V as [V V2]. split; [|exact V2]. unfold view in V. destruct (thread_of d (n_cli st)) as [th|] eqn:T'; [|congruence]. destruct (thread_nth _ _ T') as [i E].
  apply in_map_iff. exists (d, th). split; [reflexivity|]. eapply nth_error_In. exact E.
Qed.

(* two listeners of a server do not wait for the same client *)
Definition waits_for (y : Z * lstate) : Z := match snd y with LWait _ _ d _ => d | _ => 0%Z end.
Definition at_ (r : Z) (y : Z * lstate) : bool := (fst y =? r)%Z.
Lemma eng_at c r l : eng c r (filter (at_ r) l) = eng c r l.
Proof.
  induction l as [|[s x] l IH]; [reflexivity|]. cbn [filter]. unfold at_ at 1. cbn [fst]. unfold eng in *. destruct (Z.eqb_spec s r) as [->|N].
  - cbn [flat_map]. rewrite IH. reflexivity.
  - cbn [flat_map]. rewrite IH. apply Z.eqb_neq in N. rewrite N. reflexivity.
Qed.
Lemma ticks_at r l : NoDup (flat_map ltick l) -> NoDup (flat_map ltick (filter (at_ r) l)).
Proof.
  assert (I : forall l x, In x (flat_map ltick (filter (at_ r) l)) -> In x (flat_map ltick l)).
  { intros l' x X. apply in_flat_map in X as (y & Y & X). apply filter_In in Y as [Y _]. apply in_flat_map. exists y. split; assumption. }
  induction l as [|y l IH]; intros N; [constructor|]. cbn [filter flat_map] in *. destruct (at_ r y).
  - cbn [flat_map]. unfold ltick in N |- * at 1. destruct (snd y) as [| | | |k p d m]; cbn [app] in *; try (apply IH; exact N).
    inversion N as [|? ? A B]; subst. constructor; [intros X; apply A, I, X|apply IH, B].
  - apply IH. apply (Permutation_NoDup (Permutation_app_comm _ _)) in N. apply nodup_left in N. exact N.
Qed.
Lemma wait_once r : (forall y, In y (n_lis st) -> fst y = r -> snd y <> LTop) -> NoDup (map waits_for (filter (at_ r) (n_lis st))).
Proof.
  intros NT. apply nodup_map_split. intros l1 [r1 x1] l2 [r2 x2] l3 E W. unfold waits_for in W. cbn [snd] in W.
  assert (I1 : In (r1, x1) (n_lis st) /\ r1 = r).
  { assert (In (r1, x1) (filter (at_ r) (n_lis st))) as I by (rewrite E; apply in_or_app; right; left; reflexivity). apply filter_In in I as [I A]. apply Z.eqb_eq in A. split; assumption. }
  assert (I2 : In (r2, x2) (n_lis st) /\ r2 = r).
  { assert (In (r2, x2) (filter (at_ r) (n_lis st))) as I by (rewrite E; apply in_or_app; right; right; apply in_or_app; right; left; reflexivity).
    apply filter_In in I as [I A]. apply Z.eqb_eq in A. split; assumption. }
  destruct I1 as [I1 ->], I2 as [I2 ->].
  destruct (lis_in _ _ I1) as [->|(k1 & p1 & d1 & m1 & -> & U1)]; [exact (NT _ I1 eq_refl eq_refl)|].
  destruct (lis_in _ _ I2) as [->|(k2 & p2 & d2 & m2 & -> & U2)]; [exact (NT _ I2 eq_refl eq_refl)|]. subst d2. rename d1 into d.
  assert (NK : k1 <> k2).
  { pose proof (ticks_at r _ (k_lonce _ _ K)) as N. rewrite E, flat_map_app in N. cbn [flat_map] in N. rewrite flat_map_app in N. cbn [flat_map ltick snd app] in N.
    apply NoDup_remove_2 in N. intros ->. apply N. apply in_or_app. right. apply in_or_app. right. left. reflexivity. }
  destruct (wait_packet _ _ _ _ _ I1) as (y1 & Y1 & T1 & O1). destruct (wait_packet _ _ _ _ _ I2) as (y2 & Y2 & T2 & O2).
  destruct (i_pairs _ _ _ _ _ _ H d r) as (tail & P & _).
  assert (G : eng d r (n_lis st) = eng d r l1 ++ (if engaged d (LWait k1 p1 d m1) then [LWait k1 p1 d m1] else []) ++ eng d r l2 ++ (if engaged d (LWait k2 p2 d m2) then [LWait k2 p2 d m2] else []) ++ eng d r l3).
  { rewrite <- (eng_at d r (n_lis st)), E. change ((r, LWait k1 p1 d m1) :: l2 ++ (r, LWait k2 p2 d m2) :: l3) with ([(r, LWait k1 p1 d m1)] ++ l2 ++ [(r, LWait k2 p2 d m2)] ++ l3).
    rewrite !eng_app, !eng_one, Z.eqb_refl. reflexivity. }
  assert (D1 : forall m k p, m <> [] -> engaged d (LWait k p d m) = true) by (intros [|x m] k p N; [congruence|]; apply Z.eqb_refl).
  assert (OD : forall m y, In y (n_pks st) -> on r d (next_tag m) y = true -> m = [] -> chan r d RsData (n_pks st) <> []).
  { intros m y Y O -> C. pose proof (chan_in _ _ _ _ _ Y O) as I. cbn [next_tag] in I. rewrite C in I. exact I. }
  assert (PE : chan r d RsData (n_pks st) <> [] -> eng d r (n_lis st) = []) by (intros C; inversion P; congruence).
  destruct m1 as [|z1 m1], m2 as [|z2 m2].
  - cbn [next_tag] in O1, O2.
    assert (C1 : length (filter (on r d RsData) (n_pks st)) <= 1).
    { assert (length (filter (on r d RsData) (n_pks st)) = length (chan r d RsData (n_pks st))) as -> by (unfold chan; rewrite map_length; reflexivity).
      inversion P; cbn; lia. }
    assert (J1 : In y1 (filter (on r d RsData) (n_pks st))) by (apply filter_In; split; assumption).
    assert (J2 : In y2 (filter (on r d RsData) (n_pks st))) by (apply filter_In; split; assumption).
    destruct (filter (on r d RsData) (n_pks st)) as [|u [|v w]]; [destruct J1| |cbn in C1; lia]. destruct J1 as [<-|[]], J2 as [<-|[]]. congruence.
  - rewrite (PE (OD _ _ Y1 O1 eq_refl)), (D1 (z2 :: m2) k2 p2 ltac:(discriminate)) in G. symmetry in G. apply app_eq_nil in G as [_ G]. apply app_eq_nil in G as [_ G].
    apply app_eq_nil in G as [_ G]. discriminate G.
  - rewrite (PE (OD _ _ Y2 O2 eq_refl)), (D1 (z1 :: m1) k1 p1 ltac:(discriminate)) in G. symmetry in G. apply app_eq_nil in G as [_ G]. discriminate G.
  - rewrite !D1 in G by discriminate. destruct (pair_eng _ _ _ _ _ _ _ _ P) as [Q|[z Q]]; rewrite Q in G; apply (f_equal (@length _)) in G; rewrite !app_length in G; cbn [length] in G; lia.
Qed.
Lemma count_at r : count_occ Z.eq_dec listeners r = length (filter (at_ r) (n_lis st)).
Proof.
  rewrite <- (k_ranks _ _ K). generalize (n_lis st). intros l. induction l as [|[s x] l IH]; [reflexivity|]. cbn [map fst filter]. unfold at_ at 1. cbn [fst count_occ].
  destruct (Z.eq_dec s r) as [->|N]; [rewrite Z.eqb_refl; cbn [length]; rewrite IH; reflexivity|]. apply Z.eqb_neq in N. rewrite N. exact IH.
Qed.
(* a request that nobody has seen cannot be waiting *)
Lemma no_request c th r p q : thread_of c (n_cli st) = Some th -> lookup r (eps c) = Some r -> chan c r RqSize (n_pks st) = PSize p :: q -> False.
Proof.
  intros T LO C.
  assert (NT : forall y, In y (n_lis st) -> fst y = r -> snd y <> LTop).
  { intros [r' x] I E X. cbn [fst snd] in *. subst r' x. apply In_nth_error in I as [i E]. pose proof (stuck_lis i c) as S. unfold lis_step in S. rewrite E in S.
    destruct (chan_head _ _ _ _ _ _ C) as ([kf kt kg kk kl] & l & TK & L). cbn [k_load] in L. subst kl. rewrite TK in S. discriminate S. }
  destruct LI as [[EA EN]|EN].
  - assert (IR : In r (map fst (n_lis st))).
    { rewrite (k_ranks _ _ K). apply (count_occ_In Z.eq_dec). exact (EN c r r LO). }
    apply in_map_iff in IR as ([r' x] & E & I). cbn [fst] in E. subst r'. destruct (lis_in _ _ I) as [->|(k & p' & d & l & -> & U)]; [exact (NT _ I eq_refl eq_refl)|].
    destruct (unsent _ _ U) as [U' _]. rewrite EA in U'. discriminate U'.
  - pose proof (EN c r r LO) as N. rewrite count_at in N. pose proof (wait_once r NT) as ND.
    set (ds := map waits_for (filter (at_ r) (n_lis st))) in *.
    assert (LE : length (c :: ds) <= length (map fst (n_cli st))).
    { apply NoDup_incl_length.
      - constructor; [|exact ND]. intros I. apply in_map_iff in I as ([r' x] & W & I). apply filter_In in I as [I A]. apply Z.eqb_eq in A. cbn [fst] in A. subst r'.
        destruct (lis_in _ _ I) as [->|(k & p' & d & l & -> & U)]; [exact (NT _ I eq_refl eq_refl)|]. cbn in W. subst d. destruct (wait_client _ _ _ _ _ I) as [_ B]. congruence.
      - intros d [<-|I].
        + destruct (thread_nth _ _ T) as [i E]. apply in_map_iff. exists (c, th). split; [reflexivity|]. eapply nth_error_In. exact E.
        + apply in_map_iff in I as ([r' x] & W & I). apply filter_In in I as [I A]. apply Z.eqb_eq in A. cbn [fst] in A. subst r'.
          destruct (lis_in _ _ I) as [->|(k & p' & d' & l & -> & U)]; [exfalso; exact (NT _ I eq_refl eq_refl)|]. cbn in W. subst d'. exact (proj1 (wait_client _ _ _ _ _ I)). }
    cbn [length] in LE. unfold ds in LE. rewrite !map_length in LE. 
    pose proof (f_equal (@length _) (forall2_ranks _ _ _ (i_cli _ _ _ _ _ _ H))) as FL. rewrite !map_length in FL. lia.
Qed.

Lemma pair_at c i me th s : nth_error (n_cli st) i = Some (me, th) -> c = me -> exists tail, pair c (tview (h_at th) s) (chan c s RqSize (n_pks st)) (chan c s RqData (n_pks st))
  (chan s c RsSize (n_pks st)) (chan s c RsData (n_pks st)) (eng c s (n_lis st)) tail.
Proof.
  intros E ->. destruct (i_pairs _ _ _ _ _ _ H me s) as (tail & P & _). exists tail. unfold view in P.
  rewrite (thread_at _ _ _ _ (inv_nodup _ _ _ _ _ _ H) E) in P. exact P.
Qed.
(* whoever is engaged waits for a message to be received *)
Lemma no_eng c s x l : eng c s (n_lis st) = x :: l -> exists k p m, x = LWait k p c m /\ m <> [] /\ chan s c RsSize (n_pks st) <> [].
Proof.
  intros E. destruct (eng_in c s (n_lis st) x) as [I G]; [rewrite E; left; reflexivity|]. destruct (lis_in _ _ I) as [->|(k & p & d & m & -> & U)]; [discriminate G|].
  cbn [engaged] in G. destruct m as [|y m]; [discriminate G|]. apply Z.eqb_eq in G. subst d. exists k, p, (y :: m). split; [reflexivity|]. split; [discriminate|].
  destruct (wait_packet _ _ _ _ _ I) as (z & Z & T & O). pose proof (chan_in _ _ _ _ _ Z O) as C. cbn [next_tag] in C. intros N. rewrite N in C. exact C.
Qed.
Lemma stuck_finished : finished st.
Proof.
  apply Forall_forall. intros [me [todo a log]] I. cbn [snd h_todo h_at]. apply In_nth_error in I as [i E].
  pose proof (fun j => stuck_cli i j) as S. unfold cli_step in S. rewrite E in S.
  pose proof (thread_at _ _ _ _ (inv_nodup _ _ _ _ _ _ H) E) as T.
  destruct (inv_thread _ _ _ _ _ _ _ _ _ H E) as (calls & _ & W & _). cbn [h_at] in W.
  assert (KN : forall sent s i b, known handle eps me sent -> locate s 0 sent = Some (i, b) -> lookup s (eps me) = Some s).
  { intros sent s i' b (_ & F & _) L. destruct (locate_some _ _ _ _ _ L) as [_ N]. apply nth_error_In in N. rewrite Forall_forall in F. exact (F _ N). }
  destruct a as [|l ks sent|ks sent|w lens sent|w got sent].
  - destruct todo as [|c todo]; [split; reflexivity|]. discriminate (S 0).
  - exfalso. eapply no_send; [exact T|reflexivity].
  - exfalso. specialize (S 0). destruct (forallb (sent_k eager st) ks) eqn:FB; [discriminate S|].
    assert (EX : exists k, In k ks /\ sent_k eager st k = false).
    { clear -FB. induction ks as [|k ks IH]; [discriminate FB|]. cbn [forallb] in FB. destruct (sent_k eager st k) eqn:X; [|exists k; split; [left; reflexivity|exact X]].
      destruct (IH FB) as (k' & A & B). exists k'. split; [right; exact A|exact B]. }
    destruct EX as ([k p] & IK & U). destruct (unsent _ _ U) as (_ & x & X & TX).
    pose proof (proj1 (Forall_forall _ _) (k_cli _ _ K) _ (nth_error_In _ _ E)) as G. unfold cgood in G. cbn [fst snd h_at] in G. rewrite Forall_forall in G.
    destruct (G _ IK) as [_ G']. rewrite Forall_forall in G'. destruct (G' x X TX) as [FX RX]. set (s := k_to x).
    destruct (pair_at me i me _ s E eq_refl) as (tail & P). cbn [h_at] in P.
    assert (CI : In (k_load x) (chan me s (k_tag x) (n_pks st))) by (apply chan_in; [exact X|apply on_spec; auto]).
    unfold tview in P. destruct (locate s 0 sent) as [[n b]|] eqn:L.
    + assert (CS : exists z q, chan me s RqSize (n_pks st) = PSize z :: q).
      { remember (chan me s RqSize (n_pks st)) as q0. remember (chan me s RqData (n_pks st)) as q1. remember (eng me s (n_lis st)) as e eqn:EE.
        assert (q0 <> [] \/ q1 <> []) as QN by (destruct RX as [RX|RX]; rewrite RX in CI; [left|right]; subst; intros QE; rewrite QE in CI; exact CI).
        inversion P; subst; try (destruct QN; congruence).
        - eexists _, _. reflexivity.
        - exfalso. match goal with HH : [LData _ _] = eng _ _ _ |- _ => symmetry in HH; destruct (no_eng _ _ _ _ HH) as (? & ? & ? & Q & _); discriminate Q end. }
      destruct CS as (z & q & CS). exact (no_request _ _ _ _ _ T (KN _ _ _ _ W L) CS).
    + inversion P as [Q0 Q1 Q2 Q3 Q4 Q5 Q6| | | | | | | | | | | | | | ]. destruct RX as [RX|RX]; rewrite RX in CI; [rewrite <- Q1 in CI|rewrite <- Q2 in CI]; exact CI.
  - exfalso. specialize (S 0). destruct w as [|[n r] w']; [discriminate S|]. cbn [nth_error] in S. destruct W as (KW & ND & WI).
    destruct (WI n r (or_introl eq_refl)) as (b & NB). destruct (locate_eq r sent b (proj1 KW) (nth_error_In _ _ NB)) as (n' & L & _).
    destruct (pair_at me i me _ r E eq_refl) as (tail & P). cbn [h_at] in P. unfold tview in P. rewrite L in P. cbn [existsb snd] in P. rewrite Z.eqb_refl in P. cbn [orb] in P.
    assert (SZ : forall a q, chan r me RsSize (n_pks st) = S_ a :: q -> False).
    { intros a q C. destruct (chan_head _ _ _ _ _ _ C) as ([kf kt kg kk kl] & l & TK & LD). cbn [k_load] in LD. subst kl. rewrite TK in S. discriminate S. }
    inversion P as [| | | |b' Q0 Q1 Q2 Q3 Q4 Q5 Q6|b' Q0 Q1 Q2 Q3 Q4 Q5 Q6|b' Q0 Q1 Q2 Q3 Q4 Q5 Q6|b' a Q0 Q1 Q2 Q3 Q4 Q5 Q6|b' a k p Q0 Q1 Q2 Q3 Q4 Q5 Q6|b' a Q0 Q1 Q2 Q3 Q4 Q5 Q6|b' a Q0 Q1 Q2 Q3 Q4 Q5 Q6| | | | ].
    + symmetry in Q1. exact (no_request _ _ _ _ _ T (KN _ _ _ _ KW L) Q1).
    + symmetry in Q5. destruct (no_eng _ _ _ _ Q5) as (? & ? & ? & Q & _). discriminate Q.
    + symmetry in Q5. destruct (no_eng _ _ _ _ Q5) as (? & ? & ? & Q & _). discriminate Q.
    + symmetry in Q5. destruct (no_eng _ _ _ _ Q5) as (? & ? & ? & Q & _). discriminate Q.
    + symmetry in Q3. exact (SZ _ _ Q3).
    + symmetry in Q3. exact (SZ _ _ Q3).
    + symmetry in Q3. exact (SZ _ _ Q3).
  - exfalso. specialize (S 0). destruct w as [|[[n r] z] w']; [discriminate S|]. cbn [nth_error] in S. destruct W as (KW & PW).
    assert (IS : In r (map fst sent)) by (eapply Permutation_in; [exact PW|left; reflexivity]). apply in_map_iff in IS as ([r' b] & ER & IS). cbn [fst] in ER. subst r'.
    destruct (locate_eq r sent b (proj1 KW) IS) as (n' & L & _).
    destruct (pair_at me i me _ r E eq_refl) as (tail & P). cbn [h_at] in P. unfold tview in P. rewrite L in P. cbn [find snd fst] in P. rewrite Z.eqb_refl in P.
    inversion P as [| | | | | | | | | | |b' a k p Q0 Q1 Q2 Q3 Q4 Q5 Q6|b' a Q0 Q1 Q2 Q3 Q4 Q5 Q6|b' a Q0 Q1 Q2 Q3 Q4 Q5 Q6| ].
    + symmetry in Q5. destruct (no_eng _ _ _ _ Q5) as (? & ? & ? & _ & _ & Q). congruence.
    + symmetry in Q5. destruct (no_eng _ _ _ _ Q5) as (? & ? & ? & Q & _). discriminate Q.
    + symmetry in Q4. destruct (chan_head _ _ _ _ _ _ Q4) as ([kf kt kg kk kl] & l & TK & LD). cbn [k_load] in LD. subst kl. rewrite TK in S. destruct (misfit z a); discriminate S.
Qed.
End Stuck.
