(* Results carry the times of the operations they answer: queues and runs *)
From Verif Require Import ModelBytes ProofBytes ModelKey ModelWire ModelHist ModelMsg SpecMsg ProofMsg ModelStore ModelGetOp ModelDs
  SpecStore ProofStore ProofDs ProofDs2 ModelElen ModelRoute SpecRoute ProofRoute ProofRoute2 ModelClient SpecClient ProofClient ProofClient2
  ProofClient3 ModelTimes SpecTimes ProofTimes ProofTimes2 ProofTimes3.
Local Open Scope Z_scope.

Section Queue.
Context (e : env) (HS : setting e) (T : clock) (HT : steady T).
Context {A : Type} (wrap : list A -> body) (of_op : op -> option A) (HA : kind_answers wrap of_op)
  (HD : forall l, body_dir (wrap l) = 1%N) (HC : forall l, body_count (wrap l) = N.of_nat (length l)).

Definition pk_ok (id : Z) (k : nat) (p : packet A) (evs : list event) : Prop :=
  evs <> [] /\ stand of_op (pk_items p) evs /\ Forall (fun ev => ev_id ev = id) evs /\ length (pk_reqs p) = N.to_nat (e_max_ops e) /\
  sends_ok T evs (pk_reqs p) /\ alloc_ok T evs (pk_alloc p) /\ Forall (ev_ok k) evs.
Fixpoint qs_ok (id : Z) (k : nat) (qs : list (list (packet A))) (ess : list (list (list event))) : Prop :=
  match qs, ess with
  | [], [] => True
  | q :: qs', es :: ess' => Forall2 (pk_ok id k) q es /\ qs_ok (id + 1) k qs' ess'
  | _, _ => False
  end.
Definition pending (ess : list (list (list event))) : list event := concat (map (@concat event) ess).

Lemma pk_le id k k' p evs : (k <= k')%nat -> pk_ok id k p evs -> pk_ok id k' p evs.
Proof.
  intros L (H0 & H1 & H2 & H3 & H4 & H5 & H6). repeat (split; [assumption|]). eapply Forall_impl; [|exact H6]. intros ev. apply ev_ok_le, L.
Qed.
Lemma q_le id k k' q es : (k <= k')%nat -> Forall2 (pk_ok id k) q es -> Forall2 (pk_ok id k') q es.
Proof. intros L H. induction H; constructor; auto. eapply pk_le; eassumption. Qed.
Lemma qs_le k k' : (k <= k')%nat -> forall qs ess id, qs_ok id k qs ess -> qs_ok id k' qs ess.
Proof.
  intros L. induction qs as [|q qs IH]; intros [|es ess] id H; cbn [qs_ok] in *; auto. destruct H as [H1 H2]. split; [eapply q_le; eassumption|auto].
Qed.

Lemma pop_ok : forall qs ess id k ms qs', 0 <= id -> id + Z.of_nat (length qs) <= e_total e -> qs_ok id k qs ess -> t_pop wrap (e_rank e) id qs = (ms, qs') ->
  exists l ess', ms = map fst l /\ Forall (fun p => req_ok e T wrap of_op k (fst p) (snd p)) l /\ qs_ok id k qs' ess' /\
    Permutation (pending ess) (concat (map snd l) ++ pending ess') /\ length qs' = length qs.
Proof.
  induction qs as [|q qs IH]; intros [|es ess] id k ms qs' H0 H1 Q H; cbn [qs_ok] in Q; try contradiction; cbn [t_pop] in H.
  - injection H as <- <-. exists [], []. split; [reflexivity|]. split; [constructor|]. split; [exact Logic.I|]. split; reflexivity.
  - destruct Q as [Q1 Q2]. destruct (t_pop wrap (e_rank e) (id + 1) qs) as [ms1 r1] eqn:E. cbn [length] in H1.
    destruct (IH ess (id + 1) k ms1 r1 ltac:(lia) ltac:(lia) Q2 E) as (l & ess' & -> & F & Q' & P & L).
    destruct q as [|p q]; inversion Q1 as [|p' evs q1 es1 Hp Hq]; subst; injection H as <- <-.
    + exists l, ([] :: ess'). split; [reflexivity|]. split; [exact F|]. split; [split; [constructor|exact Q']|]. split; [exact P|cbn [length]; congruence].
    + exists ((mkTmsg (mkMsg (e_rank e) id (wrap (pk_items p))) (pk_alloc p) (pk_reqs p) no_trip, evs) :: l), (es1 :: ess').
      split; [reflexivity|]. split; [|split; [split; [exact Hq|exact Q']|split; [|cbn [length]; congruence]]].
      * constructor; [|exact F]. destruct Hp as (_ & St & I & _ & Se & Al & O). exists id, (pk_items p). cbn [tm_msg tm_reqs tm_alloc fst snd].
        repeat (split; [try assumption; try reflexivity|]); [unfold an_id; lia|assumption..].
      * unfold pending in *. cbn [map concat snd]. rewrite <- !app_assoc. apply Permutation_app_head. rewrite P. rewrite !app_assoc. apply Permutation_app_tail, Permutation_app_comm.
Qed.
Lemma rounds_ok : forall f qs ess w w' xs, Z.of_nat (length qs) <= e_total e -> t_rounds f e wrap T qs w = Ok (w', xs) -> Forall body_ok (w_wire w') ->
  qs_ok 0 (w_now w) qs ess -> explains e T (pending ess) xs.
Proof.
  induction f as [|f IH]; intros qs ess w w' xs L H W Q; cbn [t_rounds] in H; [injection H as <- <-; apply explains_none|].
  destruct (length (concat qs)); [injection H as <- <-; apply explains_none|]. destruct (t_pop wrap (e_rank e) 0 qs) as [ms qs'] eqn:Ep.
  obind H a Ea. destruct a as [w1 ys]. obind H b Eb. destruct b as [w2 zs]. injection H as <- <-.
  destruct (pop_ok qs ess 0 (w_now w) ms qs' ltac:(lia) L Q Ep) as (l & ess' & -> & F & Q' & P & L').
  pose proof (round_bare _ _ _ _ _ _ (set_iter _ HS) Ea) as [L1 _]. pose proof (rounds_bare _ _ _ (set_iter _ HS) _ _ _ _ _ Eb) as [L2 _].
  eapply explains_perm; [apply Permutation_sym, P|]. apply explains_app.
  - eapply (round_ok e HS T HT wrap of_op HA HD HC); [exact Ea| |exact F]. eapply wire_before; eassumption.
  - eapply (IH qs'); [lia|exact Eb|exact W|]. eapply qs_le; [|exact Q']. destruct L1; lia.
Qed.

(* ---- queueing ---- *)
Lemma set_nth_S {B} n (x a : B) l : set_nth (Datatypes.S n) x (a :: l) = a :: set_nth n x l.
Proof. reflexivity. Qed.
Lemma firstn_set {B} (x : B) : forall n l, (n < length l)%nat -> firstn (n + 1) (set_nth n x l) = firstn n l ++ [x].
Proof.
  induction n as [|n IH]; intros [|a l] L; cbn [length] in L; try lia; [reflexivity|]. rewrite set_nth_S. cbn [Nat.add firstn app]. rewrite IH by lia. reflexivity.
Qed.
Lemma length_set {B} (x : B) : forall n l, (n < length l)%nat -> length (set_nth n x l) = length l.
Proof. induction n as [|n IH]; intros [|a l] L; cbn [length] in L; try lia; [reflexivity|]. rewrite set_nth_S. cbn [length]. rewrite IH by lia. reflexivity. Qed.
(* the packet was there before *)
Lemma add_ok id k o a p evs p' : of_op o = Some a -> pk_ok id k p evs ->
  add_item T (k + 3) (T k, T (k + 1)%nat) (T (k + 2)%nat) p a = Ok p' -> pk_ok id (k + 4) p' (evs ++ [mkEvent o id k (k + 4)]).
Proof.
  intros Ho (N & St & I & L & Se & Al & O) H. unfold add_item in H. obind H r Er. injection H as <-. apply write_ok in Er as [Lr ->].
  pose proof (Forall2_len _ _ _ St) as Ls. unfold pk_ok. cbn [pk_items pk_reqs pk_alloc]. rewrite Ls in *.
  split; [intros X; apply app_eq_nil in X as [_ X]; discriminate|]. split; [apply Forall2_app; [exact St|constructor; [exact Ho|constructor]]|].
  split; [apply Forall_app; split; [exact I|constructor; [reflexivity|constructor]]|]. split; [rewrite length_set by exact Lr; exact L|]. split; [|split].
  - unfold sends_ok in *. rewrite app_length. cbn [length]. rewrite firstn_set by exact Lr. rewrite Se, map_app. cbn [map]. f_equal. f_equal.
    unfold event_send. cbn [ev_before ev_after]. replace (k + 4 - 1)%nat with (k + 3)%nat by lia. reflexivity.
  - destruct evs as [|ev evs]; [contradiction|]. cbn [app alloc_ok] in *. destruct Al as [A1 A2]. split; [exact A1|]. apply Forall_app. split; [exact A2|].
    constructor; [|constructor]. unfold event_alloc. cbn [ev_before ev_after]. destruct (Nat.eqb_spec (k + 4) (k + 6)); [lia|reflexivity].
  - apply Forall_app. split; [eapply Forall_impl; [|exact O]; intros ev; apply ev_ok_le; lia|]. constructor; [|constructor]. unfold ev_ok. cbn [ev_before ev_after]. lia.
Qed.
(* a new one *)
Lemma fresh_ok id k o a p' : of_op o = Some a ->
  add_item T (k + 3 + 2) (T k, T (k + 1)%nat) (T (k + 2)%nat) (fst (new_packet e T (k + 3))) a = Ok p' -> pk_ok id (k + 6) p' [mkEvent o id k (k + 6)].
Proof.
  intros Ho H. unfold add_item in H. obind H r Er. injection H as <-. apply write_ok in Er as [Lr ->]. unfold new_packet in *. cbn [fst pk_items pk_reqs pk_alloc app length] in *.
  unfold pk_ok. cbn [pk_items pk_reqs pk_alloc]. split; [discriminate|]. split; [constructor; [exact Ho|constructor]|]. split; [constructor; [reflexivity|constructor]|].
  split; [rewrite length_set by exact Lr; apply repeat_length|]. split; [|split].
  - unfold sends_ok. cbn [length]. rewrite (firstn_set _ 0 _ Lr : firstn 1 _ = _). cbn [firstn app map]. f_equal.
    unfold event_send. cbn [ev_before ev_after]. replace (k + 6 - 1)%nat with (k + 3 + 2)%nat by lia. reflexivity.
  - cbn [alloc_ok]. split; [|constructor]. unfold event_alloc. cbn [ev_before ev_after]. rewrite Nat.eqb_refl. replace (k + 4)%nat with (k + 3 + 1)%nat by lia. reflexivity.
  - constructor; [|constructor]. unfold ev_ok. cbn [ev_before ev_after]. lia.
Qed.
Lemma last_ok id k o a ok : of_op o = Some a -> forall q es q' k', Forall2 (pk_ok id k) q es ->
  t_last e ok T (k + 3) (T k, T (k + 1)%nat) (T (k + 2)%nat) q a = Ok (q', k') ->
  (k <= k')%nat /\ exists es', Forall2 (pk_ok id k') q' es' /\ Permutation (concat es') (mkEvent o id k k' :: concat es).
Proof.
  intros Ho. induction q as [|p q IH]; intros es q' k' F H; cbn [t_last] in H.
  - inversion F; subst. unfold new_packet in H. obind H p' Ep. injection H as <- <-. replace (k + 3 + 2 + 1)%nat with (k + 6)%nat by lia. split; [lia|].
    exists [[mkEvent o id k (k + 6)]]. split; [constructor; [|constructor]; apply (fresh_ok id k o a p' Ho Ep)|reflexivity].
  - inversion F as [|p0 evs q0 es0 Hp Hq]; subst. destruct q as [|p2 q].
    + inversion Hq; subst. destruct (ok (pk_items p)).
      * obind H p' Ep. injection H as <- <-. replace (k + 3 + 1)%nat with (k + 4)%nat by lia. split; [lia|]. exists [evs ++ [mkEvent o id k (k + 4)]].
        split; [constructor; [|constructor]; eapply add_ok; eassumption|]. cbn [concat]. rewrite !app_nil_r. symmetry. apply Permutation_cons_append.
      * unfold new_packet in H. obind H p' Ep. injection H as <- <-. replace (k + 3 + 2 + 1)%nat with (k + 6)%nat by lia. split; [lia|].
        exists [evs; [mkEvent o id k (k + 6)]]. split; [constructor; [eapply pk_le; [|exact Hp]; lia|constructor; [|constructor]; apply (fresh_ok id k o a p' Ho Ep)]|].
        cbn [concat]. rewrite !app_nil_r. symmetry. apply Permutation_cons_append.
    + obind H r Er. destruct r as [r k1]. injection H as <- <-. destruct (IH es0 r k1 Hq Er) as (L & es' & F' & P). split; [exact L|].
      exists (evs :: es'). split; [constructor; [eapply pk_le; eassumption|exact F']|]. cbn [concat]. rewrite P. symmetry. apply Permutation_middle.
Qed.
Lemma insert_ok sz additional k o a : of_op o = Some a -> forall qs ess id qs' k', 0 <= id -> qs_ok 0 k qs ess ->
  t_insert e sz additional T k qs id a = Ok (qs', k') ->
  (k <= k')%nat /\ length qs' = length qs /\ exists ess', qs_ok 0 k' qs' ess' /\ Permutation (pending ess') (mkEvent o id k k' :: pending ess).
Proof.
  intros Ho qs ess id qs' k' H0 Q H. unfold t_insert in H. destruct (nth_error qs (Z.to_nat id)) as [q|] eqn:En; [|discriminate].
  obind H r Er. destruct r as [q' k1]. injection H as <- <-.
  assert (X : forall n qs ess b, qs_ok b k qs ess -> b + Z.of_nat n = id -> nth_error qs n = Some q ->
    (k <= k1)%nat /\ length (set_nth n q' qs) = length qs /\ exists ess', qs_ok b k1 (set_nth n q' qs) ess' /\ Permutation (pending ess') (mkEvent o id k k1 :: pending ess)).
  { clear -Ho Er HT. induction n as [|n IH]; intros [|q1 qs] [|es ess] b Q Hb E; cbn [nth_error qs_ok] in *; try discriminate; try contradiction; destruct Q as [Q1 Q2].
    - injection E as ->. assert (b = id) by lia. subst b. destruct (last_ok id k o a _ Ho q es q' k1 Q1 Er) as (L & es' & F & P).
      split; [exact L|]. split; [reflexivity|]. exists (es' :: ess). split; [split; [exact F|eapply qs_le; eassumption]|].
      unfold pending. cbn [map concat]. rewrite P. reflexivity.
    - destruct (IH qs ess (b + 1) Q2 ltac:(lia) E) as (L & Ln & ess' & Q' & P). split; [exact L|]. rewrite set_nth_S. split; [cbn [length]; congruence|].
      exists (es :: ess'). split; [split; [eapply q_le; eassumption|exact Q']|]. unfold pending in *. cbn [map concat]. rewrite P. symmetry. apply Permutation_middle. }
  apply (X (Z.to_nat id) qs ess 0 Q ltac:(lia) En).
Qed.
Lemma none_ok n k : qs_ok 0 k (no_queue n) (repeat [] (Z.to_nat n)) /\ pending (repeat [] (Z.to_nat n)) = [] /\ length (@no_queue A n) = Z.to_nat n.
Proof.
  unfold no_queue. assert (X : forall m b, qs_ok b k (repeat [] m) (repeat [] m)) by (induction m as [|m IH]; intros b; cbn [repeat qs_ok]; auto).
  split; [apply X|]. split; [|apply repeat_length]. induction (Z.to_nat n) as [|m IH]; [reflexivity|exact IH].
Qed.
Lemma drained_ok k : forall qs b, qs_ok b k (t_drained qs) (map (fun _ => []) qs) /\ pending (map (fun _ => []) qs) = [] /\ length (t_drained qs) = length qs.
Proof.
  induction qs as [|q qs IH]; intros b; cbn [t_drained map qs_ok length]; [auto|]. destruct (IH (b + 1)) as (H1 & H2 & H3).
  split; [split; [constructor|exact H1]|]. split; [exact H2|]. f_equal. exact H3.
Qed.
End Queue.
