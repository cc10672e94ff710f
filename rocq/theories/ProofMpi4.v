(* The MPI transport: which messages are still on their way *)
From Verif Require Import ModelBytes ProofBytes ModelRoute ModelMpi SpecMpi ProofMpi ProofMpi2 ProofMpi3.
From Coq Require Import Permutation.
Local Open Scope nat_scope.

Lemma take_perm f t g l k r : take f t g l = Some (k, r) -> Permutation l (k :: r).
Proof.
  revert k r. induction l as [|x l IH]; cbn [take]; intros k r E; [discriminate E|]. destruct (on f t g x).
  - injection E as <- <-. apply Permutation_refl.
  - destruct (take f t g l) as [[y s]|]; [|discriminate E]. injection E as <- <-. rewrite (IH y s eq_refl). apply perm_swap.
Qed.
Lemma forall_set {A} (P : A -> Prop) l i y : Forall P l -> P y -> Forall P (firstn i l ++ y :: skipn (S i) l).
Proof.
  intros F Y. rewrite <- (firstn_skipn i l) in F. apply Forall_app in F as [F1 F2]. apply Forall_app. split; [exact F1|]. constructor; [exact Y|].
  destruct (skipn i l) as [|z m] eqn:E.
  - rewrite (skipn_all2 (n := S i) l); [constructor|]. pose proof (skipn_length i l) as L. rewrite E in L. cbn in L. lia.
  - assert (skipn (S i) l = m) as ->; [|inversion F2; assumption]. clear -E. revert l E. induction i as [|i IH]; intros [|a l] E; try discriminate E.
    + cbn in E. injection E as _ ->. reflexivity.
    + change (skipn (S i) l = m). apply IH. exact E.
Qed.

Definition lshape (l : list (tag * payload)) : Prop :=
  l = [] \/ (exists p, l = [(RsData, p)]) \/ (exists p q, l = [(RsSize, p); (RsData, q)]).
Definition next_tag (l : list (tag * payload)) : tag := match l with [] => RsData | _ => RsSize end.
Definition lgood (pks : list packet) (tick : nat) (y : Z * lstate) : Prop :=
  match snd y with
  | LSend _ l => lshape l
  | LWait k _ d l => (l = [] \/ exists p, l = [(RsData, p)]) /\ k < tick /\ Forall (fun x => k_ticket x = k -> on (fst y) d (next_tag l) x = true) pks
  | _ => True
  end.
Definition rq (t : tag) : Prop := t = RqSize \/ t = RqData.
Definition kgood (pks : list packet) (tick : nat) (me : Z) (k : nat * payload) : Prop :=
  fst k < tick /\ Forall (fun x => k_ticket x = fst k -> k_from x = me /\ rq (k_tag x)) pks.
Definition cgood (pks : list packet) (tick : nat) (y : Z * thread) : Prop :=
  match h_at (snd y) with
  | CSend l ks _ => Forall (fun x => rq (snd (fst x))) l /\ Forall (kgood pks tick (fst y)) ks
  | CWait ks _ => Forall (kgood pks tick (fst y)) ks
  | _ => True
  end.
Definition ltick (y : Z * lstate) : list nat := match snd y with LWait k _ _ _ => [k] | _ => [] end.

Lemma lgood_less pks pks' tick y : incl pks' pks -> lgood pks tick y -> lgood pks' tick y.
Proof.
  intros I. unfold lgood. destruct (snd y); try tauto. intros (A & B & C). split; [exact A|]. split; [exact B|]. rewrite Forall_forall in *. auto.
Qed.
Lemma cgood_less pks pks' tick y : incl pks' pks -> cgood pks tick y -> cgood pks' tick y.
Proof.
  intros I. assert (K : forall me k, kgood pks tick me k -> kgood pks' tick me k).
  { intros me k [A B]. split; [exact A|]. rewrite Forall_forall in *. auto. }
  unfold cgood. destruct (h_at (snd y)); try tauto.
  - intros [A B]. split; [exact A|]. eapply Forall_impl; [apply K|exact B].
  - intros B. eapply Forall_impl; [apply K|exact B].
Qed.
Lemma lgood_more pks tick y f t g p : lgood pks tick y -> lgood (pks ++ [mkPk f t g tick p]) (S tick) y.
Proof.
  unfold lgood. destruct (snd y); try tauto. intros (A & B & C). split; [exact A|]. split; [lia|]. apply Forall_app. split; [exact C|].
  constructor; [|constructor]. cbn [k_ticket]. intros E. exfalso. lia.
Qed.
Lemma cgood_more pks tick y f t g p : cgood pks tick y -> cgood (pks ++ [mkPk f t g tick p]) (S tick) y.
Proof.
  assert (K : forall me k, kgood pks tick me k -> kgood (pks ++ [mkPk f t g tick p]) (S tick) me k).
  { intros me k [A B]. split; [lia|]. apply Forall_app. split; [exact B|]. constructor; [|constructor]. cbn [k_ticket]. intros E. exfalso. lia. }
  unfold cgood. destruct (h_at (snd y)); try tauto.
  - intros [A B]. split; [exact A|]. eapply Forall_impl; [apply K|exact B].
  - intros B. eapply Forall_impl; [apply K|exact B].
Qed.
Lemma ltick_set l i x y : nth_error l i = Some x ->
  exists rest, Permutation (flat_map ltick l) (ltick x ++ rest) /\ Permutation (flat_map ltick (firstn i l ++ y :: skipn (S i) l)) (ltick y ++ rest).
Proof.
  intros E. exists (flat_map ltick (firstn i l) ++ flat_map ltick (skipn (S i) l)). rewrite (nth_split3 _ _ _ E) at 1. rewrite !flat_map_app. cbn [flat_map].
  split; rewrite !app_assoc; apply Permutation_app_tail, Permutation_app_comm.
Qed.

Section Tickets.
Context {store : Type} (handle : Z -> store -> bytes -> outcome (store * (Z * bytes))).
Context (eager : payload -> bool) (okc : Z) (eps : Z -> list (Z * Z)).
Notation net := (@net store).
Notation run := (run handle eager okc eps).
Notation step := (step handle eager okc eps).

Record kinv (listeners : list Z) (st : net) : Prop := {
  k_ranks : map fst (n_lis st) = listeners;
  k_fresh : Forall (fun x => k_ticket x < n_tick st) (n_pks st);
  k_once : NoDup (map k_ticket (n_pks st));
  k_lis : Forall (lgood (n_pks st) (n_tick st)) (n_lis st);
  k_cli : Forall (cgood (n_pks st) (n_tick st)) (n_cli st);
  k_lonce : NoDup (flat_map ltick (n_lis st)) }.

Lemma kinv_start listeners clients s0 : kinv listeners (started listeners clients s0).
Proof.
  constructor; cbn [started n_lis n_pks n_tick n_cli map].
  - rewrite map_map. apply map_id.
  - constructor.
  - constructor.
  - apply Forall_forall. intros x X. apply in_map_iff in X as (r & <- & _). exact Logic.I.
  - apply Forall_forall. intros x X. apply in_map_iff in X as ([r cs] & <- & _). exact Logic.I.
  - assert (flat_map ltick (map (fun r => (r, LTop)) listeners) = []) as -> by (induction listeners as [|r l IH]; [reflexivity|exact IH]). constructor.
Qed.
Lemma ranks_set (l : list (Z * lstate)) i me x y : nth_error l i = Some (me, x) -> map fst (firstn i l ++ (me, y) :: skipn (S i) l) = map fst l.
Proof. intros E. rewrite (nth_split3 _ _ _ E) at 3. rewrite !map_app. reflexivity. Qed.

(* replacing the state of a listener by one that is not waiting for a send; messages may have been received *)
Lemma kinv_lis_less ls st i me x y pks s' h f : kinv ls st -> nth_error (n_lis st) i = Some (me, x) -> (pks = n_pks st \/ exists k, Permutation (n_pks st) (k :: pks)) ->
  lgood pks (n_tick st) (me, y) -> ltick (me, y) = [] -> kinv ls (mkNet (firstn i (n_lis st) ++ (me, y) :: skipn (S i) (n_lis st)) (n_cli st) pks (n_tick st) s' f h).
Proof.
  intros H E P G T. assert (I : incl pks (n_pks st)).
  { intros z Z. destruct P as [-> | [k P]]; [exact Z|]. eapply Permutation_in; [symmetry; exact P|right; exact Z]. }
  constructor; cbn [n_lis n_pks n_tick n_cli].
  - rewrite (ranks_set _ _ _ _ _ E). apply (k_ranks _ _ H).
  - pose proof (k_fresh _ _ H) as F. rewrite Forall_forall in *. auto.
  - pose proof (k_once _ _ H) as N. destruct P as [-> | [k P]]; [exact N|]. apply (Permutation_map k_ticket) in P. apply (Permutation_NoDup P) in N. inversion N; assumption.
  - apply forall_set; [|exact G]. eapply Forall_impl; [|apply (k_lis _ _ H)]. intros z. apply lgood_less. exact I.
  - eapply Forall_impl; [|apply (k_cli _ _ H)]. intros z. apply cgood_less. exact I.
  - destruct (ltick_set _ _ _ (me, y) E) as (rest & A & B). rewrite T in B. eapply Permutation_NoDup; [symmetry; exact B|].
    pose proof (Permutation_NoDup A (k_lonce _ _ H)) as N. apply (Permutation_NoDup (Permutation_app_comm _ _)) in N. apply nodup_left in N. exact N.
Qed.
Lemma kinv_fails ls st f : kinv ls st -> kinv ls (fails st f).
Proof. intros [A B C D E F]. constructor; assumption. Qed.
Lemma kinv_cli_less ls st i me x y pks s' h f : kinv ls st -> nth_error (n_cli st) i = Some (me, x) -> (pks = n_pks st \/ exists k, Permutation (n_pks st) (k :: pks)) ->
  cgood pks (n_tick st) (me, y) -> kinv ls (mkNet (n_lis st) (firstn i (n_cli st) ++ (me, y) :: skipn (S i) (n_cli st)) pks (n_tick st) s' f h).
Proof.
  intros H E P G. assert (I : incl pks (n_pks st)).
  { intros z Z. destruct P as [-> | [k P]]; [exact Z|]. eapply Permutation_in; [symmetry; exact P|right; exact Z]. }
  constructor; cbn [n_lis n_pks n_tick n_cli].
  - apply (k_ranks _ _ H).
  - pose proof (k_fresh _ _ H) as F. rewrite Forall_forall in *. auto.
  - pose proof (k_once _ _ H) as N. destruct P as [-> | [k P]]; [exact N|]. apply (Permutation_map k_ticket) in P. apply (Permutation_NoDup P) in N. inversion N; assumption.
  - eapply Forall_impl; [|apply (k_lis _ _ H)]. intros z. apply lgood_less. exact I.
  - apply forall_set; [|exact G]. eapply Forall_impl; [|apply (k_cli _ _ H)]. intros z. apply cgood_less. exact I.
  - apply (k_lonce _ _ H).
Qed.
Lemma fresh_more (st : net) f t g p : Forall (fun x => k_ticket x < n_tick st) (n_pks st) -> Forall (fun x => k_ticket x < S (n_tick st)) (n_pks st ++ [mkPk f t g (n_tick st) p]).
Proof. intros F. apply Forall_app. split; [eapply Forall_impl; [|exact F]; cbn beta; intros x X; lia|]. constructor; [cbn; lia|constructor]. Qed.
Lemma once_more (st : net) f t g p : Forall (fun x => k_ticket x < n_tick st) (n_pks st) -> NoDup (map k_ticket (n_pks st)) ->
  NoDup (map k_ticket (n_pks st ++ [mkPk f t g (n_tick st) p])).
Proof.
  intros F N. rewrite map_app. cbn [map k_ticket]. apply (Permutation_NoDup (Permutation_app_comm [n_tick st] _)). constructor; [|exact N].
  intros I. apply in_map_iff in I as (x & X & I). rewrite Forall_forall in F. specialize (F x I). lia.
Qed.

Lemma kinv_step ls st l st' : kinv ls st -> step st l = Some st' -> kinv ls st'.
Proof.
  intros H. unfold ModelMpi.step. destruct (n_fault st) eqn:F; [discriminate|]. destruct l as [i c|i j].
  - unfold lis_step. destruct (nth_error (n_lis st) i) as [[me x]|] eqn:E; [|discriminate].
    pose proof (proj1 (Forall_forall _ _) (k_lis _ _ H) _ (nth_error_In _ _ E)) as G. unfold lgood in G. cbn [fst snd] in G.
    destruct x as [|d n|d b|d l|k p d l].
    + destruct (take c me RqSize (n_pks st)) as [[[kf kt kg kk kl] l]|] eqn:T; [|discriminate]. destruct kl as [n|b]; [|discriminate].
      intros Q. injection Q as <-. apply take_perm in T. refine (kinv_lis_less ls st i me _ _ _ _ _ _ H E _ _ _); [right; eexists; exact T|exact Logic.I|reflexivity].
    + destruct (take d me RqData (n_pks st)) as [[[kf kt kg kk kl] l]|] eqn:T; [|discriminate]. destruct kl as [z|b]; [discriminate|].
      destruct (misfit n b) as [f|]; intros Q; injection Q as <-; [apply kinv_fails, H|]. apply take_perm in T.
      refine (kinv_lis_less ls st i me _ _ _ _ _ _ H E _ _ _); [right; eexists; exact T|exact Logic.I|reflexivity].
    + destruct (handle me (n_store st) b) as [[s [d' a]]| |]; intros Q; injection Q as <-; [|apply kinv_fails, H|apply kinv_fails, H].
      refine (kinv_lis_less ls st i me _ _ _ _ _ _ H E _ _ _); [left; reflexivity| |reflexivity]. right. right. eexists _, _. reflexivity.
    + destruct l as [|[t p] l]; intros Q; injection Q as <-.
      * refine (kinv_lis_less ls st i me _ _ _ _ _ _ H E _ _ _); [left; reflexivity|exact Logic.I|reflexivity].
      * constructor; cbn [with_lis isend n_lis n_pks n_tick n_cli].
        -- rewrite (ranks_set _ _ _ _ _ E). apply (k_ranks _ _ H).
        -- apply fresh_more, (k_fresh _ _ H).
        -- apply once_more; [apply (k_fresh _ _ H)|apply (k_once _ _ H)].
        -- apply forall_set; [eapply Forall_impl; [|apply (k_lis _ _ H)]; intros y; apply lgood_more|].
           assert (t = next_tag l /\ (l = [] \/ exists p, l = [(RsData, p)])) as [-> L].
           { destruct G as [G | [[p' G] | (p' & q & G)]]; [discriminate G| |]; injection G as -> -> ->; (split; [reflexivity|]); [left; reflexivity|right; eexists; reflexivity]. }
           cbn [lgood fst snd]. split; [exact L|]. split; [lia|]. apply Forall_app. split.
           ++ eapply Forall_impl; [|apply (k_fresh _ _ H)]. cbn beta. intros y Y Y'. exfalso. lia.
           ++ constructor; [|constructor]. intros _. apply on_spec. cbn. auto.
        -- eapply Forall_impl; [|apply (k_cli _ _ H)]. intros y. apply cgood_more.
        -- destruct (ltick_set _ _ _ (me, LWait (n_tick st) p d l) E) as (rest & A & B). eapply Permutation_NoDup; [symmetry; exact B|]. cbn [ltick snd app] in A |- *.
           constructor; [|exact (Permutation_NoDup A (k_lonce _ _ H))]. intros I. apply (Permutation_in _ (Permutation_sym A)) in I.
           apply in_flat_map in I as ([me' y] & I & I'). pose proof (proj1 (Forall_forall _ _) (k_lis _ _ H) _ I) as G'. unfold lgood in G'. unfold ltick in I'. cbn [snd] in *.
           destruct y; try contradiction I'. destruct I' as [I'|[]]. destruct G' as (_ & G' & _). lia.
    + destruct (sent_k eager st (k, p)); [|discriminate]. intros Q. injection Q as <-.
      refine (kinv_lis_less ls st i me _ _ _ _ _ _ H E _ _ _); [left; reflexivity| |reflexivity]. cbn. destruct G as ([-> | [p' ->]] & _); [left; reflexivity|right; left; eexists; reflexivity].
  - unfold cli_step. destruct (nth_error (n_cli st) i) as [[me [todo a log]]|] eqn:E; [|discriminate].
    pose proof (proj1 (Forall_forall _ _) (k_cli _ _ H) _ (nth_error_In _ _ E)) as G. unfold cgood in G. cbn [fst snd h_at] in G.
    destruct a as [|l ks sent|ks sent|w lens sent|w got sent].
    + destruct todo as [|c todo]; [discriminate|]. intros Q. injection Q as <-. refine (kinv_cli_less ls st i me _ _ _ _ _ _ H E _ _); [left; reflexivity|].
      cbn. split; [|constructor]. apply Forall_forall. intros x X. apply in_flat_map in X as ([r b] & _ & [<-|[<-|[]]]); [left|right]; reflexivity.
    + destruct l as [|[[r t] p] l]; intros Q; injection Q as <-.
      * refine (kinv_cli_less ls st i me _ _ _ _ _ _ H E _ _); [left; reflexivity|]. exact (proj2 G).
      * destruct G as [G1 G2]. inversion G1 as [|? ? T G1']; subst. cbn [fst snd] in T. constructor; cbn [with_cli isend n_lis n_pks n_tick n_cli].
        -- apply (k_ranks _ _ H).
        -- apply fresh_more, (k_fresh _ _ H).
        -- apply once_more; [apply (k_fresh _ _ H)|apply (k_once _ _ H)].
        -- eapply Forall_impl; [|apply (k_lis _ _ H)]. intros y. apply lgood_more.
        -- apply forall_set; [eapply Forall_impl; [|apply (k_cli _ _ H)]; intros y; apply cgood_more|].
           cbn. split; [exact G1'|]. apply Forall_app. split.
           ++ eapply Forall_impl; [|exact G2]. intros k [A B]. split; [lia|]. apply Forall_app. split; [exact B|]. constructor; [|constructor]. cbn. intros X. exfalso. lia.
           ++ constructor; [|constructor]. split; [cbn; lia|]. apply Forall_app. split.
              ** eapply Forall_impl; [|apply (k_fresh _ _ H)]. cbn. cbn beta. intros y Y Y'. exfalso. lia.
              ** constructor; [|constructor]. cbn. intros _. split; [reflexivity|exact T].
        -- apply (k_lonce _ _ H).
    + destruct (forallb (sent_k eager st) ks); [|discriminate]. intros Q. injection Q as <-. refine (kinv_cli_less ls st i me _ _ _ _ _ _ H E _ _); [left; reflexivity|exact Logic.I].
    + destruct w as [|w0 w'] eqn:W; [|rewrite <- W in *].
      * intros Q. injection Q as <-. refine (kinv_cli_less ls st i me _ _ _ _ _ _ H E _ _); [left; reflexivity|exact Logic.I].
      * destruct (nth_error w j) as [[n r]|] eqn:X; [|discriminate].
        destruct (take r me RsSize (n_pks st)) as [[[kf kt kg kk kl] l]|] eqn:T; [|discriminate]. destruct kl as [z|b]; [|discriminate].
        intros Q. injection Q as <-. apply take_perm in T. refine (kinv_cli_less ls st i me _ _ _ _ _ _ H E _ _); [right; eexists; exact T|exact Logic.I].
    + destruct w as [|w0 w'] eqn:W; [|rewrite <- W in *].
      * intros Q. injection Q as <-. refine (kinv_cli_less ls st i me _ _ _ _ _ _ H E _ _); [left; reflexivity|exact Logic.I].
      * destruct (nth_error w j) as [[[n r] z]|] eqn:X; [|discriminate].
        destruct (take r me RsData (n_pks st)) as [[[kf kt kg kk kl] l]|] eqn:T; [|discriminate]. destruct kl as [z'|b]; [discriminate|].
        destruct (misfit z b) as [f|]; intros Q; injection Q as <-; [apply kinv_fails, H|]. apply take_perm in T.
        refine (kinv_cli_less ls st i me _ _ _ _ _ _ H E _ _); [right; eexists; exact T|exact Logic.I].
Qed.
Lemma kinv_run ls ls' : forall st st', kinv ls st -> run st ls' = Some st' -> kinv ls st'.
Proof.
  induction ls' as [|l ls' IH]; intros st st' H E; cbn [ModelMpi.run] in E.
  - injection E as <-. exact H.
  - destruct (step st l) as [st1|] eqn:E1; [|discriminate E]. exact (IH _ _ (kinv_step _ _ _ _ H E1) E).
Qed.
End Tickets.
