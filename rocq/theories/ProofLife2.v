(* The objects of a session over any sequence of calls *)
From Verif Require Import ModelBytes ProofBytes ModelElen ModelRoute SpecRoute ProofRoute ProofRoute2 ModelLife SpecLife ProofLife.
From Verif Require ProofStore.
From Coq Require Import Permutation.
Local Notation obind_ok := ProofStore.obind_ok.
Local Open Scope Z_scope.

Ltac perm dec := apply (Permutation_count_occ dec); let z := fresh "z" in intros z;
  repeat (progress (rewrite ?count_occ_app; cbn [count_occ app]));
  repeat match goal with |- context [dec ?a z] => destruct (dec a z) end; lia.

Definition other (me : Z) (l : list Z) : list Z := filter (fun r => negb (r =? me)) l.
Lemma map_set_new m r n : ~ In r (map fst m) -> map_set m r n = m ++ [(r, n)].
Proof.
  intros H. unfold map_set. f_equal. induction m as [|[x y] m IH]; [reflexivity|]. cbn [filter fst].
  destruct (Z.eqb_spec x r) as [->|]; [exfalso; apply H; left; reflexivity|]. cbn [negb]. f_equal. apply IH. intros I. apply H. right. exact I.
Qed.
Lemma fronts_perm me q : forall ranks local remote q' local' remote',
  fronts me ranks q local remote = Ok (q', local', remote') -> NoDup (map fst remote ++ other me ranks) ->
  Permutation (local ++ map snd remote ++ concat q) (local' ++ map snd remote' ++ concat q').
Proof.
  induction q as [|[|n l] q IH]; intros ranks local remote q' local' remote' E ND.
  - cbn [fronts] in E. apply Ok_inj in E. injection E as <- <- <-. reflexivity.
  - cbn [fronts] in E. apply obind_ok in E. destruct E as ([[x y] m] & E1 & E). apply Ok_inj in E. injection E as <- <- <-.
    cbn [fst snd concat app]. apply (IH (tl ranks) _ _ _ _ _ E1). destruct ranks as [|r ranks]; [exact ND|]. cbn [tl].
    unfold other in *. cbn [filter] in ND. destruct (negb (r =? me)); [|exact ND]. apply NoDup_remove_1 in ND. exact ND.
  - cbn [fronts] in E. destruct ranks as [|r ranks]; [discriminate E|]. apply obind_ok in E. destruct E as ([[x y] m] & E1 & E).
    apply Ok_inj in E. injection E as <- <- <-. cbn [fst snd concat] in *. unfold other in ND. cbn [filter] in ND. destruct (r =? me) eqn:B; cbn [negb] in ND.
    + apply IH in E1; [|exact ND]. rewrite <- app_assoc in E1. cbn [app] in E1.
      transitivity (l ++ local ++ n :: map snd remote ++ concat q); [|transitivity (l ++ y ++ map snd m ++ concat x)].
      * perm N.eq_dec.
      * apply Permutation_app_head. exact E1.
      * perm N.eq_dec.
    + pose proof (NoDup_remove_2 _ _ _ ND) as NI. rewrite map_set_new in E1 by (intros I; apply NI, in_or_app; left; exact I).
      apply IH in E1.
      * rewrite map_app in E1. cbn [map snd] in E1.
        transitivity (l ++ local ++ (map snd remote ++ [n]) ++ concat q); [|transitivity (l ++ y ++ map snd m ++ concat x)].
        -- perm N.eq_dec.
        -- apply Permutation_app_head. exact E1.
        -- perm N.eq_dec.
      * rewrite map_app, <- app_assoc. cbn [map fst app]. exact ND.
Qed.

Definition good_ranks (p : priv) : Prop := NoDup (other (p_rank p) (p_ds_to_rank p)).
Lemma round_moves p q q' t : good_ranks p -> round p q = Ok (q', t) ->
  (forall a, moves t (map OPacket (concat q) ++ a) (map OPacket (concat q') ++ a)) /\ incl (concat q') (concat q) /\ collectives t = [].
Proof.
  intros G E. unfold round in E. apply obind_ok in E. destruct E as ([[x y] m] & E1 & E).
  pose proof (fronts_perm _ _ _ _ _ _ _ _ E1 G) as P. cbn [map app] in P.
  assert (F : q' = x /\ t = map Del (map OPacket (map snd m ++ y))).
  { assert (K : t = map (fun rn => Del (OPacket (snd rn))) m ++ map (fun n => Del (OPacket n)) y /\ q' = x).
    { destruct m as [|z m]; [|destruct (p_transport p); [|discriminate E]]; apply Ok_inj in E; cbn [fst snd] in E; injection E as <- <-; split; reflexivity. }
    destruct K as [-> ->]. split; [reflexivity|]. rewrite !map_app, !map_map. reflexivity. }
  destruct F as [-> ->]. split; [|split].
  - intros a. eapply moves_perm; [|apply Permutation_refl|apply moves_dels]. rewrite app_assoc, <- map_app. apply Permutation_app_tail, Permutation_map.
    rewrite P. perm N.eq_dec.
  - intros z Hz. apply (Permutation_in _ (Permutation_sym P)). apply in_or_app. right. apply in_or_app. right. exact Hz.
  - apply collectives_dels.
Qed.
Lemma rounds_moves p : good_ranks p -> forall fuel q q' t, rounds fuel p q = Ok (q', t) ->
  (forall a, moves t (map OPacket (concat q) ++ a) (map OPacket (concat q') ++ a)) /\ incl (concat q') (concat q) /\ collectives t = [].
Proof.
  intros G. assert (Z0 : forall q q' t, Ok (q, @nil ev) = Ok (q', t) ->
    (forall a, moves t (map OPacket (concat q) ++ a) (map OPacket (concat q') ++ a)) /\ incl (concat q') (concat q) /\ collectives t = []).
  { intros q q' t E. apply Ok_inj in E. injection E as <- <-. split; [intros a; apply moves_nil|]. split; [intros z Hz; exact Hz|reflexivity]. }
  induction fuel as [|fuel IH]; intros q q' t E; cbn [rounds] in E.
  - apply Z0. exact E.
  - destruct (forallb _ q); [apply Z0; exact E|]. apply obind_ok in E. destruct E as ([q1 t1] & E1 & E). apply obind_ok in E. destruct E as ([q2 t2] & E2 & E).
    apply Ok_inj in E. injection E as <- <-. destruct (round_moves p q q1 t1 G E1) as (M1 & I1 & C1). destruct (IH q1 q2 t2 E2) as (M2 & I2 & C2).
    split; [intros a; eapply moves_app; [apply M1|apply M2]|]. split; [intros z Hz; apply I1, I2, Hz|]. rewrite collectives_app, C1, C2. reflexivity.
Qed.
Lemma process_all_moves p : good_ranks p -> forall qs qs' t, process_all p qs = Ok (qs', t) ->
  (forall a, moves t (packets qs ++ a) (packets qs' ++ a)) /\ incl (concat (concat qs')) (concat (concat qs)) /\ collectives t = [].
Proof.
  intros G. induction qs as [|q qs IH]; intros qs' t E; cbn [process_all] in E.
  - apply Ok_inj in E. injection E as <- <-. split; [intros a; apply moves_nil|]. split; [intros z Hz; exact Hz|reflexivity].
  - apply obind_ok in E. destruct E as ([q1 t1] & E1 & E). apply obind_ok in E. destruct E as ([q2 t2] & E2 & E).
    apply Ok_inj in E. injection E as <- <-. destruct (rounds_moves p G _ _ _ _ E1) as (M1 & I1 & C1). destruct (IH _ _ E2) as (M2 & I2 & C2).
    split; [|split].
    + intros a. unfold packets. cbn [concat]. rewrite !concat_app, !map_app, <- !app_assoc.
      eapply moves_app; [apply M1|]. specialize (M2 (map OPacket (concat q1) ++ a)). eapply moves_perm; [| |exact M2].
      * unfold packets. rewrite !app_assoc. apply Permutation_app_tail, Permutation_app_comm.
      * unfold packets. rewrite !app_assoc. apply Permutation_app_tail, Permutation_app_comm.
    + cbn [concat]. rewrite !concat_app. intros z Hz. apply in_app_or in Hz. apply in_or_app. destruct Hz as [Hz|Hz]; [left; apply I1, Hz|right; apply I2, Hz].
    + rewrite collectives_app, C1, C2. reflexivity.
Qed.

(* ---- ranks of other datastores ---- *)
Lemma ranks_apart o k : apart o k -> NoDup (other (o_rank o) (st_ranks o k)).
Proof.
  intros ((G & Hr) & A). unfold st_ranks. rewrite (proj2 (totals (world o k) G)).
  assert (H : forall id, In id (upto (datastores (world o k))) -> exists off, hosts (world o k) (ds_to_rank (world o k) id) off id).
  { intros id Hid. apply upto_In in Hid. destruct (hosts_exists (world o k) id G Hid) as (r & off & H). exists off.
    pose proof H as H'. apply hosts_spec in H'; [|exact G]. destruct H' as (A1 & A2 & A3 & A4).
    rewrite A4 at 1. rewrite ds_to_rank_spec by assumption. exact H. }
  destruct A as [A|A].
  - apply NoDup_filter.
    revert H. pose proof (upto_NoDup (datastores (world o k))) as ND. induction ND as [|x l Hx ND IH]; intros H; [constructor|].
    cbn [map]. constructor; [|apply IH; intros id Hid; apply H; right; exact Hid].
    intros I. apply in_map_iff in I. destruct I as (y & E & Hy). destruct (H x (or_introl eq_refl)) as (ox & H1). destruct (H y (or_intror Hy)) as (oy & H2).
    apply hosts_spec in H1; [|exact G]. apply hosts_spec in H2; [|exact G]. destruct H1 as (_ & B1 & _ & C1), H2 as (_ & B2 & _ & C2).
    cbn [l_per world] in *. rewrite A in *. rewrite E in C2. apply Hx. replace x with y; [exact Hy|]. rewrite C1, C2. lia.
  - replace (other (o_rank o) _) with (@nil Z); [constructor|]. symmetry. unfold other. induction (upto (datastores (world o k))) as [|x l IH]; [reflexivity|].
    cbn [map filter]. destruct (H x (or_introl eq_refl)) as (off & Hh). destruct Hh as (Hh & _). cbn [l_size world] in Hh.
    replace (ds_to_rank (world o k) x =? o_rank o) with true by (symmetry; apply Z.eqb_eq; lia). cbn [negb]. apply IH. intros id Hid. apply H. right. exact Hid.
Qed.

(* ---- the invariant ---- *)
Definition inv (o : outside) (p : priv) : Prop :=
  apart o (p_conf p)
  /\ (p_running p = false -> p = fresh true (p_conf p) true)
  /\ (p_running p = true -> p_rank p = o_rank o /\ p_ds_to_rank p = st_ranks o (p_conf p) /\ (p_thread p = true -> async_enabled p = true))
  /\ Forall (fun n => (n < p_next p)%N) (concat (concat (p_queues p))).
Definition hinv (o : outside) (h : handle) : Prop := match h with Hx (Some p) => inv o p | _ => True end.
Definition hown (h : handle) : list obj := match h with Hx (Some p) => owned p | _ => [] end.

Lemma inv_ranks o p : inv o p -> good_ranks p.
Proof.
  intros (A & B & C & D). unfold good_ranks. destruct (p_running p) eqn:R.
  - destruct (C eq_refl) as (-> & -> & _). apply ranks_apart. exact A.
  - rewrite (B eq_refl). constructor.
Qed.
Lemma inv_thread o p : inv o p -> p_thread p = true -> async_enabled p = true.
Proof.
  intros (A & B & C & D) T. destruct (p_running p) eqn:R; [apply (C eq_refl), T|]. rewrite (B eq_refl) in T. discriminate T.
Qed.
Lemma inv_fresh o k : apart o k -> inv o (fresh true k true).
Proof. intros A. split; [exact A|]. split; [intros _; reflexivity|]. split; [discriminate|]. constructor. Qed.

Lemma owned_queues p qs d n : Permutation (owned (set_queues p qs d n)) (packets qs ++ owned (set_queues p [] d n)).
Proof.
  unfold owned. cbn [p_config p_tconfig p_ds p_transport p_thread p_queues set_queues]. change (packets []) with (@nil obj).
  perm obj_dec.
Qed.
Lemma set_queues_same p : set_queues p (p_queues p) (p_ds_to_rank p) (p_next p) = p.
Proof. destruct p; reflexivity. Qed.
Lemma owned_queues' p : Permutation (owned p) (packets (p_queues p) ++ owned (set_queues p [] (p_ds_to_rank p) (p_next p))).
Proof. rewrite <- (set_queues_same p) at 1. apply owned_queues. Qed.
Lemma owned_next p qs d n d' n' : owned (set_queues p qs d n) = owned (set_queues p qs d' n').
Proof. reflexivity. Qed.

Lemma flush_step o p r t : inv o p -> flush (Hx (Some p)) = Ok (r, t) ->
  exists p', r = (HXHIM_SUCCESS, Hx (Some p')) /\ inv o p' /\ moves t (owned p) (owned p') /\ collectives t = [] /\ p_comm p' = p_comm p /\ p_running p' = p_running p.
Proof.
  intros I E. unfold flush in E. apply obind_ok in E. destruct E as ([qs t'] & E1 & E). apply Ok_inj in E. injection E as <- <-.
  destruct (process_all_moves p (inv_ranks o p I) _ _ _ E1) as (M & Inc & C). eexists. split; [reflexivity|]. split; [|split; [|split; [exact C|split; reflexivity]]].
  - destruct I as (A & B & R & D). split; [exact A|]. split; [|split; [exact R|]].
    + intros Hr. cbn [p_running set_queues] in Hr. specialize (B Hr). rewrite B in E1. cbv in E1. apply Ok_inj in E1. injection E1 as <- <-.
      rewrite B. reflexivity.
    + cbn [p_queues set_queues p_next]. rewrite Forall_forall in D |- *. intros n Hn. apply D, Inc, Hn.
  - eapply moves_perm; [symmetry; apply owned_queues'|symmetry; apply owned_queues|]. apply M.
Qed.
Lemma sync_step o h r t : hinv o h -> sync h = Ok (r, t) -> hinv o (snd r) /\ moves t (hown h) (hown (snd r)).
Proof.
  intros I E. unfold sync in E. destruct (started h) eqn:S; cbn [negb] in E.
  - apply obind_ok in E. destruct E as ([r1 t1] & E1 & E). destruct h as [|[p|]]; try discriminate S.
    destruct (flush_step o p r1 t1 I E1) as (p' & -> & I' & M & C & Hc & _). cbn [snd] in E. apply obind_ok in E. destruct E as (b & Eb & E).
    apply Ok_inj in E. injection E as <- <-. cbn [snd hinv hown]. split; [exact I'|]. eapply moves_app; [exact M|].
    unfold barrier in Eb. destruct (p_comm p'); [|discriminate Eb]. apply Ok_inj in Eb. subst b. apply (moves_coll Barrier _ eq_refl).
  - apply Ok_inj in E. injection E as <- <-. split; [exact I|]. apply moves_nil.
Qed.
Lemma change_step o h r t : hinv o h -> change h = Ok (r, t) -> hinv o (snd r) /\ moves t (hown h) (hown (snd r)).
Proof.
  intros I E. unfold change in E. destruct (started h) eqn:S; cbn [negb] in E.
  - apply obind_ok in E. destruct E as ([r1 t1] & E1 & E). destruct (sync_step o h r1 t1 I E1) as (I1 & M1).
    destruct (snd r1) as [|[p|]] eqn:Er; try discriminate E. apply obind_ok in E. destruct E as (b & Eb & E). apply obind_ok in E. destruct E as (b' & Eb' & E).
    apply Ok_inj in E. injection E as <- <-. cbn [snd]. split; [exact I1|]. eapply moves_app; [exact M1|].
    unfold barrier in Eb, Eb'. destruct (p_comm p); [|discriminate Eb]. apply Ok_inj in Eb, Eb'. subst b b'. eapply moves_app; apply (moves_coll Barrier _ eq_refl).
  - apply Ok_inj in E. injection E as <- <-. split; [exact I|]. apply moves_nil.
Qed.

Lemma upd_perm {A} (l : list (list A)) f x : (forall y, f y = y ++ [x]) -> forall n l', upd l n f = Some l' -> Permutation (concat l') (x :: concat l).
Proof.
  intros F. induction l as [|y l IH]; intros n l' E; [discriminate E|]. destruct n as [|n]; cbn [upd] in E.
  - injection E as <-. cbn [concat]. rewrite F, <- app_assoc. cbn [app]. symmetry. apply Permutation_middle.
  - destruct (upd l n f) as [l1|] eqn:E1; [|discriminate E]. injection E as <-. cbn [concat]. rewrite (IH n l1 E1). symmetry. apply Permutation_middle.
Qed.
Lemma upd_const {A} (l : list A) (y : A) : forall n x l', nth_error l n = Some x -> upd l n (fun _ => y) = Some l' ->
  exists a b, l = a ++ x :: b /\ l' = a ++ y :: b.
Proof.
  induction l as [|z l IH]; intros n x l' N E; [discriminate E|]. destruct n as [|n]; cbn [upd nth_error] in *.
  - injection N as ->. injection E as <-. exists [], l. split; reflexivity.
  - destruct (upd l n (fun _ => y)) as [l1|] eqn:E1; [|discriminate E]. injection E as <-. destruct (IH n x l1 N E1) as (a & b & -> & ->).
    exists (z :: a), b. split; reflexivity.
Qed.
Lemma enqueue_step o k id new h r t : hinv o h -> enqueue k id new h = Ok (r, t) -> hinv o (snd r) /\ moves t (hown h) (hown (snd r)) /\ collectives t = [].
Proof.
  intros I E. unfold enqueue in E. assert (Z0 : forall rc, Ok (rc, h, @nil ev) = Ok (r, t) -> hinv o (snd r) /\ moves t (hown h) (hown (snd r)) /\ collectives t = []).
  { intros rc E'. apply Ok_inj in E'. injection E' as <- <-. split; [exact I|]. split; [apply moves_nil|reflexivity]. }
  destruct h as [|[p|]]; try (apply (Z0 _ E)). destruct (p_running p) eqn:R; cbn [negb] in E; [|apply (Z0 _ E)]. destruct (id <? 0); [discriminate E|].
  destruct (nth_error (p_queues p) k) as [q|] eqn:Nk; [|discriminate E]. destruct (nth_error q (Z.to_nat id)) as [l|] eqn:Nq; [|discriminate E].
  destruct (new || _); [|apply (Z0 _ E)]. destruct (upd q _ _) as [q'|] eqn:Uq; [|discriminate E]. destruct (upd (p_queues p) k _) as [qs|] eqn:Uk; [|discriminate E].
  apply Ok_inj in E. injection E as <- <-. cbn [snd hinv hown].
  apply (upd_perm q _ (p_next p)) in Uq; [|intros y; reflexivity]. destruct (upd_const _ _ _ _ _ Nk Uk) as (a & b & Ep & ->).
  destruct I as (A & B & C & D).
  assert (P : Permutation (concat (concat (a ++ q' :: b))) (p_next p :: concat (concat (p_queues p)))).
  { rewrite Ep. rewrite !concat_app. cbn [concat]. rewrite !concat_app. rewrite Uq. cbn [app]. symmetry. apply Permutation_middle. }
  split; [|split; [|reflexivity]].
  - split; [exact A|]. split; [intros X; cbn [p_running set_queues] in X; congruence|]. split; [exact C|]. cbn [p_queues set_queues p_next].
    apply (Permutation_Forall (Permutation_sym P)). constructor; [lia|]. eapply Forall_impl; [|exact D]. intros n; cbn beta; lia.
  - eapply moves_perm; [apply Permutation_refl| |apply (moves_new (OPacket (p_next p)))].
    + rewrite owned_queues. rewrite (owned_queues' p). change (owned (set_queues p [] (p_ds_to_rank p) (p_next p + 1)%N)) with (owned (set_queues p [] (p_ds_to_rank p) (p_next p))).
      change (OPacket (p_next p) :: packets (p_queues p) ++ owned (set_queues p [] (p_ds_to_rank p) (p_next p)))
        with ((OPacket (p_next p) :: packets (p_queues p)) ++ owned (set_queues p [] (p_ds_to_rank p) (p_next p))).
      apply Permutation_app_tail. unfold packets. rewrite (Permutation_map OPacket P). reflexivity.
    + intros X. apply (Permutation_in _ (owned_queues' p)) in X. apply in_app_or in X. destruct X as [X|X].
      * unfold packets in X. apply in_map_iff in X. destruct X as (n & En & Hn). injection En as ->. rewrite Forall_forall in D. apply D in Hn. lia.
      * unfold owned in X. cbn [p_config p_tconfig p_ds p_transport p_thread p_queues set_queues] in X.
        destruct X as [X|X]; [discriminate X|]. repeat (apply in_app_or in X; destruct X as [X|X]);
        try (match type of X with In _ (one ?b _) => destruct b; [destruct X as [X|[]]; discriminate X|destruct X] end).
        -- apply ds_all_in in X. destruct X as (i & _ & [X|X]); discriminate X.
        -- destruct X.
Qed.

Lemma open_fail_step e p t a r t' : (e <> EBootstrap) -> (p_thread p = true -> async_enabled p = true) -> moves t a (owned p) ->
  open_fail e p t = Ok (r, t') -> snd r = Hx None /\ fst r = open_rc e /\ moves t' a [] /\ collectives t' = collectives t ++ [Barrier; Barrier].
Proof.
  intros He Hn M E. unfold open_fail in E. apply obind_ok in E. destruct E as (b & Eb & E). apply obind_ok in E. destruct E as ([[rc h] t2] & E2 & E).
  apply Ok_inj in E. injection E as <- <-. destruct (close_moves p rc h t2 Hn E2) as (-> & M2 & C2). cbn [fst snd].
  assert (Bb : b = [Barrier]). { destruct e; try congruence; unfold barrier in Eb; destruct (p_comm p); try discriminate Eb; apply Ok_inj in Eb; congruence. }
  subst b. split; [reflexivity|]. split; [reflexivity|]. split.
  - eapply moves_app; [exact M|]. eapply moves_app; [apply (moves_coll Barrier _ eq_refl)|exact M2].
  - rewrite !collectives_app, C2. reflexivity.
Qed.

Lemma packets_empty n m : packets (repeat (repeat [] n) m) = [].
Proof.
  unfold packets. induction m as [|m IH]; [reflexivity|]. cbn [repeat concat]. rewrite concat_app, map_app, IH, app_nil_r.
  clear IH. induction n as [|n IHn]; [reflexivity|exact IHn].
Qed.
Lemma packets_empty' n m : concat (concat (repeat (repeat (@nil N) n) m)) = [].
Proof. pose proof (packets_empty n m) as H. unfold packets in H. destruct (concat _); [reflexivity|discriminate H]. Qed.
Lemma tr_calls_moves k a : moves (tr_calls k) a a.
Proof. unfold tr_calls. destruct (k_transport k); [apply moves_nil|apply moves_nil|]. eapply moves_cons; apply moves_coll; reflexivity. Qed.

Lemma open_step o h r t : hinv o h -> open o h = Ok (r, t) -> hinv o (snd r) /\ moves t (hown h) (hown (snd r)).
Proof.
  intros I E. destruct (started h) eqn:S.
  - unfold open in E. rewrite S in E. apply Ok_inj in E. injection E as <- <-. split; [exact I|apply moves_nil].
  - destruct h as [|[p|]]; try discriminate E. cbn [started] in S. destruct I as (A & B & C & D). specialize (B S). rewrite B in E.
    destruct (open_spec o (p_conf p) (proj1 A)) as (l & ok & t1 & Cl & T & F & M & Eo). rewrite Eo in E.
    assert (M0 : moves t1 (owned p) (owned (st o (p_conf p) l false no_queues [] false))).
    { rewrite B. eapply moves_perm; [apply Permutation_refl| |apply M].
      - unfold owned, packets. cbn [p_config p_tconfig p_ds p_transport p_thread p_queues st fresh one app no_queues concat map].
        rewrite !app_nil_r. rewrite Permutation_app_comm. reflexivity.
      - intros i _. cbn. split; intros X; repeat (destruct X as [X|X]; try discriminate X); exact X. }
    cbn [hown]. destruct ok; [destruct (tr_ok o (p_conf p))|].
    + apply Ok_inj in E. injection E as <- <-. cbn [snd hinv hown]. set (k := p_conf p) in *. split.
      * split; [exact A|]. split; [discriminate|]. split; [intros _; split; [reflexivity|split; [reflexivity|]]; intros X; exact X|].
        cbn [p_queues st]. unfold st_queues. rewrite packets_empty'. constructor.
      * eapply moves_app; [exact M0|]. rewrite <- app_assoc. eapply moves_app; [apply tr_calls_moves|]. rewrite app_assoc, <- map_app.
        eapply moves_app; [|apply (moves_coll Barrier _ eq_refl)].
        unfold owned. cbn [p_config p_tconfig p_ds p_transport p_thread p_queues st]. unfold st_queues. rewrite packets_empty.
        change (packets no_queues) with (@nil obj). cbn [one app]. rewrite !app_nil_r.
        assert (ND : forall x, x = OTransport \/ x = OThread -> ~ In x (OPrivate :: ODsConfig :: OTrConfig :: ds_all l)).
        { intros x Hx X. destruct X as [X|[X|[X|X]]]; try (destruct Hx; congruence). apply ds_all_in in X. destruct X as (i & _ & [X|X]); destruct Hx; congruence. }
        destruct (has_tr k), (is_async k); cbn [one map app].
        -- eapply moves_perm; [apply Permutation_refl| |eapply moves_cons; apply moves_new].
           ++ perm obj_dec.
           ++ apply ND. left. reflexivity.
           ++ intros [X|X]; [discriminate X|]. revert X. apply ND. right. reflexivity.
        -- eapply moves_perm; [apply Permutation_refl| |apply moves_new].
           ++ rewrite (app_comm_cons _ _ OTrConfig), (app_comm_cons _ _ ODsConfig), (app_comm_cons _ _ OPrivate). apply Permutation_cons_append.
           ++ apply ND. left. reflexivity.
        -- eapply moves_perm; [apply Permutation_refl| |apply moves_new].
           ++ rewrite (app_comm_cons _ _ OTrConfig), (app_comm_cons _ _ ODsConfig), (app_comm_cons _ _ OPrivate). apply Permutation_cons_append.
           ++ apply ND. right. reflexivity.
        -- rewrite app_nil_r. apply moves_nil.
    + destruct (open_fail_step ETransport (st o (p_conf p) l false no_queues [] false) (t1 ++ tr_calls (p_conf p)) (owned p) r t) as (H1 & _ & H3 & _);
        [discriminate|discriminate|eapply moves_app; [exact M0|apply tr_calls_moves]|exact E|]. rewrite H1. split; [exact Logic.I|exact H3].
    + destruct (open_fail_step EDatastore (st o (p_conf p) l false no_queues [] false) t1 (owned p) r t) as (H1 & _ & H3 & _);
        [discriminate|discriminate|exact M0|exact E|]. rewrite H1. split; [exact Logic.I|exact H3].
Qed.

Lemma open_one_ub o p : p_running p = false -> p_comm p = true -> 0 <= o_rank o -> o_size o = 1 -> open_one o (Hx (Some p)) = UB.
Proof.
  intros R C Hr Hs. unfold open_one. cbn [started]. rewrite R. unfold init_bootstrap. rewrite C. cbn [p_size set_comm]. rewrite Hs. cbn [Z.eqb Pos.eqb negb].
  unfold init_one_datastore, destroy_datastore, ds_init. cbv zeta iota. cbn [p_rank set_conf set_config set_ds set_running set_comm p_config].
  destruct (Z.ltb_spec (o_rank o) 0); [lia|]. reflexivity.
Qed.
Lemma open_one_step o h r t : hinv o h -> open_one o h = Ok (r, t) -> hinv o (snd r) /\ moves t (hown h) (hown (snd r)).
Proof.
  intros I E. destruct (started h) eqn:S.
  - unfold open_one in E. rewrite S in E. apply Ok_inj in E. injection E as <- <-. split; [exact I|apply moves_nil].
  - destruct h as [|[p|]]; try discriminate E. cbn [started] in S. pose proof I as (A & B & C & D). specialize (B S).
    destruct (Z.eq_dec (o_size o) 1) as [E1|N1].
    { rewrite open_one_ub in E; [discriminate E|exact S|rewrite B; reflexivity|exact (proj1 (proj2 (proj1 A)))|exact E1]. }
    rewrite B in E. unfold open_one in E. change (started (Hx (Some (fresh true (p_conf p) true)))) with false in E. cbv iota in E.
    change (init_bootstrap o (fresh true (p_conf p) true)) with (Some (set_comm (fresh true (p_conf p) true) true (o_rank o) (o_size o))) in E. cbv iota in E.
    cbn [p_size set_comm] in E. destruct (Z.eqb_spec (o_size o) 1); [contradiction|]. cbn [negb] in E.
    unfold open_one_fail in E. cbn [p_comm set_comm barrier obind] in E. apply obind_ok in E. destruct E as ([[rc h] t2] & E2 & E).
    apply Ok_inj in E. injection E as <- <-. apply close_moves in E2; [|intros X; discriminate X]. destruct E2 as (-> & M2 & _).
    cbn [fst snd hinv hown app]. split; [exact Logic.I|]. eapply moves_cons; [apply (moves_coll Barrier _ eq_refl)|]. rewrite B. exact M2.
Qed.

Definition allowed (P : conf -> Prop) (c : call) (h : handle) : Prop :=
  match c with CInit _ k => h = Hx None /\ P k | CSetOption f => forall k, P k -> P (f k) | _ => True end.
Lemma step o c h r t : hinv o h -> allowed (apart o) c h -> do_call o c h = Ok (r, t) -> hinv o (snd r) /\ moves t (hown h) (hown (snd r)).
Proof.
  intros I A E. destruct c as [comm k| | | |k id new| | | | |f|]; cbn [do_call] in E.
  - destruct A as [-> A]. unfold init in E. destruct comm.
    + apply Ok_inj in E. injection E as <- <-. cbn [snd hinv hown]. split; [apply inv_fresh, A|].
      assert (M : moves [New OPrivate; New ODsConfig; New OTrConfig] [] [OTrConfig; ODsConfig; OPrivate]).
      { eapply moves_cons; [apply moves_new; intros []|]. eapply moves_cons; [apply moves_new; intros [X|[]]; discriminate X|].
        apply moves_new. intros [X|[X|[]]]; discriminate X. }
      eapply moves_perm; [apply Permutation_refl| |exact M]. change (owned (fresh true k true)) with [OPrivate; ODsConfig; OTrConfig]. perm obj_dec.
    + discriminate E.
  - apply (open_step o h r t I E).
  - apply (open_one_step o h r t I E).
  - destruct h as [|[p|]].
    + apply Ok_inj in E. injection E as <- <-. split; [exact I|apply moves_nil].
    + destruct r as [rc h]. destruct (close_moves p rc h t (inv_thread o p I) E) as (-> & M & _). split; [exact Logic.I|exact M].
    + apply Ok_inj in E. injection E as <- <-. split; [exact I|apply moves_nil].
  - destruct (enqueue_step o k id new h r t I E) as (H1 & H2 & _). split; assumption.
  - destruct h as [|[p|]]; try discriminate E. destruct (flush_step o p r t I E) as (p' & -> & I' & M & _). split; assumption.
  - apply (sync_step o h r t I E).
  - apply (change_step o h r t I E).
  - apply Ok_inj in E. injection E as <- <-. split; [exact I|apply moves_nil].
  - unfold set_option in E. destruct h as [|[p|]].
    + apply Ok_inj in E. injection E as <- <-. split; [exact I|apply moves_nil].
    + destruct (p_running p) eqn:R; apply Ok_inj in E; injection E as <- <-; cbn [snd hinv hown]; (split; [|apply moves_nil]); [exact I|].
      destruct I as (A0 & B & _). rewrite (B R). apply (inv_fresh o (f (p_conf p))). apply A, A0.
    + apply Ok_inj in E. injection E as <- <-. split; [exact I|apply moves_nil].
  - unfold results_destroy in E. destruct h as [|[p|]]; try discriminate E. apply Ok_inj in E. injection E as <- <-. split; [exact I|apply moves_nil].
Qed.
Lemma steps o l : forall h rs h' t, hinv o h -> orderly (apart o) o l h -> do_calls o l h = Ok (rs, h', t) -> hinv o h' /\ moves t (hown h) (hown h').
Proof.
  induction l as [|c l IH]; intros h rs h' t I O E; cbn [do_calls] in E.
  - apply Ok_inj in E. injection E as <- <- <-. split; [exact I|apply moves_nil].
  - apply obind_ok in E. destruct E as ([r t1] & E1 & E). apply obind_ok in E. destruct E as ([[rs2 h2] t2] & E2 & E). apply Ok_inj in E. cbn [fst snd] in E. injection E as <- <- <-.
    destruct O as [A O]. destruct (step o c h r t1 I A E1) as [I1 M1]. destruct (IH (snd r) rs2 h2 t2 I1 (O r t1 E1) E2) as [I2 M2].
    split; [exact I2|]. eapply moves_app; [exact M1|exact M2].
Qed.
