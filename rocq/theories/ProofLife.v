(* The life of a session: objects and collective calls *)
From Verif Require Import ModelBytes ProofBytes ModelElen ModelRoute SpecRoute ProofRoute ProofRoute2 ModelLife SpecLife.
From Coq Require Import Permutation.
Local Open Scope Z_scope.

(* ---- replaying ---- *)
Definition moves (t : list ev) (a b : list obj) : Prop :=
  forall live, Permutation live a -> NoDup a -> exists r, replay t live = Some r /\ Permutation r b /\ NoDup b.
Lemma replay_app t1 : forall t2 l, replay (t1 ++ t2) l = match replay t1 l with Some r => replay t2 r | None => None end.
Proof.
  induction t1 as [|e t1 IH]; intros t2 l; [reflexivity|]. destruct e as [o|o| | |]; cbn [app replay]; try apply IH;
    destruct (in_dec obj_dec o l); try reflexivity; apply IH.
Qed.
Lemma moves_nil a : moves [] a a.
Proof. intros live P N. exists live. auto. Qed.
Lemma moves_app t1 t2 a b c : moves t1 a b -> moves t2 b c -> moves (t1 ++ t2) a c.
Proof.
  intros M1 M2 live P N. destruct (M1 live P N) as (r & E & P1 & N1). destruct (M2 r P1 N1) as (r2 & E2 & P2 & N2).
  exists r2. rewrite replay_app, E. auto.
Qed.
Lemma moves_cons e t a b c : moves [e] a b -> moves t b c -> moves (e :: t) a c.
Proof. intros M1 M2. change (e :: t) with ([e] ++ t). exact (moves_app _ _ _ _ _ M1 M2). Qed.
Lemma moves_perm t a b a' b' : Permutation a a' -> Permutation b b' -> moves t a b -> moves t a' b'.
Proof.
  intros P Q M live L N. destruct (M live) as (r & E & R & K).
  - rewrite L. symmetry. exact P.
  - apply (Permutation_NoDup (Permutation_sym P) N).
  - exists r. split; [exact E|]. split; [rewrite R; exact Q|]. apply (Permutation_NoDup Q K).
Qed.
Lemma moves_new o a : ~ In o a -> moves [New o] a (o :: a).
Proof.
  intros Ho live P N. cbn [replay]. destruct (in_dec obj_dec o live) as [I|I].
  - exfalso. apply Ho. apply (Permutation_in _ P I).
  - exists (o :: live). split; [reflexivity|]. split; [apply perm_skip, P|]. constructor; assumption.
Qed.
Lemma remove_perm o l a : Permutation l (o :: a) -> ~ In o a -> Permutation (remove obj_dec o l) a.
Proof.
  intros P Ho. assert (R : forall x y, Permutation x y -> Permutation (remove obj_dec o x) (remove obj_dec o y)).
  { intros x y Q. induction Q as [|z x y Q IH|z w x|x y z Q1 IH1 Q2 IH2].
    - constructor.
    - cbn [remove]. destruct (obj_dec o z); [exact IH|constructor; exact IH].
    - cbn [remove]. destruct (obj_dec o z), (obj_dec o w); try reflexivity. apply perm_swap.
    - rewrite IH1. exact IH2. }
  rewrite (R _ _ P). cbn [remove]. destruct (obj_dec o o) as [_|C]; [|congruence].
  rewrite (notin_remove obj_dec a o Ho). reflexivity.
Qed.
Lemma moves_del o a : moves [Del o] (o :: a) a.
Proof.
  intros live P N. cbn [replay]. inversion N as [|? ? Ho N']; subst. destruct (in_dec obj_dec o live) as [I|I].
  - exists (remove obj_dec o live). split; [reflexivity|]. split; [apply remove_perm; assumption|exact N'].
  - exfalso. apply I. apply (Permutation_in _ (Permutation_sym P)). left. reflexivity.
Qed.
Lemma moves_coll e a : collective e = true -> moves [e] a a.
Proof. intros C live P N. exists live. destruct e; try discriminate C; cbn [replay]; auto. Qed.
Lemma moves_dels l : forall a, moves (map Del l) (l ++ a) a.
Proof. induction l as [|o l IH]; intros a; [apply moves_nil|]. cbn [map app]. eapply moves_cons; [apply moves_del|apply IH]. Qed.
Lemma moves_keep t a b : moves t a b -> NoDup a -> NoDup b.
Proof. intros M N. destruct (M a (Permutation_refl a) N) as (r & _ & _ & K). exact K. Qed.

Lemma collectives_app a b : collectives (a ++ b) = collectives a ++ collectives b.
Proof. apply filter_app. Qed.
Lemma collectives_dels l : collectives (map Del l) = [].
Proof. induction l as [|o l IH]; [reflexivity|exact IH]. Qed.

(* ---- what a session owns ---- *)
Definition ds_objs (o : option Z) : list obj := match o with Some i => [OCallbacks i; ODatastore i] | None => [] end.
Definition ds_all (l : list (option Z)) : list obj := concat (map ds_objs l).
Definition one (b : bool) (o : obj) : list obj := if b then [o] else [].
Definition packets (qs : list (list (list N))) : list obj := map OPacket (concat (concat qs)).
Definition owned (p : priv) : list obj :=
  OPrivate :: one (p_config p) ODsConfig ++ one (p_tconfig p) OTrConfig ++ ds_all (p_ds p) ++ one (p_transport p) OTransport
  ++ one (p_thread p) OThread ++ packets (p_queues p).

(* ---- Datastore::Init ---- *)
Definition usable (o : outside) (k : conf) (id : Z) : bool := negb (k_open_init k) || o_opens o id.
Definition no_ds (id : Z) (a : list obj) : Prop := forall i, id <= i -> ~ In (OCallbacks i) a /\ ~ In (ODatastore i) a.

Lemma ds_all_in l x : In x (ds_all l) -> exists i, In (Some i) l /\ (x = OCallbacks i \/ x = ODatastore i).
Proof.
  unfold ds_all. intros I. apply in_concat in I. destruct I as (y & Hy & I). apply in_map_iff in Hy. destruct Hy as ([i|] & <- & Hi); [|destruct I].
  exists i. split; [exact Hi|]. destruct I as [<-|[<-|[]]]; auto.
Qed.
Lemma ds_all_nones n : ds_all (repeat None n) = [].
Proof. induction n as [|n IH]; [reflexivity|exact IH]. Qed.

Lemma ds_inits_spec o p : 0 <= p_rank p -> p_config p = true ->
  forall n id, 0 <= id -> exists l ok t, ds_inits o p n id = Ok (l, ok, t) /\ collectives t = []
    /\ (ok = true -> l = map Some (map (fun i => id + i) (upto (Z.of_nat n)))
                     /\ forall i, 0 <= i < Z.of_nat n -> usable o (p_conf p) (id + i) = true)
    /\ (ok = false -> exists i, 0 <= i < Z.of_nat n /\ usable o (p_conf p) (id + i) = false)
    /\ (forall i, In (Some i) l -> id <= i)
    /\ forall a, no_ds id a -> moves t a (ds_all l ++ a).
Proof.
  intros Hr Hc. induction n as [|n IH]; intros id Hid.
  - exists [], true, []. split; [reflexivity|]. split; [reflexivity|]. split; [split; [reflexivity|intros i Hi; lia]|]. split; [discriminate|].
    split; [intros i []|]. intros a _. apply moves_nil.
  - cbn [ds_inits]. unfold ds_init. destruct (Z.ltb_spec (p_rank p) 0); [lia|]. destruct (Z.ltb_spec id 0); [lia|]. cbn [orb]. rewrite Hc. cbn [negb].
    change (negb (k_open_init (p_conf p)) || o_opens o id) with (usable o (p_conf p) id). destruct (usable o (p_conf p) id) eqn:U; cbn [obind].
    + destruct (IH (id + 1) ltac:(lia)) as (l & ok & t & E & C & T & F & I & M). rewrite E. cbn [obind fst snd].
      exists (Some id :: l), ok, ([New (OCallbacks id); New (ODatastore id)] ++ t). split; [reflexivity|]. split; [exact C|]. split; [|split; [|split]].
      * intros Hok. destruct (T Hok) as [-> V]. split.
        -- replace (Z.of_nat (S n)) with (1 + Z.of_nat n) by lia. rewrite upto_shift by lia.
           change (upto 1) with [0]. cbn [map app]. rewrite Z.add_0_r. f_equal. rewrite !map_map. apply map_ext. intros i. f_equal. lia.
        -- intros i Hi. destruct (Z.eq_dec i 0) as [->|N]; [rewrite Z.add_0_r; exact U|].
           specialize (V (i - 1) ltac:(lia)). replace (id + 1 + (i - 1)) with (id + i) in V by lia. exact V.
      * intros Hok. destruct (F Hok) as (i & Hi & V). exists (i + 1). split; [lia|]. replace (id + (i + 1)) with (id + 1 + i) by lia. exact V.
      * intros i [[= <-]|Hi]; [lia|]. specialize (I i Hi). lia.
      * intros a Na. eapply moves_app.
        -- eapply moves_cons; [apply moves_new; exact (proj1 (Na id ltac:(lia)))|].
           apply moves_new. intros [X|X]; [discriminate X|]. exact (proj2 (Na id ltac:(lia)) X).
        -- eapply moves_perm; [apply Permutation_refl| |apply M].
           ++ unfold ds_all. cbn [map concat ds_objs app]. fold (ds_all l).
              change (ds_all l ++ ODatastore id :: OCallbacks id :: a) with (ds_all l ++ ([ODatastore id; OCallbacks id] ++ a)).
              rewrite app_assoc. rewrite (Permutation_app_comm (ds_all l)). rewrite <- app_assoc. cbn [app].
              apply perm_swap.
           ++ intros i Hi. destruct (Na i ltac:(lia)) as [N1 N2].
              split; (intros [X|[X|X]]; [first [discriminate X|injection X as X; lia]|first [discriminate X|injection X as X; lia]|contradiction]).
    + exists (repeat None (S n)), false, [New (OCallbacks id); New (ODatastore id); Del (OCallbacks id); Del (ODatastore id)].
      split; [reflexivity|]. split; [reflexivity|]. split; [discriminate|]. split; [|split].
      * intros _. exists 0. split; [lia|]. rewrite Z.add_0_r. exact U.
      * intros i Hi. apply repeat_spec in Hi. discriminate Hi.
      * intros a Na. rewrite ds_all_nones. cbn [app].
        eapply moves_cons; [apply moves_new; exact (proj1 (Na id ltac:(lia)))|].
        eapply moves_cons; [apply moves_new; intros [X|X]; [discriminate X|exact (proj2 (Na id ltac:(lia)) X)]|].
        eapply moves_cons; [|apply moves_del]. eapply moves_perm; [apply perm_swap|apply Permutation_refl|]. apply moves_del.
Qed.

(* ---- Open ---- *)
Definition st (o : outside) (k : conf) (l : list (option Z)) (tr : bool) (qs : list (list (list N))) (d : list Z) (th : bool) : priv :=
  mkPriv true (o_rank o) (o_size o) true k true true (rs_get_id_in (o_rank o) (o_size o) (k_cr k) (k_sr k))
    (total_range_servers (world o k)) (total_datastores (world o k)) l tr qs d th 0.
Definition p2 (o : outside) (k : conf) : priv := set_running (set_comm (fresh true k true) true (o_rank o) (o_size o)) true.

Lemma init_stores_spec o k : fits o k -> exists l ok t,
  init_stores o (p2 o k) = Ok (st o k l false no_queues [] false, ok, t) /\ collectives t = []
  /\ (ok = true -> l = map Some (hosted (world o k) (o_rank o)) /\ forall id, In id (hosted (world o k) (o_rank o)) -> usable o k id = true)
  /\ (ok = false -> exists id, In id (hosted (world o k) (o_rank o)) /\ usable o k id = false)
  /\ forall a, no_ds 0 a -> moves t a (ds_all l ++ a).
Proof.
  intros (G & Hr). pose proof (rs_get_id_spec (world o k) (o_rank o) G Hr) as E1.
  pose proof (init_spec (world o k) (o_rank o) G Hr) as E3. unfold hosted. rewrite E3.
  pose proof G as (G1 & G2 & G3 & G4 & G5). cbn [l_size l_cr l_sr l_per world] in *.
  pose proof (ds_get_id_spec (world o k) (o_rank o) 0 G Hr ltac:(cbn [l_per world]; lia)) as E2. cbn [l_size l_cr l_sr l_per world] in *.
  assert (S : init_stores o (p2 o k) = let p1 := st o k [] false no_queues [] false in
    if rs_get_id_in (o_rank o) (o_size o) (k_cr k) (k_sr k) <? 0 then Ok (p1, true, [])
    else do (r, t) <- ds_inits o p1 (Z.to_nat (k_per k)) (ds_get_id_in (o_rank o) 0 (o_size o) (k_cr k) (k_sr k) (k_per k));
         Ok (set_ds p1 (fst r), snd r, t)).
  { unfold init_stores. change (p_layout (p2 o k)) with (world o k). cbn [l_size l_cr l_sr l_per world].
    destruct (Z.eqb_spec (k_cr k) 0); [lia|]. destruct (Z.eqb_spec (k_sr k) 0); [lia|]. destruct (Z.eqb_spec (k_per k) 0); [lia|]. reflexivity. }
  rewrite S. cbv zeta. rewrite E1, E2. destruct (server (world o k) (o_rank o)) eqn:B.
  - assert (P : 0 <= servers (world o k) (o_rank o)) by (unfold servers; lia).
    destruct (Z.ltb_spec (servers (world o k) (o_rank o)) 0); [lia|].
    assert (I0 : 0 <= servers (world o k) (o_rank o) * k_per k + 0) by nia.
    destruct (ds_inits_spec o (st o k [] false no_queues [] false) (proj1 Hr) eq_refl (Z.to_nat (k_per k)) _ I0) as (l & ok & t & E & C & T & F & I & M).
    rewrite E. cbn [obind fst snd]. exists l, ok, t. split; [reflexivity|]. split; [exact C|].
    rewrite Z2Nat.id in T, F by lia. rewrite Z.add_0_r in T, F. split; [|split].
    + intros Hok. destruct (T Hok) as [-> V]. split; [reflexivity|]. intros id Hid. apply in_map_iff in Hid. destruct Hid as (i & <- & Hi).
      apply upto_In in Hi. apply (V i Hi).
    + intros Hok. destruct (F Hok) as (i & Hi & V). exists (servers (world o k) (o_rank o) * k_per k + i). split; [|exact V].
      apply in_map_iff. exists i. split; [reflexivity|]. apply upto_In. exact Hi.
    + intros a Na. apply M. intros i Hi. apply Na. lia.
  - cbn [Z.ltb Z.compare]. exists [], true, []. split; [reflexivity|]. split; [reflexivity|]. split; [|split].
    + intros _. split; [reflexivity|]. intros id [].
    + discriminate.
    + intros a _. apply moves_nil.
Qed.

Definition tr_calls (k : conf) : list ev := match k_transport k with TrThallium => [AllReduce; AllGather] | _ => [] end.
Definition has_tr (k : conf) : bool := match k_transport k with TrNull => false | _ => true end.
Definition tr_ok (o : outside) (k : conf) : bool := negb (has_tr k) || o_transport o.
Definition is_async (k : conf) : bool := negb (k_async k =? 0).
Definition st_queues (o : outside) (k : conf) : list (list (list N)) := repeat (repeat [] (Z.to_nat (total_datastores (world o k)))) 5.
Definition st_ranks (o : outside) (k : conf) : list Z := map (ds_to_rank (world o k)) (upto (total_datastores (world o k))).

Lemma open_spec o k : fits o k -> exists l ok t,
  collectives t = []
  /\ (ok = true -> l = map Some (hosted (world o k) (o_rank o)) /\ forall id, In id (hosted (world o k) (o_rank o)) -> usable o k id = true)
  /\ (ok = false -> exists id, In id (hosted (world o k) (o_rank o)) /\ usable o k id = false)
  /\ (forall a, no_ds 0 a -> moves t a (ds_all l ++ a))
  /\ open o (Hx (Some (fresh true k true))) =
     if ok then
       if tr_ok o k then
         Ok (HXHIM_SUCCESS, Hx (Some (st o k l (has_tr k) (st_queues o k) (st_ranks o k) (is_async k))),
             t ++ (tr_calls k ++ map New (one (has_tr k) OTransport)) ++ map New (one (is_async k) OThread) ++ [Barrier])
       else open_fail ETransport (st o k l false no_queues [] false) (t ++ tr_calls k)
     else open_fail EDatastore (st o k l false no_queues [] false) t.
Proof.
  intros F. destruct (init_stores_spec o k F) as (l & ok & t & E & C & T & B & M). exists l, ok, t.
  split; [exact C|]. split; [exact T|]. split; [exact B|]. split; [exact M|].
  unfold open. change (started (Hx (Some (fresh true k true)))) with false. cbv iota.
  change (init_bootstrap o (fresh true k true)) with (Some (set_comm (fresh true k true) true (o_rank o) (o_size o))). cbv iota zeta.
  change (set_running (set_comm (fresh true k true) true (o_rank o) (o_size o)) true) with (p2 o k). rewrite E. cbn [obind fst snd].
  destruct ok; [|reflexivity]. cbn [negb]. destruct F as ((G1 & G2 & G3 & G4 & G5) & Hr). cbn [l_size l_cr l_sr l_per world] in *.
  unfold init_transport. change (p_conf (st o k l false no_queues [] false)) with k.
  destruct (Z.eqb_spec (k_cr k) 0); [lia|]. destruct (Z.eqb_spec (k_sr k) 0); [lia|]. cbn [orb negb p_tconfig st].
  unfold tr_ok, has_tr, tr_calls, is_async.
  assert (R : forall n : nat, resize ([] : list (list N)) n [] = repeat [] n).
  { intros n1. unfold resize. rewrite firstn_nil, Nat.sub_0_r. reflexivity. }
  assert (A : forall tr, init_async_puts (init_queues (st o k l tr no_queues [] false)) =
     (st o k l tr (st_queues o k) (st_ranks o k) (negb (k_async k =? 0)), map New (one (negb (k_async k =? 0)) OThread))).
  { intros tr. unfold init_async_puts, init_queues, no_queues. cbn [p_queues st map]. rewrite !R.
    unfold async_enabled. cbn [p_conf set_running set_queues st]. destruct (k_async k =? 0); reflexivity. }
  destruct (k_transport k); cbn [negb orb obind fst snd].
  - rewrite A. reflexivity.
  - destruct (o_transport o); cbn [negb orb obind fst snd]; [|reflexivity].
    change (set_transport (st o k l false no_queues [] false) true true) with (st o k l true no_queues [] false). rewrite A. reflexivity.
  - destruct (o_transport o); cbn [negb orb obind fst snd]; [|reflexivity].
    change (set_transport (st o k l false no_queues [] false) true true) with (st o k l true no_queues [] false). rewrite A. reflexivity.
Qed.

(* ---- Close ---- *)
Lemma drop_map l : drop l = map Del (map OPacket (concat l)).
Proof. unfold drop. rewrite map_map. reflexivity. Qed.
Lemma destroy_queues_map p : destroy_queues p = map Del (packets (p_queues p)).
Proof.
  unfold destroy_queues, packets. induction (p_queues p) as [|q qs IH]; [reflexivity|].
  cbn [map concat]. rewrite IH, drop_map, concat_app, !map_app. reflexivity.
Qed.
Lemma drop_ds_map l : concat (map drop_ds l) = map Del (ds_all l).
Proof. unfold ds_all. induction l as [|x l IH]; [reflexivity|]. cbn [map concat]. rewrite IH, map_app. destruct x; reflexivity. Qed.
Lemma one_del (b : bool) (o : obj) : (if b then [Del o] else []) = map Del (one b o).
Proof. destruct b; reflexivity. Qed.
Lemma moves_all l a : Permutation l a -> moves (map Del l) a [].
Proof. intros P. eapply moves_perm; [|apply Permutation_refl|apply (moves_dels l [])]. rewrite app_nil_r. exact P. Qed.

Definition puts_of (p : priv) : list obj := match p_queues p with q :: _ => map OPacket (concat q) | [] => [] end.
Lemma close_spec p : p_comm p = true -> (async_enabled p = true -> p_thread p = true) -> exists l,
  close (Hx (Some p)) = Ok (HXHIM_SUCCESS, Hx None, Barrier :: map Del l) /\ ((p_thread p = true -> async_enabled p = true) -> Permutation l (owned p)).
Proof.
  intros Hc Ht. unfold close. cbn [p_comm set_running]. rewrite Hc. cbn [barrier obind]. unfold destroy_async_puts.
  change (async_enabled (set_running p false)) with (async_enabled p). destruct (async_enabled p) eqn:A.
  - cbn [p_thread set_running]. rewrite (Ht eq_refl). cbn [obind destroy_transport destroy_datastore]. cbv zeta iota.
    rewrite destroy_queues_map, drop_ds_map. cbn [p_queues set_thread set_queues set_running p_transport p_tconfig p_ds p_config set_transport set_config set_ds].
    exists (puts_of p ++ [OThread] ++ packets (match p_queues p with [] => [] | _ :: q => [] :: q end)
            ++ (one (p_transport p) OTransport ++ one (p_tconfig p) OTrConfig) ++ (ds_all (p_ds p) ++ one (p_config p) ODsConfig) ++ [OPrivate]).
    split.
    + rewrite !map_app. cbn [app]. f_equal. f_equal. f_equal. unfold puts_of. rewrite !one_del.
      rewrite !app_assoc. destruct (p_queues p); [reflexivity|]. rewrite drop_map. reflexivity.
    + intros _. unfold owned. rewrite (Ht eq_refl). cbn [one].
      assert (Q : Permutation (puts_of p ++ packets (match p_queues p with [] => [] | _ :: q => [] :: q end)) (packets (p_queues p))).
      { unfold puts_of, packets. destruct (p_queues p) as [|q qs]; [constructor|]. cbn [concat app]. rewrite concat_app, map_app. reflexivity. }
      revert Q. generalize (puts_of p) (packets (match p_queues p with [] => [] | _ :: q => [] :: q end)) (packets (p_queues p))
        (one (p_transport p) OTransport) (one (p_tconfig p) OTrConfig) (ds_all (p_ds p)) (one (p_config p) ODsConfig).
      intros a b c d e f g Q. rewrite <- Q.
      repeat (rewrite <- ?app_assoc). rewrite (Permutation_app_comm (OPrivate :: _)) || idtac.
      change (OPrivate :: g ++ e ++ f ++ d ++ [OThread] ++ a ++ b) with ([OPrivate] ++ g ++ e ++ f ++ d ++ [OThread] ++ a ++ b).
      generalize [OPrivate] [OThread]. intros x y.
      apply (Permutation_count_occ obj_dec). intros z. rewrite !count_occ_app. lia.
  - cbn [obind destroy_transport destroy_datastore]. cbv zeta iota.
    rewrite destroy_queues_map, drop_ds_map. cbn [p_queues set_running p_transport p_tconfig p_ds p_config set_transport set_config set_ds].
    exists (packets (p_queues p)
            ++ (one (p_transport p) OTransport ++ one (p_tconfig p) OTrConfig) ++ (ds_all (p_ds p) ++ one (p_config p) ODsConfig) ++ [OPrivate]).
    split.
    + rewrite !map_app. cbn [app]. f_equal. f_equal. f_equal. rewrite !one_del. rewrite !app_assoc. reflexivity.
    + intros Hn. unfold owned. destruct (p_thread p); [discriminate (Hn eq_refl)|]. cbn [one].
      apply (Permutation_count_occ obj_dec). intros z. cbn [count_occ app]. rewrite !count_occ_app. cbn [count_occ].
      destruct (obj_dec OPrivate z); lia.
Qed.
Lemma close_moves p r h t : (p_thread p = true -> async_enabled p = true) -> close (Hx (Some p)) = Ok (r, h, t) ->
  h = Hx None /\ moves t (owned p) [] /\ collectives t = [Barrier].
Proof.
  intros Hn E. assert (Hc : p_comm p = true).
  { unfold close in E. cbn [p_comm set_running] in E. destruct (p_comm p); [reflexivity|discriminate E]. }
  assert (Ht : async_enabled p = true -> p_thread p = true).
  { intros A. unfold close in E. cbn [p_comm set_running] in E. rewrite Hc in E. cbn [barrier obind] in E. unfold destroy_async_puts in E.
    change (async_enabled (set_running p false)) with (async_enabled p) in E. rewrite A in E. cbn [p_thread set_running] in E.
    destruct (p_thread p); [reflexivity|discriminate E]. }
  destruct (close_spec p Hc Ht) as (l & E' & P). rewrite E' in E. apply Ok_inj in E. injection E as <- <- <-.
  split; [reflexivity|]. split.
  - eapply moves_cons; [apply (moves_coll Barrier _ eq_refl)|]. apply moves_all, P, Hn.
  - cbn [collectives filter collective]. f_equal. apply collectives_dels.
Qed.
