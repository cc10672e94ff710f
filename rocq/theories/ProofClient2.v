(* Flushing the queues of one kind: every datastore executes its packets in order *)
From Verif Require Import ModelBytes ProofBytes ModelKey ModelWire ModelHist ModelMsg SpecMsg ProofMsg ModelStore ModelGetOp ModelDs
  SpecStore ProofStore ProofDs ProofDs2 ModelElen ModelRoute SpecRoute ProofRoute ProofRoute2 ModelClient SpecClient ProofClient.
Local Open Scope Z_scope.

Lemma NoDup_app_remove_r {A} (l1 l2 : list A) : NoDup (l1 ++ l2) -> NoDup l1.
Proof.
  induction l1 as [|a l1 IH]; intros H; [constructor|]. cbn [app] in H. inversion H; subst. constructor; [|auto].
  intros Hin. apply H2, in_app_iff. left. exact Hin.
Qed.
Lemma NoDup_app_remove_l {A} (l1 l2 : list A) : NoDup (l1 ++ l2) -> NoDup l2.
Proof. induction l1 as [|a l1 IH]; intros H; [exact H|]. cbn [app] in H. inversion H; auto. Qed.

(* ---- places ---- *)
Definition loc (e : env) (id : Z) : Z * Z := (rank_of e id, id mod l_per (e_layout e)).
Lemma loc_inj e i j : setting e -> an_id e i -> an_id e j -> loc e i = loc e j -> i = j.
Proof.
  intros S Hi Hj H. unfold an_id in Hi, Hj. rewrite (set_total _ S) in Hi, Hj.
  destruct (layout_bijection _ (set_layout _ S)) as (_ & _ & _ & _ & B).
  destruct (B i Hi) as (r1 & o1 & H1 & _ & _ & R1 & O1 & _). destruct (B j Hj) as (r2 & o2 & H2 & _ & _ & R2 & O2 & _).
  unfold loc, rank_of in H. assert (r1 = r2 /\ o1 = o2) as [-> ->] by (split; congruence).
  destruct H1 as (_ & _ & H1), H2 as (_ & _ & H2). congruence.
Qed.
Lemma an_id_int32 e id : setting e -> an_id e id -> int32 id.
Proof.
  intros S H. unfold an_id in H. rewrite (set_total _ S) in H. destruct (set_layout _ S) as (_ & _ & _ & _ & Hd).
  change int_max with 2147483647 in Hd. unfold int32. lia.
Qed.
Lemma rank_int32 e : setting e -> int32 (e_rank e).
Proof.
  intros S. pose proof (set_rank _ S). destruct (set_layout _ S) as ([_ Hd] & _).
  change int_max with 2147483647 in Hd. unfold int32. lia.
Qed.

(* cl' is cl with the datastores ids replaced by D' *)
Definition moved (e : env) (ids : list Z) (D' : Z -> ds) (cl cl' : cluster) : Prop :=
  (forall id, In id ids -> cl' (fst (loc e id)) (snd (loc e id)) = Some (D' id)) /\
  (forall r o, (forall id, In id ids -> loc e id <> (r, o)) -> cl' r o = cl r o).
Lemma cl_set_same cl r o d : cl_set cl r o d r o = Some d.
Proof. unfold cl_set. rewrite !Z.eqb_refl. reflexivity. Qed.
Lemma cl_set_other cl r o d r' o' : (r, o) <> (r', o') -> cl_set cl r o d r' o' = cl r' o'.
Proof.
  intros H. unfold cl_set. destruct (Z.eqb_spec r' r); [|reflexivity]. destruct (Z.eqb_spec o' o); [|reflexivity].
  subst. congruence.
Qed.
Lemma moved_nil e D' cl : moved e [] D' cl cl.
Proof. split; [intros id []|reflexivity]. Qed.
Lemma moved_cons e id ids D' cl cl' : setting e -> Forall (an_id e) (id :: ids) -> ~ In id ids ->
  moved e ids D' (cl_set cl (fst (loc e id)) (snd (loc e id)) (D' id)) cl' -> moved e (id :: ids) D' cl cl'.
Proof.
  intros S Ha Hn [M1 M2]. inversion Ha as [|? ? Hid Hids]; subst. rewrite Forall_forall in Hids. split.
  - intros j [<-|Hj]; [|apply M1, Hj]. rewrite M2; [apply cl_set_same|].
    intros k Hk E. rewrite <- surjective_pairing in E. apply (loc_inj e k id S (Hids k Hk) Hid) in E. subst. contradiction.
  - intros r o H. rewrite M2 by (intros k Hk; apply H; right; exact Hk). apply cl_set_other.
    rewrite <- surjective_pairing. apply H. left. reflexivity.
Qed.
Lemma moved_app e ids1 ids2 D' cl cl1 cl2 : setting e -> Forall (an_id e) (ids1 ++ ids2) -> NoDup (ids1 ++ ids2) ->
  moved e ids1 D' cl cl1 -> moved e ids2 D' cl1 cl2 -> moved e (ids1 ++ ids2) D' cl cl2.
Proof.
  intros S Ha Hn [A1 A2] [B1 B2]. rewrite Forall_forall in Ha. split.
  - intros id Hin. apply in_app_iff in Hin as [Hin|Hin]; [|apply B1, Hin]. rewrite B2; [apply A1, Hin|].
    intros k Hk E. rewrite <- surjective_pairing in E. apply (loc_inj e k id S) in E; [|apply Ha, in_app_iff; auto..]. subst k.
    clear - Hn Hk Hin. induction ids1 as [|x l IH]; [destruct Hin|]. cbn [app] in Hn. inversion Hn; subst.
    destruct Hin as [<-|Hin]; [apply H1, in_app_iff; auto|auto].
  - intros r o H. rewrite B2 by (intros k Hk; apply H, in_app_iff; auto). apply A2. intros k Hk; apply H, in_app_iff; auto.
Qed.
Lemma moved_holds e ids D D' cl cl' : setting e -> Forall (an_id e) ids -> holds e cl D -> moved e ids D' cl cl' ->
  (forall id, an_id e id -> ~ In id ids -> D' id = D id) -> holds e cl' D'.
Proof.
  intros S Ha H [M1 M2] Hd id Hid. destruct (in_dec Z.eq_dec id ids) as [Hin|Hin]; [exact (M1 id Hin)|].
  rewrite M2; [rewrite Hd by assumption; apply H, Hid|]. intros k Hk E. rewrite Forall_forall in Ha.
  apply (loc_inj e k id S (Ha k Hk) Hid) in E. subst. contradiction.
Qed.
(* nothing outside the layout's datastores is touched *)
Definition frame (e : env) (cl cl' : cluster) : Prop :=
  forall r o, (forall id, an_id e id -> loc e id <> (r, o)) -> cl' r o = cl r o.
Lemma frame_refl e cl : frame e cl cl.
Proof. intros r o _. reflexivity. Qed.
Lemma frame_trans e a b c : frame e a b -> frame e b c -> frame e a c.
Proof. intros H1 H2 r o H. rewrite (H2 r o H). apply H1, H. Qed.
Lemma moved_frame e ids D' cl cl' : Forall (an_id e) ids -> moved e ids D' cl cl' -> frame e cl cl'.
Proof. intros Ha [_ M] r o H. apply M. intros id Hin. apply H. rewrite Forall_forall in Ha. apply Ha, Hin. Qed.

(* ---- one request ---- *)
Lemma results_src m m' : m_src m = m_src m' -> m_body m = m_body m' -> results_of m = results_of m'.
Proof. unfold results_of. intros -> ->. reflexivity. Qed.
Lemma getop_results_from id l r : omap (getop_results id) l = Ok r -> Forall (fun x => from x = id) (concat r).
Proof.
  revert r; induction l as [|i l IH]; intros r H; [injection H as <-; constructor|].
  apply omap_cons in H as (y & r' & Hy & Hr & ->). cbn [concat]. apply Forall_app. split; [|apply IH, Hr].
  unfold getop_results in Hy. destruct (gp_recs i) as [|a rs]; [discriminate|]. injection Hy as <-.
  apply Forall_forall. intros x Hx. cbn [map] in Hx. destruct Hx as [<-|Hx]; [reflexivity|]. apply in_map_iff in Hx as (b & <- & _). reflexivity.
Qed.
Lemma results_from m xs : results_of m = Ok xs -> Forall (fun x => from x = m_src m) xs.
Proof.
  unfold results_of. destruct (m_body m); intros H; try (injection H as <-); try constructor.
  1,2,4,5: apply Forall_forall; intros x Hx; apply in_map_iff in Hx as (b & <- & _); reflexivity.
  apply obind_ok in H as (r & E & H). injection H as <-. eapply getop_results_from, E.
Qed.
Lemma serve_one_from f id d q d' xs : serve_one f id d q = Ok (d', xs) -> Forall (fun x => from x = id) xs.
Proof. unfold serve_one. intros H. obind H a E. destruct a as [d1 r]. obind H x Ex. injection H as _ <-. exact (results_from _ _ Ex). Qed.
Lemma serve_all_from f id l : forall d d' xs, serve_all f id d l = Ok (d', xs) -> Forall (fun x => from x = id) xs.
Proof.
  induction l as [|q l IH]; intros d d' xs H; cbn [serve_all] in H; [injection H as _ <-; constructor|].
  obind H a Ea. destruct a as [d1 x]. obind H b Eb. destruct b as [d2 y]. injection H as _ <-.
  apply Forall_app. split; [eapply serve_one_from, Ea|eapply IH, Eb].
Qed.

(* a request for datastore id that this rank sends *)
Definition request_for (e : env) (m : msg) : Prop := an_id e (m_dst m) /\ m_src m = e_rank e /\ body_dir (m_body m) = 1%N.

Lemma serve_spec e cl D m d' b : holds e cl D -> an_id e (m_dst m) -> operate (D (m_dst m)) (m_body m) = Ok (d', b) ->
  serve e cl (rank_of e (m_dst m)) m =
  Ok (cl_set cl (fst (loc e (m_dst m))) (snd (loc e (m_dst m))) d', mkMsg (m_dst m) (m_src m) (resp (m_body m) b)).
Proof. intros H Hid E. unfold serve. rewrite (H _ Hid), E. reflexivity. Qed.

Lemma local_step e cl D m d' xs : holds e cl D -> request_for e m -> far e (m_dst m) = false ->
  serve_one false (m_dst m) (D (m_dst m)) (m_body m) = Ok (d', xs) ->
  exists r, serve e cl (e_rank e) m = Ok (cl_set cl (fst (loc e (m_dst m))) (snd (loc e (m_dst m))) d', r) /\ results_of r = Ok xs.
Proof.
  intros H (Hid & _ & _) Hf E. unfold far in Hf. assert (Hr : rank_of e (m_dst m) = e_rank e) by (apply Z.eqb_eq; destruct (rank_of e (m_dst m) =? e_rank e); [reflexivity|discriminate]).
  unfold serve_one in E. obind E a Ea. destruct a as [d1 b]. obind E x Ex. injection E as <- <-.
  rewrite <- Hr. rewrite (serve_spec e cl D m d1 b H Hid Ea). eexists. split; [reflexivity|].
  rewrite <- Ex. apply results_src; reflexivity.
Qed.

Lemma response_dir d q d' b : body_dir q = 1%N -> operate d (seen_body q) = Ok (d', b) -> body_dir (resp q b) = 2%N.
Proof.
  intros Hq H. destruct q; try discriminate; cbn [seen_body] in H.
  - destruct (k_resp _ _ kind_put _ _ _ _ H) as [[X _] _]. destruct b; [exact X|reflexivity].
  - destruct (k_resp _ _ kind_get _ _ _ _ H) as [[X _] _]. destruct b; [exact X|reflexivity].
  - destruct (k_resp _ _ kind_getop _ _ _ _ H) as [[X _] _]. destruct b; [exact X|reflexivity].
  - destruct (k_resp _ _ kind_del _ _ _ _ H) as [[X _] _]. destruct b; [exact X|reflexivity].
  - destruct (k_resp _ _ kind_hist _ _ _ _ H) as [[X _] _]. destruct b; [exact X|reflexivity].
Qed.
Lemma no_response_seen q : no_response (seen_body q) = seen_body (no_response q).
Proof. destruct q; reflexivity. Qed.

Lemma resp_seen q b : body_dir q = 1%N -> resp (seen_body q) b = resp q b.
Proof. destruct b as [b|]; [reflexivity|]. destruct q; try discriminate; reflexivity. Qed.

Lemma far_step e route cl D m d' xs : setting e -> holds e cl D -> request_for e m ->
  route (rank_of e (m_dst m)) = Some (rank_of e (m_dst m)) -> fits_wire (D (m_dst m)) [m_body m] ->
  serve_one true (m_dst m) (D (m_dst m)) (m_body m) = Ok (d', xs) ->
  exists r, remote_call e route cl (dst_rank e m) m = Ok (cl_set cl (fst (loc e (m_dst m))) (snd (loc e (m_dst m))) d', Some r) /\ results_of r = Ok xs.
Proof.
  intros S H (Hid & Hsrc & Hdir) Hroute Hfit E. destruct m as [src id q]. cbn [m_dst m_src m_body] in *. subst src.
  unfold remote_call, dst_rank. cbn [m_dst]. change (ds_to_rank (e_layout e) id) with (rank_of e id). rewrite Hroute.
  cbn [fits_wire] in Hfit. destruct Hfit as (Hq & d1 & b & Eo & Hb & _).
  assert (I1 : int32 (e_rank e)) by (apply rank_int32; exact S). assert (I2 : int32 id) by (eapply an_id_int32; eassumption).
  destruct (request_wire (mkMsg (e_rank e) id q) Hdir (conj I1 (conj I2 Hq))) as (bs & P1 & P2 & _ & _).
  rewrite P1. cbn [obind]. specialize (P2 []). rewrite app_nil_r in P2. rewrite P2. cbn [obind]. unfold seen_msg. cbn [m_src m_dst m_body].
  pose proof (serve_spec e cl D (mkMsg (e_rank e) id (seen_body q)) d1 b H Hid Eo) as Es. cbn [m_dst m_src m_body] in Es.
  rewrite Es. cbn [obind m_dst m_src m_body].
  rewrite (resp_seen q b Hdir).
  destruct (response_wire (mkMsg id (e_rank e) (resp q b)) (response_dir _ _ _ _ Hdir Eo) (conj I2 (conj I1 Hb))) as (bs2 & Q1 & Q2 & _ & _).
  rewrite Q1. cbn [obind]. specialize (Q2 []). rewrite app_nil_r in Q2. rewrite Q2. cbn [obind].
  unfold serve_one in E. rewrite Eo in E. cbn [obind] in E. obind E x Ex. injection E as <- <-.
  eexists. split; [reflexivity|]. rewrite <- Ex. apply results_src; reflexivity.
Qed.

(* ---- several requests for different datastores ---- *)
Section Several.
Context (e : env) (S : setting e) (D D' : Z -> ds) (X : Z -> list result).

Lemma holds_set cl (D0 : Z -> ds) id d : an_id e id -> holds e cl D0 ->
  holds e (cl_set cl (fst (loc e id)) (snd (loc e id)) d) (fun j => if j =? id then d else D0 j).
Proof.
  intros Hid H j Hj. destruct (Z.eqb_spec j id) as [->|Hne]; [apply cl_set_same|].
  rewrite cl_set_other; [apply H, Hj|]. rewrite <- surjective_pairing. intros E. apply Hne. symmetry. exact (loc_inj e id j S Hid Hj E).
Qed.

Lemma run_local_spec : forall ms cl (D0 : Z -> ds), holds e cl D0 ->
  (forall id, In id (map m_dst ms) -> D0 id = D id) -> NoDup (map m_dst ms) ->
  Forall (fun m => request_for e m /\ far e (m_dst m) = false /\
                   serve_one false (m_dst m) (D (m_dst m)) (m_body m) = Ok (D' (m_dst m), X (m_dst m))) ms ->
  exists cl', run_local e cl ms = Ok (cl', flat_map X (map m_dst ms)) /\ moved e (map m_dst ms) D' cl cl'.
Proof.
  induction ms as [|m ms IH]; intros cl D0 H Hd Hn Hm.
  - exists cl. split; [reflexivity|apply moved_nil].
  - inversion Hm as [|? ? (Hr & Hf & Hs) Hm']; subst. cbn [map] in Hn. inversion Hn as [|? ? Hni Hn']; subst.
    rewrite <- (Hd (m_dst m)) in Hs by (left; reflexivity).
    destruct (local_step e cl D0 m _ _ H Hr Hf Hs) as (r & E1 & E2).
    pose proof (holds_set cl D0 (m_dst m) (D' (m_dst m)) (proj1 Hr) H) as H1.
    destruct (IH _ _ H1) as (cl' & E3 & M); [|exact Hn'|exact Hm'|].
    + intros id Hin. destruct (Z.eqb_spec id (m_dst m)) as [->|]; [contradiction|]. apply Hd. right. exact Hin.
    + exists cl'. cbn [run_local map flat_map]. rewrite E1. cbn [obind]. rewrite E2. cbn [obind]. rewrite E3. cbn [obind]. split; [reflexivity|].
      apply moved_cons; [exact S| |exact Hni|exact M]. change (m_dst m :: map m_dst ms) with (map m_dst (m :: ms)).
      rewrite Forall_map. apply Forall_forall. intros x Hx. rewrite Forall_forall in Hm. exact (proj1 (proj1 (Hm x Hx))).
Qed.

Lemma communicate_spec route : forall l cl (D0 : Z -> ds), holds e cl D0 ->
  (forall id, In id (map (fun km => m_dst (snd km)) l) -> D0 id = D id) -> NoDup (map (fun km => m_dst (snd km)) l) ->
  Forall (fun km : Z * msg => fst km = dst_rank e (snd km) /\ request_for e (snd km) /\
     route (rank_of e (m_dst (snd km))) = Some (rank_of e (m_dst (snd km))) /\ fits_wire (D (m_dst (snd km))) [m_body (snd km)] /\
     serve_one true (m_dst (snd km)) (D (m_dst (snd km))) (m_body (snd km)) = Ok (D' (m_dst (snd km)), X (m_dst (snd km)))) l ->
  exists cl', communicate e route cl l = Ok (cl', flat_map X (map (fun km => m_dst (snd km)) l))
    /\ moved e (map (fun km => m_dst (snd km)) l) D' cl cl'.
Proof.
  induction l as [|[k m] l IH]; intros cl D0 H Hd Hn Hm.
  - exists cl. split; [reflexivity|apply moved_nil].
  - inversion Hm as [|? ? (Hk & Hr & Hro & Hf & Hs) Hm']; subst. cbn [map snd fst] in *. inversion Hn as [|? ? Hni Hn']; subst.
    rewrite <- (Hd (m_dst m)) in Hs, Hf by (left; reflexivity).
    destruct (far_step e route cl D0 m _ _ S H Hr Hro Hf Hs) as (r & E1 & E2).
    pose proof (holds_set cl D0 (m_dst m) (D' (m_dst m)) (proj1 Hr) H) as H1.
    destruct (IH _ _ H1) as (cl' & E3 & M); [|exact Hn'|exact Hm'|].
    + intros id Hin. destruct (Z.eqb_spec id (m_dst m)) as [->|]; [contradiction|]. apply Hd. right. exact Hin.
    + exists cl'. cbn [communicate map flat_map]. rewrite E1. cbn [obind]. rewrite E2. cbn [obind]. rewrite E3. cbn [obind]. split; [reflexivity|].
      apply moved_cons; [exact S| |exact Hni|exact M]. constructor; [exact (proj1 Hr)|]. apply Forall_forall. intros x Hx.
      apply in_map_iff in Hx as (km & <- & Hin). rewrite Forall_forall in Hm'. exact (proj1 (proj1 (proj2 (Hm' km Hin)))).
Qed.

(* requests to different ranks all stay in the map *)
Lemma map_set_new k m l : ~ In k (map fst l) -> map_set k m l = l ++ [(k, m)].
Proof.
  induction l as [|[k' m'] l IH]; intros H; [reflexivity|]. cbn [map_set]. cbn [map fst] in H.
  destruct (Z.eqb_spec k k') as [->|]; [exfalso; apply H; left; reflexivity|]. cbn [app]. f_equal. apply IH. intros Hin. apply H. right. exact Hin.
Qed.
Lemma map_set_all : forall ms acc, NoDup (map fst acc ++ map (dst_rank e) ms) ->
  fold_left (fun l m => map_set (dst_rank e m) m l) ms acc = acc ++ map (fun m => (dst_rank e m, m)) ms.
Proof.
  induction ms as [|m ms IH]; intros acc H; cbn [fold_left map]; [symmetry; apply app_nil_r|].
  cbn [map] in H. rewrite map_set_new.
  - rewrite IH; [rewrite <- app_assoc; reflexivity|]. rewrite map_app, <- app_assoc. exact H.
  - intros Hin. apply NoDup_remove_2 in H. apply H, in_app_iff. left. exact Hin.
Qed.

Definition round_ok (m : msg) : Prop :=
  request_for e m /\
  serve_one (far e (m_dst m)) (m_dst m) (D (m_dst m)) (m_body m) = Ok (D' (m_dst m), X (m_dst m)) /\
  (far e (m_dst m) = true -> routed e (m_dst m) /\ fits_wire (D (m_dst m)) [m_body m]).

Lemma filter_partition (f : msg -> bool) l : Permutation (filter (fun m => negb (f m)) l ++ filter f l) l.
Proof.
  induction l as [|m l IH]; [constructor|]. cbn [filter]. destruct (f m); cbn [negb app].
  - apply Permutation_sym, Permutation_cons_app, Permutation_sym, IH.
  - constructor. exact IH.
Qed.

Lemma round_spec cl ms : holds e cl D -> NoDup (map m_dst ms) -> Forall round_ok ms ->
  (forall m1 m2, In m1 ms -> In m2 ms -> far e (m_dst m1) = true -> rank_of e (m_dst m1) = rank_of e (m_dst m2) -> m_dst m1 = m_dst m2) ->
  exists cl' ids, round e cl ms = Ok (cl', flat_map X ids) /\ Permutation ids (map m_dst ms) /\ moved e ids D' cl cl'.
Proof.
  intros H Hn Hm Ho. rewrite Forall_forall in Hm.
  set (rem := filter (fun m => negb (is_local e m)) ms). set (locs := filter (is_local e) ms).
  assert (Hrem : remote_map e ms = map (fun m => (dst_rank e m, m)) rem).
  { unfold remote_map. fold rem. rewrite map_set_all; [reflexivity|]. cbn [map app].
    assert (Hn' : NoDup (map m_dst rem)).
    { pose proof (Permutation_map m_dst (filter_partition (is_local e) ms)) as P. fold rem in P. rewrite map_app in P.
      apply Permutation_sym in P. apply (Permutation_NoDup P) in Hn. apply NoDup_app_remove_r in Hn. exact Hn. }
    assert (Hsub : forall m, In m rem -> In m ms /\ far e (m_dst m) = true).
    { intros m Hin. apply filter_In in Hin as [Hin Hl]. split; [exact Hin|]. exact Hl. }
    clearbody rem. induction rem as [|m r IH]; [constructor|]. cbn [map] in Hn' |- *. inversion Hn'; subst. constructor.
    - intros Hin. apply in_map_iff in Hin as (m2 & E & Hin). apply H2. apply in_map_iff. exists m2. split; [|exact Hin].
      destruct (Hsub m (or_introl eq_refl)) as [I1 F1]. destruct (Hsub m2 (or_intror Hin)) as [I2 F2].
      apply Ho; [exact I2|exact I1|exact F2|exact E].
    - apply IH; [assumption|]. intros m' Hin. apply Hsub. right. exact Hin. }
  pose proof (filter_partition (is_local e) ms) as P. fold rem locs in P.
  assert (Hall : NoDup (map m_dst rem ++ map m_dst locs)).
  { rewrite <- map_app. apply (Permutation_NoDup (l := map m_dst ms)); [|exact Hn]. apply Permutation_map, Permutation_sym, P. }
  assert (Han : forall m, In m (rem ++ locs) -> an_id e (m_dst m)).
  { intros m Hin. apply (Permutation_in _ P) in Hin. destruct (Hm m Hin) as [[A _] _]. exact A. }
  set (walk := e_iter e (map (fun m => (dst_rank e m, m)) rem)).
  assert (PW : Permutation (map (fun km : Z * msg => m_dst (snd km)) walk) (map m_dst rem)).
  { transitivity (map (fun km : Z * msg => m_dst (snd km)) (map (fun m => (dst_rank e m, m)) rem)).
    - apply Permutation_map. apply (set_iter _ S).
    - rewrite map_map. apply Permutation_refl. }
  (* the remote part *)
  assert (R1 : exists cl1 ids1, (match remote_map e ms with [] => Ok (cl, []) | remote => match e_transport e with None => UB
                   | Some route => communicate e route cl (e_iter e remote) end end) = Ok (cl1, flat_map X ids1)
                 /\ Permutation ids1 (map m_dst rem) /\ moved e ids1 D' cl cl1).
  { rewrite Hrem. destruct rem as [|m0 rem0] eqn:Erem.
    - cbn [map]. exists cl, []. split; [reflexivity|]. split; [constructor|apply moved_nil].
    - assert (In0 : In m0 ms /\ far e (m_dst m0) = true).
      { assert (I : In m0 (filter (fun m => negb (is_local e m)) ms)) by (unfold rem in Erem; rewrite Erem; left; reflexivity).
        apply filter_In in I. exact I. }
      destruct In0 as [In0 F0]. destruct (Hm m0 In0) as (_ & _ & HF). destruct (HF F0) as [(route & Etr & _) _].
      cbn [map]. change ((dst_rank e m0, m0) :: map (fun m => (dst_rank e m, m)) rem0) with (map (fun m => (dst_rank e m, m)) (m0 :: rem0)).
      rewrite Etr. fold walk.
      destruct (communicate_spec route walk cl D H (fun _ _ => eq_refl)) as (cl1 & E1 & M1).
      + apply (Permutation_NoDup (Permutation_sym PW)). apply NoDup_app_remove_r in Hall. exact Hall.
      + apply Forall_forall. intros km Hkm. apply (Permutation_in _ (set_iter _ S _)) in Hkm.
        apply in_map_iff in Hkm as (m & <- & Hin). cbn [fst snd]. split; [reflexivity|].
        assert (I : In m (filter (fun m => negb (is_local e m)) ms)) by (unfold rem in Erem; rewrite Erem; exact Hin).
        apply filter_In in I as [I Fm]. change (far e (m_dst m) = true) in Fm.
        destruct (Hm m I) as (Hreq & Hs & HF'). destruct (HF' Fm) as [(route' & Etr' & Hro) Hfit].
        split; [exact Hreq|]. assert (route' = route) by congruence. subst route'. split; [exact Hro|]. split; [exact Hfit|].
        rewrite Fm in Hs. exact Hs.
      + exists cl1, (map (fun km : Z * msg => m_dst (snd km)) walk). split; [exact E1|]. split; [exact PW|exact M1]. }
  destruct R1 as (cl1 & ids1 & E1 & P1 & M1).
  assert (A1 : Forall (an_id e) ids1).
  { apply Forall_forall. intros id Hid. apply (Permutation_in _ P1) in Hid. apply in_map_iff in Hid as (m & <- & Hin).
    apply Han, in_app_iff. left. exact Hin. }
  assert (ND : NoDup (ids1 ++ map m_dst locs)).
  { apply (Permutation_NoDup (l := map m_dst rem ++ map m_dst locs)); [|exact Hall]. apply Permutation_app_tail, Permutation_sym, P1. }
  assert (Hol : holds e cl1 (fun id => if in_dec Z.eq_dec id ids1 then D' id else D id)).
  { apply (moved_holds e ids1 D _ cl cl1 S A1 H).
    - destruct M1 as [M1 M2]. split; [|exact M2]. intros id Hin. rewrite (M1 id Hin). destruct (in_dec Z.eq_dec id ids1); [reflexivity|contradiction].
    - intros id _ Hnin. destruct (in_dec Z.eq_dec id ids1); [contradiction|reflexivity]. }
  destruct (run_local_spec locs cl1 _ Hol) as (cl2 & E2 & M2).
  - intros id Hin. cbv beta. destruct (in_dec Z.eq_dec id ids1) as [Hin1|]; [exfalso|reflexivity].
    clear - ND Hin Hin1. induction ids1 as [|x l IH]; [destruct Hin1|]. cbn [app] in ND. inversion ND; subst.
    destruct Hin1 as [<-|Hin1]; [apply H1, in_app_iff; auto|auto].
  - apply NoDup_app_remove_l in Hall. exact Hall.
  - apply Forall_forall. intros m Hin. apply filter_In in Hin as [Hin Hl]. assert (Fm : far e (m_dst m) = false) by (unfold far, rank_of; unfold is_local, dst_rank in Hl; rewrite Hl; reflexivity).
    destruct (Hm m Hin) as (Hreq & Hs & _). rewrite Fm in Hs. split; [exact Hreq|]. split; [exact Fm|exact Hs].
  - exists cl2, (ids1 ++ map m_dst locs). unfold round. rewrite E1. cbn [obind]. fold locs. rewrite E2. cbn [obind].
    split; [rewrite flat_map_app; reflexivity|]. split.
    + transitivity (map m_dst (rem ++ locs)); [rewrite map_app; apply Permutation_app_tail, P1|apply Permutation_map, P].
    + apply (moved_app e _ _ D' cl cl1 cl2 S); [|exact ND|exact M1|exact M2].
      apply Forall_app. split; [exact A1|]. apply Forall_forall. intros id Hid. apply in_map_iff in Hid as (m & <- & Hin).
      apply Han, in_app_iff. right. exact Hin.
Qed.
End Several.
