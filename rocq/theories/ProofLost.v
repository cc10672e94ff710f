(* One round of process with several datastores of one other rank *)
From Verif Require Import ModelBytes ProofBytes ModelKey ModelWire ModelHist ModelMsg SpecMsg ProofMsg ModelStore ModelGetOp ModelDs
  SpecStore ProofStore ProofDs ProofDs2 ModelElen ModelRoute SpecRoute ProofRoute ProofRoute2 ModelClient SpecClient ProofClient ProofClient2
  ProofClient3 SpecLost.
From Coq Require Import Sorted.
Local Open Scope Z_scope.

(* ---- the map from ranks to messages ---- *)
Lemma map_set_keys k m l : forall k', In k' (map fst (map_set k m l)) <-> k' = k \/ In k' (map fst l).
Proof.
  induction l as [|[k1 m1] l IH]; intros k'; cbn [map_set map fst In]; [firstorder|].
  destruct (Z.eqb_spec k k1) as [->|Hn]; cbn [map fst In]; [firstorder|]. rewrite IH. firstorder.
Qed.
Lemma map_set_NoDup k m l : NoDup (map fst l) -> NoDup (map fst (map_set k m l)).
Proof.
  induction l as [|[k1 m1] l IH]; intros H; cbn [map_set]; [constructor; [intros []|constructor]|].
  cbn [map fst] in H. inversion H as [|? ? H1 H2]; subst. destruct (Z.eqb_spec k k1) as [->|Hn]; cbn [map fst]; [constructor; assumption|].
  constructor; [|apply IH, H2]. rewrite map_set_keys. intros [->|Hi]; [apply Hn; reflexivity|contradiction].
Qed.
Lemma map_set_In k m l : NoDup (map fst l) -> forall k' m', In (k', m') (map_set k m l) <-> (k' = k /\ m' = m) \/ (k' <> k /\ In (k', m') l).
Proof.
  induction l as [|[k1 m1] l IH]; intros H k' m'; cbn [map_set In].
  - split; [intros [E|[]]; injection E as -> ->; left; auto|intros [[-> ->]|[_ []]]; left; reflexivity].
  - cbn [map fst] in H. inversion H as [|? ? H1 H2]; subst. destruct (Z.eqb_spec k k1) as [->|Hn]; cbn [In].
    + split.
      * intros [E|Hi]; [injection E as <- <-; left; auto|]. right. split; [|right; exact Hi].
        intros ->. apply H1. apply in_map_iff. exists (k1, m'). auto.
      * intros [[-> ->]|[Hk [E|Hi]]]; [left; reflexivity|injection E as -> ->; congruence|right; exact Hi].
    + rewrite (IH H2). split.
      * intros [E|[[-> ->]|[Hk Hi]]]; [injection E as <- <-; right; split; [congruence|left; reflexivity]|left; auto|right; split; [exact Hk|right; exact Hi]].
      * intros [[-> ->]|[Hk [E|Hi]]]; [right; left; auto|left; exact E|right; right; auto].
Qed.

Definition before (m m' : msg) : Prop := m_dst m < m_dst m'.
(* m is the last of its rank *)
Definition last_of (e : env) (l : list msg) (m : msg) : Prop := In m l /\ forall m', In m' l -> dst_rank e m' = dst_rank e m -> m_dst m' <= m_dst m.
Lemma sorted_app_inv {T} (R : T -> T -> Prop) (l : list T) x : StronglySorted R (l ++ [x]) -> StronglySorted R l /\ Forall (fun y => R y x) l.
Proof.
  induction l as [|y l IH]; intros H; [split; constructor|]. cbn [app] in H. inversion H as [|? ? H1 H2]; subst. destruct (IH H1) as [A B].
  apply Forall_app in H2 as [H2 H3]. inversion H3; subst. split; constructor; assumption.
Qed.
Lemma fold_map_spec e : forall l, StronglySorted before l ->
  let r := fold_left (fun l m => map_set (dst_rank e m) m l) l [] in
  NoDup (map fst r) /\ forall k m, In (k, m) r <-> k = dst_rank e m /\ last_of e l m.
Proof.
  intros l. induction l as [|x l IH] using rev_ind; intros Hs; cbn zeta.
  - cbn [fold_left map]. split; [constructor|]. intros k m. split; [intros []|intros (_ & [] & _)].
  - apply sorted_app_inv in Hs as [Hs Hx]. destruct (IH Hs) as [IH1 IH2]. rewrite fold_left_app. cbn [fold_left].
    split; [apply map_set_NoDup, IH1|]. intros k m. rewrite (map_set_In _ _ _ IH1), IH2. rewrite Forall_forall in Hx. unfold last_of. split.
    + intros [[-> ->]|[Hk (-> & Hi & Hl)]].
      * split; [reflexivity|]. split; [apply in_app_iff; right; left; reflexivity|]. intros m' Hm' _. apply in_app_iff in Hm' as [Hm'|[<-|[]]]; [|lia].
        specialize (Hx m' Hm'). unfold before in Hx. lia.
      * split; [reflexivity|]. split; [apply in_app_iff; left; exact Hi|]. intros m' Hm' E. apply in_app_iff in Hm' as [Hm'|[<-|[]]]; [apply Hl; assumption|congruence].
    + intros (-> & Hi & Hl). destruct (Z.eq_dec (dst_rank e m) (dst_rank e x)) as [E|N].
      * left. split; [exact E|]. apply in_app_iff in Hi as [Hi|[<-|[]]]; [|reflexivity]. specialize (Hx m Hi). unfold before in Hx.
        specialize (Hl x ltac:(apply in_app_iff; right; left; reflexivity) (eq_sym E)). lia.
      * right. split; [exact N|]. split; [reflexivity|]. split.
        -- apply in_app_iff in Hi as [Hi|[<-|[]]]; [exact Hi|congruence].
        -- intros m' Hm' E. apply Hl; [apply in_app_iff; left; exact Hm'|exact E].
Qed.
Lemma sorted_filter {T} (R : T -> T -> Prop) f (l : list T) : StronglySorted R l -> StronglySorted R (filter f l).
Proof.
  induction 1 as [|a l H IH Hf]; [constructor|]. cbn [filter]. destruct (f a); [|exact IH]. constructor; [exact IH|].
  apply Forall_forall. intros x Hx. apply filter_In in Hx as [Hx _]. rewrite Forall_forall in Hf. auto.
Qed.
Lemma sorted_NoDup (l : list msg) : StronglySorted before l -> NoDup (map m_dst l).
Proof.
  induction 1 as [|a l H IH Hf]; [constructor|]. cbn [map]. constructor; [|exact IH]. intros Hi. apply in_map_iff in Hi as (m & E & Hi).
  rewrite Forall_forall in Hf. specialize (Hf m Hi). unfold before in Hf. lia.
Qed.
Lemma NoDup_of_map {T U} (f : T -> U) (l : list T) : NoDup (map f l) -> NoDup l.
Proof.
  induction l as [|a l IH]; intros H; [constructor|]. cbn [map] in H. inversion H; subst. constructor; [|auto].
  intros Hi. apply H2. apply in_map, Hi.
Qed.

(* a message that is sent in the round with the messages ms *)
Definition goes_out (e : env) (ms : list msg) (m : msg) : bool :=
  is_local e m || forallb (fun m' => is_local e m' || negb (dst_rank e m' =? dst_rank e m) || (m_dst m' <=? m_dst m)) ms.

Lemma remote_map_spec e ms : StronglySorted before ms ->
  Permutation (remote_map e ms) (map (fun m => (dst_rank e m, m)) (filter (fun m => negb (is_local e m)) (filter (goes_out e ms) ms))).
Proof.
  intros Hs. unfold remote_map. destruct (fold_map_spec e _ (sorted_filter _ (fun m => negb (is_local e m)) _ Hs)) as [F1 F2].
  apply NoDup_Permutation.
  - apply (NoDup_of_map fst), F1.
  - apply (NoDup_of_map (fun km => m_dst (snd km))). rewrite map_map. cbn [snd]. apply sorted_NoDup, sorted_filter, sorted_filter, Hs.
  - intros [k m]. rewrite F2. unfold last_of. rewrite in_map_iff. split.
    + intros (-> & Hi & Hl). exists m. split; [reflexivity|]. apply filter_In in Hi as [Hi Hn]. apply filter_In. split; [|exact Hn].
      apply filter_In. split; [exact Hi|]. unfold goes_out. apply orb_true_iff. right. apply forallb_forall. intros m' Hm'.
      destruct (is_local e m') eqn:L; [reflexivity|]. destruct (Z.eqb_spec (dst_rank e m') (dst_rank e m)) as [E|]; [|reflexivity]. cbn [orb negb].
      apply Z.leb_le. apply Hl; [|exact E]. apply filter_In. split; [exact Hm'|]. rewrite L. reflexivity.
    + intros (m0 & E & Hi). injection E as <- <-. split; [reflexivity|]. apply filter_In in Hi as [Hi Hn]. apply filter_In in Hi as [Hi Hg].
      split; [apply filter_In; auto|]. intros m' Hm' E. apply filter_In in Hm' as [Hm' Hn']. unfold goes_out in Hg.
      destruct (is_local e m0); [discriminate Hn|]. cbn [orb] in Hg. rewrite forallb_forall in Hg. specialize (Hg m' Hm').
      destruct (is_local e m'); [discriminate Hn'|]. rewrite E, Z.eqb_refl in Hg. cbn [orb negb] in Hg. apply Z.leb_le, Hg.
Qed.

Section Round.
Context (e : env) (S : setting e) (D D' : Z -> ds) (X : Z -> list result).

Lemma round_lost cl ms : holds e cl D -> StronglySorted before ms -> Forall (round_ok e D D' X) (filter (goes_out e ms) ms) ->
  exists cl' ids, round e cl ms = Ok (cl', flat_map X ids) /\ Permutation ids (map m_dst (filter (goes_out e ms) ms)) /\ moved e ids D' cl cl'.
Proof.
  intros H Hs Hm. rewrite Forall_forall in Hm. set (kept := filter (goes_out e ms) ms) in *.
  assert (Hn : NoDup (map m_dst kept)) by (apply sorted_NoDup, sorted_filter, Hs).
  set (rem := filter (fun m => negb (is_local e m)) kept). set (locs := filter (is_local e) kept).
  assert (Hrem : Permutation (remote_map e ms) (map (fun m => (dst_rank e m, m)) rem)) by apply (remote_map_spec e ms Hs).
  assert (Hloc : filter (is_local e) ms = locs).
  { unfold locs, kept. clear. assert (G : forall l, filter (is_local e) l = filter (is_local e) (filter (goes_out e ms) l)); [|apply G].
    induction l as [|m l IH]; [reflexivity|]. cbn [filter]. destruct (is_local e m) eqn:L.
    - unfold goes_out at 1. rewrite L. cbn [orb filter]. rewrite L, IH. reflexivity.
    - destruct (goes_out e ms m); [|exact IH]. cbn [filter]. rewrite L. exact IH. }
  pose proof (filter_partition (is_local e) kept) as P. fold rem locs in P.
  assert (Hall : NoDup (map m_dst rem ++ map m_dst locs)).
  { rewrite <- map_app. apply (Permutation_NoDup (l := map m_dst kept)); [|exact Hn]. apply Permutation_map, Permutation_sym, P. }
  assert (Han : forall m, In m (rem ++ locs) -> an_id e (m_dst m)).
  { intros m Hin. apply (Permutation_in _ P) in Hin. destruct (Hm m Hin) as [[A _] _]. exact A. }
  set (walk := e_iter e (remote_map e ms)).
  assert (PW0 : Permutation walk (map (fun m => (dst_rank e m, m)) rem)) by (transitivity (remote_map e ms); [apply (set_iter _ S)|exact Hrem]).
  assert (PW : Permutation (map (fun km : Z * msg => m_dst (snd km)) walk) (map m_dst rem)).
  { transitivity (map (fun km : Z * msg => m_dst (snd km)) (map (fun m => (dst_rank e m, m)) rem)).
    - apply Permutation_map, PW0.
    - rewrite map_map. apply Permutation_refl. }
  assert (R1 : exists cl1 ids1, (match remote_map e ms with [] => Ok (cl, []) | remote => match e_transport e with None => UB
                   | Some route => communicate e route cl (e_iter e remote) end end) = Ok (cl1, flat_map X ids1)
                 /\ Permutation ids1 (map m_dst rem) /\ moved e ids1 D' cl cl1).
  { destruct (remote_map e ms) as [|km0 rm] eqn:Erm.
    - apply Permutation_nil in Hrem. destruct rem; [|discriminate]. exists cl, []. split; [reflexivity|]. split; [constructor|apply moved_nil].
    - fold walk.
      assert (Hr0 : exists m0, In m0 rem).
      { destruct rem as [|m0 rem0] eqn:Er; [|exists m0; left; reflexivity]. cbn [map] in Hrem. apply Permutation_sym, Permutation_nil in Hrem. discriminate. }
      destruct Hr0 as [m0 I0]. pose proof I0 as I0'. unfold rem in I0'. apply filter_In in I0' as [In0 F0]. change (far e (m_dst m0) = true) in F0.
      destruct (Hm m0 In0) as (_ & _ & HF). destruct (HF F0) as [(route & Etr & _) _]. rewrite Etr.
      destruct (communicate_spec e S D D' X route walk cl D H (fun _ _ => eq_refl)) as (cl1 & E1 & M1).
      + apply (Permutation_NoDup (Permutation_sym PW)). apply NoDup_app_remove_r in Hall. exact Hall.
      + apply Forall_forall. intros km Hkm. apply (Permutation_in _ PW0) in Hkm.
        apply in_map_iff in Hkm as (m & <- & Hin). cbn [fst snd]. split; [reflexivity|].
        unfold rem in Hin. apply filter_In in Hin as [I Fm]. change (far e (m_dst m) = true) in Fm.
        destruct (Hm m I) as (Hreq & Hs1 & HF'). destruct (HF' Fm) as [(route' & Etr' & Hro) Hfit].
        split; [exact Hreq|]. assert (route' = route) by congruence. subst route'. split; [exact Hro|]. split; [exact Hfit|].
        rewrite Fm in Hs1. exact Hs1.
      + exists cl1, (map (fun km : Z * msg => m_dst (snd km)) walk). split; [exact E1|]. split; [exact PW|exact M1]. }
  destruct R1 as (cl1 & ids1 & E1 & P1 & M1).
  assert (A1 : Forall (an_id e) ids1).
  { apply Forall_forall. intros id Hid. apply (Permutation_in _ P1) in Hid. apply in_map_iff in Hid as (m & <- & Hin).
    apply Han, in_app_iff. left. exact Hin. }
  assert (ND : NoDup (ids1 ++ map m_dst locs)).
  { apply (Permutation_NoDup (l := map m_dst rem ++ map m_dst locs)); [|exact Hall]. apply Permutation_app_tail, Permutation_sym, P1. }
  assert (Hol : holds e cl1 (fun id => if in_dec Z.eq_dec id ids1 then D' id else D id)).
  { apply (moved_holds e ids1 D _ cl cl1 S A1 H).
    - destruct M1 as [M1 M2]. split; [|exact M2]. intros id Hin. rewrite (M1 id Hin). destruct (in_dec Z.eq_dec id ids1); [reflexivity|contradiction].
    - intros id _ Hnin. destruct (in_dec Z.eq_dec id ids1); [contradiction|reflexivity]. }
  destruct (run_local_spec e S D D' X locs cl1 _ Hol) as (cl2 & E2 & M2).
  - intros id Hin. cbv beta. destruct (in_dec Z.eq_dec id ids1) as [Hin1|]; [exfalso|reflexivity].
    clear - ND Hin Hin1. induction ids1 as [|x l IH]; [destruct Hin1|]. cbn [app] in ND. inversion ND; subst.
    destruct Hin1 as [<-|Hin1]; [apply H1, in_app_iff; auto|auto].
  - apply NoDup_app_remove_l in Hall. exact Hall.
  - apply Forall_forall. intros m Hin. apply filter_In in Hin as [Hin Hl]. assert (Fm : far e (m_dst m) = false) by (unfold far, rank_of; unfold is_local, dst_rank in Hl; rewrite Hl; reflexivity).
    destruct (Hm m Hin) as (Hreq & Hs1 & _). rewrite Fm in Hs1. split; [exact Hreq|]. split; [exact Fm|exact Hs1].
  - exists cl2, (ids1 ++ map m_dst locs). unfold round. rewrite E1. cbn [obind]. rewrite Hloc. rewrite E2. cbn [obind].
    split; [rewrite flat_map_app; reflexivity|]. split.
    + transitivity (map m_dst (rem ++ locs)); [rewrite map_app; apply Permutation_app_tail, P1|apply Permutation_map, P].
    + apply (moved_app e _ _ D' cl cl1 cl2 S); [|exact ND|exact M1|exact M2].
      apply Forall_app. split; [exact A1|]. apply Forall_forall. intros id Hid. apply in_map_iff in Hid as (m & <- & Hin).
      apply Han, in_app_iff. right. exact Hin.
Qed.
End Round.
