(* The cluster as one map: batches and clients *)
From Verif Require Import ModelBytes ProofBytes ModelKey ModelWire ModelHist ModelMsg SpecMsg ModelStore ModelGetOp ModelDs
  SpecStore ProofStore ProofDs ProofDs2 ModelElen ModelRoute SpecRoute ProofRoute ProofRoute2 ModelClient SpecClient SpecCluster
  ProofClient ProofClient2 ProofClient3 ProofClient4 ProofClient5 ProofClient6 ProofCluster.
Local Open Scope N_scope.

Definition goesf (e : env) (id : Z) (s p : field) : bool :=
  match e_hash e (e_rank e) (e_total e) (f_data s) (f_data p) with Ok i => (i =? id)%Z | _ => false end.
Lemma goes_f e id s p : goes e id s p = goesf e id (fa s) (fa p).
Proof. unfold goes, target, goesf, fa. cbn [f_data]. destruct (e_hash e _ _ _ _); reflexivity. Qed.
Lemma goes_at e id s p : goes e id s p = true -> at_ e s p = id.
Proof. unfold goes, at_. destruct (target e s p); intros H; [lia|discriminate]. Qed.
Lemma at_total c e s p : total_hash e -> good_arg c s -> good_arg c p -> an_id e (at_ e s p) /\ (forall id, goes e id s p = (at_ e s p =? id)%Z) /\ placed e s p = true.
Proof.
  intros T (_ & _ & _ & Ls) (_ & _ & _ & Lp). unfold at_, goes, placed, target. destruct (T (a_data s) (a_data p) Ls Lp) as (id & -> & Hid). split; [exact Hid|]. split; [reflexivity|].
  unfold an_id in Hid. lia.
Qed.

(* M seen by datastore id: it holds the pairs that go to it, and no others *)
Definition part (e : env) (id : Z) (M m : tmap) : Prop := forall s p, m s p = if goesf e id s p then M s p else None.
Lemma part_at e id M m s p : part e id M m -> goesf e id s p = true -> m s p = M s p.
Proof. intros H G. rewrite (H s p), G. reflexivity. Qed.
Lemma part_set e id M m s p o : goesf e id s p = true -> part e id M m -> part e id (tset M s p o) (tset m s p o).
Proof.
  intros G H s' p'. destruct (tset_cases M s p o s' p') as [(<- & <- & ->)|(Hn & ->)].
  - rewrite G. apply tset_same.
  - rewrite tset_other by exact Hn. apply H.
Qed.
Lemma part_skip e id M m s p o : part e id M m -> goesf e id s p = false -> part e id (tset M s p o) m.
Proof.
  intros H Hg s' p'. destruct (tset_cases M s p o s' p') as [(<- & <- & E)|(Hn & ->)]; [|apply H]. rewrite (H s p), Hg. reflexivity.
Qed.
Lemma part_ext e id M m m' : part e id M m -> (forall s p, m' s p = m s p) -> part e id M m'.
Proof. intros H E s p. rewrite E. apply H. Qed.

Definition good3 (c : codec) (t : arg * arg * arg) : Prop := let '(s, p, o) := t in good_arg c s /\ good_arg c p /\ good_arg c o.
Definition good2t (c : codec) (t : arg * arg * N) : Prop := let '(s, p, ty) := t in good_arg c s /\ good_arg c p /\ u32 ty.
Definition good2 (c : codec) (t : arg * arg) : Prop := let '(s, p) := t in good_arg c s /\ good_arg c p.

Section Client.
Context (e : env) (k : backend) (c : codec) (T : total_hash e).
Let goes3 id (t : arg * arg * arg) := let '(s, p, _) := t in goes e id s p.
Let goes2t id (t : arg * arg * N) := let '(s, p, _) := t in goes e id s p.
Let goes2 id (t : arg * arg) := let '(s, p) := t in goes e id s p.

Lemma serve_fits_cons f id d q l d1 x : serve_one f id d q = Ok (d1, x) -> (f = true -> fits_wire d [q]) ->
  (f = true -> fits_wire d1 l) -> f = true -> fits_wire d (q :: l).
Proof.
  intros H1 H2 H3 Hf. specialize (H2 Hf). specialize (H3 Hf). subst f. cbn [fits_wire] in H2 |- *. destruct H2 as (B & d' & r & E & R & _).
  split; [exact B|]. exists d', r. split; [exact E|]. split; [exact R|]. unfold serve_one in H1. rewrite E in H1. cbn [obind] in H1.
  apply obind_ok in H1 as (xs & _ & H1). injection H1 as -> _. exact H3.
Qed.

Lemma puts_served f id l : Forall (good3 c) l -> forall d m M, at_ds k c d m -> part e id M m ->
  exists d' m', serve_all f id d (map (fun i => QPut [i]) (map put_req (filter (goes3 id) l))) = Ok (d', filter (of_id id) (map (put_result e) l)) /\
    at_ds k c d' m' /\ part e id (put_all M l) m' /\
    (f = true -> fits_wire d (map (fun i => QPut [i]) (map put_req (filter (goes3 id) l)))).
Proof.
  induction 1 as [|[[s p] o] l (Gs & Gp & Go) HF IH]; intros d m M Hd Hp.
  - exists d, m. split; [reflexivity|]. split; [exact Hd|]. split; [exact Hp|]. intros _. exact I.
  - cbn [filter map put_all put_result]. destruct (at_total c e s p T Gs Gp) as (_ & Hg & _).
    change (of_id id (XPut (at_ e s p) true (rf s) (rf p))) with (at_ e s p =? id)%Z. rewrite <- Hg.
    change (goes3 id (s, p, o)) with (goes e id s p). destruct (goes e id s p) eqn:G.
    + destruct (serve_put k c f id d m s p o Hd Gs Gp Go) as (d1 & E1 & Hd1 & F1). cbn [map serve_all]. rewrite E1. cbn [obind].
      destruct (IH d1 _ (tset M (fa s) (fa p) (Some (fa o))) Hd1 (part_set _ _ _ _ _ _ _ (eq_trans (eq_sym (goes_f e id s p)) G) Hp)) as (d2 & m2 & E2 & Hd2 & Hp2 & F2).
      exists d2, m2. rewrite E2. cbn [obind]. rewrite (goes_at e id s p G). split; [reflexivity|]. split; [exact Hd2|]. split; [exact Hp2|].
      eapply serve_fits_cons; [exact E1|intros _; exact F1|exact F2].
    + rewrite goes_f in G. apply (IH d m _ Hd). apply part_skip; assumption.
Qed.
Lemma gets_served f id l : Forall (good2t c) l -> forall d m M, at_ds k c d m -> part e id M m ->
  serve_all f id d (map (fun i => QGet [i]) (map get_req (filter (goes2t id) l))) = Ok (d, filter (of_id id) (map (get_result e M) l)) /\
    (f = true -> fits_wire d (map (fun i => QGet [i]) (map get_req (filter (goes2t id) l)))).
Proof.
  induction 1 as [|[[s p] ty] l (Gs & Gp & Gt) HF IH]; intros d m M Hd Hp.
  - split; [reflexivity|]. intros _. exact I.
  - cbn [filter map]. destruct (at_total c e s p T Gs Gp) as (_ & Hg & _). specialize (IH d m M Hd Hp) as [E2 F2].
    assert (Eo : of_id id (get_result e M (s, p, ty)) = goes e id s p) by (rewrite Hg; unfold get_result, of_id; destruct (M (fa s) (fa p)); reflexivity).
    rewrite Eo. change (goes2t id (s, p, ty)) with (goes e id s p). destruct (goes e id s p) eqn:G.
    + destruct (serve_get k c f id d m s p ty Hd Gs Gp Gt) as (E1 & F1). cbn [map serve_all]. rewrite E1. cbn [obind].
      split.
      * rewrite E2. cbn [obind]. f_equal. f_equal. cbn [app]. f_equal. unfold get_result. rewrite (goes_at e id s p G).
        rewrite goes_f in G. rewrite (part_at _ _ _ _ _ _ Hp G). reflexivity.
      * eapply serve_fits_cons; [exact E1|intros _; exact F1|exact F2].
    + split; assumption.
Qed.
Lemma dels_served f id l : Forall (good2 c) l -> forall d m M, at_ds k c d m -> part e id M m ->
  exists d' m', serve_all f id d (map (fun i => QDel [i]) (map del_req (filter (goes2 id) l))) = Ok (d', filter (of_id id) (snd (del_all e k M l))) /\
    at_ds k c d' m' /\ part e id (fst (del_all e k M l)) m' /\
    (f = true -> fits_wire d (map (fun i => QDel [i]) (map del_req (filter (goes2 id) l)))).
Proof.
  induction 1 as [|[s p] l (Gs & Gp) HF IH]; intros d m M Hd Hp.
  - exists d, m. split; [reflexivity|]. split; [exact Hd|]. split; [exact Hp|]. intros _. exact I.
  - cbn [filter map del_all]. destruct (at_total c e s p T Gs Gp) as (_ & Hg & _).
    change (goes2 id (s, p)) with (goes e id s p). destruct (goes e id s p) eqn:G.
    + destruct (serve_del k c f id d m s p Hd Gs Gp) as (d1 & m1 & E1 & Hd1 & Em & F1). cbn [map serve_all]. rewrite E1. cbn [obind].
      assert (Hp1 : part e id (tset M (fa s) (fa p) None) m1) by (eapply part_ext; [apply part_set; [rewrite <- goes_f; exact G|exact Hp]|exact Em]).
      destruct (IH d1 m1 _ Hd1 Hp1) as (d2 & m2 & E2 & Hd2 & Hp2 & F2).
      destruct (del_all e k (tset M (fa s) (fa p) None) l) as [M' r]. cbn [fst snd] in *.
      exists d2, m2. rewrite E2. cbn [obind filter]. change (of_id id (XDel (at_ e s p) ?[b] (rf s) (rf p))) with (at_ e s p =? id)%Z.
      rewrite <- Hg, G, (goes_at e id s p G). split.
      * cbn [app]. pose proof G as G'. rewrite goes_f in G'. rewrite (part_at _ _ _ _ _ _ Hp G'). reflexivity.
      * split; [exact Hd2|]. split; [exact Hp2|]. eapply serve_fits_cons; [exact E1|intros _; exact F1|exact F2].
    + pose proof G as G'. rewrite goes_f in G'. destruct (IH d m (tset M (fa s) (fa p) None) Hd (part_skip _ _ _ _ _ _ _ Hp G')) as (d2 & m2 & E2 & Hd2 & Hp2 & F2).
      destruct (del_all e k (tset M (fa s) (fa p) None) l) as [M' r]. cbn [fst snd filter] in *.
      change (of_id id (XDel (at_ e s p) ?[b] (rf s) (rf p))) with (at_ e s p =? id)%Z. rewrite <- Hg, G. eauto 8.
Qed.

(* ---- calls ---- *)
Lemma good_sane a : good_arg c a -> sane a.
Proof. intros (G & _ & _ & L). split; [|exact L]. intros E. unfold given in G. rewrite E in G. discriminate. Qed.
Lemma data_plain x : data_call c x -> plain x.
Proof. destruct x; cbn [data_call plain]; auto. Qed.
Lemma data_sane x : data_call c x -> sane_call x.
Proof.
  destruct x as [s p o m|s p ty|s p ty n op|s p|id nm|l|l|l|l|l|t ty l|t ty l|t ops ty l]; cbn [data_call sane_call]; try contradiction.
  - intros (A & B & C). auto using good_sane.
  - intros (A & B & C). auto using good_sane.
  - intros (A & B). auto using good_sane.
  - destruct l as [l|]; [|contradiction]. apply Forall_impl. intros [[[s p] o] m] (A & B & C). auto using good_sane.
  - destruct l as [l|]; [|contradiction]. apply Forall_impl. intros [[s p] ty] (A & B & C). auto using good_sane.
  - destruct l as [l|]; [|contradiction]. apply Forall_impl. intros [s p] (A & B). auto using good_sane.
  - destruct t; [|contradiction]. destruct l as [l|]; [|contradiction]. intros [_ H]. left. split; [reflexivity|]. revert H.
    apply Forall_impl. intros [s p] (A & B). auto using good_sane.
Qed.
Lemma while_In {A} (f : A -> bool) l x : In x (while f l) -> In x l.
Proof. induction l as [|a l IH]; cbn [while]; [auto|]. destruct (f a); [|intros []]. intros [<-|H]; [left; reflexivity|right; auto]. Qed.
Lemma triples_good s p o m : good_arg c s -> good_arg c p -> good_arg c o -> Forall (good3 c) (one_put e s p o m).
Proof.
  intros Gs Gp Go. apply Forall_forall. intros t H. unfold one_put in H. apply while_In in H. unfold put_triples in H.
  apply in_flat_map in H as (x & Hx & Ht). destruct (N.testbit m (fst x)); [|destruct Ht]. destruct Ht as [<-|[]].
  cbn [In] in Hx. repeat (destruct Hx as [<-|Hx]; [cbn [snd good3]; auto|]). destruct Hx.
Qed.
Lemma flat_good {A B} (P : B -> Prop) (f : A -> list B) l : Forall (fun a => Forall P (f a)) l -> Forall P (flat_map f l).
Proof. induction 1; cbn [flat_map]; [constructor|]. apply Forall_app. auto. Qed.
Lemma data_parts x : data_call c x -> Forall (good3 c) (call_puts e x) /\ Forall (good2t c) (call_gets x) /\ Forall (good2 c) (call_dels x) /\
  call_getops x = [] /\ call_hists e x = [].
Proof.
  destruct x as [s p o m|s p ty|s p ty n op|s p|id nm|l|l|l|l|l|t ty l|t ty l|t ops ty l]; cbn [data_call call_puts call_gets call_dels call_getops call_hists]; try contradiction.
  - intros (A & B & C). split; [destruct (given s && given p && given o); [apply triples_good; assumption|constructor]|]. auto.
  - intros (A & B & C). split; [constructor|]. split; [|auto]. destruct (given s && given p); [|constructor]. constructor; [|constructor]. cbn [good2t good2]. auto.
  - intros (A & B). split; [constructor|]. split; [constructor|]. split; [|auto]. destruct (given s && given p); [|constructor]. constructor; [|constructor]. cbn [good2t good2]. auto.
  - destruct l as [l|]; [|contradiction]. intros H. split; [|auto]. apply flat_good. revert H. apply Forall_impl.
    intros [[[s p] o] m] (A & B & C). apply triples_good; assumption.
  - destruct l as [l|]; [|contradiction]. intros H. split; [constructor|]. split; [exact H|auto].
  - destruct l as [l|]; [|contradiction]. intros H. split; [constructor|]. split; [constructor|]. split; [exact H|auto].
  - destruct t; [|contradiction]. destruct l as [l|]; [|contradiction]. intros [U H]. split; [constructor|]. split; [|auto].
    apply Forall_forall. intros t Ht. apply in_map_iff in Ht as ([s p] & <- & Ht). rewrite Forall_forall in H. destruct (H _ Ht). cbn [good2t]. auto.
Qed.
Lemma calls_parts cs : Forall (data_call c) cs -> Forall (good3 c) (flat_map (call_puts e) cs) /\ Forall (good2t c) (flat_map call_gets cs) /\
  Forall (good2 c) (flat_map call_dels cs) /\ flat_map call_getops cs = [] /\ flat_map (call_hists e) cs = [].
Proof.
  induction 1 as [|y cs Hy HF IH]; [cbn [flat_map]; auto 8|]. destruct IH as (A & B & C & D & F). destruct (data_parts y Hy) as (A' & B' & C' & D' & F'). cbn [flat_map].
  rewrite D', F', D, F. repeat (split; [apply Forall_app; auto|]). auto.
Qed.
Lemma del_from M l : Forall (good2 c) l -> Forall (fun x => (0 <= from x < e_total e)%Z) (snd (del_all e k M l)).
Proof.
  intros H. revert M; induction H as [|[s p] l [Gs Gp] _ IH]; intros M; cbn [del_all]; [constructor|]. specialize (IH (tset M (fa s) (fa p) None)).
  destruct (del_all e k _ l) as [M' r]. cbn [snd] in *. constructor; [|exact IH]. cbn [from]. apply (at_total c e s p T Gs Gp).
Qed.
Lemma batch_from M cs : Forall (data_call c) cs -> Forall (fun x => (0 <= from x < e_total e)%Z) (snd (batch e k M cs)).
Proof.
  intros Hc. destruct (calls_parts cs Hc) as (GP & GG & GD & _). rewrite Forall_forall in GP, GG.
  unfold batch. pose proof (del_from (put_all M (flat_map (call_puts e) cs)) (flat_map call_dels cs) GD) as Hd.
  destruct (del_all e k _ _) as [M2 r]. cbn [snd] in *. apply Forall_app. split; [|apply Forall_app; split; [|exact Hd]].
  - apply Forall_forall. intros x Hx. apply in_map_iff in Hx as ([[s p] o] & <- & Hi). destruct (GP _ Hi) as (Gs & Gp & _). apply (at_total c e s p T Gs Gp).
  - apply Forall_forall. intros x Hx. apply in_map_iff in Hx as ([[s p] ty] & <- & Hi). destruct (GG _ Hi) as (Gs & Gp & _). unfold get_result. pose proof (at_total c e s p T Gs Gp) as [A _].
    destruct (put_all _ _ _ _); exact A.
Qed.

Lemma batch_served f id d m M cs : Forall (data_call c) cs -> at_ds k c d m -> part e id M m ->
  exists d' m', serve_all f id d (requests_to e id cs) = Ok (d', filter (of_id id) (snd (batch e k M cs))) /\
    at_ds k c d' m' /\ part e id (fst (batch e k M cs)) m' /\ (f = true -> fits_wire d (requests_to e id cs)).
Proof.
  intros Hc Hd Hp. destruct (calls_parts cs Hc) as (GP & GG & GD & EO & EH).
  destruct (puts_served f id _ GP d m M Hd Hp) as (d1 & m1 & E1 & Hd1 & Hp1 & F1).
  destruct (gets_served f id _ GG d1 m1 _ Hd1 Hp1) as (E2 & F2).
  destruct (dels_served f id _ GD d1 m1 _ Hd1 Hp1) as (d3 & m3 & E3 & Hd3 & Hp3 & F3).
  assert (Er : requests_to e id cs = map (fun i => QPut [i]) (puts_to e id cs) ++ map (fun i => QGet [i]) (gets_to e id cs) ++ map (fun i => QDel [i]) (dels_to e id cs)).
  { unfold requests_to, getops_to, hists_to. rewrite EO, EH. cbn [filter map app]. rewrite app_nil_r. reflexivity. }
  unfold batch. destruct (del_all e k (put_all M (flat_map (call_puts e) cs)) (flat_map call_dels cs)) as [M2 r]. cbn [fst snd] in *.
  exists d3, m3. rewrite Er. split; [|split; [exact Hd3|split; [exact Hp3|]]].
  - apply serve_all_app. exists d1. eexists _, _. split; [exact E1|]. split; [|rewrite !filter_app; reflexivity].
    apply serve_all_app. exists d1. eexists _, _. split; [exact E2|]. split; [exact E3|reflexivity].
  - intros Hf. specialize (F1 Hf). specialize (F2 Hf). specialize (F3 Hf). subst f.
    assert (Run : forall l d d' xs, serve_all true id d l = Ok (d', xs) -> forall d2, (exists rs, ds_run d (map (fun q => CallReq (seen_body q)) l) = Ok (d2, rs)) -> d2 = d').
    { clear. induction l as [|q l IH]; intros d d' xs H d2 (rs & R); cbn [serve_all map] in H, R.
      - injection H as <- _. injection R as <- _. reflexivity.
      - apply obind_ok in H as ([da xa] & Ea & H). apply obind_ok in H as ([db xb] & Eb & H). injection H as <- _.
        unfold serve_one in Ea. apply obind_ok in Ea as ([dc rc] & Eo & Ea). apply obind_ok in Ea as (ys & _ & Ea). injection Ea as -> _.
        cbn [ds_run ds_step] in R. rewrite Eo in R. cbn [obind] in R. apply obind_ok in R as ([dz r9] & R & R2). injection R2 as <- _. eapply IH; eauto. }
    apply fits_app. split; [exact F1|]. intros d2 R. rewrite (Run _ _ _ _ E1 _ R).
    apply fits_app. split; [exact F2|]. intros d4 R4. rewrite (Run _ _ _ _ E2 _ R4). exact F3.
Qed.
End Client.

(* the datastores hold M between them *)
Definition stores (e : env) (k : backend) (c : codec) (cl : cluster) (M : tmap) : Prop :=
  forall id, an_id e id -> exists d m, cl (rank_of e id) (id mod l_per (e_layout e))%Z = Some d /\ at_ds k c d m /\ part e id M m.

(* a function from a relation, for the ids *)
Lemma choose_list {A} (P : Z -> A -> Prop) (a0 : A) : forall l, (forall i, In i l -> exists a, P i a) -> exists f, forall i, In i l -> P i (f i).
Proof.
  induction l as [|i l IH]; intros H.
  - exists (fun _ => a0). intros i [].
  - destruct IH as [f Hf]; [intros j Hj; apply H; right; exact Hj|]. destruct (H i (or_introl eq_refl)) as [a Ha].
    exists (fun j => if (j =? i)%Z then a else f j). intros j Hj. destruct (Z.eqb_spec j i) as [->|Hn]; [exact Ha|]. apply Hf. destruct Hj; [congruence|assumption].
Qed.
Lemma choose {A} (e : env) (P : Z -> A -> Prop) (a0 : A) : (forall i, an_id e i -> exists a, P i a) -> exists f, forall i, an_id e i -> P i (f i).
Proof.
  intros H. destruct (choose_list P a0 (upto (e_total e))) as [f Hf].
  - intros i Hi. apply H, upto_In, Hi.
  - exists f. intros i Hi. apply Hf, upto_In, Hi.
Qed.

Lemma batch_step e k c s cl M cs : good_client e -> fresh e s -> stores e k c cl M -> Forall (data_call c) cs -> spread e cs ->
  exists s1 oks s2 cl2 xs, do_calls e s cl cs = Ok (s1, cl, oks) /\ flush e s1 cl = Ok (s2, cl2, xs) /\ fresh e s2 /\
    stores e k c cl2 (fst (batch e k M cs)) /\ Permutation xs (snd (batch e k M cs)).
Proof.
  intros (S & T & Co & Ops) F St Hc Sp.
  assert (Dh : defined_hash e) by (intros a b La Lb; destruct (T a b La Lb) as (id & E & Hid); exists id; split; [exact E|apply Hid]).
  destruct (calls_ok e S Dh Ops cs s cl (proj1 F) (fresh_sized e s F)) as [[[s1 cl1] oks] Ec].
  { revert Hc. apply Forall_impl. apply data_sane. } { revert Hc. apply Forall_impl. apply data_plain. }
  assert (Hd : exists D : Z -> ds, forall id, an_id e id -> cl (rank_of e id) (id mod l_per (e_layout e))%Z = Some (D id) /\ exists m, at_ds k c (D id) m /\ part e id M m).
  { apply (choose e (fun id d => cl (rank_of e id) (id mod l_per (e_layout e))%Z = Some d /\ exists m, at_ds k c d m /\ part e id M m) (opened k c)).
    intros id Hid. destruct (St id Hid) as (d & m & A & B). exists d. split; [exact A|]. exists m. exact B. }
  destruct Hd as [D HD].
  assert (Hd' : exists D' : Z -> ds, forall id, an_id e id -> serve_all (far e id) id (D id) (requests_to e id cs) = Ok (D' id, filter (of_id id) (snd (batch e k M cs))) /\
     (exists m, at_ds k c (D' id) m /\ part e id (fst (batch e k M cs)) m) /\ (far e id = true -> fits_wire (D id) (requests_to e id cs))).
  { apply (choose e (fun id d' => serve_all (far e id) id (D id) (requests_to e id cs) = Ok (d', filter (of_id id) (snd (batch e k M cs))) /\
     (exists m, at_ds k c d' m /\ part e id (fst (batch e k M cs)) m) /\ (far e id = true -> fits_wire (D id) (requests_to e id cs))) (opened k c)).
    intros id Hid. destruct (HD id Hid) as (_ & m & A & B).
    destruct (batch_served e k c T (far e id) id (D id) m M cs Hc A B) as (d' & m' & E & A' & B' & W). exists d'. split; [exact E|]. split; [|exact W]. exists m'. auto. }
  destruct Hd' as [D' HD'].
  destruct (calls_then_flush e s cl cs s1 cl1 oks D D' (fun id => filter (of_id id) (snd (batch e k M cs))) S F) as (-> & s2 & cl2 & xs & Ef & F2 & _ & H2 & _ & _ & P).
  - intros id Hid. apply HD, Hid.
  - revert Hc. apply Forall_impl. apply data_plain.
  - exact Ec.
  - exact Sp.
  - intros id Hid Hf _. split; [apply Co; assumption|apply HD'; assumption].
  - intros id Hid. apply HD', Hid.
  - exists s1, oks, s2, cl2, xs. split; [exact Ec|]. split; [exact Ef|]. split; [exact F2|]. split.
    + intros id Hid. destruct (HD' id Hid) as (_ & (m & A & B) & _). exists (D' id), m. split; [apply H2, Hid|]. auto.
    + rewrite P. apply Permutation_sym, by_ids; [|eapply batch_from; eassumption]. destruct (T [] []) as (id & _ & Hid); [reflexivity|reflexivity|]. unfold an_id in Hid. lia.
Qed.

Lemma stores_same e e' k c cl M : same_cluster e e' -> stores e k c cl M -> stores e' k c cl M.
Proof.
  intros (L & Tt & Hh) St id Hid. unfold an_id in Hid. rewrite <- Tt in Hid. destruct (St id Hid) as (d & m & A & B & C).
  exists d, m. unfold rank_of in *. rewrite <- L. split; [exact A|]. split; [exact B|]. intros s p. rewrite (C s p). unfold goesf. rewrite Hh. reflexivity.
Qed.
Lemma same_sym e e' : same_cluster e e' -> same_cluster e' e.
Proof. intros (A & B & C). split; [congruence|]. split; [congruence|]. intros s p. symmetry. apply C. Qed.

Lemma play_step E k c e0 : forall l S cl M,
  (forall i, In i (map fst l) -> good_client (E i) /\ same_cluster e0 (E i) /\ fresh (E i) (S i)) -> stores e0 k c cl M ->
  Forall (fun ic => Forall (data_call c) (snd ic) /\ spread (E (fst ic)) (snd ic)) l ->
  exists cl' rs, play E S cl l = Ok (cl', rs) /\ Forall2 (@Permutation result) rs (expected E k M l).
Proof.
  induction l as [|[i cs] l IH]; intros S cl M HE St HF.
  - exists cl, []. split; [reflexivity|constructor].
  - inversion HF as [|? ? Hx HF']; subst. destruct Hx as [Hc Hs]. cbn [fst snd] in Hc, Hs.
    destruct (HE i (or_introl eq_refl)) as (G & Same & F).
    destruct (batch_step (E i) k c (S i) cl M cs G F (stores_same _ _ _ _ _ _ Same St) Hc Hs) as (s1 & oks & s2 & cl2 & xs & Ec & Ef & F2 & St2 & P).
    cbn [play expected]. rewrite Ec. cbn [obind fst snd]. rewrite Ef. cbn [obind fst snd].
    destruct (batch (E i) k M cs) as [M' ys]. cbn [fst snd] in *.
    destruct (IH (next S i s2) cl2 M') as (cl' & rs & Ep & R).
    + intros j Hj. destruct (HE j (or_intror Hj)) as (G' & Same' & F'). split; [exact G'|]. split; [exact Same'|].
      unfold next. destruct (Z.eqb_spec j i) as [->|]; assumption.
    + eapply stores_same; [apply same_sym, Same|exact St2].
    + exact HF'.
    + rewrite Ep. cbn [obind]. eexists _, _. split; [reflexivity|]. constructor; assumption.
Qed.

(* C33 *)
Lemma cluster_is_map E k c e0 S cl l :
  (forall i, In i (map fst l) -> good_client (E i) /\ same_cluster e0 (E i) /\ fresh (E i) (S i)) ->
  holds e0 cl (fun _ => opened k c) ->
  Forall (fun ic => Forall (data_call c) (snd ic) /\ spread (E (fst ic)) (snd ic)) l ->
  exists cl' rs, play E S cl l = Ok (cl', rs) /\ Forall2 (@Permutation result) rs (expected E k no_triples l).
Proof.
  intros HE H HF. eapply play_step; [exact HE| |exact HF]. intros id Hid. exists (opened k c), no_triples. split; [apply H, Hid|]. split.
  - exists []. split; [reflexivity|]. split; [apply agrees_empty|]. intros s p o Ho. discriminate.
  - intros s p. destruct (goesf e0 id s p); reflexivity.
Qed.

(* one datastore on every range server: no two are on the same rank *)
Lemma one_each e cs : setting e -> l_per (e_layout e) = 1%Z -> spread e cs.
Proof.
  intros S H1. assert (O : forall U, one_per_rank e U).
  { intros U i j Hi Hj _ _ _ Hr. apply (loc_inj e i j S Hi Hj). unfold loc. rewrite Hr, H1, !Z.mod_1_r. reflexivity. }
  unfold spread. auto.
Qed.
(* one rank: no remote datastores *)
Lemma one_rank e cs : setting e -> l_size (e_layout e) = 1%Z -> spread e cs.
Proof.
  intros S H1. assert (O : forall U, one_per_rank e U).
  { intros U i j Hi Hj _ _ Hf Hr. exfalso. unfold an_id in Hi. rewrite (set_total _ S) in Hi.
    destruct (layout_bijection _ (set_layout _ S)) as (_ & _ & _ & _ & B). destruct (B i Hi) as (r1 & o1 & R0 & _ & _ & R1 & _).
    pose proof (set_rank _ S) as Rk. unfold far, rank_of in Hf. rewrite R1 in Hf. destruct R0 as [R0 _]. assert (Er : r1 = e_rank e) by lia. rewrite Er, Z.eqb_refl in Hf. discriminate. }
  unfold spread. auto.
Qed.
