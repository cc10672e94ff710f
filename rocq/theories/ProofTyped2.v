(* Objects that do not come back as they were stored: clients of the cluster *)
From Verif Require Import ModelBytes ProofBytes ModelKey ModelWire ModelHist ModelMsg SpecMsg ModelStore ModelGetOp ModelDs
  SpecStore ProofStore ProofDs ProofDs2 ModelElen ModelRoute SpecRoute ProofRoute ProofRoute2 ModelClient SpecClient SpecCluster
  ProofClient ProofClient2 ProofClient3 ProofClient4 ProofClient5 ProofClient6 ProofCluster ProofCluster2 SpecTyped ProofTyped.
Local Open Scope N_scope.

Definition obj3 (c : codec) (t : arg * arg * arg) : Prop := let '(s, p, o) := t in good_arg c s /\ good_arg c p /\ good_obj c o.
Definition keep3 (c : codec) (t : arg * arg * arg) : arg * arg * arg := let '(s, p, o) := t in (s, p, kept_arg c o).

Section Client.
Context (e : env) (k : backend) (c : codec) (T : total_hash e).
Let goes3 id (t : arg * arg * arg) := let '(s, p, _) := t in goes e id s p.
Let goes2t id (t : arg * arg * N) := let '(s, p, _) := t in goes e id s p.
Let goes2 id (t : arg * arg) := let '(s, p) := t in goes e id s p.

Lemma puts_served2 f id l : Forall (obj3 c) l -> forall d m M, at_obj k c d m -> part e id M m ->
  exists d' m', serve_all f id d (map (fun i => QPut [i]) (map put_req (filter (goes3 id) l))) = Ok (d', filter (of_id id) (map (put_result e) (map (keep3 c) l))) /\
    at_obj k c d' m' /\ part e id (put_all M (map (keep3 c) l)) m' /\
    (f = true -> fits_wire d (map (fun i => QPut [i]) (map put_req (filter (goes3 id) l)))).
Proof.
  induction 1 as [|[[s p] o] l (Gs & Gp & Go) HF IH]; intros d m M Hd Hp.
  - exists d, m. split; [reflexivity|]. split; [exact Hd|]. split; [exact Hp|]. intros _. exact I.
  - cbn [filter map put_all put_result keep3]. destruct (at_total c e s p T Gs Gp) as (_ & Hg & _).
    change (of_id id (XPut (at_ e s p) true (rf s) (rf p))) with (at_ e s p =? id)%Z. rewrite <- Hg.
    change (goes3 id (s, p, o)) with (goes e id s p). destruct (goes e id s p) eqn:G.
    + destruct (serve_put2 k c f id d m s p o Hd Gs Gp Go) as (d1 & m1 & E1 & Hd1 & Em & F1). cbn [map serve_all]. rewrite E1. cbn [obind].
      assert (Hp1 : part e id (tset M (fa s) (fa p) (Some (fa (kept_arg c o)))) m1) by (eapply part_ext; [apply part_set; [rewrite <- goes_f; exact G|exact Hp]|exact Em]).
      destruct (IH d1 m1 _ Hd1 Hp1) as (d2 & m2 & E2 & Hd2 & Hp2 & F2).
      exists d2, m2. rewrite E2. cbn [obind]. rewrite (goes_at e id s p G). split; [reflexivity|]. split; [exact Hd2|]. split; [exact Hp2|].
      eapply serve_fits_cons; [exact E1|intros _; exact F1|exact F2].
    + rewrite goes_f in G. apply (IH d m _ Hd). apply part_skip; assumption.
Qed.
Lemma gets_served2 f id l : Forall (good2t c) l -> forall d m M, at_obj k c d m -> part e id M m ->
  serve_all f id d (map (fun i => QGet [i]) (map get_req (filter (goes2t id) l))) = Ok (d, filter (of_id id) (map (get_result e M) l)) /\
    (f = true -> fits_wire d (map (fun i => QGet [i]) (map get_req (filter (goes2t id) l)))).
Proof.
  induction 1 as [|[[s p] ty] l (Gs & Gp & Gt) HF IH]; intros d m M Hd Hp.
  - split; [reflexivity|]. intros _. exact I.
  - cbn [filter map]. destruct (at_total c e s p T Gs Gp) as (_ & Hg & _). specialize (IH d m M Hd Hp) as [E2 F2].
    assert (Eo : of_id id (get_result e M (s, p, ty)) = goes e id s p) by (rewrite Hg; unfold get_result, of_id; destruct (M (fa s) (fa p)); reflexivity).
    rewrite Eo. change (goes2t id (s, p, ty)) with (goes e id s p). destruct (goes e id s p) eqn:G.
    + destruct (serve_get2 k c f id d m s p ty Hd Gs Gp Gt) as (E1 & F1). cbn [map serve_all]. rewrite E1. cbn [obind].
      split.
      * rewrite E2. cbn [obind]. f_equal. f_equal. cbn [app]. f_equal. unfold get_result. rewrite (goes_at e id s p G).
        rewrite goes_f in G. rewrite (part_at _ _ _ _ _ _ Hp G). reflexivity.
      * eapply serve_fits_cons; [exact E1|intros _; exact F1|exact F2].
    + split; assumption.
Qed.
Lemma dels_served2 f id l : Forall (good2 c) l -> forall d m M, at_obj k c d m -> part e id M m ->
  exists d' m', serve_all f id d (map (fun i => QDel [i]) (map del_req (filter (goes2 id) l))) = Ok (d', filter (of_id id) (snd (del_all e k M l))) /\
    at_obj k c d' m' /\ part e id (fst (del_all e k M l)) m' /\
    (f = true -> fits_wire d (map (fun i => QDel [i]) (map del_req (filter (goes2 id) l)))).
Proof.
  induction 1 as [|[s p] l (Gs & Gp) HF IH]; intros d m M Hd Hp.
  - exists d, m. split; [reflexivity|]. split; [exact Hd|]. split; [exact Hp|]. intros _. exact I.
  - cbn [filter map del_all]. destruct (at_total c e s p T Gs Gp) as (_ & Hg & _).
    change (goes2 id (s, p)) with (goes e id s p). destruct (goes e id s p) eqn:G.
    + destruct (serve_del2 k c f id d m s p Hd Gs Gp) as (d1 & m1 & E1 & Hd1 & Em & F1). cbn [map serve_all]. rewrite E1. cbn [obind].
      assert (Hp1 : part e id (tset M (fa s) (fa p) None) m1) by (eapply part_ext; [apply part_set; [rewrite <- goes_f; exact G|exact Hp]|exact Em]).
      destruct (IH d1 m1 _ Hd1 Hp1) as (d2 & m2 & E2 & Hd2 & Hp2 & F2).
      destruct (del_all e k (tset M (fa s) (fa p) None) l) as [M' r]. cbn [fst snd] in *.
      exists d2, m2. rewrite E2. cbn [obind filter]. change (of_id id (XDel (at_ e s p) ?[b] (rf s) (rf p))) with (at_ e s p =? id)%Z.
      rewrite <- Hg, G, (goes_at e id s p G). split.
      * cbn [app]. pose proof G as G'. rewrite goes_f in G'. rewrite (part_at _ _ _ _ _ _ Hp G'). reflexivity.
      * split; [exact Hd2|]. split; [exact Hp2|]. eapply serve_fits_cons; [exact E1|intros _; exact F1|exact F2].
    + pose proof G as G'. rewrite goes_f in G'. destruct (IH d m (tset M (fa s) (fa p) None) Hd (part_skip _ _ _ _ _ _ _ Hp G')) as (d2 & m2 & E2 & Hd2 & Hp2 & F2).
      destruct (del_all e k (tset M (fa s) (fa p) None) l) as [M' r]. cbn [fst snd filter] in *.
      change (of_id id (XDel (at_ e s p) ?[b] (rf s) (rf p))) with (at_ e s p =? id)%Z. rewrite <- Hg, G. eauto 8.
Qed.

(* ---- calls ---- *)
Lemma obj_sane a : good_obj c a -> sane a.
Proof. intros (G & _ & _ & L). split; [|exact L]. intros E. unfold given in G. rewrite E in G. discriminate. Qed.
Let gsane a (H : good_arg c a) : sane a := good_sane c a H.
Lemma obj_plain x : obj_call c x -> plain x.
Proof. destruct x; cbn [obj_call plain]; auto. Qed.
Lemma obj_call_sane x : obj_call c x -> sane_call x.
Proof.
  destruct x as [s p o m|s p ty|s p ty n op|s p|id nm|l|l|l|l|l|t ty l|t ty l|t ops ty l]; cbn [obj_call sane_call]; try contradiction.
  - intros (A & B & C & _). auto using gsane, obj_sane.
  - intros (A & B & C). auto using gsane.
  - intros (A & B). auto using gsane.
  - destruct l as [l|]; [|contradiction]. apply Forall_impl. intros [[[s p] o] m] (A & B & C & _). auto using gsane, obj_sane.
  - destruct l as [l|]; [|contradiction]. apply Forall_impl. intros [[s p] ty] (A & B & C). auto using gsane.
  - destruct l as [l|]; [|contradiction]. apply Forall_impl. intros [s p] (A & B). auto using gsane.
  - destruct t; [|contradiction]. destruct l as [l|]; [|contradiction]. intros [_ H]. left. split; [reflexivity|]. revert H.
    apply Forall_impl. intros [s p] (A & B). auto using gsane.
Qed.
(* the triples of a PUT, and those of the PUT of what comes back *)
Lemma triples_obj s p o m : obj_fits c s p o m ->
  Forall (obj3 c) (one_put e s p o m) /\ one_put e s p (kept_arg c o) m = map (keep3 c) (one_put e s p o m).
Proof.
  intros (Gs & Gp & Go & [->|Ga]).
  - unfold one_put. change (put_triples s p o 1) with [(s, p, o)]. change (put_triples s p (kept_arg c o) 1) with [(s, p, kept_arg c o)]. cbn [while].
    split; [|destruct (placed e s p); reflexivity]. destruct (placed e s p); [|constructor]. constructor; [cbn [obj3]; auto|constructor].
  - split.
    + pose proof (triples_good e c s p o m Gs Gp Ga) as H. revert H. apply Forall_impl. intros [[x y] z] (A & B & C). cbn [obj3].
      split; [exact A|]. split; [exact B|]. apply good_arg_obj, C.
    + rewrite (proj2 (good_arg_obj c o Ga)). pose proof (triples_good e c s p o m Gs Gp Ga) as H. induction H as [|[[x y] z] l (A & B & C) _ IH]; [reflexivity|].
      cbn [map keep3]. rewrite (proj2 (good_arg_obj c z C)). f_equal. exact IH.
Qed.
Lemma obj_parts x : obj_call c x -> Forall (obj3 c) (call_puts e x) /\ Forall (good2t c) (call_gets x) /\ Forall (good2 c) (call_dels x) /\
  call_getops x = [] /\ call_hists e x = [] /\
  call_puts e (kept c x) = map (keep3 c) (call_puts e x) /\ call_gets (kept c x) = call_gets x /\ call_dels (kept c x) = call_dels x.
Proof.
  destruct x as [s p o m|s p ty|s p ty n op|s p|id nm|l|l|l|l|l|t ty l|t ty l|t ops ty l]; cbn [obj_call call_puts call_gets call_dels call_getops call_hists kept]; try contradiction.
  - intros F. destruct (triples_obj s p o m F) as [A B]. pose proof F as (Gs & Gp & Go & _). rewrite (kept_given c o Go), (proj1 Go), (proj1 Gs), (proj1 Gp). cbn [andb]. auto 8.
  - intros (A & B & C). split; [constructor|]. split; [|auto 8]. destruct (given s && given p); [|constructor]. constructor; [|constructor]. cbn [good2t good2]. auto.
  - intros (A & B). split; [constructor|]. split; [constructor|]. split; [|auto 8]. destruct (given s && given p); [|constructor]. constructor; [|constructor]. cbn [good2t good2]. auto.
  - destruct l as [l|]; [|contradiction]. intros H. cbn [call_puts call_gets call_dels]. split; [|split; [constructor|split; [constructor|split; [reflexivity|split; [reflexivity|split; [|auto]]]]]].
    + apply flat_good. revert H. apply Forall_impl. intros [[[s p] o] m] F. apply triples_obj, F.
    + induction H as [|[[[s p] o] m] l F _ IH]; [reflexivity|]. cbn [map flat_map]. rewrite map_app, IH. f_equal. apply triples_obj, F.
  - destruct l as [l|]; [|contradiction]. intros H. split; [constructor|]. split; [exact H|auto 8].
  - destruct l as [l|]; [|contradiction]. intros H. split; [constructor|]. split; [constructor|]. split; [exact H|auto 8].
  - destruct t; [|contradiction]. destruct l as [l|]; [|contradiction]. intros [U H]. split; [constructor|]. split; [|auto 8].
    apply Forall_forall. intros t Ht. apply in_map_iff in Ht as ([s p] & <- & Ht). rewrite Forall_forall in H. destruct (H _ Ht). cbn [good2t]. auto.
Qed.
Lemma obj_calls_parts cs : Forall (obj_call c) cs -> Forall (obj3 c) (flat_map (call_puts e) cs) /\ Forall (good2t c) (flat_map call_gets cs) /\
  Forall (good2 c) (flat_map call_dels cs) /\ flat_map call_getops cs = [] /\ flat_map (call_hists e) cs = [] /\
  flat_map (call_puts e) (map (kept c) cs) = map (keep3 c) (flat_map (call_puts e) cs) /\
  flat_map call_gets (map (kept c) cs) = flat_map call_gets cs /\ flat_map call_dels (map (kept c) cs) = flat_map call_dels cs.
Proof.
  induction 1 as [|y cs Hy HF IH]; [cbn [flat_map map]; auto 10|]. destruct IH as (A & B & C & D & F & P & G & L). destruct (obj_parts y Hy) as (A' & B' & C' & D' & F' & P' & G' & L'). cbn [flat_map map].
  rewrite D', F', D, F, P, P', G, G', L, L', map_app. repeat (split; [apply Forall_app; auto|]). auto 8.
Qed.
Lemma batch_from2 M cs : Forall (obj_call c) cs -> Forall (fun x => (0 <= from x < e_total e)%Z) (snd (batch e k M (map (kept c) cs))).
Proof.
  intros Hc. destruct (obj_calls_parts cs Hc) as (GP & GG & GD & _ & _ & EP & EG & ED). rewrite Forall_forall in GP, GG.
  unfold batch. rewrite EP, EG, ED. pose proof (del_from e k c T (put_all M (map (keep3 c) (flat_map (call_puts e) cs))) (flat_map call_dels cs) GD) as Hd.
  destruct (del_all e k _ _) as [M2 r]. cbn [snd] in *. apply Forall_app. split; [|apply Forall_app; split; [|exact Hd]].
  - apply Forall_forall. intros x Hx. apply in_map_iff in Hx as (t' & <- & Hi). apply in_map_iff in Hi as ([[s p] o] & <- & Hi). destruct (GP _ Hi) as (Gs & Gp & _). apply (at_total c e s p T Gs Gp).
  - apply Forall_forall. intros x Hx. apply in_map_iff in Hx as ([[s p] ty] & <- & Hi). destruct (GG _ Hi) as (Gs & Gp & _). unfold get_result. pose proof (at_total c e s p T Gs Gp) as [A _].
    destruct (put_all _ _ _ _); exact A.
Qed.

Lemma batch_served2 f id d m M cs : Forall (obj_call c) cs -> at_obj k c d m -> part e id M m ->
  exists d' m', serve_all f id d (requests_to e id cs) = Ok (d', filter (of_id id) (snd (batch e k M (map (kept c) cs)))) /\
    at_obj k c d' m' /\ part e id (fst (batch e k M (map (kept c) cs))) m' /\ (f = true -> fits_wire d (requests_to e id cs)).
Proof.
  intros Hc Hd Hp. destruct (obj_calls_parts cs Hc) as (GP & GG & GD & EO & EH & KP & KG & KD).
  destruct (puts_served2 f id _ GP d m M Hd Hp) as (d1 & m1 & E1 & Hd1 & Hp1 & F1).
  destruct (gets_served2 f id _ GG d1 m1 _ Hd1 Hp1) as (E2 & F2).
  destruct (dels_served2 f id _ GD d1 m1 _ Hd1 Hp1) as (d3 & m3 & E3 & Hd3 & Hp3 & F3).
  assert (Er : requests_to e id cs = map (fun i => QPut [i]) (puts_to e id cs) ++ map (fun i => QGet [i]) (gets_to e id cs) ++ map (fun i => QDel [i]) (dels_to e id cs)).
  { unfold requests_to, getops_to, hists_to. rewrite EO, EH. cbn [filter map app]. rewrite app_nil_r. reflexivity. }
  unfold batch. rewrite KP, KG, KD. destruct (del_all e k (put_all M (map (keep3 c) (flat_map (call_puts e) cs))) (flat_map call_dels cs)) as [M2 r]. cbn [fst snd] in *.
  exists d3, m3. rewrite Er. split; [|split; [exact Hd3|split; [exact Hp3|]]].
  - apply serve_all_app. exists d1. eexists _, _. split; [exact E1|]. split; [|rewrite !filter_app; reflexivity].
    apply serve_all_app. exists d1. eexists _, _. split; [exact E2|]. split; [exact E3|reflexivity].
  - intros Hf. specialize (F1 Hf). specialize (F2 Hf). specialize (F3 Hf). subst f.
    assert (Run : forall l d d' xs, serve_all true id d l = Ok (d', xs) -> forall d2, (exists rs, ds_run d (map (fun q => CallReq (seen_body q)) l) = Ok (d2, rs)) -> d2 = d').
    { clear. induction l as [|q l IH]; intros d d' xs H d2 (rs & R); cbn [serve_all map] in H, R.
      - injection H as <- _. injection R as <- _. reflexivity.
      - apply obind_ok in H as ([da xa] & Ea & H). apply obind_ok in H as ([db xb] & Eb & H). injection H as <- _.
        unfold serve_one in Ea. apply obind_ok in Ea as ([dc rc] & Eo & Ea). apply obind_ok in Ea as (ys & _ & Ea). injection Ea as -> _.
        cbn [ds_run ds_step] in R. rewrite Eo in R. cbn [obind] in R. apply obind_ok in R as ([dz r9] & R & R2). injection R2 as <- _. eapply IH; eauto. }
    apply fits_app. split; [exact F1|]. intros d2 R. rewrite (Run _ _ _ _ E1 _ R).
    apply fits_app. split; [exact F2|]. intros d4 R4. rewrite (Run _ _ _ _ E2 _ R4). exact F3.
Qed.
End Client.

(* the datastores hold M between them *)
Definition stores2 (e : env) (k : backend) (c : codec) (cl : cluster) (M : tmap) : Prop :=
  forall id, an_id e id -> exists d m, cl (rank_of e id) (id mod l_per (e_layout e))%Z = Some d /\ at_obj k c d m /\ part e id M m.

Lemma batch_step2 e k c s cl M cs : good_client e -> fresh e s -> stores2 e k c cl M -> Forall (obj_call c) cs -> spread e cs ->
  exists s1 oks s2 cl2 xs, do_calls e s cl cs = Ok (s1, cl, oks) /\ flush e s1 cl = Ok (s2, cl2, xs) /\ fresh e s2 /\
    stores2 e k c cl2 (fst (batch e k M (map (kept c) cs))) /\ Permutation xs (snd (batch e k M (map (kept c) cs))).
Proof.
  intros (S & T & Co & Ops) F St Hc Sp.
  assert (Dh : defined_hash e) by (intros a b La Lb; destruct (T a b La Lb) as (id & E & Hid); exists id; split; [exact E|apply Hid]).
  destruct (calls_ok e S Dh Ops cs s cl (proj1 F) (fresh_sized e s F)) as [[[s1 cl1] oks] Ec].
  { revert Hc. apply Forall_impl. apply obj_call_sane. } { revert Hc. apply Forall_impl. apply obj_plain. }
  assert (Hd : exists D : Z -> ds, forall id, an_id e id -> cl (rank_of e id) (id mod l_per (e_layout e))%Z = Some (D id) /\ exists m, at_obj k c (D id) m /\ part e id M m).
  { apply (choose e (fun id d => cl (rank_of e id) (id mod l_per (e_layout e))%Z = Some d /\ exists m, at_obj k c d m /\ part e id M m) (opened k c)).
    intros id Hid. destruct (St id Hid) as (d & m & A & B). exists d. split; [exact A|]. exists m. exact B. }
  destruct Hd as [D HD].
  assert (Hd' : exists D' : Z -> ds, forall id, an_id e id -> serve_all (far e id) id (D id) (requests_to e id cs) = Ok (D' id, filter (of_id id) (snd (batch e k M (map (kept c) cs)))) /\
     (exists m, at_obj k c (D' id) m /\ part e id (fst (batch e k M (map (kept c) cs))) m) /\ (far e id = true -> fits_wire (D id) (requests_to e id cs))).
  { apply (choose e (fun id d' => serve_all (far e id) id (D id) (requests_to e id cs) = Ok (d', filter (of_id id) (snd (batch e k M (map (kept c) cs)))) /\
     (exists m, at_obj k c d' m /\ part e id (fst (batch e k M (map (kept c) cs))) m) /\ (far e id = true -> fits_wire (D id) (requests_to e id cs))) (opened k c)).
    intros id Hid. destruct (HD id Hid) as (_ & m & A & B).
    destruct (batch_served2 e k c T (far e id) id (D id) m M cs Hc A B) as (d' & m' & E & A' & B' & W). exists d'. split; [exact E|]. split; [|exact W]. exists m'. auto. }
  destruct Hd' as [D' HD'].
  destruct (calls_then_flush e s cl cs s1 cl1 oks D D' (fun id => filter (of_id id) (snd (batch e k M (map (kept c) cs)))) S F) as (-> & s2 & cl2 & xs & Ef & F2 & _ & H2 & _ & _ & P).
  - intros id Hid. apply HD, Hid.
  - revert Hc. apply Forall_impl. apply obj_plain.
  - exact Ec.
  - exact Sp.
  - intros id Hid Hf _. split; [apply Co; assumption|apply HD'; assumption].
  - intros id Hid. apply HD', Hid.
  - exists s1, oks, s2, cl2, xs. split; [exact Ec|]. split; [exact Ef|]. split; [exact F2|]. split.
    + intros id Hid. destruct (HD' id Hid) as (_ & (m & A & B) & _). exists (D' id), m. split; [apply H2, Hid|]. auto.
    + rewrite P. apply Permutation_sym, by_ids; [|eapply batch_from2; eassumption]. destruct (T [] []) as (id & _ & Hid); [reflexivity|reflexivity|]. unfold an_id in Hid. lia.
Qed.

Lemma stores2_same e e' k c cl M : same_cluster e e' -> stores2 e k c cl M -> stores2 e' k c cl M.
Proof.
  intros (L & Tt & Hh) St id Hid. unfold an_id in Hid. rewrite <- Tt in Hid. destruct (St id Hid) as (d & m & A & B & C).
  exists d, m. unfold rank_of in *. rewrite <- L. split; [exact A|]. split; [exact B|]. intros s p. rewrite (C s p). unfold goesf. rewrite Hh. reflexivity.
Qed.
Lemma play_step2 E k c e0 : forall l S cl M,
  (forall i, In i (map fst l) -> good_client (E i) /\ same_cluster e0 (E i) /\ fresh (E i) (S i)) -> stores2 e0 k c cl M ->
  Forall (fun ic => Forall (obj_call c) (snd ic) /\ spread (E (fst ic)) (snd ic)) l ->
  exists cl' rs, play E S cl l = Ok (cl', rs) /\ Forall2 (@Permutation result) rs (expected E k M (map (kept_turn c) l)).
Proof.
  induction l as [|[i cs] l IH]; intros S cl M HE St HF.
  - exists cl, []. split; [reflexivity|constructor].
  - inversion HF as [|? ? Hx HF']; subst. destruct Hx as [Hc Hs]. cbn [fst snd] in Hc, Hs.
    destruct (HE i (or_introl eq_refl)) as (G & Same & F).
    destruct (batch_step2 (E i) k c (S i) cl M cs G F (stores2_same _ _ _ _ _ _ Same St) Hc Hs) as (s1 & oks & s2 & cl2 & xs & Ec & Ef & F2 & St2 & P).
    cbn [play expected map kept_turn fst snd]. rewrite Ec. cbn [obind fst snd]. rewrite Ef. cbn [obind fst snd].
    destruct (batch (E i) k M (map (kept c) cs)) as [M' ys]. cbn [fst snd] in *.
    destruct (IH (next S i s2) cl2 M') as (cl' & rs & Ep & R).
    + intros j Hj. destruct (HE j (or_intror Hj)) as (G' & Same' & F'). split; [exact G'|]. split; [exact Same'|].
      unfold next. destruct (Z.eqb_spec j i) as [->|]; assumption.
    + eapply stores2_same; [apply same_sym, Same|exact St2].
    + exact HF'.
    + rewrite Ep. cbn [obind]. eexists _, _. split; [reflexivity|]. constructor; assumption.
Qed.

(* C75 *)
Lemma cluster_is_map2 E k c e0 S cl l :
  (forall i, In i (map fst l) -> good_client (E i) /\ same_cluster e0 (E i) /\ fresh (E i) (S i)) ->
  holds e0 cl (fun _ => opened k c) ->
  Forall (fun ic => Forall (obj_call c) (snd ic) /\ spread (E (fst ic)) (snd ic)) l ->
  exists cl' rs, play E S cl l = Ok (cl', rs) /\ Forall2 (@Permutation result) rs (expected E k no_triples (map (kept_turn c) l)).
Proof.
  intros HE H HF. eapply play_step2; [exact HE| |exact HF]. intros id Hid. exists (opened k c), no_triples. split; [apply H, Hid|]. split.
  - exists [], no_triples. split; [reflexivity|]. split; [apply agrees2_empty|]. reflexivity.
  - intros s p. destruct (goesf _ id s p); reflexivity.
Qed.

(* ---- a PUT and a later GET ---- *)
Fixpoint after (E : Z -> env) (k : backend) (M : tmap) (l : list (Z * list call)) : tmap :=
  match l with [] => M | (i, cs) :: l' => after E k (fst (batch (E i) k M cs)) l' end.
Lemma expected_app E k l1 : forall M l2, expected E k M (l1 ++ l2) = expected E k M l1 ++ expected E k (after E k M l1) l2.
Proof.
  induction l1 as [|[i cs] l1 IH]; intros M l2; [reflexivity|]. cbn [app expected after]. destruct (batch (E i) k M cs) as [M' xs]. cbn [fst app]. rewrite IH. reflexivity.
Qed.
Lemma put_all_leaves s p l : forall M, Forall (fun t : arg * arg * arg => let '(s', p', _) := t in (fa s', fa p') <> (s, p)) l -> put_all M l s p = M s p.
Proof.
  induction l as [|[[s' p'] o'] l IH]; intros M H; [reflexivity|]. inversion H as [|? ? Hx Hl]; subst. cbn [put_all]. rewrite IH by exact Hl. apply tset_other. exact Hx.
Qed.
Lemma del_all_leaves e k s p l : forall M, Forall (fun t : arg * arg => let '(s', p') := t in (fa s', fa p') <> (s, p)) l -> fst (del_all e k M l) s p = M s p.
Proof.
  induction l as [|[s' p'] l IH]; intros M H; [reflexivity|]. inversion H as [|? ? Hx Hl]; subst. cbn [del_all]. specialize (IH (tset M (fa s') (fa p') None) Hl).
  destruct (del_all e k _ l) as [M' r]. cbn [fst] in *. rewrite IH. apply tset_other. exact Hx.
Qed.
Lemma batch_leaves e k c s p M cs : Forall (obj_call c) cs -> Forall (leaves e s p) cs -> fst (batch e k M (map (kept c) cs)) s p = M s p.
Proof.
  intros Hc Hl. destruct (obj_calls_parts e c cs Hc) as (_ & _ & _ & _ & _ & EP & EG & ED). unfold batch. rewrite EP, EG, ED.
  pose proof (del_all_leaves e k s p (flat_map call_dels cs) (put_all M (map (keep3 c) (flat_map (call_puts e) cs)))) as H.
  destruct (del_all e k _ _) as [M' r]. cbn [fst] in *. rewrite H.
  - apply put_all_leaves. assert (Q : Forall (fun t : arg * arg * arg => let '(s', p', _) := t in (fa s', fa p') <> (s, p)) (flat_map (call_puts e) cs)).
    { apply flat_good. revert Hl. apply Forall_impl. intros x Hx. apply Hx. }
    apply Forall_forall. intros t Ht. apply in_map_iff in Ht as ([[s' p'] o'] & <- & Ht). rewrite Forall_forall in Q. exact (Q _ Ht).
  - apply flat_good. revert Hl. apply Forall_impl. intros x Hx. apply Hx.
Qed.
Lemma after_leaves E k c s p l : forall M, Forall (fun ic => Forall (obj_call c) (snd ic)) l -> Forall (fun ic => Forall (leaves (E (fst ic)) s p) (snd ic)) l ->
  after E k M (map (kept_turn c) l) s p = M s p.
Proof.
  induction l as [|[i cs] l IH]; intros M Hc Hl; [reflexivity|]. inversion Hc as [|? ? Hc1 Hc2]; subst. inversion Hl as [|? ? Hl1 Hl2]; subst. cbn [fst snd] in *.
  cbn [map kept_turn fst snd after]. rewrite IH by assumption. apply batch_leaves; assumption.
Qed.

Lemma put_then_get E k c e0 S cl l1 i s p o l2 j ty :
  let l := l1 ++ (i, [CPut s p o 1]) :: l2 ++ [(j, [CGet s p ty])] in
  (forall x, In x (map fst l) -> good_client (E x) /\ same_cluster e0 (E x) /\ fresh (E x) (S x)) ->
  holds e0 cl (fun _ => opened k c) ->
  Forall (fun ic => Forall (obj_call c) (snd ic) /\ spread (E (fst ic)) (snd ic)) l ->
  Forall (fun ic => Forall (leaves (E (fst ic)) (fa s) (fa p)) (snd ic)) l2 ->
  exists cl' rs, play E S cl l = Ok (cl', rs ++ [[XGet (at_ (E j) s p) true (rf s) (rf p) (mkBlob false (f_data (back c (fa o))) (a_type o))]]).
Proof.
  intros l HE Hh HF HL. destruct (cluster_is_map2 E k c e0 S cl l HE Hh HF) as (cl' & rs & Ep & P). exists cl'.
  assert (Hin : forall y, In y l -> In (fst y) (map fst l)) by (intros y; apply in_map).
  assert (Gi : good_client (E i)) by (apply HE, (Hin (i, [CPut s p o 1])); unfold l; apply in_or_app; right; left; reflexivity).
  assert (HF' : Forall (fun ic => Forall (obj_call c) (snd ic)) l) by (revert HF; apply Forall_impl; intros a Ha; apply Ha).
  unfold l in HF'. apply Forall_app in HF' as [_ HF']. inversion HF' as [|? ? Hput HF2]; subst. apply Forall_app in HF2 as [HF2 HF3].
  cbn [snd] in Hput. inversion Hput as [|? ? Hp _]; subst. inversion HF3 as [|? ? Hg _]; subst. cbn [snd] in Hg. inversion Hg as [|? ? Hg' _]; subst.
  cbn [obj_call] in Hp, Hg'. destruct Hg' as (Gs & Gp & _). pose proof Hp as (_ & _ & Go & _).
  unfold l in P. rewrite map_app, expected_app in P. cbn [map] in P. set (M1 := after E k no_triples (map (kept_turn c) l1)) in P.
  change (kept_turn c (i, [CPut s p o 1])) with (i, [CPut s p (kept_arg c o) 1]) in P. cbn [expected] in P.
  assert (EM : fst (batch (E i) k M1 [CPut s p (kept_arg c o) 1]) (fa s) (fa p) = Some (back c (fa o))).
  { unfold batch. cbn [flat_map call_puts call_gets call_dels app]. rewrite (proj1 Gs), (proj1 Gp), (kept_given c o Go). cbn [andb]. rewrite app_nil_r.
    destruct Gi as (_ & T & _). destruct (at_total c (E i) s p T Gs Gp) as (_ & _ & Pl). unfold one_put. change (put_triples s p (kept_arg c o) 1) with [(s, p, kept_arg c o)].
    cbn [while]. rewrite Pl. cbn [del_all put_all fst]. rewrite tset_same, kept_fa. reflexivity. }
  destruct (batch (E i) k M1 _) as [M2 x2]. cbn [fst] in EM. rewrite map_app, expected_app in P. cbn [map] in P.
  change (kept_turn c (j, [CGet s p ty])) with (j, [CGet s p ty]) in P.
  assert (E2 : after E k M2 (map (kept_turn c) l2) (fa s) (fa p) = Some (back c (fa o))) by (rewrite after_leaves by assumption; exact EM).
  set (M3 := after E k M2 (map (kept_turn c) l2)) in *. cbn [expected] in P. unfold batch in P. cbn [flat_map call_puts call_gets call_dels app] in P.
  rewrite (proj1 Gs), (proj1 Gp) in P. cbn [andb app put_all del_all map] in P. unfold get_result in P. rewrite E2, back_type in P. cbn [fa f_type] in P.
  set (X := XGet (at_ (E j) s p) true (rf s) (rf p) (mkBlob false (f_data (back c (fa o))) (a_type o))) in *.
  rewrite app_comm_cons, app_assoc in P. apply Forall2_app_inv_r in P as (r1 & r2 & _ & P2 & ->).
  inversion P2 as [|y r3 ? ? Py P3]; subst. inversion P3; subst. apply Permutation_sym, Permutation_length_1_inv in Py as ->. exists r1. exact Ep.
Qed.
