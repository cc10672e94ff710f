(* GETOPs and the whole cluster: turns *)
From Verif Require Import ModelBytes ProofBytes ModelKey ModelWire ModelHist ModelMsg SpecMsg ModelStore ModelGetOp ModelDs
  SpecStore ProofStore ProofDs ProofDs2 ModelElen ModelRoute SpecRoute ProofRoute ProofRoute2 ModelClient SpecClient SpecCluster
  ProofClient ProofClient2 ProofClient3 ProofClient4 ProofClient5 ProofClient6 ProofCluster ProofCluster2 SpecGetOp ProofGetOp ProofGetOp2 SpecScan
  ProofScan SpecStore.
Local Open Scope N_scope.

Lemma share_part e id M m : part e id M m -> forall s p, share e id M s p = m s p.
Proof. intros H s p. rewrite (H s p). unfold share, goesf. destruct (e_hash _ _ _ _ _); reflexivity. Qed.
Lemma named_part e id M m : named M -> part e id M m -> named m.
Proof. intros N H s p o E. rewrite (H s p) in E. destruct (goesf e id s p); [|discriminate]. exact (N _ _ _ E). Qed.
Lemma named_set M s p o : named M -> (forall o', o = Some o' -> (f_data s <> [] /\ u64 (blen (f_data s))) /\ (f_data p <> [] /\ u64 (blen (f_data p)))) -> named (tset M s p o).
Proof.
  intros N H s' p' o' E. destruct (tset_cases M s p o s' p') as [(<- & <- & E')|(_ & E')]; rewrite E' in E; [exact (H _ E)|exact (N _ _ _ E)].
Qed.
Lemma good_named c a : good_arg c a -> f_data (fa a) <> [] /\ u64 (blen (f_data (fa a))).
Proof. intros G. destruct (good_full c a G) as (_ & H & _). split; [exact H|exact (good_u64 c a G)]. Qed.
Lemma named_puts c l : Forall (good3 c) l -> forall M, named M -> named (put_all M l).
Proof.
  induction 1 as [|[[s p] o] l (Gs & Gp & _) _ IH]; intros M N; [exact N|]. cbn [put_all]. apply IH, named_set; [exact N|].
  intros _ _. split; eapply good_named; eassumption.
Qed.
Lemma named_dels e k l : forall M, named M -> named (fst (del_all e k M l)).
Proof.
  induction l as [|[s p] l IH]; intros M N; [exact N|]. cbn [del_all]. specialize (IH (tset M (fa s) (fa p) None)).
  destruct (del_all e k _ l). cbn [fst] in *. apply IH, named_set; [exact N|discriminate].
Qed.
Lemma batch_map e k M cs : fst (batch e k M cs) = fst (del_all e k (put_all M (flat_map (call_puts e) cs)) (flat_map call_dels cs)).
Proof. unfold batch. destruct (del_all _ _ _ _). reflexivity. Qed.

Section Client.
Context (e : env) (k : backend) (c : codec) (T : total_hash e).
Let goes5 id (t : asked) := let '(s, p, _, _, _) := t in goes e id s p.

Lemma scan_from id s p a : Forall (fun x => from x = id) (scan_results id s p a).
Proof. destruct a as [us|]; cbn [scan_results]; [|constructor; [reflexivity|constructor]]. apply Forall_forall. intros x Hx. apply in_map_iff in Hx as (t & <- & _). reflexivity. Qed.
Lemma filter_from id id' xs : Forall (fun x => from x = id') xs -> filter (of_id id) xs = if (id' =? id)%Z then xs else [].
Proof.
  induction 1 as [|x xs E _ IH]; [destruct (_ =? _)%Z; reflexivity|]. cbn [filter]. unfold of_id at 1. rewrite E, IH. destruct (id' =? id)%Z; reflexivity.
Qed.

Lemma scans_served id M l gs : Forall2 (scan_result e c M) l gs -> Forall (good_scan c) l -> Forall (scannable e k c M) l -> named M ->
  forall d m, at_ds k c d m -> part e id M m ->
  serve_all (far e id) id d (map (fun i => QGetOp [i]) (map getop_req (filter (goes5 id) l))) = Ok (d, filter (of_id id) (concat gs)) /\
    (far e id = true -> fits_wire d (map (fun i => QGetOp [i]) (map getop_req (filter (goes5 id) l)))).
Proof.
  intros H. induction H as [|t xs l gs Ht HF IH]; intros G F N d m Hd Hp.
  - split; [reflexivity|]. intros _. exact Logic.I.
  - inversion G as [|? ? Gt G']; subst. inversion F as [|? ? Ft F']; subst. specialize (IH G' F' N d m Hd Hp) as [E2 F2].
    destruct t as [[[[s p] ty] n] op]. destruct Gt as (Gs & Gp & Uty & Uop & Un & Hn). destruct Ht as (ts & Hc & ->). destruct Ft as (Hh & Hsc).
    destruct (Hsc ts Hc) as (Hne & Hl & Hfl).
    destruct (at_total c e s p T Gs Gp) as (_ & Hg & _). cbn [concat filter map]. rewrite filter_app, (filter_from id (at_ e s p)) by apply scan_from.
    change (goes5 id (s, p, ty, n, op)) with (goes e id s p). rewrite Hg. destruct (Z.eqb_spec (at_ e s p) id) as [Eid|Hid]; [|cbn [app]; split; assumption].
    rewrite Eid in *.
    destruct (serve_scan k c (far e id) id d m ts s p ty n op Hd (named_part _ _ _ _ N Hp)) as (E1 & F1); try assumption.
    { eapply contents_ext; [|exact Hc]. intros s' p'. symmetry. apply share_part, Hp. }
    { intros Ek. split; [exact (Hh Ek)|]. intros El. exact (Hl El Ek). }
    cbn [map serve_all]. rewrite E1. cbn [obind]. split.
    + rewrite E2. reflexivity.
    + eapply serve_fits_cons; [exact E1|exact F1|exact F2].
Qed.

(* ---- calls ---- *)
Lemma scan_plain x : scan_call c x -> plain x.
Proof. destruct x; cbn [scan_call plain]; try (exact (fun _ => Logic.I)). apply (data_plain c (CBPutOne _ _ _)). Qed.
Lemma scan_sane x : scan_call c x -> sane_call x.
Proof.
  destruct x as [s p o m|s p ty|s p ty n op|s p|id nm|l|l|l|l|l|t ty l|t ty l|t ops ty l]; try exact (data_sane c _).
  - intros (A & B & _). cbn [sane_call]. split; eapply good_sane; eassumption.
  - destruct l as [l|]; [|contradiction]. cbn [scan_call sane_call]. apply Forall_impl. intros [[[[s p] ty] n] op] (A & B & _). split; eapply good_sane; eassumption.
Qed.
Lemma scan_parts x : scan_call c x -> Forall (good3 c) (call_puts e x) /\ Forall (good2t c) (call_gets x) /\ Forall (good2 c) (call_dels x) /\
  Forall (good_scan c) (call_getops x) /\ call_hists e x = [].
Proof.
  destruct x as [s p o m|s p ty|s p ty n op|s p|id nm|l|l|l|l|l|t ty l|t ty l|t ops ty l];
    try (intros H; destruct (data_parts e c _ H) as (A & B & C & D & F); rewrite D, F; split; [exact A|split; [exact B|split; [exact C|split; [constructor|reflexivity]]]]).
  - intros H. cbn [call_puts call_gets call_dels call_getops call_hists]. do 3 (split; [constructor|]). split; [|reflexivity].
    destruct (given s); [|constructor]. constructor; [exact H|constructor].
  - destruct l as [l|]; [|contradiction]. intros H. cbn [call_puts call_gets call_dels call_getops call_hists]. do 3 (split; [constructor|]). split; [exact H|reflexivity].
Qed.
Lemma scans_parts cs : Forall (scan_call c) cs -> Forall (good3 c) (flat_map (call_puts e) cs) /\ Forall (good2t c) (flat_map call_gets cs) /\
  Forall (good2 c) (flat_map call_dels cs) /\ Forall (good_scan c) (flat_map call_getops cs) /\ flat_map (call_hists e) cs = [].
Proof.
  induction 1 as [|y cs Hy HF IH]; [cbn [flat_map]; auto 8|]. destruct IH as (A & B & C & D & F). destruct (scan_parts y Hy) as (A' & B' & C' & D' & F'). cbn [flat_map].
  rewrite F', F. repeat (split; [apply Forall_app; auto|]). auto.
Qed.

(* the results of a turn, by kind *)
Definition all_results (M : tmap) (cs : list call) (gs : list (list result)) : list result :=
  let M1 := put_all M (flat_map (call_puts e) cs) in
  map (put_result e) (flat_map (call_puts e) cs) ++ map (get_result e M1) (flat_map call_gets cs) ++ concat gs ++
  snd (del_all e k M1 (flat_map call_dels cs)).
Lemma all_batch M cs gs : Permutation (all_results M cs gs) (snd (batch e k M cs) ++ concat gs).
Proof.
  unfold all_results, batch. destruct (del_all e k _ _) as [M2 r]. cbn [snd]. rewrite <- !app_assoc. do 2 apply Permutation_app_head. apply Permutation_app_comm.
Qed.
Lemma all_from M cs gs : Forall (scan_call c) cs -> Forall2 (scan_result e c (seen_by_scans e M cs)) (flat_map call_getops cs) gs ->
  Forall (fun x => (0 <= from x < e_total e)%Z) (all_results M cs gs).
Proof.
  intros Hc H2. destruct (scans_parts cs Hc) as (GP & GG & GD & GO & _). rewrite Forall_forall in GP, GG. unfold all_results.
  repeat (apply Forall_app; split).
  - apply Forall_forall. intros x Hx. apply in_map_iff in Hx as ([[s p] o] & <- & Hi). destruct (GP _ Hi) as (Gs & Gp & _). apply (at_total c e s p T Gs Gp).
  - apply Forall_forall. intros x Hx. apply in_map_iff in Hx as ([[s p] ty] & <- & Hi). destruct (GG _ Hi) as (Gs & Gp & _). unfold get_result. pose proof (at_total c e s p T Gs Gp) as [A _].
    destruct (put_all _ _ _ _); exact A.
  - clear - H2 GO T. induction H2 as [|t xs l gs Ht _ IH]; [constructor|]. inversion GO as [|? ? Gt G']; subst. cbn [concat]. apply Forall_app. split; [|apply IH, G'].
    destruct t as [[[[s p] ty] n] op]. destruct Ht as (ts & _ & ->). destruct Gt as (Gs & Gp & _). destruct (at_total c e s p T Gs Gp) as (A & _ & _).
    pose proof (scan_from (at_ e s p) s p (reply c ts (getop_req (s, p, ty, n, op)))) as X. revert X. apply Forall_impl. intros x ->. exact A.
  - eapply del_from; eassumption.
Qed.

Lemma turn_served id d m M cs gs : Forall (scan_call c) cs -> named M -> at_ds k c d m -> part e id M m ->
  Forall2 (scan_result e c (seen_by_scans e M cs)) (flat_map call_getops cs) gs ->
  Forall (scannable e k c (seen_by_scans e M cs)) (flat_map call_getops cs) ->
  exists d' m', serve_all (far e id) id d (requests_to e id cs) = Ok (d', filter (of_id id) (all_results M cs gs)) /\
    at_ds k c d' m' /\ part e id (fst (batch e k M cs)) m' /\ (far e id = true -> fits_wire d (requests_to e id cs)).
Proof.
  intros Hc N Hd Hp H2 Hsc. destruct (scans_parts cs Hc) as (GP & GG & GD & GO & EH).
  destruct (puts_served e k c T (far e id) id _ GP d m M Hd Hp) as (d1 & m1 & E1 & Hd1 & Hp1 & F1).
  destruct (gets_served e k c T (far e id) id _ GG d1 m1 _ Hd1 Hp1) as (E2 & F2).
  destruct (scans_served id _ _ gs H2 GO Hsc (named_puts c _ GP M N) d1 m1 Hd1 Hp1) as (E3 & F3).
  destruct (dels_served e k c T (far e id) id _ GD d1 m1 _ Hd1 Hp1) as (d4 & m4 & E4 & Hd4 & Hp4 & F4).
  assert (Er : requests_to e id cs = map (fun i => QPut [i]) (puts_to e id cs) ++ map (fun i => QGet [i]) (gets_to e id cs) ++
     map (fun i => QGetOp [i]) (getops_to e id cs) ++ map (fun i => QDel [i]) (dels_to e id cs)).
  { unfold requests_to, hists_to. rewrite EH. cbn [filter map app]. rewrite app_nil_r. reflexivity. }
  exists d4, m4. rewrite Er. split; [|split; [exact Hd4|split; [rewrite batch_map; exact Hp4|]]].
  - unfold all_results. rewrite !filter_app. apply serve_all_app. exists d1. eexists _, _. split; [exact E1|]. split; [|reflexivity].
    apply serve_all_app. exists d1. eexists _, _. split; [exact E2|]. split; [|reflexivity].
    apply serve_all_app. exists d1. eexists _, _. split; [exact E3|]. split; [exact E4|reflexivity].
  - intros Hf. specialize (F1 Hf). specialize (F2 Hf). specialize (F3 Hf). specialize (F4 Hf). rewrite Hf in *.
    assert (Run : forall l d d' xs, serve_all true id d l = Ok (d', xs) -> forall d2, (exists rs, ds_run d (map (fun q => CallReq (seen_body q)) l) = Ok (d2, rs)) -> d2 = d').
    { clear. induction l as [|q l IH]; intros d d' xs H d2 (rs & R); cbn [serve_all map] in H, R.
      - injection H as <- _. injection R as <- _. reflexivity.
      - apply obind_ok in H as ([da xa] & Ea & H). apply obind_ok in H as ([db xb] & Eb & H). injection H as <- _.
        unfold serve_one in Ea. apply obind_ok in Ea as ([dc rc] & Eo & Ea). apply obind_ok in Ea as (ys & _ & Ea). injection Ea as -> _.
        cbn [ds_run ds_step] in R. rewrite Eo in R. cbn [obind] in R. apply obind_ok in R as ([dz r9] & R & R2). injection R2 as <- _. eapply IH; eauto. }
    apply fits_app. split; [exact F1|]. intros d2 R. rewrite (Run _ _ _ _ E1 _ R).
    apply fits_app. split; [exact F2|]. intros d5 R5. rewrite (Run _ _ _ _ E2 _ R5).
    apply fits_app. split; [exact F3|]. intros d6 R6. rewrite (Run _ _ _ _ E3 _ R6). exact F4.
Qed.
(* every GETOP has its answer *)
Lemma scans_exist (D : Z -> ds) M cs : Forall (scan_call c) cs -> (forall id, an_id e id -> exists m, at_ds k c (D id) m /\ part e id M m) ->
  exists gs, Forall2 (scan_result e c (seen_by_scans e M cs)) (flat_map call_getops cs) gs.
Proof.
  intros Hc HD. destruct (scans_parts cs Hc) as (GP & _ & _ & GO & _). induction GO as [|t l Gt _ IH]; [exists []; constructor|].
  destruct IH as (gs & H2). destruct t as [[[[s p] ty] n] op]. destruct Gt as (Gs & Gp & _). destruct (at_total c e s p T Gs Gp) as (A & _ & _).
  destruct (HD _ A) as (m & Hm & Hp). destruct (puts_served e k c T false (at_ e s p) _ GP _ m M Hm Hp) as (d1 & m1 & _ & (rws & -> & Ha & _) & Hp1 & _).
  destruct (rows_contents _ _ _ Ha) as (ts & Hts & _).
  eexists (_ :: gs). constructor; [|exact H2]. exists ts. split; [|reflexivity]. eapply contents_ext; [|exact Hts]. intros s' p'. apply share_part, Hp1.
Qed.
End Client.

Lemma turn_step e k c s cl M cs : good_client e -> fresh e s -> stores e k c cl M -> named M -> Forall (scan_call c) cs -> spread e cs ->
  Forall (scannable e k c (seen_by_scans e M cs)) (flat_map call_getops cs) ->
  exists s1 oks s2 cl2 xs gs, do_calls e s cl cs = Ok (s1, cl, oks) /\ flush e s1 cl = Ok (s2, cl2, xs) /\ fresh e s2 /\
    stores e k c cl2 (fst (batch e k M cs)) /\ named (fst (batch e k M cs)) /\
    Forall2 (scan_result e c (seen_by_scans e M cs)) (flat_map call_getops cs) gs /\ Permutation xs (snd (batch e k M cs) ++ concat gs).
Proof.
  intros (S & T & Co & Ops) F St N Hc Sp Hsc.
  assert (Dh : defined_hash e) by (intros a b La Lb; destruct (T a b La Lb) as (id & E & Hid); exists id; split; [exact E|apply Hid]).
  destruct (calls_ok e S Dh Ops cs s cl (proj1 F) (fresh_sized e s F)) as [[[s1 cl1] oks] Ec].
  { revert Hc. apply Forall_impl. apply scan_sane. } { revert Hc. apply Forall_impl. apply scan_plain. }
  assert (Hd : exists D : Z -> ds, forall id, an_id e id -> cl (rank_of e id) (id mod l_per (e_layout e))%Z = Some (D id) /\ exists m, at_ds k c (D id) m /\ part e id M m).
  { apply (choose e (fun id d => cl (rank_of e id) (id mod l_per (e_layout e))%Z = Some d /\ exists m, at_ds k c d m /\ part e id M m) (opened k c)).
    intros id Hid. destruct (St id Hid) as (d & m & A & B). exists d. split; [exact A|]. exists m. exact B. }
  destruct Hd as [D HD].
  destruct (scans_exist e k c T D M cs Hc (fun id Hid => proj2 (HD id Hid))) as (gs & H2).
  assert (Hd' : exists D' : Z -> ds, forall id, an_id e id -> serve_all (far e id) id (D id) (requests_to e id cs) = Ok (D' id, filter (of_id id) (all_results e k M cs gs)) /\
     (exists m, at_ds k c (D' id) m /\ part e id (fst (batch e k M cs)) m) /\ (far e id = true -> fits_wire (D id) (requests_to e id cs))).
  { apply (choose e (fun id d' => serve_all (far e id) id (D id) (requests_to e id cs) = Ok (d', filter (of_id id) (all_results e k M cs gs)) /\
     (exists m, at_ds k c d' m /\ part e id (fst (batch e k M cs)) m) /\ (far e id = true -> fits_wire (D id) (requests_to e id cs))) (opened k c)).
    intros id Hid. destruct (HD id Hid) as (_ & m & A & B).
    destruct (turn_served e k c T id (D id) m M cs gs Hc N A B H2 Hsc) as (d' & m' & E & A' & B' & W). exists d'. split; [exact E|]. split; [|exact W]. exists m'. auto. }
  destruct Hd' as [D' HD'].
  destruct (calls_then_flush e s cl cs s1 cl1 oks D D' (fun id => filter (of_id id) (all_results e k M cs gs)) S F) as (-> & s2 & cl2 & xs & Ef & F2 & _ & HH & _ & _ & P).
  - intros id Hid. apply HD, Hid.
  - revert Hc. apply Forall_impl. apply scan_plain.
  - exact Ec.
  - exact Sp.
  - intros id Hid Hf _. split; [apply Co; assumption|apply HD'; assumption].
  - intros id Hid. apply HD', Hid.
  - exists s1, oks, s2, cl2, xs, gs. split; [exact Ec|]. split; [exact Ef|]. split; [exact F2|]. split; [|split; [|split; [exact H2|]]].
    + intros id Hid. destruct (HD' id Hid) as (_ & (m & A & B) & _). exists (D' id), m. split; [apply HH, Hid|]. auto.
    + rewrite batch_map. apply named_dels. destruct (scans_parts e c cs Hc) as (GP & _). eapply named_puts; eassumption.
    + rewrite <- all_batch, P. apply Permutation_sym, by_ids; [|eapply all_from; eassumption]. destruct (T [] []) as (id & _ & Hid); [reflexivity|reflexivity|]. unfold an_id in Hid. lia.
Qed.

Lemma play_scans E k c e0 : forall l S cl M,
  (forall i, In i (map fst l) -> good_client (E i) /\ same_cluster e0 (E i) /\ fresh (E i) (S i)) -> stores e0 k c cl M -> named M ->
  scans_fine E k c M l -> exists cl' rs, play E S cl l = Ok (cl', rs) /\ scans_seen E k c M l rs.
Proof.
  induction l as [|[i cs] l IH]; intros S cl M HE St N HF.
  - exists cl, []. split; [reflexivity|exact Logic.I].
  - destruct HF as (Hc & Hs & Hsc & HF'). destruct (HE i (or_introl eq_refl)) as (G & Same & F).
    destruct (turn_step (E i) k c (S i) cl M cs G F (stores_same _ _ _ _ _ _ Same St) N Hc Hs Hsc) as (s1 & oks & s2 & cl2 & xs & gs & Ec & Ef & F2 & St2 & N2 & H2 & P).
    cbn [play scans_seen]. rewrite Ec. cbn [obind fst snd]. rewrite Ef. cbn [obind fst snd].
    destruct (IH (next S i s2) cl2 (fst (batch (E i) k M cs))) as (cl' & rs & Ep & R).
    + intros j Hj. destruct (HE j (or_intror Hj)) as (G' & Same' & F'). split; [exact G'|]. split; [exact Same'|].
      unfold next. destruct (Z.eqb_spec j i) as [->|]; assumption.
    + eapply stores_same; [apply same_sym, Same|exact St2].
    + exact N2.
    + exact HF'.
    + rewrite Ep. cbn [obind]. eexists _, (xs :: rs). split; [reflexivity|]. split; [|exact R]. exists gs. auto.
Qed.
(* C76 *)
Lemma cluster_scans E k c e0 S cl l :
  (forall i, In i (map fst l) -> good_client (E i) /\ same_cluster e0 (E i) /\ fresh (E i) (S i)) ->
  holds e0 cl (fun _ => opened k c) -> scans_fine E k c no_triples l ->
  exists cl' rs, play E S cl l = Ok (cl', rs) /\ scans_seen E k c no_triples l rs.
Proof.
  intros HE H HF. eapply play_scans; [exact HE| | |exact HF].
  - intros id Hid. exists (opened k c), no_triples. split; [apply H, Hid|]. split.
    + exists []. split; [reflexivity|]. split; [apply agrees_empty|]. intros s p o Ho. discriminate.
    + intros s p. destruct (goesf e0 id s p); reflexivity.
  - intros s p o Ho. discriminate.
Qed.
