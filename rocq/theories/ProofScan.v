(* GETOPs and the whole cluster: one datastore *)
From Verif Require Import ModelBytes ProofBytes ModelKey ModelWire ModelHist ModelMsg SpecMsg ModelStore ModelGetOp ModelDs
  SpecStore ProofStore ProofDs ProofDs2 ModelElen ModelRoute SpecRoute ProofRoute ProofRoute2 ModelClient SpecClient SpecCluster
  ProofClient ProofClient2 ProofClient3 ProofClient4 ProofClient5 ProofClient6 ProofCluster ProofCluster2 SpecGetOp ProofGetOp ProofGetOp2 SpecScan SpecStore.
Local Open Scope N_scope.

(* ---- every datastore that agrees with a map can be reached ---- *)
Lemma contents_ext c m m' ts : (forall s p, m' s p = m s p) -> contents c m ts -> contents c m' ts.
Proof. intros E [A B]. split; [exact A|]. intros t. rewrite E. apply B. Qed.
Definition put_of (t : triple) : put_item := mkPut (blob_of (t_sub t)) 0 (blob_of (t_pred t)) 0 (blob_of (t_obj t)).
Lemma fld_blob_of f : fld (blob_of f) = f.
Proof. destruct f. reflexivity. Qed.
Lemma puts_of (m : tmap) l : (forall t, In t l -> m (t_sub t) (t_pred t) = Some (t_obj t)) -> forall m0 s p,
  fst (spec_puts all_can m0 (map put_of l)) s p = m s p \/
  (fst (spec_puts all_can m0 (map put_of l)) s p = m0 s p /\ forall t, In t l -> ~ (t_sub t = s /\ t_pred t = p)).
Proof.
  induction l as [|t l IH]; intros H m0 s p; [right; split; [reflexivity|intros t []]|].
  assert (U : fst (spec_puts all_can m0 (map put_of (t :: l))) = fst (spec_puts all_can (tset m0 (t_sub t) (t_pred t) (Some (t_obj t))) (map put_of l))).
  { cbn [map put_of spec_puts]. rewrite !fld_blob_of. cbn [all_can andb]. destruct (spec_puts all_can _ _). reflexivity. }
  rewrite U. destruct (IH (fun u Hu => H u (or_intror Hu)) (tset m0 (t_sub t) (t_pred t) (Some (t_obj t))) s p) as [E|[E Hn]]; [left; exact E|].
  destruct (tset_cases m0 (t_sub t) (t_pred t) (Some (t_obj t)) s p) as [(<- & <- & E')|(Hd & E')].
  - left. rewrite E, E'. symmetry. apply H. left. reflexivity.
  - right. split; [congruence|]. intros u [<-|Hu]; [intros [Ea Eb]; apply Hd; congruence|apply Hn, Hu].
Qed.
Lemma agrees_reached k c rws m : agrees c rws m -> exists m', reached k c (mkDs k c true rws []) m' /\ forall s p, m' s p = m s p.
Proof.
  intros Ha. destruct (rows_contents _ _ _ Ha) as (ts & Hc & Hr). pose proof (contents_whole _ _ _ _ Ha Hc) as Hw.
  assert (Hf : Forall (req_fits c all_can) [QPut (map put_of ts)]).
  { constructor; [|constructor]. cbn [req_fits]. apply Forall_forall. intros i Hi. apply in_map_iff in Hi as (t & <- & Ht).
    rewrite Forall_forall in Hw. destruct (Hw _ Ht) as (A & B & C). cbn [put_of pi_sub pi_pred pi_obj]. unfold knows, all_can. rewrite !fld_blob_of.
    split; [split; [discriminate|exact A]|]. split; (split; [discriminate|assumption]). }
  destruct (run_rows k c all_can _ [] no_triples Hf (agrees_empty c)) as (rws' & rs & E & Ha').
  set (m' := fst (spec_run all_can no_triples [QPut (map put_of ts)])) in *.
  assert (Em : forall s p, m' s p = m s p).
  { intros s p. pose proof (puts_of m ts (fun t Ht => proj1 (proj2 Hc t) Ht) no_triples s p) as X.
    assert (E' : m' s p = fst (spec_puts all_can no_triples (map put_of ts)) s p).
    { unfold m'. cbn [spec_run spec_req]. destruct (spec_puts all_can no_triples (map put_of ts)). reflexivity. }
    rewrite <- E' in X. destruct X as [X|[X Hn]]; [exact X|]. rewrite X. destruct (m s p) as [o|] eqn:Eo; [|reflexivity].
    exfalso. apply (Hn (mkTriple s p o)); [|split; reflexivity]. apply (proj2 Hc). exact Eo. }
  exists m'. split; [|exact Em]. exists all_can, [QPut (map put_of ts)], (opened k c), rs. split; [exact Hf|]. split; [apply open_new|]. split; [|reflexivity].
  change (mkDs k c true [] []) with (opened k c) in E. rewrite E. f_equal. f_equal. f_equal.
  rewrite Hr. apply (contents_rows _ m' _ _ Ha'). eapply contents_ext; [exact Em|exact Hc].
Qed.

(* ---- the answer ---- *)
Definition as_item (i : getop_item) (a : option (list triple)) : gotop_item := match a with Some us => found us | None => nothing i end.
Lemma some_of_ne us l : us <> [] -> some_of us l = Some l.
Proof. destruct us; [congruence|reflexivity]. Qed.
(* FIRST and LAST do not look at the key *)
Definition keyless (op : N) : bool := (op =? GETOP_FIRST) || (op =? GETOP_LAST).
Lemma asks_reply k c d m ts i : reached k c d m -> contents c m ts -> 1 <= oi_num i ->
  (keyless (oi_op i) = true \/ fits c all_can i) -> (k = InMemory -> oi_op i <> GETOP_HIGHEST /\ (oi_op i = GETOP_LAST -> ts <> [])) ->
  asks d i (as_item i (reply c ts i)).
Proof.
  intros Hr Hc Hn Hf Hk. unfold reply.
  destruct (N.eqb_spec (oi_op i) GETOP_FIRST) as [E|N3].
  { rewrite E. cbn [N.eqb Pos.eqb GETOP_EQ GETOP_NEXT GETOP_PREV GETOP_FIRST]. pose proof (first_spec k c d m ts i Hr Hc E Hn) as X. destruct ts; exact X. }
  destruct (N.eqb_spec (oi_op i) GETOP_LAST) as [E|N4].
  { rewrite E. cbn [N.eqb Pos.eqb GETOP_EQ GETOP_NEXT GETOP_PREV GETOP_FIRST GETOP_LAST].
    pose proof (last_spec k c d m ts i Hr Hc E Hn (fun Ek => proj2 (Hk Ek) E)) as X. destruct ts; exact X. }
  destruct Hf as [Hf|Hf].
  { unfold keyless in Hf. apply orb_true_iff in Hf as [Hf|Hf]; apply N.eqb_eq in Hf; contradiction. }
  destruct (N.eqb_spec (oi_op i) GETOP_EQ) as [E|N0].
  { pose proof (eq_spec k c all_can d m ts i Hr Hc Hf E Hn) as X. destruct (filter (over c (prefix_of c all_can i)) ts); exact X. }
  destruct (N.eqb_spec (oi_op i) GETOP_NEXT) as [E|N1].
  { pose proof (next_spec k c all_can d m ts i Hr Hc Hf E Hn) as X. destruct (filter (over c (prefix_of c all_can i)) ts); exact X. }
  destruct (N.eqb_spec (oi_op i) GETOP_PREV) as [E|N2].
  { pose proof (prev_spec k c all_can d m ts i Hr Hc Hf E Hn) as X. destruct (filter (over c (prefix_of c all_can i)) ts); exact X. }
  destruct (N.eqb_spec (oi_op i) GETOP_LOWEST) as [E|N5].
  { pose proof (lowest_spec k c all_can d m ts i Hr Hc Hf E Hn) as X. cbn zeta in X. destruct (filter (over c (least c all_can i)) ts); exact X. }
  destruct (N.eqb_spec (oi_op i) GETOP_HIGHEST) as [E|N6].
  { destruct k; [destruct (Hk eq_refl); contradiction|]. pose proof (highest_ldb c all_can d m ts i Hr Hc Hf E Hn) as X. cbn zeta in X.
    destruct (filter (under c (least c all_can i)) ts); exact X. }
  eapply asks_state; [eassumption..|].
  assert (B : forall P seek, getop_body k c (map (row c) ts) (oi_op i) (oi_num i) P seek = Ok (fail start)).
  { intros P seek. destruct k; cbn [getop_body]; [unfold im_body|unfold ldb_body];
      repeat match goal with |- context [oi_op i =? ?x] => destruct (N.eqb_spec (oi_op i) x); [contradiction|] end; reflexivity. }
  unfold getop_state. destruct (op_has_key (oi_op i)) eqn:Ek.
  - pose proof (state_prefix k c all_can (map (row c) ts) i Hf Ek) as X. unfold getop_state in X. rewrite Ek in X. rewrite X, B. apply gives_nothing, Hn.
  - rewrite B. apply gives_nothing, Hn.
Qed.

Lemma first_len n ts : N.of_nat (length (first n ts)) <= n.
Proof. unfold first. rewrite firstn_length. lia. Qed.
Lemma firstn_In {A} n (l : list A) x : In x (firstn n l) -> In x l.
Proof. intros H. rewrite <- (firstn_skipn n l). apply in_or_app. left. exact H. Qed.
Lemma first_In n ts t : In t (first n ts) -> In t ts.
Proof. apply firstn_In. Qed.
(* it consists of triples of the datastore, at most as many as asked for *)
Lemma reply_from c ts i us : reply c ts i = Some us -> 1 <= oi_num i -> N.of_nat (length us) <= oi_num i /\ forall t, In t us -> In t ts.
Proof.
  intros H Hn.
  assert (X : forall vs l, some_of vs (first (oi_num i) l) = Some us -> (forall t, In t l -> In t ts) -> N.of_nat (length us) <= oi_num i /\ forall t, In t us -> In t ts).
  { intros vs l E Hl. unfold some_of in E. destruct vs as [|v vs]; [discriminate|]. injection E as <-. split; [apply first_len|]. intros t Ht. apply Hl. eapply first_In, Ht. }
  unfold reply in H.
  destruct (oi_op i =? GETOP_EQ).
  { assert (E : firstn 1 (filter (over c (prefix_of c all_can i)) ts) = us) by (revert H; unfold some_of; destruct (filter _ ts); [discriminate|intros [= <-]; reflexivity]).
    subst us. split; [rewrite firstn_length; lia|]. intros t Ht. apply firstn_In in Ht. apply filter_In in Ht. apply Ht. }
  destruct (oi_op i =? GETOP_NEXT). { eapply X; [exact H|]. intros t Ht. apply filter_In in Ht. apply Ht. }
  destruct (oi_op i =? GETOP_PREV).
  { eapply X; [exact H|]. intros t Ht. apply in_app_or in Ht as [Ht|Ht]; [apply firstn_In in Ht|apply in_rev in Ht]; apply filter_In in Ht; apply Ht. }
  destruct (oi_op i =? GETOP_FIRST). { eapply X; [exact H|]. auto. }
  destruct (oi_op i =? GETOP_LAST). { eapply X; [exact H|]. intros t Ht. apply in_rev in Ht. exact Ht. }
  destruct (oi_op i =? GETOP_LOWEST). { eapply X; [exact H|]. intros t Ht. apply filter_In in Ht as [Ht _]. apply filter_In in Ht. apply Ht. }
  destruct (oi_op i =? GETOP_HIGHEST). { eapply X; [exact H|]. intros t Ht. apply in_rev in Ht. apply filter_In in Ht as [Ht _]. apply filter_In in Ht. apply Ht. }
  discriminate.
Qed.
(* FIRST and LAST without a key *)
Lemma reply_keyless c ts op s p s' p' ty n : keyless op = true -> reply c ts (mkGetOp op s p ty n) = reply c ts (mkGetOp op s' p' ty n).
Proof. unfold keyless. intros H. apply orb_true_iff in H as [H|H]; apply N.eqb_eq in H; subst op; reflexivity. Qed.

(* ---- a GETOP request of one operation ---- *)
Definition named (M : tmap) : Prop := forall s p o, M s p = Some o ->
  (f_data s <> [] /\ u64 (blen (f_data s))) /\ (f_data p <> [] /\ u64 (blen (f_data p))).
Lemma seen_full f : f_data f <> [] -> SpecGetOp.seen f = blob_of f.
Proof. intros H. unfold SpecGetOp.seen, blob_of. f_equal. destruct (f_data f); [congruence|]. reflexivity. Qed.
Lemma wire_full f : f_data f <> [] -> SpecMsg.seen (blob_of f) = blob_of f.
Proof. intros H. unfold SpecMsg.seen, blob_of. cbn [b_data b_type]. destruct (f_data f); [congruence|]. reflexivity. Qed.
Definition rec_of (t : triple) : rec3 := mkRec (blob_of (t_sub t)) (blob_of (t_pred t)) (blob_of (t_obj t)).

Lemma serve_scan k c f id d m ts s p ty n op : at_ds k c d m -> named m -> contents c m ts ->
  good_arg c s -> good_arg c p -> u32 ty -> u32 op -> u64 n -> 1 <= n ->
  (k = InMemory -> op <> GETOP_HIGHEST /\ (op = GETOP_LAST -> ts <> [])) ->
  (op = GETOP_FIRST \/ op = GETOP_LAST -> f = true -> ts <> []) ->
  reply c ts (getop_req (s, p, ty, n, op)) <> Some [] ->
  serve_one f id d (QGetOp [getop_req (s, p, ty, n, op)]) = Ok (d, scan_results id s p (reply c ts (getop_req (s, p, ty, n, op)))) /\
  (f = true -> fits_wire d [QGetOp [getop_req (s, p, ty, n, op)]]).
Proof.
  intros (rws & -> & Ha & Hfi) Hnm Hc Gs Gp Ht Ho Hu Hn Hk Hke Hne.
  destruct (agrees_reached k c rws m Ha) as (m' & Hr & Em). pose proof (contents_ext c m m' ts Em Hc) as Hc'.
  set (i := getop_req (s, p, ty, n, op)) in *. set (d := mkDs k c true rws []) in *.
  (* the request as it arrives *)
  set (i' := if f then seen_getop i else i).
  assert (Hi : i' = i \/ (f = true /\ keyless op = true /\ i' = mkGetOp op SpecMsg.nothing SpecMsg.nothing ty n)).
  { unfold i'. destruct f; [|left; reflexivity]. unfold seen_getop, i. cbn [getop_req oi_op oi_sub oi_pred oi_type oi_num]. fold (keyless op).
    destruct (keyless op) eqn:E; [right; auto|left]. rewrite (good_seen c s Gs), (good_seen c p Gp). reflexivity. }
  assert (Hop : oi_op i' = op /\ oi_num i' = n /\ oi_type i' = ty) by (destruct Hi as [->|(_ & _ & ->)]; auto). destruct Hop as (Hop & Hnum & _).
  assert (Er : reply c ts i' = reply c ts i).
  { destruct Hi as [->|(_ & Hkl & ->)]; [reflexivity|]. unfold i. cbn [getop_req]. apply reply_keyless, Hkl. }
  assert (Has : asks d i' (as_item i' (reply c ts i))).
  { rewrite <- Er. eapply asks_reply; [exact Hr|exact Hc'|lia| |rewrite Hop; exact Hk].
    destruct Hi as [->|(_ & Hkl & ->)]; [right|left; exact Hkl]. split; [apply (good_knows c s Gs)|apply (good_knows c p Gp)]. }
  unfold asks in Has.
  (* all stored fields are non-empty *)
  assert (Hin : forall us, reply c ts i = Some us -> N.of_nat (length us) <= n /\ forall t, In t us ->
     (f_data (t_sub t) <> [] /\ u64 (blen (f_data (t_sub t)))) /\ (f_data (t_pred t) <> [] /\ u64 (blen (f_data (t_pred t)))) /\
     (f_data (t_obj t) <> [] /\ u64 (blen (f_data (t_obj t)))) /\ u32 (f_type (t_sub t)) /\ u32 (f_type (t_pred t)) /\ u32 (f_type (t_obj t))).
  { intros us E. destruct (reply_from c ts i us E Hn) as [L I]. split; [exact L|]. intros t Hi'. apply I in Hi'. apply (proj2 Hc) in Hi'.
    destruct (Hnm _ _ _ Hi') as [A B]. destruct (ag_lossless c rws m Ha _ _ _ Hi') as (L1 & L2 & L3). split; [exact A|]. split; [exact B|]. split; [exact (Hfi _ _ _ Hi')|].
    split; [exact (lossless_type c _ L1)|]. split; [exact (lossless_type c _ L2)|exact (lossless_type c _ L3)]. }
  assert (Hfound : forall us, reply c ts i = Some us -> found us = mkGotOp 1 (map rec_of us)).
  { intros us E. destruct (Hin us E) as [_ X]. unfold found. f_equal. apply map_ext_in. intros t Ht'. destruct (X t Ht') as ((A & _) & (B & _) & (C & _) & _).
    unfold seen3, rec_of. rewrite !seen_full by assumption. reflexivity. }
  (* an error is only possible with the key *)
  assert (Hnone : reply c ts i = None -> i' = i).
  { intros E. destruct Hi as [Hi|(-> & Hkl & _)]; [exact Hi|]. exfalso.
    assert (Hts : ts <> []). { apply Hke; [|reflexivity]. unfold keyless in Hkl. apply orb_true_iff in Hkl as [X|X]; apply N.eqb_eq in X; auto. }
    unfold reply, i in E. cbn [getop_req oi_op oi_num] in E. unfold keyless in Hkl. apply orb_true_iff in Hkl as [X|X]; apply N.eqb_eq in X; rewrite X in E;
      cbn [N.eqb Pos.eqb GETOP_EQ GETOP_NEXT GETOP_PREV GETOP_FIRST GETOP_LAST] in E; rewrite some_of_ne in E by exact Hts; discriminate. }
  assert (Hok : body_ok (QGetOp [i])).
  { split; [unfold u64; reflexivity|]. constructor; [|constructor]. unfold i. cbn [getop_req]. unfold getop_ok. cbn [oi_op oi_sub oi_pred oi_type oi_num].
    split; [intros _ _; split; [exact (proj1 (good_ok c s Gs))|exact (proj1 (good_ok c p Gp))]|]. auto. }
  assert (Eb : (if f then seen_body (QGetOp [i]) else QGetOp [i]) = QGetOp [i']) by (unfold i'; destruct f; reflexivity).
  split.
  - unfold serve_one. rewrite Eb, Has. cbn [obind]. destruct (reply c ts i) as [us|] eqn:E; cbn [as_item scan_results].
    + rewrite (Hfound us eq_refl).
      assert (Es : (if f then seen_body (RGetOp [mkGotOp 1 (map rec_of us)]) else RGetOp [mkGotOp 1 (map rec_of us)]) = RGetOp [mkGotOp 1 (map rec_of us)]).
      { destruct f; [|reflexivity]. cbn [seen_body map]. unfold seen_gotop. cbn [gp_status gp_recs]. do 3 f_equal. rewrite map_map. apply map_ext_in.
        intros t Ht'. destruct (proj2 (Hin us eq_refl) t Ht') as ((A & _) & (B & _) & (C & _) & _). unfold seen_rec, rec_of. cbn [rc_sub rc_pred rc_obj Z.eqb Pos.eqb].
        rewrite !wire_full by assumption. reflexivity. }
      rewrite Es. cbn [results_of m_body m_src omap obind]. unfold getop_results. cbn [gp_recs gp_status].
      destruct us as [|t us]; [congruence|]. cbn [map obind concat]. rewrite app_nil_r. rewrite map_map. reflexivity.
    + rewrite (Hnone eq_refl). unfold nothing, i. cbn [getop_req oi_sub oi_pred]. fold i.
      assert (Es : results_of (mkMsg id 0 (if f then seen_body (RGetOp [mkGotOp 2 [mkRec (ref_blob s) (ref_blob p) blob_none]])
                                else RGetOp [mkGotOp 2 [mkRec (ref_blob s) (ref_blob p) blob_none]])) = Ok [XGetOp id false (ref_blob s) (ref_blob p) blob_none]).
      { destruct f; [|reflexivity]. cbn [seen_body map]. unfold seen_gotop. cbn [gp_status gp_recs map]. unfold seen_rec. cbn [rc_sub rc_pred rc_obj].
        rewrite (good_seen c s Gs), (good_seen c p Gp). reflexivity. }
      change (Z.of_N DATASTORE_ERROR) with 2%Z. rewrite Es. reflexivity.
  - intros ->. cbn [fits_wire]. split; [exact Hok|]. eexists _, _. split; [rewrite Eb; exact Has|]. split; [|exact Logic.I].
    split; [unfold u64; reflexivity|]. constructor; [|constructor]. destruct (reply c ts i) as [us|] eqn:E; cbn [as_item].
    + rewrite (Hfound us eq_refl). destruct (Hin us eq_refl) as [L X]. split; [unfold int32; cbn; lia|]. cbn [gp_recs]. split.
      * rewrite map_length. unfold u64 in *. lia.
      * apply Forall_forall. intros r Hr'. apply in_map_iff in Hr' as (t & <- & Ht'). destruct (X t Ht') as ((_ & A) & (_ & B) & (_ & C) & T1 & T2 & T3).
        split; [|split]; [| |intros _]; (split; [reflexivity|split; assumption]).
    + rewrite (Hnone eq_refl). split; [unfold int32; cbn; lia|]. cbn [gp_recs nothing]. split; [unfold u64; reflexivity|].
      constructor; [|constructor]. split; [exact (proj1 (good_ok c s Gs))|]. split; [exact (proj1 (good_ok c p Gp))|]. discriminate.
Qed.
