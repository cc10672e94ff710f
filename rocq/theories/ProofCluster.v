(* The cluster as one map *)
From Verif Require Import ModelBytes ProofBytes ModelKey ModelWire ModelHist ModelMsg SpecMsg ModelStore ModelGetOp ModelDs
  SpecStore ProofStore ProofDs ProofDs2 ModelElen ModelRoute SpecRoute ProofRoute ProofRoute2 ModelClient SpecClient SpecCluster
  ProofClient ProofClient2 ProofClient3 ProofClient4 ProofClient5 ProofClient6.
Local Open Scope N_scope.

(* ---- one datastore, one request ---- *)
Definition filled (m : tmap) : Prop := forall s p o, m s p = Some o -> f_data o <> [] /\ u64 (blen (f_data o)).
Definition at_ds (k : backend) (c : codec) (d : ds) (m : tmap) : Prop :=
  exists rws, d = mkDs k c true rws [] /\ agrees c rws m /\ filled m.

Lemma good_full c a : good_arg c a -> ref_blob a = mkBlob false (a_data a) (a_type a) /\ a_data a <> [] /\ fld (ref_blob a) = fa a.
Proof.
  intros (G & _). unfold given in G. apply andb_true_iff in G as [G1 G2].
  assert (E : ref_blob a = mkBlob false (a_data a) (a_type a)) by (unfold ref_blob; f_equal; destruct (a_addr a =? 0); [discriminate|reflexivity]).
  split; [exact E|]. split; [|reflexivity]. intros En. rewrite En in G2. discriminate.
Qed.
Lemma good_seen c a : good_arg c a -> seen (ref_blob a) = ref_blob a.
Proof. intros H. destruct (good_full c a H) as (-> & Hn & _). unfold seen. cbn [b_data b_type]. destruct (a_data a); [congruence|reflexivity]. Qed.
Lemma good_knows c a : good_arg c a -> knows c all_can (ref_blob a).
Proof. intros H. destruct (good_full c a H) as (E & Hn & _). split; [rewrite E; discriminate|]. apply H. Qed.
Lemma lossless_type c f : lossless c f -> u32 (f_type f).
Proof. intros (e & _ & _ & _ & H). unfold u32. assert (256 < 2 ^ 32) by reflexivity. lia. Qed.
Lemma good_u64 c a : good_arg c a -> u64 (blen (a_data a)).
Proof. intros (_ & _ & _ & H). unfold u64. assert (2 ^ 32 < 2 ^ 64) by reflexivity. lia. Qed.
Lemma good_ok c a : good_arg c a -> blob_ok (ref_blob a) /\ u64 (a_addr a).
Proof.
  intros H. pose proof (good_u64 c a H) as B. destruct (good_full c a H) as (-> & Hn & _). destruct H as (_ & L & A & _). apply lossless_type in L.
  split; [|exact A]. split; [reflexivity|]. split; [exact B|exact L].
Qed.
Lemma rf_ok c a : good_arg c a -> ref_ok (rf a).
Proof. intros H. pose proof (good_u64 c a H) as B. destruct H as (_ & L & A & _). apply lossless_type in L. split; [exact A|]. split; [exact B|exact L]. Qed.

Section One.
Context (k : backend) (c : codec) (f : bool) (id : Z).

Lemma serve_put d m s p o : at_ds k c d m -> good_arg c s -> good_arg c p -> good_arg c o ->
  exists d', serve_one f id d (QPut [put_req (s, p, o)]) = Ok (d', [XPut id true (rf s) (rf p)]) /\
    at_ds k c d' (tset m (fa s) (fa p) (Some (fa o))) /\ fits_wire d [QPut [put_req (s, p, o)]].
Proof.
  intros (rws & -> & Ha & Hf) Gs Gp Go.
  assert (Hreq : seen_body (QPut [put_req (s, p, o)]) = QPut [put_req (s, p, o)]).
  { cbn [seen_body map put_req seen_put pi_sub pi_sub_addr pi_pred pi_pred_addr pi_obj]. unfold seen_put. cbn [pi_sub pi_sub_addr pi_pred pi_pred_addr pi_obj].
    rewrite (good_seen c s Gs), (good_seen c p Gp), (good_seen c o Go). reflexivity. }
  assert (Hfit : Forall (fun i => knows c all_can (pi_sub i) /\ knows c all_can (pi_pred i) /\ knows c all_can (pi_obj i)) [put_req (s, p, o)]).
  { constructor; [|constructor]. cbn [put_req pi_sub pi_pred pi_obj]. auto using good_knows. }
  destruct (im_bput_refines c all_can [put_req (s, p, o)] rws m Ha Hfit) as (rws' & E & Ha').
  cbn [spec_puts put_req] in E, Ha'. unfold all_can in E, Ha'. cbn [andb fst snd] in E, Ha'.
  assert (Eop : exists r, operate (mkDs k c true rws []) (QPut [put_req (s, p, o)]) = Ok (mkDs k c true rws' [], Some (RPut [r])) /\ r = mkSt 1 (rf s) (rf p)).
  { rewrite operate_put by reflexivity. cbn [d_kind d_codec d_rows d_hists]. destruct k; cbn [bput].
    - cbn [put_req]. rewrite E. cbn [obind]. rewrite track_nil. cbn [obind]. eexists. split; reflexivity.
    - cbn [put_req]. rewrite (bput_rows _ _ _ _ _ E). cbn [obind map]. rewrite track_nil. cbn [obind]. eexists. split; reflexivity. }
  destruct Eop as (r & Eop & ->). exists (mkDs k c true rws' []). split; [|split].
  - unfold serve_one. replace (if f then seen_body (QPut [put_req (s, p, o)]) else QPut [put_req (s, p, o)]) with (QPut [put_req (s, p, o)]) by (destruct f; [symmetry; exact Hreq|reflexivity]).
    rewrite Eop. cbn [obind]. destruct f; reflexivity.
  - exists rws'. split; [reflexivity|]. destruct (good_full c s Gs) as (_ & _ & Es). destruct (good_full c p Gp) as (_ & _ & Ep). destruct (good_full c o Go) as (_ & Hno & Eo).
    rewrite Es, Ep, Eo in Ha'. split; [exact Ha'|]. intros s' p' o' Ho. destruct (tset_cases m (fa s) (fa p) (Some (fa o)) s' p') as [(_ & _ & E')|(_ & E')].
    + rewrite E' in Ho. injection Ho as <-. split; [exact Hno|exact (good_u64 c o Go)].
    + rewrite E' in Ho. exact (Hf _ _ _ Ho).
  - cbn [fits_wire]. rewrite Hreq. split.
    + split; [unfold u64; reflexivity|]. constructor; [|constructor]. destruct (good_ok c s Gs), (good_ok c p Gp), (good_ok c o Go). repeat (split; [assumption|]). assumption.
    + eexists _, _. split; [exact Eop|]. split; [|exact I]. split; [unfold u64; reflexivity|]. constructor; [|constructor].
      split; [unfold int32; cbn; lia|]. split; eapply rf_ok; eassumption.
Qed.

Lemma serve_get d m s p ty : at_ds k c d m -> good_arg c s -> good_arg c p -> u32 ty ->
  serve_one f id d (QGet [get_req (s, p, ty)]) =
    Ok (d, [match m (fa s) (fa p) with Some o => XGet id true (rf s) (rf p) (mkBlob false (f_data o) (f_type o))
            | None => XGet id false (rf s) (rf p) blob_none end]) /\
  fits_wire d [QGet [get_req (s, p, ty)]].
Proof.
  intros (rws & -> & Ha & Hf) Gs Gp Hty.
  assert (Hreq : seen_body (QGet [get_req (s, p, ty)]) = QGet [get_req (s, p, ty)]).
  { cbn [seen_body map get_req]. unfold seen_get. cbn [gi_sub gi_sub_addr gi_pred gi_pred_addr gi_type].
    rewrite (good_seen c s Gs), (good_seen c p Gp). reflexivity. }
  assert (Eop : operate (mkDs k c true rws []) (QGet [get_req (s, p, ty)]) = Ok (mkDs k c true rws [], Some (RGet [spec_get all_can m (get_req (s, p, ty))]))).
  { rewrite operate_get by reflexivity. cbn [d_codec d_rows]. change (omap (bget1 c rws) [get_req (s, p, ty)]) with (bget c rws [get_req (s, p, ty)]).
    rewrite (bget_spec c all_can rws m [get_req (s, p, ty)] Ha); [reflexivity|]. constructor; [|constructor]. cbn [get_req gi_sub gi_pred]. auto using good_knows. }
  destruct (good_full c s Gs) as (_ & _ & Es). destruct (good_full c p Gp) as (_ & _ & Ep).
  assert (Eg : spec_get all_can m (get_req (s, p, ty)) = match m (fa s) (fa p) with
      | Some o => mkGot 1 (rf s) (rf p) (mkBlob false (f_data o) (f_type o)) | None => mkGot 2 (rf s) (rf p) blob_none end).
  { unfold spec_get, all_can. cbn [get_req andb]. rewrite Es, Ep. destruct (m (fa s) (fa p)) as [o|] eqn:Em; [|reflexivity].
    destruct (Hf _ _ _ Em) as [Hne _]. f_equal. f_equal. destruct (f_data o); [congruence|]. reflexivity. }
  rewrite Eg in Eop. split.
  - unfold serve_one. replace (if f then seen_body (QGet [get_req (s, p, ty)]) else QGet [get_req (s, p, ty)]) with (QGet [get_req (s, p, ty)]) by (destruct f; [symmetry; exact Hreq|reflexivity]).
    rewrite Eop. cbn [obind]. destruct (m (fa s) (fa p)) as [o|] eqn:Em.
    + destruct (Hf _ _ _ Em) as [Hne _]. destruct f; cbn [seen_body map]; unfold seen_got; cbn [go_status go_sub go_pred go_obj Z.eqb Pos.eqb]; unfold seen; cbn [b_data b_type]; unfold results_of; cbn [m_body m_src map obind go_status go_obj].
      * destruct (f_data o) eqn:Ed; [congruence|]. reflexivity.
      * reflexivity.
    + destruct f; reflexivity.
  - cbn [fits_wire]. rewrite Hreq. split.
    + split; [unfold u64; reflexivity|]. constructor; [|constructor]. destruct (good_ok c s Gs), (good_ok c p Gp). repeat (split; [assumption|]). assumption.
    + eexists _, _. split; [exact Eop|]. split; [|exact I]. split; [unfold u64; reflexivity|]. constructor; [|constructor].
      destruct (m (fa s) (fa p)) as [o|] eqn:Em.
      * split; [unfold int32; cbn; lia|]. split; [eapply rf_ok; eassumption|]. split; [eapply rf_ok; eassumption|]. intros _.
        destruct (Hf _ _ _ Em) as [Hne Hl]. destruct (ag_lossless c rws m Ha _ _ _ Em) as (_ & _ & Lo). apply lossless_type in Lo.
        split; [reflexivity|]. split; [exact Hl|exact Lo].
      * split; [unfold int32; cbn; lia|]. split; [eapply rf_ok; eassumption|]. split; [eapply rf_ok; eassumption|]. discriminate.
Qed.

Lemma serve_del d m s p : at_ds k c d m -> good_arg c s -> good_arg c p ->
  exists d' m', serve_one f id d (QDel [del_req (s, p)]) =
    Ok (d', [XDel id (match m (fa s) (fa p) with Some _ => true | None => match k with InMemory => false | LevelDB => true end end) (rf s) (rf p)]) /\
    at_ds k c d' m' /\ (forall s' p', m' s' p' = tset m (fa s) (fa p) None s' p') /\ fits_wire d [QDel [del_req (s, p)]].
Proof.
  intros (rws & -> & Ha & Hf) Gs Gp.
  assert (Hreq : seen_body (QDel [del_req (s, p)]) = QDel [del_req (s, p)]).
  { cbn [seen_body map del_req]. unfold seen_del. cbn [di_sub di_sub_addr di_pred di_pred_addr].
    rewrite (good_seen c s Gs), (good_seen c p Gp). reflexivity. }
  destruct (good_full c s Gs) as (_ & _ & Es). destruct (good_full c p Gp) as (_ & _ & Ep).
  assert (Hfit : Forall (fun i => knows c all_can (di_sub i) /\ knows c all_can (di_pred i)) [del_req (s, p)]).
  { constructor; [|constructor]. cbn [del_req di_sub di_pred]. auto using good_knows. }
  destruct (im_bdel_refines c all_can [del_req (s, p)] rws m Ha Hfit) as (rws' & E & Ha').
  cbn [spec_dels del_req] in E, Ha'. unfold all_can in E, Ha'. rewrite Es, Ep in E, Ha'. cbn [andb fst snd] in E, Ha'.
  set (there := match m (fa s) (fa p) with Some _ => true | None => false end) in *.
  assert (Eop : operate (mkDs k c true rws []) (QDel [del_req (s, p)]) =
     Ok (mkDs k c true rws' [], Some (RDel [mkSt (if there || match k with InMemory => false | LevelDB => true end then 1 else 2)%Z (rf s) (rf p)]))).
  { rewrite operate_del by reflexivity. cbn [d_kind d_codec d_rows]. destruct k; cbn [bdel].
    - cbn [del_req]. rewrite E. cbn [obind]. unfold with_rows. cbn [d_kind d_codec d_open d_hists]. rewrite orb_false_r. destruct there; reflexivity.
    - cbn [del_req]. rewrite (bdel_rows _ _ _ _ _ E). cbn [obind map]. unfold with_rows. cbn [d_kind d_codec d_open d_hists]. rewrite orb_true_r. reflexivity. }
  exists (mkDs k c true rws' []), (if there then tset m (fa s) (fa p) None else m). split; [|split; [|split]].
  - unfold serve_one. replace (if f then seen_body (QDel [del_req (s, p)]) else QDel [del_req (s, p)]) with (QDel [del_req (s, p)]) by (destruct f; [symmetry; exact Hreq|reflexivity]).
    rewrite Eop. cbn [obind]. unfold there. destruct f, (m (fa s) (fa p)), k; reflexivity.
  - exists rws'. split; [reflexivity|]. split; [exact Ha'|]. intros s' p' o' Ho. destruct there; [|exact (Hf _ _ _ Ho)].
    destruct (tset_cases m (fa s) (fa p) None s' p') as [(_ & _ & E')|(_ & E')]; rewrite E' in Ho; [discriminate|exact (Hf _ _ _ Ho)].
  - intros s' p'. unfold there. destruct (m (fa s) (fa p)) eqn:Em; [reflexivity|].
    destruct (tset_cases m (fa s) (fa p) None s' p') as [(<- & <- & E')|(_ & E')]; rewrite E'; congruence.
  - cbn [fits_wire]. rewrite Hreq. split.
    + split; [unfold u64; reflexivity|]. constructor; [|constructor]. destruct (good_ok c s Gs), (good_ok c p Gp). repeat (split; [assumption|]). assumption.
    + eexists _, _. split; [exact Eop|]. split; [|exact I]. split; [unfold u64; reflexivity|]. constructor; [|constructor].
      split; [|split; eapply rf_ok; eassumption]. cbn [si_status]. destruct (there || _); unfold int32; cbn; lia.
Qed.
End One.
