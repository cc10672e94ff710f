(* Objects that do not come back as they were stored: one datastore *)
From Verif Require Import ModelBytes ProofBytes ModelKey ModelWire ModelHist ModelMsg SpecMsg ModelStore ModelGetOp ModelDs
  SpecStore ProofStore ProofDs ProofDs2 ModelElen ModelRoute SpecRoute ProofRoute ProofRoute2 ModelClient SpecClient SpecCluster
  ProofClient ProofClient2 ProofClient3 ProofClient4 ProofClient5 ProofClient6 ProofCluster SpecTyped.
Local Open Scope N_scope.

Lemma len_pos (d : bytes) : d <> [] -> (blen d =? 0) = false.
Proof. intros H. destruct d; [congruence|]. unfold blen. cbn [List.length]. lia. Qed.
Lemma codable_enc c f : codable c f -> exists d, enc_blob c (mkBlob false (f_data f) (f_type f)) = Ok (Some (enc c f)) /\
  c_dec c (f_type f) (enc c f) = Ok (Some d) /\ back c f = mkField d (f_type f) /\ d <> [] /\ u64 (blen d).
Proof.
  intros (Hn & Ht & e & d & E & D & Hd & Hu). exists d.
  assert (X : enc c f = e) by (unfold enc; rewrite (len_pos _ Hn), E; reflexivity).
  rewrite X. split; [exact E|]. split; [exact D|]. split; [unfold back; rewrite E, D; reflexivity|]. auto.
Qed.
Lemma back_type c f : f_type (back c f) = f_type f.
Proof. unfold back. destruct (c_enc _ _ _ _) as [[e|]| |]; try reflexivity. destruct (c_dec _ _ _) as [[d|]| |]; reflexivity. Qed.
Lemma lossless_codable c f : lossless c f -> f_data f <> [] -> u64 (blen (f_data f)) -> codable c f /\ back c f = f.
Proof.
  intros (e & E & D & _ & Ht) Hn Hu. specialize (E false ltac:(discriminate)). split.
  - split; [exact Hn|]. split; [exact Ht|]. exists e, (f_data f). auto.
  - unfold back. rewrite E, D. destruct f; reflexivity.
Qed.
Lemma good_arg_obj c a : good_arg c a -> good_obj c a /\ kept_arg c a = a.
Proof.
  intros H. pose proof (good_full c a H) as (_ & Hn & _). pose proof (good_u64 c a H) as U. destruct H as (G & L & A & B).
  destruct (lossless_codable c (fa a) L Hn U) as [C K]. split; [split; [exact G|]; split; [exact C|]; split; assumption|].
  unfold kept_arg. rewrite K. destruct a; reflexivity.
Qed.
Lemma kept_fa c a : fa (kept_arg c a) = back c (fa a).
Proof. pose proof (back_type c (fa a)) as E. unfold kept_arg. destruct (back c (fa a)) as [d t]. cbn [f_type f_data] in E |- *. rewrite E. reflexivity. Qed.
Lemma obj_full c a : good_obj c a -> ref_blob a = mkBlob false (a_data a) (a_type a) /\ a_data a <> [].
Proof.
  intros (G & _). unfold given in G. apply andb_true_iff in G as [G1 G2].
  split; [unfold ref_blob; f_equal; destruct (a_addr a =? 0); [discriminate|reflexivity]|]. intros En. rewrite En in G2. discriminate.
Qed.
Lemma obj_seen c a : good_obj c a -> seen (ref_blob a) = ref_blob a.
Proof. intros H. destruct (obj_full c a H) as (-> & Hn). unfold seen. cbn [b_data b_type]. destruct (a_data a); [congruence|reflexivity]. Qed.
Lemma obj_ok c a : good_obj c a -> blob_ok (ref_blob a).
Proof.
  intros H. destruct (obj_full c a H) as (-> & Hn). destruct H as (_ & (_ & Ht & _) & _ & B). split; [reflexivity|]. cbn [b_data b_type].
  assert (2 ^ 32 < 2 ^ 64) by reflexivity. assert (256 < 2 ^ 32) by reflexivity. unfold u64, u32. cbn [fa f_type] in Ht. lia.
Qed.
Lemma kept_given c a : good_obj c a -> given (kept_arg c a) = true.
Proof.
  intros (G & C & _). destruct (codable_enc c _ C) as (d & _ & _ & K & Hn & _). unfold given in *. apply andb_true_iff in G as [G _].
  unfold kept_arg. rewrite K. cbn [a_addr a_data f_data]. rewrite G, (len_pos d Hn). reflexivity.
Qed.

(* ---- rows and map: the map of the fields as they were given ---- *)
Record agrees2 (c : codec) (db : rows) (m : tmap) : Prop := mkAgrees2 {
  ag2_sorted : sorted db;
  ag2_ok : forall s p o, m s p = Some o -> lossless c s /\ lossless c p /\ codable c o;
  ag2_in : forall k v, In (k, v) db <-> exists s p o, m s p = Some o /\ k = key c s p /\ v = value c o }.
Lemma agrees2_empty c : agrees2 c [] no_triples.
Proof. constructor; [constructor|discriminate|]. cbn. intros k v. split; [tauto|intros (s & p & o & H & _); discriminate]. Qed.
Lemma agrees2_get c db m s p : agrees2 c db m -> lossless c s -> lossless c p ->
  db_get (key c s p) db = match m s p with Some o => Some (value c o) | None => None end.
Proof.
  intros [Hs Hl Hi] Ls Lp. destruct (db_get (key c s p) db) as [v|] eqn:E.
  - apply (db_get_in _ _ _ Hs) in E. apply Hi in E as (s' & p' & o & Hm & Hk & ->).
    destruct (Hl _ _ _ Hm) as (Ls' & Lp' & _).
    apply key_inj in Hk as [-> ->]; auto. rewrite Hm. reflexivity.
  - destruct (m s p) as [o|] eqn:Em; [|reflexivity]. exfalso.
    assert (In (key c s p, value c o) db) as X by (apply Hi; eauto 6).
    apply (db_get_in _ _ _ Hs) in X. congruence.
Qed.
Lemma agrees2_put c db m s p o : agrees2 c db m -> lossless c s -> lossless c p -> codable c o ->
  agrees2 c (db_put (key c s p) (value c o) db) (tset m s p (Some o)).
Proof.
  intros [Hs Hl Hi] Ls Lp Lo. constructor.
  - apply db_put_sorted, Hs.
  - intros s' p' o' H. destruct (tset_cases m s p (Some o) s' p') as [(-> & -> & E)|[_ E]]; rewrite E in H.
    + injection H as ->. auto.
    + eauto.
  - intros k v. rewrite <- db_get_in by (apply db_put_sorted, Hs).
    destruct (bytes_eq_dec k (key c s p)) as [->|Hk].
    + rewrite db_get_put_same. split.
      * intros [= <-]. exists s, p, o. rewrite tset_same. auto.
      * intros (s' & p' & o' & Hm & Hk & ->).
        destruct (tset_cases m s p (Some o) s' p') as [(-> & -> & E)|[Hne E]]; rewrite E in Hm; [congruence|].
        destruct (Hl _ _ _ Hm) as (Ls' & Lp' & _). apply key_inj in Hk as [-> ->]; auto. congruence.
    + rewrite db_get_put_other by exact Hk. rewrite db_get_in by exact Hs. rewrite Hi.
      split; intros (s' & p' & o' & Hm & -> & ->); exists s', p', o'; (split; [|auto]).
      * rewrite tset_other; [exact Hm|]. intros [= -> ->]. congruence.
      * rewrite tset_other in Hm; [exact Hm|]. intros [= -> ->]. congruence.
Qed.
Lemma agrees2_del c db m s p : agrees2 c db m -> lossless c s -> lossless c p ->
  agrees2 c (db_del (key c s p) db) (tset m s p None).
Proof.
  intros [Hs Hl Hi] Ls Lp. constructor.
  - apply db_del_sorted, Hs.
  - intros s' p' o' H. destruct (tset_cases m s p None s' p') as [(-> & -> & E)|[_ E]]; rewrite E in H; [discriminate|eauto].
  - intros k v. rewrite <- db_get_in by (apply db_del_sorted, Hs).
    destruct (bytes_eq_dec k (key c s p)) as [->|Hk].
    + rewrite db_get_del_same by exact Hs. split; [discriminate|].
      intros (s' & p' & o' & Hm & Hk & ->).
      destruct (tset_cases m s p None s' p') as [(-> & -> & E)|[Hne E]]; rewrite E in Hm; [discriminate|].
      destruct (Hl _ _ _ Hm) as (Ls' & Lp' & _). apply key_inj in Hk as [-> ->]; auto. congruence.
    + rewrite db_get_del_other by exact Hk. rewrite db_get_in by exact Hs. rewrite Hi.
      split; intros (s' & p' & o' & Hm & -> & ->); exists s', p', o'; (split; [|auto]).
      * rewrite tset_other; [exact Hm|]. intros [= -> ->]. congruence.
      * rewrite tset_other in Hm; [exact Hm|]. intros [= -> ->]. congruence.
Qed.

(* m is the map of the objects that come back *)
Definition at_obj (k : backend) (c : codec) (d : ds) (m : tmap) : Prop :=
  exists rws raw, d = mkDs k c true rws [] /\ agrees2 c rws raw /\ forall s p, m s p = option_map (back c) (raw s p).

Section One.
Context (k : backend) (c : codec) (f : bool) (id : Z).

Lemma good_key s p : good_arg c s -> good_arg c p -> key_of c (ref_blob s) (ref_blob p) = Ok (Some (key c (fa s) (fa p))).
Proof. intros Gs Gp. rewrite (key_of_can c all_can); auto using good_knows. Qed.
Lemma good_row s p o : good_arg c s -> good_arg c p -> good_obj c o ->
  put_row c (put_req (s, p, o)) = Ok (Some (key c (fa s) (fa p), value c (fa o))).
Proof.
  intros Gs Gp Go. unfold put_row, obind2. cbn [put_req pi_sub pi_pred pi_obj].
  rewrite (enc_blob_can c all_can _ (good_knows c s Gs) eq_refl), (enc_blob_can c all_can _ (good_knows c p Gp) eq_refl). cbn [obind].
  destruct (obj_full c o Go) as (Eo & _). destruct Go as (_ & C & _). destruct (codable_enc c _ C) as (d & E & _).
  cbn [fa f_data f_type] in E. rewrite Eo, E. reflexivity.
Qed.

Lemma serve_put2 d m s p o : at_obj k c d m -> good_arg c s -> good_arg c p -> good_obj c o ->
  exists d' m', serve_one f id d (QPut [put_req (s, p, o)]) = Ok (d', [XPut id true (rf s) (rf p)]) /\
    at_obj k c d' m' /\ (forall s' p', m' s' p' = tset m (fa s) (fa p) (Some (fa (kept_arg c o))) s' p') /\ fits_wire d [QPut [put_req (s, p, o)]].
Proof.
  intros (rws & raw & -> & Ha & Hf) Gs Gp Go.
  assert (Hreq : seen_body (QPut [put_req (s, p, o)]) = QPut [put_req (s, p, o)]).
  { cbn [seen_body map put_req seen_put pi_sub pi_sub_addr pi_pred pi_pred_addr pi_obj]. unfold seen_put. cbn [pi_sub pi_sub_addr pi_pred pi_pred_addr pi_obj].
    rewrite (good_seen c s Gs), (good_seen c p Gp), (obj_seen c o Go). reflexivity. }
  set (rws' := db_put (key c (fa s) (fa p)) (value c (fa o)) rws).
  assert (E : im_bput c rws [put_req (s, p, o)] = Ok (rws', [mkSt 1 (rf s) (rf p)])).
  { cbn [im_bput]. rewrite (good_row s p o Gs Gp Go). reflexivity. }
  assert (Eop : exists r, operate (mkDs k c true rws []) (QPut [put_req (s, p, o)]) = Ok (mkDs k c true rws' [], Some (RPut [r])) /\ r = mkSt 1 (rf s) (rf p)).
  { rewrite operate_put by reflexivity. cbn [d_kind d_codec d_rows d_hists]. destruct k; cbn [bput].
    - rewrite E. cbn [obind]. rewrite track_nil. cbn [obind]. eexists. split; reflexivity.
    - rewrite (bput_rows _ _ _ _ _ E). cbn [obind map]. rewrite track_nil. cbn [obind]. eexists. split; reflexivity. }
  destruct Eop as (r & Eop & ->). exists (mkDs k c true rws' []), (fun s' p' => option_map (back c) (tset raw (fa s) (fa p) (Some (fa o)) s' p')). split; [|split; [|split]].
  - unfold serve_one. replace (if f then seen_body (QPut [put_req (s, p, o)]) else QPut [put_req (s, p, o)]) with (QPut [put_req (s, p, o)]) by (destruct f; [symmetry; exact Hreq|reflexivity]).
    rewrite Eop. cbn [obind]. destruct f; reflexivity.
  - eexists rws', _. split; [reflexivity|]. split; [|intros; reflexivity]. apply agrees2_put; [exact Ha|apply Gs|apply Gp|apply Go].
  - intros s' p'. rewrite kept_fa. unfold tset. destruct (feqb (fa s) s' && feqb (fa p) p'); [reflexivity|]. symmetry. apply Hf.
  - cbn [fits_wire]. rewrite Hreq. split.
    + split; [unfold u64; reflexivity|]. constructor; [|constructor]. pose proof (obj_ok c o Go). destruct (good_ok c s Gs), (good_ok c p Gp). repeat (split; [assumption|]). assumption.
    + eexists _, _. split; [exact Eop|]. split; [|exact I]. split; [unfold u64; reflexivity|]. constructor; [|constructor].
      split; [unfold int32; cbn; lia|]. split; eapply rf_ok; eassumption.
Qed.

Lemma serve_get2 d m s p ty : at_obj k c d m -> good_arg c s -> good_arg c p -> u32 ty ->
  serve_one f id d (QGet [get_req (s, p, ty)]) =
    Ok (d, [match m (fa s) (fa p) with Some o => XGet id true (rf s) (rf p) (mkBlob false (f_data o) (f_type o))
            | None => XGet id false (rf s) (rf p) blob_none end]) /\
  fits_wire d [QGet [get_req (s, p, ty)]].
Proof.
  intros (rws & raw & -> & Ha & Hf) Gs Gp Hty.
  assert (Hreq : seen_body (QGet [get_req (s, p, ty)]) = QGet [get_req (s, p, ty)]).
  { cbn [seen_body map get_req]. unfold seen_get. cbn [gi_sub gi_sub_addr gi_pred gi_pred_addr gi_type].
    rewrite (good_seen c s Gs), (good_seen c p Gp). reflexivity. }
  assert (Ho : forall o, raw (fa s) (fa p) = Some o -> f_data (back c o) <> [] /\ u64 (blen (f_data (back c o))) /\ u32 (f_type (back c o))).
  { intros o Eo. destruct (ag2_ok c rws raw Ha _ _ _ Eo) as (_ & _ & Co). destruct (codable_enc c o Co) as (d & _ & _ & -> & Hn & Hu).
    split; [exact Hn|]. split; [exact Hu|]. destruct Co as (_ & Ht & _). unfold u32. cbn [f_type]. assert (256 < 2 ^ 32) by reflexivity. lia. }
  assert (Eop : operate (mkDs k c true rws []) (QGet [get_req (s, p, ty)]) = Ok (mkDs k c true rws [], Some (RGet [match m (fa s) (fa p) with
      | Some o => mkGot 1 (rf s) (rf p) (mkBlob false (f_data o) (f_type o)) | None => mkGot 2 (rf s) (rf p) blob_none end]))).
  { rewrite operate_get by reflexivity. cbn [d_codec d_rows omap]. unfold bget1, get_obj, obind2. cbn [get_req gi_sub gi_pred gi_sub_addr gi_pred_addr].
    rewrite (good_key s p Gs Gp). cbn [obind]. rewrite (agrees2_get c rws raw _ _ Ha) by (apply Gs || apply Gp). rewrite Hf.
    destruct (raw (fa s) (fa p)) as [o|] eqn:Eo; [|reflexivity]. cbn [option_map].
    destruct (ag2_ok c rws raw Ha _ _ _ Eo) as (_ & _ & Co). destruct (codable_enc c o Co) as (d & _ & D & -> & Hn & _).
    rewrite (remove_type_value c o (proj1 (proj2 Co))). cbn [obind]. rewrite D. cbn [obind f_data f_type]. unfold DATASTORE_SUCCESS. destruct d; [congruence|]. reflexivity. }
  assert (Hm : forall o, m (fa s) (fa p) = Some o -> f_data o <> [] /\ u64 (blen (f_data o)) /\ u32 (f_type o)).
  { intros o Em. rewrite Hf in Em. destruct (raw (fa s) (fa p)) as [o'|]; [|discriminate]. injection Em as <-. apply Ho. reflexivity. }
  split.
  - unfold serve_one. replace (if f then seen_body (QGet [get_req (s, p, ty)]) else QGet [get_req (s, p, ty)]) with (QGet [get_req (s, p, ty)]) by (destruct f; [symmetry; exact Hreq|reflexivity]).
    rewrite Eop. cbn [obind]. destruct (m (fa s) (fa p)) as [o|] eqn:Em.
    + destruct (Hm o eq_refl) as [Hne _]. destruct f; cbn [seen_body map]; unfold seen_got; cbn [go_status go_sub go_pred go_obj Z.eqb Pos.eqb]; unfold seen; cbn [b_data b_type]; unfold results_of; cbn [m_body m_src map obind go_status go_obj].
      * destruct (f_data o) eqn:Ed; [congruence|]. reflexivity.
      * reflexivity.
    + destruct f; reflexivity.
  - cbn [fits_wire]. rewrite Hreq. split.
    + split; [unfold u64; reflexivity|]. constructor; [|constructor]. destruct (good_ok c s Gs), (good_ok c p Gp). repeat (split; [assumption|]). assumption.
    + eexists _, _. split; [exact Eop|]. split; [|exact I]. split; [unfold u64; reflexivity|]. constructor; [|constructor].
      destruct (m (fa s) (fa p)) as [o|] eqn:Em.
      * split; [unfold int32; cbn; lia|]. split; [eapply rf_ok; eassumption|]. split; [eapply rf_ok; eassumption|]. intros _.
        destruct (Hm o eq_refl) as (_ & Hl & Lo). split; [reflexivity|]. split; [exact Hl|exact Lo].
      * split; [unfold int32; cbn; lia|]. split; [eapply rf_ok; eassumption|]. split; [eapply rf_ok; eassumption|]. discriminate.
Qed.

Lemma serve_del2 d m s p : at_obj k c d m -> good_arg c s -> good_arg c p ->
  exists d' m', serve_one f id d (QDel [del_req (s, p)]) =
    Ok (d', [XDel id (match m (fa s) (fa p) with Some _ => true | None => match k with InMemory => false | LevelDB => true end end) (rf s) (rf p)]) /\
    at_obj k c d' m' /\ (forall s' p', m' s' p' = tset m (fa s) (fa p) None s' p') /\ fits_wire d [QDel [del_req (s, p)]].
Proof.
  intros (rws & raw & -> & Ha & Hf) Gs Gp.
  assert (Hreq : seen_body (QDel [del_req (s, p)]) = QDel [del_req (s, p)]).
  { cbn [seen_body map del_req]. unfold seen_del. cbn [di_sub di_sub_addr di_pred di_pred_addr].
    rewrite (good_seen c s Gs), (good_seen c p Gp). reflexivity. }
  set (there := match m (fa s) (fa p) with Some _ => true | None => false end).
  set (rws' := if there then db_del (key c (fa s) (fa p)) rws else rws).
  assert (E : im_bdel c rws [del_req (s, p)] = Ok (rws', [mkSt (if there then 1 else 2)%Z (rf s) (rf p)])).
  { cbn [im_bdel del_req di_sub di_pred]. rewrite (good_key s p Gs Gp). cbn [obind]. rewrite (agrees2_get c rws raw _ _ Ha) by (apply Gs || apply Gp).
    unfold rws', there. rewrite Hf. destruct (raw (fa s) (fa p)); reflexivity. }
  assert (Eop : operate (mkDs k c true rws []) (QDel [del_req (s, p)]) =
     Ok (mkDs k c true rws' [], Some (RDel [mkSt (if there || match k with InMemory => false | LevelDB => true end then 1 else 2)%Z (rf s) (rf p)]))).
  { rewrite operate_del by reflexivity. cbn [d_kind d_codec d_rows]. destruct k; cbn [bdel].
    - rewrite E. cbn [obind]. unfold with_rows. cbn [d_kind d_codec d_open d_hists]. rewrite orb_false_r. destruct there; reflexivity.
    - rewrite (bdel_rows _ _ _ _ _ E). cbn [obind map]. unfold with_rows. cbn [d_kind d_codec d_open d_hists]. rewrite orb_true_r. reflexivity. }
  exists (mkDs k c true rws' []), (fun s' p' => option_map (back c) (tset raw (fa s) (fa p) None s' p')). split; [|split; [|split]].
  - unfold serve_one. replace (if f then seen_body (QDel [del_req (s, p)]) else QDel [del_req (s, p)]) with (QDel [del_req (s, p)]) by (destruct f; [symmetry; exact Hreq|reflexivity]).
    rewrite Eop. cbn [obind]. unfold there. destruct f, (m (fa s) (fa p)), k; reflexivity.
  - destruct (raw (fa s) (fa p)) as [o|] eqn:Eo.
    + eexists rws', _. split; [reflexivity|]. split; [|intros; reflexivity]. unfold rws', there. rewrite Hf, Eo. cbn [option_map].
      apply agrees2_del; [exact Ha|apply Gs|apply Gp].
    + exists rws', raw. split; [reflexivity|]. split; [unfold rws', there; rewrite Hf, Eo; exact Ha|].
      intros s' p'. destruct (tset_cases raw (fa s) (fa p) None s' p') as [(<- & <- & ->)|(_ & ->)]; [rewrite Eo|]; reflexivity.
  - intros s' p'. unfold tset. destruct (feqb (fa s) s' && feqb (fa p) p'); [reflexivity|]. symmetry. apply Hf.
  - cbn [fits_wire]. rewrite Hreq. split.
    + split; [unfold u64; reflexivity|]. constructor; [|constructor]. destruct (good_ok c s Gs), (good_ok c p Gp). repeat (split; [assumption|]). assumption.
    + eexists _, _. split; [exact Eop|]. split; [|exact I]. split; [unfold u64; reflexivity|]. constructor; [|constructor].
      split; [|split; eapply rf_ok; eassumption]. cbn [si_status]. destruct (there || _); unfold int32; cbn; lia.
Qed.
End One.
