(* Bulk requests item by item, success of PUT, comparison of the backends *)
From Verif Require Import ModelBytes ProofBytes ModelKey ProofKey ModelHist ModelMsg ModelStore ModelGetOp ModelDs SpecStore ProofStore ProofDs.
Local Open Scope N_scope.

Ltac oinv H :=
  repeat match type of H with
  | obind _ _ = Ok _ => let a := fresh "a" in let E := fresh "E" in apply obind_ok in H as (a & E & H)
  end.

(* ---- bulk = one by one ---- *)
Lemma bput_nil k c db : bput k c db [] = Ok (db, []).
Proof. destruct k; reflexivity. Qed.
Lemma bput_cons k c db i l db' sts :
  bput k c db (i :: l) = Ok (db', sts) <->
  exists db1 st r, bput k c db [i] = Ok (db1, [st]) /\ bput k c db1 l = Ok (db', r) /\ sts = st :: r.
Proof.
  destruct k; cbn [bput].
  - cbn [im_bput]. destruct (put_row c i) as [kv| |]; cbn [obind];
      [|split; [discriminate|intros (? & ? & ? & ? & _); discriminate]..].
    destruct (match kv with Some (k, v) => (db_put k v db, ST_OK) | None => (db, ST_ERR) end) as [db1 st]. cbn [obind].
    split.
    + intros H. oinv H. destruct a as [db2 r]. injection H as <- <-. exists db1, (st_of_put i st), r. auto.
    + intros (db1' & st' & r & [= <- <-] & E2 & ->). rewrite E2. reflexivity.
  - unfold ldb_bput. cbn [ldb_batch]. destruct (put_row c i) as [kv| |]; cbn [obind];
      [|split; [discriminate|intros (? & ? & ? & ? & _); discriminate]..].
    cbn [map]. split.
    + intros H. oinv H. apply obind_ok in E as (b & Eb & E). injection E as <-. injection H as <- <-.
      eexists _, _, _. split; [reflexivity|]. rewrite Eb. cbn [obind]. split; [|reflexivity]. f_equal. f_equal.
      destruct kv as [[k v]|]; reflexivity.
    + intros (db1 & st & r & [= <- <-] & E2 & ->). oinv E2. rewrite E. cbn [obind]. injection E2 as <- <-.
      f_equal. f_equal. destruct kv as [[k v]|]; reflexivity.
Qed.

Lemma track_cons hs i l st sts :
  track hs (i :: l) (st :: sts) = do hs' <- track hs [i] [st]; track hs' l sts.
Proof.
  cbn [track]. destruct (if (st =? ST_OK)%Z && (b_type (pi_pred i) =? T_BYTE) then _ else _); reflexivity.
Qed.

Lemma operate_put_one d i d' r : d_open d = true -> operate d (QPut [i]) = Ok (d', r) ->
  exists db1 st hs, bput (d_kind d) (d_codec d) (d_rows d) [i] = Ok (db1, [st])
    /\ track (d_hists d) [i] [si_status st] = Ok hs /\ d' = with_hists (with_rows d db1) hs /\ r = Some (RPut [st]).
Proof.
  intros Ho H. rewrite operate_put in H by exact Ho. apply obind_ok in H as ([db1 sts] & E & H).
  apply obind_ok in H as (hs & Et & H). injection H as <- <-. pose proof E as E0.
  apply bput_cons in E as (db2 & st & r & E1 & E2 & ->). rewrite bput_nil in E2. injection E2 as -> <-.
  exists db1, st, hs. auto.
Qed.

Lemma bulk_put d l : d_open d = true -> forall d' sts,
  operate d (QPut l) = Ok (d', Some (RPut sts)) <->
  ds_run d (map (fun i => CallReq (QPut [i])) l) = Ok (d', map (fun st => Some (RPut [st])) sts).
Proof.
  revert d; induction l as [|i l IH]; intros d Ho d' sts.
  - rewrite operate_put, bput_nil by exact Ho. cbn [obind map ds_run track].
    assert (E : with_hists (with_rows d (d_rows d)) (d_hists d) = d) by (destruct d; reflexivity). rewrite E.
    destruct sts; cbn [map]; split; intros H; try discriminate; injection H as <-; reflexivity.
  - cbn [map ds_run ds_step]. split.
    + intros H. rewrite operate_put in H by exact Ho. apply obind_ok in H as ([db' sts1] & E & H).
      apply obind_ok in H as (hs & Et & H). injection H as <- <-.
      apply bput_cons in E as (db1 & st & r & E1 & E2 & ->). cbn [map] in *. rewrite track_cons in Et.
      apply obind_ok in Et as (hs1 & Et1 & Et2).
      rewrite operate_put by exact Ho. rewrite E1. cbn [obind map]. rewrite Et1. cbn [obind].
      set (d1 := with_hists (with_rows d db1) hs1). assert (Ho1 : d_open d1 = true) by exact Ho.
      assert (X : operate d1 (QPut l) = Ok (with_hists (with_rows d1 db') hs, Some (RPut r))).
      { rewrite operate_put by exact Ho1. change (bput (d_kind d1) (d_codec d1) (d_rows d1) l) with (bput (d_kind d) (d_codec d) db1 l).
        rewrite E2. cbn [obind]. change (d_hists d1) with hs1. rewrite Et2. reflexivity. }
      apply (IH d1 Ho1) in X. rewrite X. reflexivity.
    + intros H. apply obind_ok in H as ([d1 r1] & E1 & H). apply obind_ok in H as ([d2 rs] & E2 & H).
      destruct (operate_put_one d i d1 r1 Ho E1) as (db1 & st & hs1 & Eb & Et & -> & ->).
      injection H as -> H. destruct sts as [|st0 sts]; [discriminate|]. cbn [map] in H. injection H as -> ->.
      apply (IH (with_hists (with_rows d db1) hs1) Ho) in E2.
      rewrite operate_put in E2 by exact Ho. apply obind_ok in E2 as ([db' r] & E2 & H).
      apply obind_ok in H as (hs & Et2 & H). injection H as <- ->.
      rewrite operate_put by exact Ho.
      assert (X : bput (d_kind d) (d_codec d) (d_rows d) (i :: l) = Ok (db', st0 :: sts)) by (apply bput_cons; eauto 6).
      rewrite X. cbn [obind map]. rewrite track_cons, Et. cbn [obind]. change (d_hists (with_hists (with_rows d db1) hs1)) with hs1 in Et2.
      rewrite Et2. reflexivity.
Qed.

Lemma omap_cons {A B} (f : A -> outcome B) x l r : omap f (x :: l) = Ok r <->
  exists y r', f x = Ok y /\ omap f l = Ok r' /\ r = y :: r'.
Proof.
  cbn [omap]. split.
  - intros H. apply obind_ok in H as (y & E1 & H). apply obind_ok in H as (r' & E2 & H). injection H as <-. eauto.
  - intros (y & r' & -> & -> & ->). reflexivity.
Qed.
Lemma operate_get d l : d_open d = true ->
  operate d (QGet l) = do r <- omap (bget1 (d_codec d) (d_rows d)) l; Ok (d, Some (RGet r)).
Proof. intros H. unfold operate. rewrite H. reflexivity. Qed.
Lemma bulk_get d l : d_open d = true -> forall d' r,
  operate d (QGet l) = Ok (d', Some (RGet r)) <->
  ds_run d (map (fun i => CallReq (QGet [i])) l) = Ok (d', map (fun x => Some (RGet [x])) r).
Proof.
  intros Ho. induction l as [|i l IH]; intros d' r.
  - rewrite operate_get by exact Ho. cbn [omap obind map ds_run].
    destruct r; cbn [map]; split; intros H; try discriminate; injection H as <-; reflexivity.
  - cbn [map ds_run ds_step]. split.
    + intros H. rewrite operate_get in H by exact Ho. apply obind_ok in H as (r0 & E & H). injection H as <- <-.
      apply omap_cons in E as (y & r' & E1 & E2 & ->). rewrite operate_get by exact Ho. cbn [omap]. rewrite E1. cbn [obind].
      assert (X : operate d (QGet l) = Ok (d, Some (RGet r'))) by (rewrite operate_get, E2 by exact Ho; reflexivity).
      apply IH in X. rewrite X. reflexivity.
    + intros H. apply obind_ok in H as ([d1 r1] & E1 & H). apply obind_ok in H as ([d2 rs] & E2 & H).
      rewrite operate_get in E1 by exact Ho. apply obind_ok in E1 as (r0 & E & E1). injection E1 as <- <-.
      apply omap_cons in E as (y & r' & E1 & E3 & ->). cbn in E3. injection E3 as <-.
      injection H as -> H. destruct r as [|r0 r]; [discriminate|]. cbn [map] in H. injection H as -> ->.
      apply IH in E2. rewrite operate_get in E2 |- * by exact Ho. apply obind_ok in E2 as (r' & E2 & H). injection H as <- ->.
      cbn [omap]. rewrite E1. cbn [obind]. rewrite E2. reflexivity.
Qed.

Lemma bdel_nil k c db : bdel k c db [] = Ok (db, []).
Proof. destruct k; reflexivity. Qed.
Lemma bdel_cons k c db i l db' sts :
  bdel k c db (i :: l) = Ok (db', sts) <->
  exists db1 st r, bdel k c db [i] = Ok (db1, [st]) /\ bdel k c db1 l = Ok (db', r) /\ sts = st :: r.
Proof.
  destruct k; cbn [bdel].
  - cbn [im_bdel]. destruct (key_of c (di_sub i) (di_pred i)) as [ok| |]; cbn [obind];
      [|split; [discriminate|intros (? & ? & ? & ? & _); discriminate]..].
    destruct (match ok with Some k => match db_get k db with Some _ => (db_del k db, ST_OK) | None => (db, ST_ERR) end
                          | None => (db, ST_ERR) end) as [db1 st]. cbn [obind].
    split.
    + intros H. oinv H. destruct a as [db2 r]. injection H as <- <-. exists db1, (st_of_del i st), r. auto.
    + intros (db1' & st' & r & [= <- <-] & E2 & ->). rewrite E2. reflexivity.
  - unfold ldb_bdel. cbn [ldb_dels]. destruct (key_of c (di_sub i) (di_pred i)) as [ok| |]; cbn [obind];
      [|split; [discriminate|intros (? & ? & ? & ? & _); discriminate]..].
    cbn [map]. split.
    + intros H. oinv H. apply obind_ok in E as (b & Eb & E). injection E as <-. injection H as <- <-.
      eexists _, _, _. split; [reflexivity|]. rewrite Eb. cbn [obind]. split; [|reflexivity]. f_equal. f_equal.
      destruct ok as [k|]; reflexivity.
    + intros (db1 & st & r & [= <- <-] & E2 & ->). oinv E2. rewrite E. cbn [obind]. injection E2 as <- <-.
      f_equal. f_equal. destruct ok as [k|]; reflexivity.
Qed.
Lemma operate_del d l : d_open d = true ->
  operate d (QDel l) = do (r, sts) <- bdel (d_kind d) (d_codec d) (d_rows d) l; Ok (with_rows d r, Some (RDel sts)).
Proof. intros H. unfold operate. rewrite H. reflexivity. Qed.
Lemma bulk_del d l : d_open d = true -> forall d' sts,
  operate d (QDel l) = Ok (d', Some (RDel sts)) <->
  ds_run d (map (fun i => CallReq (QDel [i])) l) = Ok (d', map (fun st => Some (RDel [st])) sts).
Proof.
  revert d; induction l as [|i l IH]; intros d Ho d' sts.
  - rewrite operate_del, bdel_nil by exact Ho. cbn [obind map ds_run].
    assert (E : with_rows d (d_rows d) = d) by (destruct d; reflexivity). rewrite E.
    destruct sts; cbn [map]; split; intros H; try discriminate; injection H as <-; reflexivity.
  - cbn [map ds_run ds_step]. split.
    + intros H. rewrite operate_del in H by exact Ho. apply obind_ok in H as ([db' sts1] & E & H). injection H as <- <-.
      apply bdel_cons in E as (db1 & st & r & E1 & E2 & ->).
      rewrite operate_del by exact Ho. rewrite E1. cbn [obind].
      assert (X : operate (with_rows d db1) (QDel l) = Ok (with_rows d db', Some (RDel r))).
      { rewrite operate_del by exact Ho. change (d_rows (with_rows d db1)) with db1.
        change (d_kind (with_rows d db1)) with (d_kind d). change (d_codec (with_rows d db1)) with (d_codec d).
        rewrite E2. reflexivity. }
      apply (IH (with_rows d db1) Ho) in X. rewrite X. reflexivity.
    + intros H. apply obind_ok in H as ([d1 r1] & E1 & H). apply obind_ok in H as ([d2 rs] & E2 & H).
      rewrite operate_del in E1 by exact Ho. apply obind_ok in E1 as ([db1 s1] & E & E1). injection E1 as <- <-.
      pose proof E as E0. apply bdel_cons in E0 as (dbx & st & r & Ex1 & Ex2 & ->). rewrite bdel_nil in Ex2. injection Ex2 as -> <-.
      injection H as -> H. destruct sts as [|st0 sts]; [discriminate|]. cbn [map] in H. injection H as -> ->.
      apply (IH (with_rows d db1) Ho) in E2.
      rewrite operate_del in E2 by exact Ho. apply obind_ok in E2 as ([db' r] & E2 & H). injection H as <- ->.
      rewrite operate_del by exact Ho.
      assert (X : bdel (d_kind d) (d_codec d) (d_rows d) (i :: l) = Ok (db', st0 :: sts)) by (apply bdel_cons; eauto 6).
      rewrite X. reflexivity.
Qed.

Lemma bput_answers k c l : forall db db' sts, bput k c db l = Ok (db', sts) -> Forall2 put_answers l sts.
Proof.
  induction l as [|i l IH]; intros db db' sts H; [rewrite bput_nil in H; injection H as _ <-; constructor|].
  apply bput_cons in H as (db1 & st & r & E1 & E2 & ->). constructor; [|eauto].
  destruct k; cbn [bput] in E1.
  - cbn [im_bput] in E1. oinv E1. destruct a as [[k v]|]; cbn [obind] in E1; injection E1 as _ <-.
    + exists DATASTORE_SUCCESS. reflexivity.
    + exists DATASTORE_ERROR. reflexivity.
  - unfold ldb_bput in E1. oinv E1. injection E1 as _ <-. exists DATASTORE_SUCCESS. reflexivity.
Qed.
Lemma bdel_answers k c l : forall db db' sts, bdel k c db l = Ok (db', sts) -> Forall2 del_answers l sts.
Proof.
  induction l as [|i l IH]; intros db db' sts H; [rewrite bdel_nil in H; injection H as _ <-; constructor|].
  apply bdel_cons in H as (db1 & st & r & E1 & E2 & ->). constructor; [|eauto].
  destruct k; cbn [bdel] in E1.
  - cbn [im_bdel] in E1. oinv E1. destruct a as [k|]; [destruct (db_get k db)|]; cbn [obind] in E1; injection E1 as _ <-.
    + exists DATASTORE_SUCCESS. reflexivity.
    + exists DATASTORE_ERROR. reflexivity.
    + exists DATASTORE_ERROR. reflexivity.
  - unfold ldb_bdel in E1. oinv E1. injection E1 as _ <-. exists DATASTORE_SUCCESS. reflexivity.
Qed.
Lemma bget_answers c db l : forall r, omap (bget1 c db) l = Ok r -> Forall2 get_answers l r.
Proof.
  induction l as [|i l IH]; intros r H; [injection H as <-; constructor|].
  apply omap_cons in H as (y & r' & E1 & E2 & ->). constructor; [|auto].
  unfold bget1 in E1. oinv E1. injection E1 as <-. destruct a; [exists DATASTORE_SUCCESS|exists DATASTORE_ERROR]; reflexivity.
Qed.

Lemma bulk_requests d : d_open d = true ->
  (forall l d' r, operate d (QPut l) = Ok (d', r) ->
     exists sts, r = Some (RPut sts) /\ Forall2 put_answers l sts /\
       ds_run d (map (fun i => CallReq (QPut [i])) l) = Ok (d', map (fun st => Some (RPut [st])) sts)) /\
  (forall l d' r, operate d (QGet l) = Ok (d', r) ->
     exists gs, r = Some (RGet gs) /\ Forall2 get_answers l gs /\ d' = d /\
       ds_run d (map (fun i => CallReq (QGet [i])) l) = Ok (d', map (fun g => Some (RGet [g])) gs)) /\
  (forall l d' r, operate d (QDel l) = Ok (d', r) ->
     exists sts, r = Some (RDel sts) /\ Forall2 del_answers l sts /\
       ds_run d (map (fun i => CallReq (QDel [i])) l) = Ok (d', map (fun st => Some (RDel [st])) sts)) /\
  (forall l d' sts, ds_run d (map (fun i => CallReq (QPut [i])) l) = Ok (d', map (fun st => Some (RPut [st])) sts) ->
     operate d (QPut l) = Ok (d', Some (RPut sts))) /\
  (forall l d' gs, ds_run d (map (fun i => CallReq (QGet [i])) l) = Ok (d', map (fun g => Some (RGet [g])) gs) ->
     operate d (QGet l) = Ok (d', Some (RGet gs))) /\
  (forall l d' sts, ds_run d (map (fun i => CallReq (QDel [i])) l) = Ok (d', map (fun st => Some (RDel [st])) sts) ->
     operate d (QDel l) = Ok (d', Some (RDel sts))).
Proof.
  intros Ho. split; [|split; [|split; [|split; [|split]]]].
  - intros l d' r H. pose proof H as H0. rewrite operate_put in H by exact Ho. oinv H. destruct a as [db sts]. oinv H. injection H as <- <-.
    exists sts. split; [reflexivity|]. split; [eapply bput_answers, E|]. apply bulk_put; assumption.
  - intros l d' r H. pose proof H as H0. rewrite operate_get in H by exact Ho. oinv H. injection H as <- <-.
    exists a. split; [reflexivity|]. split; [eapply bget_answers, E|]. split; [reflexivity|]. apply bulk_get; assumption.
  - intros l d' r H. pose proof H as H0. rewrite operate_del in H by exact Ho. oinv H. destruct a as [db sts]. injection H as <- <-.
    exists sts. split; [reflexivity|]. split; [eapply bdel_answers, E|]. apply bulk_del; assumption.
  - intros l d' sts. apply bulk_put, Ho.
  - intros l d' gs. apply bulk_get, Ho.
  - intros l d' sts. apply bulk_del, Ho.
Qed.

(* ---- a successful PUT is stored ---- *)
Lemma bput_get_later k c can s p l : forall db db' sts,
  Forall (fun i => knows c can (pi_sub i) /\ knows c can (pi_pred i) /\ knows c can (pi_obj i)) l ->
  lossless c s -> lossless c p ->
  (forall i, In i l -> (fld (pi_sub i), fld (pi_pred i)) <> (s, p)) ->
  bput k c db l = Ok (db', sts) -> db_get (key c s p) db' = db_get (key c s p) db.
Proof.
  induction l as [|i l IH]; intros db db' sts Hk Ls Lp Hne H; [rewrite bput_nil in H; injection H as <- _; reflexivity|].
  inversion Hk as [|? ? (Ks & Kp & Ko) Hk']; subst.
  apply bput_cons in H as (db1 & st & r & E1 & E2 & ->).
  rewrite (IH db1 db' r Hk' Ls Lp (fun j Hj => Hne j (or_intror Hj)) E2).
  assert (X : exists st', im_bput c db [i] = Ok (db1, st')).
  { destruct k; [eauto|]. destruct (ldb_bput_im c db [i]) as [(e & A & B & C)|(dbx & stx & A & B)].
    - cbn [bput] in E1. destruct B; congruence.
    - cbn [bput] in E1. assert (dbx = db1) by congruence. subst. eauto. }
  destruct X as [st' X]. cbn [im_bput] in X. rewrite (put_row_can c can i Ks Kp Ko) in X. cbn [obind] in X.
  destruct (can (pi_sub i) && can (pi_pred i) && can (pi_obj i)) eqn:Ec; cbn [obind] in X; injection X as <- _; [|reflexivity].
  apply andb_true_iff in Ec as [Ec Co]. apply andb_true_iff in Ec as [Cs Cp].
  apply db_get_put_other. intros Ek. apply key_inj in Ek as [-> ->]; auto.
  - exact (Hne i (or_introl eq_refl) eq_refl).
  - exact (knows_lossless c can _ Ks Cs).
  - exact (knows_lossless c can _ Kp Cp).
Qed.

Lemma put_then_get c can d l d' sts n i st ty :
  d_open d = true -> d_codec d = c ->
  Forall (fun i => knows c can (pi_sub i) /\ knows c can (pi_pred i) /\ knows c can (pi_obj i)) l ->
  operate d (QPut l) = Ok (d', Some (RPut sts)) ->
  nth_error l n = Some i -> nth_error sts n = Some st -> si_status st = Z.of_N DATASTORE_SUCCESS ->
  (forall n' i', (n < n')%nat -> nth_error l n' = Some i' -> (fld (pi_sub i'), fld (pi_pred i')) <> (fld (pi_sub i), fld (pi_pred i))) ->
  d_kind d = InMemory \/ can (pi_sub i) && can (pi_pred i) && can (pi_obj i) = true ->
  operate d' (QGet [mkGet (pi_sub i) (pi_sub_addr i) (pi_pred i) (pi_pred_addr i) ty]) =
  Ok (d', Some (RGet [mkGot (Z.of_N DATASTORE_SUCCESS) (si_sub st) (si_pred st)
                            (mkBlob (blen (b_data (pi_obj i)) =? 0) (b_data (pi_obj i)) (b_type (pi_obj i)))])).
Proof.
  intros Ho Hc Hk H Hi Hst Hok Hlater Hcan.
  assert (Ki : knows c can (pi_sub i) /\ knows c can (pi_pred i) /\ knows c can (pi_obj i)).
  { apply nth_error_In in Hi. exact (proj1 (Forall_forall _ _) Hk i Hi). }
  destruct Ki as (Ks & Kp & Ko).
  rewrite operate_put in H by exact Ho. oinv H. destruct a as [db' sts']. oinv H. injection H as <- ->. rename E0 into Et. clear Et.
  rewrite operate_get by exact Ho. cbn [with_hists with_rows d_codec d_rows]. rewrite Hc in *.
  assert (Hans : exists x, st = answer x (pi_sub_addr i) (pi_sub i) (pi_pred_addr i) (pi_pred i)).
  { clear - E Hi Hst. apply bput_answers in E. revert n Hi Hst. induction E as [|a b l r Hab _ IH]; intros [|n] Hi Hst; try discriminate.
    - injection Hi as ->. injection Hst as ->. exact Hab.
    - exact (IH n Hi Hst). }
  assert (Hcan' : can (pi_sub i) && can (pi_pred i) && can (pi_obj i) = true /\
     exists dbn, db_get (key c (fld (pi_sub i)) (fld (pi_pred i))) dbn = Some (value c (fld (pi_obj i))) /\
       db_get (key c (fld (pi_sub i)) (fld (pi_pred i))) db' = db_get (key c (fld (pi_sub i)) (fld (pi_pred i))) dbn).
  { clear Hans. revert Hk E Hi Hst Hlater. generalize (d_rows d). revert n sts.
    induction l as [|j l IH]; intros n sts db Hk E Hi Hst Hlater; [destruct n; discriminate|].
    inversion Hk as [|? ? Hkj Hk']; subst.
    apply bput_cons in E as (db1 & stj & r & E1 & E2 & ->).
    destruct n as [|n].
    - injection Hi as ->. injection Hst as ->.
      assert (X : can (pi_sub i) && can (pi_pred i) && can (pi_obj i) = true).
      { destruct Hcan as [Hcan|Hcan]; [|exact Hcan]. rewrite Hcan in E1. cbn [bput im_bput] in E1.
        rewrite (put_row_can _ can i Ks Kp Ko) in E1. cbn [obind] in E1.
        destruct (can (pi_sub i) && can (pi_pred i) && can (pi_obj i)); [reflexivity|]. cbn [obind] in E1.
        injection E1 as _ <-. discriminate Hok. }
      split; [exact X|]. exists db1. split.
      + assert (Y : exists st', im_bput (d_codec d) db [i] = Ok (db1, st')).
        { destruct (d_kind d); [eauto|]. destruct (ldb_bput_im (d_codec d) db [i]) as [(e & A & B & C)|(dbx & stx & A & B)].
          - cbn [bput] in E1. destruct B; congruence.
          - cbn [bput] in E1. assert (dbx = db1) by congruence. subst. eauto. }
        destruct Y as [st' Y]. cbn [im_bput] in Y. rewrite (put_row_can _ can i Ks Kp Ko), X in Y. cbn [obind] in Y.
        injection Y as <- _. apply db_get_put_same.
      + apply andb_true_iff in X as [X _]. apply andb_true_iff in X as [Cs Cp].
        eapply (bput_get_later (d_kind d) (d_codec d) can); [exact Hk'| | | |exact E2].
        * exact (knows_lossless _ can _ Ks Cs).
        * exact (knows_lossless _ can _ Kp Cp).
        * intros i' Hin. apply In_nth_error in Hin as [n' Hn']. apply (Hlater (S n') i'); [lia|exact Hn'].
    - apply (IH n r db1 Hk' E2 Hi Hst). intros n' i' Hlt Hn'. apply (Hlater (S n') i'); [lia|exact Hn']. }
  destruct Hcan' as [Hcan' (dbn & Eg1 & Eg2)].
  apply andb_true_iff in Hcan' as [X Co]. apply andb_true_iff in X as [Cs Cp].
  cbn [omap]. unfold bget1, get_obj, obind2. cbn [gi_sub gi_pred gi_sub_addr gi_pred_addr].
  rewrite (key_of_can c can _ _ Ks Kp), Cs, Cp. cbn [andb obind]. rewrite Eg2, Eg1.
  pose proof (enc_lossless c _ (knows_lossless c can _ Ko Co)) as (_ & L2 & _ & L4).
  rewrite remove_type_value by exact L4. cbn [obind]. rewrite L2. cbn [obind].
  destruct Hans as [x ->]. reflexivity.
Qed.
