(* Comparison of the backends, lifecycle, histograms *)
From Verif Require Import ModelBytes ProofBytes ModelKey ProofKey ModelWire ModelHist ModelMsg ModelStore ModelGetOp ModelDs SpecStore ProofStore ProofDs ProofDs2.
Local Open Scope N_scope.

(* ---- splitting the rows ---- *)
Lemma span_app below db : fst (span below db) ++ snd (span below db) = db.
Proof.
  induction db as [|r db IH]; [reflexivity|]. cbn [span]. destruct (below (fst r)); [|reflexivity].
  destruct (span below db) as [lo hi]. cbn in *. congruence.
Qed.
Lemma span_lo below db : Forall (fun r => below (fst r) = true) (fst (span below db)).
Proof.
  induction db as [|r db IH]; [constructor|]. cbn [span]. destruct (below (fst r)) eqn:E; [|constructor].
  destruct (span below db) as [lo hi]. cbn in *. constructor; assumption.
Qed.
Lemma span_hi below db : (forall a b, blt a b -> below b = true -> below a = true) -> sorted db ->
  Forall (fun r => below (fst r) = false) (snd (span below db)).
Proof.
  intros Hm. induction db as [|r db IH]; intros Hs; [constructor|]. apply sorted_cons in Hs as [Hs Hr]. cbn [span].
  destruct (below (fst r)) eqn:E; [destruct (span below db); exact (IH Hs)|]. cbn. constructor; [exact E|].
  eapply Forall_impl; [|exact Hr]. cbn. intros x Hx. destruct (below (fst x)) eqn:Ex; [|reflexivity].
  rewrite (Hm _ _ Hx Ex) in E. discriminate.
Qed.
Lemma bltb_false a b : bltb a b = false <-> ble b a.
Proof. rewrite <- not_blt, <- bltb_true. destruct (bltb a b); split; congruence. Qed.
Lemma bleb_false a b : bleb a b = false <-> blt b a.
Proof. rewrite <- not_ble, <- bleb_true. destruct (bleb a b); split; congruence. Qed.
Lemma lower_hi k db : sorted db -> Forall (fun r => ble k (fst r)) (snd (lower k db)).
Proof.
  intros H. eapply Forall_impl; [|apply span_hi; [|exact H]].
  - cbn. intros r Hr. apply bltb_false, Hr.
  - intros a b Hab. rewrite !bltb_true. intros Hb. eapply blt_trans; eassumption.
Qed.
Lemma lower_lo k db : Forall (fun r => blt (fst r) k) (fst (lower k db)).
Proof. eapply Forall_impl; [|apply span_lo]. cbn. intros r. apply bltb_true. Qed.

(* ---- comparing the prefix ---- *)
Lemma memcmp_seek p z k : z <> [] -> ble (p ++ z) k -> memcmp_eq p k = Ok (starts_with p k).
Proof.
  intros Hz. revert k; induction p as [|x p IH]; intros k H; [reflexivity|].
  destruct k as [|y k]; [destruct H; reflexivity|]. cbn [memcmp_eq starts_with app] in *.
  destruct (Ascii.eqb_spec x y) as [->|Hne].
  - cbn [andb]. apply IH. unfold ble in *. cbn [bcmp] in H. rewrite N.compare_refl in H. exact H.
  - reflexivity.
Qed.
Lemma seek_app c prefix n t : exists z, get_seek c prefix n t = prefix ++ z /\ z <> [].
Proof. unfold get_seek. destruct ((n =? 0) && numeric t); eexists; (split; [reflexivity|discriminate]). Qed.

Lemma walk_ext c n f g rs : forall j st, Forall (fun r => f (fst r) = g (fst r)) rs -> walk c n f rs j st = walk c n g rs j st.
Proof.
  induction rs as [|r rs IH]; intros j st H; [reflexivity|]. inversion H as [|? ? H1 H2]; subst. cbn [walk]. rewrite H1.
  destruct (j <? n); [|reflexivity]. destruct (g (fst r)) as [b| |]; cbn [obind]; try reflexivity.
  destruct b; [|reflexivity]. destruct (copy_response c n r j st) as [st'| |]; cbn [obind]; auto.
Qed.

Lemma body_same c db op n prefix z st : sorted db -> z <> [] -> op <> GETOP_HIGHEST ->
  im_body c db op n prefix (prefix ++ z) = Ok st -> ldb_body c db op n prefix (prefix ++ z) = Ok st.
Proof.
  intros Hs Hz Hop H. unfold im_body, ldb_body in *.
  destruct (op =? GETOP_EQ); [exact H|]. destruct (op =? GETOP_NEXT); [exact H|]. destruct (op =? GETOP_PREV); [exact H|].
  destruct (op =? GETOP_FIRST); [exact H|].
  destruct (op =? GETOP_LAST). { destruct db; [discriminate|exact H]. }
  destruct (op =? GETOP_LOWEST).
  { pose proof (lower_hi (prefix ++ z) db Hs) as Hhi. destruct (snd (lower (prefix ++ z) db)) as [|r hi]; [exact H|].
    rewrite <- H. symmetry. apply walk_ext. eapply Forall_impl; [|exact Hhi]. cbn. intros x Hx. apply (memcmp_seek prefix z); assumption. }
  destruct (N.eqb_spec op GETOP_HIGHEST); [congruence|exact H].
Qed.
Lemma ldb_body_nokey c db op n : op_has_key op = false -> op <> GETOP_HIGHEST -> forall st,
  im_body c db op n [] [] = Ok st -> ldb_body c db op n [] [] = Ok st.
Proof.
  intros Hk Hh st. unfold im_body, ldb_body.
  destruct (N.eqb_spec op GETOP_EQ) as [->|_]; [discriminate Hk|]. destruct (N.eqb_spec op GETOP_NEXT) as [->|_]; [discriminate Hk|].
  destruct (N.eqb_spec op GETOP_PREV) as [->|_]; [discriminate Hk|].
  destruct (op =? GETOP_FIRST); [auto|]. destruct (op =? GETOP_LAST); [destruct db; [discriminate|auto]|].
  destruct (N.eqb_spec op GETOP_LOWEST) as [->|_]; [discriminate Hk|].
  destruct (N.eqb_spec op GETOP_HIGHEST); [congruence|auto].
Qed.

Lemma getop1_same c db i g : sorted db -> oi_op i <> GETOP_HIGHEST ->
  getop1 InMemory c db i = Ok g -> getop1 LevelDB c db i = Ok g.
Proof.
  intros Hs Hop. unfold getop1. intros H. apply obind_ok in H as (st & E & H).
  assert (X : getop_state LevelDB c db i = Ok st); [|rewrite X; exact H]. clear H.
  unfold getop_state in *. destruct (op_has_key (oi_op i)) eqn:Ek; [|apply ldb_body_nokey; assumption].
  destruct (enc_blob c (oi_sub i)) as [es| |]; cbn [obind] in *; try discriminate.
  destruct (enc_blob c (oi_pred i)) as [ep| |]; cbn [obind] in *; try discriminate.
  destruct es as [s|]; [|auto]. cbv zeta in *.
  set (p := match ep with Some p => p | None => [] end) in *.
  destruct (seek_app c (s ++ p) (blen p) (b_type (oi_pred i))) as (z & Ez & Hz). cbn [getop_body] in *.
  rewrite Ez in *. apply body_same; assumption.
Qed.
Lemma bgetop_same c db l : forall r, sorted db -> Forall (fun i => oi_op i <> GETOP_HIGHEST) l ->
  bgetop InMemory c db l = Ok r -> bgetop LevelDB c db l = Ok r.
Proof.
  unfold bgetop. induction l as [|i l IH]; intros r Hs Hl H; [exact H|]. inversion Hl; subst.
  apply omap_cons in H as (y & r' & E1 & E2 & ->). apply omap_cons. exists y, r'.
  split; [apply getop1_same; assumption|]. split; [apply IH; assumption|reflexivity].
Qed.

Lemma im_bput_sorted c l : forall db db' r, sorted db -> im_bput c db l = Ok (db', r) -> sorted db'.
Proof.
  induction l as [|i l IH]; intros db db' r Hs H; [injection H as <- _; exact Hs|]. cbn [im_bput] in H.
  apply obind_ok in H as ([[k v]|] & _ & H); apply obind_ok in H as ([db2 r2] & E & H); injection H as <- _.
  - eapply IH; [|exact E]. apply db_put_sorted, Hs.
  - eapply IH; eassumption.
Qed.
Lemma im_bdel_sorted c l : forall db db' r, sorted db -> im_bdel c db l = Ok (db', r) -> sorted db'.
Proof.
  induction l as [|i l IH]; intros db db' r Hs H; [injection H as <- _; exact Hs|]. cbn [im_bdel] in H.
  apply obind_ok in H as (ok & _ & H).
  assert (X : exists db1 st, sorted db1 /\ match ok with
      | Some k => match db_get k db with Some _ => (db_del k db, ST_OK) | None => (db, ST_ERR) end
      | None => (db, ST_ERR) end = (db1, st)).
  { destruct ok as [k|]; [destruct (db_get k db)|]; eexists _, _; (split; [|reflexivity]); auto using db_del_sorted. }
  destruct X as (db1 & st & Hs1 & X). rewrite X in H. apply obind_ok in H as ([db2 r2] & E & H). injection H as <- _.
  eapply IH; eassumption.
Qed.

Lemma put_hidden c l : forall db db' r, im_bput c db l = Ok (db', r) ->
  Forall2 same_or_hidden r (map (fun i => st_of_put i ST_OK) l).
Proof.
  induction l as [|i l IH]; intros db db' r H; [injection H as _ <-; constructor|]. cbn [im_bput] in H.
  apply obind_ok in H as ([[k v]|] & _ & H); apply obind_ok in H as ([db2 r2] & E & H); injection H as _ <-; cbn [map].
  - constructor; [left; reflexivity|eapply IH, E].
  - constructor; [right; repeat split|eapply IH, E].
Qed.
Lemma del_hidden c l : forall db db' r, im_bdel c db l = Ok (db', r) ->
  Forall2 same_or_hidden r (map (fun i => st_of_del i ST_OK) l).
Proof.
  induction l as [|i l IH]; intros db db' r H; [injection H as _ <-; constructor|]. cbn [im_bdel] in H.
  apply obind_ok in H as (ok & _ & H).
  destruct (match ok with Some k => match db_get k db with Some _ => (db_del k db, ST_OK) | None => (db, ST_ERR) end
            | None => (db, ST_ERR) end) as [db1 st] eqn:X.
  apply obind_ok in H as ([db2 r2] & E & H). injection H as _ <-. cbn [map]. constructor; [|eapply IH, E].
  destruct ok as [k|]; [destruct (db_get k db)|]; injection X as <- <-; [left; reflexivity|right; repeat split..].
Qed.

Lemma run_similar c h : forall rws d1 rs1, sorted rws -> Forall no_highest h ->
  ds_run (mkDs InMemory c true rws []) (map CallReq h) = Ok (d1, rs1) ->
  exists d2 rs2, ds_run (mkDs LevelDB c true rws []) (map CallReq h) = Ok (d2, rs2) /\
    d_rows d1 = d_rows d2 /\ Forall2 similar rs1 rs2.
Proof.
  induction h as [|q h IH]; intros rws d1 rs1 Hs Hn H.
  { injection H as <- <-. eexists _, _. split; [reflexivity|]. split; [reflexivity|constructor]. }
  inversion Hn as [|? ? Hq Hh]; subst. cbn [map ds_run ds_step] in *.
  apply obind_ok in H as ([d' r] & E & H). apply obind_ok in H as ([d'' rs] & E2 & H). injection H as <- <-.
  assert (X : exists rws' r', d' = mkDs InMemory c true rws' [] /\ sorted rws' /\
     operate (mkDs LevelDB c true rws []) q = Ok (mkDs LevelDB c true rws' [], r') /\ similar r r').
  { destruct q as [l|l|l|l|l|l|l|l|l|l]; cbn [no_highest] in Hq; try contradiction.
    - rewrite operate_put in E |- * by reflexivity. cbn [d_kind d_codec d_rows d_hists bput] in *.
      apply obind_ok in E as ([rws' sts] & Eb & E). rewrite track_nil in E. cbn [obind] in E. injection E as <- <-.
      rewrite (bput_rows _ _ _ _ _ Eb). cbn [obind]. rewrite track_nil.
      eexists rws', _. split; [reflexivity|]. split; [eapply im_bput_sorted; eassumption|]. split; [reflexivity|]. eapply put_hidden, Eb.
    - rewrite operate_get in E |- * by reflexivity. cbn [d_codec d_rows] in *. apply obind_ok in E as (g & Eg & E). injection E as <- <-.
      rewrite Eg. eexists rws, _. split; [reflexivity|]. split; [exact Hs|]. split; reflexivity.
    - cbn [operate d_open negb d_codec d_rows d_kind] in *. apply obind_ok in E as (g & Eg & E). injection E as <- <-.
      rewrite (bgetop_same c rws l g Hs Hq Eg). eexists rws, _. split; [reflexivity|]. split; [exact Hs|]. split; reflexivity.
    - rewrite operate_del in E |- * by reflexivity. cbn [d_kind d_codec d_rows d_hists bdel] in *.
      apply obind_ok in E as ([rws' sts] & Eb & E). injection E as <- <-.
      rewrite (bdel_rows _ _ _ _ _ Eb). cbn [obind].
      eexists rws', _. split; [reflexivity|]. split; [eapply im_bdel_sorted; eassumption|]. split; [reflexivity|]. eapply del_hidden, Eb. }
  destruct X as (rws' & r' & -> & Hs' & -> & Hsim). cbn [obind].
  destruct (IH rws' d'' rs Hs' Hh E2) as (d2 & rs2 & -> & Er & Hf). cbn [obind].
  eexists _, _. split; [reflexivity|]. split; [exact Er|]. constructor; assumption.
Qed.
Lemma backends_similar c h d1 rs1 i1 i2 :
  ds_open (ds_new InMemory c) None = Ok i1 -> ds_open (ds_new LevelDB c) None = Ok i2 ->
  Forall no_highest h -> ds_run i1 (map CallReq h) = Ok (d1, rs1) ->
  exists d2 rs2, ds_run i2 (map CallReq h) = Ok (d2, rs2) /\ d_rows d1 = d_rows d2 /\ Forall2 similar rs1 rs2.
Proof.
  intros [= <-] [= <-]. apply run_similar. constructor.
Qed.

(* ---- lifecycle ---- *)
Lemma closed_silent d q : d_open d = false -> data_request q -> operate d q = Ok (d, None).
Proof. intros H. destruct q; cbn [data_request]; try contradiction; intros _; unfold operate; rewrite H; reflexivity. Qed.

Lemma operate_keeps d q d' r : operate d q = Ok (d', r) ->
  d_open d' = d_open d /\ d_kind d' = d_kind d /\ d_codec d' = d_codec d.
Proof.
  intros H. destruct q as [l|l|l|l|l|l|l|l|l|l]; cbn [operate] in H; destruct (d_open d) eqn:Ho; cbn [negb] in H;
    repeat (apply obind_ok in H as (? & ? & H)); repeat match goal with x : (_ * _)%type |- _ => destruct x end;
    repeat (apply obind_ok in H as (? & ? & H)); injection H as <- <-; auto.
Qed.
Lemma write_keeps d d' : write_histograms d = Ok d' -> d_open d' = d_open d /\ d_kind d' = d_kind d /\ d_codec d' = d_codec d
  /\ d_hists d' = d_hists d.
Proof.
  unfold write_histograms. destruct (d_open d) eqn:E; intros H; [apply obind_ok in H as (r & _ & H)|]; injection H as <-; auto.
Qed.
Lemma read_keeps d ns d' k : read_histograms d ns = Ok (d', k) -> d_open d' = d_open d /\ d_kind d' = d_kind d /\ d_codec d' = d_codec d
  /\ d_rows d' = d_rows d.
Proof.
  unfold read_histograms. destruct (d_open d) eqn:E; intros H; [apply obind_ok in H as ([r j] & _ & H)|]; injection H as <- _; auto.
Qed.
Lemma sync_keeps d w d' st : ds_sync d w = Ok (d', st) -> d_open d' = d_open d /\ d_kind d' = d_kind d /\ d_codec d' = d_codec d.
Proof.
  unfold ds_sync. intros H. apply obind_ok in H as (d1 & E & H). injection H as <- _.
  destruct w; [apply write_keeps in E; tauto|injection E as <-; auto].
Qed.
Lemma open_rows d ns d' : ds_open d ns = Ok d' ->
  d_open d' = true /\ d_kind d' = d_kind d /\ d_codec d' = d_codec d /\
  d_rows d' = match d_kind d with InMemory => [] | LevelDB => d_rows d end.
Proof.
  unfold ds_open. destruct ns as [ns|]; intros H; [apply obind_ok in H as ([d1 k] & E & H); apply read_keeps in E as (E1 & E2 & E3 & E4)|];
    injection H as <-; [rewrite E1, E2, E3, E4|]; auto.
Qed.
Lemma read_hists_empty ns hs : read_hists ns [] hs = Ok (hs, 0).
Proof. induction ns as [|n ns IH]; [reflexivity|exact IH]. Qed.
Lemma open_in_memory d ns : d_kind d = InMemory ->
  ds_open d ns = Ok (mkDs InMemory (d_codec d) true [] (d_hists d)).
Proof.
  intros Hk. unfold ds_open, open_impl. rewrite Hk. destruct ns as [ns|]; [|reflexivity].
  unfold read_histograms. cbn [d_open d_rows]. rewrite read_hists_empty. reflexivity.
Qed.

Lemma lifecycle k c l : forall d d' rs, d_kind d = k -> d_codec d = c -> ds_run d l = Ok (d', rs) ->
  d_kind d' = k /\ d_codec d' = c /\ d_open d' = open_after (d_open d) l.
Proof.
  induction l as [|x l IH]; intros d d' rs Hk Hc H; [injection H as <- _; auto|].
  cbn [ds_run] in H. apply obind_ok in H as ([d1 r] & E & H). apply obind_ok in H as ([d2 rs2] & E2 & H). injection H as <- _.
  assert (X : d_kind d1 = k /\ d_codec d1 = c /\ open_after (d_open d) (x :: l) = open_after (d_open d1) l).
  { destruct x; cbn [ds_step open_after] in *.
    - apply obind_ok in E as (d3 & E & E3). injection E3 as <- _. apply open_rows in E as (-> & -> & -> & _). auto.
    - apply obind_ok in E as (d3 & E & E3). injection E3 as <- _. unfold ds_close in E. apply obind_ok in E as ([d4 st] & E & E4).
      injection E4 as <-. apply sync_keeps in E as (_ & E5 & E6). cbn [d_kind d_codec d_open]. rewrite E5, E6. auto.
    - apply operate_keeps in E as (-> & -> & ->). auto.
    - injection E as <- _. auto.
    - apply obind_ok in E as (d3 & E & E3). injection E3 as <- _. apply write_keeps in E as (-> & -> & -> & _). auto.
    - apply obind_ok in E as ([d3 n] & E & E3). injection E3 as <- _. apply read_keeps in E as (-> & -> & -> & _). auto.
    - apply obind_ok in E as ([d3 n] & E & E3). injection E3 as <- _. apply sync_keeps in E as (-> & -> & ->). auto. }
  destruct X as (Hk1 & Hc1 & Hx). rewrite Hx. eapply IH; eassumption.
Qed.

Lemma closed_datastore k c l d rs : ds_run (ds_new k c) l = Ok (d, rs) ->
  d_open d = open_after false l /\
  (open_after false l = false -> forall q, data_request q -> operate d q = Ok (d, None)) /\
  (k = InMemory -> forall names, exists d', ds_open d names = Ok d' /\ d_open d' = true /\ d_rows d' = []).
Proof.
  intros H. destruct (lifecycle k c l (ds_new k c) d rs eq_refl eq_refl H) as (Hk & Hc & Ho). cbn [ds_new d_open] in Ho.
  split; [exact Ho|]. split.
  - intros X q Hq. apply closed_silent; [congruence|exact Hq].
  - intros -> names. rewrite (open_in_memory d names Hk). eauto.
Qed.

(* the responses of a history in which every request came while closed *)
Lemma closed_run k c l : forall d d' rs, d_kind d = k -> d_codec d = c -> ds_run d l = Ok (d', rs) ->
  forall pre q post r, l = pre ++ CallReq q :: post -> nth_error rs (length pre) = Some r ->
  data_request q -> open_after (d_open d) pre = false -> r = None.
Proof.
  induction l as [|x l IH]; intros d d' rs Hk Hc H pre q post r Hl Hr Hq Ho; [destruct pre; discriminate|].
  cbn [ds_run] in H. apply obind_ok in H as ([d1 r1] & E & H). apply obind_ok in H as ([d2 rs2] & E2 & H). injection H as <- <-.
  destruct pre as [|y pre]; cbn [app] in Hl; injection Hl as -> ->.
  - cbn [length nth_error] in Hr. injection Hr as <-. cbn [open_after] in Ho. cbn [ds_step] in E.
    rewrite (closed_silent d q Ho Hq) in E. congruence.
  - cbn [length nth_error] in Hr.
    destruct (lifecycle k c [y] d d1 [r1] Hk Hc) as (Hk1 & Hc1 & Ho1).
    { cbn [ds_run]. rewrite E. reflexivity. }
    eapply (IH d1 d2 rs2 Hk1 Hc1 E2 pre q post r); [reflexivity|exact Hr|exact Hq|].
    rewrite Ho1. destruct y; exact Ho.
Qed.

(* ---- histograms follow the successful PUTs ---- *)
Lemma hist_find_set_same n h hs : hist_find n (hist_set n h hs) = Some h.
Proof.
  induction hs as [|[n' h'] hs IH]; cbn; [rewrite beqb_refl; reflexivity|].
  destruct (beqb n n') eqn:E; cbn; [rewrite beqb_refl; reflexivity|rewrite E; exact IH].
Qed.
Lemma hist_find_set_other n n' h hs : n <> n' -> hist_find n (hist_set n' h hs) = hist_find n hs.
Proof.
  intros Hne. pose proof Hne as Hb. apply beqb_false in Hb. induction hs as [|[n1 h1] hs IH]; cbn; [rewrite Hb; reflexivity|].
  destruct (beqb n' n1) eqn:E; cbn.
  - apply beqb_true in E as <-. rewrite Hb. reflexivity.
  - rewrite IH. reflexivity.
Qed.
Lemma hist_adds_app l1 l2 : forall h h1 h2, hist_adds h l1 = Ok h1 -> hist_adds h1 l2 = Ok h2 -> hist_adds h (l1 ++ l2) = Ok h2.
Proof.
  induction l1 as [|v l1 IH]; intros h h1 h2 H1 H2; [injection H1 as <-; exact H2|].
  cbn [hist_adds app] in *. apply obind_ok in H1 as ([h' b] & E & H1). rewrite E. cbn [obind]. eapply IH; eassumption.
Qed.

Lemma hist_value_spec o v : hist_value o = Ok v -> value_of o = match v with Some x => [x] | None => [] end.
Proof.
  unfold hist_value, value_of. destruct (b_type o =? T_FLOAT).
  - destruct (b_null o || (blen (b_data o) <? N.of_nat 4)); [discriminate|]. cbn [obind]. intros [= <-]. reflexivity.
  - destruct (b_type o =? T_DOUBLE); [|intros [= <-]; reflexivity].
    destruct (b_null o || (blen (b_data o) <? N.of_nat 8)); [discriminate|]. cbn [obind]. intros [= <-]. reflexivity.
Qed.

Lemma track_spec name l : forall hs sts hs', track hs l (map si_status sts) = Ok hs' ->
  match hist_find name hs with
  | Some h => exists h', hist_find name hs' = Some h' /\ hist_adds h (tracked name l sts) = Ok h'
  | None => hist_find name hs' = None
  end.
Proof.
  induction l as [|i l IH]; intros hs sts hs' H.
  { destruct sts; injection H as <-; destruct (hist_find name hs); eauto. }
  destruct sts as [|st sts]; [injection H as <-; destruct (hist_find name hs); eauto|].
  cbn [map] in H. rewrite track_cons in H. apply obind_ok in H as (hs1 & E & H).
  specialize (IH hs1 sts hs' H). cbn [track] in E. apply obind_ok in E as (hs1' & E & E1). injection E1 as ->.
  cbn [tracked].
  assert (X : match hist_find name hs with
    | Some h => exists h1, hist_find name hs1 = Some h1 /\
        hist_adds h (if (si_status st =? Z.of_N DATASTORE_SUCCESS)%Z && feqb (fld (pi_pred i)) (mkField name T_BYTE)
                     then value_of (pi_obj i) else []) = Ok h1
    | None => hist_find name hs1 = None end).
  { unfold feqb, fld. cbn [f_data f_type]. change (Z.of_N DATASTORE_SUCCESS) with ST_OK.
    destruct (si_status st =? ST_OK)%Z; cbn [andb] in *; [|injection E as <-; destruct (hist_find name hs); eauto].
    destruct (b_type (pi_pred i) =? T_BYTE); cbn [andb] in *.
    2:{ injection E as <-. rewrite andb_false_r. destruct (hist_find name hs); eauto. }
    rewrite andb_true_r.
    destruct (hist_find (b_data (pi_pred i)) hs) as [h|] eqn:Ef.
    2:{ injection E as <-. destruct (beqb (b_data (pi_pred i)) name) eqn:Eb; [apply beqb_true in Eb; rewrite <- Eb, Ef; reflexivity|].
        destruct (hist_find name hs); eauto. }
    apply obind_ok in E as (v & Ev & E). rewrite (hist_value_spec _ _ Ev). destruct v as [x|].
    - apply obind_ok in E as ([h' b] & Ea & E). injection E as <-.
      destruct (beqb (b_data (pi_pred i)) name) eqn:Eb.
      + apply beqb_true in Eb as <-. rewrite Ef. exists h'. rewrite hist_find_set_same. split; [reflexivity|].
        cbn [hist_adds]. rewrite Ea. reflexivity.
      + apply beqb_false in Eb. rewrite hist_find_set_other by congruence. destruct (hist_find name hs); eauto.
    - injection E as <-. destruct (beqb (b_data (pi_pred i)) name); destruct (hist_find name hs); eauto. }
  destruct (hist_find name hs) as [h|].
  - destruct X as (h1 & Ef1 & Ea1). rewrite Ef1 in IH. destruct IH as (h' & Ef2 & Ea2). exists h'. split; [exact Ef2|].
    eapply hist_adds_app; eassumption.
  - rewrite X in IH. exact IH.
Qed.

Lemma histograms_track name h : forall d d' rs, ds_run d (map CallReq h) = Ok (d', rs) ->
  match hist_find name (d_hists d) with
  | Some h0 => exists h1, hist_find name (d_hists d') = Some h1 /\ hist_adds h0 (tracked_run name h rs) = Ok h1
  | None => hist_find name (d_hists d') = None
  end.
Proof.
  induction h as [|q h IH]; intros d d' rs H.
  { injection H as <- <-. destruct (hist_find name (d_hists d)); eauto. }
  cbn [map ds_run ds_step] in H. apply obind_ok in H as ([d1 r] & E & H). apply obind_ok in H as ([d2 rs2] & E2 & H). injection H as <- <-.
  specialize (IH _ _ _ E2).
  assert (Other : d_hists d1 = d_hists d -> match q, r with QPut _, Some (RPut _) => False | _, _ => True end ->
    match hist_find name (d_hists d) with
    | Some h0 => exists h1, hist_find name (d_hists d2) = Some h1 /\ hist_adds h0 (tracked_run name (q :: h) (r :: rs2)) = Ok h1
    | None => hist_find name (d_hists d2) = None end).
  { intros Eh Hm. rewrite Eh in IH. replace (tracked_run name (q :: h) (r :: rs2)) with (tracked_run name h rs2); [exact IH|].
    destruct q; try reflexivity. destruct r as [b|]; [destruct b|]; try reflexivity. contradiction. }
  destruct (d_open d) eqn:Ho.
  2:{ destruct q; try (rewrite closed_silent in E by (assumption || exact I); injection E as <- <-; apply Other; [reflexivity|exact I]);
      unfold operate in E; injection E as <- <-; apply Other; try reflexivity; exact I. }
  destruct q as [l|l|l|l|l|l|l|l|l|l].
  - rewrite operate_put in E by exact Ho. apply obind_ok in E as ([db sts] & Eb & E). apply obind_ok in E as (hs & Et & E). injection E as <- <-.
    cbn [with_hists d_hists] in IH. pose proof (track_spec name l _ _ _ Et) as T. cbn [tracked_run].
    destruct (hist_find name (d_hists d)) as [h0|].
    + destruct T as (h1 & Ef & Ea). rewrite Ef in IH. destruct IH as (h2 & Ef2 & Ea2). exists h2. split; [exact Ef2|].
      eapply hist_adds_app; eassumption.
    + rewrite T in IH. exact IH.
  - rewrite operate_get in E by exact Ho. apply obind_ok in E as (g & _ & E). injection E as <- <-. apply Other; [reflexivity|exact I].
  - cbn [operate] in E. rewrite Ho in E. cbn [negb] in E. apply obind_ok in E as (g & _ & E). injection E as <- <-. apply Other; [reflexivity|exact I].
  - rewrite operate_del in E by exact Ho. apply obind_ok in E as ([db g] & _ & E). injection E as <- <-. apply Other; [reflexivity|exact I].
  - cbn [operate] in E. injection E as <- <-. apply Other; [reflexivity|exact I].
  - cbn [operate] in E. injection E as <- <-. apply Other; [reflexivity|exact I].
  - cbn [operate] in E. injection E as <- <-. apply Other; [reflexivity|exact I].
  - cbn [operate] in E. injection E as <- <-. apply Other; [reflexivity|exact I].
  - cbn [operate] in E. injection E as <- <-. apply Other; [reflexivity|exact I].
  - cbn [operate] in E. injection E as <- <-. apply Other; [reflexivity|exact I].
Qed.
