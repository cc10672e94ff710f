(* The datastore object: histories, bulk requests, backends, lifecycle, histograms *)
From Verif Require Import ModelBytes ProofBytes ModelKey ProofKey ModelHist ModelMsg ModelStore ModelGetOp ModelDs SpecStore ProofStore.
Local Open Scope N_scope.

Lemma track_nil l : forall sts, track [] l sts = Ok [].
Proof.
  induction l as [|i l IH]; intros [|st sts]; cbn [track]; try reflexivity.
  destruct ((st =? ST_OK)%Z && (b_type (pi_pred i) =? T_BYTE)); cbn [hist_find obind]; apply IH.
Qed.

Lemma operate_put d l : d_open d = true ->
  operate d (QPut l) = do (r, sts) <- bput (d_kind d) (d_codec d) (d_rows d) l;
                       do hs <- track (d_hists d) l (map si_status sts);
                       Ok (with_hists (with_rows d r) hs, Some (RPut sts)).
Proof.
  intros H. unfold operate. rewrite H. cbn [negb].
  destruct (bput (d_kind d) (d_codec d) (d_rows d) l) as [[r sts]| |]; cbn [obind]; try reflexivity.
  destruct (d_hists d); [rewrite track_nil|]; reflexivity.
Qed.

Definition opened (k : backend) (c : codec) : ds := mkDs k c true [] [].
Lemma open_new k c : ds_open (ds_new k c) None = Ok (opened k c).
Proof. destruct k; reflexivity. Qed.

(* ---- the in-memory datastore refines the map ---- *)
Lemma operate_refines c can q rws m : req_fits c can q -> agrees c rws m ->
  exists rws', operate (mkDs InMemory c true rws []) q = Ok (mkDs InMemory c true rws' [], Some (snd (spec_req can m q)))
            /\ agrees c rws' (fst (spec_req can m q)).
Proof.
  intros Hq Ha. destruct q as [l|l|l|l|l|l|l|l|l|l]; cbn [req_fits] in Hq; try contradiction; unfold spec_req.
  - rewrite operate_put by reflexivity. cbn [d_kind d_codec d_rows d_hists bput].
    destruct (im_bput_refines c can l rws m Ha Hq) as (rws' & E & Ha'). rewrite E. cbn [obind]. rewrite track_nil.
    cbn [obind]. destruct (spec_puts can m l) as [m' r]. exists rws'. split; [reflexivity|exact Ha'].
  - cbn [operate d_open negb d_codec d_rows]. rewrite (bget_spec c can rws m l Ha Hq). exists rws. split; [reflexivity|exact Ha].
  - cbn [operate d_open negb d_codec d_rows d_kind bdel].
    destruct (im_bdel_refines c can l rws m Ha Hq) as (rws' & E & Ha'). rewrite E. cbn [obind].
    destruct (spec_dels can m l) as [m' r]. exists rws'. split; [reflexivity|exact Ha'].
Qed.

Lemma run_refines c can h : forall rws m, Forall (req_fits c can) h -> agrees c rws m ->
  exists rws', ds_run (mkDs InMemory c true rws []) (map CallReq h)
             = Ok (mkDs InMemory c true rws' [], map Some (snd (spec_run can m h)))
            /\ agrees c rws' (fst (spec_run can m h)).
Proof.
  induction h as [|q h IH]; intros rws m H Ha; [exists rws; auto|].
  inversion H as [|? ? Hq Hh]; subst. cbn [map ds_run ds_step].
  destruct (operate_refines c can q rws m Hq Ha) as (rws1 & E1 & Ha1). rewrite E1. cbn [obind].
  cbn [spec_run]. destruct (spec_req can m q) as [m1 r]. cbn [fst snd] in *.
  destruct (IH rws1 m1 Hh Ha1) as (rws' & E2 & Ha'). rewrite E2. cbn [obind].
  exists rws'. destruct (spec_run can m1 h) as [m2 rs]. split; [reflexivity|exact Ha'].
Qed.

Lemma in_memory_is_map c can h : Forall (req_fits c can) h ->
  exists d0 d, ds_open (ds_new InMemory c) None = Ok d0 /\
    ds_run d0 (map CallReq h) = Ok (d, map Some (snd (spec_run can no_triples h))).
Proof.
  intros H. destruct (run_refines c can h [] no_triples H (agrees_empty c)) as (rws & E & _).
  exists (opened InMemory c), (mkDs InMemory c true rws []). split; [apply open_new|exact E].
Qed.

(* ---- the other backend keeps the same rows ---- *)
Lemma bput_rows c db l db' r : im_bput c db l = Ok (db', r) ->
  ldb_bput c db l = Ok (db', map (fun i => st_of_put i ST_OK) l).
Proof.
  intros H. destruct (ldb_bput_im c db l) as [(e & _ & [->| ->] & E)|(db1 & sts & E1 & E2)]; try congruence.
Qed.
Lemma bdel_rows c db l db' r : im_bdel c db l = Ok (db', r) ->
  ldb_bdel c db l = Ok (db', map (fun i => st_of_del i ST_OK) l).
Proof.
  intros H. destruct (ldb_bdel_im c db l) as [(e & _ & [->| ->] & E)|(db1 & sts & E1 & E2)]; try congruence.
Qed.

Lemma operate_rows k c can q rws m : req_fits c can q -> agrees c rws m ->
  exists rws' r, operate (mkDs k c true rws []) q = Ok (mkDs k c true rws' [], Some r)
            /\ agrees c rws' (fst (spec_req can m q)).
Proof.
  intros Hq Ha. destruct k; [destruct (operate_refines c can q rws m Hq Ha) as (rws' & E & A); eauto|].
  destruct q as [l|l|l|l|l|l|l|l|l|l]; cbn [req_fits] in Hq; try contradiction; unfold spec_req.
  - rewrite operate_put by reflexivity. cbn [d_kind d_codec d_rows d_hists bput].
    destruct (im_bput_refines c can l rws m Ha Hq) as (rws' & E & Ha'). rewrite (bput_rows _ _ _ _ _ E). cbn [obind].
    rewrite track_nil. cbn [obind]. destruct (spec_puts can m l) as [m' r]. eexists rws', _. split; [reflexivity|exact Ha'].
  - cbn [operate d_open negb d_codec d_rows]. rewrite (bget_spec c can rws m l Ha Hq). eexists rws, _. split; [reflexivity|exact Ha].
  - cbn [operate d_open negb d_codec d_rows d_kind bdel].
    destruct (im_bdel_refines c can l rws m Ha Hq) as (rws' & E & Ha'). rewrite (bdel_rows _ _ _ _ _ E). cbn [obind].
    destruct (spec_dels can m l) as [m' r]. eexists rws', _. split; [reflexivity|exact Ha'].
Qed.
Lemma run_rows k c can h : forall rws m, Forall (req_fits c can) h -> agrees c rws m ->
  exists rws' rs, ds_run (mkDs k c true rws []) (map CallReq h) = Ok (mkDs k c true rws' [], rs)
            /\ agrees c rws' (fst (spec_run can m h)).
Proof.
  induction h as [|q h IH]; intros rws m H Ha; [exists rws, []; auto|].
  inversion H as [|? ? Hq Hh]; subst. cbn [map ds_run ds_step].
  destruct (operate_rows k c can q rws m Hq Ha) as (rws1 & r & E1 & Ha1). rewrite E1. cbn [obind].
  cbn [spec_run]. destruct (spec_req can m q) as [m1 r1]. cbn [fst snd] in *.
  destruct (IH rws1 m1 Hh Ha1) as (rws' & rs & E2 & Ha'). rewrite E2. cbn [obind].
  exists rws', (Some r :: rs). destruct (spec_run can m1 h) as [m2 rs2]. split; [reflexivity|exact Ha'].
Qed.

Lemma reached_agrees k c d m : reached k c d m -> exists rws, d = mkDs k c true rws [] /\ agrees c rws m.
Proof.
  intros (can & h & d0 & rs & Hf & Ho & Hr & ->). rewrite open_new in Ho. injection Ho as <-.
  destruct (run_rows k c can h [] no_triples Hf (agrees_empty c)) as (rws' & rs' & E & Ha).
  change (mkDs k c true [] []) with (opened k c) in E. rewrite E in Hr. injection Hr as <- <-. eauto.
Qed.

(* ---- DELETE ---- *)
Lemma spec_puts_other can s p l : forall m, (forall i, In i l -> ~ (fld (pi_sub i) = fld s /\ fld (pi_pred i) = fld p)) ->
  fst (spec_puts can m l) (fld s) (fld p) = m (fld s) (fld p).
Proof.
  induction l as [|[s1 sa p1 pa o] l IH]; intros m H; [reflexivity|]. cbn [spec_puts].
  set (m1 := if can s1 && can p1 && can o then tset m (fld s1) (fld p1) (Some (fld o)) else m).
  assert (E : m1 (fld s) (fld p) = m (fld s) (fld p)).
  { unfold m1. destruct (can s1 && can p1 && can o); [|reflexivity]. apply tset_other.
    intros [= A B C D]. apply (H (mkPut s1 sa p1 pa o)); [left; reflexivity|]. cbn [pi_sub pi_pred]. unfold fld. split; congruence. }
  specialize (IH m1 (fun i Hi => H i (or_intror Hi))). destruct (spec_puts can m1 l) as [m' r]. cbn [fst] in *. congruence.
Qed.
Lemma spec_dels_none can s p l : forall m, m (fld s) (fld p) = None -> fst (spec_dels can m l) (fld s) (fld p) = None.
Proof.
  induction l as [|[s1 sa p1 pa] l IH]; intros m H; [exact H|]. cbn [spec_dels].
  set (b := can s1 && can p1 && _). set (m1 := if b then tset m (fld s1) (fld p1) None else m).
  assert (E : m1 (fld s) (fld p) = None).
  { unfold m1. destruct b; [|exact H]. destruct (tset_cases m (fld s1) (fld p1) None (fld s) (fld p)) as [(_ & _ & ->)|[_ ->]]; auto. }
  specialize (IH m1 E). destruct (spec_dels can m1 l) as [m' r]. exact IH.
Qed.
Lemma spec_run_none can s p h : forall m, m (fld s) (fld p) = None -> Forall (fun q => ~ names s p q) h ->
  fst (spec_run can m h) (fld s) (fld p) = None.
Proof.
  induction h as [|q h IH]; intros m H Hn; [exact H|]. inversion Hn as [|? ? Hq Hh]; subst. cbn [spec_run].
  assert (E : fst (spec_req can m q) (fld s) (fld p) = None).
  { unfold spec_req. destruct q; try exact H.
    - pose proof (spec_puts_other can s p l m) as X. destruct (spec_puts can m l) as [m' r]. cbn [fst] in *. rewrite X; [exact H|].
      intros i Hi [A B]. apply Hq. exists i. auto.
    - pose proof (spec_dels_none can s p l m H) as X. destruct (spec_dels can m l) as [m' r]. exact X. }
  destruct (spec_req can m q) as [m1 r]. cbn [fst] in E. specialize (IH m1 E Hh).
  destruct (spec_run can m1 h) as [m2 rs]. exact IH.
Qed.

Lemma get_one c d m s sa p pa ty rws : d = mkDs InMemory c true rws [] -> agrees c rws m -> storable c s -> storable c p ->
  operate d (QGet [mkGet s sa p pa ty]) = Ok (d, Some (RGet [spec_get all_can m (mkGet s sa p pa ty)])).
Proof.
  intros -> Ha Hs Hp. cbn [operate d_open negb d_codec d_rows].
  rewrite (bget_spec c all_can rws m _ Ha); [reflexivity|]. constructor; [auto|constructor].
Qed.

Lemma delete_spec c d m s sa p pa : reached InMemory c d m -> storable c s -> storable c p ->
  let refs st := answer st sa s pa p in
  exists d' st, operate d (QDel [mkDel s sa p pa]) = Ok (d', Some (RDel [refs st]))
    /\ (m (fld s) (fld p) <> None -> st = DATASTORE_SUCCESS)
    /\ (m (fld s) (fld p) = None -> st = DATASTORE_ERROR /\ d' = d)
    /\ (forall can h d2 rs ty, Forall (req_fits c can) h -> Forall (fun q => ~ names s p q) h ->
          ds_run d' (map CallReq h) = Ok (d2, rs) ->
          operate d2 (QGet [mkGet s sa p pa ty]) =
          Ok (d2, Some (RGet [mkGot (Z.of_N DATASTORE_ERROR) (si_sub (refs 0)) (si_pred (refs 0)) blob_none])))
    /\ (forall s' sa' p' pa' ty, storable c s' -> storable c p' -> (fld s', fld p') <> (fld s, fld p) ->
          exists r, operate d (QGet [mkGet s' sa' p' pa' ty]) = Ok (d, Some r)
                 /\ operate d' (QGet [mkGet s' sa' p' pa' ty]) = Ok (d', Some r)).
Proof.
  intros Hr Hs Hp refs. destruct (reached_agrees _ _ _ _ Hr) as (rws & -> & Ha).
  destruct (operate_refines c all_can (QDel [mkDel s sa p pa]) rws m) as (rws' & E & Ha'); [repeat constructor; auto; apply Hs || apply Hp|exact Ha|].
  cbn [spec_req spec_dels all_can andb] in E, Ha'.
  set (there := match m (fld s) (fld p) with Some _ => true | None => false end) in *.
  cbn [fst snd] in E, Ha'.
  assert (Hnone : (if there then tset m (fld s) (fld p) None else m) (fld s) (fld p) = None).
  { unfold there. destruct (m (fld s) (fld p)) eqn:Em; [apply tset_same|exact Em]. }
  eexists _, (if there then DATASTORE_SUCCESS else DATASTORE_ERROR). split; [exact E|].
  split; [unfold there; destruct (m (fld s) (fld p)); [reflexivity|congruence]|].
  split. { intros Em. unfold there. rewrite Em. split; [reflexivity|].
    cbn [operate d_open negb d_codec d_rows d_kind bdel im_bdel] in E. cbn [di_sub di_pred] in E.
    rewrite (key_of_can c all_can s p Hs Hp) in E. cbn [all_can andb obind] in E.
    rewrite (agrees_get c rws m _ _ Ha (knows_lossless c all_can s Hs eq_refl) (knows_lossless c all_can p Hp eq_refl)), Em in E.
    cbn [obind] in E. injection E as E _. cbn in E. congruence. }
  split.
  - intros can h d2 rs ty Hf Hn Hrun.
    destruct (run_rows InMemory c can h rws' _ Hf Ha') as (rws2 & rs2 & E2 & Ha2).
    rewrite E2 in Hrun. injection Hrun as <- <-.
    rewrite (get_one c _ _ s sa p pa ty rws2 eq_refl Ha2 Hs Hp). unfold spec_get. cbn [all_can andb].
    rewrite (spec_run_none can s p h _ Hnone Hn). reflexivity.
  - intros s' sa' p' pa' ty Hs' Hp' Hne. eexists. rewrite (get_one c _ m s' sa' p' pa' ty rws eq_refl Ha Hs' Hp').
    split; [reflexivity|]. rewrite (get_one c _ _ s' sa' p' pa' ty rws' eq_refl Ha' Hs' Hp'). do 2 f_equal.
    unfold spec_get. cbn [all_can andb].
    destruct there; [|reflexivity]. rewrite tset_other by congruence. reflexivity.
Qed.
