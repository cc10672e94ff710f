(* The sorted map and the refinement of the triple map *)
From Verif Require Import ModelBytes ProofBytes ModelKey ProofKey ModelHist ModelMsg ModelStore ModelGetOp ModelDs SpecStore.
Local Open Scope N_scope.

(* ---- outcomes ---- *)
Lemma obind_ok {A B} (x : outcome A) (f : A -> outcome B) b : obind x f = Ok b -> exists a, x = Ok a /\ f a = Ok b.
Proof. destruct x; cbn; try discriminate. eauto. Qed.
Ltac obind H a E := apply obind_ok in H as (a & E & H).

(* ---- the sorted map ---- *)
Definition sorted (db : rows) : Prop := StronglySorted (fun a b => blt (fst a) (fst b)) db.

Lemma sorted_nil : sorted [].
Proof. constructor. Qed.
Lemma sorted_cons r db : sorted (r :: db) <-> sorted db /\ Forall (fun x => blt (fst r) (fst x)) db.
Proof. split; [intros H; inversion H; subst; auto|intros [H1 H2]; constructor; assumption]. Qed.

Lemma bcmp_lt a b : bcmp a b = Lt -> blt a b.
Proof. auto. Qed.
Lemma bcmp_gt a b : bcmp a b = Gt -> blt b a.
Proof. intros H. unfold blt. rewrite bcmp_antisym, H. reflexivity. Qed.

Lemma db_put_in k v db x : In x (db_put k v db) -> x = (k, v) \/ In x db.
Proof.
  induction db as [|[k' v'] db IH]; cbn; [intuition|].
  destruct (bcmp k k'); cbn; intuition.
Qed.
Lemma db_put_sorted k v db : sorted db -> sorted (db_put k v db).
Proof.
  induction db as [|[k' v'] db IH]; intros H; [repeat constructor|].
  apply sorted_cons in H as [H1 H2]. cbn. destruct (bcmp k k') eqn:E.
  - apply bcmp_eq in E as ->. constructor; assumption.
  - constructor; [constructor; assumption|]. constructor; [exact E|]. eapply Forall_impl; [|exact H2]. cbn. intros x Hx. eapply blt_trans; [exact E|exact Hx].
  - constructor; [apply IH, H1|]. apply Forall_forall. intros x Hx. apply db_put_in in Hx as [->|Hx]; cbn.
    + apply bcmp_gt, E.
    + exact (proj1 (Forall_forall _ _) H2 x Hx).
Qed.
Lemma db_get_above k db : Forall (fun x => blt k (fst x)) db -> db_get k db = None.
Proof.
  induction 1 as [|[k' v'] db H _ IH]; cbn; [reflexivity|]. cbn in H.
  destruct (beqb k k') eqn:E; [|exact IH]. apply beqb_true in E as ->. destruct (blt_irrefl _ H).
Qed.
Lemma db_get_in k v db : sorted db -> db_get k db = Some v <-> In (k, v) db.
Proof.
  induction db as [|[k' v'] db IH]; intros H; [cbn; split; [discriminate|tauto]|].
  apply sorted_cons in H as [H1 H2]. cbn. destruct (beqb k k') eqn:E.
  - apply beqb_true in E as ->. split; [intros [= ->]; auto|intros [[= ->]|Hin]; [reflexivity|]].
    pose proof (proj1 (Forall_forall _ _) H2 _ Hin) as X. cbn in X. destruct (blt_irrefl _ X).
  - rewrite (IH H1). apply beqb_false in E. split; [auto|intros [[= -> ->]|Hin]; [congruence|exact Hin]].
Qed.
Lemma db_get_put_same k v db : db_get k (db_put k v db) = Some v.
Proof.
  induction db as [|[k' v'] db IH]; cbn; [rewrite beqb_refl; reflexivity|].
  destruct (bcmp k k') eqn:E; cbn; rewrite ?beqb_refl; try reflexivity.
  destruct (beqb k k') eqn:E2; [apply beqb_true in E2 as ->; rewrite bcmp_refl in E; discriminate|exact IH].
Qed.
Lemma db_get_put_other k k' v db : k <> k' -> db_get k (db_put k' v db) = db_get k db.
Proof.
  intros H. apply beqb_false in H. induction db as [|[k1 v1] db IH]; cbn; [rewrite H; reflexivity|].
  destruct (bcmp k' k1) eqn:E; cbn; rewrite ?H; try reflexivity.
  - apply bcmp_eq in E as ->. rewrite H. reflexivity.
  - rewrite IH. reflexivity.
Qed.
Lemma db_del_in k db x : In x (db_del k db) -> In x db.
Proof. induction db as [|[k' v'] db IH]; cbn; [tauto|]. destruct (beqb k k'); cbn; intuition. Qed.
Lemma db_del_sorted k db : sorted db -> sorted (db_del k db).
Proof.
  induction db as [|[k' v'] db IH]; intros H; [constructor|].
  apply sorted_cons in H as [H1 H2]. cbn. destruct (beqb k k'); [exact H1|].
  constructor; [apply IH, H1|]. apply Forall_forall. intros x Hx. apply db_del_in in Hx. exact (proj1 (Forall_forall _ _) H2 x Hx).
Qed.
Lemma db_get_del_same k db : sorted db -> db_get k (db_del k db) = None.
Proof.
  induction db as [|[k' v'] db IH]; intros H; [reflexivity|].
  apply sorted_cons in H as [H1 H2]. cbn. destruct (beqb k k') eqn:E; cbn.
  - apply beqb_true in E as ->. apply db_get_above. exact H2.
  - rewrite E. auto.
Qed.
Lemma db_get_del_other k k' db : k <> k' -> db_get k (db_del k' db) = db_get k db.
Proof.
  intros H. induction db as [|[k1 v1] db IH]; cbn; [reflexivity|].
  destruct (beqb k' k1) eqn:E; cbn.
  - apply beqb_true in E as ->. apply beqb_false in H. rewrite H. reflexivity.
  - rewrite IH. reflexivity.
Qed.
Lemma db_del_absent k db : db_get k db = None -> db_del k db = db.
Proof.
  induction db as [|[k' v'] db IH]; cbn; [reflexivity|]. destruct (beqb k k'); [discriminate|]. intros H. rewrite IH by exact H. reflexivity.
Qed.

(* ---- the encoding of a field ---- *)
Lemma enc_lossless c f : lossless c f ->
  (forall null, (null = true -> f_data f = []) -> c_enc c (f_type f) null (f_data f) = Ok (Some (enc c f))) /\
  c_dec c (f_type f) (enc c f) = Ok (Some (f_data f)) /\ blen (enc c f) < 2 ^ 64 /\ f_type f < 256.
Proof.
  intros (e & H1 & H2 & H3 & H4).
  assert (E : enc c f = e).
  { unfold enc. rewrite H1; [reflexivity|]. intros H. unfold blen in H.
    destruct (f_data f); [reflexivity|cbn [List.length] in H; lia]. }
  rewrite E. auto.
Qed.
Lemma enc_field_ok c f : lossless c f -> field_ok (mkField (enc c f) (f_type f)).
Proof. intros H. apply enc_lossless in H as (_ & _ & H3 & H4). split; assumption. Qed.
Lemma enc_inj c f g : lossless c f -> lossless c g -> mkField (enc c f) (f_type f) = mkField (enc c g) (f_type g) -> f = g.
Proof.
  intros Hf Hg E. apply enc_lossless in Hf as (_ & Hf & _), Hg as (_ & Hg & _). injection E as E1 E2.
  rewrite E1, E2 in Hf. rewrite Hf in Hg. injection Hg as Hg. destruct f, g; cbn in *. congruence.
Qed.
Lemma key_inj c s p s' p' : lossless c s -> lossless c p -> lossless c s' -> lossless c p' ->
  key c s p = key c s' p' -> s = s' /\ p = p'.
Proof.
  intros Hs Hp Hs' Hp' E.
  apply sp_to_key_inj in E as [E1 E2]; auto using enc_field_ok.
  split; eapply enc_inj; eassumption.
Qed.

Lemma enc_blob_can c can b : knows c can b -> can b = true -> enc_blob c b = Ok (Some (enc c (fld b))).
Proof.
  intros [H1 H2] E. rewrite E in H2. apply enc_lossless in H2 as (H2 & _). exact (H2 (b_null b) H1).
Qed.
Lemma enc_blob_cannot c can b : knows c can b -> can b = false -> enc_blob c b = Ok None.
Proof. intros [H1 H2] E. rewrite E in H2. exact H2. Qed.

Lemma feqb_eq f g : feqb f g = true <-> f = g.
Proof.
  unfold feqb. rewrite andb_true_iff, beqb_true, N.eqb_eq. destruct f, g; cbn. split; [intros []; congruence|intros [= -> ->]; auto].
Qed.
Lemma feqb_refl f : feqb f f = true.
Proof. apply feqb_eq. reflexivity. Qed.

Lemma tset_same m s p o : tset m s p o s p = o.
Proof. unfold tset. rewrite !feqb_refl. reflexivity. Qed.
Lemma tset_other m s p o s' p' : (s, p) <> (s', p') -> tset m s p o s' p' = m s' p'.
Proof.
  intros H. unfold tset. destruct (feqb s s') eqn:E; [|reflexivity]. destruct (feqb p p') eqn:E2; [|reflexivity].
  apply feqb_eq in E, E2. subst. congruence.
Qed.
Definition tset_cases m s p o s' p' :
  (s = s' /\ p = p' /\ tset m s p o s' p' = o) \/ ((s, p) <> (s', p') /\ tset m s p o s' p' = m s' p').
Proof.
  unfold tset. destruct (feqb s s') eqn:E; [destruct (feqb p p') eqn:E2|].
  - apply feqb_eq in E, E2. left. auto.
  - right. split; [|reflexivity]. intros [= -> ->]. rewrite feqb_refl in E2. discriminate.
  - right. split; [|reflexivity]. intros [= -> ->]. rewrite feqb_refl in E. discriminate.
Qed.

(* ---- rows and map ---- *)
Definition value (c : codec) (o : field) : bytes := append_type (enc c o) (f_type o).
Record agrees (c : codec) (db : rows) (m : tmap) : Prop := mkAgrees {
  ag_sorted : sorted db;
  ag_lossless : forall s p o, m s p = Some o -> lossless c s /\ lossless c p /\ lossless c o;
  ag_in : forall k v, In (k, v) db <-> exists s p o, m s p = Some o /\ k = key c s p /\ v = value c o }.

Lemma agrees_empty c : agrees c [] no_triples.
Proof. constructor; [constructor|discriminate|]. cbn. intros k v. split; [tauto|intros (s & p & o & H & _); discriminate]. Qed.

Lemma agrees_get c db m s p : agrees c db m -> lossless c s -> lossless c p ->
  db_get (key c s p) db = match m s p with Some o => Some (value c o) | None => None end.
Proof.
  intros [Hs Hl Hi] Ls Lp. destruct (db_get (key c s p) db) as [v|] eqn:E.
  - apply (db_get_in _ _ _ Hs) in E. apply Hi in E as (s' & p' & o & Hm & Hk & ->).
    destruct (Hl _ _ _ Hm) as (Ls' & Lp' & _).
    apply key_inj in Hk as [-> ->]; auto. rewrite Hm. reflexivity.
  - destruct (m s p) as [o|] eqn:Em; [|reflexivity]. exfalso.
    assert (In (key c s p, value c o) db) as X by (apply Hi; eauto 6).
    apply (db_get_in _ _ _ Hs) in X. congruence.
Qed.

Lemma agrees_put c db m s p o : agrees c db m -> lossless c s -> lossless c p -> lossless c o ->
  agrees c (db_put (key c s p) (value c o) db) (tset m s p (Some o)).
Proof.
  intros [Hs Hl Hi] Ls Lp Lo. constructor.
  - apply db_put_sorted, Hs.
  - intros s' p' o' H. destruct (tset_cases m s p (Some o) s' p') as [(-> & -> & E)|[_ E]]; rewrite E in H.
    + injection H as ->. auto.
    + eauto.
  - intros k v. rewrite <- db_get_in by (apply db_put_sorted, Hs).
    destruct (bytes_eq_dec k (key c s p)) as [->|Hk].
    + rewrite db_get_put_same. split.
      * intros [= <-]. exists s, p, o. rewrite tset_same. auto.
      * intros (s' & p' & o' & Hm & Hk & ->).
        destruct (tset_cases m s p (Some o) s' p') as [(-> & -> & E)|[Hne E]]; rewrite E in Hm; [congruence|].
        destruct (Hl _ _ _ Hm) as (Ls' & Lp' & _). apply key_inj in Hk as [-> ->]; auto. congruence.
    + rewrite db_get_put_other by exact Hk. rewrite db_get_in by exact Hs. rewrite Hi.
      split; intros (s' & p' & o' & Hm & -> & ->); exists s', p', o'; (split; [|auto]).
      * rewrite tset_other; [exact Hm|]. intros [= -> ->]. congruence.
      * rewrite tset_other in Hm; [exact Hm|]. intros [= -> ->]. congruence.
Qed.

Lemma agrees_del c db m s p : agrees c db m -> lossless c s -> lossless c p ->
  agrees c (db_del (key c s p) db) (tset m s p None).
Proof.
  intros [Hs Hl Hi] Ls Lp. constructor.
  - apply db_del_sorted, Hs.
  - intros s' p' o' H. destruct (tset_cases m s p None s' p') as [(-> & -> & E)|[_ E]]; rewrite E in H; [discriminate|eauto].
  - intros k v. rewrite <- db_get_in by (apply db_del_sorted, Hs).
    destruct (bytes_eq_dec k (key c s p)) as [->|Hk].
    + rewrite db_get_del_same by exact Hs. split; [discriminate|].
      intros (s' & p' & o' & Hm & Hk & ->).
      destruct (tset_cases m s p None s' p') as [(-> & -> & E)|[Hne E]]; rewrite E in Hm; [discriminate|].
      destruct (Hl _ _ _ Hm) as (Ls' & Lp' & _). apply key_inj in Hk as [-> ->]; auto. congruence.
    + rewrite db_get_del_other by exact Hk. rewrite db_get_in by exact Hs. rewrite Hi.
      split; intros (s' & p' & o' & Hm & -> & ->); exists s', p', o'; (split; [|auto]).
      * rewrite tset_other; [exact Hm|]. intros [= -> ->]. congruence.
      * rewrite tset_other in Hm; [exact Hm|]. intros [= -> ->]. congruence.
Qed.

Lemma remove_type_value c o : f_type o < 256 -> remove_type (value c o) = Ok (enc c o, f_type o).
Proof.
  intros H. unfold remove_type, value, append_type.
  assert (E : blen (enc c o ++ le_enc 4 (f_type o)) = blen (enc c o) + 4).
  { rewrite blen_app. unfold blen at 2. rewrite le_enc_length. lia. }
  rewrite E. destruct (N.ltb_spec (blen (enc c o) + 4) 4); [lia|].
  replace (N.to_nat (blen (enc c o) + 4 - 4)) with (length (enc c o)) by (unfold blen; lia).
  rewrite firstn_app_exact, skipn_app_exact, le_dec_enc; [reflexivity|]. cbn. lia.
Qed.

Lemma key_of_can c can s p : knows c can s -> knows c can p ->
  key_of c s p = Ok (if can s && can p then Some (key c (fld s) (fld p)) else None).
Proof.
  intros Hs Hp. unfold key_of, obind2. destruct (can s) eqn:Es; cbn [andb].
  - rewrite (enc_blob_can c can s Hs Es). cbn [obind]. destruct (can p) eqn:Ep.
    + rewrite (enc_blob_can c can p Hp Ep). reflexivity.
    + rewrite (enc_blob_cannot c can p Hp Ep). reflexivity.
  - rewrite (enc_blob_cannot c can s Hs Es). reflexivity.
Qed.
Lemma put_row_can c can i : knows c can (pi_sub i) -> knows c can (pi_pred i) -> knows c can (pi_obj i) ->
  put_row c i = Ok (if can (pi_sub i) && can (pi_pred i) && can (pi_obj i)
                    then Some (key c (fld (pi_sub i)) (fld (pi_pred i)), value c (fld (pi_obj i))) else None).
Proof.
  intros Hs Hp Ho. unfold put_row, obind2.
  destruct (can (pi_sub i)) eqn:Es; cbn [andb]; [|rewrite (enc_blob_cannot c can _ Hs Es); reflexivity].
  rewrite (enc_blob_can c can _ Hs Es). cbn [obind].
  destruct (can (pi_pred i)) eqn:Ep; cbn [andb]; [|rewrite (enc_blob_cannot c can _ Hp Ep); reflexivity].
  rewrite (enc_blob_can c can _ Hp Ep). cbn [obind].
  destruct (can (pi_obj i)) eqn:Eo; [rewrite (enc_blob_can c can _ Ho Eo)|rewrite (enc_blob_cannot c can _ Ho Eo)]; reflexivity.
Qed.
Lemma knows_lossless c can b : knows c can b -> can b = true -> lossless c (fld b).
Proof. intros [_ H] E. rewrite E in H. exact H. Qed.

Lemma im_bput_refines c can l : forall db m, agrees c db m ->
  Forall (fun i => knows c can (pi_sub i) /\ knows c can (pi_pred i) /\ knows c can (pi_obj i)) l ->
  exists db', im_bput c db l = Ok (db', snd (spec_puts can m l)) /\ agrees c db' (fst (spec_puts can m l)).
Proof.
  induction l as [|i l IH]; intros db m Ha H; [exists db; auto|].
  inversion H as [|? ? (Hs & Hp & Ho) Hl]; subst. cbn [im_bput].
  rewrite (put_row_can c can i Hs Hp Ho). cbn [obind]. destruct i as [s sa p pa o]; cbn [pi_sub pi_pred pi_obj] in *.
  cbn [spec_puts].
  destruct (can s && can p && can o) eqn:E.
  - assert (can s = true /\ can p = true /\ can o = true) as (Es & Ep & Eo) by (destruct (can s), (can p), (can o); auto).
    destruct (IH _ _ (agrees_put c db m (fld s) (fld p) (fld o) Ha (knows_lossless _ _ _ Hs Es)
      (knows_lossless _ _ _ Hp Ep) (knows_lossless _ _ _ Ho Eo)) Hl) as (db' & E1 & E2).
    exists db'. destruct (spec_puts can (tset m (fld s) (fld p) (Some (fld o))) l) as [m' r] eqn:Esp. cbn [fst snd] in *.
    rewrite E1. cbn. auto.
  - destruct (IH db m Ha Hl) as (db' & E1 & E2). exists db'.
    destruct (spec_puts can m l) as [m' r] eqn:Esp. cbn [fst snd] in *. rewrite E1. cbn. auto.
Qed.

Lemma ldb_bput_im c db l :
  (exists e, ldb_bput c db l = e /\ (e = UB \/ e = Throw) /\ im_bput c db l = e) \/
  exists db' sts, im_bput c db l = Ok (db', sts) /\ ldb_bput c db l = Ok (db', map (fun i => st_of_put i ST_OK) l).
Proof.
  unfold ldb_bput. revert db; induction l as [|i l IH]; intros db; cbn [ldb_batch im_bput obind].
  - right. eauto.
  - destruct (put_row c i) as [kv| |] eqn:E; cbn [obind]; [|left; eauto|left; eauto].
    assert (X : forall kv', kv = kv' -> apply_puts match kv' with Some x => [x] | None => [] end db =
        match kv' with Some (k, v) => db_put k v db | None => db end) by (intros [[k v]|] _; reflexivity).
    set (db1 := match kv with Some (k, v) => db_put k v db | None => db end).
    specialize (IH db1).
    assert (Y : match kv with Some (k, v) => (db_put k v db, ST_OK) | None => (db, ST_ERR) end =
                (db1, match kv with Some _ => ST_OK | None => ST_ERR end)) by (unfold db1; destruct kv as [[]|]; reflexivity).
    rewrite Y. destruct (ldb_batch c l) as [b| |] eqn:Eb; cbn [obind] in *.
    + destruct IH as [(e & He & [->| ->] & He2)|(db' & sts & H1 & H2)]; try discriminate.
      injection H2 as H2. right. exists db'. rewrite H1. cbn [obind]. eexists. split; [reflexivity|].
      f_equal. f_equal. rewrite <- H2. unfold db1. destruct kv as [[]|]; reflexivity.
    + destruct IH as [(e & <- & _ & He2)|(db' & sts & H1 & H2)]; [|discriminate]. left. exists Throw. rewrite He2. cbn. auto.
    + destruct IH as [(e & <- & _ & He2)|(db' & sts & H1 & H2)]; [|discriminate]. left. exists UB. rewrite He2. cbn. auto.
Qed.

Lemma bget1_spec c can db m i : agrees c db m -> knows c can (gi_sub i) -> knows c can (gi_pred i) ->
  bget1 c db i = Ok (spec_get can m i).
Proof.
  intros Ha Hs Hp. unfold bget1, get_obj, obind2. rewrite (key_of_can c can _ _ Hs Hp). cbn [obind].
  destruct i as [s sa p pa ty]; cbn [gi_sub gi_pred gi_sub_addr gi_pred_addr] in *. unfold spec_get.
  destruct (can s && can p) eqn:E; [|reflexivity].
  apply andb_true_iff in E as [Es Ep].
  rewrite (agrees_get c db m _ _ Ha (knows_lossless _ _ _ Hs Es) (knows_lossless _ _ _ Hp Ep)).
  destruct (m (fld s) (fld p)) as [o|] eqn:Em; [|reflexivity].
  destruct (ag_lossless c db m Ha _ _ _ Em) as (_ & _ & Lo). apply enc_lossless in Lo as (_ & L2 & _ & L4).
  rewrite (remove_type_value c o L4). cbn [obind]. rewrite L2. reflexivity.
Qed.
Lemma bget_spec c can db m l : agrees c db m -> Forall (fun i => knows c can (gi_sub i) /\ knows c can (gi_pred i)) l ->
  bget c db l = Ok (map (spec_get can m) l).
Proof.
  intros Ha. unfold bget. induction 1 as [|i l [Hs Hp] _ IH]; [reflexivity|]. cbn [omap map].
  rewrite (bget1_spec c can db m i Ha Hs Hp), IH. reflexivity.
Qed.

Lemma im_bdel_refines c can l : forall db m, agrees c db m ->
  Forall (fun i => knows c can (di_sub i) /\ knows c can (di_pred i)) l ->
  exists db', im_bdel c db l = Ok (db', snd (spec_dels can m l)) /\ agrees c db' (fst (spec_dels can m l)).
Proof.
  induction l as [|i l IH]; intros db m Ha H; [exists db; auto|].
  inversion H as [|? ? (Hs & Hp) Hl]; subst. cbn [im_bdel].
  rewrite (key_of_can c can _ _ Hs Hp). cbn [obind]. destruct i as [s sa p pa]; cbn [di_sub di_pred] in *. cbn [spec_dels].
  destruct (can s && can p) eqn:E; cbn [andb].
  - apply andb_true_iff in E as [Es Ep]. pose proof (knows_lossless _ _ _ Hs Es) as Ls. pose proof (knows_lossless _ _ _ Hp Ep) as Lp.
    rewrite (agrees_get c db m _ _ Ha Ls Lp). destruct (m (fld s) (fld p)) as [o|] eqn:Em.
    + destruct (IH _ _ (agrees_del c db m _ _ Ha Ls Lp) Hl) as (db' & E1 & E2). exists db'.
      destruct (spec_dels can (tset m (fld s) (fld p) None) l) as [m' r] eqn:Esp. cbn [fst snd] in *. rewrite E1. cbn. auto.
    + destruct (IH db m Ha Hl) as (db' & E1 & E2). exists db'.
      destruct (spec_dels can m l) as [m' r] eqn:Esp. cbn [fst snd] in *. rewrite E1. cbn. auto.
  - destruct (IH db m Ha Hl) as (db' & E1 & E2). exists db'.
    destruct (spec_dels can m l) as [m' r] eqn:Esp. cbn [fst snd] in *. rewrite E1. cbn. auto.
Qed.

Lemma ldb_bdel_im c db l :
  (exists e, ldb_bdel c db l = e /\ (e = UB \/ e = Throw) /\ im_bdel c db l = e) \/
  exists db' sts, im_bdel c db l = Ok (db', sts) /\ ldb_bdel c db l = Ok (db', map (fun i => st_of_del i ST_OK) l).
Proof.
  unfold ldb_bdel. revert db; induction l as [|i l IH]; intros db; cbn [ldb_dels im_bdel obind].
  - right. eauto.
  - destruct (key_of c (di_sub i) (di_pred i)) as [ok| |] eqn:E; cbn [obind]; [|left; eauto|left; eauto].
    set (db1 := match ok with Some k => db_del k db | None => db end).
    assert (Y : exists st, match ok with
        | Some k => match db_get k db with Some _ => (db_del k db, ST_OK) | None => (db, ST_ERR) end
        | None => (db, ST_ERR) end = (db1, st)).
    { unfold db1. destruct ok as [k|]; [|eauto]. destruct (db_get k db) eqn:Eg; [eauto|]. rewrite (db_del_absent k db Eg). eauto. }
    destruct Y as [st Y]. rewrite Y. specialize (IH db1).
    destruct (ldb_dels c l) as [b| |] eqn:Eb; cbn [obind] in *.
    + destruct IH as [(e & He & [->| ->] & He2)|(db' & sts & H1 & H2)]; try discriminate.
      injection H2 as H2. right. exists db'. rewrite H1. cbn [obind]. eexists. split; [reflexivity|].
      f_equal. f_equal. rewrite <- H2. unfold db1. destruct ok as [k|]; reflexivity.
    + destruct IH as [(e & <- & _ & He2)|(db' & sts & H1 & H2)]; [|discriminate]. left. exists Throw. rewrite He2. cbn. auto.
    + destruct IH as [(e & <- & _ & He2)|(db' & sts & H1 & H2)]; [|discriminate]. left. exists UB. rewrite He2. cbn. auto.
Qed.
