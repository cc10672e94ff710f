(* Bytes stored, bytes of GETOPs, times *)
From Verif Require Import ModelBytes ProofBytes ModelKey ModelWire ModelHist ModelMsg ModelStore ProofStore ModelGetOp ModelDs ModelElen ModelFloat ModelRoute
  SpecRoute SpecClient ModelClient ModelStats SpecStats ModelDsStats SpecDsStats ProofDsStats ProofDsStats2.
Local Open Scope N_scope.

Lemma stored_cons r db : bytes_stored (r :: db) = row_size r + bytes_stored db. Proof. reflexivity. Qed.
Lemma db_put_bytes k v db : bytes_stored (db_put k v db) <= bytes_stored db + row_size (k, v).
Proof.
  induction db as [|[k' v'] db IH]; cbn [db_put]; [rewrite stored_cons; change (bytes_stored []) with 0; lia|].
  destruct (bcmp k k'); rewrite !stored_cons; lia.
Qed.
Lemma db_del_bytes k db : bytes_stored (db_del k db) <= bytes_stored db.
Proof. induction db as [|[k' v'] db IH]; cbn [db_del]; [lia|]. destruct (beqb k k'); rewrite !stored_cons; lia. Qed.

Lemma im_bput_bytes c : forall l db db' sts, im_bput c db l = Ok (db', sts) ->
  bytes_stored db' <= bytes_stored db + sumN (map (triple_bytes c) l).
Proof.
  induction l as [|i l IH]; intros db db' sts H; cbn [im_bput] in H.
  - apply Ok_inj in H as [= <- <-]. cbn. lia.
  - obind H kv Er. pose proof (put_row_bytes c i kv Er) as B. cbn [map sumN fold_right]. change (fold_right N.add 0) with sumN.
    destruct kv as [[k v]|].
    + obind H y Ey. destruct y as [db2 r]. apply Ok_inj in H as [= <- <-]. apply IH in Ey. pose proof (db_put_bytes k v db). lia.
    + obind H y Ey. destruct y as [db2 r]. apply Ok_inj in H as [= <- <-]. apply IH in Ey. lia.
Qed.
Lemma ldb_batch_bytes c : forall l b, ldb_batch c l = Ok b -> bytes_stored b = sumN (map (triple_bytes c) l).
Proof.
  induction l as [|i l IH]; intros b H; cbn [ldb_batch] in H.
  - apply Ok_inj in H as <-. reflexivity.
  - obind H kv Er. obind H r Ez. apply Ok_inj in H as <-. pose proof (put_row_bytes c i kv Er) as B. apply IH in Ez.
    cbn [map sumN fold_right]. change (fold_right N.add 0) with sumN. destruct kv as [x|]; [rewrite stored_cons|]; lia.
Qed.
Lemma apply_puts_bytes : forall b db, bytes_stored (apply_puts b db) <= bytes_stored db + bytes_stored b.
Proof.
  unfold apply_puts. induction b as [|[k v] b IH]; intros db; cbn [fold_left]; [lia|].
  specialize (IH (db_put k v db)). pose proof (db_put_bytes k v db). cbn [fst snd] in *. rewrite stored_cons. lia.
Qed.
Lemma bput_bytes k c db l db' sts : bput k c db l = Ok (db', sts) -> bytes_stored db' <= bytes_stored db + sumN (map (triple_bytes c) l).
Proof.
  destruct k; cbn [bput]; intros H; [eapply im_bput_bytes; eassumption|].
  unfold ldb_bput in H. obind H b Eb. apply Ok_inj in H as [= <- <-]. apply ldb_batch_bytes in Eb. pose proof (apply_puts_bytes b db). lia.
Qed.
Lemma bdel_bytes k c db l db' sts : bdel k c db l = Ok (db', sts) -> bytes_stored db' <= bytes_stored db.
Proof.
  destruct k; cbn [bdel]; intros H.
  - revert db db' sts H. induction l as [|i l IH]; intros db db' sts H; cbn [im_bdel] in H; [apply Ok_inj in H as [= <- <-]; lia|].
    obind H ok Ek. destruct ok as [key|].
    + destruct (db_get key db); obind H y Ey; destruct y as [db2 r]; apply Ok_inj in H as [= <- <-]; apply IH in Ey; pose proof (db_del_bytes key db); lia.
    + obind H y Ey; destruct y as [db2 r]; apply Ok_inj in H as [= <- <-]; apply IH in Ey; lia.
  - unfold ldb_bdel in H. obind H b Eb. apply Ok_inj in H as [= <- <-]. clear Eb. revert db. induction b as [|x b IH]; intros db; cbn [fold_left]; [lia|].
    specialize (IH (db_del x db)). pose proof (db_del_bytes x db). lia.
Qed.

Lemma step_bytes d st x ts d' r st' : tstep d st (x, ts) = Ok (d', r, st') -> no_hist_write x ->
  bytes_stored (d_rows d') <= bytes_stored (d_rows d) + bytes_put (d_codec d) (answered [(x, ts)] [r]).
Proof.
  unfold tstep. cbn [fst snd]. intros H Q. obind H y Ey. obind H z Ez. apply Ok_inj in H as [= -> ->].
  destruct x as [ns|w|q|n h| |ns|w]; cbn [ds_step] in Ey.
  - obind Ey d2 E. apply Ok_inj in Ey as [= <- <-].
    assert (E' : d_rows d2 = match d_kind d with InMemory => [] | LevelDB => d_rows d end).
    { unfold ds_open in E. destruct ns as [ns|]; [|apply Ok_inj in E as <-; reflexivity].
      unfold read_histograms in E. cbn [open_impl d_open] in E. obind E y E2. destruct y as [y k]. apply Ok_inj in E as <-. obind E2 w E3. destruct w. apply Ok_inj in E2 as [= <- <-]. reflexivity. }
    rewrite E'. destruct (d_kind d); [change (bytes_stored []) with 0|]; lia.
  - destruct w; [destruct Q|]. obind Ey d2 E. apply Ok_inj in Ey as [= <- <-]. unfold ds_close, ds_sync in E. cbn [obind] in E. apply Ok_inj in E as <-.
    cbn [d_rows d_kind]. destruct (d_kind d); [change (bytes_stored []) with 0|]; lia.
  - unfold operate in Ey. destruct q as [l|l|l|l|l|l|l|l|l|l]; try (apply Ok_inj in Ey as [= <- <-]; lia).
    + destruct (d_open d); cbn [negb] in Ey; [|apply Ok_inj in Ey as [= <- <-]; lia].
      obind Ey y2 E2. destruct y2 as [y2 sts]. obind Ey hs Eh. apply Ok_inj in Ey as [= <- <-]. apply bput_bytes in E2.
      cbn [with_hists with_rows d_rows]. unfold bytes_put, answered. cbn [combine flat_map app put_items]. rewrite app_nil_r. exact E2.
    + destruct (d_open d); cbn [negb] in Ey; [|apply Ok_inj in Ey as [= <- <-]; lia]. obind Ey y2 E2. apply Ok_inj in Ey as [= <- <-]. lia.
    + destruct (d_open d); cbn [negb] in Ey; [|apply Ok_inj in Ey as [= <- <-]; lia]. obind Ey y2 E2. apply Ok_inj in Ey as [= <- <-]. lia.
    + destruct (d_open d); cbn [negb] in Ey; [|apply Ok_inj in Ey as [= <- <-]; lia].
      obind Ey y2 E2. destruct y2 as [y2 sts]. apply Ok_inj in Ey as [= <- <-]. apply bdel_bytes in E2. cbn [with_rows d_rows]. lia.
  - apply Ok_inj in Ey as [= <- <-]. cbn [add_histogram with_hists d_rows]. lia.
  - destruct Q.
  - obind Ey y E. destruct y as [y k]. apply Ok_inj in Ey as [= <- <-]. unfold read_histograms in E.
    destruct (d_open d); [|apply Ok_inj in E as [= <- <-]; lia]. obind E w Ew. destruct w. apply Ok_inj in E as [= <- <-]. cbn [with_hists d_rows]. lia.
  - destruct w; [destruct Q|]. cbn [ds_sync obind] in Ey. apply Ok_inj in Ey as [= <- <-]. lia.
Qed.
Lemma bytes_put_app c a b : bytes_put c (a ++ b) = bytes_put c a + bytes_put c b.
Proof. unfold bytes_put. rewrite flat_map_app, map_app, sumN_app. reflexivity. Qed.
Lemma run_bytes : forall l d st d' rs st', truns d st l = Ok (d', rs, st') -> Forall (fun x => no_hist_write (fst x)) l ->
  bytes_stored (d_rows d') <= bytes_stored (d_rows d) + bytes_put (d_codec d) (answered l rs).
Proof.
  induction l as [|[x ts] l IH]; intros d st d' rs st' H Q; cbn [truns] in H.
  - apply Ok_inj in H as [= <- <- <-]. lia.
  - obind H y Ey. destruct y as [[d1 r] st1]. obind H z Ez. destruct z as [[d2 rs2] st2]. cbn [fst snd] in *. apply Ok_inj in H as [= <- <- <-].
    inversion Q as [|? ? Q1 Q2]; subst. pose proof (step_bytes _ _ _ _ _ _ _ Ey Q1) as B. apply IH in Ez; [|exact Q2].
    assert (S : d_codec d1 = d_codec d).
    { unfold tstep in Ey. cbn [fst snd] in Ey. obind Ey q E1. obind Ey q2 E2. apply Ok_inj in Ey as [= -> ->]. exact (proj1 (step_same _ _ _ _ E1)). }
    rewrite S in Ez. rewrite answered_cons, bytes_put_app, N.add_assoc. eapply N.le_trans; [exact Ez|]. apply N.add_le_mono_r. exact B.
Qed.

(* ---- GETOP ---- *)
(* the records so far are the rows so far *)
Definition so_far (c : codec) (db : rows) (st : gst * N) : Prop :=
  exists rs, Forall (fun r => In r db) rs /\ Forall2 (shows c) rs (g_recs (fst st)) /\ snd st = sumN (map row_size rs) mod 2 ^ 64.
Lemma copy_so_far c cap db r j st st' : copy_sized c cap r j st = Ok st' -> In r db -> so_far c db st -> so_far c db st'.
Proof.
  unfold copy_sized. intros H Hr (rs & A & B & E). obind H s Es. apply Ok_inj in H as <-. unfold so_far. cbn [fst snd].
  unfold copy_response in Es. destruct (g_unset (fst st)); cbn [negb] in Es.
  2:{ apply Ok_inj in Es as <-. rewrite Nat.ltb_irrefl. exists rs. auto. }
  obind Es kk Ek. destruct kk as [es ep]. obind Es oo Eo. destruct oo as [eo t]. obind Es rr Er. unfold obind2 in Er.
  destruct (c_dec c (f_type es) (f_data es)) as [[s1|]| |] eqn:D1; cbn [obind] in Er; try discriminate Er;
    [|apply Ok_inj in Er as <-; apply Ok_inj in Es as <-; cbn [g_recs]; rewrite Nat.ltb_irrefl; exists rs; auto].
  destruct (c_dec c (f_type ep) (f_data ep)) as [[s2|]| |] eqn:D2; cbn [obind] in Er; try discriminate Er;
    [|apply Ok_inj in Er as <-; apply Ok_inj in Es as <-; cbn [g_recs]; rewrite Nat.ltb_irrefl; exists rs; auto].
  destruct (c_dec c t eo) as [[s3|]| |] eqn:D3; cbn [obind] in Er; try discriminate Er;
    [|apply Ok_inj in Er as <-; apply Ok_inj in Es as <-; cbn [g_recs]; rewrite Nat.ltb_irrefl; exists rs; auto].
  apply Ok_inj in Er as <-. destruct (j <? cap); [|discriminate Es]. apply Ok_inj in Es as <-. cbn [g_recs].
  assert (L : (length (g_recs (fst st)) <? length (g_recs (fst st) ++ [mkRec (real_blob s1 (f_type es)) (real_blob s2 (f_type ep)) (real_blob s3 t)]))%nat = true).
  { apply Nat.ltb_lt. rewrite app_length. cbn. lia. }
  rewrite L. exists (rs ++ [r]). split; [apply Forall_app; auto|]. split.
  - apply Forall2_app; [exact B|]. constructor; [|constructor]. destruct es as [es' te], ep as [ep' tp]. cbn [f_type f_data] in *.
    exists es', ep', eo. cbn [rc_sub rc_pred rc_obj real_blob b_type b_data]. auto.
  - rewrite map_app, sumN_app, E, add64_mod. cbn. rewrite N.add_0_r. reflexivity.
Qed.
Lemma walk_so_far c n cond db : forall rs j st st', walk_sized c n cond rs j st = Ok st' -> Forall (fun r => In r db) rs -> so_far c db st -> so_far c db st'.
Proof.
  induction rs as [|r rs IH]; intros j st st' H F S; cbn [walk_sized] in H; [apply Ok_inj in H as <-; exact S|].
  inversion F as [|? ? F1 F2]; subst.
  destruct (j <? n); [|apply Ok_inj in H as <-; exact S]. obind H b Eb. destruct b; [|apply Ok_inj in H as <-; exact S].
  obind H s Es. eapply IH; [exact H|exact F2|]. eapply copy_so_far; eassumption.
Qed.
Lemma span_in below db r : (In r (fst (span below db)) \/ In r (snd (span below db))) -> In r db.
Proof.
  induction db as [|x db IH]; cbn [span]; [intros [[]|[]]|]. destruct (below (fst x)).
  - destruct (span below db) as [lo hi] eqn:E. cbn [fst snd] in *. intros [[<-|H]|H]; [left; reflexivity|right; apply IH; auto|right; apply IH; auto].
  - cbn [fst snd]. intros [[]|H]. exact H.
Qed.
Definition visit_in (db : rows) (v : visit) : Prop :=
  match v with VOne r => In r db | VWalk _ rs => Forall (fun r => In r db) rs | _ => True end.
Lemma visits_in k db op prefix seek : visit_in db (visits k db op prefix seek).
Proof.
  assert (L : forall q lo hi, lower q db = (lo, hi) -> Forall (fun r => In r db) lo /\ Forall (fun r => In r db) hi).
  { intros q lo hi E. split; apply Forall_forall; intros r Hr; apply (span_in (fun x => bltb x q)); unfold lower in E; rewrite E; auto. }
  assert (U : forall q lo hi, upper q db = (lo, hi) -> Forall (fun r => In r db) lo /\ Forall (fun r => In r db) hi).
  { intros q lo hi E. split; apply Forall_forall; intros r Hr; apply (span_in (fun x => bleb x q)); unfold upper in E; rewrite E; auto. }
  assert (D : Forall (fun r => In r db) db) by (apply Forall_forall; auto).
  assert (T : forall (l : rows), Forall (fun r => In r db) l -> Forall (fun r => In r db) (tl l)) by (intros l F; destruct F; [constructor|assumption]).
  assert (RV : forall (l : rows), Forall (fun r => In r db) l -> Forall (fun r => In r db) (rev l)) by (intros l F; apply Forall_rev; exact F).
  destruct k; cbn [visits]; unfold im_visit, ldb_visit.
  - destruct (op =? GETOP_EQ); [destruct (lower prefix db) as [lo hi] eqn:E; destruct (L _ _ _ E) as [_ F]; cbn [snd]; destruct F; cbn; auto|].
    destruct (op =? GETOP_NEXT); [destruct (lower prefix db) as [lo hi] eqn:E; destruct (L _ _ _ E) as [_ F]; cbn [snd]; destruct hi; cbn [visit_in]; auto|].
    destruct (op =? GETOP_PREV); [destruct (lower prefix db) as [lo hi] eqn:E; destruct (L _ _ _ E) as [F1 F]; destruct F; cbn [visit_in]; auto|].
    destruct (op =? GETOP_FIRST); [destruct db; cbn [visit_in]; auto|].
    destruct (op =? GETOP_LAST); [destruct db; cbn [visit_in]; auto|].
    destruct (op =? GETOP_LOWEST); [destruct (lower seek db) as [lo hi] eqn:E; destruct (L _ _ _ E) as [_ F]; cbn [snd]; destruct hi; cbn [visit_in]; auto|].
    destruct (op =? GETOP_HIGHEST); [|exact Logic.I]. destruct (upper seek db) as [lo hi] eqn:E. destruct (U _ _ _ E) as [F1 F].
    destruct lo, hi; cbn [visit_in]; auto.
  - destruct (op =? GETOP_EQ); [destruct (lower prefix db) as [lo hi] eqn:E; destruct (L _ _ _ E) as [_ F]; cbn [snd]; destruct F; cbn; auto|].
    destruct (op =? GETOP_NEXT); [destruct (lower prefix db) as [lo hi] eqn:E; destruct (L _ _ _ E) as [_ F]; cbn [snd]; destruct hi; cbn [visit_in]; auto|].
    destruct (op =? GETOP_PREV); [destruct (lower prefix db) as [lo hi] eqn:E; destruct (L _ _ _ E) as [F1 F]; destruct F; cbn [visit_in]; auto|].
    destruct (op =? GETOP_FIRST); [destruct db; cbn [visit_in]; auto|].
    destruct (op =? GETOP_LAST); [destruct db; cbn [visit_in]; auto|].
    destruct (op =? GETOP_LOWEST); [destruct (lower seek db) as [lo hi] eqn:E; destruct (L _ _ _ E) as [_ F]; cbn [snd]; destruct hi; cbn [visit_in]; auto|].
    destruct (op =? GETOP_HIGHEST); [|exact Logic.I]. destruct (lower seek db) as [lo hi] eqn:E. destruct (L _ _ _ E) as [F1 F]. cbn [fst].
    apply RV in F1. destruct (rev lo); cbn [visit_in]; auto.
Qed.
Lemma start_so_far c db : so_far c db (start, 0).
Proof. exists []. repeat split; constructor. Qed.
Lemma fail_so_far c db : so_far c db (fail start, 0).
Proof. exists []. repeat split; constructor. Qed.
Lemma visit_so_far c n db v st : run_visit c n v = Ok st -> visit_in db v -> so_far c db st.
Proof.
  destruct v as [| |r|cond rs]; cbn [run_visit visit_in]; intros H V.
  - apply Ok_inj in H as <-. apply fail_so_far.
  - discriminate H.
  - eapply copy_so_far; [exact H|exact V|apply start_so_far].
  - eapply walk_so_far; [exact H|exact V|apply start_so_far].
Qed.
Lemma sized_so_far k c db i st : getop_sized k c db i = Ok st -> so_far c db st.
Proof.
  unfold getop_sized. destruct (op_has_key (oi_op i)); intros H.
  - obind H es E1. obind H ep E2. destruct es as [s|]; [|apply Ok_inj in H as <-; apply fail_so_far].
    eapply visit_so_far; [exact H|apply visits_in].
  - eapply visit_so_far; [exact H|apply visits_in].
Qed.
(* what a GETOP is counted as *)
Lemma getop_bytes d ts st st' d' i g : operate d (QGetOp [i]) = Ok (d', Some (RGetOp [g])) -> count_events d (QGetOp [i]) ts st = Ok st' ->
  exists e rs, st_gets st' = st_gets st ++ [e] /\ st_puts st' = st_puts st /\ ev_time e = ts O /\ ev_count e = lenN (gp_recs g) /\
    Forall (fun r => In r (d_rows d)) rs /\
    ((gp_status g = ST_OK /\ Forall2 (shows (d_codec d)) rs (gp_recs g) /\ ev_size e = bytes_stored rs mod 2 ^ 64) \/
     (gp_status g = ST_ERR /\ exists recs, gp_recs g = recs ++ [mkRec (oi_sub i) (oi_pred i) blob_none] /\
       Forall2 (shows (d_codec d)) rs recs /\ ev_size e = (bytes_stored rs + 24) mod 2 ^ 64)).
Proof.
  unfold operate, count_events. intros H C. destruct (d_open d); cbn [negb] in H, C; [|discriminate (Ok_inj _ _ H)].
  obind H gs Eg. apply Ok_inj in H. injection H as _ ->. obind C es Ee. apply Ok_inj in C as <-.
  cbn [getop_events] in Ee. obind Ee e E1. cbn [obind] in Ee. apply Ok_inj in Ee as <-.
  unfold bgetop in Eg. cbn [omap] in Eg. obind Eg g' E2. cbn [obind] in Eg. apply Ok_inj in Eg. injection Eg as ->.
  destruct (event_answer _ _ _ _ _ _ _ E1 E2) as [A B]. cbn [st_gets st_puts].
  unfold getop_event in E1. unfold getop1 in E2. rewrite <- state_unsized in E2. unfold unsized in E2.
  destruct (getop_sized (d_kind d) (d_codec d) (d_rows d) i) as [[s n]| |] eqn:Es; cbn [obind] in E1, E2; try discriminate E1.
  destruct (sized_so_far _ _ _ _ _ Es) as (rs & I & W & Z). cbn [fst snd] in W, Z.
  exists e, rs. split; [reflexivity|]. split; [reflexivity|]. split; [exact B|]. split; [exact A|]. split; [exact I|].
  destruct (g_unset s).
  - left. apply Ok_inj in E1 as <-. apply Ok_inj in E2 as <-. cbn [gp_status gp_recs ev_size]. auto.
  - right. unfold error_response in E1, E2. destruct (_ <? _); cbn [obind] in E1, E2; [|discriminate E1].
    apply Ok_inj in E1 as <-. apply Ok_inj in E2 as <-. cbn [gp_status gp_recs ev_size]. split; [reflexivity|]. exists (g_recs s).
    split; [reflexivity|]. split; [exact W|]. rewrite Z, add64_mod. reflexivity.
Qed.
