(* Warnings change nothing as long as types have names *)
From Verif Require Import ModelBytes ProofBytes ModelKey ProofKey ModelHist ModelMsg ModelStore ModelGetOp ModelDs SpecStore ProofStore ProofDs ModelNames SpecNames.
Local Open Scope N_scope.

Lemma name_some t : match nth_error data_str (N.to_nat t) with Some s => s = name t | None => ~ known t end.
Proof.
  assert (E : exists n, t = N.of_nat n) by (exists (N.to_nat t); lia). destruct E as [n ->]. rewrite Nat2N.id. unfold known.
  do 10 (destruct n as [|n]; [reflexivity|]). cbn [data_str nth_error]. destruct n; cbn [nth_error]; lia.
Qed.
Lemma name_known t : known t -> data_name t = Ok (name t).
Proof. intros H. unfold data_name. pose proof (name_some t). destruct (nth_error data_str (N.to_nat t)); [congruence|contradiction]. Qed.
Lemma name_ok t s : data_name t = Ok s -> s = name t.
Proof. unfold data_name. pose proof (name_some t). destruct (nth_error data_str (N.to_nat t)); congruence. Qed.
Lemma warn_known logs a b : known a -> known b -> warn logs a b = Ok (differ logs a b).
Proof.
  intros A B. unfold warn, differ. destruct logs; cbn [negb]; rewrite ?Bool.orb_false_r, ?Bool.orb_true_r; [|reflexivity].
  destruct (a =? b); [reflexivity|]. rewrite !name_known by assumption. reflexivity.
Qed.
Lemma warn_ok logs a b ws : warn logs a b = Ok ws -> ws = differ logs a b.
Proof.
  unfold warn, differ. destruct logs; cbn [negb]; rewrite ?Bool.orb_false_r, ?Bool.orb_true_r; [|intros H; injection H as <-; reflexivity].
  destruct (a =? b); [intros H; injection H as <-; reflexivity|]. intros H. obind H x Ex. obind H y Ey. injection H as <-.
  rewrite (name_ok _ _ Ex), (name_ok _ _ Ey). reflexivity.
Qed.

(* ---- rows with known types ---- *)
Definition row_typed (r : bytes * bytes) : Prop :=
  (exists es ep, key_to_sp (fst r) = Ok (es, ep) /\ known (f_type es) /\ known (f_type ep)) /\
  (exists e t, remove_type (snd r) = Ok (e, t) /\ known t).
Lemma remove_append d t : t < 2 ^ 32 -> remove_type (append_type d t) = Ok (d, t).
Proof.
  intros H. unfold remove_type, append_type. assert (E : blen (d ++ le_enc 4 t) = blen d + 4).
  { rewrite blen_app. unfold blen at 2. rewrite le_enc_length. lia. }
  rewrite E. destruct (N.ltb_spec (blen d + 4) 4); [lia|]. replace (N.to_nat (blen d + 4 - 4)) with (length d) by (unfold blen; lia).
  rewrite firstn_app_exact, skipn_app_exact, le_dec_enc; [reflexivity|]. exact H.
Qed.
Lemma obind2_some {A B} (x : outcome (option A)) (f : A -> outcome (option B)) b : obind2 x f = Ok (Some b) -> exists a, x = Ok (Some a) /\ f a = Ok (Some b).
Proof. unfold obind2. intros H. obind H a Ea. destruct a as [a|]; [|discriminate]. exists a. auto. Qed.
Lemma put_row_typed c i r : typed_put c i -> put_row c i = Ok (Some r) -> row_typed r.
Proof.
  intros (K1 & K2 & K3 & F1 & F2) H. unfold put_row in H. apply obind2_some in H as (es & E1 & H). apply obind2_some in H as (ep & E2 & H).
  apply obind2_some in H as (eo & E3 & H). injection H as <-. unfold enc_blob in *. apply F1 in E1. apply F2 in E2. unfold known in *. split; cbn [fst snd].
  - eexists _, _. split; [apply key_to_sp_of_key; split; cbn; try assumption; lia|]. split; assumption.
  - eexists _, _. split; [apply remove_append; lia|exact K3].
Qed.
Lemma im_bput_typed c : forall l db db' sts, Forall row_typed db ->
  Forall (typed_put c) l ->
  im_bput c db l = Ok (db', sts) -> Forall row_typed db'.
Proof.
  induction l as [|i l IH]; intros db db' sts D F H; cbn [im_bput] in H; [injection H as <- <-; exact D|].
  inversion F as [|a b K F']; subst. obind H kv Ek. destruct kv as [[k v]|].
  - obind H r Er. destruct r as [db2 r]. injection H as <- <-. eapply IH; [|exact F'|exact Er].
    apply Forall_forall. intros x Hx. apply db_put_in in Hx as [->|Hx]; [exact (put_row_typed _ _ _ K Ek)|]. rewrite Forall_forall in D. auto.
  - obind H r Er. destruct r as [db2 r]. injection H as <- <-. eapply IH; eassumption.
Qed.
Lemma bput_typed k c l db db' sts : Forall row_typed db ->
  Forall (typed_put c) l ->
  bput k c db l = Ok (db', sts) -> Forall row_typed db'.
Proof.
  intros D F H. destruct k; cbn [bput] in H; [eapply im_bput_typed; eassumption|].
  destruct (ldb_bput_im c db l) as [(e & E1 & [->| ->] & _)|(db1 & s1 & E1 & E2)]; try congruence.
  assert (db1 = db') by congruence. subst db1. eapply im_bput_typed; eassumption.
Qed.
Lemma im_bdel_typed c : forall l db db' sts, Forall row_typed db -> im_bdel c db l = Ok (db', sts) -> Forall row_typed db'.
Proof.
  induction l as [|i l IH]; intros db db' sts D H; cbn [im_bdel] in H; [injection H as <- <-; exact D|].
  obind H ok Ek. destruct ok as [k|].
  - destruct (db_get k db); obind H r Er; destruct r as [db2 r]; injection H as <- <-; (eapply IH; [|exact Er]); [|exact D].
    apply Forall_forall. intros x Hx. apply db_del_in in Hx. rewrite Forall_forall in D. auto.
  - obind H r Er. destruct r as [db2 r]. injection H as <- <-. eapply IH; eassumption.
Qed.
Lemma bdel_typed k c l db db' sts : Forall row_typed db -> bdel k c db l = Ok (db', sts) -> Forall row_typed db'.
Proof.
  intros D H. destruct k; cbn [bdel] in H; [eapply im_bdel_typed; eassumption|].
  destruct (ldb_bdel_im c db l) as [(e & E1 & [->| ->] & _)|(db1 & s1 & E1 & E2)]; try congruence.
  assert (db1 = db') by congruence. subst db1. eapply im_bdel_typed; eassumption.
Qed.

(* ---- GET ---- *)
Lemma log_get_same logs c db i : Forall row_typed db -> known (gi_type i) -> without (log_get1 logs c db i) = bget1 c db i.
Proof.
  intros D K. unfold log_get1, bget1, get_obj, obind2. destruct (key_of c (gi_sub i) (gi_pred i)) as [[k|]| |]; cbn [obind]; try reflexivity.
  destruct (db_get k db) as [v|] eqn:E; [|reflexivity].
  assert (I : exists k', In (k', v) db).
  { clear -E. revert E. induction db as [|[a b] db IH]; cbn [db_get]; [discriminate|]. destruct (beqb k a); intros H.
    - injection H as ->. eexists. left. reflexivity.
    - destruct (IH H) as [k' I]. eexists. right. exact I. }
  destruct I as [k' I]. rewrite Forall_forall in D. destruct (D _ I) as [_ (e & t & R & T)]. cbn [snd] in R. rewrite R. cbn [obind].
  rewrite (warn_known logs t (gi_type i) T K). cbn [obind]. destruct (c_dec c t e) as [[d|]| |]; reflexivity.
Qed.
Lemma log_all_same {A B} (f : A -> outcome (B * list warning)) (g : A -> outcome B) l : Forall (fun x => without (f x) = g x) l ->
  without (log_all f l) = omap g l.
Proof.
  induction 1 as [|x l E F IH]; [reflexivity|]. cbn [log_all omap]. rewrite <- E, <- IH. unfold without.
  destruct (f x) as [[y w]| |]; cbn [obind]; try reflexivity. destruct (log_all f l) as [[r ws]| |]; reflexivity.
Qed.

(* ---- GETOP ---- *)
Definition bare_st (x : outcome lst) : outcome gst := do a <- x; Ok (l_st a).
Lemma log_copy_same logs c i row j st : row_typed row -> known (b_type (oi_sub i)) -> known (b_type (oi_pred i)) -> known (oi_type i) ->
  bare_st (log_copy logs c i row j st) = copy_response c (oi_num i) row j (l_st st).
Proof.
  intros [(es & ep & K & T1 & T2) (e & t & R & T3)] K1 K2 K3. unfold log_copy, copy_response. destruct (g_unset (l_st st)); [|reflexivity]. cbn [negb].
  rewrite K. cbn [obind]. rewrite (warn_known logs _ _ T1 K1). cbn [obind]. rewrite (warn_known logs _ _ T2 K2). cbn [obind]. rewrite R. cbn [obind].
  rewrite (warn_known logs _ _ T3 K3). cbn [obind].
  match goal with |- bare_st (do r <- ?x; _) = _ => destruct x as [[rc|]| |] end; cbn [obind]; try reflexivity. destruct (j <? oi_num i); reflexivity.
Qed.
Section Walk.
Context (logs : bool) (c : codec) (i : getop_item) (K1 : known (b_type (oi_sub i))) (K2 : known (b_type (oi_pred i))) (K3 : known (oi_type i)).
Lemma walk_same cond : forall rs j st, Forall row_typed rs ->
  bare_st (walk_with (log_copy logs c i) (oi_num i) cond rs j st) = walk c (oi_num i) cond rs j (l_st st).
Proof.
  induction rs as [|r rs IH]; intros j st F; [reflexivity|]. inversion F as [|a b T F']; subst. cbn [walk_with walk].
  destruct (j <? oi_num i); [|reflexivity]. destruct (cond (fst r)) as [[]| |]; cbn [obind]; try reflexivity.
  rewrite <- (log_copy_same logs c i r j st T K1 K2 K3). unfold bare_st. destruct (log_copy logs c i r j st) as [st'| |]; cbn [obind]; try reflexivity.
  apply IH, F'.
Qed.
Lemma span_sub (below : bytes -> bool) (P : bytes * bytes -> Prop) db : Forall P db -> Forall P (fst (span below db)) /\ Forall P (snd (span below db)).
Proof.
  induction 1 as [|r db H F IH]; cbn [span]; [split; constructor|]. destruct (below (fst r)).
  - destruct (span below db) as [lo hi]. cbn [fst snd] in *. destruct IH. split; [constructor; assumption|assumption].
  - split; [constructor|]. constructor; assumption.
Qed.
Lemma rev_typed rs : Forall row_typed rs -> Forall row_typed (rev rs).
Proof. intros F. apply Forall_forall. intros x Hx. apply in_rev in Hx. rewrite Forall_forall in F. auto. Qed.
Definition failed (st : lst) : lst := mkLst (fail (l_st st)) (l_ws st).
Lemma im_same db prefix seek : Forall row_typed db ->
  bare_st (im_with (log_copy logs c i) (mkLst start []) failed db (oi_op i) (oi_num i) prefix seek) = im_body c db (oi_op i) (oi_num i) prefix seek.
Proof.
  intros D. unfold im_with, im_body. unfold lower, upper.
  pose proof (span_sub (fun x => bltb x prefix) row_typed db D) as [L1 L2]. pose proof (span_sub (fun x => bltb x seek) row_typed db D) as [S1 S2].
  pose proof (span_sub (fun x => bleb x seek) row_typed db D) as [U1 U2].
  repeat match goal with |- context [if ?a =? ?b then _ else _] => destruct (a =? b) end.
  - destruct (snd (span (fun x => bltb x prefix) db)) as [|r l]; [reflexivity|]. inversion L2; subst. apply log_copy_same; assumption.
  - destruct (snd (span (fun x => bltb x prefix) db)) as [|r l]; [reflexivity|]. apply (walk_same always (r :: l) 0 (mkLst start [])), L2.
  - destruct (span (fun x => bltb x prefix) db) as [lo hi]. cbn [fst snd] in *. destruct hi as [|r l]; [reflexivity|].
    apply (walk_same always (r :: rev lo) 0 (mkLst start [])). constructor; [inversion L2; assumption|apply rev_typed, L1].
  - destruct db as [|r l]; [reflexivity|]. apply (walk_same always (r :: l) 0 (mkLst start [])), D.
  - destruct db as [|r l] eqn:E; [reflexivity|]. rewrite <- E in *. apply (walk_same always (rev db) 0 (mkLst start [])), rev_typed, D.
  - destruct (snd (span (fun x => bltb x seek) db)) as [|r l]; [reflexivity|]. apply (walk_same (memcmp_eq prefix) (r :: l) 0 (mkLst start [])), S2.
  - destruct (span (fun x => bleb x seek) db) as [lo hi]. cbn [fst snd] in *. destruct hi as [|r l]; [destruct lo; reflexivity|]. destruct lo as [|r' lo]; [reflexivity|].
    apply (walk_same (memcmp_eq prefix) (rev (tl (r' :: lo))) 0 (mkLst start [])). apply rev_typed. inversion U1; assumption.
  - reflexivity.
Qed.
Lemma ldb_same db prefix seek : Forall row_typed db ->
  bare_st (ldb_with (log_copy logs c i) (mkLst start []) failed db (oi_op i) (oi_num i) prefix seek) = ldb_body c db (oi_op i) (oi_num i) prefix seek.
Proof.
  intros D. unfold ldb_with, ldb_body. unfold lower.
  pose proof (span_sub (fun x => bltb x prefix) row_typed db D) as [L1 L2]. pose proof (span_sub (fun x => bltb x seek) row_typed db D) as [S1 S2].
  repeat match goal with |- context [if ?a =? ?b then _ else _] => destruct (a =? b) end.
  - destruct (snd (span (fun x => bltb x prefix) db)) as [|r l]; [reflexivity|]. inversion L2; subst. apply log_copy_same; assumption.
  - destruct (snd (span (fun x => bltb x prefix) db)) as [|r l]; [reflexivity|]. apply (walk_same always (r :: l) 0 (mkLst start [])), L2.
  - destruct (span (fun x => bltb x prefix) db) as [lo hi]. cbn [fst snd] in *. destruct hi as [|r l]; [reflexivity|].
    apply (walk_same always (r :: rev lo) 0 (mkLst start [])). constructor; [inversion L2; assumption|apply rev_typed, L1].
  - destruct db as [|r l]; [reflexivity|]. apply (walk_same always (r :: l) 0 (mkLst start [])), D.
  - destruct db as [|r l] eqn:E; [reflexivity|]. rewrite <- E in *. apply (walk_same always (rev db) 0 (mkLst start [])), rev_typed, D.
  - destruct (snd (span (fun x => bltb x seek) db)) as [|r l]; [reflexivity|]. apply (walk_same (has_prefix prefix) (r :: l) 0 (mkLst start [])), S2.
  - destruct (rev (fst (span (fun x => bltb x seek) db))) as [|r l] eqn:E; [reflexivity|]. apply (walk_same (has_prefix prefix) (r :: l) 0 (mkLst start [])).
    rewrite <- E. apply rev_typed, S1.
  - reflexivity.
Qed.
Lemma body_same k db prefix seek : Forall row_typed db ->
  bare_st (log_body logs k c db i prefix seek) = getop_body k c db (oi_op i) (oi_num i) prefix seek.
Proof. intros D. destruct k; [apply im_same, D|apply ldb_same, D]. Qed.
Lemma log_getop_same k db : Forall row_typed db -> without (log_getop1 logs k c db i) = getop1 k c db i.
Proof.
  intros D. unfold log_getop1, getop1, getop_state.
  assert (X : forall x y, bare_st x = y -> without (do st <- x;
    if g_unset (l_st st) then Ok (mkGotOp ST_OK (g_recs (l_st st)), l_ws st)
    else do recs <- error_response (oi_num i) i (g_recs (l_st st)); Ok (mkGotOp ST_ERR recs, l_ws st)) =
    (do st <- y; if g_unset st then Ok (mkGotOp ST_OK (g_recs st)) else do recs <- error_response (oi_num i) i (g_recs st); Ok (mkGotOp ST_ERR recs))).
  { intros x y <-. unfold bare_st, without. destruct x as [st| |]; cbn [obind]; try reflexivity. destruct (g_unset (l_st st)); [reflexivity|].
    destruct (error_response (oi_num i) i (g_recs (l_st st))); reflexivity. }
  apply X. destruct (op_has_key (oi_op i)); [|apply body_same, D].
  unfold bare_st. destruct (enc_blob c (oi_sub i)) as [es| |]; cbn [obind]; try reflexivity.
  destruct (enc_blob c (oi_pred i)) as [ep| |]; cbn [obind]; try reflexivity. destruct es as [s|]; [|reflexivity]. apply body_same, D.
Qed.
End Walk.

(* ---- runs ---- *)
Lemma operate_same logs d q : Forall row_typed (d_rows d) -> typed (d_codec d) q ->
  without (log_operate logs d q) = operate d q /\
  (forall d' r, operate d q = Ok (d', r) -> d_codec d' = d_codec d /\ Forall row_typed (d_rows d')).
Proof.
  intros D T. destruct q as [l|l|l|l|l|l|l|l|l|l]; cbn [typed] in T; cbn [log_operate operate].
  1,4,5,6,7,8,9,10: split; [unfold without; match goal with |- (do (a, _) <- (do (x, y) <- ?o; _); _) = _ => destruct o as [[]| |] end; reflexivity|].
  3,4,5,6,7,8: intros d' r H; injection H as <- <-; auto.
  - intros d' r H. destruct (d_open d); [|injection H as <- <-; auto]. cbn [negb] in H. obind H a Ea. destruct a as [rw sts]. obind H hs Eh. injection H as <- <-.
    split; [reflexivity|]. cbn. eapply bput_typed; eassumption.
  - intros d' r H. destruct (d_open d); [|injection H as <- <-; auto]. cbn [negb] in H. obind H a Ea. destruct a as [rw sts]. injection H as <- <-.
    split; [reflexivity|]. cbn. eapply bdel_typed; eassumption.
  - split.
    + destruct (d_open d); [|reflexivity]. cbn [negb]. unfold bget. rewrite <- (log_all_same (log_get1 logs (d_codec d) (d_rows d)) (bget1 (d_codec d) (d_rows d)) l).
      * unfold without. destruct (log_all _ l) as [[r ws]| |]; reflexivity.
      * eapply Forall_impl; [|exact T]. intros i K. apply log_get_same; assumption.
    + intros d' r H. destruct (d_open d); [|injection H as <- <-; auto]. cbn [negb] in H. obind H a Ea. injection H as <- <-. auto.
  - split.
    + destruct (d_open d); [|reflexivity]. cbn [negb]. unfold bgetop.
      rewrite <- (log_all_same (log_getop1 logs (d_kind d) (d_codec d) (d_rows d)) (getop1 (d_kind d) (d_codec d) (d_rows d)) l).
      * unfold without. destruct (log_all _ l) as [[r ws]| |]; reflexivity.
      * eapply Forall_impl; [|exact T]. intros i (K1 & K2 & K3). apply log_getop_same; assumption.
    + intros d' r H. destruct (d_open d); [|injection H as <- <-; auto]. cbn [negb] in H. obind H a Ea. injection H as <- <-. auto.
Qed.
Lemma run_same logs : forall h d, Forall row_typed (d_rows d) -> Forall (typed (d_codec d)) h -> without (log_run logs d h) = ds_run d (map CallReq h).
Proof.
  induction h as [|q h IH]; intros d D F; [reflexivity|]. inversion F as [|a b T F']; subst. cbn [log_run map ds_run ds_step].
  destruct (operate_same logs d q D T) as [E P]. rewrite <- E in P |- *. unfold without in P |- *.
  destruct (log_operate logs d q) as [[[d1 r] w]| |]; cbn [obind] in P |- *; try reflexivity.
  destruct (P _ _ eq_refl) as [C D1]. rewrite <- (IH d1); [|exact D1|rewrite C; exact F']. unfold without.
  destruct (log_run logs d1 h) as [[[d2 rs] ws]| |]; reflexivity.
Qed.

(* ---- what is logged ---- *)
Lemma get_logged logs c db i g ws : log_get1 logs c db i = Ok (g, ws) -> go_status g = ST_OK -> ws = get_warnings logs i g.
Proof.
  unfold log_get1, get_warnings. intros H S. obind H k Ek. obind H r Er. destruct r as [o w]. injection H as <- <-. cbn [go_status go_obj] in *.
  destruct o as [o|]; [|discriminate S]. destruct k as [k|]; [|discriminate Er]. destruct (db_get k db) as [v|]; [|discriminate Er].
  obind Er x Ex. destruct x as [e t]. obind Er y Ey. obind Er z Ez. destruct z as [z|]; [|discriminate Er]. injection Er as <- <-. apply warn_ok in Ey. exact Ey.
Qed.
Section Logged.
Context (logs : bool) (c : codec) (i : getop_item).
Let rec_ws (recs : list rec3) : list warning := getop_warnings logs i (mkGotOp ST_OK recs).
Definition log_inv (st : lst) : Prop := g_unset (l_st st) = true -> l_ws st = rec_ws (g_recs (l_st st)).
Lemma copy_logged row j st st' : log_inv st -> log_copy logs c i row j st = Ok st' -> log_inv st'.
Proof.
  unfold log_copy, log_inv. intros I H U. destruct (g_unset (l_st st)) eqn:Eu; cbn [negb] in H; [|injection H as <-; congruence].
  obind H a Ea. destruct a as [es ep]. obind H w1 E1. obind H w2 E2. obind H b Eb. destruct b as [eo t]. obind H w3 E3. obind H r Er.
  destruct r as [rc|]; [|injection H as <-; discriminate U]. destruct (j <? oi_num i); [|discriminate]. injection H as <-. cbn [l_st l_ws g_recs] in *.
  rewrite (I eq_refl). unfold rec_ws, getop_warnings. cbn [gp_recs]. rewrite flat_map_app. cbn [flat_map]. rewrite app_nil_r. f_equal.
  apply warn_ok in E1, E2, E3. subst w1 w2 w3. apply obind2_some in Er as (s & _ & Er). apply obind2_some in Er as (p & _ & Er). apply obind2_some in Er as (o & _ & Er).
  injection Er as <-. reflexivity.
Qed.
Lemma walk_logged n cond : forall rs j st st', log_inv st -> walk_with (log_copy logs c i) n cond rs j st = Ok st' -> log_inv st'.
Proof.
  induction rs as [|r rs IH]; intros j st st' I H; cbn [walk_with] in H; [injection H as <-; exact I|].
  destruct (j <? n); [|injection H as <-; exact I]. obind H b Eb. destruct b; [|injection H as <-; exact I]. obind H s Es.
  eapply IH; [|exact H]. eapply copy_logged; eassumption.
Qed.
Lemma begin_inv : log_inv (mkLst start []).
Proof. intros _. reflexivity. Qed.
Lemma failed_inv : log_inv (failed (mkLst start [])).
Proof. intros U. discriminate U. Qed.
Lemma body_logged k db prefix seek st : log_body logs k c db i prefix seek = Ok st -> log_inv st.
Proof.
  unfold log_body. intros H.
  assert (W : forall n cond rs st', walk_with (log_copy logs c i) n cond rs 0 (mkLst start []) = Ok st' -> log_inv st') by (intros n cond rs st'; apply walk_logged, begin_inv).
  assert (B : forall r st', log_copy logs c i r 0 (mkLst start []) = Ok st' -> log_inv st') by (intros r st'; apply copy_logged, begin_inv).
  assert (Fl : forall st', Ok (failed (mkLst start [])) = Ok st' -> log_inv st') by (intros st' E; injection E as <-; exact failed_inv).
  destruct k; [unfold im_with in H|unfold ldb_with in H];
    repeat match type of H with
    | (if ?a =? ?b then _ else _) = _ => destruct (a =? b)
    | match snd (lower ?x ?y) with _ => _ end = _ => destruct (snd (lower x y))
    | match lower ?x ?y with _ => _ end = _ => destruct (lower x y)
    | match upper ?x ?y with _ => _ end = _ => destruct (upper x y)
    | match rev ?x with _ => _ end = _ => destruct (rev x)
    | match ?x with _ => _ end = _ => destruct x
    end; try discriminate H; first [exact (W _ _ _ _ H)|exact (B _ _ H)|exact (Fl _ H)].
Qed.
Lemma getop_logged k db g ws : log_getop1 logs k c db i = Ok (g, ws) -> gp_status g = ST_OK -> ws = getop_warnings logs i g.
Proof.
  unfold log_getop1. intros H S. obind H st Es. assert (I : log_inv st).
  { destruct (op_has_key (oi_op i)); [|eapply body_logged; exact Es]. obind Es es E1. obind Es ep E2. destruct es as [s|]; [eapply body_logged; exact Es|].
    injection Es as <-. intros U. discriminate U. }
  destruct (g_unset (l_st st)) eqn:U; [injection H as <- <-; exact (I U)|]. obind H recs Er. injection H as <- <-. discriminate S.
Qed.
End Logged.
