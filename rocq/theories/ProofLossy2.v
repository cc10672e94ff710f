(* Datastores with callbacks that lose something: what GETOP returns *)
From Verif Require Import ModelBytes ProofBytes ModelKey ProofKey ModelWire ModelHist ModelMsg SpecMsg ModelStore ModelGetOp ModelDs
  ProofStore ProofDs ProofDs2 ModelElen ModelRoute ModelClient SpecClient SpecGetOp ProofGetOp ProofGetOp2 SpecCluster SpecScan ProofScan SpecStore SpecLossy ProofLossy.
Local Open Scope N_scope.

(* ---- reading back ---- *)
Definition dec_to (c : codec) (b r : blob) : Prop := exists d, c_dec c (b_type b) (b_data b) = Ok (Some d) /\ r = real_blob d (b_type b).
Definition dec3 (c : codec) (x r : rec3) : Prop := dec_to c (rc_sub x) (rc_sub r) /\ dec_to c (rc_pred x) (rc_pred r) /\ dec_to c (rc_obj x) (rc_obj r).
Lemma copy_sim c cap row j recs st : copy_response (raw c) cap row j (mkGst true recs) = Ok st ->
  exists x, st = mkGst true (recs ++ [x]) /\
    forall r recs', dec3 c x r -> copy_response c cap row j (mkGst true recs') = Ok (mkGst true (recs' ++ [r])).
Proof.
  unfold copy_response. cbn [g_unset negb g_recs]. intros H. obind H sp Esp. destruct sp as [es ep]. rewrite Esp. cbn [obind].
  obind H vt Evt. destruct vt as [eo t]. rewrite Evt. cbn [obind]. unfold obind2 in *. cbn [raw c_dec obind] in H.
  destruct (j <? cap) eqn:Ej; [|discriminate H]. apply Ok_inj in H. subst st. eexists. split; [reflexivity|].
  intros [rs rp ro] recs' ((ds & D1 & E1) & (dp & D2 & E2) & (do_ & D3 & E3)). cbn [rc_sub rc_pred rc_obj real_blob b_type b_data] in *. subst.
  rewrite D1. cbn [obind]. rewrite D2. cbn [obind]. rewrite D3. cbn [obind]. reflexivity.
Qed.
Lemma walk_sim c n cond rs : forall j recs st, walk (raw c) n cond rs j (mkGst true recs) = Ok st ->
  exists xs, st = mkGst true (recs ++ xs) /\
    forall ys recs', Forall2 (dec3 c) xs ys -> walk c n cond rs j (mkGst true recs') = Ok (mkGst true (recs' ++ ys)).
Proof.
  induction rs as [|r rs IH]; intros j recs st H; cbn [walk] in H |- *.
  - apply Ok_inj in H. subst st. exists []. split; [rewrite app_nil_r; reflexivity|]. intros ys recs' F. inversion F. rewrite app_nil_r. reflexivity.
  - destruct (j <? n).
    + obind H b Eb. rewrite Eb. cbn [obind]. destruct b.
      * obind H s1 E1. destruct (copy_sim _ _ _ _ _ _ E1) as (x & -> & Hx). destruct (IH _ _ _ H) as (xs & -> & Hxs).
        exists (x :: xs). split; [rewrite <- app_assoc; reflexivity|]. intros ys recs' F. inversion F as [|? y ? ys' Fx Fxs]; subst.
        rewrite (Hx y recs' Fx). cbn [obind]. rewrite (Hxs ys' _ Fxs), <- app_assoc. reflexivity.
      * apply Ok_inj in H. subst st. exists []. split; [rewrite app_nil_r; reflexivity|]. intros ys recs' F. inversion F. rewrite app_nil_r. reflexivity.
    + apply Ok_inj in H. subst st. exists []. split; [rewrite app_nil_r; reflexivity|]. intros ys recs' F. inversion F. rewrite app_nil_r. reflexivity.
Qed.
Definition sim (c : codec) (x y : outcome gst) : Prop :=
  forall st, x = Ok st -> forall ys, Forall2 (dec3 c) (g_recs st) ys -> y = Ok (mkGst (g_unset st) ys).
Lemma sim_fail c : sim c (Ok (fail start)) (Ok (fail start)).
Proof. intros st H ys F. apply Ok_inj in H. subst st. inversion F. reflexivity. Qed.
Lemma sim_walk c n cond rs : sim c (walk (raw c) n cond rs 0 start) (walk c n cond rs 0 start).
Proof.
  intros st H ys F. destruct (walk_sim _ _ _ _ _ _ _ H) as (xs & -> & W). cbn [g_recs app] in F. exact (W ys [] F).
Qed.
Lemma sim_copy c n r : sim c (copy_response (raw c) n r 0 start) (copy_response c n r 0 start).
Proof.
  intros st H ys F. destruct (copy_sim _ _ _ _ _ _ H) as (x & -> & W). cbn [g_recs app] in F. inversion F as [|? y ? ys' Fx Fxs]; subst. inversion Fxs; subst.
  exact (W y [] Fx).
Qed.
Lemma sim_ub c y : sim c UB y.
Proof. intros st H. discriminate H. Qed.
Lemma body_sim k c db op n P seek : sim c (getop_body k (raw c) db op n P seek) (getop_body k c db op n P seek).
Proof.
  destruct k; cbn [getop_body]; [unfold im_body|unfold ldb_body].
  - destruct (op =? GETOP_EQ); [destruct (snd (lower P db)); [apply sim_fail|apply sim_copy]|].
    destruct (op =? GETOP_NEXT); [destruct (snd (lower P db)); [apply sim_fail|apply sim_walk]|].
    destruct (op =? GETOP_PREV); [destruct (lower P db) as [lo [|r hi]]; [apply sim_fail|apply sim_walk]|].
    destruct (op =? GETOP_FIRST); [destruct db; [apply sim_fail|apply sim_walk]|].
    destruct (op =? GETOP_LAST); [destruct db; [apply sim_ub|apply sim_walk]|].
    destruct (op =? GETOP_LOWEST); [destruct (snd (lower seek db)); [apply sim_fail|apply sim_walk]|].
    destruct (op =? GETOP_HIGHEST); [|apply sim_fail]. destruct (upper seek db) as [[|l lo] [|r hi]]; [apply sim_fail|apply sim_ub|apply sim_fail|apply sim_walk].
  - destruct (op =? GETOP_EQ); [destruct (snd (lower P db)); [apply sim_fail|apply sim_copy]|].
    destruct (op =? GETOP_NEXT); [destruct (snd (lower P db)); [apply sim_fail|apply sim_walk]|].
    destruct (op =? GETOP_PREV); [destruct (lower P db) as [lo [|r hi]]; [apply sim_fail|apply sim_walk]|].
    destruct (op =? GETOP_FIRST); [destruct db; [apply sim_fail|apply sim_walk]|].
    destruct (op =? GETOP_LAST); [destruct db; [apply sim_fail|apply sim_walk]|].
    destruct (op =? GETOP_LOWEST); [destruct (snd (lower seek db)); [apply sim_fail|apply sim_walk]|].
    destruct (op =? GETOP_HIGHEST); [|apply sim_fail]. destruct (rev (fst (lower seek db))); [apply sim_fail|apply sim_walk].
Qed.

(* ---- one request ---- *)
Definition raw_req (c : codec) (q : getop_item) : getop_item :=
  mkGetOp (oi_op q) (mkBlob false (coded_data c (oi_sub q)) (b_type (oi_sub q))) (mkBlob false (coded_data c (oi_pred q)) (b_type (oi_pred q))) (oi_type q) (oi_num q).
Lemma coded_enc c b e : c_enc c (b_type b) (b_null b) (b_data b) = Ok e -> coded_data c b = match e with Some x => x | None => [] end.
Proof. intros E. unfold coded_data, code. rewrite E. destruct e; reflexivity. Qed.
Lemma state_sim k c db q : (op_has_key (oi_op q) = true -> code c (oi_sub q) <> None /\ exists e, c_enc c (b_type (oi_pred q)) (b_null (oi_pred q)) (b_data (oi_pred q)) = Ok e) ->
  sim c (getop_state k (raw c) db (raw_req c q)) (getop_state k c db q).
Proof.
  intros H. unfold getop_state. cbn [raw_req oi_op oi_sub oi_pred oi_num]. destruct (op_has_key (oi_op q)); [|apply body_sim].
  destruct (H eq_refl) as [Hs [e Ep]]. unfold enc_blob. cbn [raw c_enc obind b_data b_type].
  unfold code in Hs. destruct (c_enc c (b_type (oi_sub q)) (b_null (oi_sub q)) (b_data (oi_sub q))) as [[es|]| |] eqn:Es; try congruence.
  rewrite (coded_enc _ _ _ Es), (coded_enc _ _ _ Ep), Ep. cbn [obind]. apply body_sim.
Qed.

(* ---- the answer, for items and for what is stored of them ---- *)
Section Map.
Context {A B : Type} (ka : A -> bytes) (kb : B -> bytes) (R : A -> B -> Prop) (HR : forall a b, R a b -> ka a = kb b).
Lemma filter_rel (f : bytes -> bool) l l' : Forall2 R l l' -> Forall2 R (filter (fun a => f (ka a)) l) (filter (fun b => f (kb b)) l').
Proof.
  induction 1 as [|a b l l' H F IH]; [constructor|]. cbn [filter]. rewrite (HR _ _ H). destruct (f (kb b)); [constructor; assumption|exact IH].
Qed.
Lemma firstn_rel n : forall l l', Forall2 R l l' -> Forall2 R (firstn n l) (firstn n l').
Proof. induction n; intros l l' F; [constructor|]. destruct F; [constructor|]. cbn. constructor; auto. Qed.
Lemma rev_rel l l' : Forall2 R l l' -> Forall2 R (rev l) (rev l').
Proof. induction 1; [constructor|]. cbn. apply Forall2_app; [assumption|]. constructor; [assumption|constructor]. Qed.
Definition opt_rel (x : option (list A)) (y : option (list B)) : Prop :=
  match x, y with Some l, Some l' => Forall2 R l l' | None, None => True | _, _ => False end.
Lemma some_if_rel us us' l l' : Forall2 R us us' -> Forall2 R l l' -> opt_rel (some_if us l) (some_if us' l').
Proof. intros [|a b u u' H F] G; [exact Logic.I|exact G]. Qed.
Lemma reply_rel P lo op n l l' : Forall2 R l l' -> opt_rel (reply_by ka P lo op n l) (reply_by kb P lo op n l').
Proof.
  intros F. unfold reply_by.
  pose proof (filter_rel (fun k => bltb k P) _ _ F) as B1. pose proof (filter_rel (fun k => bltb k lo) _ _ F) as B2.
  pose proof (filter_rel (fun k => bleb P k) _ _ F) as U1. pose proof (filter_rel (fun k => bleb lo k) _ _ F) as U2.
  destruct (op =? GETOP_EQ); [apply some_if_rel; [exact U1|apply firstn_rel, U1]|].
  destruct (op =? GETOP_NEXT); [apply some_if_rel; [exact U1|apply firstn_rel, U1]|].
  destruct (op =? GETOP_PREV); [apply some_if_rel; [exact U1|apply firstn_rel, Forall2_app; [apply firstn_rel, U1|apply rev_rel, B1]]|].
  destruct (op =? GETOP_FIRST); [apply some_if_rel; [exact F|apply firstn_rel, F]|].
  destruct (op =? GETOP_LAST); [apply some_if_rel; [exact F|apply firstn_rel, rev_rel, F]|].
  destruct (op =? GETOP_LOWEST); [apply some_if_rel; [exact U2|apply firstn_rel, (filter_rel (starts_with P)), U2]|].
  destruct (op =? GETOP_HIGHEST); [apply some_if_rel; [exact B2|apply firstn_rel, rev_rel, (filter_rel (starts_with P)), B2]|].
  exact Logic.I.
Qed.
Lemma rel_nil l l' : Forall2 R l l' -> l <> [] -> l' <> [].
Proof. intros F H E. destruct F; [apply H; reflexivity|discriminate E]. Qed.
End Map.
Lemma reply_raw c us q : reply (raw c) us (raw_req c q) = reply_by (tkey (raw c)) (req_prefix c q) (req_least c q) (oi_op q) (oi_num q) us.
Proof. reflexivity. Qed.

Lemma coded_back c i u r : coded c i u -> back3 c i r -> dec3 c (seen3 u) r.
Proof.
  intros (A & B & C) ((f1 & d1 & E1 & D1 & R1) & (f2 & d2 & E2 & D2 & R2) & (f3 & d3 & E3 & D3 & R3)).
  assert (T : forall b f, code c b = Some f -> f_type f = b_type b).
  { intros b f H. unfold code in H. destruct (c_enc c (b_type b) (b_null b) (b_data b)) as [[e|]| |]; try discriminate H. injection H as <-. reflexivity. }
  pose proof (T _ _ A). pose proof (T _ _ B). pose proof (T _ _ C).
  split; [exists d1|split; [exists d2|exists d3]]; cbn [seen3 seen rc_sub rc_pred rc_obj b_type b_data]; unfold real_blob.
  - split; congruence.
  - split; congruence.
  - split; congruence.
Qed.
Lemma back_all c us vs : Forall2 (coded c) us vs -> Forall (fun i => exists r, back3 c i r) us -> exists ys, Forall2 (back3 c) us ys /\ Forall2 (dec3 c) (map seen3 vs) ys.
Proof.
  induction 1 as [|i u us vs C F IH]; intros H; [exists []; split; constructor|]. inversion H as [|? ? [r Hr] Hs]; subst. destruct (IH Hs) as (ys & Y1 & Y2).
  exists (r :: ys). split; constructor; try assumption. exact (coded_back _ _ _ _ C Hr).
Qed.
Lemma reply_in {A} (ka : A -> bytes) P lo op n ts us : reply_by ka P lo op n ts = Some us -> forall x, In x us -> In x ts.
Proof.
  unfold reply_by. assert (S1 : forall u l l' : list A, some_if u l = Some l' -> l' = l) by (intros [|y u] l l' X; [discriminate X|injection X as <-; reflexivity]).
  destruct (op =? GETOP_EQ); [intros H x; apply S1 in H; subst us; intros H; apply firstn_In, filter_In in H; tauto|].
  destruct (op =? GETOP_NEXT); [intros H x; apply S1 in H; subst us; intros H; apply firstn_In, filter_In in H; tauto|].
  destruct (op =? GETOP_PREV); [intros H x; apply S1 in H; subst us; intros H; apply firstn_In, in_app_or in H as [H|H]; [apply firstn_In in H|apply in_rev in H]; apply filter_In in H; tauto|].
  destruct (op =? GETOP_FIRST); [intros H x; apply S1 in H; subst us; intros H; apply firstn_In in H; exact H|].
  destruct (op =? GETOP_LAST); [intros H x; apply S1 in H; subst us; intros H; apply firstn_In, in_rev in H; exact H|].
  destruct (op =? GETOP_LOWEST); [intros H x; apply S1 in H; subst us; intros H; apply firstn_In, filter_In in H as [H _]; apply filter_In in H; tauto|].
  destruct (op =? GETOP_HIGHEST); [intros H x; apply S1 in H; subst us; intros H; apply firstn_In, in_rev, filter_In in H as [H _]; apply filter_In in H; tauto|].
  discriminate.
Qed.
Lemma small_data c b : small c b -> blen (coded_data c b) < 2 ^ 64.
Proof.
  intros H. unfold coded_data. destruct (code c b) as [f|] eqn:E; [exact (proj1 (H f E))|reflexivity].
Qed.
Lemma code_type c b f : code c b = Some f -> f_type f = b_type b.
Proof. intros H. unfold code in H. destruct (c_enc c (b_type b) (b_null b) (b_data b)) as [[e|]| |]; try discriminate H. injection H as <-. reflexivity. Qed.

Lemma lossy_getop k c h d rs ts q : Forall (small_change c) (flat_map changes h) -> ds_run (opened k c) (map CallReq h) = Ok (d, rs) ->
  left_by c (flat_map changes h) ts -> Forall (fun i => exists r, back3 c i r) ts -> answerable k c ts q ->
  exists g, asks d q g /\ replies c ts q g.
Proof.
  intros Hs Hr Hl Hb (Hn & Hk & Hq). destruct (history_coded _ _ _ _ _ Hs Hr) as (rws & -> & Ha).
  destruct (left_contents _ _ _ Ha) as (ts' & us & Hl' & Hc & F). rewrite (left_unique _ _ _ _ Hl' Hl) in F. clear ts' Hl'.
  destruct (agrees_reached k _ _ _ Ha) as (m' & Hre & Em). assert (Hc' : contents (raw c) m' us) by (exact (contents_ext _ _ _ _ Em Hc)).
  assert (A : asks (mkDs k (raw c) true rws []) (raw_req c q) (as_item (raw_req c q) (reply (raw c) us (raw_req c q)))).
  { apply (asks_reply k (raw c) _ m'); [exact Hre|exact Hc'|exact Hn| |].
    - cbn [raw_req oi_op]. destruct (op_has_key (oi_op q)) eqn:E.
      + right. destruct (Hq eq_refl) as (C1 & S1 & S2 & T2 & _). split; split; try discriminate; cbn [raw_req oi_sub oi_pred fld b_data b_type all_can]; apply raw_lossless; cbn [f_data f_type].
        * apply small_data, S1.
        * destruct (code c (oi_sub q)) as [f|] eqn:Ef; [|congruence]. rewrite <- (code_type _ _ _ Ef). exact (proj2 (S1 f Ef)).
        * apply small_data, S2.
        * exact T2.
      + left. unfold op_has_key in E. unfold keyless. destruct (oi_op q =? GETOP_FIRST), (oi_op q =? GETOP_LAST); try discriminate E; reflexivity.
    - cbn [raw_req oi_op]. intros E. destruct (Hk E) as [H1 H2]. split; [exact H1|]. intros X. exact (rel_nil _ _ _ F (H2 X)). }
  rewrite reply_raw in A. pose proof (reply_rel (item_key c) (tkey (raw c)) (coded c) (item_key_coded c) (req_prefix c q) (req_least c q) (oi_op q) (oi_num q) ts us F) as RR.
  unfold asks in A. cbn [operate d_open negb d_kind d_codec d_rows] in A. obind A gs Eg. unfold bgetop in Eg. cbn [omap] in Eg. obind Eg g1 Eg1. apply Ok_inj in Eg. subst gs.
  apply Ok_inj in A. injection A as A. subst g1. unfold getop1 in Eg1. obind Eg1 st Est.
  pose proof (state_sim k c rws q (fun E => let H := Hq E in conj (proj1 H) (proj2 (proj2 (proj2 (proj2 H))))) st Est) as SS.
  unfold replies, reply_of. destruct (reply_by (item_key c) (req_prefix c q) (req_least c q) (oi_op q) (oi_num q) ts) as [is|] eqn:Ei;
    destruct (reply_by (tkey (raw c)) (req_prefix c q) (req_least c q) (oi_op q) (oi_num q) us) as [vs|] eqn:Ev; try contradiction RR.
  - cbn [opt_rel as_item] in *. unfold found in Eg1. destruct (g_unset st) eqn:Eu.
    + apply Ok_inj in Eg1. injection Eg1 as Er. assert (Fi : Forall (fun i => exists r, back3 c i r) is).
      { rewrite Forall_forall in *. intros x Hx. apply Hb. exact (reply_in _ _ _ _ _ _ _ Ei x Hx). }
      destruct (back_all c is vs RR Fi) as (ys & Y1 & Y2). rewrite <- Er in Y2. specialize (SS ys Y2).
      exists (mkGotOp ST_OK ys). split; [|split; [reflexivity|exact Y1]]. apply asks_gives; [reflexivity|]. cbn [d_kind d_codec d_rows]. rewrite SS. reflexivity.
    + obind Eg1 x Ex. apply Ok_inj in Eg1. discriminate Eg1.
  - cbn [as_item] in Eg1. unfold nothing in Eg1. destruct (g_unset st) eqn:Eu; [apply Ok_inj in Eg1; discriminate Eg1|]. obind Eg1 x Ex. apply Ok_inj in Eg1. injection Eg1 as ->.
    unfold error_response in Ex. destruct (N.of_nat (length (g_recs st)) <? oi_num (raw_req c q)); [|discriminate Ex]. apply Ok_inj in Ex.
    assert (g_recs st = []) as E0 by (destruct (g_recs st) as [|a [|b l]]; [reflexivity|discriminate Ex|discriminate Ex]).
    rewrite E0 in SS. specialize (SS [] (Forall2_nil _)). exists (nothing q). split; [|reflexivity]. apply asks_gives; [reflexivity|]. cbn [d_kind d_codec d_rows]. rewrite SS. apply gives_nothing, Hn.
Qed.
Lemma lossy_left k c h d rs : Forall (small_change c) (flat_map changes h) -> ds_run (opened k c) (map CallReq h) = Ok (d, rs) ->
  exists ts, left_by c (flat_map changes h) ts.
Proof. intros Hs Hr. destruct (history_coded _ _ _ _ _ Hs Hr) as (rws & -> & Ha). destruct (left_contents _ _ _ Ha) as (ts & _ & H & _). exists ts. exact H. Qed.

(* ---- GET ---- *)
Lemma lossy_get k c h d rs i sp : Forall (small_change c) (flat_map changes h) -> ds_run (opened k c) (map CallReq h) = Ok (d, rs) ->
  small c (gi_sub i) -> small c (gi_pred i) -> codes c (gi_sub i) (gi_pred i) = Some sp ->
  (exists j, kept c (flat_map changes h) j /\ pair_of c (Put j) = Some sp /\ forall o, back c (pi_obj j) o ->
     operate d (QGet [i]) = Ok (d, Some (RGet [mkGot ST_OK (orig_ref (gi_sub_addr i) (gi_sub i)) (orig_ref (gi_pred_addr i) (gi_pred i)) o]))) \/
  ((forall j, kept c (flat_map changes h) j -> pair_of c (Put j) <> Some sp) /\
     operate d (QGet [i]) = Ok (d, Some (RGet [mkGot ST_ERR (orig_ref (gi_sub_addr i) (gi_sub i)) (orig_ref (gi_pred_addr i) (gi_pred i)) blob_none]))).
Proof.
  intros Hs Hr S1 S2 Hc. destruct (history_coded _ _ _ _ _ Hs Hr) as (rws & -> & Ha). destruct sp as [s p].
  unfold codes in Hc. destruct (code c (gi_sub i)) as [s'|] eqn:E1; [|discriminate Hc]. destruct (code c (gi_pred i)) as [p'|] eqn:E2; [|discriminate Hc].
  injection Hc as -> ->. pose proof (agrees_get _ _ _ s p Ha (small_lossless _ _ _ S1 E1) (small_lossless _ _ _ S2 E2)) as G. rewrite raw_key in G.
  assert (K : key_of c (gi_sub i) (gi_pred i) = Ok (Some (sp_to_key s p))).
  { unfold key_of. pose proof (code_type _ _ _ E1) as T1. pose proof (code_type _ _ _ E2) as T2.
    assert (X1 : enc_blob c (gi_sub i) = Ok (Some (f_data s))) by (apply enc_blob_code; rewrite E1, <- T1; destruct s; reflexivity).
    assert (X2 : enc_blob c (gi_pred i) = Ok (Some (f_data p))) by (apply enc_blob_code; rewrite E2, <- T2; destruct p; reflexivity).
    rewrite X1. unfold obind2. cbn [obind]. rewrite X2. cbn [obind]. rewrite <- T1, <- T2. destruct s, p. reflexivity. }
  destruct (emap c (flat_map changes h) s p) as [o|] eqn:Em.
  - left. apply emap_kept in Em as Em'. destruct Em' as (j & Kj & Cj). exists j. split; [exact Kj|]. split; [exact (coded_pair _ _ _ Cj)|].
    intros b (f & x & Ef & Dx & ->). destruct Cj as (_ & _ & Co). cbn [t_obj] in Co. rewrite Ef in Co. injection Co as ->.
    destruct (ag_lossless _ _ _ Ha _ _ _ Em) as (_ & _ & (e & _ & _ & _ & To)).
    cbn [operate d_open negb d_codec d_rows bget omap]. unfold bget. cbn [omap]. unfold bget1, get_obj. rewrite K. unfold obind2. cbn [obind]. rewrite G, remove_type_value by exact To.
    cbn [obind]. rewrite raw_enc, Dx. cbn [obind]. unfold real_blob. rewrite (code_type _ _ _ Ef). reflexivity.
  - right. split.
    + intros j Kj Pj. destruct (pair_coded _ _ _ _ Pj) as (o & Cj). assert (X : emap c (flat_map changes h) s p = Some o) by (apply emap_kept; exists j; split; assumption). congruence.
    + cbn [operate d_open negb d_codec d_rows]. unfold bget. cbn [omap]. unfold bget1, get_obj. rewrite K. unfold obind2. cbn [obind]. rewrite G. reflexivity.
Qed.
