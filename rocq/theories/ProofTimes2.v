(* The results of a response answer the operations of the request, one after the other *)
From Verif Require Import ModelBytes ProofBytes ModelKey ModelWire ModelHist ModelMsg SpecMsg ProofMsg ModelStore ModelGetOp ModelDs
  SpecStore ProofStore ProofDs ProofDs2 ModelElen ModelRoute SpecRoute ProofRoute ProofRoute2 ModelClient SpecClient ProofClient ProofClient2
  ModelTimes SpecTimes ProofTimes.
Local Open Scope Z_scope.

Definition put_of (o : op) : option put_item := match o with OPut s p x => Some (put_req (s, p, x)) | _ => None end.
Definition get_of (o : op) : option get_item := match o with OGet s p ty => Some (get_req (s, p, ty)) | _ => None end.
Definition getop_of (o : op) : option getop_item := match o with OGetOp s p ty n how => Some (getop_req (s, p, ty, n, how)) | _ => None end.
Definition del_of (o : op) : option del_item := match o with ODel s p => Some (del_req (s, p)) | _ => None end.
Definition hist_of (o : op) : option blob := match o with OHist id n => Some (hist_req (id, n)) | _ => None end.
(* the items of a packet and the operations they stand for *)
Definition stand {A} (of_op : op -> option A) (items : list A) (evs : list event) : Prop :=
  Forall2 (fun a ev => of_op (ev_op ev) = Some a) items evs.
Definition kind_answers {A} (wrap : list A -> body) (of_op : op -> option A) : Prop :=
  forall (f : bool) d items evs id src d' b gs, stand of_op items evs -> Forall (fun ev => ev_id ev = id) evs ->
    operate d (if f then seen_body (wrap items) else wrap items) = Ok (d', b) ->
    item_results (mkMsg id src (if f then seen_body (resp (wrap items) b) else resp (wrap items) b)) = Ok gs ->
    gs = [] \/ Forall2 answers evs gs.

Lemma bput_refs k c : forall l db db' sts, bput k c db l = Ok (db', sts) ->
  Forall2 (fun i st => si_sub st = orig_ref (pi_sub_addr i) (pi_sub i) /\ si_pred st = orig_ref (pi_pred_addr i) (pi_pred i)) l sts.
Proof.
  destruct k; cbn [bput].
  - induction l as [|i l IH]; intros db db' sts H; cbn [im_bput] in H; [injection H as _ <-; constructor|].
    obind H kv Ek. destruct (match kv with Some (k, v) => (db_put k v db, ST_OK) | None => (db, ST_ERR) end) as [db1 st].
    obind H r Er. destruct r as [db2 r]. injection H as _ <-. constructor; [split; reflexivity|eapply IH, Er].
  - intros l db db' sts H. unfold ldb_bput in H. obind H b Eb. injection H as _ <-. clear. induction l; constructor; [split; reflexivity|assumption].
Qed.
Lemma bdel_refs k c : forall l db db' sts, bdel k c db l = Ok (db', sts) ->
  Forall2 (fun i st => si_sub st = orig_ref (di_sub_addr i) (di_sub i) /\ si_pred st = orig_ref (di_pred_addr i) (di_pred i)) l sts.
Proof.
  destruct k; cbn [bdel].
  - induction l as [|i l IH]; intros db db' sts H; cbn [im_bdel] in H; [injection H as _ <-; constructor|].
    obind H kv Ek. destruct (match kv with Some k => match db_get k db with Some _ => (db_del k db, ST_OK) | None => (db, ST_ERR) end | None => (db, ST_ERR) end) as [db1 st].
    obind H r Er. destruct r as [db2 r]. injection H as _ <-. constructor; [split; reflexivity|eapply IH, Er].
  - intros l db db' sts H. unfold ldb_bdel in H. obind H b Eb. injection H as _ <-. clear. induction l; constructor; [split; reflexivity|assumption].
Qed.
Lemma bget_refs c db : forall l gs, bget c db l = Ok gs ->
  Forall2 (fun i g => go_sub g = orig_ref (gi_sub_addr i) (gi_sub i) /\ go_pred g = orig_ref (gi_pred_addr i) (gi_pred i)) l gs.
Proof.
  unfold bget. induction l as [|i l IH]; intros gs H; cbn [omap] in H; [injection H as <-; constructor|].
  obind H y Ey. obind H r Er. injection H as <-. constructor; [|apply IH, Er]. unfold bget1 in Ey. obind Ey o Eo. injection Ey as <-. split; reflexivity.
Qed.

Lemma answers_put : kind_answers QPut put_of.
Proof.
  intros f d items evs id src d' b gs S I H G.
  destruct (d_open d) eqn:Ho; [|rewrite operate_closed in H by (auto; destruct f; exact Logic.I); injection H as _ <-; left; destruct f; injection G as <-; reflexivity].
  assert (X : exists l', (if f then seen_body (QPut items) else QPut items) = QPut l' /\
     Forall2 (fun i ev => exists s p o, ev_op ev = OPut s p o /\ orig_ref (pi_sub_addr i) (pi_sub i) = arg_ref s /\ orig_ref (pi_pred_addr i) (pi_pred i) = arg_ref p) l' evs).
  { destruct f; eexists; (split; [reflexivity|]); clear -S; induction S as [|a ev items evs Hd _ IH]; try (constructor; fail);
      cbn [map]; constructor; auto; destruct (ev_op ev) as [s p o| | | |]; try discriminate; injection Hd as <-; exists s, p, o; repeat split; reflexivity. }
  destruct X as (l' & E & F). rewrite E, operate_put in H by exact Ho. obind H r Er. destruct r as [db sts]. obind H hs Eh. injection H as _ <-.
  right. apply bput_refs in Er. cbn [resp] in G. assert (G' : item_results (mkMsg id src (RPut sts)) = Ok gs) by (destruct f; exact G).
  apply Ok_inj in G'. subst gs. cbn [m_src]. clear -F Er I. revert sts Er. induction F as [|i ev l evs (s & p & o & Eo & R1 & R2) F IH]; intros sts Er;
    inversion Er as [|i' st l1 sts1 [S1 S2] Er']; subst; cbn [map]; [constructor|]. inversion I as [|e1 l2 I1 I2]; subst. constructor; [|apply IH; assumption].
  unfold answers. rewrite Eo. eexists. rewrite S1, S2, R1, R2. reflexivity.
Qed.
Lemma answers_del : kind_answers QDel del_of.
Proof.
  intros f d items evs id src d' b gs S I H G.
  destruct (d_open d) eqn:Ho; [|rewrite operate_closed in H by (auto; destruct f; exact Logic.I); injection H as _ <-; left; destruct f; injection G as <-; reflexivity].
  assert (X : exists l', (if f then seen_body (QDel items) else QDel items) = QDel l' /\
     Forall2 (fun i ev => exists s p, ev_op ev = ODel s p /\ orig_ref (di_sub_addr i) (di_sub i) = arg_ref s /\ orig_ref (di_pred_addr i) (di_pred i) = arg_ref p) l' evs).
  { destruct f; eexists; (split; [reflexivity|]); clear -S; induction S as [|a ev items evs Hd _ IH]; try (constructor; fail);
      cbn [map]; constructor; auto; destruct (ev_op ev) as [| | |s p|]; try discriminate; injection Hd as <-; exists s, p; repeat split; reflexivity. }
  destruct X as (l' & E & F). rewrite E, operate_del in H by exact Ho. obind H r Er. destruct r as [db sts]. injection H as _ <-.
  right. apply bdel_refs in Er. cbn [resp] in G. assert (G' : item_results (mkMsg id src (RDel sts)) = Ok gs) by (destruct f; exact G).
  apply Ok_inj in G'. subst gs. cbn [m_src]. clear -F Er I. revert sts Er. induction F as [|i ev l evs (s & p & Eo & R1 & R2) F IH]; intros sts Er;
    inversion Er as [|i' st l1 sts1 [S1 S2] Er']; subst; cbn [map]; [constructor|]. inversion I as [|e1 l2 I1 I2]; subst. constructor; [|apply IH; assumption].
  unfold answers. rewrite Eo. eexists. rewrite S1, S2, R1, R2. reflexivity.
Qed.
Lemma answers_get : kind_answers QGet get_of.
Proof.
  intros f d items evs id src d' b gs S I H G.
  destruct (d_open d) eqn:Ho; [|rewrite operate_closed in H by (auto; destruct f; exact Logic.I); injection H as _ <-; left; destruct f; injection G as <-; reflexivity].
  assert (X : exists l', (if f then seen_body (QGet items) else QGet items) = QGet l' /\
     Forall2 (fun i ev => exists s p ty, ev_op ev = OGet s p ty /\ orig_ref (gi_sub_addr i) (gi_sub i) = arg_ref s /\ orig_ref (gi_pred_addr i) (gi_pred i) = arg_ref p) l' evs).
  { destruct f; eexists; (split; [reflexivity|]); clear -S; induction S as [|a ev items evs Hd _ IH]; try (constructor; fail);
      cbn [map]; constructor; auto; destruct (ev_op ev) as [|s p ty| | |]; try discriminate; injection Hd as <-; exists s, p, ty; repeat split; reflexivity. }
  destruct X as (l' & E & F). rewrite E, operate_get in H by exact Ho. obind H r Er. injection H as _ <-.
  right. apply (bget_refs (d_codec d) (d_rows d)) in Er. cbn [resp] in G.
  assert (G' : exists r', item_results (mkMsg id src (RGet r')) = Ok gs /\ Forall2 (fun g g' => go_sub g' = go_sub g /\ go_pred g' = go_pred g) r r').
  { destruct f; [exists (map seen_got r)|exists r]; (split; [exact G|]); clear; induction r; constructor; auto. }
  destruct G' as (r' & G' & FR). apply Ok_inj in G'. subst gs. cbn [m_src]. clear -F Er I FR. revert r r' Er FR.
  induction F as [|i ev l evs (s & p & ty & Eo & R1 & R2) F IH]; intros r r' Er FR;
    inversion Er as [|i' st l1 sts1 [S1 S2] Er']; subst; inversion FR as [|g g' l3 l4 [T1 T2] FR']; subst; cbn [map]; [constructor|].
  inversion I as [|e1 l2 I1 I2]; subst. constructor; [|eapply IH; eassumption].
  unfold answers. rewrite Eo. eexists _, _. rewrite T1, T2, S1, S2, R1, R2. reflexivity.
Qed.
Lemma answers_getop : kind_answers QGetOp getop_of.
Proof.
  intros f d items evs id src d' b gs S I H G.
  destruct (d_open d) eqn:Ho; [|rewrite operate_closed in H by (auto; destruct f; exact Logic.I); injection H as _ <-; left; destruct f; injection G as <-; reflexivity].
  assert (X : exists l', (if f then seen_body (QGetOp items) else QGetOp items) = QGetOp l' /\ length l' = length evs).
  { destruct f; eexists; (split; [reflexivity|]); rewrite ?map_length; exact (Forall2_len _ _ _ S). }
  destruct X as (l' & E & F). rewrite E, operate_getop in H by exact Ho. obind H r Er. injection H as _ <-.
  right. apply omap_length in Er. cbn [resp] in G.
  assert (G' : exists r', omap (getop_results id) r' = Ok gs /\ length r' = length r).
  { destruct f; [exists (map seen_gotop r)|exists r]; (split; [exact G|]); rewrite ?map_length; reflexivity. }
  destruct G' as (r' & G' & L). assert (L' : length r' = length evs) by congruence. clear -G' L' I S.
  assert (O : Forall (fun ev => exists s p ty n how, ev_op ev = OGetOp s p ty n how) evs).
  { clear -S. induction S as [|a ev items evs Hd _ IH]; constructor; auto. destruct (ev_op ev) as [| |s p ty n how| |]; try discriminate. repeat eexists. }
  clear S items. revert gs evs G' L' I O. induction r' as [|g r' IH]; intros gs evs G L I O; cbn [omap] in G.
  - injection G as <-. destruct evs; [constructor|discriminate].
  - obind G y Ey. obind G z Ez. injection G as <-. destruct evs as [|ev evs]; [discriminate|]. inversion I as [|e1 l2 I1 I2]; subst. inversion O as [|e2 l3 O1 O2]; subst.
    constructor; [|apply IH; auto]. destruct O1 as (s & p & ty & n & how & Eo). unfold answers. rewrite Eo. unfold getop_results in Ey.
    destruct (gp_recs g) as [|rc rs]; [discriminate|]. injection Ey as <-. split; [discriminate|]. cbn [map]. constructor; [repeat eexists|].
    clear. induction rs; constructor; auto. repeat eexists.
Qed.
Lemma answers_hist : kind_answers QHist hist_of.
Proof.
  intros f d items evs id src d' b gs S I H G. right.
  assert (O : Forall (fun ev => exists i n, ev_op ev = OHist i n) evs /\ length items = length evs).
  { split; [|exact (Forall2_len _ _ _ S)]. clear -S. induction S as [|a ev items evs Hd _ IH]; constructor; auto. destruct (ev_op ev) as [| | | |i n]; try discriminate. repeat eexists. }
  destruct O as [O L]. assert (X : exists l, item_results (mkMsg id src (RHist l)) = Ok gs /\ length l = length evs).
  { destruct f; cbn [seen_body operate] in H; injection H as _ <-; cbn [resp seen_body] in G; eexists; (split; [exact G|]); rewrite ?map_length; exact L. }
  destruct X as (l & G' & L'). apply Ok_inj in G'. subst gs. cbn [m_src]. clear -I O L'. revert evs I O L'.
  induction l as [|h l IH]; intros evs I O L; destruct evs as [|ev evs]; try discriminate; cbn [map]; constructor;
    inversion I as [|e1 l2 I1 I2]; subst; inversion O as [|e2 l3 O1 O2]; subst.
  - destruct O1 as (i & n & Eo). unfold answers. rewrite Eo. eexists _, _. reflexivity.
  - apply IH; auto.
Qed.
