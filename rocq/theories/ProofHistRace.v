(* Histogram requests while others store *)
From Verif Require Import ModelBytes ProofBytes ModelKey ModelWire ModelHist ModelMsg SpecMsg ProofMsg ModelStore ModelGetOp ModelDs
  SpecHist SpecStore ProofStore ProofDs ProofDs2 ProofDs3 ModelHistRace SpecHistRace.
Local Open Scope N_scope.

(* ---- the bytes ---- *)
Lemma wr_hists_enough l : forall a a', sumN (map sz_hist l) <= a -> sumN (map sz_hist l) <= a' -> wr_hists a l = wr_hists a' l.
Proof.
  induction l as [|i l IH]; intros a a' Ha Ha'; [reflexivity|]. cbn [wr_hists map] in *. rewrite sumN_cons in Ha, Ha'.
  unfold sz_hist at 1 in Ha. unfold sz_hist at 1 in Ha'. destruct (status_ok (hi_status i)).
  - destruct (hi_hist i) as [h|]; [|reflexivity]. destruct (N.ltb_spec a (hist_pack_size h)); [lia|]. destruct (N.ltb_spec a' (hist_pack_size h)); [lia|].
    destruct (hist_pack h) as [b| |] eqn:E; [|reflexivity|reflexivity]. cbn [obind]. apply hist_pack_blen in E.
    rewrite (IH (a - blen b) (a' - blen b)) by lia. reflexivity.
  - rewrite (IH a a') by lia. reflexivity.
Qed.
Lemma reply_bytes src dst l is : msg_ok (mkMsg src dst (RHist is)) -> sumN (map sz_hist is) <= sumN (map hr_size l) ->
  exists b, pack_answer src dst l is = Ok b /\ forall t, unpack_response (b ++ t) = Ok (Some (seen_msg (mkMsg src dst (RHist is)))).
Proof.
  intros Hm Hs. destruct (response_wire (mkMsg src dst (RHist is)) eq_refl Hm) as (b & Hp & Hu & _). exists b. split; [|exact Hu].
  unfold msg_pack in Hp. apply obind_ok in Hp as (bb & Hb & Hp). pose proof (msg_bytes_fit _ _ Hb) as Hf.
  destruct (blen bb <=? msg_size (mkMsg src dst (RHist is))); [|discriminate]. apply Ok_inj in Hp. subst bb.
  unfold msg_bytes in Hb. cbn [m_body] in Hb. apply obind_ok in Hb as (w & Hw & Hb). apply Ok_inj in Hb.
  unfold msg_size in Hw, Hf. cbn [m_body] in Hw, Hf.
  unfold pack_answer. rewrite (wr_hists_enough is (answer_size l - header_size) (header_size + sumN (map sz_hist is) - header_size)); [|unfold answer_size; lia|lia].
  rewrite Hw. cbn [obind]. rewrite Hb. destruct (N.leb_spec (blen b) (answer_size l)); [reflexivity|]. unfold answer_size in *. lia.
Qed.

(* ---- histograms over time ---- *)
Lemma incr_length l : forall i l', incr l i = Ok l' -> length l' = length l.
Proof.
  induction l as [|c l IH]; intros [|i] l' H; cbn [incr] in H; try discriminate.
  - apply Ok_inj in H. subst. reflexivity.
  - apply obind_ok in H as (l2 & E & H). apply Ok_inj in H. subst. cbn. f_equal. eapply IH; eassumption.
Qed.
Lemma insert_settled h v h' : settled h -> hist_insert h v = Ok h' ->
  h_name h' = h_name h /\ h_first_n h' = h_first_n h /\ h_count h' = h_count h /\ h_size h' = h_size h /\
  exists bs cs, h_buckets h' = Some bs /\ h_counts h' = Some cs /\ N.of_nat (length bs) = h_size h' /\ N.of_nat (length cs) = h_size h'.
Proof.
  intros (Hn & bs & cs & Eb & Ec & Lb & Lc & Hz) H. unfold hist_insert in H. rewrite Eb, Ec in H. destruct (h_size h =? 0); [injection H as <-; eauto 12|].
  apply obind_ok in H as (i & Ei & H). destruct i as [|i]; [injection H as <-; eauto 12|].
  apply obind_ok in H as (cs' & Eci & H). apply f_equal with (f := fun o => match o with Ok x => x | _ => h end) in H. subst h'.
  cbn [h_name h_first_n h_count h_size h_buckets h_counts]. apply incr_length in Eci. rewrite <- Eci in Lc. eauto 12.
Qed.
Lemma add_settled h v h' b : settled h -> hist_add h v = Ok (h', b) -> settled h' /\ hist_pack_size h' = hist_pack_size h.
Proof.
  intros Hs H. pose proof Hs as (Hn & bs & cs & Eb & Ec & Lb & Lc & Hz). unfold hist_add in H.
  destruct (N.ltb_spec (h_count h) (h_first_n h)) as [Hlt|_]; [lia|]. cbn [obind] in H. cbn [h_first_n h_count h_buckets] in H.
  destruct (N.leb_spec (h_first_n h) (h_count h + 1)) as [_|Hgt]; [|lia]. rewrite Eb in H.
  destruct (N.ltb_spec (h_first_n h) (h_count h + 1)) as [_|Hgt]; [|lia].
  apply obind_ok in H as (h3 & E & H). injection H as <- _.
  apply insert_settled in E; [|split; [cbn; lia|]; exists bs, cs; cbn; tauto].
  cbn [h_name h_first_n h_count h_size] in E. destruct E as (E1 & E2 & E3 & E4 & bs' & cs' & E5 & E6 & E7 & E8).
  split.
  - split; [lia|]. exists bs', cs'. rewrite E4 in *. tauto.
  - unfold hist_pack_size. rewrite E1, E2, E3, E4. destruct (N.ltb_spec (h_count h + 1) (h_first_n h)); [lia|].
    destruct (N.ltb_spec (h_count h) (h_first_n h)); [lia|]. reflexivity.
Qed.
Lemma adds_settled l : forall h h', settled h -> hist_adds h l = Ok h' -> settled h' /\ hist_pack_size h' = hist_pack_size h.
Proof.
  induction l as [|v l IH]; intros h h' Hs H; [apply Ok_inj in H; subst; auto|]. cbn [hist_adds] in H.
  apply obind_ok in H as ([h1 b] & E & H). apply add_settled in E as [S1 P1]; [|exact Hs]. destruct (IH _ _ S1 H) as [S2 P2]. split; [exact S2|congruence].
Qed.
Lemma tracked_leaves n l : Forall (fun i => fld (pi_pred i) <> mkField n T_BYTE) l -> forall r, tracked n l r = [].
Proof.
  induction 1 as [|i l Hi _ IH]; intros [|st r]; try reflexivity. cbn [tracked]. rewrite IH.
  destruct (feqb (fld (pi_pred i)) (mkField n T_BYTE)) eqn:E; [apply feqb_eq in E; contradiction|]. rewrite andb_false_r. reflexivity.
Qed.
Lemma tracked_run_leaves n h : Forall (leaves n) h -> forall rs, tracked_run n h rs = [].
Proof.
  induction 1 as [|q h Hq _ IH]; intros [|r rs]; try reflexivity; [destruct q; reflexivity|].
  destruct q; cbn [tracked_run]; try apply IH. destruct r as [[]|]; try apply IH. rewrite IH, (tracked_leaves n l Hq). reflexivity.
Qed.
Lemma run_over n qs d d' rs : ds_run d (map CallReq qs) = Ok (d', rs) ->
  match hist_find n (d_hists d) with
  | Some h => exists h', hist_find n (d_hists d') = Some h' /\ (Forall (leaves n) qs -> h' = h) /\
      (settled h -> settled h' /\ hist_pack_size h' = hist_pack_size h)
  | None => hist_find n (d_hists d') = None
  end.
Proof.
  intros H. pose proof (histograms_track n qs _ _ _ H) as T. destruct (hist_find n (d_hists d)) as [h|]; [|exact T].
  destruct T as (h' & Ef & Ea). exists h'. split; [exact Ef|]. split.
  - intros L. rewrite (tracked_run_leaves n qs L) in Ea. apply Ok_inj in Ea. congruence.
  - intros S. eapply adds_settled; eassumption.
Qed.
Lemma ds_run_split l1 l2 : forall d d2 rs, ds_run d (l1 ++ l2) = Ok (d2, rs) -> exists d1 rs1 rs2, ds_run d l1 = Ok (d1, rs1) /\ ds_run d1 l2 = Ok (d2, rs2).
Proof.
  induction l1 as [|x l1 IH]; intros d d2 rs H; [exists d, [], rs; split; [reflexivity|exact H]|]. cbn [app ds_run] in H |- *.
  apply obind_ok in H as ([d1 r] & E & H). apply obind_ok in H as ([d3 rs3] & E3 & H). injection H as <- <-.
  destruct (IH _ _ _ E3) as (da & ra & rb & Ea & Eb). rewrite E. cbn [obind]. rewrite Ea. cbn [obind]. eauto.
Qed.
Lemma ds_run_join l1 l2 d d1 d2 rs1 rs2 : ds_run d l1 = Ok (d1, rs1) -> ds_run d1 l2 = Ok (d2, rs2) -> ds_run d (l1 ++ l2) = Ok (d2, rs1 ++ rs2).
Proof.
  revert d rs1. induction l1 as [|x l1 IH]; intros d rs1 H1 H2; [injection H1 as <- <-; exact H2|]. cbn [app ds_run] in H1 |- *.
  apply obind_ok in H1 as ([da r] & E & H1). apply obind_ok in H1 as ([d3 rs3] & E3 & H1). injection H1 as <- <-. rewrite E. cbn [obind].
  rewrite (IH _ _ E3 H2). reflexivity.
Qed.

(* ---- the reply ---- *)
Lemma answer_now d d' rs b qs : ds_run d (map CallReq qs) = Ok (d', rs) ->
  let r := hd (mkRef_ 0 [] 0) (answer d [b]) in
  item_at d' b (now d' r) /\
  ((forall h, has_hist d (b_data b) h -> settled h \/ Forall (leaves (b_data b)) qs) -> sz_hist (now d' r) = hr_size r).
Proof.
  intros H. pose proof (run_over (b_data b) _ _ _ _ H) as R. cbn [answer map hd]. destruct (hist_find (b_data b) (d_hists d)) as [h|] eqn:E.
  - destruct R as (h' & E' & Rl & Rs). cbn [hr_status]. unfold now. cbn [hr_status hr_name hr_size status_ok]. change (status_ok ST_OK) with true.
    rewrite E'. split; [left; exists h'; split; [exact E'|reflexivity]|]. intros Hc. unfold sz_hist. cbn [hi_status hi_hist]. change (status_ok ST_OK) with true.
    cbn iota. destruct (Hc h E) as [Hs|Hl]; [destruct (Rs Hs) as [_ ->]; reflexivity|rewrite (Rl Hl); reflexivity].
  - unfold now. cbn [hr_status hr_name hr_size]. change (status_ok ST_ERR) with false. split.
    + right. split; [intros h Hh; unfold has_hist in Hh; congruence|reflexivity].
    + intros _. reflexivity.
Qed.
Lemma answer_cons d b names : answer d (b :: names) = answer d [b] ++ answer d names. Proof. reflexivity. Qed.
Lemma answer_one d b : answer d [b] = [hd (mkRef_ 0 [] 0) (answer d [b])]. Proof. reflexivity. Qed.
Lemma moments_ok d0 names : forall before between d d' rs rs0,
  ds_run d0 (map CallReq before) = Ok (d, rs0) -> ds_run d (map CallReq (concat (firstn (length names) between))) = Ok (d', rs) ->
  exists is, moments d (answer d0 names) between = Ok is /\ length is = length names /\
    (forall i b x, nth_error names i = Some b -> nth_error is i = Some x ->
       exists d1 rs1, ds_run d (map CallReq (concat (firstn (S i) between))) = Ok (d1, rs1) /\ item_at d1 b x) /\
    ((forall b h, In b names -> has_hist d0 (b_data b) h -> settled h \/ Forall (leaves (b_data b)) (before ++ concat between)) ->
      sumN (map sz_hist is) = sumN (map hr_size (answer d0 names))).
Proof.
  induction names as [|b names IH]; intros before between d d' rs rs0 H0 H.
  { exists []. split; [reflexivity|]. split; [reflexivity|]. split; [intros [|i]; discriminate|reflexivity]. }
  rewrite answer_cons, answer_one. set (r := hd _ _). cbn [app moments].
  assert (Hx : exists d1 rs1 d2 rs2, ds_run d (map CallReq (hd [] between)) = Ok (d1, rs1) /\
    ds_run d1 (map CallReq (concat (firstn (length names) (tl between)))) = Ok (d2, rs2)).
  { destruct between as [|q between]; cbn [hd tl].
    - exists d, []. rewrite firstn_nil. exists d, []. split; reflexivity.
    - cbn [length firstn concat] in H. rewrite map_app in H. apply ds_run_split in H as (d1 & rs1 & rs2 & E1 & E2). exists d1, rs1, d', rs2. split; assumption. }
  destruct Hx as (d1 & rs1 & d2 & rs2 & E1 & E2). rewrite E1. cbn [obind].
  assert (H01 : ds_run d0 (map CallReq (before ++ hd [] between)) = Ok (d1, rs0 ++ rs1)).
  { rewrite map_app. eapply ds_run_join; eassumption. }
  destruct (IH (before ++ hd [] between) (tl between) d1 d2 rs2 (rs0 ++ rs1) H01 E2) as (is & Em & Ei & Hat & Hsz). rewrite Em. cbn [obind].
  destruct (answer_now d0 d1 _ b _ H01) as [A1 A2]. fold r in A1, A2. eexists. split; [reflexivity|]. split; [cbn; congruence|].
  assert (Hc : forall i, concat (firstn (S i) between) = hd [] between ++ concat (firstn i (tl between))).
  { intros i. destruct between as [|q between]; [rewrite !firstn_nil; reflexivity|reflexivity]. }
  split.
  - intros [|i] b' x Hb Hi'; cbn [nth_error] in Hb, Hi'.
    + injection Hb as <-. injection Hi' as <-. exists d1, rs1. rewrite Hc. cbn [firstn concat]. rewrite app_nil_r. split; [exact E1|exact A1].
    + destruct (Hat i b' x Hb Hi') as (d3 & rs3 & E3 & A3). exists d3, (rs1 ++ rs3). rewrite Hc, map_app. split; [eapply ds_run_join; eassumption|exact A3].
  - intros Hall. cbn [map]. rewrite !sumN_cons.
    assert (Eb : before ++ concat between = (before ++ hd [] between) ++ concat (tl between)).
    { rewrite <- app_assoc. f_equal. destruct between; reflexivity. }
    rewrite Eb in Hall. f_equal.
    + apply A2. intros h Hh. destruct (Hall b h (or_introl eq_refl) Hh) as [Hs|Hl]; [left; exact Hs|right]. apply Forall_app in Hl as [Hl _]. exact Hl.
    + apply Hsz. intros b' h Hb. apply Hall. right. exact Hb.
Qed.
Lemma snapshot src dst d names between junk d' rs :
  ds_run d (map CallReq (concat (firstn (length names) between))) = Ok (d', rs) ->
  (forall b h, In b names -> has_hist d (b_data b) h -> settled h \/ Forall (leaves (b_data b)) (concat between)) ->
  exists is, length is = length names /\
    (forall i b x, nth_error names i = Some b -> nth_error is i = Some x ->
       exists d1 rs1, ds_run d (map CallReq (concat (firstn (S i) between))) = Ok (d1, rs1) /\ item_at d1 b x) /\
    (msg_ok (mkMsg src dst (RHist is)) ->
       histogram_reply src dst d names between junk = Ok (Some (mkMsg src dst (RHist (map seen_hitem is))))).
Proof.
  intros H Hall. destruct (moments_ok d names [] between d d' rs [] eq_refl H) as (is & Em & El & Hat & Hsz). exists is. split; [exact El|]. split; [exact Hat|].
  intros Hm. destruct (reply_bytes src dst (answer d names) is Hm) as (b & Hb & Hu); [rewrite (Hsz Hall); lia|].
  unfold histogram_reply. rewrite Em. cbn [obind]. rewrite Hb. cbn [obind]. apply Hu.
Qed.
