(* GETOP *)
From Verif Require Import ModelBytes ProofBytes ModelKey ProofKey ModelWire ModelHist ModelMsg ModelStore ModelGetOp ModelDs
  SpecStore ProofStore ProofDs ProofDs2 ProofDs3 SpecGetOp.
Local Open Scope N_scope.

(* ---- rows and triples ---- *)
Definition row (c : codec) (t : triple) : bytes * bytes := (tkey c t, value c (t_obj t)).

Lemma sorted_same {A} (R : A -> A -> Prop) (Hi : forall x, ~ R x x) (Ht : forall x y z, R x y -> R y z -> R x z) l l' :
  StronglySorted R l -> StronglySorted R l' -> (forall x, In x l <-> In x l') -> l = l'.
Proof.
  revert l'; induction l as [|x l IH]; intros l' H H' E.
  - destruct l' as [|y l']; [reflexivity|]. destruct (proj2 (E y)). left; reflexivity.
  - destruct l' as [|y l']; [destruct (proj1 (E x)); left; reflexivity|].
    inversion H as [|? ? Hl Hx]; subst. inversion H' as [|? ? Hl' Hy]; subst. rewrite Forall_forall in Hx, Hy.
    assert (x = y).
    { destruct (proj1 (E x) (or_introl eq_refl)) as [->|Hin]; [reflexivity|].
      destruct (proj2 (E y) (or_introl eq_refl)) as [->|Hin']; [reflexivity|].
      destruct (Hi x). eapply Ht; [apply Hx, Hin'|apply Hy, Hin]. }
    subst y. f_equal. apply IH; [assumption..|]. intros z. split; intros Hz.
    + destruct (proj1 (E z) (or_intror Hz)) as [->|]; [|assumption]. destruct (Hi z). apply Hx, Hz.
    + destruct (proj2 (E z) (or_intror Hz)) as [->|]; [|assumption]. destruct (Hi z). apply Hy, Hz.
Qed.

Lemma contents_rows c m ts db : agrees c db m -> contents c m ts -> db = map (row c) ts.
Proof.
  intros [Hs _ Hi] [Ht Hc].
  apply (sorted_same (fun a b : bytes * bytes => blt (fst a) (fst b))).
  - intros x. apply blt_irrefl.
  - intros x y z. apply blt_trans.
  - exact Hs.
  - clear - Ht. induction Ht as [|t ts Ht IH Hf]; [constructor|]. cbn. constructor; [exact IH|].
    clear - Hf. induction Hf as [|u ts Hu Hf IH]; [constructor|]. cbn. constructor; [apply bltb_true, Hu|exact IH].
  - intros [k v]. rewrite Hi, in_map_iff. split.
    + intros (s & p & o & E & -> & ->). exists (mkTriple s p o). split; [reflexivity|]. apply Hc, E.
    + intros (t & E & Hin). unfold row in E. injection E as <- <-. exists (t_sub t), (t_pred t), (t_obj t).
      split; [apply Hc, Hin|]. split; reflexivity.
Qed.
Lemma rows_contents c m db : agrees c db m -> exists ts, contents c m ts /\ db = map (row c) ts.
Proof.
  intros Ha.
  assert (X : exists ts, db = map (row c) ts /\ forall t, In t ts -> m (t_sub t) (t_pred t) = Some (t_obj t)).
  { destruct Ha as [_ _ Hi].
    assert (H : forall r, In r db -> exists s p o, m s p = Some o /\ fst r = key c s p /\ snd r = value c o).
    { intros [k v] Hr. apply Hi in Hr as (s & p & o & ? & -> & ->). exists s, p, o. auto. }
    clear Hi. induction db as [|r db IH]; [exists []; split; [reflexivity|intros t []]|].
    destruct IH as (ts & E & F); [intros x Hx; apply H; right; exact Hx|].
    destruct (H r (or_introl eq_refl)) as (s & p & o & Hm & E1 & E2).
    exists (mkTriple s p o :: ts). split; [cbn [map]; f_equal; [destruct r; unfold row, tkey; cbn [t_sub t_pred t_obj fst snd] in *; congruence|exact E]|].
    intros t [<-|Ht]; [exact Hm|apply F, Ht]. }
  destruct X as (ts & E & F). exists ts. split; [|exact E]. subst db. destruct Ha as [Hs Hl Hi]. split.
  - clear Hi F. unfold sorted in Hs. induction ts as [|t ts IH]; [constructor|]. cbn in Hs. inversion Hs as [|? ? H1 H2]; subst.
    constructor; [apply IH, H1|]. clear - H2. induction ts as [|u ts IH]; [constructor|]. inversion H2; subst. constructor; [apply bltb_true; assumption|auto].
  - intros t. split; [apply F|]. intros Hm.
    assert (Hin : In (key c (t_sub t) (t_pred t), value c (t_obj t)) (map (row c) ts)) by (apply Hi; eauto 6).
    apply in_map_iff in Hin as (u & E & Hu). unfold row, tkey in E. injection E as E1 E2.
    pose proof (F u Hu) as Hmu. destruct (Hl _ _ _ Hm) as (A1 & A2 & A3), (Hl _ _ _ Hmu) as (B1 & B2 & B3).
    destruct (key_inj c _ _ _ _ B1 B2 A1 A2 E1) as [Es Ep]. rewrite Es, Ep in Hmu. rewrite Hm in Hmu. injection Hmu as Eo.
    destruct t, u; cbn in *; subst; exact Hu.
Qed.
Lemma contents_exist k c d m : reached k c d m -> exists ts, contents c m ts.
Proof. intros H. destruct (reached_agrees _ _ _ _ H) as (rws & _ & Ha). destruct (rows_contents _ _ _ Ha) as (ts & Hc & _). eauto. Qed.

Definition whole (c : codec) (t : triple) : Prop := lossless c (t_sub t) /\ lossless c (t_pred t) /\ lossless c (t_obj t).
Lemma contents_whole c m ts db : agrees c db m -> contents c m ts -> Forall (whole c) ts.
Proof.
  intros Ha [_ Hc]. apply Forall_forall. intros t Ht. apply Hc in Ht. destruct (ag_lossless _ _ _ Ha _ _ _ Ht) as (? & ? & ?). repeat split; assumption.
Qed.
Definition tsorted (c : codec) (ts : list triple) : Prop := StronglySorted (fun t u => bltb (tkey c t) (tkey c u) = true) ts.

(* ---- copying ---- *)
Lemma copy_row c cap t j recs : whole c t -> j < cap ->
  copy_response c cap (row c t) j (mkGst true recs) = Ok (mkGst true (recs ++ [seen3 t])).
Proof.
  intros (Hs & Hp & Ho) Hj. unfold copy_response. cbn [g_unset negb row fst snd g_recs]. unfold tkey, key.
  rewrite key_to_sp_of_key by (apply enc_field_ok; assumption). cbn [obind].
  pose proof (enc_lossless c _ Hs) as (_ & Ds & _ & _). pose proof (enc_lossless c _ Hp) as (_ & Dp & _ & _).
  pose proof (enc_lossless c _ Ho) as (_ & Do & _ & To).
  rewrite remove_type_value by exact To. cbn [obind f_type f_data]. unfold obind2.
  rewrite Ds. cbn [obind]. rewrite Dp. cbn [obind]. rewrite Do. cbn [obind].
  apply N.ltb_lt in Hj. rewrite Hj. reflexivity.
Qed.

Fixpoint while (f : triple -> bool) (ts : list triple) : list triple :=
  match ts with [] => [] | t :: ts' => if f t then t :: while f ts' else [] end.
Lemma walk_rows c n cond f ts : Forall (whole c) ts -> Forall (fun t => cond (tkey c t) = Ok (f t)) ts ->
  forall j recs, walk c n cond (map (row c) ts) j (mkGst true recs) =
    Ok (mkGst true (recs ++ map seen3 (firstn (N.to_nat (n - j)) (while f ts)))).
Proof.
  induction ts as [|t ts IH]; intros Hw Hc j recs; [cbn; rewrite firstn_nil, app_nil_r; reflexivity|].
  inversion Hw as [|? ? W1 W2]; inversion Hc as [|? ? C1 C2]; subst. cbn [map walk]. change (fst (row c t)) with (tkey c t).
  destruct (N.ltb_spec j n) as [Hj|Hj].
  - rewrite C1. cbn [obind while]. destruct (f t).
    + rewrite copy_row by assumption. cbn [obind]. rewrite IH by assumption.
      replace (N.to_nat (n - j)) with (S (N.to_nat (n - (j + 1)))) by lia. cbn [firstn map]. rewrite <- app_assoc. reflexivity.
    + rewrite firstn_nil. cbn. rewrite app_nil_r. reflexivity.
  - replace (n - j) with 0 by lia. cbn. rewrite app_nil_r. reflexivity.
Qed.
Lemma while_all ts : while (fun _ => true) ts = ts.
Proof. induction ts; cbn; congruence. Qed.
Lemma walk_always c n ts : Forall (whole c) ts ->
  walk c n always (map (row c) ts) 0 start = Ok (mkGst true (map seen3 (first n ts))).
Proof.
  intros H. unfold start. rewrite (walk_rows c n always (fun _ => true)); [|exact H|].
  - rewrite while_all, N.sub_0_r. reflexivity.
  - apply Forall_forall. reflexivity.
Qed.

(* ---- splitting ---- *)
Lemma span_filter c below ts : (forall a b, blt a b -> below b = true -> below a = true) -> tsorted c ts ->
  span below (map (row c) ts) = (map (row c) (filter (fun t => below (tkey c t)) ts), map (row c) (filter (fun t => negb (below (tkey c t))) ts)).
Proof.
  intros Hm. induction 1 as [|t ts Hs IH Hf]; [reflexivity|]. cbn [map span filter]. change (fst (row c t)) with (tkey c t).
  destruct (below (tkey c t)) eqn:E.
  - rewrite IH. reflexivity.
  - cbn [negb map]. rewrite Forall_forall in Hf.
    assert (F : forall u, In u ts -> below (tkey c u) = false).
    { intros u Hu. specialize (Hf u Hu). apply bltb_true in Hf. destruct (below (tkey c u)) eqn:Eu; [|reflexivity].
      rewrite (Hm _ _ Hf Eu) in E. discriminate. }
    clear IH Hf Hs. f_equal.
    + induction ts as [|u ts IH]; [reflexivity|]. cbn [filter]. rewrite (F u) by (left; reflexivity). apply IH. intros v Hv. apply F; right; exact Hv.
    + f_equal. induction ts as [|u ts IH]; [reflexivity|]. cbn [filter]. rewrite (F u) by (left; reflexivity). cbn [negb map]. f_equal. apply IH. intros v Hv. apply F; right; exact Hv.
Qed.
Lemma negb_bltb a b : negb (bltb a b) = bleb b a.
Proof. destruct (bltb a b) eqn:E; cbn; symmetry; [apply bltb_true in E; apply bleb_false; exact E|apply bltb_false in E; apply bleb_true; exact E]. Qed.
Lemma lower_rows c k ts : tsorted c ts -> lower k (map (row c) ts) = (map (row c) (filter (under c k) ts), map (row c) (filter (over c k) ts)).
Proof.
  intros H. unfold lower. rewrite (span_filter c); [|intros a b H1 H2; apply bltb_true; apply bltb_true in H2; eapply blt_trans; eassumption|exact H].
  f_equal. f_equal. apply filter_ext. intros t. unfold over. apply negb_bltb.
Qed.
Lemma filter_whole c f ts : Forall (whole c) ts -> Forall (whole c) (filter f ts).
Proof. intros H. apply Forall_forall. intros t Ht. apply filter_In in Ht as [Ht _]. rewrite Forall_forall in H. auto. Qed.
Lemma rev_whole c ts : Forall (whole c) ts -> Forall (whole c) (rev ts).
Proof. intros H. apply Forall_forall. intros t Ht. apply in_rev in Ht. rewrite Forall_forall in H. auto. Qed.

(* ---- the request ---- *)
Lemma state_prefix k c can rws i : fits c can i -> op_has_key (oi_op i) = true ->
  getop_state k c rws i = getop_body k c rws (oi_op i) (oi_num i) (prefix_of c can i) (least c can i).
Proof.
  intros [Hs Hp] Hk. unfold getop_state. rewrite Hk, (enc_blob_can c all_can (oi_sub i) Hs eq_refl). cbn [obind].
  unfold prefix_of, least, pred_enc, get_seek. destruct (can (oi_pred i)) eqn:E.
  - rewrite (enc_blob_can c can (oi_pred i) Hp E). cbn [obind].
    unfold prefix_of, pred_enc. rewrite E. destruct ((blen _ =? 0) && _); reflexivity.
  - rewrite (enc_blob_cannot c can (oi_pred i) Hp E). cbn [obind].
    unfold prefix_of, pred_enc. rewrite E. destruct ((blen _ =? 0) && _); reflexivity.
Qed.

(* the state a request leaves is its result *)
Definition gives (i : getop_item) (x : outcome gst) (g : gotop_item) : Prop :=
  (do st <- x; if g_unset st then Ok (mkGotOp ST_OK (g_recs st))
               else do recs <- error_response (oi_num i) i (g_recs st); Ok (mkGotOp ST_ERR recs)) = Ok g.
Lemma gives_found i ts : gives i (Ok (mkGst true (map seen3 ts))) (found ts).
Proof. reflexivity. Qed.
Lemma gives_nothing i : 1 <= oi_num i -> gives i (Ok (fail start)) (nothing i).
Proof.
  intros H. unfold gives, error_response. cbn [obind fail start g_unset g_recs List.length].
  assert (E : N.of_nat 0 <? oi_num i = true) by (apply N.ltb_lt; lia). rewrite E. reflexivity.
Qed.
Lemma asks_gives d i g : d_open d = true -> gives i (getop_state (d_kind d) (d_codec d) (d_rows d) i) g -> asks d i g.
Proof.
  intros Ho H. unfold asks. cbn [operate]. rewrite Ho. cbn [negb]. unfold bgetop. cbn [omap]. unfold getop1. unfold gives in H.
  rewrite H. reflexivity.
Qed.

Lemma reached_rows k c d m ts : reached k c d m -> contents c m ts ->
  d_open d = true /\ d_kind d = k /\ d_codec d = c /\ d_rows d = map (row c) ts /\ Forall (whole c) ts /\ tsorted c ts.
Proof.
  intros Hr Hc. destruct (reached_agrees _ _ _ _ Hr) as (rws & -> & Ha). cbn.
  pose proof (contents_rows _ _ _ _ Ha Hc). pose proof (contents_whole _ _ _ _ Ha Hc). destruct Hc as [Hc _]. repeat split; assumption.
Qed.
Lemma asks_state k c d m ts i g : reached k c d m -> contents c m ts ->
  gives i (getop_state k c (map (row c) ts) i) g -> asks d i g.
Proof.
  intros Hr Hc H. destruct (reached_rows _ _ _ _ _ Hr Hc) as (Ho & Hk & Hcd & Hrw & _). apply asks_gives; [exact Ho|].
  rewrite Hk, Hcd, Hrw. exact H.
Qed.

(* ---- FIRST and LAST ---- *)
Lemma first_spec k c d m ts i : reached k c d m -> contents c m ts -> oi_op i = GETOP_FIRST -> 1 <= oi_num i ->
  asks d i (match ts with [] => nothing i | _ => found (first (oi_num i) ts) end).
Proof.
  intros Hr Hc Hop Hn. eapply asks_state; [eassumption..|].
  destruct (reached_rows _ _ _ _ _ Hr Hc) as (_ & _ & _ & _ & Hw & _).
  unfold getop_state. rewrite Hop. cbn [op_has_key].
  assert (E : getop_body k c (map (row c) ts) GETOP_FIRST (oi_num i) [] [] =
    match map (row c) ts with [] => Ok (fail start) | _ => walk c (oi_num i) always (map (row c) ts) 0 start end) by (destruct k; reflexivity).
  cbn. rewrite E. destruct ts as [|t ts]; [apply gives_nothing, Hn|].
  cbn [map]. change (row c t :: map (row c) ts) with (map (row c) (t :: ts)). rewrite walk_always by exact Hw. apply gives_found.
Qed.
Lemma last_spec k c d m ts i : reached k c d m -> contents c m ts -> oi_op i = GETOP_LAST -> 1 <= oi_num i -> (k = InMemory -> ts <> []) ->
  asks d i (match ts with [] => nothing i | _ => found (first (oi_num i) (rev ts)) end).
Proof.
  intros Hr Hc Hop Hn He. eapply asks_state; [eassumption..|].
  destruct (reached_rows _ _ _ _ _ Hr Hc) as (_ & _ & _ & _ & Hw & _).
  unfold getop_state. rewrite Hop. cbn [op_has_key].
  assert (E : getop_body k c (map (row c) ts) GETOP_LAST (oi_num i) [] [] =
    match map (row c) ts with [] => match k with InMemory => UB | LevelDB => Ok (fail start) end | _ => walk c (oi_num i) always (rev (map (row c) ts)) 0 start end)
    by (destruct k; destruct ts; reflexivity).
  cbn. rewrite E. destruct ts as [|t ts].
  - destruct k; [destruct He; reflexivity|]. apply gives_nothing, Hn.
  - set (l := t :: ts) in *. change (map (row c) l) with (row c t :: map (row c) ts) at 1. cbv iota.
    rewrite <- map_rev, walk_always by (apply rev_whole, Hw). apply gives_found.
Qed.

(* ---- NEXT, PREV, EQ ---- *)
Section Keyed.
Context (k : backend) (c : codec) (can : blob -> bool) (d : ds) (m : tmap) (ts : list triple) (i : getop_item).
Context (Hr : reached k c d m) (Hc : contents c m ts) (Hf : fits c can i).
Let P := prefix_of c can i.
Let hi := filter (over c P) ts.
Let lo := filter (under c P) ts.

Lemma next_spec : oi_op i = GETOP_NEXT -> 1 <= oi_num i ->
  asks d i (match hi with [] => nothing i | _ => found (first (oi_num i) hi) end).
Proof.
  intros Hop Hn. eapply asks_state; [eassumption..|].
  destruct (reached_rows _ _ _ _ _ Hr Hc) as (_ & _ & _ & _ & Hw & Hs).
  rewrite (state_prefix k c can) by (rewrite ?Hop; assumption || reflexivity). fold P. rewrite Hop.
  assert (E : getop_body k c (map (row c) ts) GETOP_NEXT (oi_num i) P (least c can i) =
    match snd (lower P (map (row c) ts)) with [] => Ok (fail start) | h => walk c (oi_num i) always h 0 start end) by (destruct k; reflexivity).
  rewrite E, lower_rows by exact Hs. cbn [snd]. fold hi.
  assert (Hh : Forall (whole c) hi) by apply filter_whole, Hw.
  destruct hi as [|t h]; [apply gives_nothing, Hn|]. cbn [map]. change (row c t :: map (row c) h) with (map (row c) (t :: h)).
  rewrite walk_always by exact Hh. apply gives_found.
Qed.
Lemma prev_spec : oi_op i = GETOP_PREV -> 1 <= oi_num i ->
  asks d i (match hi with [] => nothing i | t :: _ => found (first (oi_num i) (t :: rev lo)) end).
Proof.
  intros Hop Hn. eapply asks_state; [eassumption..|].
  destruct (reached_rows _ _ _ _ _ Hr Hc) as (_ & _ & _ & _ & Hw & Hs).
  rewrite (state_prefix k c can) by (rewrite ?Hop; assumption || reflexivity). fold P. rewrite Hop.
  assert (E : getop_body k c (map (row c) ts) GETOP_PREV (oi_num i) P (least c can i) =
    match lower P (map (row c) ts) with (_, []) => Ok (fail start) | (l, r :: _) => walk c (oi_num i) always (r :: rev l) 0 start end) by (destruct k; reflexivity).
  rewrite E, lower_rows by exact Hs. fold hi. fold lo.
  assert (Hh : Forall (whole c) hi) by apply filter_whole, Hw. assert (Hl : Forall (whole c) lo) by apply filter_whole, Hw.
  destruct hi as [|t h]; [apply gives_nothing, Hn|]. cbn [map]. rewrite <- map_rev.
  change (row c t :: map (row c) (rev lo)) with (map (row c) (t :: rev lo)). rewrite walk_always; [apply gives_found|].
  inversion Hh; subst. constructor; [assumption|apply rev_whole, Hl].
Qed.
Lemma eq_spec : oi_op i = GETOP_EQ -> 1 <= oi_num i ->
  asks d i (match hi with [] => nothing i | t :: _ => found [t] end).
Proof.
  intros Hop Hn. eapply asks_state; [eassumption..|].
  destruct (reached_rows _ _ _ _ _ Hr Hc) as (_ & _ & _ & _ & Hw & Hs).
  rewrite (state_prefix k c can) by (rewrite ?Hop; assumption || reflexivity). fold P. rewrite Hop.
  assert (E : getop_body k c (map (row c) ts) GETOP_EQ (oi_num i) P (least c can i) =
    match snd (lower P (map (row c) ts)) with r :: _ => copy_response c (oi_num i) r 0 start | [] => Ok (fail start) end) by (destruct k; reflexivity).
  rewrite E, lower_rows by exact Hs. cbn [snd]. fold hi.
  assert (Hh : Forall (whole c) hi) by apply filter_whole, Hw.
  destruct hi as [|t h]; [apply gives_nothing, Hn|]. cbn [map]. inversion Hh; subst. unfold start. rewrite copy_row; [|assumption|lia].
  apply (gives_found i [t]).
Qed.

(* keys that start with the prefix are next to each other *)
Lemma while_prefix z us : tsorted c us -> Forall (fun t => ble (P ++ z) (tkey c t)) us ->
  while (fun t => starts_with P (tkey c t)) us = filter (fun t => starts_with P (tkey c t)) us.
Proof.
  induction 1 as [|t us Hs IH Hfo]; intros Hz; [reflexivity|]. inversion Hz as [|? ? Z1 Z2]; subst. cbn [while filter].
  destruct (starts_with P (tkey c t)) eqn:E; [f_equal; apply IH, Z2|].
  assert (X : forall u, In u us -> starts_with P (tkey c u) = false).
  { intros u Hu. destruct (starts_with P (tkey c u)) eqn:Eu; [|reflexivity]. exfalso.
    rewrite Forall_forall in Hfo. specialize (Hfo u Hu). apply bltb_true in Hfo.
    apply starts_with_app in Eu as (x & Ex). rewrite Ex in Hfo.
    assert (Y : ble P (tkey c t)) by (eapply ble_trans; [apply ble_app_r|exact Z1]).
    clear - E Hfo Y. revert Hfo Y E. generalize (tkey c t) as q. generalize P as p. intros p; induction p as [|a p IH]; intros q; [discriminate|].
    destruct q as [|b q]; [intros _ Y; destruct Y; reflexivity|]. cbn. unfold blt, ble. cbn.
    destruct (N.compare_spec (N_of_ascii a) (N_of_ascii b)) as [Eab|Hab|Hab].
    - apply N_of_ascii_inj in Eab as ->. rewrite N.compare_refl, Ascii.eqb_refl. cbn. apply IH.
    - intros H _. destruct (N.compare_spec (N_of_ascii b) (N_of_ascii a)); try lia; discriminate.
    - intros _ Y. destruct Y. reflexivity. }
  clear - X. induction us as [|u us IH]; [reflexivity|]. cbn [filter]. rewrite (X u) by (left; reflexivity). apply IH. intros v Hv. apply X; right; exact Hv.
Qed.
Lemma filter_tsorted f us : tsorted c us -> tsorted c (filter f us).
Proof.
  induction 1 as [|t us Hs IH Hfo]; [constructor|]. cbn [filter]. destruct (f t); [|exact IH]. constructor; [exact IH|].
  apply Forall_forall. intros u Hu. apply filter_In in Hu as [Hu _]. rewrite Forall_forall in Hfo. auto.
Qed.
Lemma least_app : exists z, least c can i = P ++ z /\ z <> [].
Proof. unfold least. fold P. destruct (_ && _); eexists; (split; [reflexivity|discriminate]). Qed.

Lemma lowest_spec : oi_op i = GETOP_LOWEST -> 1 <= oi_num i ->
  let up := filter (over c (least c can i)) ts in
  asks d i (match up with [] => nothing i
            | _ => found (first (oi_num i) (filter (fun t => starts_with P (tkey c t)) up)) end).
Proof.
  intros Hop Hn up. eapply asks_state; [eassumption..|].
  destruct (reached_rows _ _ _ _ _ Hr Hc) as (_ & _ & _ & _ & Hw & Hs).
  rewrite (state_prefix k c can) by (rewrite ?Hop; assumption || reflexivity). fold P. rewrite Hop.
  assert (Hu : Forall (whole c) up) by apply filter_whole, Hw.
  assert (Hus : tsorted c up) by apply filter_tsorted, Hs.
  destruct least_app as (z & Ez & Hz).
  assert (Hz' : Forall (fun t => ble (P ++ z) (tkey c t)) up).
  { apply Forall_forall. intros t Ht. apply filter_In in Ht as [_ Ht]. unfold over in Ht. rewrite Ez in Ht. apply bleb_true, Ht. }
  assert (E : getop_body k c (map (row c) ts) GETOP_LOWEST (oi_num i) P (least c can i) =
    match map (row c) up with [] => Ok (fail start) | h => walk c (oi_num i) (has_prefix P) h 0 start end).
  { destruct k; cbn [getop_body]; [unfold im_body|unfold ldb_body]; cbn [N.eqb Pos.eqb GETOP_LOWEST GETOP_EQ GETOP_NEXT GETOP_PREV GETOP_FIRST GETOP_LAST];
      rewrite lower_rows by exact Hs; cbn [snd]; fold up; [|reflexivity].
    destruct up as [|t u]; [reflexivity|]. cbn [map]. change (row c t :: map (row c) u) with (map (row c) (t :: u)).
    apply walk_ext. apply Forall_forall. intros r Hin. apply in_map_iff in Hin as (v & <- & Hv). cbn [row fst].
    rewrite Forall_forall in Hz'. apply (memcmp_seek P z); [exact Hz|]. apply Hz', Hv. }
  rewrite E. destruct up as [|t u]; [apply gives_nothing, Hn|]. cbn [map]. change (row c t :: map (row c) u) with (map (row c) (t :: u)).
  unfold start. rewrite (walk_rows c (oi_num i) (has_prefix P) (fun t => starts_with P (tkey c t))); [|exact Hu|apply Forall_forall; reflexivity].
  rewrite (while_prefix z) by assumption. rewrite N.sub_0_r. apply gives_found.
Qed.
End Keyed.
