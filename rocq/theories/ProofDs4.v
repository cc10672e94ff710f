(* Histograms kept among the triples *)
From Verif Require Import ModelBytes ProofBytes ModelKey ProofKey ModelWire ModelHist ModelMsg ModelStore ModelGetOp ModelDs SpecStore ProofStore ProofDs ProofDs2 ProofDs3.
Local Open Scope N_scope.

Lemma enc_bytes c f : copies_bytes c -> f_type f = T_BYTE -> enc c f = f_data f.
Proof.
  intros Hc Ht. unfold enc. rewrite Ht, Hc; [reflexivity|]. intros H. unfold blen in H. destruct (f_data f); [reflexivity|cbn [List.length] in H; lia].
Qed.
Lemma key_not_hist c s p n : copies_bytes c -> lossless c (fld s) -> lossless c (fld p) -> blen n < 2 ^ 64 ->
  ~ reserved n s p -> key c (fld s) (fld p) <> hist_key n.
Proof.
  intros Hc Ls Lp Hn Hr E. unfold key, hist_key in E. apply sp_to_key_inj in E as [E1 E2]; auto using enc_field_ok.
  - injection E1 as A1 A2. injection E2 as B1 B2. rewrite (enc_bytes c (fld s) Hc A2) in A1. rewrite (enc_bytes c (fld p) Hc B2) in B1. apply Hr.
    unfold reserved, fld in *. cbn [f_data f_type] in *. rewrite A1, A2, B1, B2. split; reflexivity.
  - split; reflexivity.
  - split; [exact Hn|reflexivity].
Qed.
Lemma hist_key_inj n n' : blen n < 2 ^ 64 -> blen n' < 2 ^ 64 -> hist_key n = hist_key n' -> n = n'.
Proof.
  intros H H' E. unfold hist_key in E. apply sp_to_key_inj in E as [_ E]; [congruence|split; reflexivity|split; [assumption|reflexivity]|split; reflexivity|split; [assumption|reflexivity]].
Qed.

Lemma write_hists_other k hs : forall db db', write_hists hs db = Ok db' -> ~ In k (map (fun x => hist_key (fst x)) hs) ->
  db_get k db' = db_get k db.
Proof.
  induction hs as [|[n h] hs IH]; intros db db' H Hk; [injection H as <-; reflexivity|]. cbn [write_hists] in H.
  apply obind_ok in H as (b & _ & H). cbn [map fst] in Hk.
  rewrite (IH _ _ H) by (intros X; apply Hk; right; exact X). apply db_get_put_other. intros ->. apply Hk. left. reflexivity.
Qed.
Lemma hist_find_in n h hs : hist_find n hs = Some h -> In (n, h) hs.
Proof.
  induction hs as [|[n' h'] hs IH]; cbn; [discriminate|]. destruct (beqb n n') eqn:E; [|auto].
  apply beqb_true in E as ->. intros [= ->]. auto.
Qed.
Lemma write_hists_same n h b hs : forall db db', write_hists hs db = Ok db' -> NoDup (map fst hs) ->
  Forall (fun x => blen (fst x) < 2 ^ 64) hs -> In (n, h) hs -> hist_pack h = Ok b -> db_get (hist_key n) db' = Some b.
Proof.
  induction hs as [|[n' h'] hs IH]; intros db db' H Hd Hl Hin Hb; [destruct Hin|]. cbn [write_hists] in H.
  apply obind_ok in H as (b' & Eb & H). cbn [map fst] in Hd. inversion Hd as [|? ? Hnot Hd']; subst. inversion Hl as [|? ? Hln Hl']; subst.
  destruct Hin as [[= -> ->]|Hin].
  - rewrite (write_hists_other _ _ _ _ H).
    + rewrite Hb in Eb. injection Eb as <-. apply db_get_put_same.
    + intros X. apply in_map_iff in X as ([n' h'] & E & X). cbn [fst] in *.
      pose proof (proj1 (Forall_forall _ _) Hl' _ X) as Hx. cbn [fst] in Hx.
      apply hist_key_inj in E as ->; auto. apply Hnot. apply in_map_iff. exists (n, h'). auto.
  - eapply IH; eassumption.
Qed.

(* names of histograms are distinct (std::map) *)
Lemma hist_set_in n h hs x : In x (map fst (hist_set n h hs)) -> x = n \/ In x (map fst hs).
Proof.
  induction hs as [|[n' h'] hs IH]; cbn; [intuition|]. destruct (beqb n n') eqn:E; cbn.
  - apply beqb_true in E as ->. intuition.
  - intuition.
Qed.
Lemma hist_set_nodup n h hs : NoDup (map fst hs) -> NoDup (map fst (hist_set n h hs)).
Proof.
  induction hs as [|[n' h'] hs IH]; cbn; intros H; [repeat constructor; auto|]. inversion H as [|? ? Hn Hd]; subst.
  destruct (beqb n n') eqn:E; cbn.
  - apply beqb_true in E as ->. constructor; assumption.
  - constructor; [|auto]. intros X. apply hist_set_in in X as [->|X]; [rewrite beqb_refl in E; discriminate|auto].
Qed.
Lemma track_nodup l : forall hs sts hs', NoDup (map fst hs) -> track hs l sts = Ok hs' -> NoDup (map fst hs').
Proof.
  induction l as [|i l IH]; intros hs [|st sts] hs' Hd H; cbn [track] in H; try (injection H as <-; exact Hd).
  apply obind_ok in H as (hs1 & E & H). eapply IH; [|exact H].
  destruct ((st =? ST_OK)%Z && (b_type (pi_pred i) =? T_BYTE)); [|injection E as <-; exact Hd].
  destruct (hist_find (b_data (pi_pred i)) hs); [|injection E as <-; exact Hd].
  apply obind_ok in E as ([x|] & _ & E); [|injection E as <-; exact Hd].
  apply obind_ok in E as ([h' b] & _ & E). injection E as <-. apply hist_set_nodup, Hd.
Qed.
Lemma read_hists_nodup ns db : forall hs hs' k, NoDup (map fst hs) -> read_hists ns db hs = Ok (hs', k) -> NoDup (map fst hs').
Proof.
  induction ns as [|n ns IH]; intros hs hs' k Hd H; cbn [read_hists] in H; [injection H as <- _; exact Hd|].
  destruct (db_get (hist_key n) db); [|eapply IH; eassumption].
  apply obind_ok in H as ([[h|] rest] & _ & H); [|eapply IH; eassumption].
  apply obind_ok in H as ([hs1 k1] & E & H). injection H as <- _. eapply IH; [|exact E]. apply hist_set_nodup, Hd.
Qed.
Lemma step_nodup x d d' r : NoDup (map fst (d_hists d)) -> ds_step d x = Ok (d', r) -> NoDup (map fst (d_hists d')).
Proof.
  assert (W : forall d d', NoDup (map fst (d_hists d)) -> write_histograms d = Ok d' -> NoDup (map fst (d_hists d'))).
  { intros a b Ha Hw. apply write_keeps in Hw as (_ & _ & _ & ->). exact Ha. }
  assert (R : forall d ns d' k, NoDup (map fst (d_hists d)) -> read_histograms d ns = Ok (d', k) -> NoDup (map fst (d_hists d'))).
  { intros a ns b k Ha Hr. unfold read_histograms in Hr. destruct (d_open a); [|injection Hr as <- _; exact Ha].
    apply obind_ok in Hr as ([hs j] & E & Hr). injection Hr as <- _. cbn [with_hists d_hists]. eapply read_hists_nodup; eassumption. }
  intros Hd H. destruct x as [ns|w|q|n h| |ns|w]; cbn [ds_step] in H.
  - apply obind_ok in H as (d1 & E & H). injection H as <- _. unfold ds_open in E.
    destruct ns as [ns|]; [apply obind_ok in E as ([d2 k] & E & E2); injection E2 as <-; eapply R; [|exact E]; exact Hd|].
    injection E as <-. exact Hd.
  - apply obind_ok in H as (d1 & E & H). injection H as <- _. unfold ds_close in E. apply obind_ok in E as ([d2 st] & E & E2).
    injection E2 as <-. constructor.
  - destruct (d_open d) eqn:Ho.
    2:{ destruct q; cbn [operate] in H; rewrite ?Ho in H; cbn [negb] in H; injection H as <- _; exact Hd. }
    destruct q as [l|l|l|l|l|l|l|l|l|l].
    + rewrite operate_put in H by exact Ho. apply obind_ok in H as ([db sts] & _ & H). apply obind_ok in H as (hs & Et & H).
      injection H as <- _. cbn [with_hists d_hists]. eapply track_nodup; eassumption.
    + rewrite operate_get in H by exact Ho. apply obind_ok in H as (g & _ & H). injection H as <- _. exact Hd.
    + cbn [operate] in H. rewrite Ho in H. cbn [negb] in H. apply obind_ok in H as (g & _ & H). injection H as <- _. exact Hd.
    + rewrite operate_del in H by exact Ho. apply obind_ok in H as ([db g] & _ & H). injection H as <- _. exact Hd.
    + cbn [operate] in H. injection H as <- _. exact Hd.
    + cbn [operate] in H. injection H as <- _. exact Hd.
    + cbn [operate] in H. injection H as <- _. exact Hd.
    + cbn [operate] in H. injection H as <- _. exact Hd.
    + cbn [operate] in H. injection H as <- _. exact Hd.
    + cbn [operate] in H. injection H as <- _. exact Hd.
  - injection H as <- _. apply hist_set_nodup, Hd.
  - apply obind_ok in H as (d1 & E & H). injection H as <- _. eapply W; eassumption.
  - apply obind_ok in H as ([d1 k] & E & H). injection H as <- _. eapply R; eassumption.
  - apply obind_ok in H as ([d1 k] & E & H). injection H as <- _. unfold ds_sync in E. apply obind_ok in E as (d2 & E & E2).
    injection E2 as <- _. destruct w; [eapply W; eassumption|injection E as <-; exact Hd].
Qed.
Lemma run_nodup l : forall d d' rs, NoDup (map fst (d_hists d)) -> ds_run d l = Ok (d', rs) -> NoDup (map fst (d_hists d')).
Proof.
  induction l as [|x l IH]; intros d d' rs Hd H; [injection H as <- _; exact Hd|]. cbn [ds_run] in H.
  apply obind_ok in H as ([d1 r] & E & H). apply obind_ok in H as ([d2 rs2] & E2 & H). injection H as <- _.
  eapply IH; [|exact E2]. eapply step_nodup; eassumption.
Qed.

Lemma bput_get_key k c can k0 l : forall db db' sts,
  Forall (fun i => knows c can (pi_sub i) /\ knows c can (pi_pred i) /\ knows c can (pi_obj i)) l ->
  (forall i, In i l -> lossless c (fld (pi_sub i)) -> lossless c (fld (pi_pred i)) -> key c (fld (pi_sub i)) (fld (pi_pred i)) <> k0) ->
  bput k c db l = Ok (db', sts) -> db_get k0 db' = db_get k0 db.
Proof.
  induction l as [|i l IH]; intros db db' sts Hk Hne H; [rewrite bput_nil in H; injection H as <- _; reflexivity|].
  inversion Hk as [|? ? (Ks & Kp & Ko) Hk']; subst.
  apply bput_cons in H as (db1 & st & r & E1 & E2 & ->).
  rewrite (IH db1 db' r Hk' (fun j Hj => Hne j (or_intror Hj)) E2).
  assert (X : exists st', im_bput c db [i] = Ok (db1, st')).
  { destruct k; [eauto|]. destruct (ldb_bput_im c db [i]) as [(e & A & B & C)|(dbx & stx & A & B)].
    - cbn [bput] in E1. destruct B; congruence.
    - cbn [bput] in E1. assert (dbx = db1) by congruence. subst. eauto. }
  destruct X as [st' X]. cbn [im_bput] in X. rewrite (put_row_can c can i Ks Kp Ko) in X. cbn [obind] in X.
  destruct (can (pi_sub i) && can (pi_pred i) && can (pi_obj i)) eqn:Ec; cbn [obind] in X; injection X as <- _; [|reflexivity].
  apply andb_true_iff in Ec as [Ec Co]. apply andb_true_iff in Ec as [Cs Cp].
  apply db_get_put_other. apply not_eq_sym. apply (Hne i (or_introl eq_refl)).
  - exact (knows_lossless c can _ Ks Cs).
  - exact (knows_lossless c can _ Kp Cp).
Qed.
Lemma bdel_get_key k c can k0 l : forall db db' sts,
  Forall (fun i => knows c can (di_sub i) /\ knows c can (di_pred i)) l ->
  (forall i, In i l -> lossless c (fld (di_sub i)) -> lossless c (fld (di_pred i)) -> key c (fld (di_sub i)) (fld (di_pred i)) <> k0) ->
  bdel k c db l = Ok (db', sts) -> db_get k0 db' = db_get k0 db.
Proof.
  induction l as [|i l IH]; intros db db' sts Hk Hne H; [rewrite bdel_nil in H; injection H as <- _; reflexivity|].
  inversion Hk as [|? ? (Ks & Kp) Hk']; subst.
  apply bdel_cons in H as (db1 & st & r & E1 & E2 & ->).
  rewrite (IH db1 db' r Hk' (fun j Hj => Hne j (or_intror Hj)) E2).
  assert (X : exists st', im_bdel c db [i] = Ok (db1, st')).
  { destruct k; [eauto|]. destruct (ldb_bdel_im c db [i]) as [(e & A & B & C)|(dbx & stx & A & B)].
    - cbn [bdel] in E1. destruct B; congruence.
    - cbn [bdel] in E1. assert (dbx = db1) by congruence. subst. eauto. }
  destruct X as [st' X]. cbn [im_bdel] in X. rewrite (key_of_can c can _ _ Ks Kp) in X. cbn [obind] in X.
  destruct (can (di_sub i) && can (di_pred i)) eqn:Ec; [|cbn [obind] in X; injection X as <- _; reflexivity].
  apply andb_true_iff in Ec as [Cs Cp].
  destruct (db_get (key c (fld (di_sub i)) (fld (di_pred i))) db); cbn [obind] in X; injection X as <- _; [|reflexivity].
  apply db_get_del_other. apply not_eq_sym. apply (Hne i (or_introl eq_refl)).
  - exact (knows_lossless c can _ Ks Cs).
  - exact (knows_lossless c can _ Kp Cp).
Qed.
Lemma run_get_key c can n h : copies_bytes c -> blen n < 2 ^ 64 ->
  Forall (req_fits c can) h -> Forall (avoids n) h -> forall d d' rs, d_codec d = c ->
  ds_run d (map CallReq h) = Ok (d', rs) -> db_get (hist_key n) (d_rows d') = db_get (hist_key n) (d_rows d).
Proof.
  intros Hc Hn. induction h as [|q h IH]; intros Hf Ha d d' rs Hd H; [injection H as <- _; reflexivity|].
  inversion Hf as [|? ? Hq Hf']; subst. inversion Ha as [|? ? Hqa Ha']; subst.
  cbn [map ds_run ds_step] in H. apply obind_ok in H as ([d1 r] & E & H). apply obind_ok in H as ([d2 rs2] & E2 & H). injection H as <- _.
  assert (X : db_get (hist_key n) (d_rows d1) = db_get (hist_key n) (d_rows d)).
  { destruct (d_open d) eqn:Ho.
    2:{ rewrite closed_silent in E; [injection E as <- _; reflexivity|exact Ho|]. destruct q; try contradiction; exact I. }
    destruct q as [l|l|l|l|l|l|l|l|l|l]; cbn [req_fits avoids] in *; try contradiction.
    - rewrite operate_put in E by exact Ho. apply obind_ok in E as ([db sts] & Eb & E). apply obind_ok in E as (hs & _ & E). injection E as <- _.
      cbn [with_hists with_rows d_rows]. eapply bput_get_key; [exact Hq| |exact Eb].
      intros i Hi Ls Lp. apply key_not_hist; auto.
    - rewrite operate_get in E by exact Ho. apply obind_ok in E as (g & _ & E). injection E as <- _. reflexivity.
    - rewrite operate_del in E by exact Ho. apply obind_ok in E as ([db sts] & Eb & E). injection E as <- _.
      cbn [with_rows d_rows]. eapply bdel_get_key; [exact Hq| |exact Eb].
      intros i Hi Ls Lp. apply key_not_hist; auto. }
  rewrite <- X. apply operate_keeps in E as (_ & _ & Ec). eapply IH; try eassumption.
Qed.

Lemma read_hists_found n b h' rest ns db : db_get (hist_key n) db = Some b ->
  hist_unpack (hist_new [] 0 None) (blen b) b = Ok (Some h', rest) ->
  forall hs hs' k, read_hists ns db hs = Ok (hs', k) -> hist_find n hs = Some h' \/ In n ns -> hist_find n hs' = Some h'.
Proof.
  intros Hg Hu. induction ns as [|n1 ns IH]; intros hs hs' k H Hin; cbn [read_hists] in H.
  { injection H as <- _. destruct Hin as [Hin|[]]. exact Hin. }
  destruct (bytes_eq_dec n n1) as [<-|Hne].
  - rewrite Hg, Hu in H. cbn [obind] in H. apply obind_ok in H as ([hs1 k1] & E & H). injection H as <- _.
    eapply IH; [exact E|]. left. apply hist_find_set_same.
  - assert (Hin' : hist_find n hs = Some h' \/ In n ns) by (destruct Hin as [Hin|[Hin|Hin]]; [auto|congruence|auto]).
    destruct (db_get (hist_key n1) db); [|eapply IH; eassumption].
    apply obind_ok in H as ([[h1|] r1] & _ & H); [|eapply IH; eassumption].
    apply obind_ok in H as ([hs1 k1] & E & H). injection H as <- _.
    eapply IH; [exact E|]. rewrite hist_find_set_other by exact Hne. exact Hin'.
Qed.

Lemma histograms_apart k c l d rs d1 : copies_bytes c -> ds_run (ds_new k c) l = Ok (d, rs) -> d_open d = true ->
  Forall (fun x => blen (fst x) < 2 ^ 64) (d_hists d) -> write_histograms d = Ok d1 ->
  (forall s sa p pa ty r, storable c s -> storable c p -> (forall n, ~ reserved n s p) ->
     operate d (QGet [mkGet s sa p pa ty]) = Ok (d, r) -> operate d1 (QGet [mkGet s sa p pa ty]) = Ok (d1, r)) /\
  (forall can h d2 rs2 ns d3 cnt n h0 b h',
     Forall (req_fits c can) h -> Forall (avoids n) h -> ds_run d1 (map CallReq h) = Ok (d2, rs2) ->
     read_histograms d2 ns = Ok (d3, cnt) -> In n ns -> hist_find n (d_hists d) = Some h0 ->
     hist_pack h0 = Ok b -> hist_unpack (hist_new [] 0 None) (blen b) b = Ok (Some h', []) ->
     hist_find n (d_hists d3) = Some h').
Proof.
  intros Hc Hrun Ho Hlen Hw.
  destruct (lifecycle k c l (ds_new k c) d rs eq_refl eq_refl Hrun) as (Hk & Hcd & _).
  assert (Hnd : NoDup (map fst (d_hists d))) by (eapply run_nodup; [|exact Hrun]; constructor).
  pose proof (write_keeps _ _ Hw) as (Ko & Kk & Kc & Kh).
  unfold write_histograms in Hw. rewrite Ho in Hw. apply obind_ok in Hw as (rws & Ew & Hw). injection Hw as <-.
  split.
  - intros s sa p pa ty r Hs Hp Hnr H. rewrite operate_get in H |- * by exact Ho.
    cbn [with_rows d_codec d_rows]. apply obind_ok in H as (g & Eg & H). injection H as <-.
    replace (omap (bget1 (d_codec d) rws) [mkGet s sa p pa ty]) with (Ok g : outcome (list got_item)); [reflexivity|].
    rewrite <- Eg. cbn [omap]. unfold bget1, get_obj, obind2. cbn [gi_sub gi_pred gi_sub_addr gi_pred_addr].
    rewrite Hcd, (key_of_can c all_can s p Hs Hp). cbn [all_can andb obind].
    rewrite (write_hists_other (key c (fld s) (fld p)) _ _ _ Ew); [reflexivity|].
    intros X. apply in_map_iff in X as ([n h] & E & X). cbn [fst] in E. symmetry in E. revert E.
    pose proof (proj1 (Forall_forall _ _) Hlen _ X) as Hx. cbn [fst] in Hx.
    apply key_not_hist; auto.
    + exact (knows_lossless c all_can s Hs eq_refl).
    + exact (knows_lossless c all_can p Hp eq_refl).
  - intros can h d2 rs2 ns d3 cnt n h0 b h' Hf Ha Hr2 Hread Hin Hfind Hpack Hunp.
    apply hist_find_in in Hfind. pose proof (proj1 (Forall_forall _ _) Hlen _ Hfind) as Hx. cbn [fst] in Hx.
    pose proof (write_hists_same n h0 b _ _ _ Ew Hnd Hlen Hfind Hpack) as Hg.
    pose proof (run_get_key c can n h Hc Hx Hf Ha (with_rows d rws) d2 rs2 Hcd Hr2) as Hg2. cbn [with_rows d_rows] in Hg2. rewrite Hg in Hg2.
    assert (Ho2 : d_open d2 = true).
    { destruct (lifecycle (d_kind d) (d_codec d) (map CallReq h) (with_rows d rws) d2 rs2 eq_refl eq_refl Hr2) as (_ & _ & X).
      rewrite X. cbn [with_rows d_open]. rewrite Ho. clear. induction h as [|q h IH]; [reflexivity|exact IH]. }
    unfold read_histograms in Hread. rewrite Ho2 in Hread. apply obind_ok in Hread as ([hs k2] & Er & Hread). injection Hread as <- _.
    cbn [with_hists d_hists]. eapply read_hists_found; eauto.
Qed.
