From Verif Require Import ModelBytes ProofBytes ModelWire ModelHist SpecHist.
Local Open Scope N_scope.

Lemma total_repeat0 n : total (repeat 0 n) = 0.
Proof. induction n as [|n IH]; cbn; [reflexivity|]. exact IH. Qed.

Lemma incr_spec l i l' : incr l i = Ok l' ->
  length l' = length l /\ total l' = total l + 1 /\
  (exists c, nth_error l i = Some c /\ nth_error l' i = Some (c + 1)) /\
  (forall j, j <> i -> nth_error l' j = nth_error l j).
Proof.
  revert i l'; induction l as [|c l IH]; intros [|i] l' H; cbn in H; try discriminate.
  - injection H as <-. cbn [length total fold_right nth_error]. repeat split; try lia.
    + exists c. auto.
    + intros [|j] Hj; [congruence|reflexivity].
  - destruct (incr l i) as [l''| |] eqn:E; cbn in H; try discriminate. injection H as <-.
    destruct (IH _ _ E) as (HL & HT & Hc & Hj).
    cbn [length total fold_right nth_error]. fold (total l'') (total l). repeat split; try lia.
    + exact Hc.
    + intros [|j] Hji; [reflexivity|]. cbn. apply Hj. congruence.
Qed.

Lemma incr_ok l i : (i < length l)%nat -> exists l', incr l i = Ok l'.
Proof.
  revert i; induction l as [|c l IH]; intros [|i] H; cbn in *; try lia; [eauto|].
  destruct (IH i) as [l' ->]; [lia|]. cbn. eauto.
Qed.

Lemma upper_bound_le l v n : upper_bound l v = Ok n -> (n <= length l)%nat.
Proof.
  revert n; induction l as [|b l IH]; intros n; cbn.
  - intros H; injection H as <-. lia.
  - destruct (d_lt v b).
    + destruct (forallb _ l); [|discriminate]. intros H; injection H as <-. lia.
    + destruct (upper_bound l v) as [m| |]; cbn; try discriminate. intros H; injection H as <-.
      specialize (IH _ eq_refl). lia.
Qed.

Lemma upper_bound_zero l v : upper_bound l v = Ok O -> below_first l v = true.
Proof.
  destruct l as [|b l]; cbn; [reflexivity|]. destruct (d_lt v b); [reflexivity|].
  destruct (upper_bound l v); cbn; discriminate.
Qed.
Lemma upper_bound_S l v n : upper_bound l v = Ok (S n) -> below_first l v = false.
Proof.
  destruct l as [|b l]; cbn; [discriminate|]. destruct (d_lt v b); [|reflexivity].
  destruct (forallb _ l); discriminate.
Qed.

Lemma upper_bound_bucket l v n : upper_bound l v = Ok (S n) -> bucket_of l v n.
Proof.
  revert n; induction l as [|b l IH]; intros n; cbn; [discriminate|].
  destruct (d_lt v b) eqn:E.
  - destruct (forallb _ l); discriminate.
  - destruct (upper_bound l v) as [m| |] eqn:Em; cbn; try discriminate. intros H; injection H as ->.
    destruct n as [|n].
    + exists b. split; [reflexivity|]. split; [exact E|]. cbn. destruct l as [|b1 l]; cbn; [discriminate|].
      intros b' H; injection H as <-. apply upper_bound_zero in Em. exact Em.
    + destruct (IH _ eq_refl) as (b' & H1 & H2 & H3). exists b'. auto.
Qed.

Lemma upper_bound_test l v n : upper_bound l v = Ok n ->
  forall i, (i < length l)%nat -> in_bucket l i v = Nat.eqb (S i) n.
Proof.
  revert n; induction l as [|b l IH]; intros n; [cbn; lia|].
  cbn [upper_bound]. destruct (d_lt v b) eqn:E.
  - destruct (forallb (fun b' => d_lt v b') l) eqn:F; [|discriminate]. intros H; injection H as <-. intros i Hi.
    cbn [Nat.eqb]. unfold in_bucket. destruct (nth_error (b :: l) i) as [x|] eqn:Ex; [|reflexivity].
    assert (Hx : d_lt v x = true).
    { destruct i as [|i]; cbn in Ex; [injection Ex as <-; exact E|]. rewrite forallb_forall in F. apply F. eapply nth_error_In, Ex. }
    rewrite Hx. reflexivity.
  - destruct (upper_bound l v) as [m| |] eqn:Em; cbn [obind]; try discriminate. intros H; injection H as <-. intros i Hi.
    destruct i as [|i].
    + unfold in_bucket. cbn [nth_error]. rewrite E. cbn [negb andb]. destruct l as [|b1 l].
      * cbn in *. injection Em as <-. reflexivity.
      * cbn [nth_error]. destruct m as [|m]; [apply upper_bound_zero in Em|apply upper_bound_S in Em]; exact Em.
    + cbn [length] in Hi. exact (IH _ eq_refl i ltac:(lia)).
Qed.

Lemma ascending_tail b l : ascending (b :: l) -> ascending l.
Proof.
  intros [HF HA]. inversion HF; subst. split; [assumption|].
  intros i j bi bj Hij Hi Hj. apply (HA (S i) (S j)); [lia|exact Hi|exact Hj].
Qed.

Lemma upper_bound_total l v : ascending l -> exists n, upper_bound l v = Ok n.
Proof.
  induction l as [|b l IH]; intros HA; cbn; [eauto|].
  destruct (d_lt v b) eqn:E.
  - assert (F : forallb (fun b' => d_lt v b') l = true).
    { apply forallb_forall. intros x Hx. apply In_nth_error in Hx as [j Hj].
      destruct HA as [HF HA]. specialize (HA O (S j) b x ltac:(lia) eq_refl Hj).
      rewrite Forall_forall in HF.
      assert (d_nan x = false) by (apply HF; right; eapply nth_error_In, Hj).
      unfold d_lt in *. apply andb_true_iff in E as [E1 E2]. apply andb_true_iff in E1 as [E0 E1].
      rewrite E0, H. cbn. lia. }
    rewrite F. eauto.
  - destruct IH as [n ->]; [eapply ascending_tail, HA|]. cbn. eauto.
Qed.

(* insertion into a histogram with buckets *)
Record has_buckets (h : hist) (bs cs : list N) : Prop := {
  hb_b : h_buckets h = Some bs;
  hb_c : h_counts h = Some cs;
  hb_s : h_size h = N.of_nat (length bs);
  hb_n : bs <> [];
  hb_l : length cs = length bs }.

Lemma insert_spec h bs cs v h' : has_buckets h bs cs -> hist_insert h v = Ok h' ->
  exists cs', has_buckets h' bs cs' /\
    h_name h' = h_name h /\ h_first_n h' = h_first_n h /\ h_gen h' = h_gen h /\ h_cap h' = h_cap h
    /\ h_cache h' = h_cache h /\ h_count h' = h_count h /\
    ((below_first bs v = true /\ cs' = cs /\ h' = h) \/
     (below_first bs v = false /\ total cs' = total cs + 1 /\
      exists i, bucket_of bs v i /\ (exists c, nth_error cs i = Some c /\ nth_error cs' i = Some (c + 1))
                /\ forall j, j <> i -> nth_error cs' j = nth_error cs j))
    /\ (forall i c, nth_error cs i = Some c -> nth_error cs' i = Some (c + (if in_bucket bs i v then 1 else 0)))
    /\ h_upper h' = (if below_first bs v then h_upper h else if d_lt (h_upper h) v then v else h_upper h).
Proof.
  intros [Hb Hc Hs Hn Hl] H. unfold hist_insert in H. rewrite Hb, Hc in H.
  destruct (N.eqb_spec (h_size h) 0) as [E|E]; [destruct bs; [congruence|rewrite Hs in E; cbn in E; lia]|].
  destruct (upper_bound bs v) as [[|i]| |] eqn:Eu; cbn [obind] in H; try discriminate.
  - injection H as <-. exists cs. split; [constructor; assumption|]. repeat (split; [reflexivity|]).
    split; [left; split; [eapply upper_bound_zero, Eu|auto]|].
    split; [|rewrite (upper_bound_zero _ _ Eu); reflexivity].
    intros i c Hic. rewrite (upper_bound_test _ _ _ Eu) by (rewrite <- Hl; apply nth_error_Some; congruence).
    cbn [Nat.eqb]. rewrite N.add_0_r. exact Hic.
  - destruct (incr cs i) as [cs'| |] eqn:Ei; cbn [obind] in H; try discriminate. injection H as <-.
    destruct (incr_spec _ _ _ Ei) as (HL & HT & Hi & Hj).
    exists cs'. split; [constructor; cbn; auto; lia|]. cbn. repeat (split; [reflexivity|]).
    split; [|split; [|rewrite (upper_bound_S _ _ _ Eu); reflexivity]].
    + right. split; [eapply upper_bound_S, Eu|]. split; [exact HT|]. exists i. split; [apply upper_bound_bucket, Eu|]. auto.
    + intros k c Hkc. rewrite (upper_bound_test _ _ _ Eu) by (rewrite <- Hl; apply nth_error_Some; congruence).
      destruct (Nat.eqb_spec (S k) (S i)) as [Ek|Ek].
      * injection Ek as ->. destruct Hi as (c' & Hc1 & Hc2). congruence.
      * rewrite N.add_0_r, Hj by congruence. exact Hkc.
Qed.

Lemma insert_ok h bs cs v : has_buckets h bs cs -> ascending bs -> exists h', hist_insert h v = Ok h'.
Proof.
  intros [Hb Hc Hs Hn Hl] HA. unfold hist_insert. rewrite Hb, Hc.
  destruct (h_size h =? 0); [eauto|].
  destruct (upper_bound_total bs v HA) as [n En]. rewrite En. cbn [obind].
  destruct n as [|i]; [eauto|].
  pose proof (upper_bound_le _ _ _ En). destruct (incr_ok cs i) as [cs' ->]; [lia|]. cbn [obind]. eauto.
Qed.

Lemma in_some_app bs l v : in_some_bucket bs (l ++ [v]) = in_some_bucket bs l + (if below_first bs v then 0 else 1).
Proof.
  unfold in_some_bucket. rewrite filter_app, app_length. cbn [filter].
  destruct (below_first bs v); cbn [negb length]; lia.
Qed.
Lemma in_some_cons bs l v : in_some_bucket bs (v :: l) = in_some_bucket bs l + (if below_first bs v then 0 else 1).
Proof. unfold in_some_bucket. cbn [filter]. destruct (below_first bs v); cbn [negb length]; lia. Qed.

Lemma in_count_cons bs i v l : in_count bs i (v :: l) = in_count bs i l + (if in_bucket bs i v then 1 else 0).
Proof. unfold in_count. cbn [filter]. destruct (in_bucket bs i v); cbn [length]; lia. Qed.
Lemma in_count_snoc bs i v l : in_count bs i (l ++ [v]) = in_count bs i l + (if in_bucket bs i v then 1 else 0).
Proof. unfold in_count. rewrite filter_app, app_length. cbn [filter]. destruct (in_bucket bs i v); cbn [length]; lia. Qed.

Lemma upper_snoc bs u vals v : upper_end bs vals u ->
  upper_end bs (vals ++ [v]) (if below_first bs v then u else if d_lt u v then v else u).
Proof.
  intros [H1 H2]. destruct (below_first bs v) eqn:Eb; [|destruct (d_lt u v) eqn:E]; split.
  - destruct H1 as [H1|[H1 H3]]; [left; exact H1|right; split; [apply in_or_app; left; exact H1|exact H3]].
  - intros w Hw Hb. apply in_app_or in Hw as [Hw|[<-|[]]]; [apply H2; assumption|congruence].
  - right. split; [apply in_or_app; right; left; reflexivity|exact Eb].
  - assert (T : forall w, d_lt u w = false -> d_lt v w = false).
    { intros w Hw. unfold d_lt in *. destruct (d_nan u), (d_nan v), (d_nan w); cbn in *; try reflexivity; try discriminate. lia. }
    intros w Hw Hb. apply in_app_or in Hw as [Hw|[<-|[]]]; [apply T, H2; assumption|].
    unfold d_lt. rewrite Z.ltb_irrefl, andb_false_r. reflexivity.
  - destruct H1 as [H1|[H1 H3]]; [left; exact H1|right; split; [apply in_or_app; left; exact H1|exact H3]].
  - intros w Hw Hb. apply in_app_or in Hw as [Hw|[<-|[]]]; [apply H2; assumption|exact E].
Qed.

Lemma insert_all_spec l h bs cs h' : has_buckets h bs cs -> hist_insert_all h l = Ok h' ->
  exists cs', has_buckets h' bs cs' /\
    h_name h' = h_name h /\ h_first_n h' = h_first_n h /\ h_gen h' = h_gen h /\ h_cap h' = h_cap h
    /\ h_cache h' = h_cache h /\ h_count h' = h_count h /\ total cs' = total cs + in_some_bucket bs l
    /\ (forall i c, nth_error cs i = Some c -> nth_error cs' i = Some (c + in_count bs i l))
    /\ (forall l0, upper_end bs l0 (h_upper h) -> upper_end bs (l0 ++ l) (h_upper h')).
Proof.
  revert h cs; induction l as [|v l IH]; intros h cs Hh H; cbn in H.
  - injection H as <-. exists cs. split; [assumption|]. repeat (split; [reflexivity|]).
    split; [cbn; lia|]. split; [|intros l0; rewrite app_nil_r; auto].
    intros i c Hic. change (in_count bs i []) with 0. rewrite N.add_0_r. exact Hic.
  - destruct (hist_insert h v) as [h1| |] eqn:E; cbn [obind] in H; try discriminate.
    destruct (insert_spec _ _ _ _ _ Hh E) as (cs1 & Hh1 & N1 & N2 & N3 & N4 & N5 & N6 & Hcase & Hcnt & Hup).
    destruct (IH _ _ Hh1 H) as (cs' & Hh' & M1 & M2 & M3 & M4 & M5 & M6 & M7 & M8 & M9).
    exists cs'. split; [assumption|]. rewrite M1, M2, M3, M4, M5, M6, N1, N2, N3, N4, N5, N6.
    repeat (split; [reflexivity|]). rewrite M7, in_some_cons. split; [|split].
    + destruct Hcase as [(-> & -> & _)|(-> & -> & _)]; lia.
    + intros i c Hic. rewrite (M8 _ _ (Hcnt _ _ Hic)), in_count_cons. f_equal. lia.
    + intros l0 H0. replace (l0 ++ v :: l) with ((l0 ++ [v]) ++ l) by (rewrite <- app_assoc; reflexivity).
      apply M9. rewrite Hup. apply upper_snoc, H0.
Qed.

Lemma insert_all_ok l h bs cs : has_buckets h bs cs -> ascending bs -> exists h', hist_insert_all h l = Ok h'.
Proof.
  revert h cs; induction l as [|v l IH]; intros h cs Hh HA; cbn; [eauto|].
  destruct (insert_ok _ _ _ v Hh HA) as [h1 E]. rewrite E. cbn [obind].
  destruct (insert_spec _ _ _ _ _ Hh E) as (cs1 & Hh1 & _). eapply IH; eassumption.
Qed.

(* ---- the state after a sequence of additions ---- *)
Definition counts_ok (bs cs vals : list N) : Prop :=
  total cs = in_some_bucket bs vals /\ forall i, (i < length bs)%nat -> nth_error cs i = Some (in_count bs i vals).

Lemma counts_snoc bs cs cs' vals v : counts_ok bs cs vals ->
  total cs' = total cs + (if below_first bs v then 0 else 1) ->
  (forall i c, nth_error cs i = Some c -> nth_error cs' i = Some (c + (if in_bucket bs i v then 1 else 0))) ->
  counts_ok bs cs' (vals ++ [v]).
Proof.
  intros [H1 H2] H3 H4. split; [rewrite in_some_app, <- H1; exact H3|].
  intros i Hi. rewrite (H4 _ _ (H2 i Hi)), in_count_snoc. reflexivity.
Qed.

Lemma nth_error_repeat0 n i : (i < n)%nat -> nth_error (repeat 0 n) i = Some 0.
Proof. revert i; induction n as [|n IH]; intros [|i] H; cbn; try lia; [reflexivity|]. apply IH. lia. Qed.

Record hinv (name : bytes) (first_n : N) (g : option generator) (vals : list N) (h : hist) : Prop := {
  i_name : h_name h = name;
  i_first : h_first_n h = first_n;
  i_gen : h_gen h = g;
  i_cap : h_cap h = first_n;
  i_cache : h_cache h = firstn (N.to_nat first_n) vals;
  i_count : h_count h = N.of_nat (length vals);
  i_buckets :
    match h_buckets h with
    | None => h_counts h = None /\ h_size h = 0 /\
        (first_n = 0 -> vals <> [] -> forall g', g = Some g' -> g' None = Ok None)
    | Some [] => h_counts h = None /\ h_size h = 0 /\ first_n <= h_count h
    | Some bs => first_n <= h_count h /\ exists cs, has_buckets h bs cs /\ counts_ok bs cs vals /\ upper_end bs vals (h_upper h)
    end;
  i_made : forall bs g', h_buckets h = Some bs -> g = Some g' -> first_n <> 0 ->
    (N.to_nat first_n <= length vals)%nat /\ g' (Some (firstn (N.to_nat first_n) vals)) = Ok (Some bs) }.

Lemma hinv_new name first_n g : hinv name first_n g [] (hist_new name first_n g).
Proof. constructor; cbn; try reflexivity. - rewrite firstn_nil. reflexivity. - repeat split; congruence. - intros bs g' H; discriminate. Qed.

Lemma firstn_snoc_lt {A} n (l : list A) v : (length l < n)%nat -> firstn n (l ++ [v]) = firstn n l ++ [v].
Proof. intros H. rewrite !firstn_all2 by (rewrite ?app_length; cbn; lia). reflexivity. Qed.
Lemma firstn_snoc_ge {A} n (l : list A) v : (n <= length l)%nat -> firstn n (l ++ [v]) = firstn n l.
Proof. intros H. rewrite firstn_app. replace (n - length l)%nat with O by lia. rewrite firstn_O, app_nil_r. reflexivity. Qed.

Lemma add_inv name first_n g vals h v h' r : hinv name first_n (Some g) vals h -> hist_add h v = Ok (h', r) ->
  hinv name first_n (Some g) (vals ++ [v]) h'.
Proof.
  intros [Hname Hfirst Hgen Hcap Hcache Hcount Hb Hmade] H. unfold hist_add in H.
  (* the cached value *)
  match type of H with (obind ?x _) = _ => destruct x as [h1| |] eqn:E1; cbn [obind] in H; try discriminate end.
  set (h2 := {| h_name := h_name h1; h_first_n := h_first_n h1; h_gen := h_gen h1; h_cap := h_cap h1;
                h_cache := h_cache h1; h_count := h_count h1 + 1; h_buckets := h_buckets h1;
                h_upper := h_upper h1; h_counts := h_counts h1; h_size := h_size h1 |}) in *.
  assert (K : h_name h2 = name /\ h_first_n h2 = first_n /\ h_gen h2 = Some g /\ h_cap h2 = first_n
            /\ h_cache h2 = firstn (N.to_nat first_n) (vals ++ [v])
            /\ h_count h2 = N.of_nat (length (vals ++ [v]))
            /\ h_buckets h2 = h_buckets h /\ h_upper h2 = h_upper h /\ h_counts h2 = h_counts h /\ h_size h2 = h_size h).
  { unfold h2. destruct (N.ltb_spec (h_count h) (h_first_n h)) as [Hlt|Hge].
    - destruct (N.ltb_spec (h_count h) (h_cap h)); [|discriminate]. injection E1 as <-. cbn.
      repeat split; auto.
      + rewrite Hcache, firstn_snoc_lt; [reflexivity|lia].
      + rewrite app_length. cbn. lia.
    - injection E1 as <-. repeat split; auto.
      + rewrite Hcache, firstn_snoc_ge; [reflexivity|lia].
      + rewrite app_length. cbn. lia. }
  clearbody h2. clear E1 h1.
  destruct K as (K1 & K2 & K3 & K4 & K5 & K6 & K7 & K8 & K9 & K10).
  assert (Hmade2 : forall bs g', h_buckets h = Some bs -> Some g = Some g' -> first_n <> 0 ->
    (N.to_nat first_n <= length (vals ++ [v]))%nat /\ g' (Some (firstn (N.to_nat first_n) (vals ++ [v]))) = Ok (Some bs)).
  { intros bs g' Q1 Q2 Q3. destruct (Hmade bs g' Q1 Q2 Q3) as [Q4 Q5]. rewrite firstn_snoc_ge, app_length by exact Q4. split; [lia|exact Q5]. }
  destruct (N.leb_spec (h_first_n h2) (h_count h2)) as [Hle|Hgt].
  2:{ injection H as <- <-. constructor; auto; [|rewrite K7; exact Hmade2]. rewrite K7, K9, K10.
      destruct (h_buckets h) as [[|b bs]|].
      - destruct Hb as (? & ? & ?). rewrite app_length in K6. cbn in K6. lia.
      - destruct Hb as (? & ?). rewrite app_length in K6. cbn in K6. lia.
      - destruct Hb as (A & B & C). repeat split; auto. intros Hz. rewrite K2, Hz in Hgt. lia. }
  destruct (h_buckets h2) as [bs|] eqn:Eb.
  - (* buckets exist already *)
    rewrite <- K7 in Hb. destruct bs as [|b bs].
    + destruct Hb as (A & B & C).
      assert (Hh : hinv name first_n (Some g) (vals ++ [v]) h2).
      { constructor; auto; [|rewrite Eb; rewrite <- K7 in Hmade2; exact Hmade2]. rewrite Eb, K9, K10. repeat split; auto. lia. }
      destruct (h_first_n h2 <? h_count h2).
      * unfold hist_insert in H. rewrite Eb, K9, A in H. cbn in H. injection H as <- <-. exact Hh.
      * injection H as <- <-. exact Hh.
    + destruct Hb as (A & cs & B & C & D).
      assert (B2 : has_buckets h2 (b :: bs) cs) by (destruct B as [B1 B2 B3 B4 B5]; constructor; auto; congruence).
      destruct (N.ltb_spec (h_first_n h2) (h_count h2)) as [_|?]; [|rewrite app_length in K6; cbn in K6; lia].
      destruct (hist_insert h2 v) as [h3| |] eqn:E3; cbn [obind] in H; try discriminate. injection H as <- <-.
      destruct (insert_spec _ _ _ _ _ B2 E3) as (cs' & B3 & M1 & M2 & M3 & M4 & M5 & M6 & Hcase & Hcnt & Hup).
      constructor; try congruence; [|rewrite (hb_b _ _ _ B3); rewrite <- K7 in Hmade2; exact Hmade2].
      rewrite (hb_b _ _ _ B3). split; [lia|]. exists cs'. split; [exact B3|].
      split; [|rewrite Hup, K8; apply upper_snoc, D].
      eapply counts_snoc; [exact C| |exact Hcnt]. destruct Hcase as [(-> & -> & _)|(-> & -> & _)]; lia.
  - (* the buckets are generated now *)
    rewrite K3 in H. destruct (gen_input h2) as [inp| |] eqn:Einp; cbn [obind] in H; try discriminate.
    rewrite <- K7 in Hb. destruct Hb as (A & B & Cz).
    assert (Hinp0 : first_n = 0 -> inp = None).
    { intros Hz. unfold gen_input in Einp. rewrite K4, Hz in Einp. cbn in Einp. congruence. }
    destruct (g inp) as [[bs|]| |] eqn:Eg; cbn [obind] in H; try discriminate.
    2:{ injection H as <- <-. constructor; auto; [|rewrite Eb; discriminate]. rewrite Eb, K9, K10. repeat split; auto.
        intros Hz _ g' Eg'. injection Eg' as <-. rewrite (Hinp0 Hz) in Eg. exact Eg. }
    assert (Made3 : forall bs' g', Some bs = Some bs' -> Some g = Some g' -> first_n <> 0 ->
      (N.to_nat first_n <= length (vals ++ [v]))%nat /\ g' (Some (firstn (N.to_nat first_n) (vals ++ [v]))) = Ok (Some bs')).
    { intros bs' g' Q1 Q2 Q3. injection Q1 as <-. injection Q2 as <-. split; [lia|].
      unfold gen_input in Einp. destruct (N.eqb_spec (h_cap h2) 0) as [Hc0|Hc0]; [congruence|].
      destruct (h_count h2 <=? h_cap h2); [|discriminate]. injection Einp as <-. rewrite K5 in Eg. exact Eg. }
    unfold hist_gen_counts in H. cbn in H.
    destruct (N.ltb_spec (h_count h2) (h_first_n h2)); [lia|].
    destruct (N.eqb_spec (N.of_nat (length bs)) 0) as [Ez|Ez].
    + destruct bs as [|? ?]; [|cbn in Ez; lia]. rewrite K9, A in H. injection H as <- <-.
      constructor; auto. cbn. repeat split; auto. lia.
    + cbn in H.
      set (h5 := {| h_name := h_name h2; h_first_n := h_first_n h2; h_gen := Some g; h_cap := h_cap h2;
                    h_cache := h_cache h2; h_count := h_count h2; h_buckets := Some bs; h_upper := DBL_MIN;
                    h_counts := Some (repeat 0 (N.to_nat (N.of_nat (length bs)))); h_size := N.of_nat (length bs) |}) in *.
      assert (H5 : has_buckets h5 bs (repeat 0 (N.to_nat (N.of_nat (length bs))))).
      { constructor; try reflexivity. - intros ->. cbn in Ez. lia. - rewrite repeat_length. lia. }
      match type of H with (obind ?x _) = _ => destruct x as [h6| |] eqn:E6; cbn [obind] in H; try discriminate end.
      destruct (N.eqb_spec (h_first_n h2) (N.of_nat (length (h_cache h2)))) as [El|El]; [|discriminate].
      destruct (insert_all_spec _ _ _ _ _ H5 E6) as (cs6 & B6 & M1 & M2 & M3 & M4 & M5 & M6 & M7 & M8 & M9).
      rewrite total_repeat0 in M7. cbn in M1, M2, M3, M4, M5, M6.
      destruct bs as [|b bs]; [cbn in Ez; lia|].
      destruct (N.ltb_spec (h_first_n h6) (h_count h6)) as [Hlt|Hge].
      * (* only possible when first_n = 0 *)
        destruct (hist_insert h6 v) as [h7| |] eqn:E7; cbn [obind] in H; try discriminate. injection H as <- <-.
        destruct (insert_spec _ _ _ _ _ B6 E7) as (cs7 & B7 & P1 & P2 & P3 & P4 & P5 & P6 & Hcase & Hcnt & Hup).
        assert (Hz : first_n = 0).
        { unfold gen_input in Einp. destruct (N.eqb_spec (h_cap h2) 0) as [Hc0|Hc0]; [congruence|].
          destruct (N.leb_spec (h_count h2) (h_cap h2)); [|discriminate]. lia. }
        assert (Hv : vals = []).
        { destruct vals as [|w vals]; [reflexivity|]. exfalso.
          rewrite (Hinp0 Hz) in Eg. rewrite (Cz Hz ltac:(discriminate) g eq_refl) in Eg. discriminate. }
        constructor; try congruence.
        rewrite (hb_b _ _ _ B7). split; [rewrite P6, M6; lia|]. exists cs7. split; [exact B7|].
        assert (C6 : counts_ok (b :: bs) cs6 []).
        { rewrite K5, Hz in M7, M8. split; [rewrite M7; reflexivity|]. intros i Hi.
          rewrite (M8 i 0); [reflexivity|]. apply nth_error_repeat0. lia. }
        assert (U6 : upper_end (b :: bs) [] (h_upper h6)).
        { specialize (M9 []). rewrite K5, Hz in M9. cbn in M9. apply M9. split; [left; reflexivity|intros ? []]. }
        subst vals. split; [|rewrite Hup; apply (upper_snoc _ _ []), U6]. eapply counts_snoc; [exact C6| |exact Hcnt].
        destruct Hcase as [(-> & -> & _)|(-> & -> & _)]; lia.
      * injection H as <- <-. constructor; try congruence; try (rewrite (hb_b _ _ _ B6); exact Made3).
        rewrite (hb_b _ _ _ B6). split; [rewrite M6; lia|]. exists cs6. split; [exact B6|].
        assert (Hall : h_cache h2 = vals ++ [v]) by (rewrite K5, firstn_all2; [reflexivity|]; rewrite M2, M6 in Hge; lia).
        rewrite Hall in M7, M8, M9. split; [|apply (M9 []); split; [left; reflexivity|intros ? []]].
        split; [rewrite M7; lia|]. intros i Hi.
        rewrite (M8 i 0); [reflexivity|]. apply nth_error_repeat0. lia.
Qed.

Lemma adds_inv name first_n g vals0 vals h h' : hinv name first_n (Some g) vals0 h -> hist_adds h vals = Ok h' ->
  hinv name first_n (Some g) (vals0 ++ vals) h'.
Proof.
  revert vals0 h; induction vals as [|v vals IH]; intros vals0 h Hh H; cbn [hist_adds] in H.
  - injection H as <-. rewrite app_nil_r. exact Hh.
  - destruct (hist_add h v) as [[h1 r]| |] eqn:E; cbn [obind] in H; try discriminate.
    pose proof (add_inv _ _ _ _ _ _ _ _ Hh E) as H1.
    replace (vals0 ++ v :: vals) with ((vals0 ++ [v]) ++ vals) by (rewrite <- app_assoc; reflexivity).
    eapply IH; eassumption.
Qed.

(* never UB with a good generator *)
Lemma firstn_Forall_app {A} (P : A -> Prop) n l l' : Forall P (firstn n (l ++ l')) -> Forall P (firstn n l).
Proof. rewrite firstn_app. intros H. apply Forall_app in H. tauto. Qed.

Lemma add_ok name first_n g vals h v :
  first_n <> 0 -> first_n < 2 ^ 64 -> good_generator g -> Forall is_finite (firstn (N.to_nat first_n) (vals ++ [v])) ->
  hinv name first_n (Some g) vals h ->
  (h_buckets h = None -> N.of_nat (length vals) < first_n) ->
  (forall bs, h_buckets h = Some bs -> bs <> [] /\ ascending bs) ->
  exists h', hist_add h v = Ok (h', true) /\
    (h_buckets h' = None -> N.of_nat (length (vals ++ [v])) < first_n) /\
    (forall bs, h_buckets h' = Some bs -> bs <> [] /\ ascending bs).
Proof.
  intros Hf0 Hf64 Hg Hnum [Hname Hfirst Hgen Hcap Hcache Hcount Hb _] Hnone Hasc.
  unfold hist_add.
  set (x := if h_count h <? h_first_n h then _ else _).
  assert (K : exists h1, x = Ok h1 /\ h_name h1 = name /\ h_first_n h1 = first_n /\ h_gen h1 = Some g /\ h_cap h1 = first_n
            /\ h_cache h1 = firstn (N.to_nat first_n) (vals ++ [v])
            /\ h_count h1 = h_count h
            /\ h_buckets h1 = h_buckets h /\ h_upper h1 = h_upper h /\ h_counts h1 = h_counts h /\ h_size h1 = h_size h).
  { unfold x. destruct (N.ltb_spec (h_count h) (h_first_n h)) as [Hlt|Hge].
    - destruct (N.ltb_spec (h_count h) (h_cap h)); [|lia]. eexists; split; [reflexivity|]. cbn.
      repeat split; auto. rewrite Hcache, firstn_snoc_lt; [reflexivity|lia].
    - eexists; split; [reflexivity|]. repeat split; auto. rewrite Hcache, firstn_snoc_ge; [reflexivity|lia]. }
  destruct K as (h1 & -> & K1 & K2 & K3 & K4 & K5 & K6 & K7 & K8 & K9 & K10). cbn [obind].
  cbn [h_first_n h_count h_buckets h_gen].
  rewrite app_length. cbn [length].
  destruct (N.leb_spec (h_first_n h1) (h_count h1 + 1)) as [Hle|Hgt].
  2:{ eexists; split; [reflexivity|]. cbn. split; [lia|]. rewrite K7. exact Hasc. }
  destruct (h_buckets h1) as [bs|] eqn:Eb.
  - rewrite <- K7 in Hb. destruct (Hasc bs) as [Hne HA]; [congruence|].
    destruct bs as [|b bs]; [congruence|]. destruct Hb as (_ & cs & B & C).
    destruct (h_first_n h1 <? h_count h1 + 1).
    2:{ eexists; split; [reflexivity|]. cbn. split; [congruence|]. intros bs' H; injection H as <-. auto. }
    set (h2 := {| h_name := _ |}).
    assert (B2 : has_buckets h2 (b :: bs) cs) by (destruct B as [B1 B2 B3 B4 B5]; constructor; unfold h2; cbn [h_buckets h_counts h_size]; congruence).
    destruct (insert_ok _ _ _ v B2 HA) as [h3 E3]. rewrite E3. cbn [obind].
    destruct (insert_spec _ _ _ _ _ B2 E3) as (cs' & B3 & _).
    eexists; split; [reflexivity|]. rewrite (hb_b _ _ _ B3). split; [congruence|].
    intros bs' H; injection H as <-. auto.
  - specialize (Hnone (eq_sym K7)).
    rewrite K3. unfold gen_input. cbn [h_cap h_count h_cache].
    destruct (N.eqb_spec (h_cap h1) 0) as [?|_]; [lia|].
    destruct (N.leb_spec (h_count h1 + 1) (h_cap h1)) as [Hc|?]; [|lia]. cbn [obind].
    assert (Hcl : length (h_cache h1) = N.to_nat first_n).
    { rewrite K5, firstn_length, app_length. cbn [length]. lia. }
    destruct (Hg (h_cache h1)) as (bs & Eg & Hne & HA); [| | |rewrite Eg].
    { intros E. rewrite E in Hcl. cbn in Hcl. lia. }
    { lia. }
    { rewrite K5. exact Hnum. }
    cbn [obind]. unfold hist_gen_counts. cbn [h_name h_first_n h_gen h_cap h_cache h_count h_buckets h_upper h_counts h_size].
    destruct (N.ltb_spec (h_count h1 + 1) (h_first_n h1)) as [?|_]; [lia|].
    destruct (N.eqb_spec (N.of_nat (length bs)) 0) as [E0|E0]; [destruct bs; [congruence|cbn in E0; lia]|].
    cbn [h_name h_first_n h_gen h_cap h_cache h_count h_buckets h_upper h_counts h_size].
    destruct (N.eqb_spec (h_first_n h1) (N.of_nat (length (h_cache h1)))) as [_|?]; [|lia].
    set (h5 := {| h_name := _ |}).
    assert (H5 : has_buckets h5 bs (repeat 0 (N.to_nat (N.of_nat (length bs))))).
    { constructor; try reflexivity; [assumption|]. rewrite repeat_length. lia. }
    destruct (insert_all_ok (h_cache h1) _ _ _ H5 HA) as [h6 E6]. rewrite E6. cbn [obind].
    destruct (insert_all_spec _ _ _ _ _ H5 E6) as (cs6 & B6 & M1 & M2 & M3 & M4 & M5 & M6 & M7 & M8 & _).
    cbn in M2, M6. rewrite M2, M6.
    destruct (N.ltb_spec (h_first_n h1) (h_count h1 + 1)) as [?|_]; [lia|].
    eexists; split; [reflexivity|]. rewrite (hb_b _ _ _ B6). split; [congruence|].
    intros bs' H; injection H as <-. auto.
Qed.

Lemma adds_ok name first_n g vals0 vals h :
  first_n <> 0 -> first_n < 2 ^ 64 -> good_generator g -> Forall is_finite (firstn (N.to_nat first_n) (vals0 ++ vals)) ->
  hinv name first_n (Some g) vals0 h ->
  (h_buckets h = None -> N.of_nat (length vals0) < first_n) ->
  (forall bs, h_buckets h = Some bs -> bs <> [] /\ ascending bs) ->
  exists h', hist_adds h vals = Ok h' /\
    (h_buckets h' = None -> N.of_nat (length (vals0 ++ vals)) < first_n) /\
    (forall bs, h_buckets h' = Some bs -> bs <> [] /\ ascending bs).
Proof.
  intros Hf H64 Hg. revert vals0 h; induction vals as [|v vals IH]; intros vals0 h Hnum Hh Hn Ha; cbn [hist_adds].
  - exists h. rewrite app_nil_r. auto.
  - replace (vals0 ++ v :: vals) with ((vals0 ++ [v]) ++ vals) in * by (rewrite <- app_assoc; reflexivity).
    destruct (add_ok _ _ _ _ _ v Hf H64 Hg (firstn_Forall_app _ _ _ _ Hnum) Hh Hn Ha) as (h1 & E1 & Hn1 & Ha1).
    rewrite E1. cbn [obind].
    pose proof (add_inv _ _ _ _ _ _ _ _ Hh E1) as Hh1.
    apply IH; assumption.
Qed.

Lemma hist_counts name first_n g vals : first_n <> 0 -> first_n < 2 ^ 64 -> good_generator g -> Forall is_finite (firstn (N.to_nat first_n) vals) ->
  exists h, hist_adds (hist_new name first_n (Some g)) vals = Ok h
    /\ h_count h = N.of_nat (length vals)
    /\ (N.of_nat (length vals) < first_n -> hist_get h = None)
    /\ (first_n <= N.of_nat (length vals) ->
        exists bs up cs, hist_get h = Some (Some bs, up, Some cs, N.of_nat (length bs))
          /\ length cs = length bs /\ bs <> [] /\ ascending bs /\ total cs = in_some_bucket bs vals
          /\ (forall i, (i < length bs)%nat -> nth_error cs i = Some (in_count bs i vals))
          /\ upper_end bs vals up /\ g (Some (firstn (N.to_nat first_n) vals)) = Ok (Some bs)).
Proof.
  intros Hf H64 Hg Hv.
  destruct (adds_ok name first_n g [] vals (hist_new name first_n (Some g)) Hf H64 Hg Hv (hinv_new _ _ _))
    as (h & E & Hn & Ha); [cbn; lia|cbn; congruence|].
  exists h. split; [exact E|].
  destruct (adds_inv _ _ _ [] _ _ _ (hinv_new name first_n (Some g)) E) as [I1 I2 I3 I4 I5 I6 I7 I8].
  cbn [app] in *. split; [exact I6|]. unfold hist_get. rewrite I6, I2. split.
  - intros H. destruct (N.ltb_spec (N.of_nat (length vals)) first_n); [reflexivity|lia].
  - intros H. destruct (N.ltb_spec (N.of_nat (length vals)) first_n); [lia|].
    destruct (h_buckets h) as [bs|] eqn:Eb; [|specialize (Hn eq_refl); lia].
    destruct (Ha _ eq_refl) as [Hne HA]. destruct bs as [|b bs]; [congruence|].
    destruct I7 as [_ (cs & [B1 B2 B3 B4 B5] & (T1 & T2) & U)].
    destruct (I8 _ g eq_refl eq_refl Hf) as [_ Hmade].
    exists (b :: bs), (h_upper h), cs. rewrite B2, B3. auto 12.
Qed.

(* a generator that gives no buckets for the values leaves the histogram without *)
Lemma add_none name first_n g vals h v :
  first_n <> 0 -> (N.of_nat (length (vals ++ [v])) = first_n -> g (Some (vals ++ [v])) = UB \/ g (Some (vals ++ [v])) = Ok (Some [])) ->
  hinv name first_n (Some g) vals h ->
  (h_buckets h = None -> N.of_nat (length vals) < first_n) ->
  (forall bs, h_buckets h = Some bs -> bs = []) ->
  hist_add h v = UB \/ exists h' r, hist_add h v = Ok (h', r) /\
    (h_buckets h' = None -> N.of_nat (length (vals ++ [v])) < first_n) /\ (forall bs, h_buckets h' = Some bs -> bs = []).
Proof.
  intros Hf0 Hg [Hname Hfirst Hgen Hcap Hcache Hcount Hb _] Hnone Hempty.
  unfold hist_add.
  set (x := if h_count h <? h_first_n h then _ else _).
  assert (K : exists h1, x = Ok h1 /\ h_first_n h1 = first_n /\ h_gen h1 = Some g /\ h_cap h1 = first_n
            /\ h_cache h1 = firstn (N.to_nat first_n) (vals ++ [v])
            /\ h_count h1 = h_count h
            /\ h_buckets h1 = h_buckets h /\ h_counts h1 = h_counts h).
  { unfold x. destruct (N.ltb_spec (h_count h) (h_first_n h)) as [Hlt|Hge].
    - destruct (N.ltb_spec (h_count h) (h_cap h)); [|lia]. eexists; split; [reflexivity|]. cbn.
      repeat split; auto. rewrite Hcache, firstn_snoc_lt; [reflexivity|lia].
    - eexists; split; [reflexivity|]. repeat split; auto. rewrite Hcache, firstn_snoc_ge; [reflexivity|lia]. }
  destruct K as (h1 & -> & K2 & K3 & K4 & K5 & K6 & K7 & K9). cbn [obind].
  cbn [h_first_n h_count h_buckets h_gen].
  rewrite app_length in *. cbn [length] in *.
  destruct (N.leb_spec (h_first_n h1) (h_count h1 + 1)) as [Hle|Hgt].
  2:{ right. eexists. eexists. split; [reflexivity|]. cbn. split; [lia|]. rewrite K7. exact Hempty. }
  destruct (h_buckets h1) as [bs|] eqn:Eb.
  - pose proof (Hempty bs (eq_sym K7)). subst bs. rewrite <- K7 in Hb. destruct Hb as (B1 & B2 & B3). right.
    destruct (h_first_n h1 <? h_count h1 + 1).
    + unfold hist_insert. cbn [h_buckets h_counts]. rewrite K9, B1. cbn [obind]. eexists. eexists. split; [reflexivity|].
      cbn. split; [discriminate|]. intros bs H; injection H as <-. reflexivity.
    + eexists. eexists. split; [reflexivity|]. cbn. split; [discriminate|]. intros bs H; injection H as <-. reflexivity.
  - specialize (Hnone (eq_sym K7)). rewrite <- K7 in Hb. destruct Hb as (B1 & _).
    rewrite K3. unfold gen_input. cbn [h_cap h_count h_cache].
    destruct (N.eqb_spec (h_cap h1) 0) as [?|_]; [lia|].
    destruct (N.leb_spec (h_count h1 + 1) (h_cap h1)) as [Hc|?]; [|lia]. cbn [obind].
    assert (Hall : h_cache h1 = vals ++ [v]) by (rewrite K5, firstn_all2; [reflexivity|rewrite app_length; cbn [length]; lia]).
    rewrite Hall. destruct Hg as [Hg|Hg]; [lia| |]; rewrite Hg; cbn [obind]; [left; reflexivity|]. right.
    unfold hist_gen_counts. cbn [h_name h_first_n h_gen h_cap h_cache h_count h_buckets h_upper h_counts h_size].
    destruct (N.ltb_spec (h_count h1 + 1) (h_first_n h1)) as [?|_]; [lia|]. cbn [length N.of_nat N.eqb]. rewrite K9, B1.
    eexists. eexists. split; [reflexivity|]. cbn. split; [discriminate|]. intros bs H; injection H as <-. reflexivity.
Qed.

Lemma adds_none name first_n g vals : first_n <> 0 -> first_n <= N.of_nat (length vals) ->
  g (Some (firstn (N.to_nat first_n) vals)) = UB \/ g (Some (firstn (N.to_nat first_n) vals)) = Ok (Some []) ->
  hist_adds (hist_new name first_n (Some g)) vals = UB \/
  exists h up, hist_adds (hist_new name first_n (Some g)) vals = Ok h /\ hist_get h = Some (Some [], up, None, 0).
Proof.
  intros Hf Hlen Hg.
  assert (G : forall rest vals0 h, vals = vals0 ++ rest -> hinv name first_n (Some g) vals0 h ->
    (h_buckets h = None -> N.of_nat (length vals0) < first_n) -> (forall bs, h_buckets h = Some bs -> bs = []) ->
    hist_adds h rest = UB \/ exists h', hist_adds h rest = Ok h' /\ hinv name first_n (Some g) vals h' /\
      (h_buckets h' = None -> N.of_nat (length vals) < first_n) /\ (forall bs, h_buckets h' = Some bs -> bs = [])).
  { induction rest as [|v rest IH]; intros vals0 h E Hh Hn He; cbn [hist_adds].
    - rewrite app_nil_r in E. subst vals0. right. exists h. auto.
    - replace (vals0 ++ v :: rest) with ((vals0 ++ [v]) ++ rest) in E by (rewrite <- app_assoc; reflexivity).
      assert (Hg' : N.of_nat (length (vals0 ++ [v])) = first_n -> g (Some (vals0 ++ [v])) = UB \/ g (Some (vals0 ++ [v])) = Ok (Some [])).
      { intros Hl. rewrite E, firstn_app in Hg. replace (N.to_nat first_n - length (vals0 ++ [v]))%nat with O in Hg by lia.
        rewrite firstn_O, app_nil_r, firstn_all2 in Hg by lia. exact Hg. }
      destruct (add_none _ _ _ _ _ v Hf Hg' Hh Hn He) as [U|(h1 & r & E1 & Hn1 & He1)].
      + left. rewrite U. reflexivity.
      + rewrite E1. cbn [obind]. apply (IH (vals0 ++ [v])); [exact E|exact (add_inv _ _ _ _ _ _ _ _ Hh E1)|exact Hn1|exact He1]. }
  destruct (G vals [] _ eq_refl (hinv_new name first_n (Some g))) as [U|(h & E & Hi & Hn & He)]; [cbn; lia|cbn; congruence|left; exact U|].
  right. exists h, (h_upper h). split; [exact E|]. destruct Hi as [I1 I2 I3 I4 I5 I6 I7 _]. unfold hist_get. rewrite I6, I2.
  destruct (N.ltb_spec (N.of_nat (length vals)) first_n); [lia|].
  destruct (h_buckets h) as [bs|]; [|specialize (Hn eq_refl); lia]. rewrite (He bs eq_refl) in *. destruct I7 as (-> & -> & _). reflexivity.
Qed.

Lemma bucket_unique bs v i j : ascending bs -> bucket_of bs v i -> bucket_of bs v j -> i = j.
Proof.
  intros [HF HA].
  assert (W : forall i j, (i < j)%nat -> bucket_of bs v i -> bucket_of bs v j -> False).
  { clear i j. intros i j Hij (bi & Hi & Li & Ui) (bj & Hj & Lj & _).
    assert (Hs : (S i < length bs)%nat) by (apply Nat.le_lt_trans with j; [lia|apply nth_error_Some; congruence]).
    destruct (nth_error bs (S i)) as [b'|] eqn:E'; [|apply nth_error_None in E'; lia].
    specialize (Ui _ eq_refl).
    assert (Hk : (d_key b' <= d_key bj)%Z).
    { destruct (Nat.eq_dec (S i) j) as [<-|Hne].
      - rewrite E' in Hj. injection Hj as <-. lia.
      - apply (HA (S i) j); [lia|assumption..]. }
    rewrite Forall_forall in HF. pose proof (HF bj (nth_error_In _ _ Hj)) as Nj.
    unfold d_lt in *. apply andb_true_iff in Ui as [U1 U2]. apply andb_true_iff in U1 as [U0 U1].
    rewrite U0, Nj in Lj. cbn in Lj. lia. }
  intros Hi Hj. destruct (Nat.lt_trichotomy i j) as [H|[H|H]]; [exfalso; eauto|exact H|exfalso; eauto].
Qed.

Lemma in_bucket_iff bs i v : in_bucket bs i v = true <-> bucket_of bs v i.
Proof.
  unfold in_bucket, bucket_of. destruct (nth_error bs i) as [b|] eqn:E; split.
  - intros H. apply andb_true_iff in H as [H1 H2]. exists b. split; [reflexivity|]. split; [destruct (d_lt v b); [discriminate|reflexivity]|].
    intros b' Hb'. rewrite Hb' in H2. exact H2.
  - intros (b0 & H0 & H1 & H2). injection H0 as <-. rewrite H1. cbn [negb andb]. destruct (nth_error bs (S i)) as [b'|]; [exact (H2 _ eq_refl)|reflexivity].
  - discriminate.
  - intros (b0 & H0 & _). discriminate.
Qed.
