From Verif Require Import ModelBytes ProofBytes ModelWire ModelHist SpecHist ProofHist SpecMsg ModelMsg ProofMsg.
Local Open Scope N_scope.

(* all numbers in the histogram fit 64 bits *)
Record hbits (h : hist) : Prop := {
  w_cache : Forall u64 (h_cache h);
  w_upper : u64 (h_upper h);
  w_buckets : forall bs, h_buckets h = Some bs -> Forall u64 bs /\ u64 (N.of_nat (length bs)) }.

Definition u64_generator (g : generator) : Prop :=
  forall i bs, g i = Ok (Some bs) -> Forall u64 bs /\ u64 (N.of_nat (length bs)).

Lemma insert_bits h v h' : hbits h -> u64 v -> hist_insert h v = Ok h' -> hbits h'.
Proof.
  intros [A B C] Hv. unfold hist_insert.
  destruct (h_buckets h) as [bs|] eqn:Eb; [|intros H; injection H as <-; constructor; auto; congruence].
  destruct (h_counts h) as [cs|]; [|intros H; injection H as <-; constructor; auto; rewrite Eb; auto].
  destruct (h_size h =? 0); [intros H; injection H as <-; constructor; auto; rewrite Eb; auto|].
  destruct (upper_bound bs v) as [[|i]| |]; cbn [obind]; try discriminate.
  - intros H; injection H as <-; constructor; auto; rewrite Eb; auto.
  - destruct (incr cs i); cbn [obind]; try discriminate. intros H; injection H as <-.
    constructor; cbn; auto. destruct (d_lt (h_upper h) v); auto.
Qed.

Lemma insert_all_bits l h h' : hbits h -> Forall u64 l -> hist_insert_all h l = Ok h' -> hbits h'.
Proof.
  revert h; induction l as [|v l IH]; intros h Hh Hl H; cbn in H.
  - injection H as <-. exact Hh.
  - inversion Hl; subst. destruct (hist_insert h v) as [h1| |] eqn:E; cbn [obind] in H; try discriminate.
    eapply IH; [|eassumption|exact H]. eapply insert_bits; [exact Hh| |exact E]. assumption.
Qed.

Lemma insert_gen h w h' : hist_insert h w = Ok h' -> h_gen h' = h_gen h.
Proof.
  unfold hist_insert. destruct (h_buckets h), (h_counts h); try (intros X; injection X as <-; reflexivity).
  destruct (h_size h =? 0); [intros X; injection X as <-; reflexivity|].
  destruct (upper_bound _ w) as [[|i]| |]; cbn [obind]; try discriminate; [intros X; injection X as <-; reflexivity|].
  destruct (incr _ i); cbn [obind]; try discriminate. intros X; injection X as <-. reflexivity.
Qed.
Lemma insert_all_gen l h h' : hist_insert_all h l = Ok h' -> h_gen h' = h_gen h.
Proof.
  revert h; induction l as [|w l IH]; intros h H; cbn in H; [injection H as <-; reflexivity|].
  destruct (hist_insert h w) as [h1| |] eqn:E; cbn [obind] in H; try discriminate.
  rewrite (IH _ H). eapply insert_gen, E.
Qed.

Lemma add_bits h v h' r g : hbits h -> u64 v -> h_gen h = Some g -> u64_generator g ->
  hist_add h v = Ok (h', r) -> hbits h' /\ h_gen h' = Some g.
Proof.
  intros [A B C] Hv Hgen Hg H. unfold hist_add in H.
  match type of H with (obind ?x _) = _ => destruct x as [h1| |] eqn:E1; cbn [obind] in H; try discriminate end.
  assert (H1 : hbits h1 /\ h_gen h1 = Some g).
  { destruct (h_count h <? h_first_n h).
    - destruct (h_count h <? h_cap h); [|discriminate]. injection E1 as <-. split; [|exact Hgen].
      constructor; cbn; auto. apply Forall_app. auto.
    - injection E1 as <-. split; [constructor; auto|exact Hgen]. }
  clear E1. destruct H1 as [[A1 B1 C1] Hgen1].
  cbn [h_first_n h_count h_buckets h_gen] in H.
  set (h2 := {| h_name := h_name h1; h_first_n := h_first_n h1; h_gen := h_gen h1; h_cap := h_cap h1;
                h_cache := h_cache h1; h_count := h_count h1 + 1; h_buckets := h_buckets h1;
                h_upper := h_upper h1; h_counts := h_counts h1; h_size := h_size h1 |}) in *.
  assert (H2 : hbits h2) by (constructor; cbn; auto).
  assert (G2 : h_gen h2 = Some g) by exact Hgen1.
  destruct (h_first_n h1 <=? h_count h1 + 1).
  2:{ injection H as <- <-. auto. }
  change (h_buckets h1) with (h_buckets h2) in H. destruct (h_buckets h2) as [bs|] eqn:Eb.
  - destruct (h_first_n h1 <? h_count h1 + 1); [|injection H as <- <-; auto].
    destruct (hist_insert h2 v) as [h3| |] eqn:E3; cbn [obind] in H; try discriminate. injection H as <- <-.
    split; [exact (insert_bits _ _ _ H2 Hv E3)|]. rewrite (insert_gen _ _ _ E3). exact G2.
  - rewrite Hgen1 in H. destruct (gen_input h2) as [inp| |]; cbn [obind] in H; try discriminate.
    destruct (g inp) as [[bs|]| |] eqn:Eg; cbn [obind] in H; try discriminate; [|injection H as <- <-; auto].
    destruct (Hg _ _ Eg) as [Hb Hl].
    unfold hist_gen_counts in H. cbn in H.
    destruct (h_count h1 + 1 <? h_first_n h1).
    { injection H as <- <-. split; [constructor; cbn; [assumption|reflexivity|intros ? X; injection X as <-; auto]|first [assumption|reflexivity]]. }
    destruct (N.of_nat (length bs) =? 0).
    + destruct (h_counts h1).
      * match type of H with (obind ?x _) = _ => destruct x as [h6| |] eqn:E6; cbn [obind] in H; try discriminate end.
        destruct (_ =? _) in E6; [|discriminate].
        assert (H6 : hbits h6).
        { eapply insert_all_bits; [|exact A1|exact E6]. constructor; cbn; [assumption|reflexivity|intros ? X; injection X as <-; auto]. }
        assert (G6 : h_gen h6 = Some g).
        { rewrite (insert_all_gen _ _ _ E6). reflexivity. }
        destruct (h_first_n h6 <? h_count h6); [|injection H as <- <-; auto].
        destruct (hist_insert h6 v) as [h7| |] eqn:E7; cbn [obind] in H; try discriminate. injection H as <- <-.
        split; [exact (insert_bits _ _ _ H6 Hv E7)|]. rewrite (insert_gen _ _ _ E7). exact G6.
      * injection H as <- <-. split; [constructor; cbn; [assumption|reflexivity|intros ? X; injection X as <-; auto]|first [assumption|reflexivity]].
    + match type of H with (obind ?x _) = _ => destruct x as [h6| |] eqn:E6; cbn [obind] in H; try discriminate end.
      destruct (_ =? _) in E6; [|discriminate].
      assert (H6 : hbits h6).
      { eapply insert_all_bits; [|exact A1|exact E6]. constructor; cbn; [assumption|reflexivity|intros ? X; injection X as <-; auto]. }
      assert (G6 : h_gen h6 = Some g).
      { rewrite (insert_all_gen _ _ _ E6). reflexivity. }
      destruct (h_first_n h6 <? h_count h6); [|injection H as <- <-; auto].
      destruct (hist_insert h6 v) as [h7| |] eqn:E7; cbn [obind] in H; try discriminate. injection H as <- <-.
      split; [exact (insert_bits _ _ _ H6 Hv E7)|]. rewrite (insert_gen _ _ _ E7). exact G6.
Qed.

Lemma adds_bits vals h h' g : hbits h -> Forall u64 vals -> h_gen h = Some g -> u64_generator g ->
  hist_adds h vals = Ok h' -> hbits h'.
Proof.
  revert h; induction vals as [|v vals IH]; intros h Hh Hv Hgen Hg H; cbn [hist_adds] in H.
  - injection H as <-. exact Hh.
  - inversion Hv; subst. destruct (hist_add h v) as [[h1 r]| |] eqn:E; cbn [obind] in H; try discriminate.
    destruct (add_bits _ _ _ _ _ Hh H2 Hgen Hg E) as [Hh1 Hg1].
    eapply IH; eassumption.
Qed.

Lemma total_ge l x : In x l -> x <= total l.
Proof. induction l as [|y l IH]; cbn; [tauto|]. intros [->|H]; [lia|]. specialize (IH H). unfold total in IH. lia. Qed.

(* every histogram reachable by additions can be packed *)
Lemma reachable_hist_ok name first_n g vals h :
  hist_adds (hist_new name first_n (Some g)) vals = Ok h ->
  u64 (blen name) -> u64 first_n -> u64 (N.of_nat (length vals)) -> Forall u64 vals -> u64_generator g ->
  hist_ok h.
Proof.
  intros H Hn Hf Hl Hv Hg.
  pose proof (adds_inv _ _ _ [] _ _ _ (hinv_new name first_n (Some g)) H) as I. cbn [app] in I.
  assert (W : hbits h).
  { eapply adds_bits; [|exact Hv| |exact Hg|exact H]; [constructor; cbn; [constructor|reflexivity|congruence]|reflexivity]. }
  destruct I as [I1 I2 I3 I4 I5 I6 I7 _]. destruct W as [W1 W2 W3].
  unfold hist_ok. rewrite I1, I2, I6. repeat (split; [assumption|]).
  split.
  - intros Hlt. split.
    + rewrite I5, firstn_all2; [reflexivity|lia].
    + destruct (h_buckets h) as [[|b bs]|]; [tauto| |tauto]. destruct I7 as [? _]. lia.
  - intros Hs. destruct (h_buckets h) as [[|b bs]|]; [tauto| |tauto].
    destruct I7 as [_ (cs & [B1 B2 B3 B4 B5] & T)]. destruct (W3 _ eq_refl) as [U1 U2].
    exists (b :: bs), cs. rewrite B2, B3, B5. repeat (split; [reflexivity || assumption|]).
    split; [|exact W2]. apply Forall_forall. intros x Hx. apply total_ge in Hx. unfold u64 in *.
    rewrite (proj1 (proj1 T)) in Hx. unfold in_some_bucket in Hx.
    assert (Hfl : forall (p : N -> bool) l, (length (filter p l) <= length l)%nat).
    { intros p l. induction l as [|y l IH]; cbn; [lia|]. destruct (p y); cbn; lia. }
    specialize (Hfl (fun v => negb (below_first (b :: bs) v)) vals). lia.
Qed.

(* what unpacking recovers, spelled out *)
Lemma hist_round_trip name first_n g vals h :
  hist_adds (hist_new name first_n (Some g)) vals = Ok h ->
  u64 (blen name) -> u64 first_n -> u64 (N.of_nat (length vals)) -> Forall u64 vals -> u64_generator g ->
  exists b h', hist_pack h = Ok b /\ blen b = hist_pack_size h
    /\ hist_unpack (hist_new [] 0 None) (blen b) b = Ok (Some h', [])
    /\ h_name h' = name /\ h_first_n h' = first_n /\ h_count h' = N.of_nat (length vals)
    /\ (N.of_nat (length vals) < first_n -> h_cache h' = vals /\ hist_get h' = None)
    /\ (h_size h <> 0 -> hist_get h' = hist_get h
          /\ forall v bs, h_buckets h = Some bs -> ascending bs ->
             exists h1 h1', hist_add h v = Ok (h1, true) /\ hist_add h' v = Ok (h1', true)
                            /\ hist_get h1' = hist_get h1).
Proof.
  intros H Hn Hf Hl Hv Hg.
  pose proof (reachable_hist_ok _ _ _ _ _ H Hn Hf Hl Hv Hg) as Hok.
  destruct (hist_pack_spec h (hist_new [] 0 None) (hist_pack_size h) [] Hok eq_refl eq_refl eq_refl (hist_pack_size_ge h))
    as (b & Eb & Lb & Rb).
  rewrite app_nil_r in Rb.
  exists b, (seen_hist h). split; [exact Eb|]. split; [exact Lb|]. rewrite Lb. split; [exact Rb|].
  pose proof (adds_inv _ _ _ [] _ _ _ (hinv_new name first_n (Some g)) H) as I. cbn [app] in I.
  destruct I as [I1 I2 I3 I4 I5 I6 I7 _].
  assert (P : h_name (seen_hist h) = h_name h /\ h_first_n (seen_hist h) = h_first_n h /\ h_count (seen_hist h) = h_count h).
  { unfold seen_hist. destruct (h_size h =? 0); auto. }
  destruct P as (P1 & P2 & P3). rewrite P1, P2, P3. repeat (split; [assumption|]).
  split.
  - intros Hlt. unfold seen_hist, hist_get. rewrite I2, I6.
    assert (Hs : h_size h = 0).
    { destruct (h_buckets h) as [[|b0 bs]|]; [tauto| |tauto]. destruct I7 as [? _]. lia. }
    rewrite Hs. cbn [N.eqb h_cache h_count h_first_n].
    destruct (N.ltb_spec (N.of_nat (length vals)) first_n); [|lia].
    split; [rewrite I5, firstn_all2; [reflexivity|lia]|reflexivity].
  - intros Hs.
    assert (G : forall x, h_size h <> 0 -> h_first_n x = h_first_n h -> True) by trivial. clear G.
    split.
    + unfold seen_hist, hist_get. destruct (N.eqb_spec (h_size h) 0); [congruence|]. reflexivity.
    + intros v bs Ebs HA.
      destruct bs as [|b0 bs]; [rewrite Ebs in I7; destruct I7 as (_ & ? & _); congruence|].
      rewrite Ebs in I7. destruct I7 as [Hge (cs & B & T)].
      unfold hist_add, seen_hist. destruct (N.eqb_spec (h_size h) 0); [congruence|].
      cbn [h_name h_first_n h_gen h_cap h_cache h_count h_buckets h_upper h_counts h_size].
      destruct (N.ltb_spec (h_count h) (h_first_n h)); [lia|]. cbn [obind].
      cbn [h_name h_first_n h_gen h_cap h_cache h_count h_buckets h_upper h_counts h_size].
      destruct (N.leb_spec (h_first_n h) (h_count h + 1)); [|lia]. rewrite Ebs.
      destruct (N.ltb_spec (h_first_n h) (h_count h + 1)); [|lia].
      destruct B as [B1 B2 B3 B4 B5]. unfold hist_insert.
      cbn [h_name h_first_n h_gen h_cap h_cache h_count h_buckets h_upper h_counts h_size].
      rewrite B2. destruct (N.eqb_spec (h_size h) 0); [congruence|].
      destruct (upper_bound_total _ v HA) as [k Ek]. rewrite Ek. cbn [obind].
      destruct k as [|k].
      * do 2 eexists. split; [reflexivity|]. split; [reflexivity|]. reflexivity.
      * pose proof (upper_bound_le _ _ _ Ek). destruct (incr_ok cs k) as [cs' ->]; [lia|]. cbn [obind].
        do 2 eexists. split; [reflexivity|]. split; [reflexivity|]. reflexivity.
Qed.
