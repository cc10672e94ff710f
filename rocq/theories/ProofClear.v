From Verif Require Import ModelBytes ModelElen ModelHist SpecHist SpecMsg ProofHist ProofHist2 ProofMsg ModelClear ProofStore.
Local Open Scope N_scope.

(* ---- histograms that are never cleared ---- *)
Lemma cells_full : forall h, N.of_nat (length (h_cache h)) = h_cap h -> cells h = h_cache h.
Proof. intros h E. unfold cells. replace (N.to_nat (h_cap h) - length (h_cache h))%nat with O by lia. apply app_nil_r. Qed.
Lemma firstn_cells : forall h n, n = length (h_cache h) -> firstn n (cells h) = h_cache h.
Proof. intros h n ->. unfold cells. rewrite firstn_app, Nat.sub_diag, firstn_all. cbn [firstn]. apply app_nil_r. Qed.
Lemma insert_cache : forall h v h', hist_insert h v = Ok h' -> h_cache h' = h_cache h /\ h_cap h' = h_cap h /\ h_first_n h' = h_first_n h /\ h_count h' = h_count h.
Proof.
  intros h v h' E. unfold hist_insert in E. destruct (h_buckets h) as [bs|]; [| injection E as <-; auto ]. destruct (h_counts h) as [cs|]; [| injection E as <-; auto ].
  destruct (h_size h =? 0); [ injection E as <-; auto |]. destruct (upper_bound bs v) as [[|i]| |]; cbn [obind] in E; try discriminate E; [ injection E as <-; auto |].
  destruct (incr cs i); cbn [obind] in E; try discriminate E. injection E as <-. auto.
Qed.
Definition plain (h : hist) : Prop := h_cap h = h_first_n h /\ N.of_nat (length (h_cache h)) = N.min (h_count h) (h_first_n h).
Lemma same_add : forall h v, plain h -> add_value h v = hist_add h v.
Proof.
  intros h v (C & L). unfold add_value, hist_add. rewrite C.
  destruct (N.ltb_spec (h_count h) (h_first_n h)) as [Lt | Ge]; cbn [obind].
  - assert (Ln : length (h_cache h) = N.to_nat (h_count h)) by lia.
    rewrite firstn_cells by lia. rewrite skipn_all2 by lia.
    unfold with_cache. cbn [h_name h_first_n h_gen h_cap h_cache h_count h_buckets h_upper h_counts h_size].
    destruct (N.ltb_spec (h_count h + 1) (h_first_n h)) as [Lt1 | Ge1].
    + destruct (N.leb_spec (h_first_n h) (h_count h + 1)); [ lia | now rewrite C ].
    + destruct (N.leb_spec (h_first_n h) (h_count h + 1)); [| lia ]. rewrite C. destruct (h_buckets h) as [bs|]; [ reflexivity |].
      destruct (h_gen h) as [g|]; [| reflexivity ]. unfold seen_values, gen_input. cbn [h_cap h_count h_cache].
      destruct (N.eqb_spec (h_first_n h) 0); [ lia |]. destruct (N.leb_spec (h_count h + 1) (h_first_n h)); [| lia ]. cbn [obind].
      rewrite firstn_cells by (cbn [h_cache]; rewrite app_length; cbn [length]; lia). cbn [h_cache].
      destruct (g (Some (h_cache h ++ [v]))) as [[bs|]| |]; cbn [obind]; try reflexivity.
      unfold hist_gen_counts. cbn [h_name h_first_n h_gen h_cap h_cache h_count h_buckets h_upper h_counts h_size].
      destruct (N.ltb_spec (h_count h + 1) (h_first_n h)); [ lia |]. cbn [h_name h_first_n h_gen h_cap h_cache h_count h_buckets h_upper h_counts h_size].
      destruct (if N.of_nat (length bs) =? 0 then h_counts h else Some (repeat 0 (N.to_nat (N.of_nat (length bs))))) as [cs|]; [| reflexivity ].
      rewrite N.leb_refl. rewrite firstn_cells by (cbn [h_cache]; rewrite app_length; cbn [length]; lia). cbn [h_cache].
      destruct (N.eqb_spec (h_first_n h) (N.of_nat (length (h_cache h ++ [v])))) as [_ | Ne]; [ reflexivity |]. exfalso. apply Ne. rewrite app_length. cbn [length]. lia.
  - unfold with_cache. cbn [h_name h_first_n h_gen h_cap h_cache h_count h_buckets h_upper h_counts h_size]. rewrite C.
    destruct (N.ltb_spec (h_count h + 1) (h_first_n h)); [ lia |]. destruct (N.leb_spec (h_first_n h) (h_count h + 1)); [| lia ].
    destruct (h_buckets h) as [bs|]; [ reflexivity |]. destruct (h_gen h) as [g|]; [| reflexivity ]. unfold seen_values, gen_input. cbn [h_cap h_count h_cache].
    destruct (N.eqb_spec (h_first_n h) 0) as [Z | Nz].
    + cbn [obind]. destruct (g None) as [[bs|]| |]; cbn [obind]; try reflexivity.
      unfold hist_gen_counts. cbn [h_name h_first_n h_gen h_cap h_cache h_count h_buckets h_upper h_counts h_size].
      destruct (N.ltb_spec (h_count h + 1) (h_first_n h)); [ lia |]. cbn [h_name h_first_n h_gen h_cap h_cache h_count h_buckets h_upper h_counts h_size].
      destruct (if N.of_nat (length bs) =? 0 then h_counts h else Some (repeat 0 (N.to_nat (N.of_nat (length bs))))) as [cs|]; [| reflexivity ].
      rewrite N.leb_refl. rewrite firstn_cells by (cbn [h_cache]; lia). cbn [h_cache].
      destruct (N.eqb_spec (h_first_n h) (N.of_nat (length (h_cache h)))) as [_ | Ne]; [ reflexivity | lia ].
    + destruct (N.leb_spec (h_count h + 1) (h_first_n h)); [ lia | reflexivity ].
Qed.
Lemma plain_of name f g vals h : hinv name f g vals h -> plain h.
Proof. intros [A B C D E F _ _]. unfold plain. rewrite B, D, E, F, firstn_length. split; [ reflexivity | lia ]. Qed.
Lemma same_adds name f g : forall vals vals0 h, hinv name f (Some g) vals0 h -> use_all h (map UAdd vals) = hist_adds h vals.
Proof.
  induction vals as [|v vals IH]; intros vals0 h I; cbn [map use_all hist_adds use_one]; [ reflexivity |]. rewrite (same_add h v (plain_of _ _ _ _ _ I)).
  destruct (hist_add h v) as [[h' r]| |] eqn:E; cbn [obind]; try reflexivity. apply (IH (vals0 ++ [v])). exact (add_inv _ _ _ _ _ _ _ _ I E).
Qed.

(* ---- cleared histograms ---- *)
Lemma use_all_app : forall l l' h h', use_all h l = Ok h' -> use_all h (l ++ l') = use_all h' l'.
Proof.
  induction l as [|u l IH]; intros l' h h' E; cbn [use_all app] in *; [ injection E as ->; reflexivity |].
  destruct (use_one h u) as [h1| |]; cbn [obind] in *; try discriminate E. now apply IH.
Qed.
(* with buckets made after clear *)
Record refilled (g : generator) (x : N) (bs : list N) (vals : list N) (h : hist) : Prop := {
  rf_first : h_first_n h = 0;
  rf_gen : h_gen h = Some g;
  rf_count : h_count h = N.of_nat (length vals);
  rf_b : exists cs, has_buckets h bs cs /\ counts_ok bs cs vals }.
Lemma refill_insert g x bs vals h v h' : refilled g x bs vals h -> hist_insert (with_cache h (h_cache h) (h_count h + 1)) v = Ok h' -> refilled g x bs (vals ++ [v]) h'.
Proof.
  intros [A B C (cs & H & K)] E. assert (H' : has_buckets (with_cache h (h_cache h) (h_count h + 1)) bs cs) by (destruct H; constructor; assumption).
  destruct (insert_spec _ _ _ _ _ H' E) as (cs' & H1 & _ & F1 & G1 & _ & _ & N1 & D & P & _). cbn [with_cache h_first_n h_gen h_count] in *.
  constructor; [ congruence | congruence | rewrite N1, C, app_length; cbn [length]; lia |]. exists cs'. split; [ exact H1 |].
  apply (counts_snoc bs cs); [ exact K | | exact P ]. destruct D as [(-> & -> & _) | (-> & T & _)]; [ lia | exact T ].
Qed.
Lemma refill_first g h v x bs : h_first_n h = 0 -> h_count h = 0 -> h_buckets h = None -> h_counts h = None -> h_gen h = Some g -> h_cap h <> 0 ->
  hd 0 (h_cache h) = x -> g (Some [x]) = Ok (Some bs) -> bs <> [] -> ascending bs ->
  exists h', add_value h v = Ok (h', true) /\ refilled g x bs [v] h'.
Proof.
  intros A B C D G Cap X Gx Ne As. unfold add_value. rewrite A, B. cbn [N.ltb N.compare obind]. unfold with_cache. cbn [h_count h_first_n h_buckets h_gen].
  change (0 + 1 <? 0) with false. cbn iota. rewrite C, G. unfold seen_values. cbn [h_cap h_count h_cache].
  destruct (N.eqb_spec (h_cap h) 0) as [|_]; [ contradiction |]. destruct (N.leb_spec (0 + 1) (h_cap h)) as [_|]; [| lia ]. cbn [obind].
  change (N.to_nat (0 + 1)) with 1%nat. assert (Ec : firstn 1 (cells (mkHist (h_name h) 0 (Some g) (h_cap h) (h_cache h) (0 + 1) None (h_upper h) (h_counts h) (h_size h))) = [x]).
  { unfold cells. cbn [h_cache h_cap]. destruct (h_cache h) as [|c l]; cbn [hd] in X; subst x; [| reflexivity ].
    cbn [length app]. replace (N.to_nat (h_cap h) - 0)%nat with (Datatypes.S (N.to_nat (h_cap h - 1))) by lia. reflexivity. }
  match goal with |- context [firstn 1 ?c] => change (firstn 1 c) with (firstn 1 (cells (mkHist (h_name h) 0 (Some g) (h_cap h) (h_cache h) (0 + 1) None (h_upper h) (h_counts h) (h_size h)))) end.
  rewrite Ec, Gx. cbn [obind]. unfold hist_gen_counts. cbn [h_name h_first_n h_gen h_cap h_cache h_count h_buckets h_upper h_counts h_size].
  change (0 + 1 <? h_first_n h) with (0 + 1 <? h_first_n h). rewrite ?A. change (0 + 1 <? 0) with false. cbn iota.
  destruct (N.eqb_spec (N.of_nat (length bs)) 0) as [Z|_]; [ destruct bs; [ congruence | cbn in Z; lia ] |].
  cbn [h_name h_first_n h_gen h_cap h_cache h_count h_buckets h_upper h_counts h_size]. destruct (N.leb_spec 0 (h_cap h)) as [_|]; [| lia ].
  change (N.to_nat 0) with O. cbn [firstn hist_insert_all obind]. unfold insert_new. cbn [h_first_n h_count]. change (0 <? 0 + 1) with true. cbn iota.
  rewrite Nnat.Nat2N.id.
  set (h3 := mkHist _ _ _ _ _ _ _ _ _ _).
  assert (R : has_buckets h3 bs (repeat 0 (length bs))) by (constructor; try reflexivity; [ exact Ne | apply repeat_length ]).
  destruct (insert_ok h3 bs _ v R As) as (h4 & E4). rewrite E4. cbn [obind]. exists h4. split; [ reflexivity |].
  destruct (insert_spec _ _ _ _ _ R E4) as (cs' & H1 & _ & F1 & G1 & _ & _ & N1 & Dd & P & _).
  constructor; [ exact F1 | exact G1 | exact N1 |]. exists cs'. split; [ exact H1 |].
  apply (counts_snoc bs (repeat 0 (length bs)) cs' [] v); [ split; [ apply total_repeat0 | intros i Hi; now apply nth_error_repeat0 ] | | exact P ].
  destruct Dd as [(-> & -> & _) | (-> & T & _)]; [ lia | exact T ].
Qed.
Lemma refill_more g x bs : ascending bs -> forall vals vals0 h, refilled g x bs vals0 h -> exists h', use_all h (map UAdd vals) = Ok h' /\ refilled g x bs (vals0 ++ vals) h'.
Proof.
  intros As vals. induction vals as [|v vals IH]; intros vals0 h R; cbn [map use_all use_one].
  - exists h. rewrite app_nil_r. auto.
  - assert (R0 := R). destruct R0 as [A B C (cs & H & K)]. pose proof (hb_b _ _ _ H) as Hb.
    assert (H' : has_buckets (with_cache h (h_cache h) (h_count h + 1)) bs cs) by (destruct H; constructor; assumption).
    destruct (insert_ok _ bs cs v H' As) as (h1 & E1).
    assert (Ea : add_value h v = Ok (h1, true)).
    { unfold add_value. rewrite A. destruct (N.ltb_spec (h_count h) 0) as [|_]; [ lia |]. cbn [obind]. change (h_count (with_cache h (h_cache h) (h_count h + 1))) with (h_count h + 1).
      change (h_first_n (with_cache h (h_cache h) (h_count h + 1))) with (h_first_n h). rewrite A. destruct (N.ltb_spec (h_count h + 1) 0) as [|_]; [ lia |].
      change (h_buckets (with_cache h (h_cache h) (h_count h + 1))) with (h_buckets h). rewrite Hb. unfold insert_new.
      change (h_count (with_cache h (h_cache h) (h_count h + 1))) with (h_count h + 1).
      change (h_first_n (with_cache h (h_cache h) (h_count h + 1))) with (h_first_n h). rewrite A. destruct (N.ltb_spec 0 (h_count h + 1)) as [_|]; [| lia ].
      rewrite E1. reflexivity. }
    rewrite Ea. cbn [obind]. destruct (IH (vals0 ++ [v]) h1 (refill_insert _ _ _ _ _ _ _ R E1)) as (h2 & E2 & R2). exists h2. split; [ exact E2 |].
    now rewrite <- app_assoc in R2.
Qed.

(* ---- printing ---- *)
Definition whole (h : hist) : Prop :=
  h_size h = 0 /\ (h_counts h = None) \/ exists bs cs, h_buckets h = Some bs /\ h_counts h = Some cs /\ N.of_nat (length bs) = h_size h /\ N.of_nat (length cs) = h_size h.
Lemma insert_whole h v h' : whole h -> hist_insert h v = Ok h' -> whole h'.
Proof.
  intros W E. unfold hist_insert in E. destruct (h_buckets h) as [bs|] eqn:B; [| injection E as <-; exact W ]. destruct (h_counts h) as [cs|] eqn:C; [| injection E as <-; exact W ].
  destruct (h_size h =? 0) eqn:Z; [ injection E as <-; exact W |]. destruct (upper_bound bs v) as [[|i]| |]; cbn [obind] in E; try discriminate E; [ injection E as <-; exact W |].
  destruct (incr cs i) as [cs'| |] eqn:Ei; cbn [obind] in E; try discriminate E. injection E as <-. apply incr_spec in Ei as (L & _).
  destruct W as [(_ & Nc) | (bs' & cs0 & B' & C' & L1 & L2)]; [ congruence |]. right. exists bs, cs'. cbn. rewrite B in B'. rewrite C in C'. injection B' as <-. injection C' as <-.
  repeat split; [ exact L1 | lia ].
Qed.
Lemma insert_all_whole l : forall h h', whole h -> hist_insert_all h l = Ok h' -> whole h'.
Proof.
  induction l as [|v l IH]; intros h h' W E; cbn [hist_insert_all] in E; [ injection E as <-; exact W |].
  destruct (hist_insert h v) as [h1| |] eqn:E1; cbn [obind] in E; try discriminate E. exact (IH h1 h' (insert_whole h v h1 W E1) E).
Qed.
Lemma insert_new_whole h v h' r : whole h -> insert_new h v = Ok (h', r) -> whole h'.
Proof.
  intros W E. unfold insert_new in E. destruct (h_first_n h <? h_count h); [| injection E as <- <-; exact W ].
  destruct (hist_insert h v) as [h1| |] eqn:E1; cbn [obind] in E; try discriminate E. injection E as <- <-. exact (insert_whole h v h1 W E1).
Qed.
Lemma add_whole h v h' r : whole h -> (h_buckets h = None -> h_counts h = None) -> add_value h v = Ok (h', r) -> whole h' /\ (h_buckets h' = None -> h_counts h' = None).
Proof.
  intros W Q E. unfold add_value in E.
  assert (Step : forall c, whole (with_cache h c (h_count h + 1)) /\ (h_buckets (with_cache h c (h_count h + 1)) = None -> h_counts (with_cache h c (h_count h + 1)) = None)).
  { intros c. split; [ exact W | exact Q ]. }
  assert (X : exists c, (let h1 := with_cache h c (h_count h + 1) in
    if h_count h1 <? h_first_n h1 then Ok (h1, true) else
    match h_buckets h1 with
    | Some _ => insert_new h1 v
    | None => match h_gen h1 with
      | None => UB
      | Some g => do inp <- seen_values h1; do made <- g inp;
          match made with
          | None => Ok (h1, false)
          | Some bs =>
              let '(h2, counted) := hist_gen_counts (mkHist (h_name h1) (h_first_n h1) (h_gen h1) (h_cap h1) (h_cache h1) (h_count h1) (Some bs) 0 (h_counts h1) (N.of_nat (length bs))) in
              if counted then
                let h3 := mkHist (h_name h2) (h_first_n h2) (h_gen h2) (h_cap h2) (h_cache h2) (h_count h2) (h_buckets h2) DBL_MIN (h_counts h2) (h_size h2) in
                if h_first_n h3 <=? h_cap h3 then do h4 <- hist_insert_all h3 (firstn (N.to_nat (h_first_n h3)) (cells h3)); insert_new h4 v else UB
              else Ok (h2, false)
          end
      end
    end) = Ok (h', r)).
  { destruct (h_count h <? h_first_n h); [ destruct (h_count h <? h_cap h); [| discriminate E ] |]; cbn [obind] in E; eexists; exact E. }
  clear E. destruct X as (c & E). destruct (Step c) as (W1 & Q1). clear Step. set (h1 := with_cache h c (h_count h + 1)) in *. cbv zeta in E.
  destruct (h_count h1 <? h_first_n h1) eqn:Lt; [ injection E as <- <-; auto |].
  assert (Keep : forall a b x, insert_new a x = Ok b -> whole a -> h_buckets a <> None -> whole (fst b) /\ (h_buckets (fst b) = None -> h_counts (fst b) = None)).
  { intros a [b rb] x Eb Wa Ba. split; [ exact (insert_new_whole _ _ _ _ Wa Eb) |]. cbn [fst]. intros Nb. exfalso. unfold insert_new in Eb.
    destruct (h_first_n a <? h_count a); [| injection Eb as <- _; contradiction ]. destruct (hist_insert a x) as [a'| |] eqn:Ea; cbn [obind] in Eb; try discriminate Eb. injection Eb as <- _.
    unfold hist_insert in Ea. destruct (h_buckets a) as [z|] eqn:Bz; [| contradiction ]. destruct (h_counts a); [| injection Ea as <-; congruence ].
    destruct (h_size a =? 0); [ injection Ea as <-; congruence |]. destruct (upper_bound z x) as [[|i]| |]; cbn [obind] in Ea; try discriminate Ea; [ injection Ea as <-; congruence |].
    destruct (incr l i); cbn [obind] in Ea; try discriminate Ea. injection Ea as <-. discriminate Nb. }
  destruct (h_buckets h1) as [z|] eqn:Bz; [ apply (Keep _ _ _ E W1); congruence |]. specialize (Q1 eq_refl).
  destruct (h_gen h1) as [g|]; [| discriminate E ]. destruct (seen_values h1) as [inp| |]; cbn [obind] in E; try discriminate E.
  destruct (g inp) as [[bs|]| |]; cbn [obind] in E; try discriminate E; [| injection E as <- <-; split; [ exact W1 | intros _; exact Q1 ] ].
  unfold hist_gen_counts in E. cbn [h_name h_first_n h_gen h_cap h_cache h_count h_buckets h_upper h_counts h_size] in E. rewrite Lt, Q1 in E.
  cbn [h_name h_first_n h_gen h_cap h_cache h_count h_buckets h_upper h_counts h_size] in E.
  destruct (N.eqb_spec (N.of_nat (length bs)) 0) as [Zb | Nb].
  - injection E as <- <-. split; [ left; cbn; auto | discriminate ].
  - destruct (h_first_n h1 <=? h_cap h1); [| discriminate E ]. set (h3 := mkHist _ _ _ _ _ _ (Some bs) DBL_MIN _ _) in E.
    assert (W3 : whole h3) by (right; exists bs; eexists; split; [ reflexivity |]; split; [ reflexivity |]; cbn; rewrite repeat_length; split; [ reflexivity | lia ]).
    assert (B3 : has_buckets h3 bs (repeat 0 (length bs))).
    { constructor; try reflexivity; [ cbn; now rewrite Nnat.Nat2N.id | destruct bs; [ now destruct Nb | discriminate ] | apply repeat_length ]. }
    destruct (hist_insert_all h3 (firstn (N.to_nat (h_first_n h1)) (cells h3))) as [h4| |] eqn:E4; cbn [obind] in E; try discriminate E.
    apply (Keep _ _ _ E (insert_all_whole _ _ _ W3 E4)). destruct (insert_all_spec _ _ _ _ _ B3 E4) as (cs4 & H4 & _). rewrite (hb_b _ _ _ H4). discriminate.
Qed.
Lemma use_whole l : forall h h', whole h -> (h_buckets h = None -> h_counts h = None) -> use_all h l = Ok h' -> whole h'.
Proof.
  induction l as [|u l IH]; intros h h' W Q E; cbn [use_all] in E; [ injection E as <-; exact W |].
  destruct u as [v|]; cbn [use_one] in E.
  - destruct (add_value h v) as [[h1 r]| |] eqn:E1; cbn [obind] in E; try discriminate E. destruct (add_whole h v h1 r W Q E1) as (W1 & Q1). exact (IH h1 h' W1 Q1 E).
  - cbn [obind] in E. eapply IH; [| | exact E ]; [ left; split; reflexivity | reflexivity ].
Qed.
Lemma bucket_lines_length show ind : forall bs cs, length bs = length cs -> length (bucket_lines show ind bs cs) = length bs.
Proof. induction bs as [|b bs IH]; intros [|c cs] L; cbn in *; try lia. rewrite IH; lia. Qed.
Lemma prints show ind h : whole h -> exists l, print_lines show ind h = Ok l /\ length l = (if h_size h =? 0 then 1%nat else (N.to_nat (h_size h) + 2)%nat) /\
  hd [] l = ind ++ bstr "Histogram has " ++ to_string (h_count h) ++ bstr " values".
Proof.
  intros W. unfold print_lines. destruct (N.eqb_spec (h_size h) 0) as [Z | Nz]; cbn [obind]; [ eexists; split; [ reflexivity |]; split; reflexivity |].
  destruct W as [(Z & _) | (bs & cs & -> & -> & L1 & L2)]; [ contradiction |]. rewrite (proj2 (N.eqb_eq _ _) L1), (proj2 (N.eqb_eq _ _) L2). cbn [andb obind].
  eexists. split; [ reflexivity |]. split; [| reflexivity ]. cbn [length]. rewrite app_length, bucket_lines_length by lia. cbn [length]. lia.
Qed.

(* ---- what never changes ---- *)
Definition frame (h h' : hist) : Prop :=
  h_name h' = h_name h /\ h_gen h' = h_gen h /\ h_cap h' = h_cap h /\ h_first_n h' = h_first_n h /\ h_cache h' = h_cache h.
Lemma insert_frame h v h' : hist_insert h v = Ok h' -> frame h h'.
Proof.
  intros E. unfold frame. unfold hist_insert in E. destruct (h_buckets h) as [bs|]; [| injection E as <-; auto ]. destruct (h_counts h) as [cs|]; [| injection E as <-; auto ].
  destruct (h_size h =? 0); [ injection E as <-; auto |]. destruct (upper_bound bs v) as [[|i]| |]; cbn [obind] in E; try discriminate E; [ injection E as <-; auto |].
  destruct (incr cs i); cbn [obind] in E; try discriminate E. injection E as <-. cbn. auto.
Qed.
Lemma frame_trans a b c : frame a b -> frame b c -> frame a c.
Proof. unfold frame. intros (A1 & A2 & A3 & A4 & A5) (B1 & B2 & B3 & B4 & B5). repeat split; congruence. Qed.
Lemma insert_all_frame l : forall h h', hist_insert_all h l = Ok h' -> frame h h'.
Proof.
  induction l as [|v l IH]; intros h h' E; cbn [hist_insert_all] in E; [ injection E as <-; unfold frame; auto |].
  destruct (hist_insert h v) as [h1| |] eqn:E1; cbn [obind] in E; try discriminate E. eapply frame_trans; [ exact (insert_frame h v h1 E1) | exact (IH h1 h' E) ].
Qed.
Lemma insert_new_frame h v h' r : insert_new h v = Ok (h', r) -> frame h h'.
Proof.
  intros E. unfold insert_new in E. destruct (h_first_n h <? h_count h); [| injection E as <- <-; unfold frame; auto ].
  destruct (hist_insert h v) as [h1| |] eqn:E1; cbn [obind] in E; try discriminate E. injection E as <- <-. exact (insert_frame h v h1 E1).
Qed.
Lemma add_frame h v h' r : h_first_n h = 0 -> add_value h v = Ok (h', r) -> frame h h'.
Proof.
  intros F E. unfold add_value in E. rewrite F in E. destruct (N.ltb_spec (h_count h) 0) as [|_]; [ lia |]. cbn [obind] in E.
  set (h1 := with_cache h (h_cache h) (h_count h + 1)) in E. assert (F1 : frame h h1) by (unfold frame; cbn; auto). apply (frame_trans h h1 h' F1). clearbody h1.
  destruct (h_count h1 <? h_first_n h1) eqn:Lt; [ injection E as <- <-; unfold frame; auto |].
  destruct (h_buckets h1) as [z|]; [ exact (insert_new_frame _ _ _ _ E) |]. destruct (h_gen h1) as [g|] eqn:G1; [| discriminate E ].
  destruct (seen_values h1) as [inp| |]; cbn [obind] in E; try discriminate E. destruct (g inp) as [[bs|]| |]; cbn [obind] in E; try discriminate E; [| injection E as <- <-; unfold frame; auto ].
  unfold hist_gen_counts in E. cbn [h_name h_first_n h_gen h_cap h_cache h_count h_buckets h_upper h_counts h_size] in E. rewrite Lt in E.
  cbn [h_name h_first_n h_gen h_cap h_cache h_count h_buckets h_upper h_counts h_size] in E.
  destruct (if N.of_nat (length bs) =? 0 then h_counts h1 else Some (repeat 0 (N.to_nat (N.of_nat (length bs))))) as [cs|]; [| injection E as <- <-; unfold frame; cbn; auto ].
  destruct (h_first_n h1 <=? h_cap h1); [| discriminate E ].
  match type of E with context [hist_insert_all ?a ?b] => destruct (hist_insert_all a b) as [h4| |] eqn:E4 end; cbn [obind] in E; try discriminate E.
  apply insert_all_frame in E4. apply insert_new_frame in E. eapply frame_trans; [| exact E ]. eapply frame_trans; [| exact E4 ]. unfold frame. cbn. auto.
Qed.
Lemma use_zero l : forall h h', h_first_n h = 0 -> use_all h l = Ok h' -> frame h h'.
Proof.
  induction l as [|u l IH]; intros h h' F E; cbn [use_all] in E; [ injection E as <-; unfold frame; auto |].
  destruct u as [v|]; cbn [use_one] in E.
  - destruct (add_value h v) as [[h1 r]| |] eqn:E1; cbn [obind] in E; try discriminate E. pose proof (add_frame h v h1 r F E1) as F1.
    eapply frame_trans; [ exact F1 |]. apply IH; [| exact E ]. destruct F1 as (_ & _ & _ & F1 & _). congruence.
  - cbn [obind] in E. eapply frame_trans; [| apply (IH (hist_clear h) h'); [ reflexivity | exact E ] ]. unfold frame, hist_clear. cbn. auto.
Qed.
Lemma clear_zero name g l h : use_all (hist_new name 0 g) l = Ok h -> hist_clear h = hist_new name 0 g.
Proof. intros E. apply use_zero in E; [| reflexivity ]. destruct E as (A & B & C & _ & D). cbn in A, B, C, D. unfold hist_clear, hist_new. congruence. Qed.

Lemma refills name f g vals0 v vals : f <> 0 -> f < 2 ^ 64 -> good_generator g -> Forall is_finite (firstn (N.to_nat f) vals0) ->
  exists bs up cs h, g (Some [hd 0 vals0]) = Ok (Some bs) /\ use_all (hist_new name f (Some g)) (map UAdd vals0 ++ UClear :: map UAdd (v :: vals)) = Ok h /\
    hist_get h = Some (Some bs, up, Some cs, N.of_nat (length bs)) /\ h_count h = N.of_nat (length (v :: vals)) /\ total cs = in_some_bucket bs (v :: vals) /\
    forall i, (i < length bs)%nat -> nth_error cs i = Some (in_count bs i (v :: vals)).
Proof.
  intros F F64 G Fin. destruct (hist_counts name f g vals0 F F64 G Fin) as (h & E & _). pose proof (adds_inv _ _ _ [] _ _ _ (hinv_new name f (Some g)) E) as I. cbn [app] in I.
  assert (X : is_finite (hd 0 vals0)).
  { destruct vals0 as [|x l]; cbn [hd]; [ split; reflexivity |]. replace (N.to_nat f) with (Datatypes.S (N.to_nat (f - 1))) in Fin by lia. cbn [firstn] in Fin. now inversion Fin. }
  destruct (G [hd 0 vals0]) as (bs & Gx & Ne & As); [ discriminate | reflexivity | constructor; [ exact X | constructor ] |].
  destruct I as [_ _ Ig Ic Icc _ _ _].
  destruct (refill_first g (hist_clear h) v (hd 0 vals0) bs) as (h1 & E1 & R1); try reflexivity; try assumption.
  { cbn. congruence. }
  { cbn [hist_clear h_cache]. rewrite Icc. destruct vals0 as [|x l]; [ now rewrite firstn_nil |]. replace (N.to_nat f) with (Datatypes.S (N.to_nat (f - 1))) by lia. reflexivity. }
  destruct (refill_more g (hd 0 vals0) bs As vals [v] h1 R1) as (h2 & E2 & [A2 _ C2 (cs & H2 & K2 & K3)]).
  exists bs, (h_upper h2), cs, h2. split; [ exact Gx |]. split.
  - erewrite use_all_app; [| rewrite (same_adds name f g vals0 [] _ (hinv_new _ _ _)); exact E ]. cbn [use_all use_one obind map]. rewrite E1. exact E2.
  - destruct H2 as [B1 B2 B3 _ _]. unfold hist_get. rewrite A2, C2, B1, B2, B3. destruct (N.ltb_spec (N.of_nat (length ([v] ++ vals))) 0) as [|_]; [ lia |]. auto.
Qed.
Lemma cleared_wire h : u64 (blen (h_name h)) ->
  exists b h', hist_pack (hist_clear h) = Ok b /\ blen b = blen (h_name h) + 32 /\ hist_unpack (hist_new [] 0 None) (blen b) b = Ok (Some h', []) /\
    h_name h' = h_name h /\ h_first_n h' = 0 /\ h_count h' = 0 /\ h_buckets h' = None /\ h_counts h' = None.
Proof.
  intros U. set (k := hist_new (h_name h) 0 (Some (fun _ => Ok None))).
  assert (Hok : hist_ok k).
  { apply (reachable_hist_ok (h_name h) 0 (fun _ => Ok None) [] k); [ reflexivity | exact U | reflexivity | reflexivity | constructor | intros i bs Hg; discriminate Hg ]. }
  destruct (hist_pack_spec k (hist_new [] 0 None) (hist_pack_size k) [] Hok eq_refl eq_refl eq_refl (hist_pack_size_ge k)) as (b & Eb & Lb & Rb).
  rewrite app_nil_r in Rb. exists b, (seen_hist k). split; [ exact Eb |]. split; [ rewrite Lb; unfold hist_pack_size, k, hist_new; cbn [h_name h_count h_first_n h_size N.ltb N.compare N.eqb]; lia |]. rewrite Lb. split; [ exact Rb |]. auto.
Qed.
Lemma differs name f g vals0 v : 1 < f -> f < 2 ^ 64 -> good_generator g -> Forall is_finite (firstn (N.to_nat f) vals0) ->
  exists h h' r, use_all (hist_new name f (Some g)) [UAdd v] = Ok h /\ hist_get h = None /\
    use_all (hist_new name f (Some g)) (map UAdd vals0 ++ [UClear; UAdd v]) = Ok h' /\ hist_get h' = Some r.
Proof.
  intros F F64 G Fin. destruct (refills name f g vals0 v [] ltac:(lia) F64 G Fin) as (bs & up & cs & h' & _ & E & K & _).
  eexists. exists h', (Some bs, up, Some cs, N.of_nat (length bs)). split; [| split; [| split; [ exact E | exact K ] ] ].
  - cbn [use_all use_one obind]. unfold add_value, hist_new. cbn [h_count h_first_n h_cap h_cache]. destruct (N.ltb_spec 0 f) as [_|]; [| lia ]. cbn [obind with_cache h_count h_first_n].
    replace (0 + 1 <? f) with true by (symmetry; apply N.ltb_lt; lia). reflexivity.
  - unfold hist_get. cbn [with_cache h_count h_first_n h_name]. replace (0 + 1 <? f) with true by (symmetry; apply N.ltb_lt; lia). reflexivity.
Qed.
Lemma cached name f g vals h : use_all (hist_new name f (Some g)) (map UAdd vals) = Ok h ->
  get_cache h = (f, N.min f (N.of_nat (length vals))) /\ firstn (N.to_nat (snd (get_cache h))) (cells h) = firstn (N.to_nat f) vals.
Proof.
  intros E. rewrite (same_adds name f g vals [] _ (hinv_new _ _ _)) in E. pose proof (adds_inv _ _ _ [] _ _ _ (hinv_new name f (Some g)) E) as I. cbn [app] in I.
  destruct I as [_ I2 _ _ I5 I6 _ _]. unfold get_cache. rewrite I2, I6. split; [ reflexivity |]. cbn [snd]. rewrite firstn_cells; [ exact I5 |]. rewrite I5, firstn_length. lia.
Qed.
Lemma bucket_line show ind : forall bs cs i b c, nth_error bs i = Some b -> nth_error cs i = Some c ->
  nth_error (bucket_lines show ind bs cs) i = Some (ind ++ ind ++ show b ++ bstr ": " ++ to_string c).
Proof.
  induction bs as [|b0 bs IH]; intros cs i b c A B; [ now destruct i |]. destruct cs as [|c0 cs]; [ now destruct i |].
  destruct i as [|i]; cbn [nth_error bucket_lines] in *; [ injection A as ->; injection B as ->; reflexivity |]. apply IH; assumption.
Qed.
Lemma bucket_lines_len show ind : forall bs cs, length bs = length cs -> length (bucket_lines show ind bs cs) = length bs.
Proof. induction bs as [|b bs IH]; intros [|c cs] E; cbn in *; try lia. rewrite IH; lia. Qed.
Lemma printed show ind h t bs cs : print_lines show ind h = Ok t -> h_size h <> 0 -> h_buckets h = Some bs -> h_counts h = Some cs ->
  nth_error t (Datatypes.S (N.to_nat (h_size h))) = Some (ind ++ ind ++ show (h_upper h)) /\
  forall i b c, nth_error bs i = Some b -> nth_error cs i = Some c -> nth_error t (Datatypes.S i) = Some (ind ++ ind ++ show b ++ bstr ": " ++ to_string c).
Proof.
  intros E Z B C. unfold print_lines in E. destruct (N.eqb_spec (h_size h) 0) as [|_]; [ contradiction |]. rewrite B, C in E.
  destruct (N.eqb_spec (N.of_nat (length bs)) (h_size h)) as [L1|]; cbn [andb obind] in E; [| discriminate E ]. destruct (N.eqb_spec (N.of_nat (length cs)) (h_size h)) as [L2|]; cbn [obind] in E; [| discriminate E ].
  injection E as <-. cbn [nth_error]. assert (L : length (bucket_lines show ind bs cs) = length bs) by (apply bucket_lines_len; lia). split.
  - rewrite nth_error_app2 by lia. replace (N.to_nat (h_size h) - length (bucket_lines show ind bs cs))%nat with O by lia. reflexivity.
  - intros i b c Hb Hc. rewrite nth_error_app1; [ now apply bucket_line |]. rewrite L. apply nth_error_Some. congruence.
Qed.
