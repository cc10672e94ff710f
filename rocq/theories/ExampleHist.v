(* Concrete histograms used in PropHist.v *)
From Verif Require Import ModelBytes ModelHist ModelGen SpecHist SpecMsg ProofHist ProofHist2.
Local Open Scope N_scope.

Definition d1 : N := 0x3ff0000000000000.  (* 1.0 *)
Definition d3 : N := 0x4008000000000000.  (* 3.0 *)
Definition d5 : N := 0x4014000000000000.  (* 5.0 *)

(* generators for the examples *)
Definition gen_min : generator := fun i => match i with Some (x :: l) => Ok (Some [min_element x l]) | _ => Ok None end.
Definition gen_ex : generator := fun i => match i with Some _ => Ok (Some [d1; d3]) | _ => Ok None end.

Lemma finite_number v : is_finite v -> d_nan v = false.
Proof. unfold is_finite, d_nan. intros H. destruct (N.ltb_spec 0x7ff0000000000000 (d_mag v)); [lia|reflexivity]. Qed.

Lemma min_element_finite l m : is_finite m -> Forall is_finite l -> is_finite (min_element m l).
Proof.
  revert m; induction l as [|x l IH]; intros m Hm Hl; cbn; [exact Hm|]. inversion Hl; subst.
  apply IH; [destruct (d_lt x m); assumption|assumption].
Qed.

Lemma gen_min_good : good_generator gen_min.
Proof.
  intros [|x l] Hne _ Hf; [congruence|]. inversion Hf; subst. eexists. split; [reflexivity|]. split; [discriminate|].
  split; [constructor; [apply finite_number, min_element_finite; assumption|constructor]|].
  intros [|i] [|j] bi bj Hij Hi Hj; try lia; cbn in Hj; destruct j; discriminate.
Qed.
Lemma gen_ex_good : good_generator gen_ex.
Proof.
  intros l _ _ _. exists [d1; d3]. split; [reflexivity|]. split; [discriminate|].
  split; [constructor; [reflexivity|constructor; [reflexivity|constructor]]|].
  intros [|i] [|[|j]] bi bj Hij Hi Hj; try lia; cbn in Hi, Hj; try (destruct j; discriminate).
  injection Hi as <-. injection Hj as <-. vm_compute. discriminate.
Qed.

Ltac fin := repeat (constructor; [split; reflexivity|]); constructor.
Lemma ex_c43 : good_generator gen_min /\ 2 <> 0 /\ 2 < 2 ^ 64 /\ Forall is_finite (firstn (N.to_nat 2) [d5; d1; d5; d1]).
Proof. split; [exact gen_min_good|]. split; [discriminate|]. split; [reflexivity|]. fin. Qed.

(* what a histogram with the square-root choice shows *)
Definition see (name : bytes) (first_n : N) (vals : list N) :=
  match hist_adds (hist_new name first_n (Some gen_sqrt)) vals with Ok h => Some (hist_get h) | _ => None end.
Lemma seen name first_n vals r : see name first_n vals = Some r ->
  exists h, hist_adds (hist_new name first_n (Some gen_sqrt)) vals = Ok h /\ hist_get h = r.
Proof.
  unfold see. destruct (hist_adds _ vals) as [h| |]; try discriminate. intros H. injection H as H. exists h. auto.
Qed.

Lemma lost_value : exists name first_n vals h bs up cs,
  first_n <> 0 /\ Forall is_finite vals /\
  hist_adds (hist_new name first_n (Some gen_sqrt)) vals = Ok h /\
  hist_get h = Some (Some bs, up, Some cs, N.of_nat (length bs)) /\ total cs <> N.of_nat (length vals).
Proof.
  destruct (seen _ _ _ _ (eq_refl : see (bstr "t") 1 [d5; d1] = Some (Some (Some [d5], d5, Some [1], 1)))) as (h & H1 & H2).
  exists (bstr "t"), 1, [d5; d1], h, [d5], d5, [1]. split; [discriminate|]. split; [fin|].
  split; [exact H1|]. split; [exact H2|]. vm_compute. discriminate.
Qed.

Lemma ex_c44 :
  good_generator gen_ex /\ Forall is_finite (firstn (N.to_nat 2) [d1; d5; d5; d1; d1]) /\
  exists h, hist_adds (hist_new (bstr "t") 2 (Some gen_ex)) [d1; d5; d5; d1; d1] = Ok h
         /\ hist_get h = Some (Some [d1; d3], d5, Some [3; 2], 2).
Proof.
  split; [exact gen_ex_good|]. split; [fin|].
  eexists. split; vm_compute; reflexivity.
Qed.

Definition dm1 : N := 0xbff0000000000000.  (* -1.0 *)
Definition dm5 : N := 0xc014000000000000.  (* -5.0 *)
Lemma upper_end_wrong : exists name first_n vals h bs up cs,
  first_n <> 0 /\ Forall is_finite vals /\
  hist_adds (hist_new name first_n (Some gen_sqrt)) vals = Ok h /\
  hist_get h = Some (Some bs, up, Some cs, N.of_nat (length bs)) /\ ~ In up vals /\ (forall v, In v vals -> d_lt v up = true).
Proof.
  destruct (seen _ _ _ _ (eq_refl : see (bstr "t") 2 [dm5; dm1; dm5] = Some (Some (Some [dm5], DBL_MIN, Some [3], 1)))) as (h & H1 & H2).
  exists (bstr "t"), 2, [dm5; dm1; dm5], h, [dm5], DBL_MIN, [3]. split; [discriminate|]. split; [fin|].
  split; [exact H1|]. split; [exact H2|]. split.
  - intros [H|[H|[H|[]]]]; discriminate.
  - intros v [<-|[<-|[<-|[]]]]; reflexivity.
Qed.

Lemma ex_c45 : exists h, hist_adds (hist_new (bstr "t") 2 (Some gen_ex)) [d1; d5; d5] = Ok h
  /\ h_size h = 2 /\ u64_generator gen_ex.
Proof.
  eexists. split; [vm_compute; reflexivity|]. split; [reflexivity|].
  intros [l|] bs H; cbn in H; [|discriminate]. injection H as <-. repeat split; repeat constructor.
Qed.

Lemma unpacked_add_ub : exists name first_n vals h b h' v,
  hist_adds (hist_new name first_n (Some gen_sqrt)) vals = Ok h /\ hist_pack h = Ok b /\
  hist_unpack (hist_new [] 0 None) (blen b) b = Ok (Some h', []) /\
  (exists h1, hist_add h v = Ok (h1, true)) /\ hist_add h' v = UB.
Proof.
  exists (bstr "t"), 2, [d5], (mkHist (bstr "t") 2 (Some gen_sqrt) 2 [d5] 1 None 0 None 0).
  eexists. exists (mkHist (bstr "t") 2 None 2 [d5] 1 None 0 None 0), d1. split; [cbv -[gen_sqrt]; reflexivity|].
  split; [cbv -[gen_sqrt]; reflexivity|]. split; [vm_compute; reflexivity|]. split; [|vm_compute; reflexivity].
  destruct (hist_add _ d1) as [[h1 []]| |] eqn:E; [eauto| | |]; exfalso;
    assert (X : match hist_add (mkHist (bstr "t") 2 (Some gen_sqrt) 2 [d5] 1 None 0 None 0) d1 with Ok (_, b) => b | _ => false end = true)
      by (vm_compute; reflexivity); rewrite E in X; discriminate X.
Qed.

Lemma in_some_all bs vals : (forall v, In v vals -> below_first bs v = false) -> in_some_bucket bs vals = N.of_nat (length vals).
Proof.
  intros H. induction vals as [|v vals IH]; [reflexivity|]. rewrite in_some_cons, (H v (or_introl eq_refl)), IH.
  - cbn [length]. lia.
  - intros w Hw. apply H. right. exact Hw.
Qed.

Lemma histogram_totals name first_n g vals :
  first_n <> 0 -> first_n < 2 ^ 64 -> good_generator g -> Forall is_finite (firstn (N.to_nat first_n) vals) ->
  exists h, hist_adds (hist_new name first_n (Some g)) vals = Ok h
    /\ h_count h = N.of_nat (length vals)
    /\ (N.of_nat (length vals) < first_n -> hist_get h = None)
    /\ (first_n <= N.of_nat (length vals) ->
        exists bs up cs, g (Some (firstn (N.to_nat first_n) vals)) = Ok (Some bs)
          /\ hist_get h = Some (Some bs, up, Some cs, N.of_nat (length bs))
          /\ length cs = length bs /\ bs <> [] /\ ascending bs /\ total cs = in_some_bucket bs vals
          /\ ((forall v, In v vals -> below_first bs v = false) -> total cs = N.of_nat (length vals))).
Proof.
  intros H1 H0 H2 H3. destruct (hist_counts name first_n g vals H1 H0 H2 H3) as (h & A & B & C & D).
  exists h. repeat (split; [assumption|]). intros H4. destruct (D H4) as (bs & up & cs & E1 & E2 & E3 & E4 & E5 & E6 & E7 & E8).
  exists bs, up, cs. repeat (split; [assumption|]). intros H. rewrite E5. apply in_some_all, H.
Qed.

Lemma histogram_buckets name first_n g vals :
  first_n <> 0 -> first_n < 2 ^ 64 -> good_generator g -> Forall is_finite (firstn (N.to_nat first_n) vals) ->
  first_n <= N.of_nat (length vals) ->
  exists h bs up cs, hist_adds (hist_new name first_n (Some g)) vals = Ok h
    /\ hist_get h = Some (Some bs, up, Some cs, N.of_nat (length bs)) /\ length cs = length bs
    /\ (forall i, (i < length bs)%nat -> nth_error cs i = Some (in_count bs i vals))
    /\ (forall i v, in_bucket bs i v = true <-> bucket_of bs v i)
    /\ (forall v i j, bucket_of bs v i -> bucket_of bs v j -> i = j)
    /\ (forall v, below_first bs v = false -> exists i, bucket_of bs v i)
    /\ upper_end bs vals up.
Proof.
  intros H1 H0 H2 H3 H4. destruct (hist_counts name first_n g vals H1 H0 H2 H3) as (h & A & B & C & D).
  destruct (D H4) as (bs & up & cs & E1 & E2 & E3 & E4 & E5 & E6 & E7 & E8).
  exists h, bs, up, cs. repeat (split; [assumption|]). split; [apply in_bucket_iff|].
  split; [intros v i j; apply bucket_unique, E4|].
  split; [|exact E7]. intros v Hv. destruct (upper_bound_total bs v E4) as [[|n] En].
  - apply upper_bound_zero in En. congruence.
  - exists n. apply upper_bound_bucket, En.
Qed.
