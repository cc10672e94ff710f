(* Bucket generators at work, for PropGen.v *)
From Verif Require Import ModelBytes ProofBytes ModelHist ModelFloat ModelGen SpecHist SpecFp SpecGen ProofFpBase ProofHist ProofGen1 ProofGen2 ProofGen3 ProofGen4 ProofGen5 ExampleHist.
From Coq Require Import Reals Psatz.
From Flocq Require Import Core BinarySingleNaN.
Local Notation is_finite := SpecHist.is_finite.
Local Notation covering := SpecGen.covering.
Local Notation d1 := ExampleHist.d1.
Local Open Scope N_scope.

Definition usable : list bytes := [bstr "10_BUCKETS"; bstr "SQUARE_ROOT_CHOICE"; bstr "STURGES_FORMULA"; bstr "RICE_RULE"].
Lemma usable_covering G : good_glibm G ->
  (forall name, In name usable -> exists g, generator_named G name = Some g /\ covering g)
  /\ (forall k, 1 <= k < 2 ^ 64 -> covering (gen_n_buckets k)).
Proof.
  intros HG. split; [|exact n_buckets_covering]. intros name [<-|[<-|[<-|[<-|[]]]]]; eexists; (split; [reflexivity|]).
  - apply n_buckets_covering. lia.
  - exact sqrt_covering.
  - exact (sturges_covering G HG).
  - exact (rice_covering G HG).
Qed.

Definition log_rules : list bytes := [bstr "UNIFORM_LOG2"; bstr "UNIFORM_LOG10"].
Lemma log_rule G name : In name log_rules -> exists b, 2 <= b <= 1024 /\ generator_named G name = Some (gen_logn G b).
Proof. intros [<-|[<-|[]]]; [exists 2|exists 10]; (split; [lia|reflexivity]). Qed.

Lemma log_covers G name g x l : good_glibm G -> In name log_rules -> generator_named G name = Some g -> Forall is_finite (x :: l) ->
  finite_fp (spread x l) -> (2 <= val (spread x l) <= powerRZ 2 50)%R ->
  exists bs, g (Some (x :: l)) = Ok (Some bs) /\ covers (x :: l) bs.
Proof.
  intros HG Hn Eg Hf Fs Hs. destruct (log_rule G name Hn) as (b & Hb & E). rewrite E in Eg. injection Eg as <-.
  apply logn_covers; try assumption. rewrite <- pw2. exact Hs.
Qed.

Lemma in_some_firstn bs n : forall vals, (n <= length vals)%nat -> (forall v, In v (firstn n vals) -> below_first bs v = false) ->
  N.of_nat n <= in_some_bucket bs vals.
Proof.
  induction n as [|n IH]; intros [|v vals] Hn H; cbn [length] in Hn; try lia. rewrite in_some_cons. cbn [firstn] in H.
  rewrite (H v (or_introl eq_refl)). specialize (IH vals ltac:(lia) (fun w Hw => H w (or_intror Hw))). lia.
Qed.

Lemma histogram_first name first_n g vals :
  first_n <> 0 -> first_n < 2 ^ 64 -> covering g -> Forall is_finite (firstn (N.to_nat first_n) vals) -> first_n <= N.of_nat (length vals) ->
  exists h bs up cs, hist_adds (hist_new name first_n (Some g)) vals = Ok h
    /\ hist_get h = Some (Some bs, up, Some cs, N.of_nat (length bs))
    /\ (forall v, In v (firstn (N.to_nat first_n) vals) -> exists i, bucket_of bs v i)
    /\ first_n <= total cs.
Proof.
  intros H0 H64 Hg Hf Hl. destruct (hist_counts name first_n g vals H0 H64 (covering_good g Hg) Hf) as (h & A & B & _ & D).
  destruct (D Hl) as (bs & up & cs & E1 & E2 & E3 & E4 & E5 & E6 & E7 & E8). exists h, bs, up, cs. split; [exact A|]. split; [exact E1|].
  assert (C : covers (firstn (N.to_nat first_n) vals) bs).
  { destruct (Hg (firstn (N.to_nat first_n) vals)) as (bs' & E' & C); [| |exact Hf|].
    - intros X. apply (f_equal (@length N)) in X. rewrite firstn_length in X. cbn in X. lia.
    - rewrite firstn_length. lia.
    - rewrite E8 in E'. apply Ok_inj in E'. injection E' as <-. exact C. }
  assert (F : forall v, In v (firstn (N.to_nat first_n) vals) -> below_first bs v = false).
  { intros v Hv. destruct C as (_ & b & bs' & -> & _ & C). exact (C v Hv). }
  split.
  - intros v Hv. specialize (F v Hv). destruct (upper_bound_total bs v E4) as [[|n] En].
    + apply upper_bound_zero in En. congruence.
    + exists n. apply upper_bound_bucket, En.
  - rewrite E5. replace first_n with (N.of_nat (N.to_nat first_n)) by lia. apply in_some_firstn; [lia|exact F].
Qed.

Lemma scott_unusable G name first_n vals : good_glibm G ->
  first_n <> 0 -> first_n < 2 ^ 64 -> Forall is_finite (firstn (N.to_nat first_n) vals) -> first_n <= N.of_nat (length vals) ->
  exists g, generator_named G (bstr "SCOTTS_NORMAL_REFERENCE_RULE") = Some g /\
    (hist_adds (hist_new name first_n (Some g)) vals = UB \/
     exists h up, hist_adds (hist_new name first_n (Some g)) vals = Ok h /\ hist_get h = Some (Some [], up, None, 0)).
Proof.
  intros HG H0 H64 Hf Hl. exists (gen_scott G). split; [reflexivity|]. apply adds_none; [exact H0|exact Hl|].
  assert (Lf : length (firstn (N.to_nat first_n) vals) = N.to_nat first_n) by (rewrite firstn_length; lia).
  destruct (firstn (N.to_nat first_n) vals) as [|x l]; [cbn in Lf; lia|]. apply scott_none; [exact HG|exact Hf|lia].
Qed.

Lemma log_unusable G name g : good_glibm G -> In name log_rules -> generator_named G name = Some g ->
  (forall x l, Forall is_finite (x :: l) -> spread x l = of_size 1 -> g (Some (x :: l)) = UB)
  /\ (forall x l, is_finite x -> (forall v, In v l -> v = x) -> g (Some (x :: l)) = Ok (Some [])).
Proof.
  intros HG Hn Eg. destruct (log_rule G name Hn) as (b & Hb & E). rewrite E in Eg. injection Eg as <-. split.
  - intros x l _ Hs. apply logn_one; assumption.
  - intros x l Hx Hl. apply logn_same; assumption.
Qed.

Lemma named_null G name g : generator_named G name = Some g -> g None = Ok None.
Proof.
  unfold generator_named. intros H.
  repeat (match type of H with (if ?c then _ else _) = _ => destruct c end; [injection H as <-; reflexivity|]). discriminate.
Qed.
Lemma zero_unusable G nm name g vals : generator_named G nm = Some g -> vals <> [] ->
  exists h, hist_adds (hist_new name 0 (Some g)) vals = Ok h /\ hist_get h = Some (None, 0, None, 0).
Proof.
  intros Eg _. pose proof (named_null G nm g Eg) as N0.
  assert (Q : forall vals c, hist_adds (mkHist name 0 (Some g) 0 [] c None 0 None 0) vals = Ok (mkHist name 0 (Some g) 0 [] (c + N.of_nat (length vals)) None 0 None 0)).
  { induction vals0 as [|v vals0 IH]; intros c; cbn [hist_adds length]; [do 2 f_equal; lia|].
    unfold hist_add. cbn [h_count h_first_n h_buckets h_gen h_name h_cap h_cache h_upper h_counts h_size].
    destruct (N.ltb_spec c 0); [lia|]. cbn [obind h_count h_first_n h_buckets h_gen h_name h_cap h_cache h_upper h_counts h_size].
    destruct (N.leb_spec 0 (c + 1)); [|lia]. unfold gen_input. cbn [h_cap N.eqb obind]. rewrite N0. cbn [obind]. rewrite IH.
    do 2 f_equal. lia. }
  eexists. split; [apply Q|]. unfold hist_get. cbn [h_count h_first_n h_buckets h_upper h_counts h_size].
  destruct (N.ltb_spec (0 + N.of_nat (length vals)) 0); [lia|reflexivity].
Qed.

(* ---- examples *)
Definition d2 : N := 0x4000000000000000.  (* 2.0 *)
Definition d9 : N := 0x4022000000000000.  (* 9.0 *)
Lemma ex_c59 : good_glibm real_glibm /\ Forall is_finite (firstn (N.to_nat 4) [d9; d1; d5; d3; d1]) /\
  exists h up, hist_adds (hist_new (bstr "t") 4 (Some gen_sqrt)) [d9; d1; d5; d3; d1] = Ok h
    /\ hist_get h = Some (Some [d1; d5], up, Some [3; 2], 2).
Proof.
  split; [exact real_good|]. split; [fin|].
  destruct (seen _ _ _ _ (eq_refl : see (bstr "t") 4 [d9; d1; d5; d3; d1] = Some (Some (Some [d1; d5], d9, Some [3; 2], 2)))) as (h & H1 & H2).
  exists h, d9. auto.
Qed.
Lemma ex_c59_n : exists g, generator_named real_glibm (bstr "10_BUCKETS") = Some g
  /\ g (Some [d9; d1; d5]) = Ok (Some (d1 :: d2 :: d3 :: [0x4010000000000000; d5; 0x4018000000000000; 0x401c000000000000; 0x4020000000000000; d9; 0x4024000000000000])).
Proof. exists (gen_n_buckets 10). split; [reflexivity|]. vm_compute. reflexivity. Qed.
Lemma ex_c59_log : finite_fp (spread d9 [d1; d5]) /\ (2 <= val (spread d9 [d1; d5]) <= powerRZ 2 50)%R.
Proof.
  assert (E : spread d9 [d1; d5] = of_size 8) by (vm_compute; reflexivity). rewrite E. split; [exact I|].
  rewrite of_size_small by lia. change (IZR (Z.of_N 8)) with 8%R. rewrite pw2. change (bpow radix2 50) with 1125899906842624%R. lra.
Qed.
Lemma ex_c59_one : Forall is_finite [d1; d2] /\ spread d1 [d2] = of_size 1.
Proof. split; [fin|vm_compute; reflexivity]. Qed.

Lemma sturges_power_both G x l p : Forall is_finite (x :: l) -> p < 64 -> N.of_nat (length (x :: l)) = 2 ^ p ->
  g_log2 G (of_size (2 ^ p)) = of_size p ->
  buckets_of (gen_sturges G) (x :: l) (p + 2) /\ N.log2_up (2 ^ p) + 1 = p + 1.
Proof.
  intros H1 H2 H3 H4. split; [apply sturges_power; assumption|]. rewrite N.log2_up_pow2 by lia. reflexivity.
Qed.

Lemma repeat_finite n : Forall is_finite (repeat d5 n).
Proof. induction n as [|n IH]; cbn [repeat]; constructor; [split; reflexivity|exact IH]. Qed.
Lemma ex_c60 : good_glibm real_glibm
  /\ (Forall is_finite (repeat d5 100) /\ buckets_of gen_sqrt (repeat d5 100) 10)
  /\ (Forall is_finite (d1 :: repeat d5 99) /\ forall p, N.of_nat (length (d1 :: repeat d5 99)) <> 2 ^ p)
  /\ (Forall is_finite (d1 :: repeat d5 31) /\ N.of_nat (length (d1 :: repeat d5 31)) = 2 ^ 5 /\ g_log2 real_glibm (of_size (2 ^ 5)) = of_size 5).
Proof.
  split; [exact real_good|]. split; [split; [apply repeat_finite|eexists; split; vm_compute; reflexivity]|]. split; [split|split; [|split]].
  - constructor; [split; reflexivity|apply repeat_finite].
  - intros p. change (N.of_nat (length (d1 :: repeat d5 99))) with 100. intros E.
    assert (p < 7) by (apply (N.pow_lt_mono_r_iff 2); lia). assert (6 < p) by (apply (N.pow_lt_mono_r_iff 2); lia). lia.
  - constructor; [split; reflexivity|apply repeat_finite].
  - reflexivity.
  - cbn [g_log2 real_glibm]. rewrite of_size_small by lia. change (IZR (Z.of_N (2 ^ 5))) with (bpow radix2 5). rewrite ln_bpow.
    replace (5 * ln 2 / ln 2)%R with 5%R by (field; pose proof ln2_pos; lra). unfold approx.
    change (bpow radix2 60) with (IZR (2 ^ 60)). rewrite <- mult_IZR, Zfloor_IZR. vm_compute. reflexivity.
Qed.
