(* C59, C60: the bucket generators of histograms *)
From Coq Require Import Reals.
From Verif Require Import ModelBytes ModelHist ModelFloat ModelGen SpecHist SpecFp SpecGen ProofGen3 ProofGen4 ProofGen5 ExampleHist ExampleGen.
Local Open Scope N_scope.

(* For any finite values these generators give at least one boundary, in ascending order, starting at the smallest
   value. Missing from the full statement: the other three rules (C59_log_partial, C59_scott_refuted, C59_log_refuted). *)
Theorem C59_generators_partial : forall G, good_glibm G ->
  (forall name, In name usable -> exists g, generator_named G name = Some g /\ covering g)
  /\ (forall k, 1 <= k < 2 ^ 64 -> covering (gen_n_buckets k)).
Proof. exact usable_covering. Qed.
Print Assumptions C59_generators_partial.

Example C59_generators_example : exists g, generator_named real_glibm (bstr "10_BUCKETS") = Some g
  /\ g (Some [d9; d1; d5]) = Ok (Some (d1 :: d2 :: d3 :: [0x4010000000000000; d5; 0x4018000000000000; 0x401c000000000000; 0x4020000000000000; d9; 0x4024000000000000])).
Proof. exact ex_c59_n. Qed.

(* The same of UNIFORM_LOG2 and UNIFORM_LOG10 when largest and smallest value are between 2 and 2^50 apart.
   Missing: other distances. *)
Theorem C59_log_partial : forall G name g x l, good_glibm G -> In name log_rules -> generator_named G name = Some g ->
  Forall is_finite (x :: l) -> finite_fp (spread x l) -> (2 <= val (spread x l) <= powerRZ 2 50)%R ->
  exists bs, g (Some (x :: l)) = Ok (Some bs) /\ covers (x :: l) bs.
Proof. exact log_covers. Qed.
Print Assumptions C59_log_partial.

Example C59_log_example : finite_fp (spread d9 [d1; d5]) /\ (2 <= val (spread d9 [d1; d5]) <= powerRZ 2 50)%R.
Proof. exact ex_c59_log. Qed.

(* A histogram with such a generator counts every one of the values its buckets were made from. *)
Theorem C59_first_values : forall name first_n g vals,
  first_n <> 0 -> first_n < 2 ^ 64 -> covering g -> Forall is_finite (firstn (N.to_nat first_n) vals) -> first_n <= N.of_nat (length vals) ->
  exists h bs up cs, hist_adds (hist_new name first_n (Some g)) vals = Ok h
    /\ hist_get h = Some (Some bs, up, Some cs, N.of_nat (length bs))
    /\ (forall v, In v (firstn (N.to_nat first_n) vals) -> exists i, bucket_of bs v i)
    /\ first_n <= total cs.
Proof. exact histogram_first. Qed.
Print Assumptions C59_first_values.

Example C59_first_values_example : good_glibm real_glibm /\ Forall is_finite (firstn (N.to_nat 4) [d9; d1; d5; d3; d1]) /\
  exists h up, hist_adds (hist_new (bstr "t") 4 (Some gen_sqrt)) [d9; d1; d5; d3; d1] = Ok h
    /\ hist_get h = Some (Some [d1; d5], up, Some [3; 2], 2).
Proof. exact ex_c59. Qed.

(* Scott's rule divides (min - max) by the width: whatever the values, undefined behaviour or no buckets at all. *)
Theorem C59_scott_refuted : forall G name first_n vals, good_glibm G ->
  first_n <> 0 -> first_n < 2 ^ 64 -> Forall is_finite (firstn (N.to_nat first_n) vals) -> first_n <= N.of_nat (length vals) ->
  exists g, generator_named G (bstr "SCOTTS_NORMAL_REFERENCE_RULE") = Some g /\
    (hist_adds (hist_new name first_n (Some g)) vals = UB \/
     exists h up, hist_adds (hist_new name first_n (Some g)) vals = Ok h /\ hist_get h = Some (Some [], up, None, 0)).
Proof. exact scott_unusable. Qed.
Print Assumptions C59_scott_refuted.

(* The logarithmic rules divide by log(max - min): undefined behaviour for a distance of 1, no buckets for equal values. *)
Theorem C59_log_refuted : forall G name g, good_glibm G -> In name log_rules -> generator_named G name = Some g ->
  (forall x l, Forall is_finite (x :: l) -> spread x l = of_size 1 -> g (Some (x :: l)) = UB)
  /\ (forall x l, is_finite x -> (forall v, In v l -> v = x) -> g (Some (x :: l)) = Ok (Some [])).
Proof. exact log_unusable. Qed.
Print Assumptions C59_log_refuted.

Example C59_log_refuted_example : Forall is_finite [d1; d2] /\ spread d1 [d2] = of_size 1.
Proof. exact ex_c59_one. Qed.

(* HISTOGRAM_FIRST_N 0: there are never any buckets. *)
Theorem C59_first_n_zero_refuted : forall G nm name g vals, generator_named G nm = Some g -> vals <> [] ->
  exists h, hist_adds (hist_new name 0 (Some g)) vals = Ok h /\ hist_get h = Some (None, 0, None, 0).
Proof. exact zero_unusable. Qed.
Print Assumptions C59_first_n_zero_refuted.

(* The square-root choice gives the integer square root of the number of values. Missing: 2^48 values and more. *)
Theorem C60_square_root_partial : forall x l, Forall is_finite (x :: l) -> N.of_nat (length (x :: l)) < 2 ^ 48 ->
  buckets_of gen_sqrt (x :: l) (N.sqrt (N.of_nat (length (x :: l)))).
Proof. exact sqrt_count. Qed.
Print Assumptions C60_square_root_partial.

(* Sturges' formula is ceil(log2 n) + 1. Missing: powers of two (false, C60_sturges_refuted) and 2^30 values and more. *)
Theorem C60_sturges_partial : forall G x l, good_glibm G -> Forall is_finite (x :: l) -> N.of_nat (length (x :: l)) < 2 ^ 30 ->
  (forall p, N.of_nat (length (x :: l)) <> 2 ^ p) ->
  buckets_of (gen_sturges G) (x :: l) (N.log2_up (N.of_nat (length (x :: l))) + 1).
Proof. exact sturges_count. Qed.
Print Assumptions C60_sturges_partial.

Theorem C60_sturges_refuted : forall G x l p, Forall is_finite (x :: l) -> p < 64 -> N.of_nat (length (x :: l)) = 2 ^ p ->
  g_log2 G (of_size (2 ^ p)) = of_size p ->
  buckets_of (gen_sturges G) (x :: l) (p + 2) /\ N.log2_up (2 ^ p) + 1 = p + 1.
Proof. exact sturges_power_both. Qed.
Print Assumptions C60_sturges_refuted.

(* The Rice rule is ceil(2 * cbrt n), the least k with k^3 >= 8 n. The code adds 2 instead and gives fewer buckets. *)
Theorem C60_rice_refuted : forall G x l, good_glibm G -> Forall is_finite (x :: l) -> 64 <= N.of_nat (length (x :: l)) <= 2 ^ 53 ->
  exists k, buckets_of (gen_rice G) (x :: l) k /\ k ^ 3 < 8 * N.of_nat (length (x :: l)).
Proof. exact rice_count. Qed.
Print Assumptions C60_rice_refuted.

Example C60_example : good_glibm real_glibm
  /\ (Forall is_finite (repeat d5 100) /\ buckets_of gen_sqrt (repeat d5 100) 10)
  /\ (Forall is_finite (d1 :: repeat d5 99) /\ forall p, N.of_nat (length (d1 :: repeat d5 99)) <> 2 ^ p)
  /\ (Forall is_finite (d1 :: repeat d5 31) /\ N.of_nat (length (d1 :: repeat d5 31)) = 2 ^ 5 /\ g_log2 real_glibm (of_size (2 ^ 5)) = of_size 5).
Proof. exact ex_c60. Qed.
