(* C43, C44, C45: histograms *)
From Verif Require Import ModelBytes ModelHist ModelGen SpecHist SpecMsg ProofHist ProofHist2 ExampleHist.
Local Open Scope N_scope.

(* The number of values is exact. The bucket counts add up to the number of values that are not below
   the first boundary. Missing from the full statement: values below the first boundary (false for them,
   see C43_histogram_counts_refuted). good_generator: ascending boundaries, at least one. *)
Theorem C43_histogram_counts_partial : forall name first_n g vals,
  first_n <> 0 -> first_n < 2 ^ 64 -> good_generator g -> Forall is_finite (firstn (N.to_nat first_n) vals) ->
  exists h, hist_adds (hist_new name first_n (Some g)) vals = Ok h
    /\ h_count h = N.of_nat (length vals)
    /\ (N.of_nat (length vals) < first_n -> hist_get h = None)
    /\ (first_n <= N.of_nat (length vals) ->
        exists bs up cs, g (Some (firstn (N.to_nat first_n) vals)) = Ok (Some bs)
          /\ hist_get h = Some (Some bs, up, Some cs, N.of_nat (length bs))
          /\ length cs = length bs /\ bs <> [] /\ ascending bs /\ total cs = in_some_bucket bs vals
          /\ ((forall v, In v vals -> below_first bs v = false) -> total cs = N.of_nat (length vals))).
Proof. exact histogram_totals. Qed.
Print Assumptions C43_histogram_counts_partial.

Example C43_example : good_generator gen_min /\ 2 <> 0 /\ 2 < 2 ^ 64 /\ Forall is_finite (firstn (N.to_nat 2) [d5; d1; d5; d1]).
Proof. exact ex_c43. Qed.

(* square-root choice over the first value only, then a smaller value *)
Theorem C43_histogram_counts_refuted : exists name first_n vals h bs up cs,
  first_n <> 0 /\ Forall is_finite vals /\
  hist_adds (hist_new name first_n (Some gen_sqrt)) vals = Ok h /\
  hist_get h = Some (Some bs, up, Some cs, N.of_nat (length bs)) /\ total cs <> N.of_nat (length vals).
Proof. exact lost_value. Qed.
Print Assumptions C43_histogram_counts_refuted.

(* Every bucket holds exactly the values between its boundaries, and no value belongs to two buckets. The end
   reported for the last bucket is the largest value in a bucket, unless that is below DBL_MIN. *)
Theorem C44_right_bucket : forall name first_n g vals,
  first_n <> 0 -> first_n < 2 ^ 64 -> good_generator g -> Forall is_finite (firstn (N.to_nat first_n) vals) ->
  first_n <= N.of_nat (length vals) ->
  exists h bs up cs, hist_adds (hist_new name first_n (Some g)) vals = Ok h
    /\ hist_get h = Some (Some bs, up, Some cs, N.of_nat (length bs)) /\ length cs = length bs
    /\ (forall i, (i < length bs)%nat -> nth_error cs i = Some (in_count bs i vals))
    /\ (forall i v, in_bucket bs i v = true <-> bucket_of bs v i)
    /\ (forall v i j, bucket_of bs v i -> bucket_of bs v j -> i = j)
    /\ (forall v, below_first bs v = false -> exists i, bucket_of bs v i)
    /\ upper_end bs vals up.
Proof. exact histogram_buckets. Qed.
Print Assumptions C44_right_bucket.

Example C44_example :
  good_generator gen_ex /\ Forall is_finite (firstn (N.to_nat 2) [d1; d5; d5; d1; d1]) /\
  exists h, hist_adds (hist_new (bstr "t") 2 (Some gen_ex)) [d1; d5; d5; d1; d1] = Ok h
         /\ hist_get h = Some (Some [d1; d3], d5, Some [3; 2], 2).
Proof. exact ex_c44. Qed.

(* When all values are negative, DBL_MIN, a positive number, is reported as the end of the last bucket. *)
Theorem C44_upper_end_refuted : exists name first_n vals h bs up cs,
  first_n <> 0 /\ Forall is_finite vals /\
  hist_adds (hist_new name first_n (Some gen_sqrt)) vals = Ok h /\
  hist_get h = Some (Some bs, up, Some cs, N.of_nat (length bs)) /\ ~ In up vals /\ (forall v, In v vals -> d_lt v up = true).
Proof. exact upper_end_wrong. Qed.
Print Assumptions C44_upper_end_refuted.

(* Missing from the full statement: adding to an unpacked histogram that has no buckets yet; false,
   see C45_histogram_wire_refuted. *)
Theorem C45_histogram_wire_partial : forall name first_n g vals h,
  hist_adds (hist_new name first_n (Some g)) vals = Ok h ->
  u64 (blen name) -> u64 first_n -> u64 (N.of_nat (length vals)) -> Forall u64 vals -> u64_generator g ->
  exists b h', hist_pack h = Ok b /\ blen b = hist_pack_size h
    /\ hist_unpack (hist_new [] 0 None) (blen b) b = Ok (Some h', [])
    /\ h_name h' = name /\ h_first_n h' = first_n /\ h_count h' = N.of_nat (length vals)
    /\ (N.of_nat (length vals) < first_n -> h_cache h' = vals /\ hist_get h' = None)
    /\ (h_size h <> 0 -> hist_get h' = hist_get h
          /\ forall v bs, h_buckets h = Some bs -> ascending bs ->
             exists h1 h1', hist_add h v = Ok (h1, true) /\ hist_add h' v = Ok (h1', true)
                            /\ hist_get h1' = hist_get h1).
Proof. exact hist_round_trip. Qed.
Print Assumptions C45_histogram_wire_partial.

Example C45_example : exists h, hist_adds (hist_new (bstr "t") 2 (Some gen_ex)) [d1; d5; d5] = Ok h
  /\ h_size h = 2 /\ u64_generator gen_ex.
Proof. exact ex_c45. Qed.

Theorem C45_histogram_wire_refuted : exists name first_n vals h b h' v,
  hist_adds (hist_new name first_n (Some gen_sqrt)) vals = Ok h /\ hist_pack h = Ok b /\
  hist_unpack (hist_new [] 0 None) (blen b) b = Ok (Some h', []) /\
  (exists h1, hist_add h v = Ok (h1, true)) /\ hist_add h' v = UB.
Proof. exact unpacked_add_ub. Qed.
Print Assumptions C45_histogram_wire_refuted.
