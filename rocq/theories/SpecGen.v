(* What bucket generators should give, and what is assumed of log2, cbrt and log *)
From Verif Require Import ModelBytes ModelHist ModelFloat ModelGen SpecHist SpecFp.
From Coq Require Import Reals.
Local Open Scope R_scope.

(* Accuracy far below that of any libm in use; the exact cases are those of the C standard, Annex F. *)
Definition slop : R := powerRZ 2 (-40).
Record good_glibm (G : glibm) : Prop := {
  log2_near : forall n, (1 <= n < 2 ^ 64)%N ->
    finite_fp (g_log2 G (of_size n)) /\ valid DBL (g_log2 G (of_size n)) /\
    Rabs (val (g_log2 G (of_size n)) - ln (val (of_size n)) / ln 2) <= slop;
  cbrt_near : forall n, (1 <= n < 2 ^ 64)%N ->
    finite_fp (g_cbrt G (of_size n)) /\ valid DBL (g_cbrt G (of_size n)) /\
    val (of_size n) * (1 - slop) <= val (g_cbrt G (of_size n)) ^ 3 <= val (of_size n) * (1 + slop);
  log_near : forall x, finite_fp x -> valid DBL x -> 2 <= val x ->
    finite_fp (g_log G x) /\ valid DBL (g_log G x) /\ Rabs (val (g_log G x) - ln (val x)) <= ln (val x) * slop;
  log_one : g_log G (of_size 1) = S754_zero false;
  log_zero : forall s, g_log G (S754_zero s) = S754_infinity true }.

Local Open Scope N_scope.
(* For any finite values: boundaries in ascending order, the first of them the smallest value. Such a generator
   is a good_generator (SpecHist.v), and none of the values it was made from falls outside the buckets. *)
Definition covers (l : list N) (bs : list N) : Prop :=
  ascending bs /\ exists b bs', bs = b :: bs' /\ In b l /\ forall v, In v l -> d_lt v b = false.
Definition covering (g : generator) : Prop :=
  forall l, l <> [] -> N.of_nat (length l) < 2 ^ 64 -> Forall is_finite l ->
  exists bs, g (Some l) = Ok (Some bs) /\ covers l bs.

(* the number of buckets made *)
Definition buckets_of (g : generator) (l : list N) (k : N) : Prop :=
  exists bs, g (Some l) = Ok (Some bs) /\ N.of_nat (length bs) = k.
(* the distance between the largest and the smallest of the values, rounded *)
Definition spread (x : N) (l : list N) : spec_float := dsub (dbl (max_element x l)) (dbl (min_element x l)).
