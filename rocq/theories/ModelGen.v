(* The bucket generators: src/utils/Histogram.cpp:12-151, chosen by name in include/hxhim/config.hpp:151-172.
   Arithmetic is that of Coq.Floats.SpecFloat as in ModelFloat.v; log2, cbrt and log are parameters. *)
From Verif Require Import ModelBytes ModelHist ModelElen ModelTransform ModelFloat.
Local Open Scope N_scope.

Definition dbl (v : N) : spec_float := sf_of_bits DBL (Z.of_N v).
Definition pattern (x : spec_float) : N := Z.to_N (bits_of_sf DBL x).
Definition dadd (x y : spec_float) : spec_float := SFadd 53 1024 x y.
Definition dsub (x y : spec_float) : spec_float := SFsub 53 1024 x y.
Definition ddiv (x y : spec_float) : spec_float := SFdiv 53 1024 x y.
Definition dsqrt (x : spec_float) : spec_float := SFsqrt 53 1024 x.
(* std::size_t to double *)
Definition of_size (n : N) : spec_float := binary_normalize 53 1024 (Z.of_N n) 0 false.
(* double to std::size_t: the fraction is dropped; undefined unless the rest fits *)
Definition to_size (x : spec_float) : outcome N :=
  match x with
  | S754_zero _ => Ok 0
  | S754_finite s m e =>
      let z := if (0 <=? e)%Z then (Zpos m * 2 ^ e)%Z else (Zpos m / 2 ^ (- e))%Z in
      if (z =? 0)%Z then Ok 0 else if s then UB else if (z <? 2 ^ 64)%Z then Ok (Z.to_N z) else UB
  | _ => UB
  end.
(* std::ceil *)
Definition dceil (x : spec_float) : spec_float :=
  match x with
  | S754_finite s m e =>
      if (0 <=? e)%Z then x
      else let z := if s then (- (Zpos m / 2 ^ (- e)))%Z else (- (- Zpos m / 2 ^ (- e)))%Z in
           binary_normalize 53 1024 z 0 s
  | _ => x
  end.
(* std::log2, std::cbrt, std::log *)
Record glibm := mkGlibm { g_log2 : spec_float -> spec_float; g_cbrt : spec_float -> spec_float; g_log : spec_float -> spec_float }.

(* std::min_element and std::max_element of x :: l; minmax, 12-32, is only called with values *)
Fixpoint min_element (m : N) (l : list N) : N :=
  match l with [] => m | x :: l' => min_element (if d_lt x m then x else m) l' end.
Fixpoint max_element (m : N) (l : list N) : N :=
  match l with [] => m | x :: l' => max_element (if d_lt m x then x else m) l' end.

(* the loops at 44-47 and 67-70 *)
Fixpoint lefts (k : nat) (left step : spec_float) : list N :=
  match k with O => [] | S k' => pattern left :: lefts k' (dadd left step) step end.
(* generate_using_bin_count, 34-53 *)
Definition using_bin_count (min max : spec_float) (bins : N) : list N :=
  lefts (N.to_nat bins) min (ddiv (dsub max min) (of_size bins)).
Definition with_bins (bins : spec_float -> spec_float -> list N -> outcome N) : generator := fun i =>
  match i with
  | Some (x :: l) =>                           (* a null pointer or no values: HISTOGRAM_ERROR *)
      let min := dbl (min_element x l) in
      let max := dbl (max_element x l) in
      do n <- bins min max (x :: l); Ok (Some (using_bin_count min max n))
  | _ => Ok None
  end.
Definition count (l : list N) : spec_float := of_size (N.of_nat (length l)).
(* histogram_n_buckets, 55-74 *)
Definition gen_n_buckets (extra : N) : generator := fun i =>
  match i with
  | Some (x :: l) =>
      if extra =? 0 then Ok None else
      let min := dbl (min_element x l) in
      let width := dceil (ddiv (dsub (dbl (max_element x l)) min) (of_size extra)) in
      Ok (Some (lefts (N.to_nat extra) min width))
  | _ => Ok None
  end.
(* histogram_square_root_choice, 76-86 *)
Definition gen_sqrt : generator := with_bins (fun _ _ l => to_size (dsqrt (count l))).
(* histogram_sturges_formula, 88-98 *)
Definition gen_sturges (G : glibm) : generator := with_bins (fun _ _ l => to_size (dadd (g_log2 G (count l)) (of_size 2))).
(* histogram_rice_rule, 100-110 *)
Definition gen_rice (G : glibm) : generator := with_bins (fun _ _ l => to_size (dadd (g_cbrt G (count l)) (of_size 2))).
(* histogram_scotts_normal_reference_rule, 112-139 *)
Definition three_and_a_half : spec_float := ddiv (of_size 7) (of_size 2).
Definition gen_scott (G : glibm) : generator := with_bins (fun min max l =>
  let n := N.of_nat (length l) in
  let mean := ddiv (fold_left (fun a v => dadd a (dbl v)) l (of_size 0)) (of_size n) in
  let sumsqr := fold_left (fun a v => let diff := dsub (dbl v) mean in dadd a (dmul diff diff)) l (of_size 0) in
  let stdev := dsqrt (ddiv sumsqr (of_size (n - 1))) in
  let h := ddiv (dmul three_and_a_half stdev) (g_cbrt G (of_size n)) in
  to_size (ddiv (dsub min max) h)).
(* histogram_uniform_logn, 141-151 *)
Definition gen_logn (G : glibm) (extra : N) : generator := fun i =>
  if extra =? 0 then Ok None else
  with_bins (fun min max _ =>
    let range := dsub max min in
    to_size (dceil (ddiv (dmul range (g_log G (of_size extra))) (g_log G range)))) i.

(* HISTOGRAM_BUCKET_GENERATORS with HISTOGRAM_BUCKET_GENERATOR_EXTRA_ARGS, config.hpp:151-172 *)
Definition generator_named (G : glibm) (name : bytes) : option generator :=
  if beqb name (bstr "10_BUCKETS") then Some (gen_n_buckets 10)
  else if beqb name (bstr "SQUARE_ROOT_CHOICE") then Some gen_sqrt
  else if beqb name (bstr "STURGES_FORMULA") then Some (gen_sturges G)
  else if beqb name (bstr "RICE_RULE") then Some (gen_rice G)
  else if beqb name (bstr "SCOTTS_NORMAL_REFERENCE_RULE") then Some (gen_scott G)
  else if beqb name (bstr "UNIFORM_LOG2") then Some (gen_logn G 2)
  else if beqb name (bstr "UNIFORM_LOG10") then Some (gen_logn G 10)
  else None.
