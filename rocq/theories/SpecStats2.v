(* The fill rate of packets that hold l operations each, of at most m *)
From Verif Require Import ModelBytes ModelMsg ModelFloat ModelGen SpecFp ModelStats SpecStats.
From Coq Require Import Reals.
Local Open Scope R_scope.

(* the average is the mean but for rounding and within the possible; the percentage is one *)
Definition fill_right (l : list N) (m : N) : Prop :=
  finite_fp (fill_avg l) /\ 1 <= val (fill_avg l) <= IZR (Z.of_N m) /\
  (let mean := IZR (Z.of_N (sumN l)) / IZR (Z.of_N (lenN l)) in Rabs (val (fill_avg l) - mean) <= mean * powerRZ 2 (-53)) /\
  finite_fp (percent m (fill_avg l)) /\ 0 < val (percent m (fill_avg l)) <= 100.
