(* What the report of a datastore at its end should say, in numbers *)
From Verif Require Import ModelBytes ModelHist ModelElen ModelFloat ModelStats ModelDsStats.
From Coq Require Import Reals.
From Flocq Require Import Core.
Local Open Scope R_scope.

(* nanoseconds between two points in time, and their sum over events *)
Definition ns (t : stamp) : R := IZR (snd t - fst t).
Fixpoint total_ns (l : list event) : R := match l with [] => 0 | e :: r => ns (ev_time e) + total_ns r end.
(* a clock that does not go back, and not 2^64 ns (584 years) between two readings *)
Definition forward (t : stamp) : Prop := (0 <= snd t - fst t < 2 ^ 64)%Z.

(* a number of thousandths in decimal: 12345 is 12.345 *)
Definition thousandths (m : N) : bytes := to_string (m / 1000) ++ "."%char :: pad 3 (m mod 1000).
(* what a rate is shown as: a number of thousandths of the unit 1024^i, i < 6, that is within 0.0005 units (and the error
   of a long double) of the rate; no smaller unit would do, and no larger one is called for *)
Definition shown_rate (rate : R) (text : bytes) : Prop :=
  exists m i u, nth_error [bstr "B"; bstr "KB"; bstr "MB"; bstr "GB"; bstr "TB"; bstr "PB"] i = Some u /\
    text = thousandths m ++ u ++ bstr "/sec" /\
    Rabs (IZR (Z.of_N m) / 1000 * 1024 ^ i - rate) <= 1024 ^ i / 2000 + rate * / 2 ^ 64 /\
    (m <= 1024000)%N /\ (i <> O -> (1000 <= m)%N).
