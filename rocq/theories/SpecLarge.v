(* The elen library beyond what hxhim uses: what is expected *)
From Verif Require Import ModelBytes ModelElen ModelTransform ModelFloat SpecElen SpecFp.
From Coq Require Import Reals.
Local Open Scope N_scope.

(* the order of datastores, bytes without sign, whatever follows *)
Definition before (a b : bytes) : Prop := forall s t, bltb (a ++ s) (b ++ t) = true.
(* characters below 128 *)
Definition plain (s : bytes) : Prop := Forall (fun c => N_of_ascii c < 128) s.

Local Open Scope R_scope.
(* how far a large decimal with p digits after the point may be off *)
Definition large_bound (F : fmt) (p : N) (x : spec_float) : R :=
  ten (- Z.of_N p) + slack F * (Rabs (val x) + 1).
(* the same for a small decimal *)
Definition small_bound (F : fmt) (p : N) : R := / 2 * ten (- Z.of_N p) + slack F.
