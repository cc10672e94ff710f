(* What hx.cpp should show *)
From Verif Require Import ModelBytes ModelKey ModelHist ModelMsg ModelStore ModelGetOp ModelDs ModelElen ModelFloat ModelTransform ModelRoute ModelClient SpecClient SpecCluster SpecScan SpecMixed SpecMixed3 SpecElen SpecFp ModelTyped ModelHx.
From Coq Require Import Reals.
Local Open Scope N_scope.

(* the texts *)
Definition subject (rank : Z) (i : N) : bytes := bstr "subject-" ++ to_string (Z.to_N rank) ++ bstr "-" ++ to_string i.
Definition predicate (rank : Z) (i : N) : bytes := bstr "predicate-" ++ to_string (Z.to_N rank) ++ bstr "-" ++ to_string i.
Definition subject_at (h : hx_memory) (rank : Z) (i : N) : arg := mkArg (hx_subject h i) (subject rank i) T_BYTE.
Definition predicate_at (h : hx_memory) (rank : Z) (i : N) : arg := mkArg (hx_predicate h i) (predicate rank i) T_BYTE.
(* 0 .. n-1 *)
Definition below_n (n : N) : list N := map N.of_nat (seq 0 (N.to_nat n)).

(* GETs before the PUTs are flushed fail; PUTs succeed; then every GET returns what comes back of the number *)
Definition fails (e : env) (h : hx_memory) (rank : Z) (i : N) : result :=
  let s := subject_at h rank i in let p := predicate_at h rank i in XGet (at_ e s p) false (rf s) (rf p) blob_none.
Definition stored_ (e : env) (h : hx_memory) (rank : Z) (i : N) : result :=
  let s := subject_at h rank i in let p := predicate_at h rank i in XPut (at_ e s p) true (rf s) (rf p).
Definition returns (e : env) (h : hx_memory) (y : N -> spec_float) (rank : Z) (i : N) : result :=
  let s := subject_at h rank i in let p := predicate_at h rank i in XGet (at_ e s p) true (rf s) (rf p) (mkBlob false (store_fp DBL (y i)) T_DOUBLE).
Definition hx_shows (e : env) (h : hx_memory) (y : N -> spec_float) (rank : Z) (n : N) (rs : list (list result)) : Prop :=
  exists r1 r2 r3, rs = [r1; r2; r3] /\ Permutation r1 (map (fails e h rank) (below_n n)) /\
    Permutation r2 (map (stored_ e h rank) (below_n n)) /\ Permutation r3 (map (returns e h y rank) (below_n n)).

(* l: the moves of the ranks, in any order in which the moves of each rank come as in its program (the barriers of the program leave fewer) *)
Definition ranks_run (ranks : list Z) (prog : Z -> outcome (list move)) (l : list (Z * move)) : Prop :=
  (forall r, In r ranks -> exists ms, prog r = Ok ms /\ alone r l = map (pair r) ms) /\ forall m, In m l -> In (fst m) ranks.
Definition good_memory (h : hx_memory) (n : N) : Prop :=
  (forall i, i < n -> hx_subject h i <> 0 /\ hx_subject h i < 2 ^ 64 /\ hx_predicate h i <> 0 /\ hx_predicate h i < 2 ^ 64) /\
  hx_doubles h <> 0 /\ hx_doubles h + 8 * n < 2 ^ 64.
(* numbers that the default callbacks keep to fourteen digits (C10) *)
Definition keeps (x : spec_float) : Prop :=
  valid DBL x /\ finite_fp x /\ (ten (-300) <= Rabs (val x) <= ten 300)%R /\ (~ (-4 * ten 8 <= val x <= -25 * ten 6) /\ ~ (25 * ten (-12) <= val x <= 4 * ten (-10)))%R.
