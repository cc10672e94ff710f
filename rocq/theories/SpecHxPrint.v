(* What hx.cpp and hx.c should print *)
From Verif Require Import ModelBytes ModelKey ModelHist ModelMsg ModelStore ModelGetOp ModelDs ModelElen ModelFloat ModelTransform ModelRoute ModelClient SpecClient SpecCluster SpecScan SpecElen SpecConf SpecCli SpecFp ModelHx SpecHx.
From Coq Require Import Reals.
Local Open Scope N_scope.

(* a line of rank r about range server f *)
Definition line_of (r : Z) (text : bytes) (f : Z) (line : bytes) : Prop :=
  exists n, whole n f /\ line = bstr "Rank " ++ to_string (Z.to_N r) ++ bstr " " ++ text ++ bstr " from range server " ++ n ++ [nl].
Definition braces (r : Z) (i : N) : bytes := bstr "{" ++ subject r i ++ bstr ", " ++ predicate r i ++ bstr "}".
(* the range server that is asked for the i-th pair *)
Definition server (e : env) (h : hx_memory) (r : Z) (i : N) : Z := at_ e (subject_at h r i) (predicate_at h r i).
(* a failed GET; a successful PUT, of hx.cpp and of hx.c; a GET that returns a number, which is y to 17 digits behind the point *)
Definition fail_line (e : env) (h : hx_memory) (r : Z) (i : N) (line : bytes) : Prop := line_of r (bstr "GET returned ERROR") (server e h r i) line.
Definition done_line (e : env) (h : hx_memory) (r : Z) (i : N) (line : bytes) : Prop := line_of r (bstr "PUT returned SUCCESS") (server e h r i) line.
Definition done_c_line (e : env) (h : hx_memory) (r : Z) (i : N) (line : bytes) : Prop :=
  line_of r (bstr "PUT          " ++ braces r i ++ bstr " returned SUCCESS") (server e h r i) line.
Definition number_line (e : env) (h : hx_memory) (r : Z) (ok : N -> R -> Prop) (i : N) (line : bytes) : Prop :=
  exists w minus m, decimal w minus m (-17) /\ ok i (number_of minus m (-17)) /\ line_of r (bstr "GET returned " ++ braces r i ++ bstr " -> " ++ w) (server e h r i) line.
(* one line for each of the n pairs, in any order *)
Definition lines (n : N) (f : N -> bytes -> Prop) (out : bytes) : Prop :=
  exists order ls, Permutation order (below_n n) /\ out = concat ls /\ Forall2 f order ls.
(* the three flushes of a rank: p prints them *)
Definition prints (p : list result -> outcome bytes) (rs : list (list result)) (f1 f2 f3 : bytes -> Prop) : Prop :=
  exists r1 r2 r3 o1 o2 o3, rs = [r1; r2; r3] /\ p r1 = Ok o1 /\ p r2 = Ok o2 /\ p r3 = Ok o3 /\ f1 o1 /\ f2 o2 /\ f3 o3.
(* the texts are where they were when the results are printed *)
Definition holds_texts (mem : N -> bytes) (h : hx_memory) (r : Z) (n : N) : Prop :=
  forall i, i < n -> mem (hx_subject h i) = subject r i /\ mem (hx_predicate h i) = predicate r i.
(* v is x rounded to 17 digits behind the point; v is x to 14 digits *)
Definition nearly (y : N -> spec_float) (i : N) (v : R) : Prop := (Rabs (v - val (y i)) <= ten (-17) / 2)%R.
Definition fourteen (d : N -> spec_float) (i : N) (v : R) : Prop := (Rabs (v - val (d i)) <= Rabs (val (d i)) * ten (-14) + ten (-17) / 2)%R.
