(* What puts.c should leave in the cluster *)
From Verif Require Import ModelBytes ModelKey ModelHist ModelMsg ModelStore ModelGetOp ModelDs ModelElen ModelRoute SpecStore ModelClient SpecClient SpecCluster SpecScan SpecMixed SpecMixed3 SpecHx ModelPuts.
Local Open Scope N_scope.

(* the bytes that the values from .. from+k-1 of rand become *)
Definition taken (rnd : N -> N) (from k : N) : bytes := map (fun b => ascii_of_N (rnd (from + b) mod 256)) (below_n k).
(* A round of n triples takes 39 n values: 9 for a subject, 5 for a predicate, 25 for an object; the first of each is for the length *)
Definition its_subject (rnd : N -> N) (n t i : N) : field := mkField (taken rnd (39 * n * t + 9 * i + 1) 8) T_BYTE.
Definition its_predicate (rnd : N -> N) (n t i : N) : field := mkField (taken rnd (39 * n * t + 9 * n + 5 * i + 1) 4) T_BYTE.
Definition its_object (rnd : N -> N) (n t i : N) : field := mkField (taken rnd (39 * n * t + 14 * n + 25 * i + 1) 24) T_BYTE.
(* some rank makes the triple *)
Definition made (ranks : list Z) (rnd : Z -> N -> N) (n times : N) (s p o : field) : Prop :=
  exists r t i, In r ranks /\ t < times /\ i < n /\ s = its_subject (rnd r) n t i /\ p = its_predicate (rnd r) n t i /\ o = its_object (rnd r) n t i.
(* a map that has an object of every pair that was made, and nothing else *)
Definition holds_made (ranks : list Z) (rnd : Z -> N -> N) (n times : N) (M : tmap) : Prop :=
  (forall s p o, M s p = Some o -> made ranks rnd n times s p o) /\ (forall s p o, made ranks rnd n times s p o -> M s p <> None).
(* afterwards a rank asks for some pairs *)
Definition then_ask (j : Z) (asked : list (arg * arg * N)) : list (Z * move) := [(j, Say (CBGet (Some asked))); (j, Send None)].
Definition good_place (a : N) : Prop := a <> 0 /\ a < 2 ^ 64.
Definition good_places (h : puts_memory) (n times : N) : Prop :=
  forall t i, t < times -> i < n -> good_place (pm_subject h t i) /\ good_place (pm_predicate h t i) /\ good_place (pm_object h t i).
Definition good_question (q : arg * arg * N) : Prop :=
  let '(s, p, ty) := q in (a_type s = T_BYTE /\ a_data s <> [] /\ blen (a_data s) < 2 ^ 32 /\ good_place (a_addr s)) /\
    (a_type p = T_BYTE /\ a_data p <> [] /\ blen (a_data p) < 2 ^ 32 /\ good_place (a_addr p)) /\ ty < 2 ^ 32.
(* with one rank: the rounds and their triples in order, the last object of a pair counts *)
Definition last_made (rnd : N -> N) (n times : N) (s p : field) : option field :=
  fold_left (fun x '(t, i) => if feqb (its_subject rnd n t i) s && feqb (its_predicate rnd n t i) p then Some (its_object rnd n t i) else x)
    (flat_map (fun t => map (pair t) (below_n n)) (below_n times)) None.
(* the pairs that one rank makes *)
Definition its_pairs (rnd : N -> N) (n times : N) : list (field * field) :=
  flat_map (fun t => map (fun i => (its_subject rnd n t i, its_predicate rnd n t i)) (below_n n)) (below_n times).
