(* examples/hxhim/puts.c with examples/hxhim/spo_gen.c: random triples, PUT with BPutSingleType and flushed, a number of times.
   Simplifications: MPI_Init_thread, hxhimInit and hxhimOpen have succeeded; calloc and malloc have succeeded (with count 0 they may return
   NULL, and then BPutSingleType fails, which is not looked at); what rand gives is a parameter. Times and what is printed are not modelled. *)
From Verif Require Import ModelBytes ModelKey ModelWire ModelHist ModelMsg ModelStore ModelGetOp ModelDs ModelElen ModelRoute ModelClient SpecCluster SpecScan SpecMixed ModelLowest.
Local Open Scope N_scope.

(* rnd i: the i-th value that rand returns; at: the number of calls before. The loop at spo_gen.c:102-104: a char takes the low byte *)
Fixpoint draw (rnd : N -> N) (at_ : N) (k : nat) : bytes :=
  match k with O => [] | S k' => ascii_of_N (rnd at_ mod 256) :: draw rnd (at_ + 1) k' end.
(* gen_random_pattern, spo_gen.c:93-107; dst and len are never null *)
Definition gen_random_pattern (rnd : N -> N) (at_ min_len max_len : N) : bytes * N :=
  let len := rnd at_ mod (max_len - min_len + 1) + min_len in (draw rnd (at_ + 1) (N.to_nat len), at_ + 1 + len).
(* the loops at spo_gen.c:129-132, 136-139, 143-146 *)
Fixpoint gen_patterns (rnd : N -> N) (at_ min_len max_len : N) (count : nat) : list bytes * N :=
  match count with
  | O => ([], at_)
  | S count' =>
      let '(b, at1) := gen_random_pattern rnd at_ min_len max_len in
      let '(l, at2) := gen_patterns rnd at1 min_len max_len count' in (b :: l, at2)
  end.
(* spo_gen_random, spo_gen.c:109-150, with the sizes of puts.c:75-78 *)
Definition spo_gen_random (rnd : N -> N) (at_ count : N) : list bytes * list bytes * list bytes * N :=
  let '(s, at1) := gen_patterns rnd at_ 8 8 (N.to_nat count) in
  let '(p, at2) := gen_patterns rnd at1 4 4 (N.to_nat count) in
  let '(o, at3) := gen_patterns rnd at2 24 24 (N.to_nat count) in (s, p, o, at3).
(* where the rank keeps the i-th subject, predicate and object of a round *)
Record puts_memory := mkPm { pm_subject : N -> N -> N; pm_predicate : N -> N -> N; pm_object : N -> N -> N }.
(* puts.c:86-91; the types and permutations are those of puts.c:63-66 *)
Definition round_items (h : puts_memory) (t : N) (s p o : list bytes) : list (arg * arg * arg * N) :=
  map (fun '(i, ((a, b), c)) => (mkArg (pm_subject h t i) a T_BYTE, mkArg (pm_predicate h t i) b T_BYTE, mkArg (pm_object h t i) c T_BYTE, 1))
      (combine (counts (N.of_nat (length s))) (combine (combine s p) o)).
(* the loop at puts.c:70-123: the rounds from t on *)
Fixpoint puts_rounds (h : puts_memory) (rnd : N -> N) (at_ count t : N) (times : nat) : list move :=
  match times with
  | O => []
  | S times' =>
      let '(s, p, o, at1) := spo_gen_random rnd at_ count in
      Say (CBPutOne true T_BYTE (Some (round_items h t s p o))) :: Send None :: puts_rounds h rnd at1 count (t + 1) times'
  end.
(* main, puts.c:69-123: the program calls srand nowhere, so rand starts the same way in every process *)
Definition puts_moves (h : puts_memory) (rnd : N -> N) (count times : N) : list move := puts_rounds h rnd 0 count 0 (N.to_nat times).
