(* examples/hxhim/hx.cpp (and hx.c, which makes the same calls) with examples/hxhim/spo_gen.c: PUTs, GETs before and after the PUTs are flushed.
   Simplifications: MPI_Init_thread, hxhim::Init and hxhim::Open have succeeded; calloc and malloc have succeeded (with count 0 they may return
   NULL, and spo_gen_fixed returns 0, which is count); what rand gives is a parameter. What is printed on the way is not modelled. *)
From Verif Require Import ModelBytes ModelKey ModelWire ModelHist ModelMsg ModelStore ModelGetOp ModelDs ModelElen ModelFloat ModelRoute ModelClient SpecCluster SpecScan SpecMixed ModelTyped ModelCli ModelLowest.
Local Open Scope N_scope.

(* snprintf(buf, max_len, pattern, rank, idx), spo_gen.c:47, for the patterns "subject-%d-%zu" (73) and "predicate-%d-%zu" (80) *)
Definition pattern (word : bytes) (rank : Z) (idx : N) : bytes := word ++ bstr "-" ++ show_int rank ++ bstr "-" ++ to_string idx.
(* gen_fixed_pattern, spo_gen.c:39-50: the len bytes from dst on. The length is that of the whole text, of which the buffer has only room for the
   first max_len - 1 characters and a zero; of a longer text, bytes behind the buffer are read later *)
Definition gen_fixed_pattern (max_len : N) (s : bytes) : outcome bytes :=
  if blen s <? max_len then Ok s else if blen s =? max_len then Ok (firstn (N.to_nat max_len - 1) s ++ [zero]) else UB.
(* hx.cpp:71 *)
Definition bufsize : N := 100.
(* where rank keeps its subjects, predicates and numbers *)
Record hx_memory := mkHx { hx_subject : N -> N; hx_predicate : N -> N; hx_doubles : N }.
(* spo_gen_fixed, spo_gen.c:52-90, with no objects; hx.cpp:124-129 *)
Definition hx_pair (h : hx_memory) (rank : Z) (i : N) : outcome (arg * arg) :=
  do s <- gen_fixed_pattern bufsize (pattern (bstr "subject") rank i);
  do p <- gen_fixed_pattern bufsize (pattern (bstr "predicate") rank i);
  Ok (mkArg (hx_subject h i) s T_BYTE, mkArg (hx_predicate h i) p T_BYTE).
(* hxhim::PutDouble, hx.cpp:142-146; HXHIM_PUT_SPO is 1, include/hxhim/constants.h:48 *)
Definition hx_put (h : hx_memory) (d : N -> spec_float) (t : N * (arg * arg)) : move :=
  Say (put_fp T_DOUBLE (fst (snd t)) (snd (snd t)) (mkPtr (hx_doubles h + 8 * fst t) (store_fp DBL (d (fst t)))) 1).
(* hxhim::GetDouble, hx.cpp:163-165, 215-217 *)
Definition hx_get (t : N * (arg * arg)) : move := Say (get_fp T_DOUBLE (fst (snd t)) (snd (snd t))).
(* main, hx.cpp:140-226: calls and flushes of one rank *)
Definition hx_moves (h : hx_memory) (d : N -> spec_float) (rank : Z) (count : N) : outcome (list move) :=
  do ts <- omap (fun i => do a <- hx_pair h rank i; Ok (i, a)) (counts count);
  Ok (map (hx_put h d) ts ++ map hx_get ts ++ [Send (Some Gets); Send (Some Puts)] ++ map hx_get ts ++ [Send None]).
