(* C82, C83: the command line interface *)
From Verif Require Import ModelBytes ModelKey ModelWire ModelHist ModelMsg ModelStore ModelGetOp ModelDs ModelElen ModelConf ModelFloat ModelRoute SpecRoute SpecStore ProofDs
  ExampleStore ModelClient SpecClient SpecCluster ExampleClient SpecGetOp SpecScan SpecMixed SpecMixed2 ModelCli SpecConf SpecOptions SpecFp SpecCli ProofCli3 ProofCli4 ProofCli6 ProofCli7 ProofCli8 ProofMixed2
  ExampleCli ExampleCli2 ExampleMixed2.
From Coq Require Import Reals.
Local Open Scope N_scope.

(* Every line of the language adds the commands it means; lines that start with no command are reported and add nothing.
   Missing: lines that start with a command and are not in the language (see below) *)
Theorem C82_lines_partial : forall t ls, lines t ls -> Forall (fun l => correct l \/ foreign l) ls ->
  exists rs, Forall2 understood ls rs /\ parse_commands t = (flat_map fst rs, map snd rs).
Proof. exact commands_read. Qed.
Print Assumptions C82_lines_partial.
Example C82_lines_example : lines (ended tlines) tlines /\ Forall (fun l => correct l \/ foreign l) tlines /\
  parse_commands (ended tlines) = (tcmds, [true; true; true; false; true]).
Proof. split; [exact tlines_lines|]. split; [exact tlines_ok|exact tlines_parsed]. Qed.
(* a bulk command with an error has reported the error and is run in part *)
Theorem C82_half_refuted : exists line cs, ~ correct line /\ cs <> [] /\ parse_commands line = (cs, [false]).
Proof. exact half_done. Qed.
Print Assumptions C82_half_refuted.
(* words too many, and words run together, are accepted *)
Theorem C82_loose_refuted : exists line line' cs cs', ~ correct line /\ ~ correct line' /\ parse_commands line = (cs, [true]) /\ parse_commands line' = (cs', [true]) /\ cs <> [] /\ cs' <> [].
Proof. exact loose. Qed.
Print Assumptions C82_loose_refuted.
(* -1 is accepted for unsigned types *)
Theorem C82_negative_refuted : exists line s p, ~ correct line /\ parse_commands line = ([MDel s p], [true]) /\ b_type s = T_UINT32 /\ ModelBytes.le_dec (b_data s) = 4294967295.
Proof. exact negative_read. Qed.
Print Assumptions C82_negative_refuted.
(* BGETOP as the help text has it, without the number of operations *)
Theorem C82_bgetop_refuted : exists ws c line, operation (bstr "GETOP") ws c /\ spelled (bstr "BGETOP" :: ws) line /\ parse_commands line = ([], [false]).
Proof. exact bgetop_help. Qed.
Print Assumptions C82_bgetop_refuted.

(* Commands on data with FLUSH in between: every command is run, and what the FLUSHes print are the results of one map.
   Missing: GETOP (see below), FLUSHPUTS, FLUSHGETS and FLUSHDELS; batches that use two datastores of the same other rank *)
Theorem C82_session_partial : forall e k c s cl at_ bs, good_client e -> fresh e s -> holds e cl (fun _ => opened k c) -> Forall (Forall on_data) bs ->
  Forall (fun cs => Forall (data_call c) cs /\ spread e cs) (batches at_ 0 bs) ->
  exists s' cl' rs xss, run_commands e at_ 0 s cl (script bs) = Ok (s', cl', rs) /\ List.length rs = List.length (script bs) /\
    flat_map fst rs = concat xss /\ Forall2 (@Permutation result) xss (expected (fun _ => e) k no_triples (map (fun cs => (0%Z, cs)) (batches at_ 0 bs))).
Proof. exact script_is_map. Qed.
Print Assumptions C82_session_partial.
Example C82_session_example : parse_commands (ended slines) = (script sbatches, repeat true 8) /\
  good_client (xe 0) /\ fresh (xe 0) (opened_session (xe 0)) /\ holds (xe 0) (xcl ModelStore.InMemory) (fun _ => opened ModelStore.InMemory ex_codec) /\
  Forall (Forall on_data) sbatches /\ Forall (fun cs => Forall (data_call ex_codec) cs /\ spread (xe 0) cs) (batches sat 0 sbatches).
Proof.
  split; [exact slines_parsed|]. split; [apply xe_client; lia|]. split; [split; reflexivity|]. split; [apply xcl_holds|]. split; [exact sdata|exact scalls].
Qed.
(* ... and with GETOPs, which see what C76 says.
   Missing: FLUSHPUTS, FLUSHGETS and FLUSHDELS (see below); batches that use two datastores of the same other rank; the GETOPs excluded by scannable *)
Theorem C82_scans_partial : forall e k c s cl at_ bs, good_client e -> fresh e s -> holds e cl (fun _ => opened k c) -> Forall (Forall on_pairs) bs ->
  scans_fine (fun _ => e) k c no_triples (map (fun cs => (0%Z, cs)) (batches at_ 0 bs)) ->
  exists s' cl' rs xss, run_commands e at_ 0 s cl (script bs) = Ok (s', cl', rs) /\ List.length rs = List.length (script bs) /\
    flat_map fst rs = concat xss /\ scans_seen (fun _ => e) k c no_triples (map (fun cs => (0%Z, cs)) (batches at_ 0 bs)) xss.
Proof. exact script_scans. Qed.
Print Assumptions C82_scans_partial.
Example C82_scans_example : forall k, good_client (xe 0) /\ fresh (xe 0) (opened_session (xe 0)) /\ holds (xe 0) (xcl k) (fun _ => opened k ex_codec) /\
  Forall (Forall on_pairs) obatches /\ scans_fine (fun _ => xe 0) k ex_codec no_triples (map (fun cs => (0%Z, cs)) (batches sat 0 obatches)).
Proof. intro k. split; [apply xe_client; lia|]. split; [split; reflexivity|]. split; [apply xcl_holds|]. split; [exact opairs|apply ofine]. Qed.
(* ... and with the flushes of one kind, in any order: the commands are the moves of one client of C85.
   Missing: flushes that use two datastores of the same other rank; the GETOPs excluded by scannable *)
Theorem C82_commands_partial : forall e k c s cl at_ l, good_client e -> fresh e s -> holds e cl (fun _ => opened k c) ->
  moves_fine (fun _ => e) k c no_triples (fun _ => idle) (moves_of at_ 0 l) ->
  exists s' cl' rs xss, run_commands e at_ 0 s cl l = Ok (s', cl', rs) /\ List.length rs = List.length l /\
    flat_map fst rs = concat xss /\ moves_seen (fun _ => e) k c no_triples (fun _ => idle) (moves_of at_ 0 l) xss.
Proof. exact commands_moves. Qed.
Print Assumptions C82_commands_partial.
Example C82_commands_example : forall k, good_client (xe 0) /\ fresh (xe 0) (opened_session (xe 0)) /\ holds (xe 0) (xcl k) (fun _ => opened k ex_codec) /\
  moves_fine (fun _ => xe 0) k ex_codec no_triples (fun _ => idle) (moves_of sat 0 pcmds) /\ In MFlushGets pcmds /\ In MFlushPuts pcmds /\ In MFlushDels pcmds.
Proof. intro k. split; [apply xe_client; lia|]. split; [split; reflexivity|]. split; [apply xcl_holds|]. split; [apply pfine|]. vm_compute. tauto. Qed.
(* Whatever the commands are: flushes count as successful, and nothing else has results. *)
Theorem C82_flushes : forall e at_ l i s cl s' cl' rs, run_commands e at_ i s cl l = Ok (s', cl', rs) ->
  Forall2 (fun c r => (flushing c -> snd r = true) /\ (~ flushing c -> fst r = [])) l rs.
Proof. exact run_flushes. Qed.
Print Assumptions C82_flushes.
Example C82_flushes_example : exists s cl rs,
  run_commands (xe 0) sat 0 (opened_session (xe 0)) (xcl ModelStore.InMemory) (script sbatches) = Ok (s, cl, rs) /\ List.length rs = List.length (script sbatches) /\ In MFlush (script sbatches).
Proof.
  destruct (script_is_map (xe 0) ModelStore.InMemory ex_codec (opened_session (xe 0)) (xcl ModelStore.InMemory) sat sbatches) as (s & cl & rs & xss & A & B & _);
    [apply xe_client; lia|split; reflexivity|apply xcl_holds|exact sdata|exact scalls|]. exists s, cl, rs. split; [exact A|]. split; [exact B|]. vm_compute. tauto.
Qed.
(* a text of the language that ends in undefined behavior *)
Theorem C82_getop_refuted : exists e cl t ls at_, good_client e /\ holds e cl (fun _ => opened ModelStore.InMemory ex_codec) /\ lines t ls /\ Forall correct ls /\
  run_commands e at_ 0 (opened_session e) cl (fst (parse_commands t)) = UB.
Proof. exact getop_text. Qed.
Print Assumptions C82_getop_refuted.

(* What is printed for a value can be typed in for it; numbers are printed to the nearest 10^-9 (10^-17).
   Missing: large unsigned integers, bytes with zeros, infinities *)
Theorem C83_values_partial : forall t d, showable t d -> exists w, print_by_type false d t = Ok w /\ shows t d w.
Proof. exact value_prints. Qed.
Print Assumptions C83_values_partial.
Example C83_values_example : showable T_INT32 (le_enc 4 4294967291) /\ print_by_type false (le_enc 4 4294967291) T_INT32 = Ok (bstr "-5") /\
  showable T_BYTE (bstr "text") /\ print_by_type false (store_fp DBL quarter) T_DOUBLE = Ok (bstr "0.25000000000000000").
Proof.
  split; [left; split; reflexivity|]. split; [vm_compute; reflexivity|]. split; [|vm_compute; reflexivity].
  right; right; right; right; left. split; [reflexivity|]. split; [|reflexivity]. intro H. repeat (destruct H as [H|H]; [discriminate H|]). exact H.
Qed.
(* results print as one line each *)
Theorem C83_lines_partial : forall mem l, Forall (result_showable mem) l -> exists ls, print_results mem l = Ok (concat ls) /\ Forall2 (result_line mem) l ls.
Proof. exact lines_print. Qed.
Print Assumptions C83_lines_partial.
(* a session: nothing that is printed has been freed, and every result is printed *)
Theorem C83_session_partial : forall e k c s cl at_ bs mem, good_client e -> fresh e s -> holds e cl (fun _ => opened k c) -> Forall (Forall on_data) bs ->
  Forall (fun cs => Forall (data_call c) cs /\ spread e cs) (batches at_ 0 bs) -> kept_cmds mem at_ 0 (script bs) ->
  exists s' cl' rs xss ls, run_commands e at_ 0 s cl (script bs) = Ok (s', cl', rs) /\ flat_map fst rs = concat xss /\
    Forall2 (@Permutation result) xss (expected (fun _ => e) k no_triples (map (fun cs => (0%Z, cs)) (batches at_ 0 bs))) /\
    print_results mem (flat_map fst rs) = Ok (concat ls) /\ Forall2 (result_line mem) (flat_map fst rs) ls.
Proof. exact script_prints. Qed.
Print Assumptions C83_session_partial.
Example C83_session_example : kept_cmds smem sat 0 (script sbatches) /\
  match sprinted with Ok t => skipn 18 (getlines newline [] t) | _ => [] end =
  map bstr ["GET returned {s, p} -> new from range server 0"; "DEL          {a, b} returned SUCCESS from range server 1"; "GET returned ERROR from range server 1"]%string.
Proof. split; [exact skept|exact slast]. Qed.
(* From the text to what is printed: the lines are understood, the commands run, and every result is a line.
   Missing: as for C82_lines_partial, C82_commands_partial and C83_values_partial *)
Theorem C83_text_partial : forall t ls e k c s cl at_ mem, lines t ls -> Forall (fun l => correct l \/ foreign l) ls ->
  good_client e -> fresh e s -> holds e cl (fun _ => opened k c) ->
  exists us, Forall2 understood ls us /\ (moves_fine (fun _ => e) k c no_triples (fun _ => idle) (moves_of at_ 0 (flat_map fst us)) -> kept_cmds mem at_ 0 (flat_map fst us) ->
    exists s' cl' rs xss out, run_commands e at_ 0 s cl (fst (parse_commands t)) = Ok (s', cl', rs) /\ flat_map fst rs = concat xss /\
      moves_seen (fun _ => e) k c no_triples (fun _ => idle) (moves_of at_ 0 (flat_map fst us)) xss /\
      print_results mem (flat_map fst rs) = Ok (concat out) /\ Forall2 (result_line mem) (flat_map fst rs) out).
Proof. exact text_moves. Qed.
Print Assumptions C83_text_partial.
Example C83_text_example : forall k, lines (ended plines) plines /\ Forall (fun l => correct l \/ foreign l) plines /\ fst (parse_commands (ended plines)) = pcmds /\
  moves_fine (fun _ => xe 0) k ex_codec no_triples (fun _ => idle) (moves_of sat 0 pcmds) /\ kept_cmds pmem sat 0 pcmds /\
  match pprinted k with Ok t => (firstn 1 (getlines newline [] t), skipn 7 (getlines newline [] t)) | _ => ([], []) end =
  (map bstr ["GET returned ERROR from range server 1"]%string,
   map bstr ["DEL          {a, b} returned SUCCESS from range server 1"; "GET returned {c, a} -> b from range server 1"]%string).
Proof.
  intro k. split; [exact plines_lines|]. split; [exact plines_ok|]. split; [rewrite plines_parsed; reflexivity|]. split; [apply pfine|]. split; [exact pkept|apply pout].
Qed.
Example C83_scans_example : forall k, lines (ended olines) olines /\ Forall (fun l => correct l \/ foreign l) olines /\
  fst (parse_commands (ended olines)) = script obatches /\ kept_cmds omem sat 0 (script obatches) /\
  match oprinted k with Ok t => skipn 12 (getlines newline [] t) | _ => [] end =
  map bstr ["GET returned {s, p} -> new from range server 0"; "GET returned {a, b} -> c from range server 1"; "GET returned {c, a} -> b from range server 1"]%string.
Proof. intro k. split; [exact olines_lines|]. split; [exact olines_ok|]. split; [rewrite olines_parsed; reflexivity|]. split; [exact okept|apply olast]. Qed.
(* unsigned integers are printed as if they were signed *)
Theorem C83_unsigned_refuted :
  (exists d, holds_int 4 d 4294967295 /\ print_by_type false d T_UINT32 = Ok (bstr "-1") /\ ~ shows T_UINT32 d (bstr "-1")) /\
  exists d, holds_int 8 d (2 ^ 64 - 1) /\ print_by_type false d T_UINT64 = Ok (bstr "-1") /\ ~ shows T_UINT64 d (bstr "-1").
Proof. split; [exact unsigned_printed|exact unsigned8_printed]. Qed.
Print Assumptions C83_unsigned_refuted.
(* bytes are cut at a zero *)
Theorem C83_bytes_refuted : exists d w, print_by_type false d T_BYTE = Ok w /\ ~ shows T_BYTE d w.
Proof. exact bytes_printed. Qed.
Print Assumptions C83_bytes_refuted.
(* different floats print the same although FLT_DECIMAL_DIG digits are asked for *)
Theorem C83_floats_refuted : exists x y w, valid FLT x /\ valid FLT y /\ finite_fp x /\ finite_fp y /\ (0 < val x < val y)%R /\
  print_by_type false (store_fp FLT x) T_FLOAT = Ok w /\ print_by_type false (store_fp FLT y) T_FLOAT = Ok w.
Proof. exact floats_printed. Qed.
Print Assumptions C83_floats_refuted.
(* infinities are printed, but what is printed cannot be typed in *)
Theorem C83_infinite_refuted : forall b t F, fp_type t F ->
  print_by_type false (store_fp F (S754_infinity b)) t = Ok (if b then bstr "-inf" else bstr "inf") /\ forall r, rd_data t ((if b then bstr "-inf" else bstr "inf") ++ r) = None.
Proof. exact infinite_prints. Qed.
Print Assumptions C83_infinite_refuted.
