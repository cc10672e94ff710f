(* a text with partial flushes, from the lines to what is printed *)
From Verif Require Import ModelBytes ModelKey ModelWire ModelHist ModelMsg ModelStore ModelGetOp ModelDs ModelElen ModelConf ModelFloat ModelRoute SpecRoute SpecStore ProofDs
  ExampleStore ModelClient SpecClient SpecCluster ExampleClient SpecGetOp SpecScan ProofScan ProofScan2 ProofScan3 SpecMixed SpecMixed2 ModelCli SpecConf SpecOptions SpecFp SpecCli ProofCli3 ProofCli4 ProofCli6 ProofCli8
  ExampleCli ExampleCli2 ExampleMixed.
Local Open Scope N_scope.

Definition plines : list bytes := map bstr ["PUT BYTE a BYTE b BYTE c"; "GET BYTE a BYTE b BYTE"; "FLUSHGETS"; "FLUSHPUTS"; "GETOP BYTE a BYTE b BYTE 1 NEXT"; "what else"; "DEL BYTE a BYTE b"; "FLUSHDELS"; "FLUSH"]%string.
Definition pcmds : list cmd :=
  [MPut (xbl "a") (xbl "b") (xbl "c"); MGet (xbl "a") (xbl "b") T_BYTE; MFlushGets; MFlushPuts; MGetOp (xbl "a") (xbl "b") T_BYTE 1 GETOP_NEXT; MDel (xbl "a") (xbl "b"); MFlushDels; MFlush].
Definition pmem : N -> bytes := fun a => nth (N.to_nat a - 10) (map bstr ["a"; "b"; "c"; "a"; "b"; ""; ""; ""; ""; ""; ""; ""; "a"; "b"; ""; "a"; "b"; ""]%string) [].
Lemma plines_lines : lines (ended plines) plines.
Proof.
  split; [|left; reflexivity]. apply Forall_forall. intros l I N.
  assert (forallb (fun l => forallb (fun c => negb (Ascii.eqb c nl)) l) plines = true) as H by reflexivity. rewrite forallb_forall in H. specialize (H l I).
  rewrite forallb_forall in H. specialize (H nl N). discriminate H.
Qed.
Lemma plines_ok : Forall (fun l => correct l \/ foreign l) plines.
Proof.
  constructor; [left; apply (put_ok "a" "b" "c"); [reflexivity|apply spelled_line; reflexivity]|].
  constructor.
  { left. exists (ww ["GET"; "BYTE"; "a"; "BYTE"; "b"; "BYTE"]%string), [MGet (xbl "a") (xbl "b") T_BYTE]. split; [apply spelled_line; reflexivity|].
    change (command (bstr "GET" :: ww ["BYTE"; "a"]%string ++ ww ["BYTE"; "b"]%string ++ [bstr "BYTE"]) [MGet (xbl "a") (xbl "b") T_BYTE]).
    apply one. apply a_get; [apply bytes_say; reflexivity|apply bytes_say; reflexivity|unfold type_says; cbn [In]; tauto]. }
  constructor; [left; exists [bstr "FLUSHGETS"], [MFlushGets]; split; [apply spelled_line; reflexivity|]; apply flushing; cbn [In]; tauto|].
  constructor; [left; exists [bstr "FLUSHPUTS"], [MFlushPuts]; split; [apply spelled_line; reflexivity|]; apply flushing; cbn [In]; tauto|].
  constructor.
  { left. exists (ww ["GETOP"; "BYTE"; "a"; "BYTE"; "b"; "BYTE"; "1"; "NEXT"]%string), [MGetOp (xbl "a") (xbl "b") T_BYTE 1 GETOP_NEXT]. split; [apply spelled_line; reflexivity|].
    change (command (bstr "GETOP" :: ww ["BYTE"; "a"]%string ++ ww ["BYTE"; "b"]%string ++ ww ["BYTE"; "1"; "NEXT"]%string) [MGetOp (xbl "a") (xbl "b") T_BYTE 1 GETOP_NEXT]).
    apply one. apply a_getop; [apply bytes_say; reflexivity|apply bytes_say; reflexivity|unfold type_says; cbn [In]; tauto|exact (whole_small 1 eq_refl)|reflexivity|unfold op_says; cbn [In]; tauto]. }
  constructor.
  { right. exists (bstr "what"), [bstr "else"]. split; [apply spelled_line; reflexivity|]. cbn [map In]. intro H. repeat (destruct H as [H|H]; [discriminate H|]). exact H. }
  constructor.
  { left. exists (ww ["DEL"; "BYTE"; "a"; "BYTE"; "b"]%string), [MDel (xbl "a") (xbl "b")]. split; [apply spelled_line; reflexivity|].
    change (command (bstr "DEL" :: ww ["BYTE"; "a"]%string ++ ww ["BYTE"; "b"]%string) [MDel (xbl "a") (xbl "b")]). apply one. apply a_del; apply bytes_say; reflexivity. }
  constructor; [left; exists [bstr "FLUSHDELS"], [MFlushDels]; split; [apply spelled_line; reflexivity|]; apply flushing; cbn [In]; tauto|].
  constructor; [left; exact flush_ok|constructor].
Qed.
Lemma plines_parsed : parse_commands (ended plines) = (pcmds, [true; true; true; true; true; false; true; true; true]).
Proof. vm_compute. reflexivity. Qed.
Lemma asks0_fine k M : scannable (xe 0) k ex_codec M (xa 22 "a", xa 23 "b", T_BYTE, 1, GETOP_NEXT).
Proof. cbn [scannable]. split; [discriminate|]. intros ts _. split; [apply reply_some; discriminate|]. split; [discriminate|]. intros [E|E]; discriminate E. Qed.
Ltac sent0 := split; [cbn [pieces pieces_fine]; repeat (split; [apply xe_one; lia|split; [first [discriminate | intros _; constructor; [apply asks0_fine|constructor] | intros _; constructor]|]]); exact Logic.I|].
Ltac said0 := split; [cbn [scan_call data_call good_scan]; xargs; try reflexivity; repeat (split; [reflexivity|]); try reflexivity; discriminate|].
Lemma pfine k : moves_fine (fun _ => xe 0) k ex_codec no_triples (fun _ => idle) (moves_of sat 0 pcmds).
Proof.
  change (moves_of sat 0 pcmds) with
    [(0%Z, Say (CPut (xa 10 "a") (xa 11 "b") (xa 12 "c") 63)); (0%Z, Say (CGet (xa 13 "a") (xa 14 "b") T_BYTE)); (0%Z, Send (Some Gets)); (0%Z, Send (Some Puts));
     (0%Z, Say (CGetOp (xa 22 "a") (xa 23 "b") T_BYTE 1 GETOP_NEXT)); (0%Z, Say (CDelete (xa 25 "a") (xa 26 "b"))); (0%Z, Send (Some Dels)); (0%Z, Send None)].
  cbn [moves_fine]. said0. said0. sent0. sent0. said0. said0. sent0. sent0. exact Logic.I.
Qed.
Lemma kept_textp s a : a <> 0 -> pmem a = bstr s -> forallb (fun c => negb (Ascii.eqb c "000"%char)) (bstr s) = true -> blen (bstr s) < 2 ^ 31 -> kept_at pmem a (xbl s).
Proof.
  intros A M N L. split; [exact A|]. split; [exact M|]. right. right. right. right. left. split; [reflexivity|]. split; [|exact L].
  intro I. rewrite forallb_forall in N. specialize (N _ I). discriminate N.
Qed.
Lemma pkept : kept_cmds pmem sat 0 pcmds.
Proof.
  cbn [pcmds kept_cmds].
  repeat (split; [first [exact Logic.I | split; [apply kept_textp; try reflexivity; discriminate|]; first [apply kept_textp; try reflexivity; discriminate | split; (apply kept_textp; try reflexivity; discriminate)]]|]).
  exact Logic.I.
Qed.
Definition pprinted (k : backend) : outcome bytes :=
  match run_commands (xe 0) sat 0 (opened_session (xe 0)) (xcl k) (fst (parse_commands (ended plines))) with Ok (_, _, rs) => print_results pmem (flat_map fst rs) | _ => UB end.
Lemma pout k : match pprinted k with Ok t => (firstn 1 (getlines newline [] t), skipn 7 (getlines newline [] t)) | _ => ([], []) end =
  (map bstr ["GET returned ERROR from range server 1"]%string,
   map bstr ["DEL          {a, b} returned SUCCESS from range server 1"; "GET returned {c, a} -> b from range server 1"]%string).
Proof. destruct k; vm_compute; reflexivity. Qed.
