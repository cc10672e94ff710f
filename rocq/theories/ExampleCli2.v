(* a text with a GETOP, from the lines to what is printed *)
From Verif Require Import ModelBytes ModelKey ModelWire ModelHist ModelMsg ModelStore ModelGetOp ModelDs ModelElen ModelConf ModelFloat ModelRoute SpecRoute SpecStore ProofDs
  ExampleStore ModelClient SpecClient SpecCluster ExampleClient SpecGetOp SpecScan ProofScan ProofScan2 ProofScan3 ModelCli SpecConf SpecOptions SpecFp SpecCli ProofCli3 ProofCli4 ProofCli6 ProofCli8 ExampleCli.
Local Open Scope N_scope.

Definition olines : list bytes := map bstr ["PUT BYTE s BYTE p BYTE new"; "PUT BYTE a BYTE b BYTE c"; "FLUSH"; "GETOP BYTE a BYTE b BYTE 2 NEXT"; "what else"; "GET BYTE s BYTE p BYTE"; "FLUSH"]%string.
Definition obatches : list (list cmd) :=
  [[MPut (xbl "s") (xbl "p") (xbl "new"); MPut (xbl "a") (xbl "b") (xbl "c")]; [MGetOp (xbl "a") (xbl "b") T_BYTE 2 GETOP_NEXT; MGet (xbl "s") (xbl "p") T_BYTE]].
Definition omem : N -> bytes := fun a => nth (N.to_nat a - 10) (map bstr ["s"; "p"; "new"; "a"; "b"; "c"; ""; ""; ""; "a"; "b"; ""; "s"; "p"; ""]%string) [].
Lemma olines_lines : lines (ended olines) olines.
Proof.
  split; [|left; reflexivity]. apply Forall_forall. intros l I N.
  assert (forallb (fun l => forallb (fun c => negb (Ascii.eqb c nl)) l) olines = true) as H by reflexivity. rewrite forallb_forall in H. specialize (H l I).
  rewrite forallb_forall in H. specialize (H nl N). discriminate H.
Qed.
Lemma flush_ok : correct (bstr "FLUSH").
Proof. exists [bstr "FLUSH"], [MFlush]. split; [apply spelled_line; reflexivity|]. apply flushing. cbn [In]. tauto. Qed.
Lemma put_ok s p o : forallb wordb [bstr s; bstr p; bstr o] = true -> spelled (ww ["PUT"; "BYTE"; s; "BYTE"; p; "BYTE"; o]%string) (bstr "PUT BYTE " ++ bstr s ++ bstr " BYTE " ++ bstr p ++ bstr " BYTE " ++ bstr o) ->
  correct (bstr "PUT BYTE " ++ bstr s ++ bstr " BYTE " ++ bstr p ++ bstr " BYTE " ++ bstr o).
Proof.
  intros W S. cbn [forallb] in W. apply andb_prop in W. destruct W as [W1 W]. apply andb_prop in W. destruct W as [W2 W]. apply andb_prop in W. destruct W as [W3 _].
  eexists _, [MPut (xbl s) (xbl p) (xbl o)]. split; [exact S|].
  change (ww ["PUT"; "BYTE"; s; "BYTE"; p; "BYTE"; o]%string) with (bstr "PUT" :: ww ["BYTE"; s]%string ++ ww ["BYTE"; p]%string ++ ww ["BYTE"; o]%string).
  apply one, a_put; apply bytes_say; assumption.
Qed.
Lemma olines_ok : Forall (fun l => correct l \/ foreign l) olines.
Proof.
  constructor; [left; apply (put_ok "s" "p" "new"); [reflexivity|apply spelled_line; reflexivity]|].
  constructor; [left; apply (put_ok "a" "b" "c"); [reflexivity|apply spelled_line; reflexivity]|].
  constructor; [left; exact flush_ok|].
  constructor.
  { left. exists (ww ["GETOP"; "BYTE"; "a"; "BYTE"; "b"; "BYTE"; "2"; "NEXT"]%string), [MGetOp (xbl "a") (xbl "b") T_BYTE 2 GETOP_NEXT]. split; [apply spelled_line; reflexivity|].
    change (command (bstr "GETOP" :: ww ["BYTE"; "a"]%string ++ ww ["BYTE"; "b"]%string ++ ww ["BYTE"; "2"; "NEXT"]%string) [MGetOp (xbl "a") (xbl "b") T_BYTE 2 GETOP_NEXT]).
    apply one. apply a_getop; [apply bytes_say; reflexivity|apply bytes_say; reflexivity|unfold type_says; cbn [In]; tauto|exact (whole_small 2 eq_refl)|reflexivity|unfold op_says; cbn [In]; tauto]. }
  constructor.
  { right. exists (bstr "what"), [bstr "else"]. split; [apply spelled_line; reflexivity|]. cbn [map In]. intro H. repeat (destruct H as [H|H]; [discriminate H|]). exact H. }
  constructor.
  { left. exists (ww ["GET"; "BYTE"; "s"; "BYTE"; "p"; "BYTE"]%string), [MGet (xbl "s") (xbl "p") T_BYTE]. split; [apply spelled_line; reflexivity|].
    change (command (bstr "GET" :: ww ["BYTE"; "s"]%string ++ ww ["BYTE"; "p"]%string ++ [bstr "BYTE"]) [MGet (xbl "s") (xbl "p") T_BYTE]).
    apply one. apply a_get; [apply bytes_say; reflexivity|apply bytes_say; reflexivity|unfold type_says; cbn [In]; tauto]. }
  constructor; [left; exact flush_ok|constructor].
Qed.
Lemma olines_parsed : parse_commands (ended olines) = (script obatches, [true; true; true; true; false; true; true]).
Proof. vm_compute. reflexivity. Qed.
Lemma opairs : Forall (Forall on_pairs) obatches.
Proof. repeat (constructor; [repeat (constructor; [exact Logic.I|]); constructor|]). constructor. Qed.
Lemma ofine k : scans_fine (fun _ => xe 0) k ex_codec no_triples (map (fun cs => (0%Z, cs)) (batches sat 0 obatches)).
Proof.
  change (map (fun cs => (0%Z, cs)) (batches sat 0 obatches)) with
    [(0%Z, [CPut (xa 10 "s") (xa 11 "p") (xa 12 "new") 63; CPut (xa 13 "a") (xa 14 "b") (xa 15 "c") 63]);
     (0%Z, [CGetOp (xa 19 "a") (xa 20 "b") T_BYTE 2 GETOP_NEXT; CGet (xa 22 "s") (xa 23 "p") T_BYTE])].
  cbn [scans_fine]. split.
  { constructor; [cbn [scan_call data_call]; xargs|]. constructor; [cbn [scan_call data_call]; xargs|constructor]. }
  split; [apply xe_spread; lia|]. split; [constructor|]. split.
  { constructor; [cbn [scan_call good_scan]; xargs; repeat (split; [reflexivity|]); discriminate|]. constructor; [cbn [scan_call data_call]; xargs; reflexivity|constructor]. }
  split; [apply xe_spread; lia|]. split; [|exact Logic.I].
  match goal with |- Forall ?P ?l => change (Forall P [(xa 19 "a", xa 20 "b", T_BYTE, 2, GETOP_NEXT)]) end.
  constructor; [|constructor]. cbn [scannable]. split; [discriminate|]. intros ts _. split; [apply reply_some; discriminate|].
  split; [discriminate|]. intros [E|E]; discriminate E.
Qed.
Lemma kept_text' s a : a <> 0 -> omem a = bstr s -> forallb (fun c => negb (Ascii.eqb c "000"%char)) (bstr s) = true -> blen (bstr s) < 2 ^ 31 -> kept_at omem a (xbl s).
Proof.
  intros A M N L. split; [exact A|]. split; [exact M|]. right. right. right. right. left. split; [reflexivity|]. split; [|exact L].
  intro I. rewrite forallb_forall in N. specialize (N _ I). discriminate N.
Qed.
Lemma okept : kept_cmds omem sat 0 (script obatches).
Proof.
  cbn [script flat_map obatches app kept_cmds].
  repeat (split; [first [exact Logic.I | split; [apply kept_text'; try reflexivity; discriminate|]; first [apply kept_text'; try reflexivity; discriminate | split; (apply kept_text'; try reflexivity; discriminate)]]|]).
  exact Logic.I.
Qed.
Definition oprinted (k : backend) : outcome bytes :=
  match run_commands (xe 0) sat 0 (opened_session (xe 0)) (xcl k) (fst (parse_commands (ended olines))) with Ok (_, _, rs) => print_results omem (flat_map fst rs) | _ => UB end.
Lemma olast k : match oprinted k with Ok t => skipn 12 (getlines newline [] t) | _ => [] end =
  map bstr ["GET returned {s, p} -> new from range server 0"; "GET returned {a, b} -> c from range server 1"; "GET returned {c, a} -> b from range server 1"]%string.
Proof. destruct k; vm_compute; reflexivity. Qed.
