(* Texts for the command line interface *)
From Verif Require Import ModelBytes ProofBytes ModelKey ModelWire ModelHist ModelMsg SpecMsg ModelStore ModelGetOp ModelDs ModelElen ModelConf ModelFloat ModelRoute SpecRoute SpecStore
  ProofDs ExampleStore ModelClient SpecClient SpecCluster ProofClient2 ExampleClient ExampleClient2 ModelCli SpecConf SpecOptions SpecFp SpecCli ProofConf ProofElen ProofFpBase ProofFpError ProofCli ProofCli2 ProofCli3 ProofCli4 ProofCli5.
From Coq Require Import Reals Lra.
Local Open Scope N_scope.

(* ---- the words of a line are unique ---- *)
Fixpoint toks (fuel : nat) (line : bytes) : list bytes :=
  match fuel with O => [] | S f => match read_word line with Some (w, r) => w :: toks f r | None => [] end end.
Lemma read_shorter w ws line : spelled (w :: ws) line -> exists r, read_word line = Some (w, r) /\ spelled ws r /\ (List.length r < List.length line)%nat.
Proof.
  intros [gap [rest [-> [G [[N F] [R S]]]]]]. exists rest. split; [|split; [exact S|]].
  - unfold read_word. rewrite skip_space_white by exact G. rewrite word_skip by (split; assumption). destruct w as [|c w]; [congruence|]. cbn [app]. f_equal.
    exact (take_word_word (c :: w) rest F R).
  - rewrite !app_length. destruct w; [congruence|]. cbn [List.length]. lia.
Qed.
Lemma toks_spelled ws : forall line fuel, spelled ws line -> (List.length line <= fuel)%nat -> toks fuel line = ws.
Proof.
  induction ws as [|w ws IH]; intros line fuel S L.
  - destruct fuel; [reflexivity|]. cbn [toks]. rewrite (read_nothing line S). reflexivity.
  - destruct (read_shorter w ws line S) as [r [E [Sr Lr]]]. destruct fuel as [|fuel]; [lia|]. cbn [toks]. rewrite E. f_equal. apply IH; [exact Sr|lia].
Qed.
Lemma words_of ws line : spelled ws line -> toks (List.length line) line = ws.
Proof. intro S. apply toks_spelled; [exact S|lia]. Qed.
(* words with a space in between *)
Fixpoint joined (ws : list bytes) : bytes := match ws with [] => [] | [w] => w | w :: ws' => w ++ " "%char :: joined ws' end.
Definition wordb (w : bytes) : bool := match w with [] => false | _ => forallb (fun c => negb (is_space c)) w end.
Lemma wordb_ok w : wordb w = true -> word w.
Proof.
  intro H. destruct w as [|c w]; [discriminate|]. split; [discriminate|]. apply Forall_forall. intros x I. unfold wordb in H. rewrite forallb_forall in H.
  apply is_space_no. apply negb_true_iff, H, I.
Qed.
Lemma spelled_space ws line : spelled ws line -> spelled ws (" "%char :: line).
Proof.
  assert (white " "%char) as W by (unfold white; cbn; tauto).
  destruct ws as [|w ws]; cbn [spelled]; intro H; [constructor; assumption|].
  destruct H as [gap [rest [-> [G R]]]]. exists (" "%char :: gap), rest. split; [reflexivity|]. split; [constructor; assumption|exact R].
Qed.
Lemma spelled_joined ws : forallb wordb ws = true -> spelled ws (joined ws).
Proof.
  induction ws as [|w ws IH]; intro H; [constructor|]. cbn [forallb] in H. apply andb_true_iff in H. destruct H as [H1 H2].
  destruct ws as [|w' ws]; cbn [spelled].
  - exists [], []. split; [cbn [joined app]; rewrite app_nil_r; reflexivity|]. split; [constructor|]. split; [apply wordb_ok, H1|]. split; [left; reflexivity|constructor].
  - exists [], (" "%char :: joined (w' :: ws)). split; [reflexivity|]. split; [constructor|]. split; [apply wordb_ok, H1|].
    split; [right; exists " "%char, (joined (w' :: ws)); split; [reflexivity|unfold white; cbn; tauto]|]. exact (spelled_space (w' :: ws) _ (IH H2)).
Qed.
Lemma spelled_line ws line : line = joined ws -> forallb wordb ws = true -> spelled ws line.
Proof. intros -> H. apply spelled_joined, H. Qed.
Definition ww (l : list string) : list bytes := map bstr l.

(* ---- a text with a bulk command, an unknown one and an empty line ---- *)
Definition tlines : list bytes := map bstr ["PUT BYTE here BYTE count INT32 -5"; "BGET 2 UINT32 7 BYTE b FLOAT INT64 +12 DOUBLE 2.5e-1 BYTE"; ""; "hello world"; "FLUSH"]%string.
Definition quarter : spec_float := round_decimal DBL false 25 (-2).
Definition tcmds : list cmd :=
  [MPut (mkBlob false (bstr "here") T_BYTE) (mkBlob false (bstr "count") T_BYTE) (mkBlob false (le_enc 4 4294967291) T_INT32);
   MGet (mkBlob false (le_enc 4 7) T_UINT32) (mkBlob false (bstr "b") T_BYTE) T_FLOAT;
   MGet (mkBlob false (le_enc 8 12) T_INT64) (mkBlob false (store_fp DBL quarter) T_DOUBLE) T_BYTE;
   MFlush].
Lemma bytes_say s : wordb (bstr s) = true -> blob_says (ww ["BYTE"; s]%string) (mkBlob false (bstr s) T_BYTE).
Proof. intro W. exists (bstr "BYTE"), (bstr s). split; [reflexivity|]. split; [reflexivity|]. apply text, wordb_ok, W. Qed.
Lemma number_1 d : d < 10 -> number [ascii_of_N (48 + d)] d.
Proof. intro H. exists [d]. split; [discriminate|]. split; [constructor; [exact H|constructor]|]. split; [reflexivity|]. cbn [fold_left]. lia. Qed.
Lemma quarter_near : nearest DBL (number_of false 25 (-2)) quarter /\ (Rabs (number_of false 25 (-2)) <= val (largest DBL))%R.
Proof.
  assert (number_of false 25 (-2) = 25 / 100)%R as E by (unfold number_of, ten; cbn [powerRZ]; change (Pos.to_nat 2) with 2%nat; cbn [pow]; change (IZR (Z.of_N 25)) with 25%R; field).
  assert (Rabs (number_of false 25 (-2)) <= val (largest DBL))%R as B.
  { rewrite E, Rabs_pos_eq by lra. pose proof (largest_one DBL dbl_ok). lra. }
  split; [|exact B]. unfold quarter. exact (proj1 (decimal_nearest DBL false 25 (-2) dbl_ok B)).
Qed.
Lemma whole_m5 : whole (bstr "-5") (-5).
Proof. exists ["-"%char], true, (bstr "5"), 5. split; [reflexivity|]. split; [right; right; split; reflexivity|]. split; [exact (number_1 5 eq_refl)|reflexivity]. Qed.
Lemma whole_small d : d < 10 -> whole [ascii_of_N (48 + d)] (Z.of_N d).
Proof. intro H. exists [], false, [ascii_of_N (48 + d)], d. split; [reflexivity|]. split; [left; split; reflexivity|]. split; [exact (number_1 d H)|reflexivity]. Qed.
Lemma whole_12 : whole (bstr "+12") 12.
Proof.
  exists ["+"%char], false, (bstr "12"), 12. split; [reflexivity|]. split; [right; left; split; reflexivity|]. split; [|reflexivity].
  exists [1; 2]. split; [discriminate|]. split; [constructor; [reflexivity|constructor; [reflexivity|constructor]]|]. split; reflexivity.
Qed.
Lemma decimal_quarter : decimal (bstr "2.5e-1") false 25 (-2).
Proof.
  exists [], [2], (bstr ".5"), [5], (bstr "e-1"), (-1)%Z. split; [reflexivity|]. split; [left; split; reflexivity|].
  split; [constructor; [reflexivity|constructor]|]. split; [constructor; [reflexivity|constructor]|]. split; [discriminate|]. split; [right; reflexivity|].
  split; [|split; reflexivity]. right. exists "e"%char, (bstr "-1"). split; [reflexivity|]. split; [left; reflexivity|].
  exists ["-"%char], true, (bstr "1"), 1. split; [reflexivity|]. split; [right; right; split; reflexivity|]. split; [exact (number_1 1 eq_refl)|reflexivity].
Qed.
Lemma tlines_ok : Forall (fun l => correct l \/ foreign l) tlines.
Proof.
  constructor; [left|constructor; [left|constructor; [left|constructor; [right|constructor; [left|constructor]]]]].
  - exists (ww ["PUT"; "BYTE"; "here"; "BYTE"; "count"; "INT32"; "-5"]%string), [nth 0 tcmds MFlush]. split; [apply spelled_line; reflexivity|].
    change (ww ["PUT"; "BYTE"; "here"; "BYTE"; "count"; "INT32"; "-5"]%string) with (bstr "PUT" :: ww ["BYTE"; "here"]%string ++ ww ["BYTE"; "count"]%string ++ ww ["INT32"; "-5"]%string).
    apply one. apply a_put; [apply bytes_say; reflexivity|apply bytes_say; reflexivity|].
    exists (bstr "INT32"), (bstr "-5"). split; [reflexivity|]. split; [reflexivity|]. apply (int32 _ (-5)); [exact whole_m5|split; [discriminate|reflexivity]|split; reflexivity].
  - exists (ww ["BGET"; "2"; "UINT32"; "7"; "BYTE"; "b"; "FLOAT"; "INT64"; "+12"; "DOUBLE"; "2.5e-1"; "BYTE"]%string), [nth 1 tcmds MFlush; nth 2 tcmds MFlush].
    split; [apply spelled_line; reflexivity|].
    change (command (("B"%char :: bstr "GET") :: bstr "2" :: concat [ww ["UINT32"; "7"]%string ++ ww ["BYTE"; "b"]%string ++ [bstr "FLOAT"]; ww ["INT64"; "+12"]%string ++ ww ["DOUBLE"; "2.5e-1"]%string ++ [bstr "BYTE"]])
      [nth 1 tcmds MFlush; nth 2 tcmds MFlush]).
    apply bulk; [right; left; reflexivity| |exact (whole_small 2 eq_refl)|reflexivity].
    constructor; [|constructor; [|constructor]]; cbn [nth tcmds]; apply a_get.
    + exists (bstr "UINT32"), (bstr "7"). split; [reflexivity|]. split; [reflexivity|]. apply (uint32 _ 7); [exact (whole_small 7 eq_refl)|split; [discriminate|reflexivity]|split; reflexivity].
    + apply bytes_say; reflexivity.
    + unfold type_says. cbn [In]. tauto.
    + exists (bstr "INT64"), (bstr "+12"). split; [reflexivity|]. split; [reflexivity|]. apply (int64 _ 12); [exact whole_12|split; [discriminate|reflexivity]|split; reflexivity].
    + exists (bstr "DOUBLE"), (bstr "2.5e-1"). split; [reflexivity|]. split; [reflexivity|]. apply float64. exists false, 25, (-2)%Z, quarter.
      split; [exact decimal_quarter|]. destruct quarter_near as [N B]. split; [exact B|]. split; [exact N|reflexivity].
    + unfold type_says. cbn [In]. tauto.
  - exists [], []. split; [constructor|constructor].
  - exists (bstr "hello"), [bstr "world"]. split; [apply spelled_line; reflexivity|]. cbn [map In]. intro H. repeat (destruct H as [H|H]; [discriminate H|]). exact H.
  - exists [bstr "FLUSH"], [MFlush]. split; [apply spelled_line; reflexivity|]. apply flushing. cbn [In]. tauto.
Qed.
Lemma tlines_lines : lines (ended tlines) tlines.
Proof.
  split; [|left; reflexivity]. apply Forall_forall. intros l I N.
  assert (forallb (fun l => forallb (fun c => negb (Ascii.eqb c nl)) l) tlines = true) as H by reflexivity. rewrite forallb_forall in H. specialize (H l I).
  rewrite forallb_forall in H. specialize (H nl N). discriminate H.
Qed.
Lemma tlines_parsed : parse_commands (ended tlines) = (tcmds, [true; true; true; false; true]).
Proof. vm_compute. reflexivity. Qed.
(* ---- texts that are not in the language ---- *)
Lemma says_2 x b : blob_says x b -> List.length x = 2%nat.
Proof. intros [t [w [-> _]]]. reflexivity. Qed.
Lemma del_4 ws c : operation (bstr "DEL") ws c -> List.length ws = 4%nat.
Proof. intro O. inversion O as [| | |x y s p X Y]; subst. rewrite app_length, (says_2 x s X), (says_2 y p Y). reflexivity. Qed.
Lemma del_says ws c : operation (bstr "DEL") ws c -> exists x y s p, ws = x ++ y /\ blob_says x s /\ blob_says y p.
Proof. intro O. inversion O as [| | |x y s p X Y]; subst. exists x, y, s, p. auto. Qed.
Lemma command_names ws cs w : command (w :: ws) cs -> Ascii.eqb (hd "000"%char w) "F"%char = false ->
  (exists c, operation w ws c /\ cs = [c]) \/ exists name n wss, w = "B"%char :: name /\ ws = n :: concat wss /\ Forall2 (operation name) wss cs /\ whole n (Z.of_nat (List.length cs)).
Proof.
  intros C N. inversion C as [|name ws' c O|name n wss cs' K F W L|w' c H]; subst.
  - left. exists c. split; [exact O|reflexivity].
  - right. exists name, n, wss. auto.
  - exfalso. cbn [In] in H. repeat (destruct H as [H|H]; [injection H as <- <-; discriminate N|]). exact H.
Qed.
(* a bulk command whose second operation is incomplete *)
Definition half : bytes := bstr "BDEL 2 BYTE a BYTE b BYTE c".
Lemma half_wrong : ~ correct half.
Proof.
  intros [ws [cs [S C]]]. apply words_of in S. assert (ws = ww ["BDEL"; "2"; "BYTE"; "a"; "BYTE"; "b"; "BYTE"; "c"]%string) as -> by (rewrite <- S; vm_compute; reflexivity). clear S.
  apply command_names in C; [|reflexivity]. destruct C as [[c [O _]]|[name [n [wss [E [E2 [F _]]]]]]]; [inversion O|].
  injection E as <-. injection E2 as <- E2.
  assert (forall wss cs, Forall2 (operation (bstr "DEL")) wss cs -> List.length (concat wss) = (4 * List.length wss)%nat) as L.
  { induction 1 as [|x y l l' O _ IH]; [reflexivity|]. cbn [concat List.length]. rewrite app_length, IH, (del_4 _ _ O). lia. }
  apply L in F. rewrite <- E2 in F. cbn [ww map List.length] in F. lia.
Qed.
Lemma half_done : exists line cs, ~ correct line /\ cs <> [] /\ parse_commands line = (cs, [false]).
Proof.
  exists half, [MDel (mkBlob false (bstr "a") T_BYTE) (mkBlob false (bstr "b") T_BYTE)]. split; [exact half_wrong|]. split; [discriminate|]. vm_compute. reflexivity.
Qed.
(* more than the command needs; numbers that run into the next word *)
Definition extra : bytes := bstr "DEL BYTE a BYTE b now".
Definition glued : bytes := bstr "DEL INT32 5BYTE b".
Lemma extra_wrong : ~ correct extra.
Proof.
  intros [ws [cs [S C]]]. apply words_of in S. assert (ws = ww ["DEL"; "BYTE"; "a"; "BYTE"; "b"; "now"]%string) as -> by (rewrite <- S; vm_compute; reflexivity). clear S.
  apply command_names in C; [|reflexivity]. destruct C as [[c [O _]]|[name [n [wss [E _]]]]]; [|discriminate E]. apply del_4 in O. discriminate O.
Qed.
Lemma glued_wrong : ~ correct glued.
Proof.
  intros [ws [cs [S C]]]. apply words_of in S. assert (ws = ww ["DEL"; "INT32"; "5BYTE"; "b"]%string) as -> by (rewrite <- S; vm_compute; reflexivity). clear S.
  apply command_names in C; [|reflexivity]. destruct C as [[c [O _]]|[name [n [wss [E _]]]]]; [|discriminate E]. apply del_4 in O. discriminate O.
Qed.
Lemma loose : exists line line' cs cs', ~ correct line /\ ~ correct line' /\ parse_commands line = (cs, [true]) /\ parse_commands line' = (cs', [true]) /\ cs <> [] /\ cs' <> [].
Proof.
  exists extra, glued, [MDel (mkBlob false (bstr "a") T_BYTE) (mkBlob false (bstr "b") T_BYTE)], [MDel (mkBlob false (le_enc 4 5) T_INT32) (mkBlob false (bstr "b") T_BYTE)].
  split; [exact extra_wrong|]. split; [exact glued_wrong|]. split; [vm_compute; reflexivity|]. split; [vm_compute; reflexivity|]. split; discriminate.
Qed.
(* unsigned numbers with a minus *)
Definition negative : bytes := bstr "DEL UINT32 -1 BYTE b".
Lemma whole_unique (s : bytes) minus d n : s ++ d = bstr "-1" -> is_sign s minus -> number d n -> signed_by minus (Z.of_N n) = (-1)%Z.
Proof.
  intros E [[-> ->]|[[-> ->]|[-> ->]]] [ds [N [F [-> ->]]]]; cbn [app] in E.
  - exfalso. destruct ds as [|d0 ds]; [congruence|]. apply (f_equal (hd "000"%char)) in E. cbn [map hd] in E. inversion F as [|? ? Hd]; subst; cbv beta in Hd.
    apply (f_equal N_of_ascii) in E. rewrite (N_ascii_embedding (48 + d0)) in E by (clear - Hd; lia). change (48 + d0 = 45) in E. lia.
  - discriminate E.
  - apply (f_equal (@tl byte)) in E. cbn [tl] in E. destruct ds as [|d0 [|d1 ds]]; [congruence| |discriminate E].
    apply (f_equal (hd "000"%char)) in E. cbn [map hd] in E. inversion F as [|? ? Hd]; subst; cbv beta in Hd.
    apply (f_equal N_of_ascii) in E. rewrite (N_ascii_embedding (48 + d0)) in E by (clear - Hd; lia). change (48 + d0 = 49) in E. cbn [fold_left signed_by]. lia.
Qed.
Lemma whole_m1 z : whole (bstr "-1") z -> z = (-1)%Z.
Proof. intros [s [minus [d [n [E [S [N ->]]]]]]]. exact (whole_unique s minus d n (eq_sym E) S N). Qed.
Lemma negative_wrong : ~ correct negative.
Proof.
  intros [ws [cs [S C]]]. apply words_of in S. assert (ws = ww ["DEL"; "UINT32"; "-1"; "BYTE"; "b"]%string) as -> by (rewrite <- S; vm_compute; reflexivity). clear S.
  apply command_names in C; [|reflexivity]. destruct C as [[c [O _]]|[name [n [wss [E _]]]]]; [|discriminate E].
  apply del_says in O. destruct O as [x [y [s [p [E [[t [w [-> [_ D]]]] _]]]]]]. cbn [app ww map] in E. injection E as <- <- _.
  inversion D as [| |w z d W B H| | | |]; subst. apply whole_m1 in W. lia.
Qed.
Lemma negative_read : exists line s p, ~ correct line /\ parse_commands line = ([MDel s p], [true]) /\ b_type s = T_UINT32 /\ ModelBytes.le_dec (b_data s) = 4294967295.
Proof.
  exists negative, (mkBlob false (le_enc 4 4294967295) T_UINT32), (mkBlob false (bstr "b") T_BYTE). split; [exact negative_wrong|]. split; [vm_compute; reflexivity|]. split; reflexivity.
Qed.
(* BGETOP as the help text describes it: without a number of operations *)
Lemma bgetop_help : exists ws c line, operation (bstr "GETOP") ws c /\ spelled (bstr "BGETOP" :: ws) line /\ parse_commands line = ([], [false]).
Proof.
  exists (ww ["BYTE"; "a"]%string ++ ww ["BYTE"; "b"]%string ++ ww ["BYTE"; "3"; "NEXT"]%string), (MGetOp (mkBlob false (bstr "a") T_BYTE) (mkBlob false (bstr "b") T_BYTE) T_BYTE 3 GETOP_NEXT), (bstr "BGETOP BYTE a BYTE b BYTE 3 NEXT").
  split; [|split; [apply spelled_line; reflexivity|vm_compute; reflexivity]].
  apply a_getop; [apply bytes_say; reflexivity|apply bytes_say; reflexivity|unfold type_says; cbn [In]; tauto|exact (whole_small 3 eq_refl)|reflexivity|unfold op_says; cbn [In]; tauto].
Qed.

(* ---- a script: PUT, then GET and DEL, then GET ---- *)
Definition xbl (s : string) : blob := mkBlob false (bstr s) T_BYTE.
Definition slines : list bytes := map bstr ["PUT BYTE s BYTE p BYTE old"; "BPUT 2 BYTE s BYTE p BYTE new BYTE a BYTE b BYTE c"; "FLUSH"; "GET BYTE s BYTE p BYTE"; "DEL BYTE a BYTE b"; "FLUSH"; "GET BYTE a BYTE b BYTE"; "FLUSH"]%string.
Definition sbatches : list (list cmd) :=
  [[MPut (xbl "s") (xbl "p") (xbl "old"); MPut (xbl "s") (xbl "p") (xbl "new"); MPut (xbl "a") (xbl "b") (xbl "c")];
   [MGet (xbl "s") (xbl "p") T_BYTE; MDel (xbl "a") (xbl "b")]; [MGet (xbl "a") (xbl "b") T_BYTE]].
Definition sat : addresses := fun i => (10 + 3 * N.of_nat i, 11 + 3 * N.of_nat i, 12 + 3 * N.of_nat i).
Definition smem : N -> bytes := fun a =>
  nth (N.to_nat a - 10) (map bstr ["s"; "p"; "old"; "s"; "p"; "new"; "a"; "b"; "c"; ""; ""; ""; "s"; "p"; ""; "a"; "b"; ""; ""; ""; ""; "a"; "b"; ""]%string) [].
Lemma slines_parsed : parse_commands (ended slines) = (script sbatches, repeat true 8).
Proof. vm_compute. reflexivity. Qed.
Lemma sdata : Forall (Forall on_data) sbatches.
Proof. repeat (constructor; [repeat (constructor; [exact Logic.I|]); constructor|]). constructor. Qed.
Lemma scalls : Forall (fun cs => Forall (data_call ex_codec) cs /\ spread (xe 0) cs) (batches sat 0 sbatches).
Proof.
  change (batches sat 0 sbatches) with
    [[CPut (xa 10 "s") (xa 11 "p") (xa 12 "old") 63; CPut (xa 13 "s") (xa 14 "p") (xa 15 "new") 63; CPut (xa 16 "a") (xa 17 "b") (xa 18 "c") 63];
     [CGet (xa 22 "s") (xa 23 "p") T_BYTE; CDelete (xa 25 "a") (xa 26 "b")]; [CGet (xa 31 "a") (xa 32 "b") T_BYTE]].
  constructor; [|constructor; [|constructor; [|constructor]]]; (split; [|apply xe_spread; lia]).
  - constructor; [cbn [data_call]; xargs|]. constructor; [cbn [data_call]; xargs|]. constructor; [cbn [data_call]; xargs|constructor].
  - constructor; [cbn [data_call]; xargs; reflexivity|]. constructor; [cbn [data_call]; xargs|constructor].
  - constructor; [cbn [data_call]; xargs; reflexivity|constructor].
Qed.
Lemma kept_text s a : a <> 0 -> smem a = bstr s -> forallb (fun c => negb (Ascii.eqb c "000"%char)) (bstr s) = true -> blen (bstr s) < 2 ^ 31 -> kept_at smem a (xbl s).
Proof.
  intros A M N L. split; [exact A|]. split; [exact M|]. right. right. right. right. left. split; [reflexivity|]. split; [|exact L].
  intro I. rewrite forallb_forall in N. specialize (N _ I). discriminate N.
Qed.
Lemma skept : kept_cmds smem sat 0 (script sbatches).
Proof.
  cbn [script flat_map sbatches app kept_cmds].
  repeat (split; [first [exact Logic.I | split; [apply kept_text; try reflexivity; discriminate|]; first [apply kept_text; try reflexivity; discriminate | split; (apply kept_text; try reflexivity; discriminate)]]|]).
  exact Logic.I.
Qed.
(* what is printed, line by line *)
Definition sprinted : outcome bytes :=
  match run_commands (xe 0) sat 0 (opened_session (xe 0)) (xcl ModelStore.InMemory) (script sbatches) with Ok (_, _, rs) => print_results smem (flat_map fst rs) | _ => UB end.
Lemma slast : match sprinted with Ok t => skipn 18 (getlines newline [] t) | _ => [] end =
  map bstr ["GET returned {s, p} -> new from range server 0"; "DEL          {a, b} returned SUCCESS from range server 1"; "GET returned ERROR from range server 1"]%string.
Proof. vm_compute. reflexivity. Qed.

(* ---- a GETOP for no records, in a text that is in the language ---- *)
Definition glines : list bytes := map bstr ["GETOP BYTE s BYTE p BYTE 0 EQ"; "FLUSH"]%string.
Lemma glines_ok : Forall correct glines.
Proof.
  constructor; [|constructor; [|constructor]].
  - exists (ww ["GETOP"; "BYTE"; "s"; "BYTE"; "p"; "BYTE"; "0"; "EQ"]%string), [MGetOp (xbl "s") (xbl "p") T_BYTE 0 GETOP_EQ]. split; [apply spelled_line; reflexivity|].
    change (command (bstr "GETOP" :: ww ["BYTE"; "s"]%string ++ ww ["BYTE"; "p"]%string ++ ww ["BYTE"; "0"; "EQ"]%string) [MGetOp (xbl "s") (xbl "p") T_BYTE 0 GETOP_EQ]).
    apply one, a_getop; [apply bytes_say; reflexivity|apply bytes_say; reflexivity|unfold type_says; cbn [In]; tauto|exact (whole_small 0 eq_refl)|reflexivity|unfold op_says; cbn [In]; tauto].
  - exists [bstr "FLUSH"], [MFlush]. split; [apply spelled_line; reflexivity|]. apply flushing. cbn [In]. tauto.
Qed.
Lemma glines_lines : lines (ended glines) glines.
Proof.
  split; [|left; reflexivity]. apply Forall_forall. intros l I N.
  assert (forallb (fun l => forallb (fun c => negb (Ascii.eqb c nl)) l) glines = true) as H by reflexivity. rewrite forallb_forall in H. specialize (H l I).
  rewrite forallb_forall in H. specialize (H nl N). discriminate H.
Qed.
Definition gend : outcome unit :=
  match run_commands (xe 0) sat 0 (opened_session (xe 0)) (xcl ModelStore.InMemory) (fst (parse_commands (ended glines))) with Ok _ => Ok tt | Throw => Throw | UB => UB end.
Lemma gend_ub : gend = UB.
Proof. vm_compute. reflexivity. Qed.
Lemma getop_text : exists e cl t ls at_, good_client e /\ holds e cl (fun _ => opened ModelStore.InMemory ex_codec) /\ lines t ls /\ Forall correct ls /\
  run_commands e at_ 0 (opened_session e) cl (fst (parse_commands t)) = UB.
Proof.
  exists (xe 0), (xcl ModelStore.InMemory), (ended glines), glines, sat. split; [apply xe_client; lia|]. split; [apply xcl_holds|]. split; [exact glines_lines|]. split; [exact glines_ok|].
  pose proof gend_ub as H. unfold gend in H. destruct (run_commands _ _ _ _ _ _) as [x| |]; [discriminate H|discriminate H|reflexivity].
Qed.

(* ---- printing ---- *)
Lemma unsigned_printed : exists d, holds_int 4 d 4294967295 /\ print_by_type false d T_UINT32 = Ok (bstr "-1") /\ ~ shows T_UINT32 d (bstr "-1").
Proof.
  exists (le_enc 4 4294967295). split; [split; reflexivity|]. split; [vm_compute; reflexivity|].
  intros [[name D]|[[E _]|[F [p [x [minus [m [K _]]]]]]]].
  - inversion D as [| |w z d W B H| | | |]; subst. apply whole_m1 in W. lia.
  - discriminate E.
  - destruct K as [[_ [E _]]|[_ [E _]]]; discriminate E.
Qed.
Lemma unsigned8_printed : exists d, holds_int 8 d (2 ^ 64 - 1) /\ print_by_type false d T_UINT64 = Ok (bstr "-1") /\ ~ shows T_UINT64 d (bstr "-1").
Proof.
  exists (le_enc 8 18446744073709551615). split; [split; reflexivity|]. split; [vm_compute; reflexivity|].
  intros [[name D]|[[E _]|[F [p [x [minus [m [K _]]]]]]]].
  - inversion D as [| | |w z d W B H| | |]; subst. apply whole_m1 in W. lia.
  - discriminate E.
  - destruct K as [[_ [E _]]|[_ [E _]]]; discriminate E.
Qed.
Lemma bytes_printed : exists d w, print_by_type false d T_BYTE = Ok w /\ ~ shows T_BYTE d w.
Proof.
  exists ["a"%char; "000"%char; "b"%char], (bstr "a"). split; [vm_compute; reflexivity|].
  intros [[name D]|[[_ E]|[F [p [x [minus [m [K _]]]]]]]].
  - inversion D.
  - discriminate E.
  - destruct K as [[_ [E _]]|[_ [E _]]]; discriminate E.
Qed.
Lemma floats_printed : exists x y w, valid FLT x /\ valid FLT y /\ finite_fp x /\ finite_fp y /\ (0 < val x < val y)%R /\
  print_by_type false (store_fp FLT x) T_FLOAT = Ok w /\ print_by_type false (store_fp FLT y) T_FLOAT = Ok w.
Proof.
  exists (S754_finite false 8388608 (-80)), (S754_finite false 8388609 (-80)), (bstr "0.000000000").
  split; [vm_compute; reflexivity|]. split; [vm_compute; reflexivity|]. split; [exact Logic.I|]. split; [exact Logic.I|].
  split; [|split; vm_compute; reflexivity].
  assert (0 < powerRZ 2 (-80))%R as P by (apply powerRZ_lt; lra). cbn [val]. lra.
Qed.
