(* GETOP: witnesses and examples *)
From Verif Require Import ModelBytes ProofBytes ModelKey ProofKey ModelElen SpecElen ProofElen ModelWire ModelHist ModelMsg SpecMsg ModelStore ModelGetOp ModelDs
  SpecStore ProofStore ProofDs ProofDs2 ProofDs3 SpecGetOp ProofGetOp ProofGetOp2 ProofGetOp3 ExampleStore.
Local Open Scope N_scope.

(* ---- a datastore with four triples ---- *)
Definition g_puts : list body :=
  [QPut [mkPut (xb "s") 1 (xb "p") 2 (xb "1"); mkPut (xb "t") 3 (xb "p") 4 (xint (-7))];
   QPut [mkPut (xb "a") 5 (xb "x") 6 (xb "3"); mkPut (xb "s") 7 (xb "q") 8 (xb "")]].
Definition bf (s : string) : field := mkField (bstr s) T_BYTE.
Definition g_ts : list triple :=
  [mkTriple (bf "a") (bf "x") (bf "3"); mkTriple (bf "s") (bf "p") (bf "1"); mkTriple (bf "s") (bf "q") (bf "");
   mkTriple (bf "t") (bf "p") (mkField (store int32_t (-7)) T_INT32)].

Lemma xb_storable s : blen (bstr s) < 2 ^ 64 -> storable ex_codec (xb s).
Proof. intros H. split; [discriminate|]. apply default_bytes; auto. Qed.
Lemma xint_storable : storable ex_codec (xint (-7)).
Proof. exact knows_int7. Qed.
Lemma g_fits : Forall (req_fits ex_codec all_can) g_puts.
Proof.
  repeat first [apply Forall_nil | apply Forall_cons | exact xint_storable | (apply xb_storable; reflexivity) | split].
Qed.
Lemma bf_lossless s : blen (bstr s) < 2 ^ 64 -> lossless ex_codec (bf s).
Proof. intros H. apply default_bytes; auto. Qed.
Lemma g_whole : Forall (whole ex_codec) g_ts.
Proof.
  repeat first [apply Forall_nil | apply Forall_cons | (apply bf_lossless; reflexivity) | exact (knows_lossless ex_codec all_can (xint (-7)) xint_storable eq_refl) | split].
Qed.
Lemma row_inj c t u : whole c t -> whole c u -> row c t = row c u -> t = u.
Proof.
  intros (A1 & A2 & A3) (B1 & B2 & B3) E. unfold row, tkey in E. injection E as E1 E2.
  destruct (key_inj c _ _ _ _ A1 A2 B1 B2 E1) as [Es Ep].
  pose proof (enc_lossless c _ A3) as (_ & Da & _ & Ta). pose proof (enc_lossless c _ B3) as (_ & Db & _ & Tb).
  pose proof (remove_type_value c (t_obj t) Ta) as R. rewrite E2, (remove_type_value c (t_obj u) Tb) in R. injection R as R1 R2.
  rewrite R1, R2 in Db. rewrite Da in Db. destruct t as [s p [od ot]], u as [s' p' [od' ot']]. cbn in *. subst. injection Db as ->. reflexivity.
Qed.
Lemma rows_inj c ts us : Forall (whole c) ts -> Forall (whole c) us -> map (row c) ts = map (row c) us -> ts = us.
Proof.
  intros H. revert us. induction H as [|t ts Ht Hts IH]; intros us Hu E; destruct us as [|u us]; try discriminate; [reflexivity|].
  cbn in E. inversion Hu; subst. injection E as E1 E2 E3. f_equal; [|auto]. apply (row_inj c); [assumption..|]. unfold row. congruence.
Qed.
Definition g_m : tmap := fst (spec_run all_can no_triples g_puts).
Lemma g_reached k : exists d, reached k ex_codec d g_m /\ contents ex_codec g_m g_ts /\ d = mkDs k ex_codec true (map (row ex_codec) g_ts) [].
Proof.
  destruct (run_rows k ex_codec all_can g_puts [] no_triples g_fits (agrees_empty _)) as (rws & rs & E & Ha).
  assert (Erw : rws = map (row ex_codec) g_ts).
  { assert (P : exists rs', parts (ds_run (opened k ex_codec) (map CallReq g_puts)) = Ok (true, map (row ex_codec) g_ts, [], rs')).
    { destruct k; eexists; vm_compute; reflexivity. }
    destruct P as (rs' & P). apply (run_parts k ex_codec) in P; [|reflexivity..].
    change (mkDs k ex_codec true [] []) with (opened k ex_codec) in E. rewrite P in E. injection E as <- _. reflexivity. }
  exists (mkDs k ex_codec true rws []). split; [|split].
  - exists all_can, g_puts, (opened k ex_codec), rs. split; [exact g_fits|]. split; [apply open_new|]. split; [exact E|reflexivity].
  - destruct (rows_contents _ _ _ Ha) as (ts & Hc & Et). pose proof (contents_whole _ _ _ _ Ha Hc) as Hw.
    assert (ts = g_ts); [|subst; exact Hc]. apply (rows_inj ex_codec); [exact Hw|exact g_whole|]. congruence.
  - rewrite Erw. reflexivity.
Qed.
Definition ask_sp (op : N) (s p : string) (n : N) : getop_item := mkGetOp op (xb s) (xb p) T_BYTE n.
Lemma g_fits_ask op s p n : blen (bstr s) < 2 ^ 64 -> blen (bstr p) < 2 ^ 64 -> fits ex_codec all_can (ask_sp op s p n).
Proof. intros H1 H2. split; apply xb_storable; assumption. Qed.
Lemma g_alone : alone ex_codec g_ts (bf "s") (bf "p").
Proof.
  intros t Ht. cbn [g_ts In] in Ht. destruct Ht as [<-|[<-|[<-|[<-|[]]]]]; intros H; vm_compute in H; try discriminate; split; reflexivity.
Qed.
Lemma g_has : g_m (bf "s") (bf "p") = Some (bf "1").
Proof. reflexivity. Qed.

(* ---- the claims that fail; k is either backend unless given ---- *)
Definition run_answers (k : backend) (h : list body) (rs : list (option body)) : Prop :=
  exists d, ds_run (opened k ex_codec) (map CallReq h) = Ok (d, rs).
Definition puts (l : list (string * string)) : body :=
  QPut (map (fun '(s, p) => mkPut (xb s) 1 (xb p) 2 (xb "o")) l).

(* ("a", "b") is stored, but NEXT from it starts with ("a", "bc") *)
Lemma next_wrong k : exists r, run_answers k
  [puts [("a", "b"); ("a", "bc")]%string; QGet [mkGet (xb "a") 1 (xb "b") 2 T_BYTE]; QGetOp [ask_sp GETOP_NEXT "a" "b" 1]]
  [r; Some (RGet [mkGot 1 (mkRef 1 1 7) (mkRef 2 1 7) (xb "o")]); Some (RGetOp [mkGotOp 1 [mkRec (xb "a") (xb "bc") (xb "o")]])].
Proof. eexists. unfold run_answers. destruct k; eexists; by_parts. Qed.
(* PREV from ("b", "x") returns ("c", "x"), which sorts after it; from ("d", "x"), an error although both triples sort before it *)
Lemma prev_wrong k : exists r, run_answers k
  [puts [("a", "x"); ("c", "x")]%string; QGetOp [ask_sp GETOP_PREV "b" "x" 1; ask_sp GETOP_PREV "d" "x" 1]]
  [r; Some (RGetOp [mkGotOp 1 [mkRec (xb "c") (xb "x") (xb "o")]; mkGotOp 2 [mkRec (xb "d") (xb "x") blob_none]])].
Proof. eexists. unfold run_answers. destruct k; eexists; by_parts. Qed.
(* EQ of a pair that is not stored returns another one *)
Lemma eq_wrong k : exists r, run_answers k
  [puts [("b", "x")]%string; QGet [mkGet (xb "a") 1 (xb "x") 2 T_BYTE]; QGetOp [ask_sp GETOP_EQ "a" "x" 1]]
  [r; Some (RGet [mkGot 2 (mkRef 1 1 7) (mkRef 2 1 7) blob_none]); Some (RGetOp [mkGotOp 1 [mkRec (xb "b") (xb "x") (xb "o")]])].
Proof. eexists. unfold run_answers. destruct k; eexists; by_parts. Qed.
(* LOWEST with a numeric type hint misses predicates that sort before the negative symbol *)
Lemma lowest_wrong k : exists r, run_answers k
  [puts [("s", "!")]%string; QGetOp [mkGetOp GETOP_LOWEST (xb "s") (mkBlob true [] T_INT32) T_BYTE 1; ask_sp GETOP_LOWEST "s" "" 1]]
  [r; Some (RGetOp [mkGotOp 2 [mkRec (xb "s") (mkBlob true [] T_INT32) blob_none]; mkGotOp 1 [mkRec (xb "s") (xb "!") (xb "o")]])].
Proof. eexists. unfold run_answers. destruct k; eexists; by_parts. Qed.
(* HIGHEST of subject s finds none of its two triples *)
Lemma highest_wrong k : exists r, run_answers k
  [puts [("a", "x"); ("s", "p"); ("s", "q"); ("t", "x")]%string; QGetOp [ask_sp GETOP_HIGHEST "s" "" 2; ask_sp GETOP_LOWEST "s" "" 2]]
  [r; Some (RGetOp [mkGotOp 1 []; mkGotOp 1 [mkRec (xb "s") (xb "p") (xb "o"); mkRec (xb "s") (xb "q") (xb "o")]])].
Proof. eexists. unfold run_answers. destruct k; eexists; by_parts. Qed.
(* undefined behaviour *)
Lemma last_empty : operate (opened InMemory ex_codec) (QGetOp [ask_sp GETOP_LAST "" "" 1]) = UB.
Proof. vm_compute. reflexivity. Qed.
Lemma zero_records k : ds_run (opened k ex_codec) (map CallReq [puts [("a", "x")]%string; QGetOp [ask_sp GETOP_EQ "a" "x" 0]]) = UB
  /\ operate (opened k ex_codec) (QGetOp [ask_sp GETOP_FIRST "" "" 0]) = UB.
Proof. destruct k; split; vm_compute; reflexivity. Qed.
Lemma highest_begin : ds_run (opened InMemory ex_codec) (map CallReq [puts [("s", "p")]%string; QGetOp [ask_sp GETOP_HIGHEST "s" "" 1]]) = UB.
Proof. vm_compute. reflexivity. Qed.

(* an empty object comes back from GET as a null Blob, which cannot be sent *)
Lemma empty_object_ub k : exists q r b,
  ds_run (opened k ex_codec) (map CallReq [QPut [mkPut (xb "s") 1 (xb "p") 2 (xb "")]; QGet [q]]) = Ok (mkDs k ex_codec true [(sp_to_key (bf "s") (bf "p"), le_enc 4 T_BYTE)] [], [r; Some (RGet [mkGot 1 (mkRef 1 1 7) (mkRef 2 1 7) (mkBlob true [] T_BYTE)])]) /\
  msg_pack (mkMsg 0 3 (RGet [mkGot 1 (mkRef 1 1 7) (mkRef 2 1 7) (mkBlob true [] T_BYTE)])) = Ok b /\ unpack_response b = UB.
Proof.
  exists (mkGet (xb "s") 1 (xb "p") 2 T_BYTE). do 2 eexists. split; [destruct k; by_parts|]. split; [vm_compute; reflexivity|]. vm_compute. reflexivity.
Qed.
