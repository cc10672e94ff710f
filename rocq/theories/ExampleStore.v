(* Concrete datastores: the default callbacks, witnesses and examples *)
From Verif Require Import ModelBytes ProofBytes ModelKey ProofKey ModelElen SpecElen ProofElen ModelWire ModelHist ModelMsg ModelStore ModelGetOp ModelDs
  SpecStore ProofStore ProofDs ProofDs2 ProofDs3 ProofDs4 ProofDs5.
Local Open Scope N_scope.

(* the default callbacks with the floating point callbacks replaced by copies *)
Definition copy_floats (_ : N) (d : bytes) : outcome (option bytes) := Ok (Some d).
Definition ex_codec : codec := default_codec "-"%char "A"%char copy_floats copy_floats.

Lemma default_copies neg pos fe fd : copies_bytes (default_codec neg pos fe fd).
Proof.
  intros null d H. unfold default_codec. cbn. unfold copy_enc. destruct null; [|reflexivity]. rewrite (H eq_refl). reflexivity.
Qed.
Lemma default_bytes neg pos fe fd d t : t = T_BYTE \/ t = T_POINTER -> blen d < 2 ^ 64 ->
  lossless (default_codec neg pos fe fd) (mkField d t).
Proof.
  intros Ht Hd. exists d. assert (t < 256) by (destruct Ht as [-> | ->]; reflexivity). split; [|split; [|auto]].
  - intros null H0. cbn [f_data] in H0. destruct Ht as [-> | ->]; cbn; unfold copy_enc; (destruct null; [rewrite (H0 eq_refl)|]; reflexivity).
  - destruct Ht as [-> | ->]; reflexivity.
Qed.
Lemma enc_int_len T neg pos d s : (1 <= it_bytes T <= 8)%nat -> (it_signed T = true -> d <> store T (it_min T)) ->
  blen d = N.of_nat (it_bytes T) -> tr_enc_int T neg pos d = Ok (Some s) -> blen s < 2 ^ 64.
Proof.
  intros HT Hm Hd H. unfold tr_enc_int in H. apply obind_ok in H as (v & El & H).
  apply obind_ok in H as (s' & Es & H). injection H as ->.
  assert (Hv : encodable T v).
  { split; [eapply load_range; eassumption|]. intros Hs ->. apply (Hm Hs). symmetry. eapply store_load; eassumption. }
  destruct (enc_int_shape T v neg pos HT Hv) as [[-> E]|[(L & Hb & s1 & Hu & E)|(L & Hb & _ & _ & s1 & Hu & E)]];
    rewrite E in Es; injection Es as <-; [reflexivity|..]; pose proof (unique_blen _ _ _ _ _ Hb Hu); lia.
Qed.
Lemma default_ints neg pos fe fd d t T : sym_ok neg pos -> int_of t = Some T -> blen d = N.of_nat (it_bytes T) ->
  (it_signed T = true -> d <> store T (it_min T)) -> lossless (default_codec neg pos fe fd) (mkField d t).
Proof.
  intros Hs Ht Hd Hm.
  assert (HT : (1 <= it_bytes T <= 8)%nat /\ t < 256 /\
     c_enc (default_codec neg pos fe fd) t false = tr_enc_int T neg pos /\ c_dec (default_codec neg pos fe fd) t = tr_dec_int T neg pos).
  { unfold int_of in Ht.
    destruct (N.eqb_spec t T_INT32) as [->|]; [injection Ht as <-; split; [cbn; lia|]; repeat split|].
    destruct (N.eqb_spec t T_INT64) as [->|]; [injection Ht as <-; split; [cbn; lia|]; repeat split|].
    destruct (N.eqb_spec t T_UINT32) as [->|]; [injection Ht as <-; split; [cbn; lia|]; repeat split|].
    destruct (N.eqb_spec t T_UINT64) as [->|]; [injection Ht as <-; split; [cbn; lia|]; repeat split|discriminate]. }
  destruct HT as (HT & Htt & E1 & E2).
  destruct (field_round_trip T d neg pos HT Hs Hd Hm) as (s & R1 & R2).
  exists s. cbn [f_data f_type]. split; [|split; [|split; [|exact Htt]]].
  - intros null Hn. destruct null; [|rewrite E1; exact R1].
    rewrite (Hn eq_refl) in Hd. unfold blen in Hd. cbn [List.length] in Hd. lia.
  - rewrite E2. exact R2.
  - eapply enc_int_len; eassumption.
Qed.

(* ---- an example history: a value of unknown type among others ---- *)
Definition xb (s : string) : blob := mkBlob false (bstr s) T_BYTE.
Definition xbad : blob := mkBlob false (bstr "?") T_INVALID.
Definition xint (v : Z) : blob := mkBlob false (store int32_t v) T_INT32.
Definition ex_can (b : blob) : bool := negb (b_type b =? T_INVALID).
Definition ex_history : list body :=
  [ QPut [mkPut (xb "ab") 1 (xb "c") 2 (xint (-7)); mkPut (xb "a") 3 (xb "bc") 4 (xb "second"); mkPut (xb "x") 5 (xbad) 6 (xb "lost")];
    QPut [mkPut (xb "ab") 7 (xb "c") 8 (mkBlob true [] T_BYTE)];
    QGet [mkGet (xb "ab") 9 (xb "c") 10 T_INT64; mkGet (xb "a") 11 (xb "bc") 12 T_BYTE; mkGet (xb "q") 13 (xb "q") 14 T_BYTE];
    QDel [mkDel (xb "a") 15 (xb "bc") 16; mkDel (xb "a") 17 (xb "bc") 18] ].

Lemma knows_byte s : blen (bstr s) < 2 ^ 64 -> knows ex_codec ex_can (xb s).
Proof. intros H. split; [discriminate|]. apply default_bytes; auto. Qed.
Lemma knows_bad : knows ex_codec ex_can xbad.
Proof. split; [discriminate|reflexivity]. Qed.
Lemma knows_null : knows ex_codec ex_can (mkBlob true [] T_BYTE).
Proof. split; [reflexivity|]. apply default_bytes; auto. reflexivity. Qed.
Lemma knows_int7 : knows ex_codec ex_can (xint (-7)).
Proof.
  split; [discriminate|]. apply (default_ints _ _ _ _ _ T_INT32 int32_t); try reflexivity.
  - repeat split. discriminate.
  - intros _. discriminate.
Qed.
Lemma ex_fits : Forall (req_fits ex_codec ex_can) ex_history.
Proof.
  repeat (constructor; [cbn [req_fits]|]); repeat (constructor; [split; [|split]|]) || idtac;
  repeat first [apply Forall_nil | apply Forall_cons | split | apply knows_bad | apply knows_null | apply knows_int7 | (apply knows_byte; reflexivity)].
Qed.
Lemma ex_outcome :
  nth_error (snd (spec_run ex_can no_triples ex_history)) 2 =
     Some (RGet [mkGot 1 (mkRef 9 2 7) (mkRef 10 1 7) (mkBlob true [] 7);
                 mkGot 1 (mkRef 11 1 7) (mkRef 12 2 7) (mkBlob false (bstr "second") 7);
                 mkGot 2 (mkRef 13 1 7) (mkRef 14 1 7) blob_none])
  /\ nth_error (snd (spec_run ex_can no_triples ex_history)) 3 =
     Some (RDel [mkSt 1 (mkRef 15 1 7) (mkRef 16 2 7); mkSt 2 (mkRef 17 1 7) (mkRef 18 2 7)]).
Proof. split; vm_compute; reflexivity. Qed.
Lemma ex_fits2 : Forall (req_fits ex_codec ex_can) (firstn 2 ex_history).
Proof. apply Forall_forall. intros q H. pose proof ex_fits as F. rewrite Forall_forall in F. apply F. cbn [firstn ex_history] in *. destruct H as [<-|[<-|[]]]; cbn; auto. Qed.
Lemma ex_reached : exists d, reached InMemory ex_codec d (fst (spec_run ex_can no_triples (firstn 2 ex_history))) /\
  fst (spec_run ex_can no_triples (firstn 2 ex_history)) (fld (xb "ab")) (fld (xb "c")) = Some (mkField [] T_BYTE).
Proof.
  destruct (run_rows InMemory ex_codec ex_can (firstn 2 ex_history) [] no_triples) as (rws & rs & E & _).
  - exact ex_fits2.
  - apply agrees_empty.
  - eexists. split; [|reflexivity]. exists ex_can, (firstn 2 ex_history), (opened InMemory ex_codec), rs.
    split; [exact ex_fits2|]. split; [apply open_new|]. split; [exact E|reflexivity].
Qed.

(* computing with a datastore without unfolding its callbacks *)
Definition parts {A} (x : outcome (ds * A)) : outcome (bool * rows * list (bytes * hist) * A) :=
  match x with Ok (d, r) => Ok (d_open d, d_rows d, d_hists d, r) | Throw => Throw | UB => UB end.
Lemma run_parts k c d l o rws hs r : d_kind d = k -> d_codec d = c ->
  parts (ds_run d l) = Ok (o, rws, hs, r) -> ds_run d l = Ok (mkDs k c o rws hs, r).
Proof.
  intros Hk Hc H. destruct (ds_run d l) as [[d' r']| |] eqn:E; try discriminate. cbn in H. injection H as <- <- <- <-.
  destruct (lifecycle k c l d d' r' Hk Hc E) as (<- & <- & _). destruct d'; reflexivity.
Qed.
Lemma op_parts k c d q o rws hs r : d_kind d = k -> d_codec d = c ->
  parts (operate d q) = Ok (o, rws, hs, r) -> operate d q = Ok (mkDs k c o rws hs, r).
Proof.
  intros Hk Hc H. destruct (operate d q) as [[d' r']| |] eqn:E; try discriminate. cbn in H. injection H as <- <- <- <-.
  destruct (operate_keeps d q d' r' E) as (_ & E1 & E2). rewrite Hk in E1. rewrite Hc in E2. destruct d'; cbn in *. subst. reflexivity.
Qed.
Ltac by_parts := first [apply run_parts | apply op_parts]; [reflexivity|reflexivity|vm_compute; reflexivity].

(* ---- LevelDB says success without storing ---- *)
Lemma success_not_stored : exists d l d' sts i st g,
  operate d (QPut l) = Ok (d', Some (RPut sts)) /\ d_open d = true /\ d_kind d = LevelDB /\
  nth_error l 0 = Some i /\ length l = 1%nat /\ nth_error sts 0 = Some st /\ si_status st = Z.of_N DATASTORE_SUCCESS /\
  operate d' (QGet [mkGet (pi_sub i) (pi_sub_addr i) (pi_pred i) (pi_pred_addr i) (b_type (pi_obj i))]) = Ok (d', Some (RGet [g])) /\
  go_status g = Z.of_N DATASTORE_ERROR.
Proof.
  exists (opened LevelDB ex_codec), [mkPut (xb "s") 1 (xb "p") 2 xbad], (opened LevelDB ex_codec).
  do 4 eexists. split; [by_parts|]. do 6 (split; [reflexivity|]). split; [by_parts|]. reflexivity.
Qed.
Lemma ex_put : exists d' sts,
  operate (opened LevelDB ex_codec) (QPut [mkPut (xb "s") 1 (xb "p") 2 (xint (-7)); mkPut (xb "s") 1 (xb "q") 2 xbad]) = Ok (d', Some (RPut sts))
  /\ map si_status sts = [1; 1]%Z /\ ex_can (xb "s") && ex_can (xb "p") && ex_can (xint (-7)) = true.
Proof. do 2 eexists. split; [by_parts|]. split; reflexivity. Qed.

(* ---- the backends differ ---- *)
Lemma backends_differ : exists c h d1 rs1 d2 rs2,
  ds_run (opened InMemory c) (map CallReq h) = Ok (d1, rs1) /\ ds_run (opened LevelDB c) (map CallReq h) = Ok (d2, rs2) /\ rs1 <> rs2 /\
  exists l, h = [QDel l].
Proof.
  exists ex_codec, [QDel [mkDel (xb "s") 1 (xb "p") 2]]. do 4 eexists.
  split; [by_parts|]. split; [by_parts|]. split; [discriminate|]. eexists. reflexivity.
Qed.
(* one stored triple, HIGHEST: undefined behaviour in memory, an error on LevelDB *)
Lemma backends_differ_highest : exists c h g d rs,
  ds_run (opened InMemory c) (map CallReq h) = UB /\
  ds_run (opened LevelDB c) (map CallReq h) = Ok (d, [rs; Some (RGetOp [g])]) /\ gp_status g = Z.of_N DATASTORE_ERROR /\
  exists p i, h = [QPut p; QGetOp [i]] /\ oi_op i = GETOP_HIGHEST /\ oi_num i = 1.
Proof.
  exists ex_codec, [QPut [mkPut (xb "s") 1 (xb "p") 2 (xb "o")]; QGetOp [mkGetOp GETOP_HIGHEST (xb "s") (xb "") T_BYTE 1]].
  do 3 eexists. split; [vm_compute; reflexivity|]. split; [by_parts|]. split; [reflexivity|].
  do 2 eexists. split; [reflexivity|]. split; reflexivity.
Qed.
Lemma ex_similar : exists d1 rs1, ds_run (opened InMemory ex_codec) (map CallReq (ex_history ++ [QGetOp [mkGetOp GETOP_LOWEST (xb "ab") (xb "") T_BYTE 3]])) = Ok (d1, rs1).
Proof. do 2 eexists. by_parts. Qed.

(* ---- lifecycle ---- *)
Lemma ex_lifecycle : exists d,
  ds_run (ds_new InMemory ex_codec)
    [CallReq (QPut [mkPut (xb "s") 1 (xb "p") 2 (xb "o")]); CallOpen None; CallReq (QPut [mkPut (xb "s") 1 (xb "p") 2 (xb "o")]);
     CallClose true; CallReq (QGet [mkGet (xb "s") 1 (xb "p") 2 7])]
  = Ok (d, [None; None; Some (RPut [mkSt 1 (mkRef 1 1 7) (mkRef 2 1 7)]); None; None]).
Proof. eexists. by_parts. Qed.

(* ---- histograms ---- *)
Definition ex_hist : hist := hist_new (bstr "t") 3 None.
Definition ex_ds : ds := mkDs InMemory ex_codec true [] [(bstr "t", ex_hist)].
Definition d1_bits : bytes := le_enc 8 0x3ff0000000000000.
Lemma ex_track : exists d h,
  ds_run ex_ds (map CallReq
    [QPut [mkPut (xb "s") 1 (xb "t") 2 (mkBlob false d1_bits T_DOUBLE); mkPut (xb "s") 1 (xb "u") 2 (mkBlob false d1_bits T_DOUBLE)];
     QPut [mkPut (xb "r") 1 (xb "t") 2 (mkBlob false (le_enc 4 0x40000000) T_FLOAT)]])
  = Ok (d, [Some (RPut [mkSt 1 (mkRef 1 1 7) (mkRef 2 1 7); mkSt 1 (mkRef 1 1 7) (mkRef 2 1 7)]); Some (RPut [mkSt 1 (mkRef 1 1 7) (mkRef 2 1 7)])])
  /\ hist_find (bstr "t") (d_hists d) = Some h /\ h_cache h = [0x3ff0000000000000; 0x4000000000000000].
Proof. do 2 eexists. split; [by_parts|]. split; reflexivity. Qed.

(* a user's triple ("HISTOGRAM", "t") is overwritten by the histogram t ... *)
Lemma hist_clash : exists d d1 o g g1,
  ds_run (ds_new InMemory ex_codec) [CallOpen None; CallAddHist (bstr "t") ex_hist;
     CallReq (QPut [mkPut (xb "HISTOGRAM") 1 (xb "t") 2 o])] = Ok (d, [None; None; Some (RPut [mkSt 1 (mkRef 1 9 7) (mkRef 2 1 7)])]) /\
  write_histograms d = Ok d1 /\
  operate d (QGet [mkGet (xb "HISTOGRAM") 1 (xb "t") 2 T_BYTE]) = Ok (d, Some (RGet [g])) /\ go_obj g = o /\
  operate d1 (QGet [mkGet (xb "HISTOGRAM") 1 (xb "t") 2 T_BYTE]) = Ok (d1, Some (RGet [g1])) /\ go_status g1 = Z.of_N DATASTORE_ERROR.
Proof.
  eexists (mkDs InMemory ex_codec true _ [(bstr "t", ex_hist)]), (mkDs InMemory ex_codec true _ [(bstr "t", ex_hist)]), (xb "mine"). do 2 eexists.
  split; [by_parts|]. split; [reflexivity|]. split; [by_parts|]. split; [reflexivity|]. split; [by_parts|]. reflexivity.
Qed.
(* ... and is read as a histogram *)
Lemma hist_confused : exists d o r,
  ds_run (ds_new InMemory ex_codec) [CallOpen None; CallReq (QPut [mkPut (xb "HISTOGRAM") 1 (xb "t") 2 o]); CallReadHists [bstr "t"];
     CallReq (QHist [xb "t"])] = Ok (d, [None; r; None; Some (RHist [mkHI 1 (Some (hist_new [] 0 None))])]) /\ b_type o = T_BYTE.
Proof. exists (mkDs InMemory ex_codec true [(sp_to_key (mkField (bstr "HISTOGRAM") 7) (mkField (bstr "t") 7), repeat zero 32 ++ le_enc 4 7)] [(bstr "t", hist_new [] 0 None)]),
  (mkBlob false (repeat zero 32) T_BYTE). eexists. split; [by_parts|]. reflexivity. Qed.
(* ... and a written histogram makes GETOP FIRST fail on the user's triples *)
Lemma hist_hides : exists d d1 g,
  ds_run (ds_new InMemory ex_codec) [CallOpen None; CallAddHist (bstr "t") ex_hist;
     CallReq (QPut [mkPut (xb "s") 1 (xb "p") 2 (xb "o")]); CallReq (QGetOp [mkGetOp GETOP_FIRST (xb "") (xb "") T_BYTE 2])]
     = Ok (d, [None; None; Some (RPut [mkSt 1 (mkRef 1 1 7) (mkRef 2 1 7)]); Some (RGetOp [mkGotOp 1 [mkRec (xb "s") (xb "p") (xb "o")]])]) /\
  write_histograms d = Ok d1 /\
  operate d1 (QGetOp [mkGetOp GETOP_FIRST (xb "") (xb "") T_BYTE 2]) = Ok (d1, Some (RGetOp [g])) /\ gp_status g = Z.of_N DATASTORE_ERROR.
Proof.
  eexists (mkDs InMemory ex_codec true _ [(bstr "t", ex_hist)]), (mkDs InMemory ex_codec true _ [(bstr "t", ex_hist)]). eexists.
  split; [by_parts|]. split; [reflexivity|]. split; [by_parts|]. reflexivity.
Qed.
Lemma ex_apart : copies_bytes ex_codec /\ exists d rs d1,
  ds_run (ds_new InMemory ex_codec) [CallOpen None; CallAddHist (bstr "t") ex_hist; CallReq (QPut [mkPut (xb "HISTOGRAM") 1 (xb "u") 2 (xb "o")])] = Ok (d, rs) /\
  d_open d = true /\ length (d_hists d) = 1%nat /\ write_histograms d = Ok d1 /\ length (d_rows d1) = 2%nat.
Proof.
  split; [apply default_copies|].
  eexists (mkDs InMemory ex_codec true _ [(bstr "t", ex_hist)]). eexists. eexists (mkDs InMemory ex_codec true _ [(bstr "t", ex_hist)]).
  split; [by_parts|]. split; [reflexivity|]. split; [reflexivity|]. split; reflexivity.
Qed.
Lemma ex_reopen : exists d rs d1 d2,
  ds_run (ds_new LevelDB ex_codec) [CallOpen None; CallAddHist (bstr "t") ex_hist; CallReq (QPut [mkPut (xb "s") 1 (xb "p") 2 (xb "o")])] = Ok (d, rs) /\
  d_open d = true /\ Forall (fun x => blen (fst x) < 2 ^ 64) (d_hists d) /\ length (d_hists d) = 1%nat /\
  ds_close d true = Ok d1 /\ length (d_rows d1) = 2%nat /\ ds_open d1 (Some [bstr "t"]) = Ok d2 /\ length (d_hists d2) = 1%nat.
Proof.
  eexists (mkDs LevelDB ex_codec true _ [(bstr "t", ex_hist)]). eexists. eexists (mkDs LevelDB ex_codec false _ []).
  eexists (mkDs LevelDB ex_codec true _ [(bstr "t", _)]).
  split; [by_parts|]. split; [reflexivity|]. split; [repeat constructor|]. split; [reflexivity|]. split; [reflexivity|].
  split; [reflexivity|]. split; reflexivity.
Qed.
Lemma default_lossless neg pos fe fd d t : blen d < 2 ^ 64 ->
  (t = T_BYTE \/ t = T_POINTER -> lossless (default_codec neg pos fe fd) (mkField d t)) /\
  (forall T, int_of t = Some T -> sym_ok neg pos -> blen d = N.of_nat (it_bytes T) ->
     (it_signed T = true -> d <> store T (it_min T)) -> lossless (default_codec neg pos fe fd) (mkField d t)).
Proof. intros H. split; [intros Ht; apply default_bytes; auto|intros T HT Hs Hd Hm; eapply default_ints; eassumption]. Qed.
Lemma ex_delete : exists d m, reached InMemory ex_codec d m /\ storable ex_codec (xb "ab") /\ storable ex_codec (xb "c") /\
  m (fld (xb "ab")) (fld (xb "c")) = Some (mkField [] T_BYTE) /\ m (fld (xb "a")) (fld (xb "c")) = None.
Proof.
  destruct ex_reached as (d & H & E). exists d. eexists. split; [exact H|].
  assert (K : forall s, blen (bstr s) < 2 ^ 64 -> storable ex_codec (xb s)) by (intros s L; split; [discriminate|]; apply default_bytes; auto).
  split; [apply K; reflexivity|]. split; [apply K; reflexivity|]. split; [exact E|reflexivity].
Qed.
