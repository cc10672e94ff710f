(* Histogram requests while others store: examples and witnesses for PropHistRace.v *)
From Verif Require Import ModelBytes ProofBytes ModelKey ModelWire ModelHist ModelMsg SpecMsg ModelStore ModelGetOp ModelDs
  SpecHist SpecStore ProofDs ExampleStore ExampleHist ModelHistRace SpecHistRace ProofHistRace.
Local Open Scope N_scope.

(* two histograms that have seen one value each, of the first 10 *)
Definition rh (n : bytes) : hist := mkHist n 10 (Some gen_ex) 10 [d1] 1 None 0 None 0.
Definition rd2 : ds := mkDs InMemory ex_codec true [] [(bstr "h", rh (bstr "h")); (bstr "k", rh (bstr "k"))].
Definition rname (s : string) : blob := mkBlob false (bstr s) T_BYTE.
(* PUT with the predicate n and the DOUBLE 5.0 *)
Definition rput (n : string) : body := QPut [mkPut (rname "s") 1 (rname n) 2 (mkBlob false (le_enc 8 d5) T_DOUBLE)].
Definition rsent (n : string) : hist := mkHist (bstr n) 10 None 10 [d1] 1 None 0 None 0.
Definition works (o : outcome (ds * option body)) : bool := match o with Ok (_, Some (RPut [x])) => (si_status x =? ST_OK)%Z | _ => false end.
Lemma works_ok o : works o = true -> exists d' x, o = Ok (d', Some (RPut [x])) /\ si_status x = ST_OK.
Proof.
  destruct o as [[d' [[| | | | |[|x [|y l]]| | | |]|]]| |]; cbn [works]; try discriminate. intros H. exists d', x. split; [reflexivity|]. apply Z.eqb_eq. exact H.
Qed.
(* the second histogram is written 8 bytes too far *)
Lemma race_overflow : exists d names q is h k, (exists d' x, operate d q = Ok (d', Some (RPut [x])) /\ si_status x = ST_OK) /\
  (forall junk, histogram_reply 0 1 d names [] junk = Ok (Some (mkMsg 0 1 (RHist [mkHI 1 (Some h); mkHI 1 (Some k)])))) /\
  moments d (answer d names) [[q]] = Ok is /\ pack_answer 0 1 (answer d names) is = UB /\
  (forall junk, histogram_reply 0 1 d names [[q]] junk = UB).
Proof.
  exists rd2, [rname "h"; rname "k"], (rput "h"),
    [mkHI 1 (Some (mkHist (bstr "h") 10 (Some gen_ex) 10 [d1; d5] 2 None 0 None 0)); mkHI 1 (Some (rh (bstr "k")))], (rsent "h"), (rsent "k").
  split; [apply works_ok; vm_compute; reflexivity|].
  split; [intros junk; vm_compute; reflexivity|]. split; [vm_compute; reflexivity|]. split; [vm_compute; reflexivity|].
  intros junk. vm_compute. reflexivity.
Qed.
(* the only histogram is not written at all, and the client reads what was in the buffer *)
Lemma race_garbage : exists d names q, (exists d' x, operate d q = Ok (d', Some (RPut [x])) /\ si_status x = ST_OK) /\
  (forall junk, histogram_reply 0 1 d names [] junk = Ok (Some (mkMsg 0 1 (RHist [mkHI 1 (Some (rsent "h"))])))) /\
  (exists junk, histogram_reply 0 1 d names [[q]] junk = Ok (Some (mkMsg 0 1 (RHist [mkHI 1 (Some (hist_new [] 0 None))])))) /\
  (exists junk, histogram_reply 0 1 d names [[q]] junk = UB).
Proof.
  exists rd2, [rname "h"], (rput "h"). split; [apply works_ok; vm_compute; reflexivity|].
  split; [intros junk; vm_compute; reflexivity|].
  split; [exists (repeat zero 64)|exists (repeat "255"%char 64)]; vm_compute; reflexivity.
Qed.
(* a result of the client's own rank shows later values *)
Lemma local_changes : exists d names q d' x, operate d q = Ok (d', Some (RPut [x])) /\ si_status x = ST_OK /\
  local_results d names d = [mkHI 1 (Some (rh (bstr "h")))] /\ local_results d names d' <> local_results d names d.
Proof.
  exists rd2, [rname "h"], (rput "h"). destruct (works_ok (operate rd2 (rput "h"))) as (d' & x & E & Ex); [vm_compute; reflexivity|]. exists d', x.
  split; [exact E|]. split; [exact Ex|]. split; [vm_compute; reflexivity|].
  assert (H : match operate rd2 (rput "h") with Ok (d', _) => map (fun i => option_map h_count (hi_hist i)) (local_results rd2 [rname "h"] d') | _ => [] end = [Some 2]) by (vm_compute; reflexivity).
  rewrite E in H. intros C. rewrite C in H. revert H. vm_compute. discriminate.
Qed.

(* ---- the positive case: a settled histogram and one that nobody touches, while two PUTs are carried out ---- *)
Definition rset : hist := mkHist (bstr "h") 2 (Some gen_ex) 2 [d1; d5] 2 (Some [d1; d3]) d5 (Some [1; 1]) 2.
Definition rd3 : ds := mkDs InMemory ex_codec true [] [(bstr "h", rset); (bstr "k", rh (bstr "k"))].
Definition rbetween : list (list body) := [[rput "h"]; [rput "h"; rput "z"]].
Lemma ex_between : exists d' rs, ds_run rd3 (map CallReq (concat (firstn 2 rbetween))) = Ok (d', rs).
Proof.
  assert (H : match ds_run rd3 (map CallReq (concat (firstn 2 rbetween))) with Ok _ => true | _ => false end = true) by (vm_compute; reflexivity).
  destruct (ds_run rd3 (map CallReq (concat (firstn 2 rbetween)))) as [[d' rs]| |]; try discriminate. eauto.
Qed.
Lemma ex_fine : forall b h, In b [rname "h"; rname "k"] -> has_hist rd3 (b_data b) h -> settled h \/ Forall (leaves (b_data b)) (concat rbetween).
Proof.
  intros b h [<-|[<-|[]]] H; unfold has_hist in H; cbn in H; injection H as <-.
  - left. split; [cbn; lia|]. exists [d1; d3], [1; 1]. cbn. repeat split; discriminate.
  - right. cbn [rbetween concat app]. repeat (constructor; [constructor; [intros H; vm_compute in H; discriminate|constructor]|]). constructor.
Qed.
Lemma ex_reply : histogram_reply 0 1 rd3 [rname "h"; rname "k"] rbetween [] =
  Ok (Some (mkMsg 0 1 (RHist [mkHI 1 (Some (mkHist (bstr "h") 2 None 0 [] 3 (Some [d1; d3]) d5 (Some [1; 2]) 2)); mkHI 1 (Some (rsent "k"))]))).
Proof. vm_compute. reflexivity. Qed.
