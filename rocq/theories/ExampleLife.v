(* Witnesses about the life of a session *)
From Verif Require Import ModelBytes ProofBytes ModelElen ModelRoute SpecRoute ProofRoute ProofRoute2 ModelLife SpecLife ProofLife ProofLife2 ProofLife3 ProofLife4.
Local Open Scope Z_scope.

Definition k1 : conf := mkConf 1 1 1 0 TrThallium true.          (* two ranks, one datastore each *)
Definition k1a : conf := mkConf 1 1 1 10 TrThallium true.        (* with background PUTs *)
Definition k2 : conf := mkConf 1 1 2 0 TrThallium true.          (* two datastores each *)
Definition up0 : outside := mkOutside 0 2 (fun _ => true) true.
Definition up1 : outside := mkOutside 1 2 (fun _ => true) true.
Definition bad1 : outside := mkOutside 1 2 (fun _ => false) true.   (* the datastores cannot be opened *)
Definition off1 : outside := mkOutside 1 2 (fun _ => true) false.   (* the transport cannot be set up *)
Definition alone : outside := mkOutside 0 1 (fun _ => true) true.

Lemma good_k r per x y : per = 1 \/ per = 2 -> 0 <= r < 2 -> fits (mkOutside r 2 x y) (mkConf 1 1 per 0 TrThallium true) /\ fits (mkOutside r 2 x y) (mkConf 1 1 per 10 TrThallium true).
Proof.
  intros [ -> | -> ] Hr; (split; (split; [|cbn; lia])); unfold good, int_max; cbn [world l_size l_cr l_sr l_per o_size k_cr k_sr k_per]; (repeat apply conj; vm_compute; congruence).
Qed.
Lemma fits_up0 : fits up0 k1. Proof. apply (good_k 0 1); lia. Qed.
Lemma fits_up1 : fits up1 k1. Proof. apply (good_k 1 1); lia. Qed.
Lemma fits_bad1 : fits bad1 k1. Proof. apply (good_k 1 1); lia. Qed.
Lemma fits_bad1a : fits bad1 k1a. Proof. apply (good_k 1 1); lia. Qed.
Lemma fits_off1 : fits off1 k1. Proof. apply (good_k 1 1); lia. Qed.
Lemma healthy_up0 : healthy up0 k1. Proof. split; [exact fits_up0|]. split; [intros id _; reflexivity|right; reflexivity]. Qed.
Lemma healthy_up1 : healthy up1 k1. Proof. split; [exact fits_up1|]. split; [intros id _; reflexivity|right; reflexivity]. Qed.
Lemma broken_bad1 : broken bad1 k1 /\ broken bad1 k1a.
Proof. split; (split; [reflexivity|]); exists 1; (split; [left; reflexivity|reflexivity]). Qed.
Lemma not_connected : opens off1 k1 /\ ~ connects off1 k1.
Proof. split; [intros id _; reflexivity|]. intros [X|X]; discriminate X. Qed.

(* requests for both ranks, sent and not sent *)
Definition some_work : list call := [CEnqueue 0 0 true; CEnqueue 0 1 true; CEnqueue 1 1 true; CFlush; CEnqueue 3 1 true; CEnqueue 3 1 false; CAccessor; CSync; CEnqueue 4 0 true].
Lemma some_work_ok : Forall (work up0 k1) some_work.
Proof.
  assert (D : datastores (world up0 k1) = 2) by reflexivity.
  unfold some_work. repeat (apply Forall_cons; [cbn [work]; rewrite ?D; first [exact Logic.I|split; lia]|]). apply Forall_nil.
Qed.

(* two packets for two datastores of the other rank *)
Definition two_there : list call := [CInit true k2; COpen; CEnqueue 0 2 true; CEnqueue 0 3 true; CFlush; CClose].
Definition summary (x : outcome (list Z * handle * list ev)) : option (list Z * bool * option (list obj)) :=
  match x with Ok (rs, h, t) => Some (rs, match h with Hx None => true | _ => false end, replay t []) | _ => None end.
Lemma leak : summary (do_calls up0 two_there (Hx None)) = Some ([3; 3; 3; 3; 3; 3], true, Some [OPacket 0]).
Proof. vm_compute. reflexivity. Qed.
Lemma leak_refuted : exists o l rs t, orderly (fits o) o l (Hx None) /\ do_calls o l (Hx None) = Ok (rs, Hx None, t) /\ replay t [] = Some [OPacket 0].
Proof.
  exists up0, two_there. pose proof leak as E. destruct (do_calls up0 two_there (Hx None)) as [[[rs h] t]| |]; try discriminate E.
  exists rs, t. cbn [summary] in E. injection E as _ E2 E3. destruct h as [|[p|]]; try discriminate E2. split; [|split; [reflexivity|exact E3]].
  split; [split; [reflexivity|apply (good_k 0 2); lia]|]. intros r0 t0 _. repeat (split; [exact Logic.I|]; intros ? ? _). exact Logic.I.
Qed.

(* Init on a communicator that is none *)
Lemma null_comm k p : init false k (Hx p) = Throw.
Proof. reflexivity. Qed.

(* ranks that wait for different things *)
Lemma diverge : exists t0 t1,
  do_calls up0 [CInit true k1; COpen] (Hx None) = Ok ([HXHIM_SUCCESS; HXHIM_SUCCESS], Hx (Some (st up0 k1 [Some 0] true (st_queues up0 k1) (st_ranks up0 k1) false)), t0)
  /\ do_calls bad1 [CInit true k1; COpen] (Hx None) = Ok ([HXHIM_SUCCESS; HXHIM_SUCCESS], Hx None, t1)
  /\ collectives t0 = [AllReduce; AllGather; Barrier] /\ collectives t1 = [Barrier; Barrier].
Proof. do 2 eexists. split; [vm_compute; reflexivity|]. split; [vm_compute; reflexivity|]. split; vm_compute; reflexivity. Qed.
Lemma diverge_refuted : exists o1 o2 k l r1 h1 t1 r2 h2 t2, fits o1 k /\ fits o2 k /\ o_size o1 = o_size o2
  /\ do_calls o1 l (Hx None) = Ok (r1, h1, t1) /\ do_calls o2 l (Hx None) = Ok (r2, h2, t2)
  /\ collectives t1 = [AllReduce; AllGather; Barrier] /\ collectives t2 = [Barrier; Barrier].
Proof.
  destruct diverge as (t0 & t1 & E0 & E1 & C0 & C1). exists up0, bad1, k1, [CInit true k1; COpen]. do 6 eexists.
  split; [exact fits_up0|]. split; [exact fits_bad1|]. split; [reflexivity|]. split; [exact E0|]. split; [exact E1|]. split; [exact C0|exact C1].
Qed.

(* sessions that are not open *)
Lemma rejected o h : started h = false ->
  (forall q id new, do_call o (CEnqueue q id new) h = Ok (HXHIM_ERROR, h, [])) /\ do_call o CSync h = Ok (HXHIM_ERROR, h, [])
  /\ do_call o CChange h = Ok (HXHIM_ERROR, h, []) /\ do_call o CAccessor h = Ok (HXHIM_ERROR, h, [])
  /\ ((h = HNull \/ h = Hx None) -> do_call o CClose h = Ok (HXHIM_ERROR, h, []) /\ forall f, do_call o (CSetOption f) h = Ok (HXHIM_ERROR, h, [])).
Proof.
  intros S. cbn [do_call]. unfold sync, change, accessor. rewrite S. cbn [negb]. split; [|split; [reflexivity|split; [reflexivity|split; [reflexivity|]]]].
  - intros q id new. destruct h as [|[p|]]; [reflexivity| |reflexivity]. cbn [started] in S. unfold enqueue. rewrite S. reflexivity.
  - intros [ -> | -> ]; (split; [reflexivity|intros f; reflexivity]).
Qed.
Lemma running_rejects o h : started h = true ->
  do_call o COpen h = Ok (HXHIM_ERROR, h, []) /\ do_call o COpenOne h = Ok (HXHIM_ERROR, h, []) /\ forall f, do_call o (CSetOption f) h = Ok (HXHIM_ERROR, h, []).
Proof.
  intros S. cbn [do_call]. unfold open, open_one. rewrite S. split; [reflexivity|]. split; [reflexivity|]. intros f. destruct h as [|[p|]]; try discriminate S.
  cbn [started] in S. unfold set_option. rewrite S. reflexivity.
Qed.
Lemma undefined o h : h = HNull \/ h = Hx None ->
  do_call o COpen h = UB /\ do_call o COpenOne h = UB /\ do_call o CFlush h = UB /\ do_call o CResultsDestroy h = UB.
Proof. intros [ -> | -> ]; repeat split; reflexivity. Qed.
