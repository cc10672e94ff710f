(* GETOPs in a cluster of two ranks *)
From Verif Require Import ModelBytes ProofBytes ModelKey ModelWire ModelHist ModelMsg SpecMsg ModelStore ModelGetOp ModelDs
  SpecStore ProofDs ModelElen ModelRoute SpecRoute ModelClient SpecClient SpecCluster ProofCluster ProofCluster2 ExampleStore ExampleClient
  SpecGetOp SpecScan ProofScan ProofScan2 ProofScan3 SpecStore.
Local Open Scope N_scope.

Definition asks_next : asked := (xa 5 "a", xa 6 "b", T_BYTE, 2, GETOP_NEXT).
Definition asks_first : asked := (xa 1 "s", xa 2 "p", T_BYTE, 2, GETOP_FIRST).
(* client 0 stores nine triples; client 1 asks both datastores, its own and the other *)
Definition scans1 : list call := [CGetOp (xa 1 "s") (xa 2 "p") T_BYTE 2 GETOP_FIRST; CGet (xa 1 "a") (xa 2 "b") T_BYTE; CBGetOp (Some [asks_next])].
Definition scans : list (Z * list call) := [(0%Z, xcalls0); (1%Z, scans1)].
Definition run (k : backend) (l : list (Z * list call)) : outcome (list (list result)) :=
  do (_, rs) <- play xe (fun i => opened_session (xe i)) (xcl k) l; Ok rs.

(* what client 0 has stored *)
Definition xm : tmap := fst (batch (xe 0) InMemory no_triples xcalls0).
Lemma in_share c e id M ts t : contents c (share e id M) ts -> share e id M (t_sub t) (t_pred t) = Some (t_obj t) -> ts <> [].
Proof. intros [_ H] E. apply H in E. destruct ts; [destruct E|discriminate]. Qed.
Lemma batch_backend k e M cs : fst (batch e k M cs) = fst (batch e InMemory M cs).
Proof.
  unfold batch. generalize (put_all M (flat_map (call_puts e) cs)). generalize (flat_map call_dels cs). intros l. induction l as [|[s p] l IH]; intros m; [reflexivity|].
  cbn [del_all]. specialize (IH (tset m (fa s) (fa p) None)). destruct (del_all e k _ l), (del_all e InMemory _ l). exact IH.
Qed.
Lemma xm_has : share (xe 1) (at_ (xe 1) (xa 1 "s") (xa 2 "p")) xm (fa (xa 1 "s")) (fa (xa 2 "p")) = Some (fa (xa 4 "new")).
Proof. vm_compute. reflexivity. Qed.
Lemma scans_ok k : scans_fine xe k ex_codec no_triples scans.
Proof.
  destruct xcalls_data as (D0 & _). cbn [scans scans_fine].
  split. { revert D0. apply Forall_impl. intros x. destruct x; cbn [scan_call data_call]; tauto. }
  split; [apply xe_spread; lia|]. split; [constructor|]. split.
  { constructor; [cbn [scan_call good_scan]; xargs; repeat (split; [reflexivity|]); discriminate|]. constructor; [cbn [scan_call data_call]; xargs; reflexivity|].
    constructor; [|constructor]. cbn [scan_call]. constructor; [|constructor]. cbn [good_scan asks_next]. xargs. repeat (split; [reflexivity|]). discriminate. }
  split; [apply xe_spread; lia|]. split; [|exact Logic.I].
  assert (Eg : flat_map call_getops scans1 = [asks_first; asks_next]) by reflexivity. rewrite Eg.
  assert (Es : seen_by_scans (xe 1) (fst (batch (xe 0) k no_triples xcalls0)) scans1 = xm).
  { unfold seen_by_scans. assert (Ep : flat_map (call_puts (xe 1)) scans1 = []) by reflexivity. rewrite Ep. cbn [put_all]. apply batch_backend. }
  rewrite Es.
  constructor; [|constructor; [|constructor]]; cbn [asks_first asks_next scannable].
  - split; [discriminate|]. intros ts Hc. split; [|split].
    + apply reply_some; discriminate.
    + discriminate.
    + intros _ _. eapply (in_share _ _ _ _ _ (mkTriple (fa (xa 1 "s")) (fa (xa 2 "p")) (fa (xa 4 "new")))); [exact Hc|]. exact xm_has.
  - split; [discriminate|]. intros ts Hc. split; [|split].
    + apply reply_some; discriminate.
    + discriminate.
    + intros [E|E]; discriminate E.
Qed.
Lemma scans_clients : forall i, In i (map fst scans) -> good_client (xe i) /\ same_cluster (xe 0) (xe i) /\ fresh (xe i) (opened_session (xe i)).
Proof. intros i Hi. assert (0 <= i < 2)%Z by (cbn [scans map fst In] in Hi; lia). split; [apply xe_client; assumption|]. split; [apply xe_same|]. split; reflexivity. Qed.

Definition bx (s : string) : blob := xb_of s.
Lemma scans_run k : run k scans = Ok [ match run k [(0%Z, xcalls0)] with Ok [xs] => xs | _ => [] end;
  [ XGet 1 true (mkRef 1 1 T_BYTE) (mkRef 2 1 T_BYTE) (bx "c");
    XGetOp 0 true (bx "a") (bx "c") (bx "b"); XGetOp 0 true (bx "b") (bx "a") (bx "c");
    XGetOp 1 true (bx "a") (bx "b") (bx "c"); XGetOp 1 true (bx "c") (bx "a") (bx "b") ] ].
Proof. destruct k; vm_compute; reflexivity. Qed.
(* a/b comes before a/c *)
Lemma ab_first : bltb (key ex_codec (fa (xa 1 "a")) (fa (xa 2 "b"))) (key ex_codec (fa (xa 1 "a")) (fa (xa 2 "c"))) = true.
Proof. vm_compute. reflexivity. Qed.

(* FIRST of an empty datastore on another rank *)
Lemma first_far k : run k [(1%Z, [CGetOp (xa 1 "s") (xa 2 "p") T_BYTE 1 GETOP_FIRST])] = UB /\ far (xe 1) (at_ (xe 1) (xa 1 "s") (xa 2 "p")) = true.
Proof. destruct k; split; vm_compute; reflexivity. Qed.
Lemma first_near k : run k [(0%Z, [CGetOp (xa 1 "s") (xa 2 "p") T_BYTE 1 GETOP_FIRST])] = Ok [[XGetOp 0 false (bx "s") (bx "p") blob_none]].
Proof. destruct k; vm_compute; reflexivity. Qed.
(* LOWEST of a subject and predicate that do not occur *)
Lemma lowest_none k : run k [(0%Z, xcalls0); (0%Z, [CGetOp (xa 1 "c") (xa 2 "d") T_BYTE 1 GETOP_LOWEST])] = UB.
Proof. destruct k; vm_compute; reflexivity. Qed.
