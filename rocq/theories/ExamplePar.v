(* Clients working at the same time: examples for PropPar.v *)
From Verif Require Import ModelBytes ProofBytes ModelKey ModelWire ModelHist ModelMsg SpecMsg ModelStore ModelGetOp ModelDs
  SpecStore ProofStore ProofDs ProofDs2 ModelElen ModelRoute SpecRoute ProofRoute ProofRoute2 ExampleStore ModelClient SpecClient SpecCluster
  ProofClient ProofClient2 ProofClient3 ProofClient4 ProofClient5 ProofClient6 ProofCluster ProofCluster2 ExampleClient SpecScan ModelPar SpecPar
  ProofPar ProofPar2 ProofPar3 ProofPar4 ProofPar5 ProofPar6.
Local Open Scope N_scope.

(* ---- client 1 reads while client 0 stores: it sees the second triple and not the first ---- *)
Definition pputs : list call := [CPut (xa 1 "s") (xa 2 "p") (xa 3 "o") 1; CPut (xa 5 "a") (xa 6 "b") (xa 7 "c") 1].
Definition pgets : list call := [CGet (xa 11 "s") (xa 12 "p") T_BYTE; CGet (xa 13 "a") (xa 14 "b") T_BYTE].
Definition plabels : list label :=
  [LCall 0 pputs; LCall 1 pgets; LFar 0 0; LFar 1 0; LNear 1; LNext 1; LReturn 1; LNear 0; LNext 0; LReturn 0;
   LCall 1 pgets; LNear 1; LFar 1 0; LNear 1; LNext 1; LReturn 1].
Definition seen_of (h : list shown) : list (Z * list (option bytes)) :=
  flat_map (fun x => match x with
    | Returned i xs => [(i, flat_map (fun x => match x with XGet _ true _ _ o => [Some (b_data o)] | XGet _ false _ _ _ => [None] | _ => [] end) xs)]
    | _ => [] end) h.
Lemma pputs_data : Forall (data_call ex_codec) pputs.
Proof. constructor; [cbn [data_call]; xargs|]. constructor; [cbn [data_call]; xargs|constructor]. Qed.
Lemma pgets_data : Forall (data_call ex_codec) pgets.
Proof. constructor; [cbn [data_call]; xargs; reflexivity|]. constructor; [cbn [data_call]; xargs; reflexivity|constructor]. Qed.
Lemma p_hypotheses :
  (forall i, In i (map who plabels) -> good_client (xe i) /\ same_cluster (xe 0) (xe i) /\ fresh (xe i) (opened_session (xe i))) /\
  holds (xe 0) (xcl InMemory) (fun _ => opened InMemory ex_codec) /\ Forall (label_ok xe InMemory ex_codec) plabels.
Proof.
  assert (D0 := pputs_data). assert (D1 := pgets_data). split; [|split; [apply xcl_holds|]].
  - intros i Hi. assert (0 <= i < 2)%Z by (cbn [plabels map who In] in Hi; lia). split; [apply xe_client; assumption|]. split; [apply xe_same|]. split; reflexivity.
  - unfold plabels. repeat (constructor; [first [exact I | refine (proj1 (and_assoc _ _ _) (conj (data_scans _ _ _ _ _) _)); [first [exact D0|exact D1]|apply xe_spread; lia]]|]). constructor.
Qed.
Definition p_seen (r : outcome (system * list shown)) : option (list (Z * list (option bytes))) :=
  match r with Ok (_, h) => Some (seen_of h) | _ => None end.
Lemma p_run : exists st h, run xe (starting (fun i => opened_session (xe i)) (xcl InMemory)) plabels = Ok (st, h) /\
  seen_of h = [(1%Z, [None; Some (bstr "c")]); (0%Z, []); (1%Z, [Some (bstr "o"); Some (bstr "c")])].
Proof.
  assert (X : p_seen (run xe (starting (fun i => opened_session (xe i)) (xcl InMemory)) plabels) =
    Some [(1%Z, [None; Some (bstr "c")]); (0%Z, []); (1%Z, [Some (bstr "o"); Some (bstr "c")])]) by (vm_compute; reflexivity).
  revert X. generalize (run xe (starting (fun i => opened_session (xe i)) (xcl InMemory)) plabels). intros [[st h]| |] X; try discriminate.
  exists st, h. split; [reflexivity|]. injection X as X. exact X.
Qed.

(* ---- client 0 stores and returns, then client 1 reads while client 0 stores something else ---- *)
Definition qput : list call := [CPut (xa 1 "s") (xa 2 "p") (xa 3 "o") 1].
Definition qother : list call := [CPut (xa 5 "a") (xa 6 "b") (xa 7 "c") 1].
Definition qlabels : list label :=
  [LCall 0 qput; LNear 0; LNext 0; LReturn 0; LCall 1 pgets; LCall 0 qother; LFar 1 0; LFar 0 0; LNear 1; LNext 0; LReturn 0; LNext 1; LReturn 1].
Lemma q_hypotheses :
  (forall i, In i (map who qlabels) -> good_client (xe i) /\ same_cluster (xe 0) (xe i) /\ fresh (xe i) (opened_session (xe i))) /\
  Forall (label_ok xe InMemory ex_codec) qlabels.
Proof.
  assert (D1 : Forall (data_call ex_codec) pgets) by exact pgets_data.
  assert (D2 : Forall (data_call ex_codec) qput) by (constructor; [cbn [data_call]; xargs|constructor]).
  assert (D3 : Forall (data_call ex_codec) qother) by (constructor; [cbn [data_call]; xargs|constructor]).
  split.
  - intros i Hi. assert (0 <= i < 2)%Z by (cbn [qlabels map who In] in Hi; lia). split; [apply xe_client; assumption|]. split; [apply xe_same|]. split; reflexivity.
  - unfold qlabels. repeat (constructor; [first [exact I | refine (proj1 (and_assoc _ _ _) (conj (data_scans _ _ _ _ _) _)); [first [exact D1|exact D2|exact D3]|apply xe_spread; lia]]|]). constructor.
Qed.
Lemma q_run : exists st h3 ys xs h4 h5,
  run xe (starting (fun i => opened_session (xe i)) (xcl InMemory)) qlabels =
    Ok (st, [] ++ Called 0 qput :: [] ++ Returned 0 ys :: h3 ++ Called 1 pgets :: h4 ++ Returned 1 xs :: h5) /\
  still 0 [] /\ still 1 h4 /\ untouched xe (fa (xa 1 "s")) (fa (xa 2 "p")) ([] ++ [] ++ h3 ++ Called 1 pgets :: h4).
Proof.
  assert (X : exists st h, run xe (starting (fun i => opened_session (xe i)) (xcl InMemory)) qlabels = Ok (st, h) /\
    exists ys zs xs, h = [Called 0 qput; Returned 0 ys; Called 1 pgets; Called 0 qother; Returned 0 zs; Returned 1 xs]).
  { assert (X : match run xe (starting (fun i => opened_session (xe i)) (xcl InMemory)) qlabels with
      | Ok (_, h) => Some (map (fun x => match x with Called i cs => (i, Some cs) | Returned i _ => (i, None) end) h) | _ => None end =
      Some [(0%Z, Some qput); (0%Z, None); (1%Z, Some pgets); (0%Z, Some qother); (0%Z, None); (1%Z, None)]) by (vm_compute; reflexivity).
    revert X. generalize (run xe (starting (fun i => opened_session (xe i)) (xcl InMemory)) qlabels). intros [[st h]| |] X; try discriminate.
    exists st, h. split; [reflexivity|].
    destruct h as [|[i1 c1|i1 c1] [|[i2 c2|i2 c2] [|[i3 c3|i3 c3] [|[i4 c4|i4 c4] [|[i5 c5|i5 c5] [|[i6 c6|i6 c6] [|x7 h]]]]]]]; try discriminate X.
    cbn [map] in X. assert (Y : forall A (x y : A), Some x = Some y -> x = y) by congruence. apply Y in X.
    apply (f_equal (fun l => (nth 0 l (0%Z, None), nth 1 l (0%Z, None), nth 2 l (0%Z, None), nth 3 l (0%Z, None), nth 4 l (0%Z, None), nth 5 l (0%Z, None)))) in X.
    cbn [nth] in X. assert (Z2 : forall A B (a c : A) (b d : B), (a, b) = (c, d) -> a = c /\ b = d) by (intros; split; congruence).
    repeat match goal with H : (_, _) = (_, _) |- _ => apply Z2 in H; destruct H end.
    repeat match goal with H : Some _ = Some _ |- _ => apply Y in H end. subst. exists c2, c5, c6. reflexivity. }
  destruct X as (st & h & R & ys & zs & xs & ->). exists st, [], ys, xs, [Called 0 qother; Returned 0 zs], []. split; [exact R|].
  split; [intros ? []|]. split.
  - intros zs' [Hc|[Hc|[]]]; discriminate.
  - assert (W : forall i cs n ds, Called i cs = Called n ds -> n = i /\ ds = cs) by (intros i cs n ds Hc; injection Hc as -> ->; split; reflexivity).
    intros i cs Hi a Ha. destruct Hi as [Hi|[Hi|[Hi|[]]]]; [apply W in Hi as [-> ->]|apply W in Hi as [-> ->]|discriminate].
    + assert (Q : opers (xe 1) pgets = [OGet (xa 11 "s") (xa 12 "p") T_BYTE; OGet (xa 13 "a") (xa 14 "b") T_BYTE]) by (vm_compute; reflexivity).
      rewrite Q in Ha. destruct Ha as [<-|[<-|[]]]; exact (fun f => f).
    + assert (Q : opers (xe 0) qother = [OPut (xa 5 "a") (xa 6 "b") (xa 7 "c")]) by (vm_compute; reflexivity).
      rewrite Q in Ha. destruct Ha as [<-|[]]. intros [Hc _]. vm_compute in Hc. discriminate.
Qed.

(* ---- client 1 asks for the triples from a/b and from s/p on while client 0 stores one at each: it sees the second and not the first ---- *)
Definition rscans : list call := [CGetOp (xa 11 "s") (xa 12 "p") T_BYTE 2 GETOP_NEXT; CGetOp (xa 13 "a") (xa 14 "b") T_BYTE 2 GETOP_NEXT].
Definition rlabels : list label :=
  [LCall 0 pputs; LCall 1 rscans; LFar 0 0; LFar 1 0; LNear 1; LNext 1; LReturn 1; LNear 0; LNext 0; LReturn 0;
   LCall 1 rscans; LFar 1 0; LNear 1; LNext 1; LReturn 1].
Definition scanned_of (h : list shown) : list (Z * list (option (bytes * bytes * bytes))) :=
  flat_map (fun x => match x with
    | Returned i xs => [(i, flat_map (fun x => match x with XGetOp _ true s p o => [Some (b_data s, b_data p, b_data o)] | XGetOp _ false _ _ _ => [None] | _ => [] end) xs)]
    | _ => [] end) h.
Lemma r_hypotheses :
  (forall i, In i (map who rlabels) -> good_client (xe i) /\ same_cluster (xe 0) (xe i) /\ fresh (xe i) (opened_session (xe i))) /\
  Forall (label_ok xe InMemory ex_codec) rlabels.
Proof.
  assert (D0 : label_ok xe InMemory ex_codec (LCall 0 pputs)).
  { refine (proj1 (and_assoc _ _ _) (conj (data_scans _ _ _ _ pputs_data) _)). apply xe_spread; lia. }
  assert (D1 : label_ok xe InMemory ex_codec (LCall 1 rscans)).
  { cbn [label_ok]. split; [|split; [|apply xe_spread; lia]].
    - constructor; [cbn [scan_call good_scan]; xargs; repeat (split; [reflexivity|]); discriminate|].
      constructor; [cbn [scan_call good_scan]; xargs; repeat (split; [reflexivity|]); discriminate|constructor].
    - cbn [rscans flat_map call_getops app]. repeat (constructor; [cbn [steady]; tauto|]). constructor. }
  split.
  - intros i Hi. assert (0 <= i < 2)%Z by (cbn [rlabels map who In] in Hi; lia). split; [apply xe_client; assumption|]. split; [apply xe_same|]. split; reflexivity.
  - unfold rlabels. repeat (constructor; [first [exact I | exact D0 | exact D1]|]). constructor.
Qed.
Definition r_seen (r : outcome (system * list shown)) : option (list (Z * list (option (bytes * bytes * bytes)))) :=
  match r with Ok (_, h) => Some (scanned_of h) | _ => None end.
Definition r_expected : list (Z * list (option (bytes * bytes * bytes))) :=
  [(1%Z, [None; Some (bstr "a", bstr "b", bstr "c")]); (0%Z, []); (1%Z, [Some (bstr "s", bstr "p", bstr "o"); Some (bstr "a", bstr "b", bstr "c")])].
Lemma r_run : exists st h, run xe (starting (fun i => opened_session (xe i)) (xcl InMemory)) rlabels = Ok (st, h) /\ scanned_of h = r_expected.
Proof.
  assert (X : r_seen (run xe (starting (fun i => opened_session (xe i)) (xcl InMemory)) rlabels) = Some r_expected) by (vm_compute; reflexivity).
  revert X. generalize (run xe (starting (fun i => opened_session (xe i)) (xcl InMemory)) rlabels). intros [[st h]| |] X; try discriminate.
  exists st, h. split; [reflexivity|]. injection X as X. exact X.
Qed.
