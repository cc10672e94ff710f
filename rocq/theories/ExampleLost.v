(* Flushes that lose operations: witnesses and examples for PropLost.v *)
From Verif Require Import ModelBytes ProofBytes ModelKey ModelWire ModelHist ModelMsg SpecMsg ModelStore ModelGetOp ModelDs
  SpecStore ProofStore ProofDs ProofDs2 ModelElen ModelRoute SpecRoute ProofRoute ProofRoute2 ExampleStore ModelClient SpecClient SpecCluster
  ProofClient ProofClient2 ProofClient3 ProofClient4 ProofClient5 ProofClient6 ProofClient7 ProofClient8 ProofCluster ProofCluster2 ProofCluster3
  ExampleClient ExampleClient2 ModelPar SpecPar SpecLost ProofLost ProofLost2 ProofLost3 ProofLost4 ProofPar3.
Local Open Scope N_scope.

(* ---- two ranks with two datastores each (ye); five PUTs to datastore 2, three to datastore 3, a GET to each, a DELETE ---- *)
Definition lcalls : list call :=
  [ CPut (xa 1 "b") (xa 2 "p") (xa 3 "1") 1; CPut (xa 1 "b") (xa 2 "p") (xa 3 "2") 1; CPut (xa 4 "o") (xa 5 "p") (xa 6 "x") 1;
    CPut (xa 1 "b") (xa 2 "p") (xa 3 "3") 1; CPut (xa 1 "b") (xa 2 "p") (xa 3 "4") 1; CPut (xa 4 "o") (xa 5 "p") (xa 6 "y") 1;
    CPut (xa 1 "b") (xa 2 "p") (xa 3 "5") 1; CPut (xa 4 "o") (xa 5 "p") (xa 6 "z") 1;
    CGet (xa 11 "b") (xa 12 "p") T_BYTE; CGet (xa 13 "o") (xa 14 "p") T_BYTE; CDelete (xa 15 "b") (xa 16 "p") ].
Lemma lcalls_data : Forall (data_call ex_codec) lcalls.
Proof. unfold lcalls. repeat (constructor; [cbn [data_call]; xargs; try reflexivity|]). constructor. Qed.
Lemma ystores : stores (ye 0) InMemory ex_codec (ycl InMemory) no_triples.
Proof.
  intros id Hid. exists (opened InMemory ex_codec), no_triples. split; [apply (ycl_holds InMemory), Hid|]. split; [|intros s p; destruct (goesf _ id s p); reflexivity].
  exists []. split; [reflexivity|]. split; [apply agrees_empty|]. intros s p o Ho. discriminate.
Qed.
Lemma l_hypotheses : exists s1 oks D D' X, setting (ye 0) /\ fresh (ye 0) (opened_session (ye 0)) /\ holds (ye 0) (ycl InMemory) D /\ Forall plain lcalls /\
  do_calls (ye 0) (opened_session (ye 0)) (ycl InMemory) lcalls = Ok (s1, ycl InMemory, oks) /\ sendable (ye 0) D (ops_sent (ye 0) s1) /\
  (forall id, an_id (ye 0) id -> d_open (D id) = true) /\
  (forall id, an_id (ye 0) id -> serve_all (far (ye 0) id) id (D id) (ops_sent (ye 0) s1 id) = Ok (D' id, X id)).
Proof.
  destruct (left_served (ye 0) InMemory ex_codec (opened_session (ye 0)) (ycl InMemory) no_triples lcalls ye_client ltac:(split; reflexivity) ystores lcalls_data)
    as (cs' & s1 & oks & D & D' & _ & _ & Pl & Ec & HD & Hs & Ho & Hsv & _).
  exists s1, oks, D, D', (fun id => filter (of_id id) (snd (batch (ye 0) InMemory no_triples cs'))). split; [apply ye_client|]. split; [split; reflexivity|].
  split; [exact HD|]. split; [exact Pl|]. split; [exact Ec|]. split; [exact Hs|]. split; [exact Ho|exact Hsv].
Qed.
(* what is sent: of five PUTs to datastore 2 the last one, all three PUTs to datastore 3, the second of the GETs, the DELETE *)
Definition objects_sent (s : session) : list (Z * list bytes * nat * nat) :=
  map (fun id => (id, map (fun i => b_data (pi_obj i)) (concat (sent (ye 0) (q_puts (s_qs s)) id)), length (concat (sent (ye 0) (q_gets (s_qs s)) id)),
                  length (concat (sent (ye 0) (q_dels (s_qs s)) id)))) [2; 3]%Z.
Definition calls_session (x : outcome (session * cluster * list bool)) : outcome session := do (a, _) <- x; Ok (fst a).
Lemma l_sent : match calls_session (do_calls (ye 0) (opened_session (ye 0)) (ycl InMemory) lcalls) with
  | Ok s => objects_sent s = [(2%Z, [bstr "5"], 0%nat, 1%nat); (3%Z, [bstr "x"; bstr "y"; bstr "z"], 1%nat, 0%nat)] | _ => False end.
Proof. vm_compute. reflexivity. Qed.

(* ---- C33: what is left of these calls ---- *)
Lemma l_play : (forall i, In i (map fst [(0%Z, lcalls); (0%Z, lcalls)]) -> good_client (ye 0) /\ same_cluster (ye 0) (ye 0) /\ fresh (ye 0) (opened_session (ye 0))) /\
  holds (ye 0) (ycl InMemory) (fun _ => opened InMemory ex_codec) /\ Forall (fun ic : Z * list call => Forall (data_call ex_codec) (snd ic)) [(0%Z, lcalls); (0%Z, lcalls)].
Proof.
  split; [|split; [apply ycl_holds|]].
  - intros i _. split; [exact ye_client|]. split; [split; [reflexivity|split; reflexivity]|split; reflexivity].
  - constructor; [exact lcalls_data|]. constructor; [exact lcalls_data|constructor].
Qed.

(* ---- C26: the permutations (b, p, o) and (o, p, b) go to datastores 2 and 3 ---- *)
Definition bput : call := CPut (xa 1 "b") (xa 2 "p") (xa 3 "o") 33.
Definition bplay : list (Z * list call) := [(0%Z, [bput]); (0%Z, [CGet (xa 1 "b") (xa 2 "p") T_BYTE])].
Lemma bplay_run : exists cl xs o, play (fun _ => ye 0) (fun _ => opened_session (ye 0)) (ycl InMemory) bplay =
  Ok (cl, [xs; [XGet 2 false (rf (xa 1 "b")) (rf (xa 2 "p")) o]]).
Proof.
  enough (exists xs o, results_only (play (fun _ => ye 0) (fun _ => opened_session (ye 0)) (ycl InMemory) bplay) = Ok [xs; [XGet 2 false (rf (xa 1 "b")) (rf (xa 2 "p")) o]])
    as (xs & o & H) by (apply results_only_ok in H as [c H]; eauto).
  eexists. eexists. vm_compute. reflexivity.
Qed.
Lemma permutation_lost : exists e k c cl s p o mask a b ty cl' xs id x, good_client e /\ holds e cl (fun _ => opened k c) /\ data_call c (CPut s p o mask) /\
  data_call c (CGet a b ty) /\ In (a, b, o) (put_triples s p o mask) /\
  play (fun _ => e) (fun _ => opened_session e) cl [(0%Z, [CPut s p o mask]); (0%Z, [CGet a b ty])] = Ok (cl', [xs; [XGet id false (rf a) (rf b) x]]).
Proof.
  destruct bplay_run as (cl & xs & o & H).
  exists (ye 0), InMemory, ex_codec, (ycl InMemory), (xa 1 "b"), (xa 2 "p"), (xa 3 "o"), 33, (xa 1 "b"), (xa 2 "p"), T_BYTE, cl, xs, 2%Z, o.
  split; [exact ye_client|]. split; [apply ycl_holds|]. split; [cbn [data_call]; xargs|]. split; [cbn [data_call]; xargs; reflexivity|].
  split; [left; reflexivity|exact H].
Qed.

(* ---- C57: a Flush that returns one result for two PUTs ---- *)
Definition ylabels : list label := [LCall 0 yputs; LFar 0 0; LNext 0; LReturn 0].
Lemma y_shown : exists st x, run (fun _ => ye 0) (starting (fun _ => opened_session (ye 0)) (ycl InMemory)) ylabels = Ok (st, [Called 0 yputs; Returned 0 [x]]).
Proof.
  assert (X : exists h x, (do (_, h) <- run (fun _ => ye 0) (starting (fun _ => opened_session (ye 0)) (ycl InMemory)) ylabels; Ok h) = Ok h /\ h = [Called 0 yputs; Returned 0 [x]])
    by (eexists; eexists; split; [vm_compute; reflexivity|reflexivity]).
  destruct X as (h & x & X & ->). apply obind_ok in X as ([st h] & X & Y). apply Ok_inj in Y. subst h. exists st, x. exact X.
Qed.
Definition no_scan (a : oper) : Prop := match a with OScan _ => False | _ => True end.
Lemma effect_one e k c M a M' xs : no_scan a -> effect e k c M a M' xs -> length xs = 1%nat.
Proof. destruct a; cbn [no_scan effect]; intros H He; [..|destruct H|]; destruct He as [_ ->]; reflexivity. Qed.
Lemma legal_counts E k c : forall tr M P i l ys xs, legal E k c M P tr -> Forall no_scan l -> P i = Some (l, ys) -> visible tr = [Returned i xs] -> length xs = (length l + length ys)%nat.
Proof.
  induction tr as [|a tr IH]; intros M P i l ys xs L Ns Hp V; [discriminate|]. inversion L as [|? ? i0 cs0 ? N0 L0|? ? i0 a0 l1 l2 zs M0 us ? N0 B0 U0 L0|? ? i0 zs zs' ? N0 P0 L0]; subst.
  - discriminate V.
  - cbn [visible flat_map app] in V. destruct (Z.eqb_spec i0 i) as [->|Hn].
    + rewrite Hp in N0. injection N0 as -> ->. apply Forall_app in Ns as [Ns1 Ns2]. inversion Ns2; subst. assert (U1 := effect_one _ _ _ _ _ _ _ ltac:(eassumption) U0).
      eapply (IH _ _ i (l1 ++ l2)) in L0; [|apply Forall_app; auto|unfold upd; rewrite Z.eqb_refl; reflexivity|exact V].
      rewrite !app_length in *. rewrite U1 in L0. cbn [length]. clear - L0. revert L0. generalize (length xs), (length l1), (length l2). intros. lia.
    + eapply IH; [eassumption|exact Ns| |exact V]. unfold upd. destruct (Z.eqb_spec i i0); [congruence|exact Hp].
  - cbn [visible flat_map app] in V. injection V as -> -> _. rewrite Hp in N0. injection N0 as -> ->. rewrite (Permutation_length P0). reflexivity.
Qed.
Lemma data_no_scan e c cs : Forall (data_call c) cs -> Forall no_scan (opers e cs).
Proof.
  intros H. destruct (calls_parts e c cs H) as (_ & _ & _ & E & _). unfold opers. rewrite E. rewrite !Forall_app, !Forall_map. cbn [map].
  repeat split; try constructor; apply Forall_forall; intros x _; repeat destruct x as [x ?]; exact Logic.I.
Qed.
Lemma unexplained : exists e k c cl ls st h, good_client e /\ holds e cl (fun _ => opened k c) /\
  Forall (fun l => match l with LCall _ cs => Forall (data_call c) cs | _ => True end) ls /\
  run (fun _ => e) (starting (fun _ => opened_session e) cl) ls = Ok (st, h) /\ ~ explained (fun _ => e) k c h.
Proof.
  destruct y_shown as (st & x & H). exists (ye 0), InMemory, ex_codec, (ycl InMemory), ylabels, st, [Called 0 yputs; Returned 0 [x]].
  split; [exact ye_client|]. split; [apply ycl_holds|]. split; [constructor; [exact yputs_data|repeat (constructor; [exact Logic.I|]); constructor]|]. split; [exact H|].
  intros (tr & L & V). destruct tr as [|a tr]; [discriminate V|]. inversion L as [|? ? i0 cs0 ? N0 L0|? ? i0 a0 l1 l2 zs M0 us ? N0 B0 U0 L0|? ? i0 zs zs' ? N0 P0 L0]; subst; try discriminate V.
  - cbn [visible flat_map app] in V. injection V as -> -> V. assert (Q := legal_counts _ _ _ _ _ _ 0%Z (opers (ye 0) yputs) [] [x] L0 (data_no_scan _ _ _ yputs_data) eq_refl V). vm_compute in Q. discriminate Q.
  - discriminate N0.
Qed.
Lemma y_labels : (forall i, In i (map who ylabels) -> good_client (ye 0) /\ same_cluster (ye 0) (ye 0) /\ fresh (ye 0) (opened_session (ye 0))) /\
  holds (ye 0) (ycl InMemory) (fun _ => opened InMemory ex_codec) /\ Forall (label_data (fun _ => ye 0) InMemory ex_codec) ylabels /\
  exists st x, run (fun _ => ye 0) (starting (fun _ => opened_session (ye 0)) (ycl InMemory)) ylabels = Ok (st, [Called 0 yputs; Returned 0 [x]]).
Proof.
  split; [|split; [apply ycl_holds|split; [|exact y_shown]]].
  - intros i _. split; [exact ye_client|]. split; [split; [reflexivity|split; reflexivity]|split; reflexivity].
  - constructor; [exact (data_scans (ye 0) InMemory _ _ yputs_data)|repeat (constructor; [exact Logic.I|]); constructor].
Qed.
