From Verif Require Import ModelBytes ModelKey ModelWire ModelHist ModelMsg ModelStore ModelGetOp ModelDs ModelElen ModelRoute SpecStore SpecRoute ModelClient ModelCli SpecCli ProofBytes ProofStore SpecClient SpecCluster ProofCluster2 ProofDs.
Local Open Scope N_scope.

(* ---- running: a batch is do_calls and flush ---- *)
Lemma run_batch e at_ b : forall i s cl s1 cl1 oks l, Forall (fun c => c <> MFlush /\ call_of (at_ 0%nat) c <> None) b ->
  do_calls e s cl (calls_at at_ i b) = Ok (s1, cl1, oks) ->
  run_commands e at_ i s cl (b ++ l) = (do (z, rs) <- run_commands e at_ (i + List.length b) s1 cl1 l; Ok (z, map (fun ok => ([], ok)) oks ++ rs)).
Proof.
  induction b as [|c b IH]; intros i s cl s1 cl1 oks l F E; cbn [app calls_at List.length] in *.
  - cbn [do_calls] in E. apply Ok_inj in E. injection E as -> -> <-. rewrite Nat.add_0_r. cbn [map app]. destruct (run_commands e at_ i s1 cl1 l) as [[z rs]| |]; reflexivity.
  - inversion F as [|? ? [N H] F']; subst.
    assert (exists x, call_of (at_ i) c = Some x) as [x X].
    { destruct (at_ i) as [[? ?] ?]. destruct (at_ 0%nat) as [[? ?] ?]. destruct c; cbn [call_of] in *; eauto; congruence. }
    rewrite X in E. cbn [do_calls] in E. cbn [run_commands]. rewrite X.
    obind E a Ea. destruct a as [sc ok]. obind E a2 Eb. destruct a2 as [sc' oks']. apply Ok_inj in E. injection E as -> <-.
    rewrite Ea. cbn [obind fst snd]. rewrite (IH (S i) (fst sc) (snd sc) s1 cl1 oks' l F' Eb).
    replace (i + S (List.length b))%nat with (S i + List.length b)%nat by lia.
    destruct (run_commands e at_ (S i + List.length b) s1 cl1 l) as [[z rs]| |]; reflexivity.
Qed.
Lemma run_script e at_ bs : Forall (Forall on_pairs) bs -> forall i S s cl cl' xss, S 0%Z = s ->
  play (fun _ => e) S cl (map (fun cs => (0%Z, cs)) (batches at_ i bs)) = Ok (cl', xss) ->
  exists s' rs, run_commands e at_ i s cl (script bs) = Ok (s', cl', rs) /\ List.length rs = List.length (script bs) /\ flat_map fst rs = concat xss.
Proof.
  induction 1 as [|b bs D _ IH]; intros i S s cl cl' xss Es P.
  - cbn [batches map play] in P. apply Ok_inj in P. injection P as -> <-. exists s, []. split; [reflexivity|]. split; reflexivity.
  - cbn [batches map play] in P. obind P a Ea. destruct a as [[s1 cl1] oks]. obind P a2 Eb. destruct a2 as [[s2 cl2] xs].
    obind P a3 Ec. destruct a3 as [cl3 r]. apply Ok_inj in P. injection P as -> <-. cbn [fst snd] in *. rewrite Es in Ea.
    assert (next S 0 s2 0%Z = s2) as Es2 by reflexivity.
    destruct (IH (i + List.length b + 1)%nat (next S 0 s2) s2 cl2 cl' r Es2 Ec) as [s' [rs [R [L X]]]].
    cbn [script flat_map]. rewrite <- app_assoc.
    rewrite (run_batch e at_ b i s cl s1 cl1 oks); [| |exact Ea].
    2:{ eapply Forall_impl; [|exact D]. intros c Hc. destruct (at_ 0%nat) as [[? ?] ?]. destruct c; cbn in *; try contradiction; split; discriminate. }
    cbn [app run_commands]. destruct (at_ (i + List.length b)%nat) as [[? ?] ?] eqn:A. cbn [call_of].
    rewrite Eb. cbn [obind fst snd]. fold (script bs). replace (Datatypes.S (i + List.length b)) with (i + List.length b + 1)%nat by lia.
    rewrite R. cbn [obind]. eexists s', _. split; [reflexivity|].
    assert (List.length oks = List.length b) as Lo.
    { clear - Ea D. revert i s cl oks Ea D. induction b as [|c b IH]; intros i s cl oks Ea D; cbn [calls_at do_calls] in Ea; [apply Ok_inj in Ea; injection Ea as _ _ <-; reflexivity|].
      inversion D as [|? ? Hc D']; subst. assert (exists x, call_of (at_ i) c = Some x) as [x X] by (destruct (at_ i) as [[? ?] ?]; destruct c; cbn in *; try contradiction; eauto).
      rewrite X in Ea. cbn [do_calls] in Ea. obind Ea a E1. destruct a as [[sa cla] ok]. obind Ea a2 E2. destruct a2 as [sc oks']. apply Ok_inj in Ea. injection Ea as -> <-.
      cbn [fst snd] in E2. cbn [List.length]. f_equal. exact (IH _ _ _ _ E2 D'). }
    split.
    + rewrite !app_length, map_length. cbn [List.length]. rewrite L, Lo. lia.
    + rewrite flat_map_app. cbn [flat_map fst concat]. rewrite X. replace (flat_map fst (map (fun ok : bool => (@nil result, ok)) oks)) with (@nil result); [reflexivity|].
      clear. induction oks as [|o oks IH]; [reflexivity|exact IH].
Qed.
Lemma data_pairs bs : Forall (Forall on_data) bs -> Forall (Forall on_pairs) bs.
Proof. apply Forall_impl. intros b. apply Forall_impl. intros c. destruct c; exact (fun H => H) || intro H; try exact Logic.I; exact H. Qed.
Lemma script_is_map e k c s cl at_ bs : good_client e -> fresh e s -> holds e cl (fun _ => opened k c) -> Forall (Forall on_data) bs ->
  Forall (fun cs => Forall (data_call c) cs /\ spread e cs) (batches at_ 0 bs) ->
  exists s' cl' rs xss, run_commands e at_ 0 s cl (script bs) = Ok (s', cl', rs) /\ List.length rs = List.length (script bs) /\
    flat_map fst rs = concat xss /\ Forall2 (@Permutation result) xss (expected (fun _ => e) k no_triples (map (fun cs => (0%Z, cs)) (batches at_ 0 bs))).
Proof.
  intros G F H D C.
  destruct (cluster_is_map (fun _ => e) k c e (fun _ => s) cl (map (fun cs => (0%Z, cs)) (batches at_ 0 bs))) as (cl' & xss & P & R).
  - intros i _. split; [exact G|]. split; [|exact F]. split; [reflexivity|]. split; reflexivity.
  - exact H.
  - apply Forall_map. exact C.
  - destruct (run_script e at_ bs (data_pairs bs D) 0 (fun _ => s) s cl cl' xss eq_refl P) as [s' [rs [E [L X]]]]. exists s', cl', rs, xss. repeat split; assumption.
Qed.
