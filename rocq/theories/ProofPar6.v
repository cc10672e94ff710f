(* Clients working at the same time: runs in which a PUT is completed *)
From Verif Require Import ModelBytes ProofBytes ModelKey ModelWire ModelHist ModelMsg SpecMsg ModelStore ModelGetOp ModelDs
  SpecStore ProofStore ProofDs ProofDs2 ModelElen ModelRoute SpecRoute ProofRoute ProofRoute2 ExampleStore ModelClient SpecClient SpecCluster
  ProofClient ProofClient2 ProofClient3 ProofClient4 ProofClient5 ProofClient6 ProofCluster ProofCluster2 ExampleClient ModelPar SpecPar
  ProofPar ProofPar2 ProofPar3 ProofPar4 ProofPar5.
Local Open Scope N_scope.

Lemma one_oper e c s p o : total_hash e -> data_call c (CPut s p o 1) -> opers e [CPut s p o 1] = [OPut s p o].
Proof.
  intros T (Gs & Gp & Go). destruct (at_total c e s p T Gs Gp) as (_ & _ & Pl). unfold opers. cbn [flat_map call_puts call_gets call_dels app map].
  destruct Gs as (-> & _), Gp as (-> & _), Go as (-> & _). cbn [andb]. unfold one_put. change (put_triples s p o 1) with [(s, p, o)]. cbn [while].
  rewrite Pl. reflexivity.
Qed.
Lemma completed_put_seen E k c e0 S cl ls st i j s p o cs h1 h2 h3 h4 h5 ys xs :
  (forall n, In n (map who ls) -> good_client (E n) /\ same_cluster e0 (E n) /\ fresh (E n) (S n)) ->
  holds e0 cl (fun _ => opened k c) -> Forall (label_ok E k c) ls ->
  run E (starting S cl) ls = Ok (st, h1 ++ Called i [CPut s p o 1] :: h2 ++ Returned i ys :: h3 ++ Called j cs :: h4 ++ Returned j xs :: h5) ->
  still i h2 -> still j h4 -> untouched E (fa s) (fa p) (h1 ++ h2 ++ h3 ++ Called j cs :: h4) ->
  forall x y ty, In (OGet x y ty) (opers (E j) cs) -> fa x = fa s -> fa y = fa p ->
    In (XGet (at_ (E j) x y) true (rf x) (rf y) (mkBlob false (a_data o) (a_type o))) xs.
Proof.
  intros HE H HF R Si Sj U x y ty Hg Ex Ey.
  destruct (parallel_explained E k c e0 S cl ls HE H HF) as (st' & h & R' & Ex' & _). rewrite R in R'. injection R' as _ <-.
  assert (Hc : In (LCall i [CPut s p o 1]) ls).
  { eapply run_called; [exact R|]. apply in_app_iff. right. left. reflexivity. }
  rewrite Forall_forall in HF. destruct (HF _ Hc) as [Hd _]. inversion Hd as [|? ? Hd1 _]; subst.
  destruct (HE i (in_map who _ _ Hc)) as ((_ & T & _) & _).
  eapply (seen_put E k c s p o i j cs h1 h2 h3 h4 h5 ys xs); try eassumption. eapply one_oper; eassumption.
Qed.

