(* PUTs of several permutations *)
From Verif Require Import ModelBytes ProofBytes ModelKey ModelWire ModelHist ModelMsg SpecMsg ModelStore ModelGetOp ModelDs
  SpecStore ProofStore ProofDs ProofDs2 ModelElen ModelRoute SpecRoute ProofRoute ProofRoute2 ModelClient SpecClient SpecCluster
  ProofClient ProofClient2 ProofClient3 ProofClient4 ProofClient5 ProofClient6 ProofClient7 ProofCluster ProofCluster2.
Local Open Scope N_scope.

Lemma triples_six s p o m t : In t (put_triples s p o m) -> In t [(s, p, o); (s, o, p); (p, s, o); (p, o, s); (o, s, p); (o, p, s)].
Proof.
  unfold put_triples. intros H. apply in_flat_map in H as (x & Hx & Ht). destruct (N.testbit m (fst x)); [|destruct Ht]. destruct Ht as [<-|[]].
  cbn [In] in Hx |- *. repeat (destruct Hx as [<-|Hx]; [cbn [snd]; auto 8|]). destruct Hx.
Qed.
(* the first two fields determine the third *)
Lemma triples_third s p o m a b x a' b' x' : In (a, b, x) (put_triples s p o m) -> In (a', b', x') (put_triples s p o m) ->
  fa a = fa a' -> fa b = fa b' -> fa x = fa x'.
Proof.
  intros H H' Ea Eb. apply triples_six in H, H'. cbn [In] in H, H'.
  repeat (destruct H as [H|H]); try (exfalso; exact H); injection H as <- <- <-;
  repeat (destruct H' as [H'|H']); try (exfalso; exact H'); injection H' as <- <- <-; congruence.
Qed.
Lemma put_all_none M : forall ts f g, (forall a b x, In (a, b, x) ts -> fa a = f -> fa b = g -> False) -> put_all M ts f g = M f g.
Proof.
  intros ts; revert M; induction ts as [|[[a b] x] ts IH]; intros M f g H; [reflexivity|]. cbn [put_all]. rewrite IH.
  - apply tset_other. intros E. injection E as E1 E2. exact (H a b x (or_introl eq_refl) E1 E2).
  - intros a' b' x' Hin. apply (H a' b' x'). right. exact Hin.
Qed.
Lemma in_or_not (ts : list (arg * arg * arg)) f g :
  (exists a b x, In (a, b, x) ts /\ fa a = f /\ fa b = g) \/ (forall a b x, In (a, b, x) ts -> fa a = f -> fa b = g -> False).
Proof.
  induction ts as [|[[a b] x] ts IH]; [right; intros a b x []|]. destruct IH as [(a' & b' & x' & H & E)|IH]; [left; exists a', b', x'; split; [right; exact H|exact E]|].
  destruct (feqb (fa a) f) eqn:E1; [destruct (feqb (fa b) g) eqn:E2|].
  - left. exists a, b, x. split; [left; reflexivity|]. split; apply feqb_eq; assumption.
  - right. intros a' b' x' [H|H] H1 H2; [|eapply IH; eassumption]. injection H as -> -> ->. subst. rewrite feqb_refl in E2. discriminate.
  - right. intros a' b' x' [H|H] H1 H2; [|eapply IH; eassumption]. injection H as -> -> ->. subst. rewrite feqb_refl in E1. discriminate.
Qed.
Lemma put_all_some M : forall ts f g v, (exists a b x, In (a, b, x) ts /\ fa a = f /\ fa b = g) ->
  (forall a b x, In (a, b, x) ts -> fa a = f -> fa b = g -> fa x = v) -> put_all M ts f g = Some v.
Proof.
  intros ts; revert M; induction ts as [|[[a b] x] ts IH]; intros M f g v (a0 & b0 & x0 & Hin & E1 & E2) H; [destruct Hin|]. cbn [put_all].
  destruct (in_or_not ts f g) as [Y|Y].
  - apply IH; [exact Y|]. intros a' b' x' H'. apply (H a' b' x'). right. exact H'.
  - rewrite put_all_none by exact Y. destruct Hin as [Hin|Hin]; [|exfalso; eapply Y; eassumption]. injection Hin as -> -> ->. subst f g.
    rewrite tset_same. f_equal. apply (H a0 b0 x0 (or_introl eq_refl)); reflexivity.
Qed.

Fixpoint after (E : Z -> env) (k : backend) (M : tmap) (l : list (Z * list call)) : tmap :=
  match l with [] => M | (i, cs) :: l' => after E k (fst (batch (E i) k M cs)) l' end.
Lemma expected_app E k : forall l1 M l2, expected E k M (l1 ++ l2) = expected E k M l1 ++ expected E k (after E k M l1) l2.
Proof.
  induction l1 as [|[i cs] l1 IH]; intros M l2; [reflexivity|]. cbn [app expected after]. destruct (batch (E i) k M cs) as [M' xs]. cbn [fst app]. rewrite IH. reflexivity.
Qed.
Lemma expected_length E k : forall l M, length (expected E k M l) = length l.
Proof. induction l as [|[i cs] l IH]; intros M; [reflexivity|]. cbn [expected]. destruct (batch (E i) k M cs) as [M' xs]. cbn [length]. rewrite IH. reflexivity. Qed.
Lemma one_put_total c e s p o m : total_hash e -> good_arg c s -> good_arg c p -> good_arg c o -> one_put e s p o m = put_triples s p o m.
Proof. intros T Gs Gp Go. apply while_all. apply forallb_forall. intros [[a b] x] H. apply triples_six in H. cbn [In] in H.
  assert (G : good_arg c a /\ good_arg c b) by (repeat (destruct H as [H|H]; [injection H as <- <- <-; auto|]); destruct H).
  apply (at_total c e a b T); apply G. Qed.

(* C26 *)
Lemma permutations_stored E k c e0 S cl l i j s p o mask a b ty :
  (forall n, In n (i :: j :: map fst l) -> good_client (E n) /\ same_cluster e0 (E n) /\ fresh (E n) (S n)) ->
  holds e0 cl (fun _ => opened k c) ->
  Forall (fun ic => Forall (data_call c) (snd ic) /\ spread (E (fst ic)) (snd ic)) (l ++ [(i, [CPut s p o mask]); (j, [CGet a b ty])]) ->
  exists cl' rs r1 r2, play E S cl (l ++ [(i, [CPut s p o mask]); (j, [CGet a b ty])]) = Ok (cl', rs ++ [r1; r2]) /\
    Permutation r1 (map (fun '(x, y, _) => XPut (at_ (E i) x y) true (rf x) (rf y)) (put_triples s p o mask)) /\
    (forall x y z, In (x, y, z) (put_triples s p o mask) -> fa x = fa a -> fa y = fa b ->
       r2 = [XGet (at_ (E j) a b) true (rf a) (rf b) (mkBlob false (a_data z) (a_type z))]) /\
    ((forall x y z, In (x, y, z) (put_triples s p o mask) -> ~ (fa x = fa a /\ fa y = fa b)) ->
       exists cl2 rs2, play E S cl (l ++ [(j, [CGet a b ty])]) = Ok (cl2, rs2 ++ [r2])).
Proof.
  intros HE H HF.
  assert (HE1 : forall n, In n (map fst (l ++ [(i, [CPut s p o mask]); (j, [CGet a b ty])])) -> good_client (E n) /\ same_cluster e0 (E n) /\ fresh (E n) (S n)).
  { intros n Hn. apply HE. rewrite map_app in Hn. apply in_app_iff in Hn as [Hn|Hn]; [right; right; exact Hn|]. destruct Hn as [<-|[<-|[]]]; cbn [fst In]; auto. }
  destruct (cluster_is_map E k c e0 S cl _ HE1 H HF) as (cl' & rs & Ep & R).
  rewrite expected_app in R. apply Forall2_app_inv_r in R as (rs1 & rs2 & _ & R2 & ->).
  cbn [expected] in R2. set (M := after E k no_triples l) in *.
  pose proof HF as HF0. apply Forall_app in HF0 as [HFl HF2]. inversion HF2 as [|? ? Hx HF3]; subst. destruct Hx as [Hc1 Hs1]. inversion HF3 as [|? ? Hx HF4]; subst. destruct Hx as [Hc2 Hs2].
  cbn [fst snd] in *. inversion Hc1 as [|? ? Hd1 _]; subst. destruct Hd1 as (Gs & Gp & Go). inversion Hc2 as [|? ? Hd2 _]; subst. destruct Hd2 as (Ga & Gb & Gt).
  assert (Gv : forall x, good_arg c x -> given x = true) by (intros x Hx; apply Hx).
  assert (Ti : total_hash (E i)) by (apply (HE i); left; reflexivity).
  unfold batch in R2. cbn [flat_map call_puts call_gets call_dels app del_all] in R2.
  rewrite (Gv s Gs), (Gv p Gp), (Gv o Go), (Gv a Ga), (Gv b Gb) in R2. cbn [andb app map put_all del_all] in R2. rewrite !app_nil_r, (one_put_total c _ _ _ _ _ Ti Gs Gp Go) in R2.
  inversion R2 as [|r1 ? rs3 ? P1 R3]; subst. inversion R3 as [|r2 ? rs4 ? P2 R4]; subst. inversion R4; subst.
  apply Permutation_sym, Permutation_length_1_inv in P2. subst r2.
  exists cl', rs1, r1. eexists. split; [exact Ep|]. split; [|split].
  - rewrite P1. apply Permutation_refl'. apply map_ext. intros [[x y] z]. reflexivity.
  - intros x y z Hin E1 E2. unfold get_result. rewrite (put_all_some M _ (fa a) (fa b) (fa z)); [reflexivity|exists x, y, z; auto|].
    intros x' y' z' Hin' E1' E2'. eapply triples_third; [exact Hin'|exact Hin|congruence|congruence].
  - intros Hno. unfold get_result. rewrite put_all_none by (intros x y z Hin E1 E2; apply (Hno x y z Hin); auto).
    assert (HE3 : forall n, In n (map fst (l ++ [(j, [CGet a b ty])])) -> good_client (E n) /\ same_cluster e0 (E n) /\ fresh (E n) (S n)).
    { intros n Hn. apply HE. rewrite map_app in Hn. apply in_app_iff in Hn as [Hn|Hn]; [right; right; exact Hn|]. destruct Hn as [<-|[]]; cbn [fst In]; auto. }
    assert (HF5 : Forall (fun ic => Forall (data_call c) (snd ic) /\ spread (E (fst ic)) (snd ic)) (l ++ [(j, [CGet a b ty])])).
    { apply Forall_app. split; [exact HFl|]. constructor; [split; assumption|constructor]. }
    destruct (cluster_is_map E k c e0 S cl _ HE3 H HF5) as (cl2 & rs & Ep2 & R). rewrite expected_app in R. apply Forall2_app_inv_r in R as (rs5 & rs6 & _ & R6 & ->).
    cbn [expected] in R6. fold M in R6. unfold batch in R6. cbn [flat_map call_puts call_gets call_dels app del_all] in R6. rewrite (Gv a Ga), (Gv b Gb) in R6. cbn [andb app map put_all del_all] in R6.
    inversion R6 as [|r7 ? rs7 ? P7 R8]; subst. inversion R8; subst. apply Permutation_sym, Permutation_length_1_inv in P7. subst r7.
    exists cl2, rs5. exact Ep2.
Qed.
