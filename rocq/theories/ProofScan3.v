(* GETOPs and the whole cluster: what follows from the answers *)
From Verif Require Import ModelBytes ProofBytes ModelKey ModelWire ModelHist ModelMsg SpecMsg ModelStore ModelGetOp ModelDs
  SpecStore ProofStore ProofDs ModelElen ModelRoute SpecRoute ModelClient SpecClient SpecCluster
  ProofCluster ProofCluster2 SpecGetOp ProofGetOp ProofGetOp2 SpecScan ProofScan ProofScan2 SpecStore.
Local Open Scope N_scope.

(* only LOWEST and HIGHEST succeed with nothing *)
Lemma reply_some c ts i : oi_op i <> GETOP_LOWEST -> oi_op i <> GETOP_HIGHEST -> 1 <= oi_num i -> reply c ts i <> Some [].
Proof.
  intros H1 H2 Hn.
  assert (X : forall l, some_of l (first (oi_num i) l) <> Some []).
  { intros l. unfold some_of, first. destruct l as [|t l]; [discriminate|]. replace (N.to_nat (oi_num i)) with (Datatypes.S (N.to_nat (oi_num i - 1))) by lia. discriminate. }
  unfold reply. destruct (oi_op i =? GETOP_EQ).
  { unfold some_of. destruct (filter _ ts); discriminate. }
  destruct (oi_op i =? GETOP_NEXT); [apply X|]. destruct (oi_op i =? GETOP_PREV).
  { unfold some_of, first. destruct (filter (over c _) ts) as [|t l]; [discriminate|]. cbn [firstn app].
    replace (N.to_nat (oi_num i)) with (Datatypes.S (N.to_nat (oi_num i - 1))) by lia. discriminate. }
  destruct (oi_op i =? GETOP_FIRST); [apply X|]. destruct (oi_op i =? GETOP_LAST).
  { unfold some_of, first. destruct ts as [|t l]; [discriminate|]. intros E. injection E as E. apply (f_equal (@length _)) in E.
    rewrite firstn_length in E. cbn [rev] in E. rewrite app_length in E. cbn [length] in E. lia. }
  destruct (N.eqb_spec (oi_op i) GETOP_LOWEST); [contradiction|]. destruct (N.eqb_spec (oi_op i) GETOP_HIGHEST); [contradiction|]. discriminate.
Qed.

(* every successful result is a triple of the one map, and its pair has the same datastore *)
Lemma scan_sound e c M t xs id s p o : scan_result e c M t xs -> 1 <= snd (fst t) -> In (XGetOp id true s p o) xs ->
  id = at_ e (fst (fst (fst (fst t)))) (snd (fst (fst (fst t)))) /\ M (fld s) (fld p) = Some (fld o) /\
  e_hash e (e_rank e) (e_total e) (b_data s) (b_data p) = Ok id.
Proof.
  destruct t as [[[[s0 p0] ty] n] op]. cbn [fst snd]. intros (ts & Hc & ->) Hn Hi.
  destruct (reply c ts (getop_req (s0, p0, ty, n, op))) as [us|] eqn:E; cbn [scan_results] in Hi; [|destruct Hi as [Hi|[]]; discriminate].
  apply in_map_iff in Hi as (t & Et & Hi). injection Et as Ea Eb Ec Ed. subst s p o. split; [symmetry; exact Ea|]. rewrite !fld_blob_of. rewrite <- Ea. clear Ea.
  destruct (reply_from c ts _ us E Hn) as [_ I]. apply I in Hi. apply (proj2 Hc) in Hi. unfold share in Hi. cbn [blob_of b_data].
  destruct (e_hash e _ _ (f_data (t_sub t)) (f_data (t_pred t))) as [j| |]; [|discriminate Hi|discriminate Hi].
  destruct (Z.eqb_spec j (at_ e s0 p0)) as [Ej|Ej]; [|discriminate Hi]. split; [exact Hi|f_equal; exact Ej].
Qed.

(* enough records: FIRST gives all that the datastore of the pair has, in order *)
Lemma scan_first e c M s p ty n ts xs : scan_result e c M (s, p, ty, n, GETOP_FIRST) xs -> contents c (share e (at_ e s p) M) ts -> ts <> [] -> N.of_nat (length ts) <= n ->
  xs = map (fun t => XGetOp (at_ e s p) true (blob_of (t_sub t)) (blob_of (t_pred t)) (blob_of (t_obj t))) ts.
Proof.
  intros (ts' & Hc' & ->) Hc Hne Hn.
  assert (ts' = ts).
  { destruct Hc as [A B], Hc' as [A' B']. apply (sorted_same (fun t u => bltb (tkey c t) (tkey c u) = true)); try assumption.
    - intros x Hx. apply bltb_true in Hx. revert Hx. apply blt_irrefl.
    - intros x y z Hx Hy. apply bltb_true. apply bltb_true in Hx, Hy. eapply blt_trans; eassumption.
    - intros x. rewrite B, B'. reflexivity. }
  subst ts'. unfold reply. cbn [getop_req oi_op oi_num N.eqb Pos.eqb GETOP_FIRST GETOP_EQ GETOP_NEXT GETOP_PREV]. rewrite some_of_ne by exact Hne.
  cbn [scan_results]. unfold first. rewrite firstn_all2 by lia. reflexivity.
Qed.

(* with a single datastore its triples are all there are *)
Lemma share_all e M s p : total_hash e -> e_total e = 1%Z -> (forall s p o, M s p = Some o -> blen (f_data s) < 2 ^ 32 /\ blen (f_data p) < 2 ^ 32) ->
  share e 0 M s p = M s p.
Proof.
  intros T E1 H. unfold share. destruct (M s p) as [o|] eqn:Em.
  - destruct (H _ _ _ Em) as [A B]. destruct (T _ _ A B) as (id & -> & Hid). unfold an_id in Hid. rewrite E1 in Hid. replace id with 0%Z by lia. reflexivity.
  - destruct (e_hash _ _ _ _ _) as [i| |]; [destruct (i =? 0)%Z|..]; reflexivity.
Qed.
Lemma scan_alone e c M s p ty n op xs : total_hash e -> e_total e = 1%Z -> (forall s p o, M s p = Some o -> blen (f_data s) < 2 ^ 32 /\ blen (f_data p) < 2 ^ 32) ->
  good_arg c s -> good_arg c p -> scan_result e c M (s, p, ty, n, op) xs ->
  exists ts, contents c M ts /\ xs = scan_results 0 s p (reply c ts (getop_req (s, p, ty, n, op))).
Proof.
  intros T E1 H Gs Gp (ts & Hc & ->). destruct (at_total c e s p T Gs Gp) as (A & _ & _). unfold an_id in A. rewrite E1 in A. replace (at_ e s p) with 0%Z in * by lia.
  exists ts. split; [|reflexivity]. eapply contents_ext; [|exact Hc]. intros s' p'. symmetry. apply share_all; assumption.
Qed.
