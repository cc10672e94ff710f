From Verif Require Import ModelBytes ModelKey ModelWire ModelHist ModelMsg ModelStore ModelGetOp ModelElen ModelRoute ModelDs ModelClient ModelResults SpecResults ProofBytes ProofStore.
Local Open Scope N_scope.

(* ---- the iterator ---- *)
Lemma at_end_eq l n : at_end (mkResults l (Some n)) = Ok (Nat.eqb n (length l)).
Proof. reflexivity. Qed.

Lemma steps_pos l : forall n i, (i <= length l)%nat ->
  steps n (mkResults l (Some i)) = Ok (mkResults l (Some (Nat.min (i + n) (length l)))).
Proof.
  induction n as [|n IH]; intros i Hi; cbn [steps].
  - rewrite Nat.add_0_r, Nat.min_l by exact Hi. reflexivity.
  - unfold goto_next, valid_iterator. rewrite at_end_eq. cbn [obind rs_list rs_it option_map].
    destruct (Nat.eqb_spec i (length l)) as [->|Hne]; cbn [negb].
    + rewrite IH by apply le_n.
      replace (Nat.min (length l + n) (length l)) with (length l) by lia.
      replace (Nat.min (length l + S n) (length l)) with (length l) by lia. reflexivity.
    + rewrite IH by lia. replace (S i + n)%nat with (i + S n)%nat by lia. reflexivity.
Qed.
Lemma steps_head r n : steps n (goto_head r) = Ok (mkResults (rs_list r) (Some (Nat.min n (length (rs_list r))))).
Proof. unfold goto_head. rewrite steps_pos by lia. reflexivity. Qed.

Lemma position r n :
  exists r', steps n (goto_head r) = Ok r' /\ rs_list r' = rs_list r /\
    valid_iterator r' = Ok (Nat.ltb n (length (rs_list r))) /\
    ((n < length (rs_list r))%nat -> exists x, nth_error (rs_list r) n = Some x /\ deref r' = Ok x).
Proof.
  eexists. split; [apply steps_head|]. split; [reflexivity|]. split.
  - unfold valid_iterator. rewrite at_end_eq. cbn [obind].
    destruct (Nat.ltb_spec n (length (rs_list r))) as [H|H].
    + rewrite Nat.min_l by lia. replace (Nat.eqb n (length (rs_list r))) with false; [reflexivity|].
      symmetry. apply Nat.eqb_neq. lia.
    + rewrite Nat.min_r by lia. rewrite Nat.eqb_refl. reflexivity.
  - intros H. rewrite Nat.min_l by lia. unfold deref. cbn [rs_it rs_list].
    destruct (nth_error (rs_list r) n) as [x|] eqn:E.
    + exists x. split; reflexivity.
    + apply nth_error_None in E. lia.
Qed.

Lemma skipn_nth {A} (l : list A) n x : nth_error l n = Some x -> skipn n l = x :: skipn (S n) l.
Proof.
  revert n. induction l as [|y l IH]; intros [|n] H; cbn [nth_error] in H; try discriminate.
  - injection H as ->. reflexivity.
  - cbn [skipn]. exact (IH n H).
Qed.

Lemma loop_from l : forall fuel n, (n <= length l)%nat -> (length l - n < fuel)%nat ->
  loop fuel (mkResults l (Some n)) = Ok (Some (skipn n l, mkResults l (Some (length l)))).
Proof.
  induction fuel as [|fuel IH]; intros n Hn Hf; [lia|].
  cbn [loop]. unfold valid_iterator at 1. rewrite at_end_eq. cbn [obind].
  destruct (Nat.eqb_spec n (length l)) as [->|Hne]; cbn [negb].
  - rewrite skipn_all. reflexivity.
  - unfold deref. cbn [rs_it rs_list].
    destruct (nth_error l n) as [x|] eqn:E; [|apply nth_error_None in E; lia].
    cbn [obind]. unfold goto_next, valid_iterator. rewrite at_end_eq. cbn [obind rs_list rs_it option_map].
    replace (Nat.eqb n (length l)) with false by (symmetry; apply Nat.eqb_neq; lia). cbn [negb].
    rewrite IH by lia. cbn [obind]. rewrite (skipn_nth l n x E). reflexivity.
Qed.
Lemma loop_visits r fuel : (length (rs_list r) < fuel)%nat ->
  loop fuel (goto_head r) = Ok (Some (rs_list r, mkResults (rs_list r) (Some (length (rs_list r))))).
Proof. intros H. unfold goto_head. rewrite loop_from by lia. reflexivity. Qed.

(* ---- the accessors ---- *)
Lemma current_shows {A} (f : result -> outcome (option A)) (what : result -> option A) l :
  (forall x, In x l -> f x = Ok (what x)) -> shows (current f) what l.
Proof.
  intros H n Hn. unfold current. rewrite at_end_eq. cbn [obind].
  destruct (Nat.eqb_spec n (length l)) as [->|Hne].
  - replace (nth_error l (length l)) with (@None result); [reflexivity|].
    symmetry. apply nth_error_None. apply le_n.
  - unfold deref. cbn [rs_it rs_list].
    destruct (nth_error l n) as [x|] eqn:E; [|apply nth_error_None in E; lia].
    cbn [obind]. apply H. exact (nth_error_In l n E).
Qed.
Lemma shows_all l : shows get_op (fun x => Some (shows_op x)) l /\
  shows get_status (fun x => Some (x_ok x)) l /\ shows get_range_server (fun x => Some (x_from x)) l /\
  shows get_subject shows_subject l /\ shows get_predicate shows_predicate l /\ shows get_object shows_object l.
Proof.
  split; [|split; [|split; [|split; [|split]]]]; apply current_shows; intros x _; destruct x; try reflexivity.
  - destruct ok; reflexivity.
  - destruct ok; reflexivity.
Qed.
Lemma shows_hist l : Forall has_histogram l -> shows get_histogram shows_histogram l.
Proof.
  intros H. apply current_shows. intros x Hx. rewrite Forall_forall in H. specialize (H x Hx).
  destruct x as [| | | |f ok h|]; try reflexivity.
  destruct ok; [|reflexivity]. destruct h as [h|]; [|destruct H].
  cbn [x_op keqb x_ok negb orb x_hist obind shows_histogram]. unfold hist_get.
  destruct (h_count h <? h_first_n h); reflexivity.
Qed.

Lemma no_list {A} (f : results -> outcome (option A)) : c_access f None = Ok None.
Proof. reflexivity. Qed.
Lemma c_head r : c_goto_head (Some r) = Ok (Some (goto_head r), negb (Nat.eqb 0 (length (rs_list r)))).
Proof. reflexivity. Qed.

(* ---- adding ---- *)
Lemma add_stale l r : l <> [] -> let r' := results_add l r in
  valid_iterator r' = UB /\ goto_next r' = UB /\ get_op r' = UB /\ rs_list r' = rs_list r ++ l.
Proof. intros H. destruct l as [|x l]; [congruence|]. cbv zeta. split; [|split; [|split]]; reflexivity. Qed.
Lemma append_list o r : let '(r', o') := results_append o r in
  rs_list r' = rs_list r ++ rs_list o /\ rs_list o' = [].
Proof. split; reflexivity. Qed.

Lemma append_loop o r fuel : (length (rs_list r) + length (rs_list o) < fuel)%nat ->
  (exists r', loop fuel (goto_head (fst (results_append o r))) = Ok (Some (rs_list r ++ rs_list o, r'))) /\
  loop 1 (goto_head (snd (results_append o r))) = Ok (Some ([], results_new)) /\ results_size (snd (results_append o r)) = 0.
Proof.
  intros L. split; [|split; reflexivity]. eexists. apply loop_visits. cbn [results_append fst rs_list]. rewrite app_length. exact L.
Qed.

(* ---- a failed GET has no object ---- *)
Lemma status_ok_one z : status_ok z = (z =? 1)%Z.
Proof. reflexivity. Qed.
Lemma failed_no_object m l x : results_of m = Ok l -> In x l -> x_ok x = false ->
  match x with XGet _ _ _ _ o | XGetOp _ _ _ _ o => o = mkBlob true [] 0 | XHist _ _ h => h = None | _ => True end.
Proof.
  intros H I F. unfold results_of in H. destruct (m_body m) as [?|?|?|?|?|q|q|q|q|q];
    try (apply Ok_inj in H; subst l);
    try (apply in_map_iff in I; destruct I as (i & <- & _); cbn [x_ok] in F; try rewrite F; try exact Logic.I; reflexivity);
    try destruct I.
  destruct (omap (getop_results (m_src m)) q) as [r| |] eqn:E; cbn [obind] in H; try discriminate H.
  apply Ok_inj in H. subst l. apply in_concat in I. destruct I as (l & Hl & Hx).
  assert (G : forall q r, omap (getop_results (m_src m)) q = Ok r -> forall l, In l r -> exists i, getop_results (m_src m) i = Ok l).
  { clear. induction q as [|i q IH]; intros r E l I; cbn [omap] in E.
    - apply Ok_inj in E. subst r. destruct I.
    - destruct (getop_results (m_src m) i) as [y| |] eqn:F; cbn [obind] in E; try discriminate E.
      destruct (omap (getop_results (m_src m)) q) as [r'| |] eqn:F'; cbn [obind] in E; try discriminate E.
      apply Ok_inj in E. subst r. destruct I as [<-|I]; [exists i; exact F|]. exact (IH r' eq_refl l I). }
  destruct (G q r E l Hl) as (i & Hi). unfold getop_results in Hi.
  destruct (gp_recs i) as [|r0 rs]; [discriminate Hi|].
  cbv zeta in Hi. apply Ok_inj in Hi. subst l.
  apply in_map_iff in Hx. destruct Hx as (rr & <- & _). cbn [x_ok] in F. rewrite F. reflexivity.
Qed.

(* ---- the nodes of a GETOP ---- *)
Lemma nth_mid {A} (m1 m2 : list A) x : nth_error (m1 ++ x :: m2) (length m1) = Some x.
Proof. rewrite nth_error_app2 by apply le_n. rewrite Nat.sub_diag. reflexivity. Qed.
Lemma nread_mid m1 n m2 : nread (m1 ++ Some n :: m2) (length m1) = Ok n.
Proof. unfold nread. rewrite nth_mid. reflexivity. Qed.
Lemma nread_freed m1 m2 : nread (m1 ++ None :: m2) (length m1) = UB.
Proof. unfold nread. rewrite nth_mid. reflexivity. Qed.
Lemma nset_mid m1 y m2 x : nset (m1 ++ x :: m2) (length m1) y = m1 ++ y :: m2.
Proof.
  unfold nset. rewrite firstn_app, firstn_all, Nat.sub_diag. cbn [firstn]. rewrite app_nil_r.
  f_equal. f_equal. rewrite skipn_app, skipn_all2 by lia.
  replace (S (length m1) - length m1)%nat with 1%nat by lia. reflexivity.
Qed.
Lemma nwrite_mid m1 n m2 n' : nwrite (m1 ++ Some n :: m2) (length m1) n' = Ok (m1 ++ Some n' :: m2).
Proof. unfold nwrite. rewrite nread_mid. cbn [obind]. rewrite nset_mid. reflexivity. Qed.
Lemma nfree_mid m1 n m2 : nfree (m1 ++ Some n :: m2) (length m1) = Ok (m1 ++ None :: m2).
Proof. unfold nfree. rewrite nread_mid. cbn [obind]. rewrite nset_mid. reflexivity. Qed.

Definition rnode (ok : bool) (r : rec3) (next : option nat) : node :=
  mkNode (rc_sub r) (rc_pred r) (if ok then rc_obj r else blob_none) next.
Fixpoint chain (ok : bool) (base : nat) (rs : list rec3) : memory :=
  match rs with [] => [] | r :: rs' => Some (rnode ok r (Some (S base))) :: chain ok (S base) rs' end.
Lemma chain_length ok rs : forall base, length (chain ok base rs) = length rs.
Proof. induction rs as [|r rs IH]; intros base; cbn [chain length]; [reflexivity|]. rewrite IH. reflexivity. Qed.
Lemma chain_app ok rs r : forall base, chain ok base (rs ++ [r]) = chain ok base rs ++ [Some (rnode ok r (Some (S (base + length rs))))].
Proof.
  induction rs as [|x rs IH]; intros base; cbn [chain app length].
  - rewrite Nat.add_0_r. reflexivity.
  - rewrite IH. replace (S base + length rs)%nat with (base + S (length rs))%nat by lia. reflexivity.
Qed.

Lemma getop_nodes_spec ok rs : forall m prev,
  getop_nodes ok rs (m ++ [Some empty_node]) prev (length m) =
  Ok (m ++ chain ok (length m) rs ++ [Some empty_node],
      match rs with [] => prev | _ => Some (length m + length rs - 1)%nat end, (length m + length rs)%nat).
Proof.
  induction rs as [|r rs IH]; intros m prev; cbn [getop_nodes chain app length].
  - rewrite Nat.add_0_r. reflexivity.
  - rewrite nread_mid. cbn [obind]. rewrite nwrite_mid. cbn [obind nalloc].
    rewrite <- app_assoc. cbn [app]. rewrite nread_mid. cbn [obind]. rewrite nwrite_mid. cbn [obind nd_sub nd_pred nd_obj nd_next empty_node].
    rewrite app_length. cbn [length]. replace (length m + 1)%nat with (S (length m)) by lia.
    change (mkNode (rc_sub r) (rc_pred r) (if ok then rc_obj r else blob_none) (Some (S (length m))))
      with (rnode ok r (Some (S (length m)))).
    specialize (IH (m ++ [Some (rnode ok r (Some (S (length m))))]) (Some (length m))).
    rewrite app_length in IH. cbn [length] in IH. replace (length m + 1)%nat with (S (length m)) in IH by lia.
    rewrite <- !app_assoc in IH. cbn [app] in IH. rewrite IH.
    f_equal. f_equal; [f_equal|]; [|lia].
    destruct rs; cbn [length]; f_equal; lia.
Qed.

Lemma getop_init_spec ok rs r m :
  getop_init ok (rs ++ [r]) m =
  Ok (m ++ chain ok (length m) rs ++ [Some (rnode ok r None); None], length m).
Proof.
  unfold getop_init, nalloc. rewrite getop_nodes_spec. cbn [obind].
  replace (match rs ++ [r] with [] => None | _ => Some (length m + length (rs ++ [r]) - 1)%nat end)
    with (Some (length (m ++ chain ok (length m) rs))).
  2:{ rewrite !app_length, chain_length. cbn [length]. destruct (rs ++ [r]) eqn:E; [destruct rs; discriminate E|]. f_equal. lia. }
  rewrite chain_app.
  replace (m ++ (chain ok (length m) rs ++ [Some (rnode ok r (Some (S (length m + length rs))))]) ++ [Some empty_node])
    with ((m ++ chain ok (length m) rs) ++ Some (rnode ok r (Some (S (length m + length rs)))) :: [Some empty_node])
    by (rewrite <- !app_assoc; reflexivity).
  rewrite nread_mid. cbn [obind rnode nd_sub nd_pred nd_obj]. rewrite nwrite_mid. cbn [obind].
  fold (rnode ok r None).
  replace (length m + length (rs ++ [r]))%nat with (length ((m ++ chain ok (length m) rs) ++ [Some (rnode ok r None)]))
    by (rewrite !app_length, chain_length; cbn [length]; lia).
  replace ((m ++ chain ok (length m) rs) ++ Some (rnode ok r None) :: [Some empty_node])
    with (((m ++ chain ok (length m) rs) ++ [Some (rnode ok r None)]) ++ Some empty_node :: [])
    by (rewrite <- !app_assoc; reflexivity).
  rewrite nfree_mid. cbn [obind]. rewrite <- !app_assoc. reflexivity.
Qed.

Lemma add_nodes_spec ok r rs : forall m t fuel, (length rs < fuel)%nat ->
  add_nodes fuel (m ++ chain ok (length m) rs ++ Some (rnode ok r None) :: t) (Some (length m))
  = Ok (seq (length m) (S (length rs))).
Proof.
  induction rs as [|x rs IH]; intros m t fuel Hf; (destruct fuel as [|fuel]; [lia|]); cbn [add_nodes chain app length].
  - rewrite nread_mid. destruct fuel; reflexivity.
  - rewrite nread_mid. cbn [obind rnode nd_next].
    specialize (IH (m ++ [Some (rnode ok x (Some (S (length m))))]) t fuel).
    rewrite app_length in IH. cbn [length] in IH. replace (length m + 1)%nat with (S (length m)) in IH by lia.
    rewrite <- !app_assoc in IH. cbn [app] in IH. rewrite IH by (cbn [length] in Hf; lia). reflexivity.
Qed.

Lemma read_chain from ok r rs : forall m t,
  omap (fun a => do n <- nread (m ++ chain ok (length m) rs ++ Some (rnode ok r None) :: t) a; Ok (node_result from ok n))
       (seq (length m) (S (length rs)))
  = Ok (map (fun x => XGetOp from ok (rc_sub x) (rc_pred x) (if ok then rc_obj x else blob_none)) (rs ++ [r])).
Proof.
  induction rs as [|x rs IH]; intros m t; cbn [seq omap chain app length].
  - rewrite nread_mid. cbn [obind]. reflexivity.
  - rewrite nread_mid. cbn [obind].
    specialize (IH (m ++ [Some (rnode ok x (Some (S (length m))))]) t).
    rewrite app_length in IH. cbn [length] in IH. replace (length m + 1)%nat with (S (length m)) in IH by lia.
    rewrite <- app_assoc in IH. cbn [app] in IH. cbn [seq length] in IH.
    cbn [seq omap] in IH |- *. rewrite IH. reflexivity.
Qed.

Lemma pointers_some from i m : gp_recs i <> [] -> getop_pointers from i m = Ok (getop_expected from i).
Proof.
  intros H. destruct (exists_last H) as (rs & r & E). unfold getop_pointers, getop_expected. rewrite E.
  rewrite getop_init_spec. cbn [obind]. unfold getop_add.
  set (ok := status_ok (gp_status i)).
  assert (R : nread (m ++ chain ok (length m) rs ++ [Some (rnode ok r None); None]) (length m)
              = Ok (match rs with [] => rnode ok r None | x :: _ => rnode ok x (Some (S (length m))) end)).
  { destruct rs; cbn [chain app]; apply nread_mid. }
  rewrite R. cbn [obind].
  rewrite (add_nodes_spec ok r rs m [None]) by (rewrite !app_length, chain_length; cbn [length]; lia).
  cbn [obind]. rewrite read_chain. reflexivity.
Qed.
Lemma pointers_none from i m : gp_recs i = [] -> getop_pointers from i m = UB.
Proof.
  intros H. unfold getop_pointers. rewrite H. unfold getop_init, nalloc. cbn [getop_nodes obind].
  rewrite nfree_mid. cbn [obind]. unfold getop_add. rewrite nread_freed. reflexivity.
Qed.
Lemma pointers_refine from i m : getop_pointers from i m = getop_results from i.
Proof.
  destruct (gp_recs i) as [|r rs] eqn:E.
  - rewrite pointers_none by exact E. unfold getop_results. rewrite E. reflexivity.
  - rewrite pointers_some by congruence. unfold getop_results, getop_expected. rewrite E. reflexivity.
Qed.
Lemma nodes_safe ok rs m : rs <> [] -> exists m' ns l, getop_init ok rs m = Ok (m', length m) /\
  m' = m ++ map Some ns ++ [None] /\ length ns = length rs /\
  getop_add m' (length m) = Ok l /\ NoDup l /\ length l = length rs /\
  (forall a, In a l <-> (length m <= a)%nat /\ exists n, nth_error m' a = Some (Some n)).
Proof.
  intros H. destruct (exists_last H) as (rs0 & r & ->).
  assert (C : forall rs base, exists ns, chain ok base rs = map Some ns /\ length ns = length rs).
  { clear. induction rs as [|x rs IH]; intros base.
    - exists []. split; reflexivity.
    - destruct (IH (S base)) as (ns & E & L). exists (rnode ok x (Some (S base)) :: ns). cbn [chain map length].
      rewrite E, L. split; reflexivity. }
  destruct (C rs0 (length m)) as (ns & E & L).
  exists (m ++ chain ok (length m) rs0 ++ [Some (rnode ok r None); None]), (ns ++ [rnode ok r None]), (seq (length m) (S (length rs0))).
  split; [apply getop_init_spec|]. split.
  { rewrite E, map_app, <- !app_assoc. reflexivity. }
  split; [rewrite !app_length; cbn [length]; lia|]. split.
  { unfold getop_add.
    assert (R : nread (m ++ chain ok (length m) rs0 ++ [Some (rnode ok r None); None]) (length m)
              = Ok (match rs0 with [] => rnode ok r None | x :: _ => rnode ok x (Some (S (length m))) end)).
    { destruct rs0; cbn [chain app]; apply nread_mid. }
    rewrite R. cbn [obind].
    rewrite (add_nodes_spec ok r rs0 m [None]) by (rewrite !app_length, chain_length; cbn [length]; lia).
    reflexivity. }
  split; [apply seq_NoDup|]. split; [rewrite seq_length, app_length; cbn [length]; lia|].
  intros a. rewrite in_seq. rewrite E.
  replace (m ++ map Some ns ++ [Some (rnode ok r None); None]) with (m ++ map Some (ns ++ [rnode ok r None]) ++ [None])
    by (rewrite map_app, <- !app_assoc; reflexivity).
  assert (LL : length (map Some (ns ++ [rnode ok r None])) = S (length rs0)) by (rewrite map_length, app_length; cbn [length]; lia).
  split.
  - intros [Ha Hb]. split; [exact Ha|]. rewrite nth_error_app2 by exact Ha.
    rewrite nth_error_app1 by lia.
    destruct (nth_error (ns ++ [rnode ok r None]) (a - length m)) as [n|] eqn:F.
    + exists n. rewrite nth_error_map, F. reflexivity.
    + apply nth_error_None in F. rewrite map_length in LL. lia.
  - intros [Ha (n & Hn)]. split; [exact Ha|]. rewrite nth_error_app2 in Hn by exact Ha.
    destruct (Nat.ltb_spec (a - length m) (S (length rs0))) as [K|K]; [lia|].
    rewrite nth_error_app2 in Hn by lia.
    destruct (a - length m - length (map Some (ns ++ [rnode ok r None])))%nat as [|[|?]]; discriminate Hn.
Qed.

Lemma omap_getop_all from q : Forall (fun i => gp_recs i <> []) q ->
  omap (getop_results from) q = Ok (map (getop_expected from) q).
Proof.
  induction q as [|i q IH]; intros H; cbn [omap map]; [reflexivity|].
  inversion H as [|? ? Hi Hq]; subst. rewrite IH by exact Hq.
  rewrite <- (pointers_refine from i []), pointers_some by exact Hi. reflexivity.
Qed.
Lemma getop_all m q : m_body m = RGetOp q -> Forall (fun i => gp_recs i <> []) q ->
  results_of m = Ok (concat (map (getop_expected (m_src m)) q)).
Proof. intros E H. unfold results_of. rewrite E, omap_getop_all by exact H. reflexivity. Qed.
Lemma getop_count from i : length (getop_expected from i) = length (gp_recs i).
Proof. unfold getop_expected. apply map_length. Qed.
Lemma omap_getop_ub from q : Exists (fun i => gp_recs i = []) q -> omap (getop_results from) q = UB.
Proof.
  induction 1 as [i q H|i q H IH]; cbn [omap].
  - unfold getop_results. rewrite H. reflexivity.
  - destruct (getop_results from i) as [l| |] eqn:E; cbn [obind].
    + rewrite IH. reflexivity.
    + unfold getop_results in E. destruct (gp_recs i); discriminate E.
    + reflexivity.
Qed.
Lemma getop_zero m q : m_body m = RGetOp q -> Exists (fun i => gp_recs i = []) q -> results_of m = UB.
Proof. intros E H. unfold results_of. rewrite E, omap_getop_ub by exact H. reflexivity. Qed.

(* ---- successful histogram results have a histogram ---- *)
Definition hist_there (b : body) : Prop :=
  match b with RHist l => Forall (fun i => status_ok (hi_status i) = true -> hi_hist i <> None) l | _ => True end.
Lemma there_results m l : hist_there (m_body m) -> results_of m = Ok l -> Forall has_histogram l.
Proof.
  intros H E. unfold results_of in E. apply Forall_forall. intros x Hx.
  destruct (m_body m) as [?|?|?|?|?|q|q|q|q|q];
    try (apply Ok_inj in E; subst l);
    try (apply in_map_iff in Hx; destruct Hx as (i & <- & Hi); try exact I);
    try (destruct Hx; fail).
  - destruct (omap (getop_results (m_src m)) q) as [r| |] eqn:F; cbn [obind] in E; try discriminate E.
    apply Ok_inj in E. subst l. apply in_concat in Hx. destruct Hx as (l & Hl & Hx).
    assert (G : forall q r, omap (getop_results (m_src m)) q = Ok r -> forall l, In l r -> exists i, getop_results (m_src m) i = Ok l).
    { clear. induction q as [|i q IH]; intros r E l I; cbn [omap] in E.
      - apply Ok_inj in E. subst r. destruct I.
      - destruct (getop_results (m_src m) i) as [y| |] eqn:F; cbn [obind] in E; try discriminate E.
        destruct (omap (getop_results (m_src m)) q) as [r'| |] eqn:F'; cbn [obind] in E; try discriminate E.
        apply Ok_inj in E. subst r. destruct I as [<-|I]; [exists i; exact F|]. exact (IH r' eq_refl l I). }
    destruct (G q r F l Hl) as (i & Hi). unfold getop_results in Hi.
    destruct (gp_recs i) as [|r0 rs]; [discriminate Hi|].
    cbv zeta in Hi. apply Ok_inj in Hi. subst l.
    apply in_map_iff in Hx. destruct Hx as (rr & <- & _). exact I.
  - cbn [hist_there] in H. rewrite Forall_forall in H. specialize (H i Hi). unfold has_histogram.
    destruct (status_ok (hi_status i)); [|exact I]. specialize (H eq_refl).
    destruct (hi_hist i); [exact I|congruence].
Qed.
Lemma operate_there d b d' b' : operate d b = Ok (d', Some b') -> hist_there b'.
Proof.
  intros H. unfold operate in H. destruct b as [q|q|q|q|q|q|q|q|q|q]; try discriminate H;
    try (destruct (negb (d_open d)); [discriminate H|]).
  - destruct (bput (d_kind d) (d_codec d) (d_rows d) q) as [[r sts]| |]; cbn [obind] in H; try discriminate H.
    destruct (match d_hists d with [] => Ok [] | hs => track hs q (map si_status sts) end) as [hs| |];
      cbn [obind] in H; try discriminate H.
    assert (b' = RPut sts) by congruence. subst b'. exact I.
  - destruct (bget (d_codec d) (d_rows d) q) as [r| |]; cbn [obind] in H; try discriminate H.
    assert (b' = RGet r) by congruence. subst b'. exact I.
  - destruct (bgetop (d_kind d) (d_codec d) (d_rows d) q) as [r| |]; cbn [obind] in H; try discriminate H.
    assert (b' = RGetOp r) by congruence. subst b'. exact I.
  - destruct (bdel (d_kind d) (d_codec d) (d_rows d) q) as [[r sts]| |]; cbn [obind] in H; try discriminate H.
    assert (b' = RDel sts) by congruence. subst b'. exact I.
  - assert (E : b' = RHist (map (fun b => match hist_find (b_data b) (d_hists d) with
                                        | Some h => mkHI ST_OK (Some h) | None => mkHI ST_ERR None end) q)) by congruence.
    subst b'. cbn [hist_there]. apply Forall_forall. intros x Hx. apply in_map_iff in Hx. destruct Hx as (b & <- & _).
    destruct (hist_find (b_data b) (d_hists d)); cbn [hi_status hi_hist]; intros; discriminate.
Qed.
Lemma served_there e cl r m cl' m' l : is_request (m_body m) -> serve e cl r m = Ok (cl', m') ->
  results_of m' = Ok l -> Forall has_histogram l.
Proof.
  intros Q H. apply there_results. unfold serve in H. cbv zeta in H.
  destruct (cl r (m_dst m mod l_per (e_layout e))%Z) as [d|]; [|discriminate H].
  destruct (operate d (m_body m)) as [[d' b]| |] eqn:E; cbn [obind] in H; try discriminate H.
  apply Ok_inj in H. injection H as _ <-. cbn [m_body].
  destruct b as [b|].
  - exact (operate_there _ _ _ _ E).
  - destruct (m_body m); try destruct Q; try exact I. cbn [no_response hist_there]. constructor.
Qed.
Lemma rd_list_hist rem : forall n s l s', rd_list n (rd_hist rem) s = Ok (l, s') ->
  Forall (fun i => status_ok (hi_status i) = true -> hi_hist i <> None) l.
Proof.
  induction n as [|n IH]; intros s l s' H; cbn [rd_list] in H.
  - unfold pret in H. assert (l = []) by congruence. subst. constructor.
  - unfold pbind at 1 in H. destruct (rd_hist rem s) as [[i s1]| |] eqn:E; cbn [obind] in H; try discriminate H.
    unfold pbind in H. destruct (rd_list n (rd_hist rem) s1) as [[l1 s2]| |] eqn:F; cbn [obind] in H; try discriminate H.
    unfold pret in H. assert (l = i :: l1) by congruence. subst l. constructor; [|exact (IH _ _ _ F)].
    unfold rd_hist, pbind in E. destruct (rd_i32 s) as [[z s3]| |]; cbn [obind] in E; try discriminate E.
    destruct (status_ok z) eqn:Z.
    + destruct (hist_unpack (hist_new [] 0 None) rem s3) as [[h s4]| |]; cbn [obind] in E; try discriminate E.
      unfold pret in E. apply Ok_inj in E. injection E as E _. intros _. rewrite <- E. cbn [hi_hist]. discriminate.
    + unfold pret in E. apply Ok_inj in E. injection E as E _. intros T. rewrite <- E in T. cbn [hi_status] in T. congruence.
Qed.
Lemma unpacked_there b m l : unpack_response b = Ok (Some m) -> results_of m = Ok l -> Forall has_histogram l.
Proof.
  intros H. apply there_results. unfold unpack_response, msg_unpack_dir in H.
  match type of H with obind ?x _ = _ => destruct x as [[o s]| |] eqn:E end; cbn [obind fst] in H; try discriminate H.
  assert (o = Some m) by congruence. subst o. clear H.
  unfold pbind at 1 in E. destruct (rd_u 4 b) as [[dir s1]| |]; cbn [obind] in E; try discriminate E.
  unfold pbind at 1 in E. destruct (rd_u 4 s1) as [[op s2]| |]; cbn [obind] in E; try discriminate E.
  unfold pbind at 1 in E. destruct (rd_i32 s2) as [[src s3]| |]; cbn [obind] in E; try discriminate E.
  unfold pbind at 1 in E. destruct (rd_i32 s3) as [[dst s4]| |]; cbn [obind] in E; try discriminate E.
  unfold pbind at 1 in E. destruct (rd_u 8 s4) as [[count s5]| |]; cbn [obind] in E; try discriminate E.
  destruct (negb (dir =? 2)); [unfold pret in E; discriminate E|].
  change (2 =? 1) with false in E. cbv zeta iota in E.
  destruct (op =? 0).
  { unfold pbind in E. match type of E with obind ?x _ = _ => destruct x as [[q s6]| |] end; cbn [obind] in E; try discriminate E.
    unfold pret in E. assert (M : m = mkMsg src dst (RPut q)) by congruence. subst m. exact I. }
  destruct (op =? 1).
  { unfold pbind in E. match type of E with obind ?x _ = _ => destruct x as [[q s6]| |] end; cbn [obind] in E; try discriminate E.
    unfold pret in E. assert (M : m = mkMsg src dst (RGet q)) by congruence. subst m. exact I. }
  destruct (op =? 2).
  { unfold pbind in E. match type of E with obind ?x _ = _ => destruct x as [[q s6]| |] end; cbn [obind] in E; try discriminate E.
    unfold pret in E. assert (M : m = mkMsg src dst (RGetOp q)) by congruence. subst m. exact I. }
  destruct (op =? 3).
  { unfold pbind in E. match type of E with obind ?x _ = _ => destruct x as [[q s6]| |] end; cbn [obind] in E; try discriminate E.
    unfold pret in E. assert (M : m = mkMsg src dst (RDel q)) by congruence. subst m. exact I. }
  destruct (op =? 5).
  { unfold pbind in E. match type of E with obind ?x _ = _ => destruct x as [[q s6]| |] eqn:F end; cbn [obind] in E; try discriminate E.
    unfold pret in E. assert (M : m = mkMsg src dst (RHist q)) by congruence. subst m. cbn [m_body hist_there].
    exact (rd_list_hist _ _ _ _ _ F). }
  unfold pret in E. discriminate E.
Qed.
