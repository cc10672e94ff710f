(* Flush with several datastores of one other rank *)
From Verif Require Import ModelBytes ProofBytes ModelKey ModelWire ModelHist ModelMsg SpecMsg ProofMsg ModelStore ModelGetOp ModelDs
  SpecStore ProofStore ProofDs ProofDs2 ProofDs3 ModelElen ModelRoute SpecRoute ProofRoute ProofRoute2 ModelClient SpecClient ProofClient ProofClient2
  ProofClient3 ProofClient4 ProofClient5 ProofClient6 ProofClient8 SpecLost ProofLost ProofLost2.
Local Open Scope Z_scope.

(* what a Flush does, packet by packet *)
Lemma flush_lost e s cl (D D' : Z -> ds) (X : Z -> list result) :
  setting e -> queues_ok e s -> holds e cl D -> sendable e D (sent_to e s) ->
  (forall id, an_id e id -> serve_all (far e id) id (D id) (sent_to e s id) = Ok (D' id, X id)) ->
  exists s' cl' xs, flush e s cl = Ok (s', cl', xs) /\ s' = mkSession (s_up s) (s_qs (opened_session e)) 0 (s_kept s) /\ holds e cl' D' /\
    (forall r off, elsewhere e r off -> cl' r off = cl r off) /\
    (forall id, an_id e id -> filter (of_id id) xs = X id) /\ Permutation xs (flat_map X (upto (e_total e))).
Proof.
  intros S (L1 & L2 & L3 & L4 & L5) H Hf Hs.
  destruct (split_fun e D D' X _ _ Hs Hf) as (D1 & X1 & Y1 & E1 & Hs1 & EX1 & F1 & Hf1).
  destruct (split_fun e D1 D' Y1 _ _ Hs1 Hf1) as (D2 & X2 & Y2 & E2 & Hs2 & EX2 & F2 & Hf2).
  destruct (split_fun e D2 D' Y2 _ _ Hs2 Hf2) as (D3 & X3 & Y3 & E3 & Hs3 & EX3 & F3 & Hf3).
  destruct (split_fun e D3 D' Y3 _ _ Hs3 Hf3) as (D4 & X4 & X5 & E4 & E5 & EX4 & F4 & F5).
  destruct (process_lost e S QPut (fun _ => eq_refl) _ cl D D1 X1 L1 H E1 F1) as (c1 & x1 & R1 & H1 & W1 & B1 & A1).
  destruct (process_lost e S QGet (fun _ => eq_refl) _ c1 D1 D2 X2 L2 H1 E2 F2) as (c2 & x2 & R2 & H2 & W2 & B2 & A2).
  destruct (process_lost e S QGetOp (fun _ => eq_refl) _ c2 D2 D3 X3 L3 H2 E3 F3) as (c3 & x3 & R3 & H3 & W3 & B3 & A3).
  destruct (process_lost e S QDel (fun _ => eq_refl) _ c3 D3 D4 X4 L4 H3 E4 F4) as (c4 & x4 & R4 & H4 & W4 & B4 & A4).
  destruct (process_lost e S QHist (fun _ => eq_refl) _ c4 D4 D' X5 L5 H4 E5 F5) as (c5 & x5 & R5 & H5 & W5 & B5 & A5).
  exists (mkSession (s_up s) (s_qs (opened_session e)) 0 (s_kept s)), c5, (x1 ++ x2 ++ x3 ++ x4 ++ x5). split.
  { unfold flush, flush_puts, flush_gets, flush_getops, flush_dels, flush_hists. rewrite R1. cbn [obind fst snd with_puts s_qs q_gets].
    rewrite R2. cbn [obind fst snd with_gets with_puts s_qs q_getops]. rewrite R3. cbn [obind fst snd with_getops with_gets with_puts s_qs q_dels].
    rewrite R4. cbn [obind fst snd with_dels with_getops with_gets with_puts s_qs q_hists]. rewrite R5.
    cbn [obind fst snd with_histq with_dels with_getops with_gets with_puts s_qs q_puts q_gets q_getops q_dels q_hists s_up s_count s_kept].
    rewrite (drained_empty _ _ L1), (drained_empty _ _ L2), (drained_empty _ _ L3), (drained_empty _ _ L4), (drained_empty _ _ L5).
    reflexivity. }
  split; [reflexivity|]. split; [exact H5|]. split.
  { assert (W : frame e cl c5) by (repeat (eapply frame_trans; [eassumption|]); apply frame_refl). exact W. }
  assert (B : forall id, an_id e id -> filter (of_id id) (x1 ++ x2 ++ x3 ++ x4 ++ x5) = X id).
  { intros id Hid. rewrite !filter_app, (B1 id Hid), (B2 id Hid), (B3 id Hid), (B4 id Hid), (B5 id Hid).
    rewrite (EX1 id Hid), (EX2 id Hid), (EX3 id Hid), (EX4 id Hid). reflexivity. }
  split; [exact B|].
  assert (A : Forall (fun x => an_id e (from x)) (x1 ++ x2 ++ x3 ++ x4 ++ x5)) by (repeat (apply Forall_app; split; [assumption|]); assumption).
  assert (T : 0 <= e_total e).
  { rewrite (set_total _ S). unfold datastores. destruct (set_layout _ S) as (_ & _ & _ & Hper & _). unfold servers. nia. }
  set (xs := x1 ++ x2 ++ x3 ++ x4 ++ x5) in *. rewrite (by_ids xs (e_total e) T A) at 1.
  assert (Ef : forall l, Forall (an_id e) l -> flat_map (fun id => filter (of_id id) xs) l = flat_map X l).
  { induction l as [|i l IH]; intros Hl; [reflexivity|]. inversion Hl; subst. cbn [flat_map]. rewrite B, IH by assumption. reflexivity. }
  rewrite Ef; [apply Permutation_refl|]. apply Forall_forall. intros i Hi. apply upto_In in Hi. exact Hi.
Qed.

(* ---- from operations to packets ---- *)
Lemma Forall_skipn {T} (P : T -> Prop) n (l : list T) : Forall P l -> Forall P (skipn n l).
Proof. revert l; induction n as [|n IH]; intros l H; [exact H|]. destruct l as [|a l]; [constructor|]. inversion H; subst. apply IH. assumption. Qed.
Lemma sent_tidy {A} e (qs : list (list (list A))) id : tidy e qs -> Forall (packet_ok e) (sent e qs id).
Proof. intros H. rewrite sent_def. apply Forall_skipn, queue_tidy, H. Qed.
Lemma sent_ending {A} e (qs : list (list (list A))) id : ending (concat (sent e qs id)) (concat (queue_of qs id)).
Proof.
  rewrite sent_def. exists (concat (firstn (lost e (lens qs) id) (queue_of qs id))). rewrite <- concat_app, firstn_skipn. reflexivity.
Qed.
Section Join.
Context {A : Type} (n : N) (wrap : list A -> body) (K : kind n wrap) (e : env) (S : setting e).
Lemma sent_join qs id f d d' xs : tidy e qs -> serve_all f id d (map (fun i => wrap [i]) (concat (sent e qs id))) = Ok (d', xs) ->
  serve_all f id d (map wrap (sent e qs id)) = Ok (d', xs).
Proof.
  intros T H. apply (join_packets n wrap K) in H; [exact H|]. apply (Forall_impl _) with (2 := sent_tidy e qs id T). intros p [Hp _]. exact Hp.
Qed.
Lemma sent_fits qs id d : tidy e qs -> fits_wire d (map (fun i => wrap [i]) (concat (sent e qs id))) -> fits_wire d (map wrap (sent e qs id)).
Proof.
  intros T H. apply (fits_packets n wrap K) in H; [exact H|]. apply (Forall_impl _) with (2 := sent_tidy e qs id T). intros p [Hp Hl].
  split; [exact Hp|]. unfold u64. pose proof (set_ops _ S). lia.
Qed.
Lemma sent_nonempty qs id : tidy e qs -> map wrap (sent e qs id) <> [] -> map (fun i => wrap [i]) (concat (sent e qs id)) <> [].
Proof.
  intros T H E. apply H. apply map_eq_nil in E. apply (proj2 (concat_nonempty e _ (sent_tidy e qs id T))) in E. rewrite E. reflexivity.
Qed.
End Join.

Definition all_tidy (e : env) (s : session) : Prop :=
  tidy e (q_puts (s_qs s)) /\ tidy e (q_gets (s_qs s)) /\ tidy e (q_getops (s_qs s)) /\ tidy e (q_dels (s_qs s)) /\ tidy e (q_hists (s_qs s)).

(* serving the operations one by one is serving the packets *)
Lemma ops_to_packets e s (D D' : Z -> ds) (X : Z -> list result) : setting e -> all_tidy e s -> sendable e D (ops_sent e s) ->
  (forall id, an_id e id -> serve_all (far e id) id (D id) (ops_sent e s id) = Ok (D' id, X id)) ->
  sendable e D (sent_to e s) /\ (forall id, an_id e id -> serve_all (far e id) id (D id) (sent_to e s id) = Ok (D' id, X id)).
Proof.
  intros S (T1 & T2 & T3 & T4 & T5) Hf Hs.
  assert (G : forall id, an_id e id -> serve_all (far e id) id (D id) (sent_to e s id) = Ok (D' id, X id) /\
     (far e id = true -> sent_to e s id <> [] -> routed e id /\ fits_wire (D id) (sent_to e s id))); [|split; intros id Hid; apply (G id Hid)].
  intros id Hid. specialize (Hs id Hid). specialize (Hf id Hid). unfold ops_sent in Hs, Hf. unfold sent_to.
  apply serve_all_app in Hs as (d1 & x1 & y1 & E1 & Hs & ->). apply serve_all_app in Hs as (d2 & x2 & y2 & E2 & Hs & ->).
  apply serve_all_app in Hs as (d3 & x3 & y3 & E3 & Hs & ->). apply serve_all_app in Hs as (d4 & x4 & x5 & E4 & E5 & ->).
  pose proof (sent_join 0 QPut kind_put e _ id _ _ _ _ T1 E1) as J1. pose proof (sent_join 1 QGet kind_get e _ id _ _ _ _ T2 E2) as J2.
  pose proof (sent_join 2 QGetOp kind_getop e _ id _ _ _ _ T3 E3) as J3. pose proof (sent_join 3 QDel kind_del e _ id _ _ _ _ T4 E4) as J4.
  pose proof (sent_join 5 QHist kind_hist e _ id _ _ _ _ T5 E5) as J5.
  assert (AP : forall f l1 l2 d d1 d2 x y, serve_all f id d l1 = Ok (d1, x) -> serve_all f id d1 l2 = Ok (d2, y) -> serve_all f id d (l1 ++ l2) = Ok (d2, x ++ y)).
  { clear. induction l1 as [|q l1 IH]; intros l2 d d1 d2 x y A B; cbn [serve_all app] in A |- *; [injection A as -> <-; exact B|].
    obind A a Ea. destruct a as [da xa]. obind A b Eb. destruct b as [db xb]. injection A as <- <-. rewrite Ea. cbn [obind].
    rewrite (IH _ _ _ _ _ _ Eb B). cbn [obind]. rewrite app_assoc. reflexivity. }
  split; [apply (AP _ _ _ _ _ _ _ _ J1), (AP _ _ _ _ _ _ _ _ J2), (AP _ _ _ _ _ _ _ _ J3), (AP _ _ _ _ _ _ _ _ J4), J5|].
  intros Ff Hne.
  assert (Hne' : map (fun i => QPut [i]) (concat (sent e (q_puts (s_qs s)) id)) ++ map (fun i => QGet [i]) (concat (sent e (q_gets (s_qs s)) id)) ++
    map (fun i => QGetOp [i]) (concat (sent e (q_getops (s_qs s)) id)) ++ map (fun i => QDel [i]) (concat (sent e (q_dels (s_qs s)) id)) ++
    map (fun i => QHist [i]) (concat (sent e (q_hists (s_qs s)) id)) <> []).
  { intros E. apply app_eq_nil in E as [E N1]. apply app_eq_nil in N1 as [N1 E']. apply app_eq_nil in E' as [N2 E']. apply app_eq_nil in E' as [N3 N4].
    apply Hne. assert (Z0 : forall T (w : list T -> body) q, tidy e q -> map (fun i => w [i]) (concat (sent e q id)) = [] -> map w (sent e q id) = []).
    { intros T w q Tq Eq. apply map_eq_nil in Eq. apply (proj2 (concat_nonempty e _ (sent_tidy e q id Tq))) in Eq. rewrite Eq. reflexivity. }
    rewrite (Z0 _ QPut _ T1 E), (Z0 _ QGet _ T2 N1), (Z0 _ QGetOp _ T3 N2), (Z0 _ QDel _ T4 N3), (Z0 _ QHist _ T5 N4). reflexivity. }
  destruct (Hf Ff Hne') as [R F]. split; [exact R|].
  assert (FR : forall l d d' x, fits_wire d l -> serve_all (far e id) id d l = Ok (d', x) -> exists rs, ds_run d (map (fun q => CallReq (seen_body q)) l) = Ok (d', rs)).
  { intros l d d' x A B. eapply fits_run; [exact A|exact Ff|exact B]. }
  apply fits_app in F as [P1 F]. specialize (F _ (FR _ _ _ _ P1 E1)).
  apply fits_app in F as [P2 F]. specialize (F _ (FR _ _ _ _ P2 E2)).
  apply fits_app in F as [P3 F]. specialize (F _ (FR _ _ _ _ P3 E3)).
  apply fits_app in F as [P4 F]. specialize (F _ (FR _ _ _ _ P4 E4)).
  assert (FA : forall l1 l2 d d1 x, fits_wire d l1 -> serve_all (far e id) id d l1 = Ok (d1, x) -> fits_wire d1 l2 -> fits_wire d (l1 ++ l2)).
  { intros l1 l2 d da x A B C. revert d A B. revert x. induction l1 as [|q l1 IH]; intros x d A B; cbn [app fits_wire serve_all] in *; [injection B as -> _; exact C|].
    destruct A as (A1 & d' & r & A2 & A3 & A4). split; [exact A1|]. exists d', r. split; [exact A2|]. split; [exact A3|].
    obind B a Ea. destruct a as [db xb]. obind B b Eb. destruct b as [dc xc]. injection B as -> _.
    unfold serve_one in Ea. rewrite Ff, A2 in Ea. cbn [obind] in Ea. obind Ea y Ey. injection Ea as -> _. apply (IH xc); assumption. }
  apply (FA _ _ _ _ _ (sent_fits 0 QPut kind_put e S _ id _ T1 P1) J1), (FA _ _ _ _ _ (sent_fits 1 QGet kind_get e S _ id _ T2 P2) J2),
    (FA _ _ _ _ _ (sent_fits 2 QGetOp kind_getop e S _ id _ T3 P3) J3), (FA _ _ _ _ _ (sent_fits 3 QDel kind_del e S _ id _ T4 P4) J4),
    (sent_fits 5 QHist kind_hist e S _ id _ T5 F).
Qed.

(* ---- calls, then Flush ---- *)
Lemma calls_holding e s cl cs s1 cl1 oks : fresh e s -> Forall plain cs -> do_calls e s cl cs = Ok (s1, cl1, oks) ->
  cl1 = cl /\ s_up s1 = true /\ s_kept s1 = s_kept s /\
  holding e (q_puts (s_qs s1)) (fun id => puts_to e id cs) /\ holding e (q_gets (s_qs s1)) (fun id => gets_to e id cs) /\
  holding e (q_getops (s_qs s1)) (fun id => getops_to e id cs) /\ holding e (q_dels (s_qs s1)) (fun id => dels_to e id cs) /\
  holding e (q_hists (s_qs s1)) (fun id => hists_to e id cs).
Proof.
  intros [Fu Fq] Hp Hc. destruct (calls_grown e cs s cl s1 cl1 oks Hp Fu Hc) as [-> [Gu Gk GP GG GO GD GH]].
  rewrite Fq in GP, GG, GO, GD, GH. cbn [opened_session s_qs q_puts q_gets q_getops q_dels q_hists] in GP, GG, GO, GD, GH.
  split; [reflexivity|]. split; [congruence|]. split; [exact Gk|].
  split; [apply added_holding, GP|]. split; [apply added_holding, GG|]. split; [apply added_holding, GO|]. split; [apply added_holding, GD|apply added_holding, GH].
Qed.

Lemma calls_then_flush_lost e s cl cs s1 cl1 oks (D D' : Z -> ds) (X : Z -> list result) :
  setting e -> fresh e s -> holds e cl D -> Forall plain cs -> do_calls e s cl cs = Ok (s1, cl1, oks) ->
  sendable e D (ops_sent e s1) ->
  (forall id, an_id e id -> serve_all (far e id) id (D id) (ops_sent e s1 id) = Ok (D' id, X id)) ->
  cl1 = cl /\ exists s2 cl2 xs, flush e s1 cl1 = Ok (s2, cl2, xs) /\ fresh e s2 /\ s_kept s2 = s_kept s /\ holds e cl2 D' /\
    (forall r off, elsewhere e r off -> cl2 r off = cl r off) /\
    (forall id, an_id e id -> filter (of_id id) xs = X id) /\ Permutation xs (flat_map X (upto (e_total e))).
Proof.
  intros S F H Hp Hc Hf Hs. destruct (calls_holding e s cl cs s1 cl1 oks F Hp Hc) as (-> & Hu & Hk & H1 & H2 & H3 & H4 & H5). split; [reflexivity|].
  destruct (ops_to_packets e s1 D D' X S) as [Hf' Hs']; [|exact Hf|exact Hs|].
  { split; [apply H1|]. split; [apply H2|]. split; [apply H3|]. split; [apply H4|apply H5]. }
  destruct (flush_lost e s1 cl D D' X S) as (s2 & cl2 & xs & E & Es & A); [|exact H|exact Hf'|exact Hs'|].
  { split; [apply H1|]. split; [apply H2|]. split; [apply H3|]. split; [apply H4|apply H5]. }
  exists s2, cl2, xs. split; [exact E|]. split; [subst s2; split; [exact Hu|reflexivity]|]. split; [subst s2; exact Hk|exact A].
Qed.

(* what is sent is the end of what was issued *)
Lemma holding_ending {A} e (qs : list (list (list A))) (L : Z -> list A) id : holding e qs L -> an_id e id -> ending (concat (sent e qs id)) (L id).
Proof. intros (_ & _ & H) Hid. rewrite <- (H id Hid). apply sent_ending. Qed.
Lemma holding_all {A} e (qs : list (list (list A))) (L : Z -> list A) id : holding e qs L -> an_id e id ->
  (far e id = true -> forall j, an_id e j -> id < j -> rank_of e j = rank_of e id -> L j = []) -> concat (sent e qs id) = L id.
Proof.
  intros (H1 & H2 & H3) Hid Hj. rewrite <- (H3 id Hid). destruct (sent_kept e qs id) as [K _]; [|rewrite K; reflexivity].
  apply lost_0. intros Ff j Aj Hl Hr. apply (concat_nonempty e); [apply queue_tidy, H2|]. rewrite (H3 j Aj). apply Hj; assumption.
Qed.
Lemma sent_endings e s cl cs s1 cl1 oks : fresh e s -> Forall plain cs -> do_calls e s cl cs = Ok (s1, cl1, oks) -> forall id, an_id e id ->
  ending (concat (sent e (q_puts (s_qs s1)) id)) (puts_to e id cs) /\ ending (concat (sent e (q_gets (s_qs s1)) id)) (gets_to e id cs) /\
  ending (concat (sent e (q_getops (s_qs s1)) id)) (getops_to e id cs) /\ ending (concat (sent e (q_dels (s_qs s1)) id)) (dels_to e id cs) /\
  ending (concat (sent e (q_hists (s_qs s1)) id)) (hists_to e id cs) /\
  (far e id = false \/ (forall j, an_id e j -> id < j -> rank_of e j = rank_of e id -> requests_to e j cs = []) -> ops_sent e s1 id = requests_to e id cs).
Proof.
  intros F Hp Hc id Hid. destruct (calls_holding e s cl cs s1 cl1 oks F Hp Hc) as (_ & _ & _ & H1 & H2 & H3 & H4 & H5).
  split; [apply (holding_ending e _ _ id H1 Hid)|]. split; [apply (holding_ending e _ _ id H2 Hid)|]. split; [apply (holding_ending e _ _ id H3 Hid)|].
  split; [apply (holding_ending e _ _ id H4 Hid)|]. split; [apply (holding_ending e _ _ id H5 Hid)|]. intros C. unfold ops_sent, requests_to.
  assert (N : far e id = true -> forall j, an_id e j -> id < j -> rank_of e j = rank_of e id ->
     puts_to e j cs = [] /\ gets_to e j cs = [] /\ getops_to e j cs = [] /\ dels_to e j cs = [] /\ hists_to e j cs = []).
  { intros Ff j Aj Hl Hr. destruct C as [C|C]; [congruence|]. specialize (C j Aj Hl Hr). unfold requests_to in C.
    apply app_eq_nil in C as [C1 C]. apply app_eq_nil in C as [C2 C]. apply app_eq_nil in C as [C3 C]. apply app_eq_nil in C as [C4 C5].
    apply map_eq_nil in C1. apply map_eq_nil in C2. apply map_eq_nil in C3. apply map_eq_nil in C4. apply map_eq_nil in C5. auto. }
  rewrite (holding_all e _ _ id H1 Hid) by (intros; apply N; assumption). rewrite (holding_all e _ _ id H2 Hid) by (intros; apply N; assumption).
  rewrite (holding_all e _ _ id H3 Hid) by (intros; apply N; assumption). rewrite (holding_all e _ _ id H4 Hid) by (intros; apply N; assumption).
  rewrite (holding_all e _ _ id H5 Hid) by (intros; apply N; assumption). reflexivity.
Qed.

(* ---- results ---- *)
Lemma ops_tags e s cl cs s1 cl1 oks f id d d' xs : fresh e s -> Forall plain cs -> do_calls e s cl cs = Ok (s1, cl1, oks) -> an_id e id ->
  d_open d = true -> serve_all f id d (ops_sent e s1 id) = Ok (d', xs) -> flat_map result_tag xs = tags_sent e s1 id.
Proof.
  intros F Hp Hc Hid Ho H. destruct (sent_endings e s cl cs s1 cl1 oks F Hp Hc id Hid) as ((f1 & P1) & (f2 & P2) & _ & (f4 & P4) & _ & _).
  assert (In1 : forall i, In i (concat (sent e (q_puts (s_qs s1)) id)) -> exists a b o, i = put_req (a, b, o)).
  { intros i Hi. assert (Hin : In i (puts_to e id cs)) by (rewrite P1; apply in_app_iff; right; exact Hi). unfold puts_to in Hin.
    apply in_map_iff in Hin as ([[a b] o] & <- & _). eauto. }
  assert (In2 : forall i, In i (concat (sent e (q_gets (s_qs s1)) id)) -> exists a b o, i = get_req (a, b, o)).
  { intros i Hi. assert (Hin : In i (gets_to e id cs)) by (rewrite P2; apply in_app_iff; right; exact Hi). unfold gets_to in Hin.
    apply in_map_iff in Hin as ([[a b] o] & <- & _). eauto. }
  assert (In4 : forall i, In i (concat (sent e (q_dels (s_qs s1)) id)) -> exists a b, i = del_req (a, b)).
  { intros i Hi. assert (Hin : In i (dels_to e id cs)) by (rewrite P4; apply in_app_iff; right; exact Hi). unfold dels_to in Hin.
    apply in_map_iff in Hin as ([a b] & <- & _). eauto. }
  unfold ops_sent in H. unfold tags_sent.
  apply serve_all_app in H as (d1 & x1 & y1 & E1 & H & ->). apply serve_all_app in H as (d2 & x2 & y2 & E2 & H & ->).
  apply serve_all_app in H as (d3 & x3 & y3 & E3 & H & ->). apply serve_all_app in H as (d4 & x4 & x5 & E4 & E5 & ->).
  apply (yields_all _ (fun i => fun id => [TPut id (item_ref (pi_sub_addr i) (pi_sub i)) (item_ref (pi_pred_addr i) (pi_pred i))])) in E1 as [O1 T1];
    [|apply Forall_forall; intros i Hi; destruct (In1 i Hi) as (a & b & o & ->); apply yields_put|exact Ho].
  apply (yields_all _ (fun i => fun id => [TGet id (item_ref (gi_sub_addr i) (gi_sub i)) (item_ref (gi_pred_addr i) (gi_pred i))])) in E2 as [O2 T2];
    [|apply Forall_forall; intros i Hi; destruct (In2 i Hi) as (a & b & o & ->); apply yields_get|exact O1].
  apply (yields_all _ (fun _ => fun _ => [])) in E3 as [O3 T3]; [|apply Forall_forall; intros x _; apply yields_getop|exact O2].
  apply (yields_all _ (fun i => fun id => [TDel id (item_ref (di_sub_addr i) (di_sub i)) (item_ref (di_pred_addr i) (di_pred i))])) in E4 as [O4 T4];
    [|apply Forall_forall; intros i Hi; destruct (In4 i Hi) as (a & b & ->); apply yields_del|exact O3].
  apply (yields_all _ (fun _ => fun id => [THist id])) in E5 as [O5 T5]; [|apply Forall_forall; intros x _; apply yields_hist|exact O4].
  rewrite !flat_map_app, T1, T2, T3, T4, T5, flat_none, !flat_single. reflexivity.
Qed.
Lemma one_result_sent e s cl cs s1 cl1 oks (D D' : Z -> ds) (X : Z -> list result) :
  setting e -> fresh e s -> holds e cl D -> Forall plain cs -> do_calls e s cl cs = Ok (s1, cl1, oks) ->
  sendable e D (ops_sent e s1) -> (forall id, an_id e id -> d_open (D id) = true) ->
  (forall id, an_id e id -> serve_all (far e id) id (D id) (ops_sent e s1 id) = Ok (D' id, X id)) ->
  exists s2 cl2 xs, flush e s1 cl1 = Ok (s2, cl2, xs) /\ Permutation (flat_map result_tag xs) (flat_map (tags_sent e s1) (upto (e_total e))).
Proof.
  intros S F H Hp Hc Hf Ho Hs.
  destruct (calls_then_flush_lost e s cl cs s1 cl1 oks D D' X S F H Hp Hc Hf Hs) as (_ & s2 & cl2 & xs & Ef & _ & _ & _ & _ & _ & P).
  exists s2, cl2, xs. split; [exact Ef|]. rewrite (Permutation_flat_map result_tag P). clear P.
  assert (Q : forall l, Forall (an_id e) l -> flat_map result_tag (flat_map X l) = flat_map (tags_sent e s1) l).
  { induction 1 as [|i l Hi Hl IH]; [reflexivity|]. cbn [flat_map]. rewrite flat_map_app, IH. f_equal.
    eapply ops_tags; [exact F|exact Hp|exact Hc|exact Hi|apply Ho, Hi|apply Hs, Hi]. }
  rewrite Q; [reflexivity|]. apply Forall_forall. intros i Hi. apply upto_In, Hi.
Qed.
