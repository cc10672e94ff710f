(* Clients that call and flush in any order *)
From Verif Require Import ModelBytes ProofBytes ModelKey ModelWire ModelHist ModelMsg SpecMsg ModelStore ModelGetOp ModelDs
  SpecStore ProofStore ProofDs ProofDs2 ModelElen ModelRoute SpecRoute ProofRoute ProofRoute2 ModelClient SpecClient SpecCluster
  ProofClient ProofClient2 ProofClient3 ProofClient4 ProofClient5 ProofClient6 ProofCluster ProofCluster2 SpecGetOp ProofGetOp ProofGetOp2 SpecScan
  ProofScan ProofScan2 SpecMixed SpecStore.
Local Open Scope N_scope.

(* ---- the queues of a session hold what waits ---- *)
Definition to3 e id (l : list (arg * arg * arg)) := map put_req (filter (fun '(s, p, _) => goes e id s p) l).
Definition to2t e id (l : list (arg * arg * N)) := map get_req (filter (fun '(s, p, _) => goes e id s p) l).
Definition to5 e id (l : list asked) := map getop_req (filter (fun '(s, p, _, _, _) => goes e id s p) l).
Definition to2 e id (l : list (arg * arg)) := map del_req (filter (fun '(s, p) => goes e id s p) l).
Record queues (e : env) (s : session) (w : waiting) : Prop := {
  qu_up : s_up s = true;
  qu_puts : holding e (q_puts (s_qs s)) (fun id => to3 e id (w_puts w));
  qu_gets : holding e (q_gets (s_qs s)) (fun id => to2t e id (w_gets w));
  qu_getops : holding e (q_getops (s_qs s)) (fun id => to5 e id (w_getops w));
  qu_dels : holding e (q_dels (s_qs s)) (fun id => to2 e id (w_dels w));
  qu_hists : holding e (q_hists (s_qs s)) (fun _ => [])
}.
Definition all_good (c : codec) (w : waiting) : Prop :=
  Forall (good3 c) (w_puts w) /\ Forall (good2t c) (w_gets w) /\ Forall (good_scan c) (w_getops w) /\ Forall (good2 c) (w_dels w).

Lemma holding_empty {A} e : @holding A e (empty_queues (e_total e)) (fun _ => []).
Proof. split; [apply empty_length|]. split; [apply empty_tidy|]. intros id _. rewrite empty_queue_of. reflexivity. Qed.
Lemma fresh_queues e s : fresh e s -> queues e s idle.
Proof. intros [U Q]. constructor; [exact U|rewrite Q; apply holding_empty..]. Qed.
Lemma holding_added {A} e qs qs' (L1 L2 L3 : Z -> list A) : holding e qs L1 -> added e (nn L2) qs qs' -> (forall id, L3 id = L1 id ++ L2 id) -> holding e qs' L3.
Proof.
  intros (H1 & H2 & H3) (A1 & A2 & A3 & _) E. split; [congruence|]. split; [apply A2, H2|]. intros id Hid. rewrite A3 by apply Hid. rewrite H3 by exact Hid. rewrite E.
  unfold nn. destruct (Z.leb_spec 0 id); [reflexivity|]. destruct Hid. lia.
Qed.
Lemma holding_drained {A} e (qs : list (list (list A))) L : holding e qs L -> holding e (drained qs) (fun _ => []).
Proof. intros (H & _). rewrite (drained_empty qs _ H). apply holding_empty. Qed.
Lemma holding_ext {A} e (qs : list (list (list A))) L L' : (forall id, L id = L' id) -> holding e qs L -> holding e qs L'.
Proof. intros E (H1 & H2 & H3). split; [exact H1|]. split; [exact H2|]. intros id Hid. rewrite <- E. apply H3, Hid. Qed.

Lemma call_queues e c s cl w x : good_client e -> queues e s w -> scan_call c x -> exists s' ok, do_call e s cl x = Ok (s', cl, ok) /\ queues e s' (wait e w x).
Proof.
  intros (St & T & Co & Ops) [U P G O D H] Hx.
  assert (Dh : defined_hash e) by (intros a b La Lb; destruct (T a b La Lb) as (id & E & Hid); exists id; split; [exact E|apply Hid]).
  destruct (call_ok e St Dh Ops s cl x) as [[[s' cl'] ok] E].
  { split; [apply P|]. split; [apply G|]. split; [apply O|]. split; [apply D|apply H]. } { eapply scan_sane, Hx. } { eapply scan_plain, Hx. }
  destruct (call_grown e s cl x s' cl' ok (scan_plain c x Hx) U E) as [-> [Gu Gk GP GG GO GD GH]].
  exists s', ok. split; [exact E|].
  assert (F : forall A B (f : call -> list A) (p : A -> bool) (r : A -> B) l, map r (filter p (l ++ f x)) = map r (filter p l) ++ map r (filter p (flat_map f [x]))).
  { intros. cbn [flat_map]. rewrite app_nil_r, filter_app, map_app. reflexivity. }
  constructor; [congruence| | | | |].
  - eapply holding_added; [exact P|exact GP|]. intro id. apply F.
  - eapply holding_added; [exact G|exact GG|]. intro id. apply F.
  - eapply holding_added; [exact O|exact GO|]. intro id. apply F.
  - eapply holding_added; [exact D|exact GD|]. intro id. apply F.
  - eapply holding_added; [exact H|exact GH|]. intro id. unfold hists_to. cbn [flat_map]. destruct (scan_parts e c x Hx) as (_ & _ & _ & _ & ->). reflexivity.
Qed.
Lemma call_good e c w x : scan_call c x -> all_good c w -> all_good c (wait e w x).
Proof.
  intros Hx (A & B & C & D). destruct (scan_parts e c x Hx) as (A' & B' & C' & D' & _). cbn [wait w_puts w_gets w_getops w_dels].
  repeat (split; [apply Forall_app; auto|]). apply Forall_app; auto.
Qed.

(* ---- results by datastore ---- *)
Lemma same_by_id n xs ys : (0 <= n)%Z -> Forall (fun x => (0 <= from x < n)%Z) xs -> Forall (fun x => (0 <= from x < n)%Z) ys ->
  (forall id, (0 <= id < n)%Z -> filter (of_id id) xs = filter (of_id id) ys) -> Permutation xs ys.
Proof.
  intros N Fx Fy H. rewrite (by_ids xs n N Fx), (by_ids ys n N Fy).
  assert (Ef : forall l, Forall (fun i => (0 <= i < n)%Z) l -> flat_map (fun id => filter (of_id id) xs) l = flat_map (fun id => filter (of_id id) ys) l).
  { induction 1 as [|i l Hi _ IH]; [reflexivity|]. cbn [flat_map]. rewrite H by exact Hi. rewrite IH. reflexivity. }
  rewrite Ef; [apply Permutation_refl|]. apply Forall_forall. intros i Hi. apply upto_In in Hi. exact Hi.
Qed.
Section Client.
Context (e : env) (k : backend) (c : codec) (GC : good_client e).
Let St : setting e := proj1 GC.
Let T : total_hash e := proj1 (proj2 GC).
Let Co : connected e := proj1 (proj2 (proj2 GC)).
Lemma total_0 : (0 <= e_total e)%Z.
Proof. destruct (T [] []) as (id & _ & Hid); [reflexivity|reflexivity|]. unfold an_id in Hid. lia. Qed.

(* one kind: every datastore answers with its part of ys *)
Lemma kind_step {A} n (wrap : list A -> body) (K : kind n wrap) qs cl (L : Z -> list A) M M' ys :
  holding e qs L -> stores e k c cl M ->
  (forall id d m, an_id e id -> at_ds k c d m -> part e id M m ->
     exists d' m', serve_all (far e id) id d (map (fun i => wrap [i]) (L id)) = Ok (d', filter (of_id id) ys) /\ at_ds k c d' m' /\ part e id M' m' /\
       (far e id = true -> fits_wire d (map (fun i => wrap [i]) (L id)))) ->
  one_per_rank e (fun id => L id <> []) -> Forall (fun x => an_id e (from x)) ys ->
  exists cl' xs, process e wrap qs cl = Ok (cl', xs) /\ stores e k c cl' M' /\ Permutation xs ys.
Proof.
  intros H HS Hv Ho Hy.
  assert (Hd : exists D : Z -> ds, forall id, an_id e id -> cl (rank_of e id) (id mod l_per (e_layout e))%Z = Some (D id) /\ exists m, at_ds k c (D id) m /\ part e id M m).
  { apply (choose e (fun id d => cl (rank_of e id) (id mod l_per (e_layout e))%Z = Some d /\ exists m, at_ds k c d m /\ part e id M m) (opened k c)).
    intros id Hid. destruct (HS id Hid) as (d & m & A' & B). exists d. split; [exact A'|]. exists m. exact B. }
  destruct Hd as [D HD].
  assert (Hd' : exists D' : Z -> ds, forall id, an_id e id -> serve_all (far e id) id (D id) (map (fun i => wrap [i]) (L id)) = Ok (D' id, filter (of_id id) ys) /\
     (exists m, at_ds k c (D' id) m /\ part e id M' m) /\ (far e id = true -> fits_wire (D id) (map (fun i => wrap [i]) (L id)))).
  { apply (choose e (fun id d' => serve_all (far e id) id (D id) (map (fun i => wrap [i]) (L id)) = Ok (d', filter (of_id id) ys) /\
     (exists m, at_ds k c d' m /\ part e id M' m) /\ (far e id = true -> fits_wire (D id) (map (fun i => wrap [i]) (L id)))) (opened k c)).
    intros id Hid. destruct (HD id Hid) as (_ & m & A' & B). destruct (Hv id (D id) m Hid A' B) as (d' & m' & E1 & A1 & B1 & F1).
    exists d'. split; [exact E1|]. split; [|exact F1]. exists m'. auto. }
  destruct Hd' as [D' HD'].
  destruct (kind_flush n wrap K e St qs cl L D D' (fun id => filter (of_id id) ys) H) as (cl' & xs & E & H' & _ & B & F).
  - intros id Hid. apply HD, Hid.
  - intros id Hid. apply HD', Hid.
  - intros id Hid Ff _. split; [apply Co; assumption|apply HD'; assumption].
  - exact Ho.
  - exists cl', xs. split; [exact E|]. split.
    + intros id Hid. destruct (HD' id Hid) as (_ & (m & A1 & B1) & _). exists (D' id), m. split; [apply H', Hid|]. auto.
    + apply (same_by_id (e_total e)); [exact total_0|exact F|exact Hy|exact B].
Qed.

Lemma to3_used id w : to3 e id (w_puts w) <> [] -> used e w Puts id.
Proof.
  unfold to3. intro H. destruct (filter _ (w_puts w)) as [|[[s p] o] l] eqn:E; [contradiction|]. assert (In (s, p, o) ((s, p, o) :: l)) as I by (left; reflexivity).
  rewrite <- E in I. apply filter_In in I. exists s, p, o. exact I.
Qed.
Lemma to2t_used id w : to2t e id (w_gets w) <> [] -> used e w Gets id.
Proof.
  unfold to2t. intro H. destruct (filter _ (w_gets w)) as [|[[s p] o] l] eqn:E; [contradiction|]. assert (In (s, p, o) ((s, p, o) :: l)) as I by (left; reflexivity).
  rewrite <- E in I. apply filter_In in I. exists s, p, o. exact I.
Qed.
Lemma to5_used id w : to5 e id (w_getops w) <> [] -> used e w GetOps id.
Proof.
  unfold to5. intro H. match type of H with context[filter ?f ?l] => remember (filter f l) as F eqn:E0 end. destruct F as [|[[[[s p] t] n] op] l]; [contradiction|]. assert (In (s, p, t, n, op) ((s, p, t, n, op) :: l)) as I by (left; reflexivity).
  rewrite E0 in I. apply filter_In in I. exists s, p, t, n, op. exact I.
Qed.
Lemma to2_used id w : to2 e id (w_dels w) <> [] -> used e w Dels id.
Proof.
  unfold to2. intro H. destruct (filter _ (w_dels w)) as [|[s p] l] eqn:E; [contradiction|]. assert (In (s, p) ((s, p) :: l)) as I by (left; reflexivity).
  rewrite <- E in I. apply filter_In in I. exists s, p. exact I.
Qed.
Lemma one_per_sub (P Q : Z -> Prop) : (forall id, P id -> Q id) -> one_per_rank e Q -> one_per_rank e P.
Proof. intros H O i j Hi Hj Pi Pj. apply O; auto. Qed.

Lemma puts_from l : Forall (good3 c) l -> Forall (fun x => an_id e (from x)) (map (put_result e) l).
Proof. intro H. apply Forall_map. revert H. apply Forall_impl. intros [[s p] o] (Gs & Gp & _). apply (at_total c e s p T Gs Gp). Qed.
Lemma gets_from M l : Forall (good2t c) l -> Forall (fun x => an_id e (from x)) (map (get_result e M) l).
Proof. intro H. apply Forall_map. revert H. apply Forall_impl. intros [[s p] o] (Gs & Gp & _). unfold get_result. pose proof (at_total c e s p T Gs Gp) as [A _]. destruct (M _ _); exact A. Qed.
Lemma scans_from M l gs : Forall (good_scan c) l -> Forall2 (scan_result e c M) l gs -> Forall (fun x => an_id e (from x)) (concat gs).
Proof.
  intros GO H2. induction H2 as [|t xs l gs Ht _ IH]; [constructor|]. inversion GO as [|? ? Gt G']; subst. cbn [concat]. apply Forall_app. split; [|apply IH, G'].
  destruct t as [[[[s p] ty] n] op]. destruct Ht as (ts & _ & ->). destruct Gt as (Gs & Gp & _). destruct (at_total c e s p T Gs Gp) as (A & _ & _).
  pose proof (scan_from (at_ e s p) s p (reply c ts (getop_req (s, p, ty, n, op)))) as X. revert X. apply Forall_impl. intros x ->. exact A.
Qed.
Lemma answers_exist cl M l : Forall (good_scan c) l -> stores e k c cl M -> exists gs, Forall2 (scan_result e c M) l gs.
Proof.
  intros GO HS. induction GO as [|t l Gt _ IH]; [exists []; constructor|].
  destruct IH as (gs & H2). destruct t as [[[[s p] ty] n] op]. destruct Gt as (Gs & Gp & _). destruct (at_total c e s p T Gs Gp) as (A & _ & _).
  destruct (HS _ A) as (d & m & _ & (rws & -> & Ha & _) & Hp). destruct (rows_contents _ _ _ Ha) as (ts & Hts & _).
  eexists (_ :: gs). constructor; [|exact H2]. exists ts. split; [|reflexivity]. eapply contents_ext; [|exact Hts]. intros s' p'. apply share_part, Hp.
Qed.

Lemma piece_step s cl w M p : queues e s w -> all_good c w -> stores e k c cl M -> named M -> one_per_rank e (used e w p) ->
  (p = GetOps -> Forall (scannable e k c M) (w_getops w)) ->
  exists s' cl' xs ys, send e s cl (Some p) = Ok (s', cl', xs) /\ queues e s' (without w p) /\ all_good c (without w p) /\
    stores e k c cl' (left_ e k M w p) /\ named (left_ e k M w p) /\ gives e k c M w p ys /\ Permutation xs ys.
Proof.
  intros [U P G O D H] (GP & GG & GO & GD) HS N Ho Hsc. destruct p; cbn [send].
  - destruct (kind_step 0 QPut kind_put _ cl _ M (put_all M (w_puts w)) (map (put_result e) (w_puts w)) P HS) as (cl' & xs & E & HS' & Pm).
    { intros id d m _ A B. exact (puts_served e k c T (far e id) id _ GP d m M A B). }
    { eapply one_per_sub; [|exact Ho]. intros id. apply to3_used. } { apply puts_from, GP. }
    eexists _, cl', xs, _. unfold flush_puts. rewrite E. cbn [obind]. split; [reflexivity|]. split.
    { constructor; cbn [with_puts s_up s_qs q_puts q_gets q_getops q_dels q_hists without w_puts w_gets w_getops w_dels]; try assumption. eapply holding_drained, P. }
    split; [repeat split; try assumption; constructor|]. split; [exact HS'|]. split; [eapply named_puts; eassumption|]. split; [reflexivity|exact Pm].
  - destruct (kind_step 1 QGet kind_get _ cl _ M M (map (get_result e M) (w_gets w)) G HS) as (cl' & xs & E & HS' & Pm).
    { intros id d m _ A B. destruct (gets_served e k c T (far e id) id _ GG d m M A B) as [E F]. exists d, m. auto. }
    { eapply one_per_sub; [|exact Ho]. intros id. apply to2t_used. } { apply gets_from, GG. }
    eexists _, cl', xs, _. unfold flush_gets. rewrite E. cbn [obind]. split; [reflexivity|]. split.
    { constructor; cbn [with_gets s_up s_qs q_puts q_gets q_getops q_dels q_hists without w_puts w_gets w_getops w_dels]; try assumption. eapply holding_drained, G. }
    split; [repeat split; try assumption; constructor|]. split; [exact HS'|]. split; [exact N|]. split; [reflexivity|exact Pm].
  - destruct (answers_exist cl M _ GO HS) as [gs H2].
    destruct (kind_step 2 QGetOp kind_getop _ cl _ M M (concat gs) O HS) as (cl' & xs & E & HS' & Pm).
    { intros id d m _ A B. destruct (scans_served e k c T id M _ gs H2 GO (Hsc eq_refl) N d m A B) as [E F]. exists d, m. auto. }
    { eapply one_per_sub; [|exact Ho]. intros id. apply to5_used. } { eapply scans_from; eassumption. }
    eexists _, cl', xs, _. unfold flush_getops. rewrite E. cbn [obind]. split; [reflexivity|]. split.
    { constructor; cbn [with_getops s_up s_qs q_puts q_gets q_getops q_dels q_hists without w_puts w_gets w_getops w_dels]; try assumption. eapply holding_drained, O. }
    split; [repeat split; try assumption; constructor|]. split; [exact HS'|]. split; [exact N|]. split; [exists gs; split; [exact H2|reflexivity]|exact Pm].
  - destruct (kind_step 3 QDel kind_del _ cl _ M (fst (del_all e k M (w_dels w))) (snd (del_all e k M (w_dels w))) D HS) as (cl' & xs & E & HS' & Pm).
    { intros id d m _ A B. exact (dels_served e k c T (far e id) id _ GD d m M A B). }
    { eapply one_per_sub; [|exact Ho]. intros id. apply to2_used. } { eapply del_from; eassumption. }
    eexists _, cl', xs, _. unfold flush_dels. rewrite E. cbn [obind]. split; [reflexivity|]. split.
    { constructor; cbn [with_dels s_up s_qs q_puts q_gets q_getops q_dels q_hists without w_puts w_gets w_getops w_dels]; try assumption. eapply holding_drained, D. }
    split; [repeat split; try assumption; constructor|]. split; [exact HS'|]. split; [apply named_dels, N|]. split; [reflexivity|exact Pm].
Qed.
Lemma hists_step s cl w M : queues e s w -> stores e k c cl M ->
  exists s' cl', flush_hists e s cl = Ok (s', cl', []) /\ queues e s' w /\ stores e k c cl' M.
Proof.
  intros [U P G O D H] HS. destruct (kind_step 5 QHist kind_hist _ cl _ M M [] H HS) as (cl' & xs & E & HS' & Pm).
  { intros id d m _ A B. exists d, m. split; [reflexivity|]. split; [exact A|]. split; [exact B|]. intros _. exact Logic.I. }
  { intros i j _ _ Hi. contradiction. } { constructor. }
  apply Permutation_sym, Permutation_nil in Pm. subst xs. eexists _, cl'. unfold flush_hists. rewrite E. cbn [obind]. split; [reflexivity|]. split; [|exact HS'].
  constructor; cbn [with_histq s_up s_qs q_puts q_gets q_getops q_dels q_hists]; try assumption. eapply holding_drained, H.
Qed.
Lemma send_step s cl w M p : queues e s w -> all_good c w -> stores e k c cl M -> named M -> pieces_fine e k c M w (pieces p) ->
  exists s' cl' xs ys, send e s cl p = Ok (s', cl', xs) /\ queues e s' (fold_left without (pieces p) w) /\ all_good c (fold_left without (pieces p) w) /\
    stores e k c cl' (left_all e k M w (pieces p)) /\ named (left_all e k M w (pieces p)) /\ give e k c M w (pieces p) ys /\ Permutation xs ys.
Proof.
  intros Q A HS N F. destruct p as [p|]; cbn [pieces pieces_fine left_all fold_left give] in *.
  - destruct F as (F1 & F2 & _). destruct (piece_step s cl w M p Q A HS N F1 F2) as (s' & cl' & xs & ys & E & Q' & A' & HS' & N' & Y & Pm).
    exists s', cl', xs, ys. repeat (split; [assumption|]). split; [|exact Pm]. exists ys, []. rewrite app_nil_r. auto.
  - destruct F as (O1 & F1 & O2 & F2 & O3 & F3 & O4 & F4 & _).
    destruct (piece_step s cl w M Puts Q A HS N O1 F1) as (s1 & c1 & x1 & y1 & E1 & Q1 & A1 & S1 & N1 & Y1 & P1).
    destruct (piece_step s1 c1 _ _ Gets Q1 A1 S1 N1 O2 F2) as (s2 & c2 & x2 & y2 & E2 & Q2 & A2 & S2 & N2 & Y2 & P2).
    destruct (piece_step s2 c2 _ _ GetOps Q2 A2 S2 N2 O3 F3) as (s3 & c3 & x3 & y3 & E3 & Q3 & A3 & S3 & N3 & Y3 & P3).
    destruct (piece_step s3 c3 _ _ Dels Q3 A3 S3 N3 O4 F4) as (s4 & c4 & x4 & y4 & E4 & Q4 & A4 & S4 & N4 & Y4 & P4).
    destruct (hists_step s4 c4 _ _ Q4 S4) as (s5 & c5 & E5 & Q5 & S5).
    exists s5, c5, (x1 ++ x2 ++ x3 ++ x4), (y1 ++ y2 ++ y3 ++ y4). split.
    { cbn [send] in *. unfold flush. rewrite E1. cbn [obind fst snd]. rewrite E2. cbn [obind fst snd]. rewrite E3. cbn [obind fst snd]. rewrite E4. cbn [obind fst snd].
      rewrite E5. cbn [obind]. rewrite app_nil_r. reflexivity. }
    split; [exact Q5|]. split; [exact A4|]. split; [exact S5|]. split; [exact N4|]. split; [|repeat (apply Permutation_app; [assumption|]); assumption].
    exists y1, (y2 ++ y3 ++ y4). split; [exact Y1|]. split; [|reflexivity]. exists y2, (y3 ++ y4). split; [exact Y2|]. split; [|reflexivity].
    exists y3, y4. split; [exact Y3|]. split; [|reflexivity]. exists y4, []. split; [exact Y4|]. split; [reflexivity|]. rewrite app_nil_r. reflexivity.
Qed.
End Client.

Lemma moves_step E k c e0 : forall l S cl M W,
  (forall i, In i (map fst l) -> good_client (E i) /\ same_cluster e0 (E i) /\ queues (E i) (S i) (W i) /\ all_good c (W i)) -> stores e0 k c cl M -> named M ->
  moves_fine E k c M W l -> exists cl' rs, moves E S cl l = Ok (cl', rs) /\ moves_seen E k c M W l rs.
Proof.
  induction l as [|[i [x|p]] l IH]; intros S cl M W HE HS N HF.
  - exists cl, []. split; reflexivity.
  - destruct HF as (Hx & HF). destruct (HE i (or_introl eq_refl)) as (G & Same & Q & A). cbn [moves moves_seen].
    destruct (call_queues (E i) c (S i) cl (W i) x G Q Hx) as (s' & ok & Ec & Q'). rewrite Ec. cbn [obind fst snd].
    apply IH; [|exact HS|exact N|exact HF]. intros j Hj. destruct (HE j (or_intror Hj)) as (G' & Same' & Qj & Aj). split; [exact G'|]. split; [exact Same'|].
    unfold next, waits. destruct (Z.eqb_spec j i) as [->|]; [split; [exact Q'|apply call_good; assumption]|split; assumption].
  - destruct HF as (Hp & HF). destruct (HE i (or_introl eq_refl)) as (G & Same & Q & A). cbn [moves moves_seen].
    destruct (send_step (E i) k c G (S i) cl (W i) M p Q A (stores_same _ _ _ _ _ _ Same HS) N Hp) as (s' & cl1 & xs & ys & Es & Q' & A' & HS' & N' & Y & Pm).
    rewrite Es. cbn [obind fst snd].
    destruct (IH (next S i s') cl1 (left_all (E i) k M (W i) (pieces p)) (waits W i (fold_left without (pieces p) (W i)))) as (cl' & rs & Em & R).
    + intros j Hj. destruct (HE j (or_intror Hj)) as (G' & Same' & Qj & Aj). split; [exact G'|]. split; [exact Same'|].
      unfold next, waits. destruct (Z.eqb_spec j i) as [->|]; split; assumption.
    + eapply stores_same; [apply same_sym, Same|exact HS'].
    + exact N'.
    + exact HF.
    + rewrite Em. cbn [obind]. exists cl', (xs :: rs). split; [reflexivity|]. exists xs, ys, rs. auto.
Qed.
(* C85 *)
Lemma cluster_moves E k c e0 S cl l :
  (forall i, In i (map fst l) -> good_client (E i) /\ same_cluster e0 (E i) /\ fresh (E i) (S i)) ->
  holds e0 cl (fun _ => opened k c) -> moves_fine E k c no_triples (fun _ => idle) l ->
  exists cl' rs, moves E S cl l = Ok (cl', rs) /\ moves_seen E k c no_triples (fun _ => idle) l rs.
Proof.
  intros HE H HF. eapply moves_step; [| | |exact HF].
  - intros i Hi. destruct (HE i Hi) as (G & Same & F). split; [exact G|]. split; [exact Same|]. split; [apply fresh_queues, F|]. repeat split; constructor.
  - intros id Hid. exists (opened k c), no_triples. split; [apply H, Hid|]. split.
    + exists []. split; [reflexivity|]. split; [apply agrees_empty|]. intros s p o Ho. discriminate.
    + intros s p. destruct (goesf e0 id s p); reflexivity.
  - intros s p o Ho. discriminate.
Qed.
