(* Calls and flushes in any order, with objects that do not come back as they were stored *)
From Verif Require Import ModelBytes ProofBytes ModelKey ModelWire ModelHist ModelMsg SpecMsg ModelStore ModelGetOp ModelDs
  SpecStore ProofStore ProofDs ProofDs2 ModelElen ModelRoute SpecRoute ProofRoute ProofRoute2 ModelClient SpecClient SpecCluster
  ProofClient ProofClient2 ProofClient3 ProofClient4 ProofClient5 ProofClient6 ProofCluster ProofCluster2 SpecGetOp SpecScan
  SpecTyped ProofTyped ProofTyped2 SpecMixed ProofMixed SpecMixed3 SpecStore.
Local Open Scope N_scope.

Definition obj_good (c : codec) (w : waiting) : Prop :=
  Forall (obj3 c) (w_puts w) /\ Forall (good2t c) (w_gets w) /\ w_getops w = [] /\ Forall (good2 c) (w_dels w).
Definition keep_wait (c : codec) (w : waiting) : waiting := mkWaiting (map (keep3 c) (w_puts w)) (w_gets w) (w_getops w) (w_dels w).

Lemma call_queues2 e c s cl w x : good_client e -> queues e s w -> obj_call c x -> exists s' ok, do_call e s cl x = Ok (s', cl, ok) /\ queues e s' (wait e w x).
Proof.
  intros (St & T & Co & Ops) [U P G O D H] Hx.
  assert (Dh : defined_hash e) by (intros a b La Lb; destruct (T a b La Lb) as (id & E & Hid); exists id; split; [exact E|apply Hid]).
  destruct (call_ok e St Dh Ops s cl x) as [[[s' cl'] ok] E].
  { split; [apply P|]. split; [apply G|]. split; [apply O|]. split; [apply D|apply H]. } { eapply obj_call_sane, Hx. } { eapply obj_plain, Hx. }
  destruct (call_grown e s cl x s' cl' ok (obj_plain c x Hx) U E) as [-> [Gu Gk GP GG GO GD GH]].
  exists s', ok. split; [exact E|].
  assert (F : forall A B (f : call -> list A) (p : A -> bool) (r : A -> B) l, map r (filter p (l ++ f x)) = map r (filter p l) ++ map r (filter p (flat_map f [x]))).
  { intros. cbn [flat_map]. rewrite app_nil_r, filter_app, map_app. reflexivity. }
  constructor; [congruence| | | | |].
  - eapply holding_added; [exact P|exact GP|]. intro id. apply F.
  - eapply holding_added; [exact G|exact GG|]. intro id. apply F.
  - eapply holding_added; [exact O|exact GO|]. intro id. apply F.
  - eapply holding_added; [exact D|exact GD|]. intro id. apply F.
  - eapply holding_added; [exact H|exact GH|]. intro id. unfold hists_to. cbn [flat_map]. destruct (obj_parts e c x Hx) as (_ & _ & _ & _ & -> & _). reflexivity.
Qed.
Lemma call_good2 e c w x : obj_call c x -> obj_good c w -> obj_good c (wait e w x).
Proof.
  intros Hx (A & B & C & D). destruct (obj_parts e c x Hx) as (A' & B' & D' & C' & _). cbn [wait w_puts w_gets w_getops w_dels]. unfold obj_good. cbn [wait w_puts w_gets w_getops w_dels].
  split; [apply Forall_app; auto|]. split; [apply Forall_app; auto|]. split; [rewrite C, C'; reflexivity|]. apply Forall_app; auto.
Qed.
Lemma keep_call e c w x : obj_call c x -> keep_wait c (wait e w x) = wait e (keep_wait c w) (kept c x).
Proof.
  intros Hx. destruct (obj_parts e c x Hx) as (_ & _ & _ & C & _ & P & G & D). unfold keep_wait, wait. cbn [w_puts w_gets w_getops w_dels].
  rewrite map_app, P, G, D, C. f_equal. f_equal. destruct x as [| | | | |l| | | | | | |]; try (cbn [kept]; symmetry; exact C); destruct l; reflexivity.
Qed.
Lemma keep_without c w p : keep_wait c (without w p) = without (keep_wait c w) p.
Proof. destruct p; reflexivity. Qed.
Lemma keep_pieces c ps : forall w, keep_wait c (fold_left without ps w) = fold_left without ps (keep_wait c w).
Proof. induction ps as [|p ps IH]; intro w; [reflexivity|]. cbn [fold_left]. rewrite IH, keep_without. reflexivity. Qed.

Section Client.
Context (e : env) (k : backend) (c : codec) (GC : good_client e).
Let St : setting e := proj1 GC.
Let T : total_hash e := proj1 (proj2 GC).
Let Co : connected e := proj1 (proj2 (proj2 GC)).
(* one kind: every datastore answers with its part of ys *)
Lemma kind_step2 {A} n (wrap : list A -> body) (K : kind n wrap) qs cl (L : Z -> list A) M M' ys :
  holding e qs L -> stores2 e k c cl M ->
  (forall id d m, an_id e id -> at_obj k c d m -> part e id M m ->
     exists d' m', serve_all (far e id) id d (map (fun i => wrap [i]) (L id)) = Ok (d', filter (of_id id) ys) /\ at_obj k c d' m' /\ part e id M' m' /\
       (far e id = true -> fits_wire d (map (fun i => wrap [i]) (L id)))) ->
  one_per_rank e (fun id => L id <> []) -> Forall (fun x => an_id e (from x)) ys ->
  exists cl' xs, process e wrap qs cl = Ok (cl', xs) /\ stores2 e k c cl' M' /\ Permutation xs ys.
Proof.
  intros H HS Hv Ho Hy.
  assert (Hd : exists D : Z -> ds, forall id, an_id e id -> cl (rank_of e id) (id mod l_per (e_layout e))%Z = Some (D id) /\ exists m, at_obj k c (D id) m /\ part e id M m).
  { apply (choose e (fun id d => cl (rank_of e id) (id mod l_per (e_layout e))%Z = Some d /\ exists m, at_obj k c d m /\ part e id M m) (opened k c)).
    intros id Hid. destruct (HS id Hid) as (d & m & A' & B). exists d. split; [exact A'|]. exists m. exact B. }
  destruct Hd as [D HD].
  assert (Hd' : exists D' : Z -> ds, forall id, an_id e id -> serve_all (far e id) id (D id) (map (fun i => wrap [i]) (L id)) = Ok (D' id, filter (of_id id) ys) /\
     (exists m, at_obj k c (D' id) m /\ part e id M' m) /\ (far e id = true -> fits_wire (D id) (map (fun i => wrap [i]) (L id)))).
  { apply (choose e (fun id d' => serve_all (far e id) id (D id) (map (fun i => wrap [i]) (L id)) = Ok (d', filter (of_id id) ys) /\
     (exists m, at_obj k c d' m /\ part e id M' m) /\ (far e id = true -> fits_wire (D id) (map (fun i => wrap [i]) (L id)))) (opened k c)).
    intros id Hid. destruct (HD id Hid) as (_ & m & A' & B). destruct (Hv id (D id) m Hid A' B) as (d' & m' & E1 & A1 & B1 & F1).
    exists d'. split; [exact E1|]. split; [|exact F1]. exists m'. auto. }
  destruct Hd' as [D' HD'].
  destruct (kind_flush n wrap K e St qs cl L D D' (fun id => filter (of_id id) ys) H) as (cl' & xs & E & H' & _ & B & F).
  - intros id Hid. apply HD, Hid.
  - intros id Hid. apply HD', Hid.
  - intros id Hid Ff _. split; [apply Co; assumption|apply HD'; assumption].
  - exact Ho.
  - exists cl', xs. split; [exact E|]. split.
    + intros id Hid. destruct (HD' id Hid) as (_ & (m & A1 & B1) & _). exists (D' id), m. split; [apply H', Hid|]. auto.
    + apply (same_by_id (e_total e)); [exact (total_0 e GC)|exact F|exact Hy|exact B].
Qed.


Lemma puts_from2 l : Forall (obj3 c) l -> Forall (fun x => an_id e (from x)) (map (put_result e) (map (keep3 c) l)).
Proof. intro H. rewrite map_map. apply Forall_map. revert H. apply Forall_impl. intros [[s p] o] (Gs & Gp & _). apply (at_total c e s p T Gs Gp). Qed.
Lemma piece_step2 s cl w M p : queues e s w -> obj_good c w -> stores2 e k c cl M -> one_per_rank e (used e w p) ->
  exists s' cl' xs ys, send e s cl (Some p) = Ok (s', cl', xs) /\ queues e s' (without w p) /\ obj_good c (without w p) /\
    stores2 e k c cl' (left_ e k M (keep_wait c w) p) /\ gives e k c M (keep_wait c w) p ys /\ Permutation xs ys.
Proof.
  intros [U P G O D H] (GP & GG & GO & GD) HS Ho. destruct p; cbn [send left_ keep_wait w_puts w_gets w_getops w_dels].
  - destruct (kind_step2 0 QPut kind_put _ cl _ M (put_all M (map (keep3 c) (w_puts w))) (map (put_result e) (map (keep3 c) (w_puts w))) P HS) as (cl' & xs & E & HS' & Pm).
    { intros id d m _ A B. exact (puts_served2 e k c T (far e id) id _ GP d m M A B). }
    { eapply one_per_sub; [|exact Ho]. intros id. apply to3_used. } { apply puts_from2, GP. }
    eexists _, cl', xs, _. unfold flush_puts. rewrite E. cbn [obind]. split; [reflexivity|]. split.
    { constructor; cbn [with_puts s_up s_qs q_puts q_gets q_getops q_dels q_hists without w_puts w_gets w_getops w_dels]; try assumption. eapply holding_drained, P. }
    split; [repeat split; try assumption; constructor|]. split; [exact HS'|]. split; [reflexivity|exact Pm].
  - destruct (kind_step2 1 QGet kind_get _ cl _ M M (map (get_result e M) (w_gets w)) G HS) as (cl' & xs & E & HS' & Pm).
    { intros id d m _ A B. destruct (gets_served2 e k c T (far e id) id _ GG d m M A B) as [E F]. exists d, m. auto. }
    { eapply one_per_sub; [|exact Ho]. intros id. apply to2t_used. } { apply (gets_from e c GC), GG. }
    eexists _, cl', xs, _. unfold flush_gets. rewrite E. cbn [obind]. split; [reflexivity|]. split.
    { constructor; cbn [with_gets s_up s_qs q_puts q_gets q_getops q_dels q_hists without w_puts w_gets w_getops w_dels]; try assumption. eapply holding_drained, G. }
    split; [repeat split; try assumption; constructor|]. split; [exact HS'|]. split; [reflexivity|exact Pm].
  - rewrite GO in O. destruct (kind_step2 2 QGetOp kind_getop _ cl _ M M [] O HS) as (cl' & xs & E & HS' & Pm).
    { intros id d m _ A B. exists d, m. split; [reflexivity|]. split; [exact A|]. split; [exact B|]. intros _. exact Logic.I. }
    { intros i j _ _ Hi. exfalso. apply Hi. reflexivity. } { constructor. }
    eexists _, cl', xs, _. unfold flush_getops. rewrite E. cbn [obind]. split; [reflexivity|]. split.
    { constructor; cbn [with_getops s_up s_qs q_puts q_gets q_getops q_dels q_hists without w_puts w_gets w_getops w_dels]; try assumption. eapply holding_drained, O. }
    split; [repeat split; try assumption; constructor|]. split; [exact HS'|]. split; [|exact Pm].
    cbn [gives keep_wait w_getops]. rewrite GO. exists []. split; [constructor|reflexivity].
  - destruct (kind_step2 3 QDel kind_del _ cl _ M (fst (del_all e k M (w_dels w))) (snd (del_all e k M (w_dels w))) D HS) as (cl' & xs & E & HS' & Pm).
    { intros id d m _ A B. exact (dels_served2 e k c T (far e id) id _ GD d m M A B). }
    { eapply one_per_sub; [|exact Ho]. intros id. apply to2_used. } { eapply del_from; eassumption. }
    eexists _, cl', xs, _. unfold flush_dels. rewrite E. cbn [obind]. split; [reflexivity|]. split.
    { constructor; cbn [with_dels s_up s_qs q_puts q_gets q_getops q_dels q_hists without w_puts w_gets w_getops w_dels]; try assumption. eapply holding_drained, D. }
    split; [repeat split; try assumption; constructor|]. split; [exact HS'|]. split; [reflexivity|exact Pm].
Qed.
Lemma hists_step2 s cl w M : queues e s w -> stores2 e k c cl M ->
  exists s' cl', flush_hists e s cl = Ok (s', cl', []) /\ queues e s' w /\ stores2 e k c cl' M.
Proof.
  intros [U P G O D H] HS. destruct (kind_step2 5 QHist kind_hist _ cl _ M M [] H HS) as (cl' & xs & E & HS' & Pm).
  { intros id d m _ A B. exists d, m. split; [reflexivity|]. split; [exact A|]. split; [exact B|]. intros _. exact Logic.I. }
  { intros i j _ _ Hi. contradiction. } { constructor. }
  apply Permutation_sym, Permutation_nil in Pm. subst xs. eexists _, cl'. unfold flush_hists. rewrite E. cbn [obind]. split; [reflexivity|]. split; [|exact HS'].
  constructor; cbn [with_histq s_up s_qs q_puts q_gets q_getops q_dels q_hists]; try assumption. eapply holding_drained, H.
Qed.
Lemma send_step2 s cl w M p : queues e s w -> obj_good c w -> stores2 e k c cl M -> pieces_apart e w (pieces p) ->
  exists s' cl' xs ys, send e s cl p = Ok (s', cl', xs) /\ queues e s' (fold_left without (pieces p) w) /\ obj_good c (fold_left without (pieces p) w) /\
    stores2 e k c cl' (left_all e k M (keep_wait c w) (pieces p)) /\ give e k c M (keep_wait c w) (pieces p) ys /\ Permutation xs ys.
Proof.
  intros Q A HS F. destruct p as [p|]; cbn [pieces pieces_apart left_all fold_left give] in *.
  - destruct F as (F1 & _). destruct (piece_step2 s cl w M p Q A HS F1) as (s' & cl' & xs & ys & E & Q' & A' & HS' & Y & Pm).
    exists s', cl', xs, ys. repeat (split; [assumption|]). split; [|exact Pm]. exists ys, []. rewrite app_nil_r. auto.
  - destruct F as (O1 & O2 & O3 & O4 & _).
    destruct (piece_step2 s cl w M Puts Q A HS O1) as (s1 & c1 & x1 & y1 & E1 & Q1 & A1 & S1 & Y1 & P1).
    destruct (piece_step2 s1 c1 _ _ Gets Q1 A1 S1 O2) as (s2 & c2 & x2 & y2 & E2 & Q2 & A2 & S2 & Y2 & P2).
    destruct (piece_step2 s2 c2 _ _ GetOps Q2 A2 S2 O3) as (s3 & c3 & x3 & y3 & E3 & Q3 & A3 & S3 & Y3 & P3).
    destruct (piece_step2 s3 c3 _ _ Dels Q3 A3 S3 O4) as (s4 & c4 & x4 & y4 & E4 & Q4 & A4 & S4 & Y4 & P4).
    destruct (hists_step2 s4 c4 _ _ Q4 S4) as (s5 & c5 & E5 & Q5 & S5).
    exists s5, c5, (x1 ++ x2 ++ x3 ++ x4), (y1 ++ y2 ++ y3 ++ y4). split.
    { cbn [send] in *. unfold flush. rewrite E1. cbn [obind fst snd]. rewrite E2. cbn [obind fst snd]. rewrite E3. cbn [obind fst snd]. rewrite E4. cbn [obind fst snd].
      rewrite E5. cbn [obind]. rewrite app_nil_r. reflexivity. }
    split; [exact Q5|]. split; [exact A4|]. split; [exact S5|]. split; [|repeat (apply Permutation_app; [assumption|]); assumption].
    exists y1, (y2 ++ y3 ++ y4). split; [exact Y1|]. split; [|reflexivity]. exists y2, (y3 ++ y4). split; [exact Y2|]. split; [|reflexivity].
    exists y3, y4. split; [exact Y3|]. split; [|reflexivity]. exists y4, []. split; [exact Y4|]. split; [reflexivity|]. rewrite app_nil_r. reflexivity.
Qed.
End Client.

Lemma moves_step2 E k c e0 : forall l S cl M W W',
  (forall i, In i (map fst l) -> good_client (E i) /\ same_cluster e0 (E i) /\ queues (E i) (S i) (W i) /\ obj_good c (W i)) -> stores2 e0 k c cl M ->
  (forall i, W' i = keep_wait c (W i)) -> Forall (obj_move c) l -> moves_apart E W l ->
  exists cl' rs, moves E S cl l = Ok (cl', rs) /\ moves_seen E k c M W' (map (kept_move c) l) rs.
Proof.
  induction l as [|[i [x|p]] l IH]; intros S cl M W W' HE HS EW HF HA; [exists cl, []; split; reflexivity| |];
    apply Forall_cons_iff in HF as [Hx HF]; destruct (HE i (or_introl eq_refl)) as (G & Same & Q & A);
    cbn [moves moves_seen map kept_move fst snd moves_apart] in *; cbn [obj_move snd] in Hx.
  - destruct (call_queues2 (E i) c (S i) cl (W i) x G Q Hx) as (s' & ok & Ec & Q'). rewrite Ec. cbn [obind fst snd].
    eapply IH; [|exact HS| |exact HF|exact HA].
    + intros j Hj. destruct (HE j (or_intror Hj)) as (G' & Same' & Qj & Aj). split; [exact G'|]. split; [exact Same'|].
      unfold next, waits. destruct (Z.eqb_spec j i) as [->|]; [split; [exact Q'|apply call_good2; assumption]|split; assumption].
    + intro j. unfold waits. destruct (Z.eqb_spec j i) as [->|]; [|apply EW]. rewrite EW. symmetry. apply keep_call, Hx.
  - destruct HA as (Hp & HA).
    destruct (send_step2 (E i) k c G (S i) cl (W i) M p Q A (stores2_same _ _ _ _ _ _ Same HS) Hp) as (s' & cl1 & xs & ys & Es & Q' & A' & HS' & Y & Pm).
    rewrite Es. cbn [obind fst snd]. rewrite <- EW in HS', Y.
    destruct (IH (next S i s') cl1 (left_all (E i) k M (W' i) (pieces p)) (waits W i (fold_left without (pieces p) (W i))) (waits W' i (fold_left without (pieces p) (W' i)))) as (cl' & rs & Em & R).
    + intros j Hj. destruct (HE j (or_intror Hj)) as (G' & Same' & Qj & Aj). split; [exact G'|]. split; [exact Same'|].
      unfold next, waits. destruct (Z.eqb_spec j i) as [->|]; split; assumption.
    + eapply stores2_same; [apply same_sym, Same|exact HS'].
    + intro j. unfold waits. destruct (Z.eqb_spec j i) as [->|]; [|apply EW]. rewrite EW. symmetry. apply keep_pieces.
    + exact HF.
    + exact HA.
    + rewrite Em. cbn [obind]. exists cl', (xs :: rs). split; [reflexivity|]. exists xs, ys, rs. auto.
Qed.
Lemma cluster_moves2 E k c e0 S cl l :
  (forall i, In i (map fst l) -> good_client (E i) /\ same_cluster e0 (E i) /\ fresh (E i) (S i)) ->
  holds e0 cl (fun _ => opened k c) -> Forall (obj_move c) l -> moves_apart E (fun _ => idle) l ->
  exists cl' rs, moves E S cl l = Ok (cl', rs) /\ moves_seen E k c no_triples (fun _ => idle) (map (kept_move c) l) rs.
Proof.
  intros HE H HF HA. eapply moves_step2; [| | |exact HF|exact HA].
  - intros i Hi. destruct (HE i Hi) as (G & Same & F). split; [exact G|]. split; [exact Same|]. split; [apply fresh_queues, F|]. repeat split; constructor.
  - intros id Hid. exists (opened k c), no_triples. split; [apply H, Hid|]. split.
    + exists [], no_triples. split; [reflexivity|]. split; [apply agrees2_empty|]. reflexivity.
    + intros s p. destruct (goesf e0 id s p); reflexivity.
  - reflexivity.
Qed.

(* one datastore on every range server *)
Lemma pieces_apart_one e ps : setting e -> l_per (e_layout e) = 1%Z -> forall w, pieces_apart e w ps.
Proof.
  intros S H1. induction ps as [|p ps IH]; intros w; [exact Logic.I|]. split; [|apply IH].
  intros i j Hi Hj _ _ _ Hr. apply (loc_inj e i j S Hi Hj). unfold loc. rewrite Hr, H1, !Z.mod_1_r. reflexivity.
Qed.
Lemma moves_apart_one E l : (forall i, In i (map fst l) -> setting (E i) /\ l_per (e_layout (E i)) = 1%Z) -> forall W, moves_apart E W l.
Proof.
  induction l as [|[i [x|p]] l IH]; intros H W; [exact Logic.I| |]; cbn [moves_apart]; [|split; [destruct (H i (or_introl eq_refl)); apply pieces_apart_one; assumption|]];
    apply IH; intros j Hj; apply H; right; exact Hj.
Qed.
