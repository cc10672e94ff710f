(* One result for every operation *)
From Verif Require Import ModelBytes ProofBytes ModelKey ModelWire ModelHist ModelMsg SpecMsg ModelStore ModelGetOp ModelDs
  SpecStore ProofStore ProofDs ProofDs2 ProofDs3 ModelElen ModelRoute SpecRoute ProofRoute ProofRoute2 ModelClient SpecClient
  ProofClient ProofClient2 ProofClient3 ProofClient4 ProofClient5 ProofClient6.
Local Open Scope Z_scope.

(* the tags of the results of one request *)
Definition yields (q : body) (T : Z -> list tag) : Prop :=
  forall f id d d' xs, d_open d = true -> serve_one f id d q = Ok (d', xs) -> d_open d' = true /\ flat_map result_tag xs = T id.

Lemma serve_open f id d q d' xs : serve_one f id d q = Ok (d', xs) -> d_open d' = d_open d.
Proof. unfold serve_one. intros H. apply obind_ok in H as ([d1 r] & E & H). apply obind_ok in H as (ys & _ & H). injection H as <- _. apply (operate_keeps _ _ _ _ E). Qed.

Lemma yields_put s p o : yields (QPut [put_req (s, p, o)]) (fun id => [TPut id (arg_ref s) (arg_ref p)]).
Proof.
  intros f id d d' xs Ho H. pose proof (serve_open _ _ _ _ _ _ H) as Hk. split; [congruence|]. unfold serve_one in H.
  apply obind_ok in H as ([d1 r] & E & H). apply obind_ok in H as (ys & E2 & H). injection H as _ <-.
  assert (Eq : exists i, (if f then seen_body (QPut [put_req (s, p, o)]) else QPut [put_req (s, p, o)]) = QPut [i] /\
     orig_ref (pi_sub_addr i) (pi_sub i) = arg_ref s /\ orig_ref (pi_pred_addr i) (pi_pred i) = arg_ref p)
    by (destruct f; eexists; (split; [reflexivity|split; reflexivity])).
  destruct Eq as (i & Eq & R1 & R2). rewrite Eq in E. destruct (operate_put_one _ _ _ _ Ho E) as (db & st & hs & B & _ & _ & ->).
  assert (Es : si_sub st = arg_ref s /\ si_pred st = arg_ref p).
  { rewrite <- R1, <- R2. destruct (d_kind d); cbn [bput] in B.
    - cbn [im_bput] in B. apply obind_ok in B as (kv & _ & B). destruct kv as [[k v]|]; cbn [obind] in B; injection B as _ <-; split; reflexivity.
    - unfold ldb_bput in B. apply obind_ok in B as (b & _ & B). cbn [map] in B. injection B as _ <-. split; reflexivity. }
  destruct f; cbn [seen_body] in E2; unfold results_of in E2; cbn [m_body m_src map] in E2; injection E2 as <-; cbn [flat_map result_tag app]; rewrite (proj1 Es), (proj2 Es); reflexivity.
Qed.
Lemma yields_get s p ty : yields (QGet [get_req (s, p, ty)]) (fun id => [TGet id (arg_ref s) (arg_ref p)]).
Proof.
  intros f id d d' xs Ho H. pose proof (serve_open _ _ _ _ _ _ H) as Hk. split; [congruence|]. unfold serve_one in H.
  apply obind_ok in H as ([d1 r] & E & H). apply obind_ok in H as (ys & E2 & H). injection H as _ <-.
  assert (Eq : exists i, (if f then seen_body (QGet [get_req (s, p, ty)]) else QGet [get_req (s, p, ty)]) = QGet [i] /\
     orig_ref (gi_sub_addr i) (gi_sub i) = arg_ref s /\ orig_ref (gi_pred_addr i) (gi_pred i) = arg_ref p)
    by (destruct f; eexists; (split; [reflexivity|split; reflexivity])).
  destruct Eq as (i & Eq & R1 & R2). rewrite Eq, operate_get in E by exact Ho. apply obind_ok in E as (rs & E & E'). injection E' as _ <-.
  apply omap_cons in E as (g & rs' & E & E' & ->). injection E' as <-. unfold bget1 in E. apply obind_ok in E as (ob & _ & E). injection E as <-.
  rewrite R1, R2 in E2. destruct f; cbn [seen_body map] in E2; unfold results_of in E2; cbn [m_body m_src map] in E2; injection E2 as <-; reflexivity.
Qed.
Lemma yields_del s p : yields (QDel [del_req (s, p)]) (fun id => [TDel id (arg_ref s) (arg_ref p)]).
Proof.
  intros f id d d' xs Ho H. pose proof (serve_open _ _ _ _ _ _ H) as Hk. split; [congruence|]. unfold serve_one in H.
  apply obind_ok in H as ([d1 r] & E & H). apply obind_ok in H as (ys & E2 & H). injection H as _ <-.
  assert (Eq : exists i, (if f then seen_body (QDel [del_req (s, p)]) else QDel [del_req (s, p)]) = QDel [i] /\
     orig_ref (di_sub_addr i) (di_sub i) = arg_ref s /\ orig_ref (di_pred_addr i) (di_pred i) = arg_ref p)
    by (destruct f; eexists; (split; [reflexivity|split; reflexivity])).
  destruct Eq as (i & Eq & R1 & R2). rewrite Eq, operate_del in E by exact Ho. apply obind_ok in E as ([db sts] & E & E'). injection E' as _ <-.
  assert (Es : exists st, sts = [st] /\ si_sub st = arg_ref s /\ si_pred st = arg_ref p).
  { rewrite <- R1, <- R2. destruct (d_kind d); cbn [bdel] in E.
    - cbn [im_bdel] in E. apply obind_ok in E as (kv & _ & E). destruct kv as [k|]; [destruct (db_get k (d_rows d))|]; cbn [obind] in E; injection E as _ <-; eexists; split; try reflexivity; split; reflexivity.
    - unfold ldb_bdel in E. apply obind_ok in E as (b & _ & E). cbn [map] in E. injection E as _ <-. eexists; split; [reflexivity|split; reflexivity]. }
  destruct Es as (st & -> & R1' & R2').
  destruct f; cbn [seen_body] in E2; unfold results_of in E2; cbn [m_body m_src map] in E2; injection E2 as <-; cbn [flat_map result_tag app]; rewrite R1', R2'; reflexivity.
Qed.
Lemma yields_hist b : yields (QHist [b]) (fun id => [THist id]).
Proof.
  intros f id d d' xs Ho H. pose proof (serve_open _ _ _ _ _ _ H) as Hk. split; [congruence|]. unfold serve_one in H.
  apply obind_ok in H as ([d1 r] & E & H). apply obind_ok in H as (ys & E2 & H). injection H as _ <-.
  destruct f; cbn [seen_body map operate] in E; injection E as _ <-; cbn [seen_body map] in E2; unfold results_of in E2; cbn [m_body m_src map] in E2; injection E2 as <-; reflexivity.
Qed.
Lemma yields_getop i : yields (QGetOp [i]) (fun _ => []).
Proof.
  intros f id d d' xs Ho H. pose proof (serve_open _ _ _ _ _ _ H) as Hk. split; [congruence|]. unfold serve_one in H.
  apply obind_ok in H as ([d1 r] & E & H). apply obind_ok in H as (ys & E2 & H). injection H as _ <-.
  assert (Er : exists l, match r with Some r => r | None => no_response (QGetOp [i]) end = RGetOp l).
  { destruct f; cbn [seen_body map] in E; rewrite operate_getop in E by exact Ho; apply obind_ok in E as (l & _ & E); injection E as _ <-; exists l; reflexivity. }
  destruct Er as (l & Er). rewrite Er in E2. clear -E2. assert (X : exists l', results_of (mkMsg id 0 (RGetOp l')) = Ok ys).
  { destruct f; [|eauto]. cbn [seen_body] in E2. eauto. }
  destruct X as (l' & X). unfold results_of in X. cbn [m_body m_src] in X. apply obind_ok in X as (rs & X & X'). injection X' as <-. clear -X.
  revert rs X; induction l' as [|g l' IH]; intros rs X; [injection X as <-; reflexivity|]. apply omap_cons in X as (y & r' & Y & X & ->).
  cbn [concat]. rewrite flat_map_app, (IH _ X), app_nil_r. unfold getop_results in Y. destruct (gp_recs g) as [|a rs]; [discriminate|]. injection Y as <-.
  cbn [flat_map result_tag app]. clear. induction rs as [|b l IH]; [reflexivity|]. exact IH.
Qed.

Lemma yields_all {A} (wrap : A -> body) (T : A -> Z -> list tag) (f : bool) id : forall l, Forall (fun a => yields (wrap a) (T a)) l -> forall d d' xs,
  d_open d = true -> serve_all f id d (map wrap l) = Ok (d', xs) -> d_open d' = true /\ flat_map result_tag xs = flat_map (fun a => T a id) l.
Proof.
  induction 1 as [|a l Ha _ IH]; intros d d' xs Ho H; cbn [map serve_all] in H.
  - injection H as <- <-. auto.
  - apply obind_ok in H as ([d1 x] & E & H). apply obind_ok in H as ([d2 y] & E2 & H). injection H as <- <-.
    destruct (Ha _ _ _ _ _ Ho E) as [Ho1 T1]. destruct (IH _ _ _ Ho1 E2) as [Ho2 T2]. split; [exact Ho2|]. rewrite flat_map_app, T1, T2. reflexivity.
Qed.

Definition tag_id (t : tag) : Z := match t with TPut i _ _ | TGet i _ _ | TDel i _ _ | THist i => i end.
Definition all_tags (e : env) (cs : list call) : list tag :=
  flat_map (fun '(s, p, _) => pair_tag e TPut s p) (flat_map (call_puts e) cs) ++ flat_map (fun '(s, p, _) => pair_tag e TGet s p) (flat_map call_gets cs) ++
  flat_map (fun '(s, p) => pair_tag e TDel s p) (flat_map call_dels cs) ++ map (fun x => THist (fst x)) (flat_map (call_hists e) cs).
Lemma all_tags_calls e cs : Permutation (all_tags e cs) (flat_map (call_tags e) cs).
Proof.
  unfold all_tags. induction cs as [|c cs IH]; [constructor|]. cbn [flat_map]. rewrite <- IH. unfold call_tags.
  rewrite !flat_map_app, map_app. rewrite <- !app_assoc. apply Permutation_app_head.
  rewrite !(Permutation_app_comm (flat_map _ (flat_map (call_puts e) cs))). rewrite <- !app_assoc.
  apply Permutation_app_head. rewrite (Permutation_app_swap_app (flat_map _ (flat_map call_gets cs))). apply Permutation_app_head.
  rewrite (app_assoc (flat_map _ (flat_map call_gets cs))). rewrite (Permutation_app_swap_app _ (map _ (call_hists e c))). apply Permutation_app_head.
  rewrite <- !app_assoc. reflexivity.
Qed.
Lemma pair_tag_filter e (t : Z -> ref -> ref -> tag) s p id : (forall i a b, tag_id (t i a b) = i) -> 0 <= id ->
  filter (fun x => tag_id x =? id) (pair_tag e t s p) = if goes e id s p then [t id (arg_ref s) (arg_ref p)] else [].
Proof.
  intros Ht Hid. unfold pair_tag, goes. destruct (target e s p) as [i|]; [|reflexivity]. destruct (Z.leb_spec 0 i); cbn [filter].
  - rewrite Ht. destruct (Z.eqb_spec i id) as [->|]; reflexivity.
  - destruct (Z.eqb_spec i id); [lia|reflexivity].
Qed.
Lemma filter_flat {A B} (f : B -> bool) (g : A -> list B) (h : A -> bool) (k : A -> B) l :
  (forall a, filter f (g a) = if h a then [k a] else []) -> filter f (flat_map g l) = map k (filter h l).
Proof. intros H. induction l as [|a l IH]; [reflexivity|]. cbn [flat_map filter]. rewrite filter_app, H, IH. destruct (h a); reflexivity. Qed.
Lemma flat_single {A B} (k : A -> B) l : flat_map (fun a => [k a]) l = map k l.
Proof. induction l as [|a l IH]; [reflexivity|]. cbn [flat_map map app]. rewrite IH. reflexivity. Qed.
Lemma flat_none {A B} (l : list A) : flat_map (fun _ => @nil B) l = [].
Proof. induction l; auto. Qed.

Lemma requests_tags e f id cs d d' xs : 0 <= id -> d_open d = true -> serve_all f id d (requests_to e id cs) = Ok (d', xs) ->
  flat_map result_tag xs = filter (fun t => tag_id t =? id) (all_tags e cs).
Proof.
  intros Hid Ho H. unfold requests_to in H.
  apply serve_all_app in H as (d1 & x1 & y1 & E1 & H & ->). apply serve_all_app in H as (d2 & x2 & y2 & E2 & H & ->).
  apply serve_all_app in H as (d3 & x3 & y3 & E3 & H & ->). apply serve_all_app in H as (d4 & x4 & x5 & E4 & E5 & ->).
  unfold puts_to in E1. rewrite map_map in E1. apply (yields_all _ (fun '(s, p, _) => fun id => [TPut id (arg_ref s) (arg_ref p)])) in E1 as [O1 T1]; [|apply Forall_forall; intros [[s p] o] _; apply yields_put|exact Ho].
  unfold gets_to in E2. rewrite map_map in E2. apply (yields_all _ (fun '(s, p, _) => fun id => [TGet id (arg_ref s) (arg_ref p)])) in E2 as [O2 T2]; [|apply Forall_forall; intros [[s p] o] _; apply yields_get|exact O1].
  unfold getops_to in E3. rewrite map_map in E3. apply (yields_all _ (fun _ => fun _ => [])) in E3 as [O3 T3]; [|apply Forall_forall; intros x _; apply yields_getop|exact O2].
  unfold dels_to in E4. rewrite map_map in E4. apply (yields_all _ (fun '(s, p) => fun id => [TDel id (arg_ref s) (arg_ref p)])) in E4 as [O4 T4]; [|apply Forall_forall; intros [s p] _; apply yields_del|exact O3].
  unfold hists_to in E5. rewrite map_map in E5. apply (yields_all _ (fun _ => fun id => [THist id])) in E5 as [O5 T5]; [|apply Forall_forall; intros x _; apply yields_hist|exact O4].
  rewrite !flat_map_app, T1, T2, T3, T4, T5, flat_none. cbn [app]. unfold all_tags. rewrite !filter_app.
  rewrite (filter_flat _ _ (fun '(s, p, _) => goes e id s p) (fun '(s, p, _) => TPut id (arg_ref s) (arg_ref p))) by (intros [[s p] o]; apply pair_tag_filter; [reflexivity|exact Hid]).
  rewrite (filter_flat _ _ (fun '(s, p, _) => goes e id s p) (fun '(s, p, _) => TGet id (arg_ref s) (arg_ref p))) by (intros [[s p] o]; apply pair_tag_filter; [reflexivity|exact Hid]).
  rewrite (filter_flat _ _ (fun '(s, p) => goes e id s p) (fun '(s, p) => TDel id (arg_ref s) (arg_ref p))) by (intros [s p]; apply pair_tag_filter; [reflexivity|exact Hid]).
  f_equal; [|f_equal; [|f_equal]].
  - rewrite <- flat_single. apply flat_map_ext. intros [[s p] o]. reflexivity.
  - rewrite <- flat_single. apply flat_map_ext. intros [[s p] o]. reflexivity.
  - rewrite <- flat_single. apply flat_map_ext. intros [s p]. reflexivity.
  - rewrite flat_single. generalize (flat_map (call_hists e) cs). intros l. induction l as [|x l IH]; [reflexivity|]. cbn [map filter tag_id].
    destruct (Z.eqb_spec (fst x) id) as [E|]; cbn [map]; [rewrite IH; rewrite E; reflexivity|exact IH].
Qed.

Lemma pair_tag_range e (t : Z -> ref -> ref -> tag) s p n : (forall i a b, tag_id (t i a b) = i) -> (forall id, n <= id -> goes e id s p = false) ->
  Forall (fun x => 0 <= tag_id x < n) (pair_tag e t s p).
Proof.
  intros Ht H. unfold pair_tag, goes in *. destruct (target e s p) as [i|]; [|constructor]. destruct (Z.leb_spec 0 i); [|constructor].
  constructor; [|constructor]. rewrite Ht. split; [lia|]. destruct (Z.lt_ge_cases i n) as [L|L]; [exact L|]. specialize (H i L). rewrite Z.eqb_refl in H. discriminate.
Qed.
Lemma filter_nil_In {A} (f : A -> bool) l x : filter f l = [] -> In x l -> f x = false.
Proof. intros H Hx. destruct (f x) eqn:E; [|reflexivity]. assert (In x (filter f l)) by (apply filter_In; auto). rewrite H in H0. destruct H0. Qed.

(* C32 *)
Lemma one_result_each e s cl cs s1 cl1 oks (D D' : Z -> ds) (X : Z -> list result) :
  setting e -> fresh e s -> holds e cl D -> Forall plain cs -> do_calls e s cl cs = Ok (s1, cl1, oks) ->
  spread e cs -> reachable e D cs -> (forall id, an_id e id -> d_open (D id) = true) ->
  (forall id, an_id e id -> serve_all (far e id) id (D id) (requests_to e id cs) = Ok (D' id, X id)) ->
  exists s2 cl2 xs, flush e s1 cl1 = Ok (s2, cl2, xs) /\ Permutation (flat_map result_tag xs) (flat_map (call_tags e) cs).
Proof.
  intros S F H Hp Hc Sp R Ho Hs.
  destruct (calls_then_flush e s cl cs s1 cl1 oks D D' X S F H Hp Hc Sp R Hs) as (_ & s2 & cl2 & xs & Ef & _ & _ & _ & _ & _ & P).
  exists s2, cl2, xs. split; [exact Ef|]. rewrite <- all_tags_calls.
  destruct (calls_grown e cs s cl s1 cl1 oks Hp (proj1 F) Hc) as [_ G]. destruct F as [_ Fq].
  assert (T0 : 0 <= e_total e).
  { rewrite (set_total _ S). unfold datastores. destruct (set_layout _ S) as (_ & _ & _ & Hper & _). unfold servers. nia. }
  assert (Big : forall id, e_total e <= id -> puts_to e id cs = [] /\ gets_to e id cs = [] /\ dels_to e id cs = [] /\ hists_to e id cs = []).
  { intros id Hid. destruct G as [_ _ (_ & _ & _ & p) (_ & _ & _ & g) _ (_ & _ & _ & d) (_ & _ & _ & h)]. specialize (p id). specialize (g id). specialize (d id). specialize (h id).
    rewrite Fq in p, g, d, h. cbn [opened_session s_qs q_puts q_gets q_dels q_hists] in p, g, d, h. rewrite empty_length in p. rewrite empty_length in g. rewrite empty_length in d. rewrite empty_length in h.
    unfold nn in *. destruct (Z.leb_spec 0 id); [|lia]. split; [apply p; lia|]. split; [apply g; lia|]. split; [apply d; lia|apply h; lia]. }
  assert (Rg : Forall (fun x => 0 <= tag_id x < e_total e) (all_tags e cs)).
  { assert (Fm : forall A (g : A -> list tag) l, (forall a, In a l -> Forall (fun x => 0 <= tag_id x < e_total e) (g a)) -> Forall (fun x => 0 <= tag_id x < e_total e) (flat_map g l)).
    { intros A g l Hg. apply Forall_forall. intros x Hx. apply in_flat_map in Hx as (a & Ha & Hx). specialize (Hg a Ha). rewrite Forall_forall in Hg. apply Hg, Hx. }
    unfold all_tags. rewrite !Forall_app. split; [|split; [|split]].
    - apply Fm. intros [[a b] o] Ha. apply pair_tag_range; [reflexivity|]. intros id Hid. destruct (Big id Hid) as (B & _). unfold puts_to in B. apply map_eq_nil in B. apply (filter_nil_In _ _ _ B Ha).
    - apply Fm. intros [[a b] o] Ha. apply pair_tag_range; [reflexivity|]. intros id Hid. destruct (Big id Hid) as (_ & B & _). unfold gets_to in B. apply map_eq_nil in B. apply (filter_nil_In _ _ _ B Ha).
    - apply Fm. intros [a b] Ha. apply pair_tag_range; [reflexivity|]. intros id Hid. destruct (Big id Hid) as (_ & _ & B & _). unfold dels_to in B. apply map_eq_nil in B. apply (filter_nil_In _ _ _ B Ha).
    - apply Forall_forall. intros t Ht. apply in_map_iff in Ht as (x & <- & Hx). cbn [tag_id]. split.
      + clear -Hx. apply in_flat_map in Hx as (c & _ & Hx). destruct c; try destruct Hx; cbn [call_hists] in Hx.
        * destruct (accepts e id) eqn:Ea; [|destruct Hx]. destruct Hx as [<-|[]]. apply (accepts_id e), Ea.
        * destruct l as [l|]; [|destruct Hx]. destruct (forallb _ l) eqn:Ea; [|destruct Hx]. rewrite forallb_forall in Ea. apply (accepts_id e), Ea, Hx.
      + destruct (Z.lt_ge_cases (fst x) (e_total e)) as [L|L]; [exact L|]. destruct (Big _ L) as (_ & _ & _ & B). unfold hists_to in B. apply map_eq_nil in B.
        pose proof (filter_nil_In _ _ _ B Hx) as E. cbn beta in E. rewrite Z.eqb_refl in E. discriminate. }
  rewrite (by_key tag_id (all_tags e cs) (e_total e) T0 Rg).
  rewrite (Permutation_flat_map result_tag P). clear P.
  assert (Q : forall l, Forall (an_id e) l -> flat_map result_tag (flat_map X l) = flat_map (fun id => filter (fun x => tag_id x =? id) (all_tags e cs)) l).
  { induction 1 as [|i l Hi Hl IH]; [reflexivity|]. cbn [flat_map]. rewrite flat_map_app, IH. f_equal.
    eapply requests_tags; [apply Hi|apply Ho, Hi|apply Hs, Hi]. }
  rewrite Q; [reflexivity|]. apply Forall_forall. intros i Hi. apply upto_In, Hi.
Qed.
