(* Flush *)
From Verif Require Import ModelBytes ProofBytes ModelKey ModelWire ModelHist ModelMsg SpecMsg ModelStore ModelGetOp ModelDs
  SpecStore ProofStore ProofDs ProofDs2 ModelElen ModelRoute SpecRoute ProofRoute ProofRoute2 ModelClient SpecClient
  ProofClient ProofClient2 ProofClient3 ProofClient4.
Local Open Scope Z_scope.

Section Kind.
Context {A : Type} (n : N) (wrap : list A -> body) (K : kind n wrap) (e : env) (S : setting e).

(* queues that hold the items L id for datastore id *)
Definition holding (qs : list (list (list A))) (L : Z -> list A) : Prop :=
  length qs = Z.to_nat (e_total e) /\ tidy e qs /\ forall id, an_id e id -> concat (queue_of qs id) = L id.

Lemma queue_tidy (qs : list (list (list A))) id : tidy e qs -> Forall (packet_ok e) (queue_of qs id).
Proof.
  intros H. unfold queue_of. destruct (Nat.lt_ge_cases (Z.to_nat id) (length qs)) as [Hl|Hl].
  - unfold tidy in H. rewrite Forall_forall in H. apply H, nth_In, Hl.
  - rewrite nth_overflow by exact Hl. constructor.
Qed.
Lemma concat_nonempty (q : list (list A)) : Forall (packet_ok e) q -> (q = [] <-> concat q = []).
Proof.
  intros H. split; [intros ->; reflexivity|]. intros E. destruct q as [|p q]; [reflexivity|]. inversion H as [|? ? [Hp _] _]; subst.
  cbn [concat] in E. apply app_eq_nil in E as [E _]. congruence.
Qed.

Lemma kind_flush qs cl (L : Z -> list A) (D D' : Z -> ds) (X : Z -> list result) :
  holding qs L -> holds e cl D ->
  (forall id, an_id e id -> serve_all (far e id) id (D id) (map (fun i => wrap [i]) (L id)) = Ok (D' id, X id)) ->
  (forall id, an_id e id -> far e id = true -> L id <> [] -> routed e id /\ fits_wire (D id) (map (fun i => wrap [i]) (L id))) ->
  one_per_rank e (fun id => L id <> []) ->
  exists cl' xs, process e wrap qs cl = Ok (cl', xs) /\ holds e cl' D' /\ frame e cl cl' /\
    (forall id, an_id e id -> filter (of_id id) xs = X id) /\ Forall (fun x => an_id e (from x)) xs.
Proof.
  intros (HL & HT & HC) H Hs Hf Ho.
  assert (Hne : forall id, an_id e id -> queue_of qs id <> [] -> L id <> []).
  { intros id Hid Hq El. apply Hq. apply concat_nonempty; [apply queue_tidy, HT|]. rewrite HC by exact Hid. exact El. }
  apply (process_spec e S wrap) with (D := D).
  - intros p. apply (k_op _ _ K).
  - exact HL.
  - exact H.
  - intros id Hid. specialize (Hs id Hid). rewrite <- (HC id Hid) in Hs. apply (join_packets n wrap K) in Hs; [exact Hs|].
    pose proof (queue_tidy qs id HT) as Q. apply (Forall_impl _) with (2 := Q). intros p [Hp _]. exact Hp.
  - intros id Hid Hq Ff. destruct (Hf id Hid Ff (Hne id Hid Hq)) as [R F]. split; [exact R|]. rewrite <- (HC id Hid) in F.
    apply (fits_packets n wrap K); [|exact F].
    pose proof (queue_tidy qs id HT) as Q. apply (Forall_impl _) with (2 := Q). intros p [Hp Hl]. split; [exact Hp|].
    unfold u64. pose proof (set_ops _ S). lia.
  - intros i j Hi Hj Ui Uj. apply Ho; auto.
Qed.
End Kind.

Lemma drained_empty {A} (qs : list (list (list A))) n : length qs = Z.to_nat n -> drained qs = empty_queues n.
Proof. unfold drained, empty_queues. intros <-. induction qs as [|q qs IH]; [reflexivity|]. cbn [map length repeat]. f_equal. exact IH. Qed.

Lemma fits_run d l f id d' xs : fits_wire d l -> f = true -> serve_all f id d l = Ok (d', xs) ->
  exists rs, ds_run d (map (fun q => CallReq (seen_body q)) l) = Ok (d', rs).
Proof.
  intros Hf ->. revert d d' xs Hf. induction l as [|q l IH]; intros d d' xs Hf H; cbn [serve_all fits_wire] in H, Hf.
  - injection H as <- <-. exists []. reflexivity.
  - destruct Hf as (_ & d1 & r & Eo & _ & Hf). obind H a Ea. destruct a as [da xa]. obind H b Eb. destruct b as [db xb]. injection H as <- <-.
    unfold serve_one in Ea. rewrite Eo in Ea. cbn [obind] in Ea. obind Ea x Ex. injection Ea as <- <-.
    destruct (IH _ _ _ Hf Eb) as [rs Ers]. exists (r :: rs). cbn [map]. apply (run_cons _ _ _ _ _ _ _ Eo Ers).
Qed.

(* the split of the requests of a datastore into kinds *)
Lemma split_kinds e id (D : Z -> ds) (l1 l2 : list body) d' x :
  serve_all (far e id) id (D id) (l1 ++ l2) = Ok (d', x) ->
  (far e id = true -> l1 ++ l2 <> [] -> routed e id /\ fits_wire (D id) (l1 ++ l2)) ->
  exists d1 x1 x2, serve_all (far e id) id (D id) l1 = Ok (d1, x1) /\ serve_all (far e id) id d1 l2 = Ok (d', x2) /\ x = x1 ++ x2 /\
    (far e id = true -> l1 <> [] -> routed e id /\ fits_wire (D id) l1) /\ (far e id = true -> l2 <> [] -> routed e id /\ fits_wire d1 l2).
Proof.
  intros H Hf. pose proof H as H0. apply serve_all_app in H as (d1 & x1 & x2 & E1 & E2 & ->). exists d1, x1, x2.
  split; [exact E1|]. split; [exact E2|]. split; [reflexivity|]. split; intros Ff Hne.
  - destruct (Hf Ff ltac:(intros E; apply app_eq_nil in E as [E _]; contradiction)) as [R F]. split; [exact R|]. apply fits_app in F. apply F.
  - destruct (Hf Ff ltac:(intros E; apply app_eq_nil in E as [_ E]; contradiction)) as [R F]. split; [exact R|]. apply fits_app in F as [F1 F2]. apply F2.
    eapply fits_run; eassumption.
Qed.

Definition pick {B} (dflt : B) (o : outcome B) : B := match o with Ok b => b | _ => dflt end.
Definition servable (e : env) (D : Z -> ds) (l : Z -> list body) : Prop :=
  forall id, an_id e id -> far e id = true -> l id <> [] -> routed e id /\ fits_wire (D id) (l id).
Lemma split_fun e (D D' : Z -> ds) (X : Z -> list result) (l1 l2 : Z -> list body) :
  (forall id, an_id e id -> serve_all (far e id) id (D id) (l1 id ++ l2 id) = Ok (D' id, X id)) ->
  servable e D (fun id => l1 id ++ l2 id) ->
  exists D1 X1 X2, (forall id, an_id e id -> serve_all (far e id) id (D id) (l1 id) = Ok (D1 id, X1 id)) /\
    (forall id, an_id e id -> serve_all (far e id) id (D1 id) (l2 id) = Ok (D' id, X2 id)) /\
    (forall id, an_id e id -> X id = X1 id ++ X2 id) /\ servable e D l1 /\ servable e D1 l2.
Proof.
  intros Hs Hf.
  set (D1 := fun id => fst (pick (D id, []) (serve_all (far e id) id (D id) (l1 id)))).
  set (X1 := fun id => snd (pick (D id, []) (serve_all (far e id) id (D id) (l1 id)))).
  set (X2 := fun id => snd (pick (D id, []) (serve_all (far e id) id (D1 id) (l2 id)))).
  assert (G : forall id, an_id e id -> serve_all (far e id) id (D id) (l1 id) = Ok (D1 id, X1 id) /\
     serve_all (far e id) id (D1 id) (l2 id) = Ok (D' id, X2 id) /\ X id = X1 id ++ X2 id /\
     (far e id = true -> l1 id <> [] -> routed e id /\ fits_wire (D id) (l1 id)) /\ (far e id = true -> l2 id <> [] -> routed e id /\ fits_wire (D1 id) (l2 id))).
  { intros id Hid. destruct (split_kinds e id D _ _ _ _ (Hs id Hid) (Hf id Hid)) as (d1 & x1 & x2 & E1 & E2 & E3 & F1 & F2).
    assert (Ed : D1 id = d1) by (unfold D1; rewrite E1; reflexivity). assert (Ex : X1 id = x1) by (unfold X1; rewrite E1; reflexivity).
    assert (Ex2 : X2 id = x2) by (unfold X2; rewrite Ed, E2; reflexivity). rewrite Ed, Ex, Ex2. auto. }
  exists D1, X1, X2. split; [intros id Hid; apply (G id Hid)|]. split; [intros id Hid; apply (G id Hid)|]. split; [intros id Hid; apply (G id Hid)|].
  split; intros id Hid; apply (G id Hid).
Qed.

Lemma flush_kinds e s cl (P : Z -> list put_item) (G : Z -> list get_item) (O : Z -> list getop_item) (Dl : Z -> list del_item) (Hi : Z -> list blob)
  (D D' : Z -> ds) (X : Z -> list result) :
  setting e -> holds e cl D ->
  holding e (q_puts (s_qs s)) P -> holding e (q_gets (s_qs s)) G -> holding e (q_getops (s_qs s)) O ->
  holding e (q_dels (s_qs s)) Dl -> holding e (q_hists (s_qs s)) Hi ->
  one_per_rank e (fun id => P id <> []) -> one_per_rank e (fun id => G id <> []) -> one_per_rank e (fun id => O id <> []) ->
  one_per_rank e (fun id => Dl id <> []) -> one_per_rank e (fun id => Hi id <> []) ->
  let Q id := map (fun i => QPut [i]) (P id) ++ map (fun i => QGet [i]) (G id) ++ map (fun i => QGetOp [i]) (O id) ++
              map (fun i => QDel [i]) (Dl id) ++ map (fun i => QHist [i]) (Hi id) in
  (forall id, an_id e id -> serve_all (far e id) id (D id) (Q id) = Ok (D' id, X id)) ->
  (forall id, an_id e id -> far e id = true -> Q id <> [] -> routed e id /\ fits_wire (D id) (Q id)) ->
  exists cl' xs, flush e s cl = Ok (mkSession (s_up s) (s_qs (opened_session e)) 0 (s_kept s), cl', xs) /\ holds e cl' D' /\ frame e cl cl' /\
    (forall id, an_id e id -> filter (of_id id) xs = X id) /\ Forall (fun x => an_id e (from x)) xs.
Proof.
  intros S H HP HG HO HD HH U1 U2 U3 U4 U5 Q Hs Hf.
  destruct (split_fun e D D' X _ _ Hs Hf) as (D1 & X1 & Y1 & E1 & Hs1 & EX1 & F1 & Hf1).
  destruct (split_fun e D1 D' Y1 _ _ Hs1 Hf1) as (D2 & X2 & Y2 & E2 & Hs2 & EX2 & F2 & Hf2).
  destruct (split_fun e D2 D' Y2 _ _ Hs2 Hf2) as (D3 & X3 & Y3 & E3 & Hs3 & EX3 & F3 & Hf3).
  destruct (split_fun e D3 D' Y3 _ _ Hs3 Hf3) as (D4 & X4 & X5 & E4 & E5 & EX4 & F4 & F5).
  assert (NM : forall (T : Type) (w : T -> body) (l : list T), l <> [] -> map w l <> []) by (intros T w l Hl; destruct l; [congruence|discriminate]).
  destruct (kind_flush 0 QPut kind_put e S _ cl P D D1 X1 HP H E1) as (c1 & x1 & R1 & H1 & W1 & B1 & A1); [intros id Hid Ff Hne; apply F1; auto|exact U1|].
  destruct (kind_flush 1 QGet kind_get e S _ c1 G D1 D2 X2 HG H1 E2) as (c2 & x2 & R2 & H2 & W2 & B2 & A2); [intros id Hid Ff Hne; apply F2; auto|exact U2|].
  destruct (kind_flush 2 QGetOp kind_getop e S _ c2 O D2 D3 X3 HO H2 E3) as (c3 & x3 & R3 & H3 & W3 & B3 & A3); [intros id Hid Ff Hne; apply F3; auto|exact U3|].
  destruct (kind_flush 3 QDel kind_del e S _ c3 Dl D3 D4 X4 HD H3 E4) as (c4 & x4 & R4 & H4 & W4 & B4 & A4); [intros id Hid Ff Hne; apply F4; auto|exact U4|].
  destruct (kind_flush 5 QHist kind_hist e S _ c4 Hi D4 D' X5 HH H4 E5) as (c5 & x5 & R5 & H5 & W5 & B5 & A5); [intros id Hid Ff Hne; apply F5; auto|exact U5|].
  exists c5, (x1 ++ x2 ++ x3 ++ x4 ++ x5). split.
  { unfold flush, flush_puts, flush_gets, flush_getops, flush_dels, flush_hists. rewrite R1. cbn [obind fst snd with_puts s_qs q_gets].
    rewrite R2. cbn [obind fst snd with_gets with_puts s_qs q_getops]. rewrite R3. cbn [obind fst snd with_getops with_gets with_puts s_qs q_dels].
    rewrite R4. cbn [obind fst snd with_dels with_getops with_gets with_puts s_qs q_hists]. rewrite R5.
    cbn [obind fst snd with_histq with_dels with_getops with_gets with_puts s_qs q_puts q_gets q_getops q_dels q_hists s_up s_count s_kept].
    rewrite (drained_empty _ _ (proj1 HP)), (drained_empty _ _ (proj1 HG)), (drained_empty _ _ (proj1 HO)), (drained_empty _ _ (proj1 HD)), (drained_empty _ _ (proj1 HH)).
    reflexivity. }
  split; [exact H5|]. split; [repeat (eapply frame_trans; [eassumption|]); apply frame_refl|]. split.
  - intros id Hid. rewrite !filter_app, (B1 id Hid), (B2 id Hid), (B3 id Hid), (B4 id Hid), (B5 id Hid).
    rewrite (EX1 id Hid), (EX2 id Hid), (EX3 id Hid), (EX4 id Hid). reflexivity.
  - repeat (apply Forall_app; split; [assumption|]). assumption.
Qed.

(* ---- calls, then Flush ---- *)
Lemma added_holding {A} e (L : Z -> list A) qs' : added e (nn L) (empty_queues (e_total e)) qs' -> holding e qs' L.
Proof.
  intros (A1 & A2 & A3 & _). split; [rewrite A1; apply empty_length|]. split; [apply A2, empty_tidy|].
  intros id Hid. rewrite A3 by apply Hid. rewrite empty_queue_of. cbn [concat app]. unfold nn.
  destruct (Z.leb_spec 0 id); [reflexivity|]. destruct Hid. lia.
Qed.

Lemma calls_then_flush e s cl cs s1 cl1 oks (D D' : Z -> ds) (X : Z -> list result) :
  setting e -> fresh e s -> holds e cl D -> Forall plain cs -> do_calls e s cl cs = Ok (s1, cl1, oks) ->
  spread e cs -> reachable e D cs ->
  (forall id, an_id e id -> serve_all (far e id) id (D id) (requests_to e id cs) = Ok (D' id, X id)) ->
  cl1 = cl /\ exists s2 cl2 xs, flush e s1 cl1 = Ok (s2, cl2, xs) /\ fresh e s2 /\ s_kept s2 = s_kept s /\ holds e cl2 D' /\
    (forall r off, elsewhere e r off -> cl2 r off = cl r off) /\
    (forall id, an_id e id -> filter (of_id id) xs = X id) /\ Permutation xs (flat_map X (upto (e_total e))).
Proof.
  intros S [Fu Fq] H Hp Hc (U1 & U2 & U3 & U4 & U5) Hr Hs.
  destruct (calls_grown e cs s cl s1 cl1 oks Hp Fu Hc) as [-> [Gu Gk GP GG GO GD GH]]. split; [reflexivity|].
  rewrite Fq in GP, GG, GO, GD, GH. cbn [opened_session s_qs q_puts q_gets q_getops q_dels q_hists] in GP, GG, GO, GD, GH.
  destruct (flush_kinds e s1 cl _ _ _ _ _ D D' X S H (added_holding e _ _ GP) (added_holding e _ _ GG) (added_holding e _ _ GO)
              (added_holding e _ _ GD) (added_holding e _ _ GH) U1 U2 U3 U4 U5 Hs Hr) as (cl2 & xs & E & H2 & W & B & A).
  exists (mkSession (s_up s1) (s_qs (opened_session e)) 0 (s_kept s1)), cl2, xs.
  split; [exact E|]. split; [split; [cbn [s_up]; congruence|reflexivity]|]. split; [exact Gk|]. split; [exact H2|]. split; [exact W|]. split; [exact B|].
  assert (T : 0 <= e_total e).
  { rewrite (set_total _ S). unfold datastores. destruct (set_layout _ S) as (_ & _ & _ & Hper & _). unfold servers. nia. }
  rewrite (by_ids xs (e_total e) T A) at 1.
  assert (Ef : forall l, Forall (an_id e) l -> flat_map (fun id => filter (of_id id) xs) l = flat_map X l).
  { induction l as [|i l IH]; intros Hl; [reflexivity|]. inversion Hl; subst. cbn [flat_map]. rewrite B, IH by assumption. reflexivity. }
  rewrite Ef; [apply Permutation_refl|]. apply Forall_forall. intros i Hi. apply upto_In in Hi. exact Hi.
Qed.
