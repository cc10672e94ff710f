(* Clients working at the same time that lose operations: every run *)
From Verif Require Import ModelBytes ProofBytes ModelKey ModelWire ModelHist ModelMsg SpecMsg ProofMsg ModelStore ModelGetOp ModelDs
  SpecStore ProofStore ProofDs ProofDs2 ProofDs3 ModelElen ModelRoute SpecRoute ProofRoute ProofRoute2 ModelClient SpecClient SpecCluster ProofClient ProofClient2
  ProofClient3 ProofClient4 ProofClient5 ProofClient6 ProofClient8 ProofCluster ProofCluster2 SpecScan ProofScan2 ModelPar SpecPar ProofPar ProofPar2 ProofPar3 ProofPar4 ProofPar5
  SpecLost ProofLost ProofLost2 ProofLost3 ProofLost4 ProofLost5.
From Coq Require Import Sorted.
Local Open Scope Z_scope.

Lemma left_same {T} (e : env) (place : T -> Z) (g : Z -> T -> bool) (qs : list (list (list T))) l : (forall id a, In a l -> g id a = (place a =? id)) ->
  holding e qs (fun id => filter (g id) l) -> exists l', fewer e place l l' /\ forall id, an_id e id -> filter (g id) l' = concat (sent e qs id).
Proof.
  intros Hg Hq. destruct (left_ok e place (fun x => x) g qs l Hg) as [A B].
  { destruct Hq as (H1 & H2 & H3). split; [exact H1|]. split; [exact H2|]. intros id Hid. rewrite map_id. apply H3, Hid. }
  eexists. split; [exact A|]. intros id Hid. rewrite <- (B id Hid), map_id. reflexivity.
Qed.
Lemma fewer_In {T} e (place : T -> Z) l l' a : fewer e place l l' -> In a l' -> In a l.
Proof. intros (n & _ & ->). apply drop_In. Qed.

Definition left_scans P G O R : list call := left_calls P G R ++ [CBGetOp (Some O)].
Lemma left_scans_ops e c P G O R : total_hash e -> Forall (good3 c) P -> flat_map (call_puts e) (left_scans P G O R) = P /\
  flat_map call_gets (left_scans P G O R) = G /\ flat_map call_getops (left_scans P G O R) = O /\ flat_map call_dels (left_scans P G O R) = R.
Proof.
  intros T HP. destruct (left_puts e c P G R T HP) as (E1 & E2 & E3). unfold left_scans. rewrite !flat_map_app, E1, E2, E3.
  cbn [left_calls flat_map call_puts call_gets call_getops call_dels app]. rewrite !app_nil_r. auto.
Qed.
Lemma calls_left e k c s cl cs : good_client e -> fresh e s -> Forall (scan_call c) cs -> Forall (steady e k) (flat_map call_getops cs) ->
  exists cs' s1 oks ts, turn_left (fun _ => e) (0, cs) (0, cs') /\ do_calls e s cl cs = Ok (s1, cl, oks) /\ fresh e (flushed s1) /\
    flush_tasks e s1 = map (task_of e) ts /\ going e k c ts (opers e cs').
Proof.
  intros (S & T & Co & Ops) F Hc Hst.
  assert (Dh : defined_hash e) by (intros a b La Lb; destruct (T a b La Lb) as (id & E & Hid); exists id; split; [exact E|apply Hid]).
  assert (Hpl : Forall plain cs) by (revert Hc; apply Forall_impl, scan_plain).
  destruct (calls_ok e S Dh Ops cs s cl (proj1 F) (fresh_sized e s F)) as [[[s1 cl1] oks] Ec].
  { revert Hc. apply Forall_impl. apply scan_sane. } { exact Hpl. }
  destruct (calls_grown e cs s cl s1 cl1 oks Hpl (proj1 F) Ec) as [-> [Gu Gk GP GG GO GD GH]].
  rewrite (proj2 F) in GP, GG, GO, GD, GH. cbn [opened_session s_qs q_puts q_gets q_getops q_dels q_hists] in GP, GG, GO, GD, GH.
  apply added_holding in GP, GG, GO, GD, GH.
  destruct (scans_parts e c cs Hc) as (Q1 & Q2 & Q3 & Q4 & P5). pose proof Q1 as P1. pose proof Q2 as P2. pose proof Q3 as P3. pose proof Q4 as P4. rewrite Forall_forall in P1, P2, P3, P4.
  destruct (kind_left 0 QPut put_req mk_put body_put e k c (q_puts (s_qs s1)) (fun id => filter (fun '(s, p, _) => goes e id s p) (flat_map (call_puts e) cs)) S GP) as (q1 & t1 & H1 & E1 & F1 & O1).
  { intros id _. apply good_puts, Q1. }
  destruct (kind_left 1 QGet get_req mk_get body_get e k c (q_gets (s_qs s1)) (fun id => filter (fun '(s, p, _) => goes e id s p) (flat_map call_gets cs)) S GG) as (q2 & t2 & H2 & E2 & F2 & O2).
  { intros id _. apply good_gets, Q2. }
  destruct (kind_left 2 QGetOp getop_req OScan body_scan e k c (q_getops (s_qs s1)) (fun id => filter (fun '(s, p, _, _, _) => goes e id s p) (flat_map call_getops cs)) S GO)
    as (q4 & t4 & H4 & E4 & F4 & O4).
  { intros id _. apply good_scans; assumption. }
  destruct (kind_left 3 QDel del_req mk_del body_del e k c (q_dels (s_qs s1)) (fun id => filter (fun '(s, p) => goes e id s p) (flat_map call_dels cs)) S GD) as (q3 & t3 & H3 & E3 & F3 & O3).
  { intros id _. apply good_dels, Q3. }
  destruct (left_same e (fun '(a, b, _) => at_ e a b) (fun id '(s, p, _) => goes e id s p) q1 (flat_map (call_puts e) cs)) as (P & L1 & L1').
  { intros id [[a b] o] Ha. destruct (P1 _ Ha) as (Gs & Gp & _). apply (at_total c e a b T Gs Gp). } { exact H1. }
  destruct (left_same e (fun '(a, b, _) => at_ e a b) (fun id '(s, p, _) => goes e id s p) q2 (flat_map call_gets cs)) as (G & L2 & L2').
  { intros id [[a b] o] Ha. destruct (P2 _ Ha) as (Gs & Gp & _). apply (at_total c e a b T Gs Gp). } { exact H2. }
  destruct (left_same e (fun '(a, b, _, _, _) => at_ e a b) (fun id '(s, p, _, _, _) => goes e id s p) q4 (flat_map call_getops cs)) as (O & L4 & L4').
  { intros id [[[[a b] ty] n] op] Ha. destruct (P4 _ Ha) as (Gs & Gp & _). apply (at_total c e a b T Gs Gp). } { exact H4. }
  destruct (left_same e (fun '(a, b) => at_ e a b) (fun id '(s, p) => goes e id s p) q3 (flat_map call_dels cs)) as (R & L3 & L3').
  { intros id [a b] Ha. destruct (P3 _ Ha) as (Gs & Gp). apply (at_total c e a b T Gs Gp). } { exact H3. }
  assert (GP' : Forall (good3 c) P) by (rewrite Forall_forall; intros x Hx; apply P1; eapply fewer_In; eassumption).
  assert (GG' : Forall (good2t c) G) by (rewrite Forall_forall; intros x Hx; apply P2; eapply fewer_In; eassumption).
  assert (GO' : Forall (good_scan c) O) by (rewrite Forall_forall; intros x Hx; apply P4; eapply fewer_In; eassumption).
  assert (GD' : Forall (good2 c) R) by (rewrite Forall_forall; intros x Hx; apply P3; eapply fewer_In; eassumption).
  destruct (left_scans_ops e c P G O R T GP') as (EP & EG & EO & ER). set (cs' := left_scans P G O R) in *.
  exists cs', s1, oks, (t1 ++ t2 ++ t4 ++ t3). split; [|split; [exact Ec|split; [|split]]].
  - unfold turn_left. cbn [fst snd]. rewrite EP, EG, EO, ER. auto.
  - split; [cbn [flushed s_up]; rewrite Gu; apply F|]. cbn [flushed s_qs]. unfold opened_session. cbn [s_qs].
    rewrite !(drained_empty _ (e_total e)); [reflexivity|apply GH|apply GD|apply GO|apply GG|apply GP].
  - unfold flush_tasks. rewrite E1, E2, E3, E4.
    rewrite (holding_none e _ QHist _ GH) by (intros id; unfold hists_to; rewrite P5; reflexivity). rewrite app_nil_r, !map_app. reflexivity.
  - rewrite opers_eq, EP, EG, EO, ER. apply going_parts; try assumption; intros id Hid.
    + rewrite O1, <- (L1' id Hid) by exact Hid. reflexivity.
    + rewrite O2, <- (L2' id Hid) by exact Hid. reflexivity.
    + rewrite O4, <- (L4' id Hid) by exact Hid. reflexivity.
    + rewrite O3, <- (L3' id Hid) by exact Hid. reflexivity.
Qed.

Section Run.
Context (E : Z -> env) (k : backend) (c : codec) (e0 : env) (W : Z -> Prop).
Context (HE : forall i, W i -> good_client (E i) /\ same_cluster e0 (E i)).

Lemma left_refl (h : list shown) : (forall i cs, ~ In (Called i cs) h) -> Forall2 (call_left E) h h.
Proof.
  induction h as [|x h IH]; intros H; [constructor|]. constructor; [|apply IH; intros i cs Hi; apply (H i cs); right; exact Hi].
  destruct x as [i cs|i xs]; [exfalso; apply (H i cs); left; reflexivity|]. split; reflexivity.
Qed.
Lemma step_left st M P l : W (who l) -> inv E k c e0 W st M P -> label_data E k c l ->
  exists st' h tr0 M' P', step E st l = Ok (st', h) /\ Forall2 (call_left E) h (visible tr0) /\ inv E k c e0 W st' M' P' /\
    (forall tr, legal E k c M' P' tr -> legal E k c M P (tr0 ++ tr)).
Proof.
  intros Wi I Hl.
  assert (O : (is_call l = true -> fits_label (fst st) l = false) -> exists st' h tr0 M' P', step E st l = Ok (st', h) /\ Forall2 (call_left E) h (visible tr0) /\ inv E k c e0 W st' M' P' /\
    (forall tr, legal E k c M' P' tr -> legal E k c M P (tr0 ++ tr))).
  { intros Hf. destruct (step_other E k c e0 W HE st M P l Wi I Hf) as (st' & tr0 & M' & P' & A & B & C & _). exists st', (visible tr0), tr0, M', P'.
    split; [exact A|]. split; [|auto]. apply left_refl. intros i cs Hi. destruct l as [i' cs'|? ?|?|?|?]; try (pose proof (ProofPar5.step_called E st _ st' _ i cs A Hi); discriminate).
    specialize (Hf eq_refl). destruct st as [C' cl']. unfold fits_label in Hf. cbn [fst who] in Hf. unfold step in A. cbn [who] in A. destruct (c_mode (C' i')); [discriminate Hf|].
    injection A as _ A. rewrite <- A in Hi. destruct Hi. }
  destruct l as [i cs|i j|i|i|i]; try (apply O; discriminate). cbn [who] in *. destruct st as [C cl]. pose proof I as (St & Nm & HC). cbn [fst snd] in St, HC. pose proof (HC _ Wi) as [Fs Cm].
  destruct (HE _ Wi) as (Gc & _).
  destruct (c_mode (C i)) as [|ts xs] eqn:Em; [|apply O; intros _; unfold fits_label; cbn [who fst]; rewrite Em; reflexivity].
  destruct (P i) as [[? ?]|] eqn:EP; [destruct Cm|].
  destruct Hl as [Hl Hst]. destruct (calls_left (E i) k c (c_ses (C i)) cl cs Gc Fs Hl Hst) as (cs' & s1 & oks & ats & Tl & Ec & F1 & Ef & G).
  exists (set_client C i (mkClient (flushed s1) (Busy (flush_tasks (E i) s1) [])), cl), [Called i cs], [ECall i cs'], M, (upd P i (Some (opers (E i) cs', []))).
  split; [|split; [|split]].
  - cbn [step who]. rewrite Em, Ec. cbn [obind fst snd]. reflexivity.
  - cbn [visible flat_map app]. constructor; [|constructor]. unfold call_left, turn_left in *. cbn [fst snd] in *. exact (conj eq_refl (proj2 Tl)).
  - eapply inv_set; [exact I|exact St|exact Nm| |intros j Hj; apply upd_other, Hj]. rewrite upd_same. split; [exact F1|]. cbn [c_mode]. split; [reflexivity|]. exists ats. auto.
  - intros tr L. cbn [app]. apply legal_call; [exact EP|exact L].
Qed.
Lemma run_left : forall ls st M P, Forall (fun l => W (who l) /\ label_data E k c l) ls -> inv E k c e0 W st M P ->
  exists st' h tr M' P', run E st ls = Ok (st', h) /\ Forall2 (call_left E) h (visible tr) /\ inv E k c e0 W st' M' P' /\ legal E k c M P tr.
Proof.
  induction ls as [|l ls IH]; intros st M P HF I.
  - exists st, [], [], M, P. split; [reflexivity|]. split; [constructor|]. split; [exact I|constructor].
  - inversion HF as [|? ? [Wl Hl] HF']; subst. destruct (step_left st M P l Wl I Hl) as (st1 & h0 & tr0 & M1 & P1 & E1 & V1 & I1 & L1).
    destruct (IH st1 M1 P1 HF' I1) as (st2 & h & tr & M2 & P2 & E2 & V2 & I2 & L2). exists st2, (h0 ++ h), (tr0 ++ tr), M2, P2.
    cbn [run]. rewrite E1. cbn [obind]. rewrite E2. cbn [obind]. rewrite visible_app. split; [reflexivity|]. split; [apply Forall2_app; assumption|]. auto.
Qed.
End Run.

Lemma parallel_left E k c e0 S cl ls :
  (forall i, In i (map who ls) -> good_client (E i) /\ same_cluster e0 (E i) /\ fresh (E i) (S i)) ->
  holds e0 cl (fun _ => opened k c) -> Forall (label_data E k c) ls ->
  exists st h h', run E (starting S cl) ls = Ok (st, h) /\ Forall2 (call_left E) h h' /\ explained E k c h' /\
    forall i, In i (map who ls) -> ~ idle st i ->
      exists ls' st' xs, Forall (fun l => who l = i) ls' /\ run E st ls' = Ok (st', [Returned i xs]) /\ idle st' i.
Proof.
  intros HE H HF. set (W := fun i => In i (map who ls)).
  assert (HW : forall i, W i -> good_client (E i) /\ same_cluster e0 (E i)) by (intros i Hi; destruct (HE i Hi) as (A & B & _); auto).
  assert (I0 : inv E k c e0 W (starting S cl) no_triples (fun _ => None)).
  { split; [apply opened_stores, H|]. split; [intros s p o Ho; discriminate|]. intros i Hi. split; [apply HE, Hi|exact I]. }
  destruct (run_left E k c e0 W HW ls (starting S cl) no_triples (fun _ => None)) with (2 := I0) as (st & h & tr & M' & P' & R & V & Iv & L).
  - apply Forall_forall. intros l Hl. rewrite Forall_forall in HF. split; [apply in_map, Hl|apply HF, Hl].
  - exists st, h, (visible tr). split; [exact R|]. split; [exact V|]. split; [exists tr; auto|]. intros i Hi Hn.
    destruct (go_on E k c e0 W HW i Hi _ st M' P' Iv (Nat.le_refl _) Hn) as (ls' & st' & xs & F' & R' & I' & _). exists ls', st', xs.
    split; [revert F'; apply Forall_impl; tauto|auto].
Qed.
