(* Clients working at the same time: every run can be explained by one map *)
From Verif Require Import ModelBytes ProofBytes ModelKey ModelWire ModelHist ModelMsg SpecMsg ModelStore ModelGetOp ModelDs
  SpecStore ProofStore ProofDs ProofDs2 ModelElen ModelRoute SpecRoute ProofRoute ProofRoute2 ModelClient SpecClient SpecCluster
  ProofClient ProofClient2 ProofClient3 ProofClient4 ProofClient5 ProofClient6 ProofCluster ProofCluster2 SpecScan ProofScan2 ModelPar SpecPar ProofPar ProofPar2.
From Coq Require Import Sorted.
Local Open Scope N_scope.

(* ---- operations taking effect ---- *)
Definition phased (l : list oper) : Prop := StronglySorted (fun a b => (phase a <= phase b)%nat) l.
Definition here (e : env) (id : Z) (a : oper) : bool := (place e a =? id)%Z.
Lemma phased_app_inv l1 l2 : phased (l1 ++ l2) -> phased l1 /\ phased l2 /\ forall a b, In a l1 -> In b l2 -> (phase a <= phase b)%nat.
Proof.
  unfold phased. induction l1 as [|a l1 IH]; cbn [app]; intros H.
  - split; [constructor|]. split; [exact H|]. intros a b [].
  - inversion H as [|? ? H1 H2]; subst. destruct (IH H1) as (A & B & C). rewrite Forall_forall in H2. split; [|split; [exact B|]].
    + constructor; [exact A|]. apply Forall_forall. intros x Hx. apply H2, in_app_iff. auto.
    + intros x y [<-|Hx] Hy; [apply H2, in_app_iff; auto|auto].
Qed.
Lemma phased_app l1 l2 : phased l1 -> phased l2 -> (forall a b, In a l1 -> In b l2 -> (phase a <= phase b)%nat) -> phased (l1 ++ l2).
Proof.
  unfold phased. induction l1 as [|a l1 IH]; cbn [app]; intros H1 H2 H; [exact H2|]. inversion H1 as [|? ? A B]; subst. constructor.
  - apply IH; [exact A|exact H2|]. intros x y Hx Hy. apply H; [right; exact Hx|exact Hy].
  - apply Forall_app. split; [exact B|]. apply Forall_forall. intros y Hy. apply H; [left; reflexivity|exact Hy].
Qed.
Lemma take_one e id n : forall l a rest, phased l -> filter (here e id) l = a :: rest -> (forall b, In b l -> (n <= phase b)%nat) -> phase a = n ->
  exists l1 l2, l = l1 ++ a :: l2 /\ (forall b, In b l1 -> phase b = phase a /\ place e b <> place e a) /\ filter (here e id) (l1 ++ l2) = rest /\
    (forall j, j <> id -> filter (here e j) (l1 ++ l2) = filter (here e j) l).
Proof.
  induction l as [|b l IH]; intros a rest Hs Hf Hn Ha; [discriminate|]. cbn [filter] in Hf. inversion Hs as [|? ? S1 S2]; subst.
  destruct (here e id b) eqn:Eb.
  - injection Hf as -> Hf. exists [], l. split; [reflexivity|]. split; [intros x []|]. split; [exact Hf|]. intros j Hj. cbn [app filter].
    unfold here in Eb |- *. destruct (Z.eqb_spec (place e a) j); [lia|reflexivity].
  - destruct (IH a rest S1 Hf) as (l1 & l2 & -> & H1 & H2 & H3); [intros x Hx; apply Hn; right; exact Hx|reflexivity|].
    exists (b :: l1), l2. split; [reflexivity|]. split; [|split].
    + intros x [<-|Hx]; [|auto]. split.
      * rewrite Forall_forall in S2. specialize (S2 a ltac:(apply in_app_iff; right; left; reflexivity)). specialize (Hn b (or_introl eq_refl)). lia.
      * assert (Ia : In a (filter (here e id) (l1 ++ a :: l2))) by (rewrite Hf; left; reflexivity). apply filter_In in Ia as [_ Ia]. unfold here in Ia, Eb. lia.
    + cbn [app filter]. rewrite Eb. exact H2.
    + intros j Hj. cbn [app filter]. rewrite (H3 j Hj). reflexivity.
Qed.
Section Take.
Context (E : Z -> env) (k : backend) (c : codec) (i : Z).
Lemma take_all id n : forall ops l M M' ys (P : pending) xs rest, effects (E i) k c M ops M' ys -> P i = Some (l, xs) -> phased l -> (forall b, In b l -> (n <= phase b)%nat) ->
  Forall (fun a => phase a = n) ops -> filter (here (E i) id) l = ops ++ rest ->
  exists l' (P' : pending), P' i = Some (l', xs ++ ys) /\ (forall j, j <> i -> P' j = P j) /\ phased l' /\ (forall b, In b l' -> In b l) /\
    filter (here (E i) id) l' = rest /\ (forall j, j <> id -> filter (here (E i) j) l' = filter (here (E i) j) l) /\
    forall tr, legal E k c M' P' tr -> legal E k c M P (map (EOper i) ops ++ tr).
Proof.
  induction ops as [|a ops IH]; intros l M M' ys P xs rest He HP Hs Hn Ho Hf.
  - destruct He as [-> ->]. exists l, P. cbn [map app]. rewrite app_nil_r. cbn [app] in Hf. auto 10.
  - inversion Ho as [|? ? Ha Ho']; subst. cbn [app] in Hf. destruct He as (M1 & x & zs & He1 & He2 & ->).
    destruct (take_one (E i) id (phase a) l a (ops ++ rest) Hs Hf Hn eq_refl) as (l1 & l2 & -> & H1 & H2 & H3).
    destruct (IH (l1 ++ l2) M1 M' zs (upd P i (Some (l1 ++ l2, xs ++ x))) (xs ++ x) rest He2) as (l' & P' & A1 & A2 & A3 & A4 & A5 & A6 & A7).
    + unfold upd. rewrite Z.eqb_refl. reflexivity.
    + apply phased_app_inv in Hs as (S1 & S2 & S3). inversion S2; subst. apply phased_app; [exact S1|assumption|]. intros u v Hu Hv. apply S3; [exact Hu|right; exact Hv].
    + intros b Hb. apply Hn. apply in_app_iff in Hb. apply in_app_iff. destruct Hb; [auto|right; right; assumption].
    + exact Ho'.
    + exact H2.
    + exists l', P'. split; [rewrite A1, <- app_assoc; reflexivity|]. split; [|split; [exact A3|split; [|split; [exact A5|split]]]].
      * intros j Hj. rewrite (A2 j Hj). unfold upd. destruct (Z.eqb_spec j i); [contradiction|reflexivity].
      * intros b Hb. apply A4 in Hb. apply in_app_iff in Hb. apply in_app_iff. destruct Hb; [auto|right; right; assumption].
      * intros j Hj. rewrite (A6 j Hj). apply H3, Hj.
      * intros tr L. cbn [map app]. eapply (legal_oper E k c M P i a l1 l2 xs); [exact HP|exact H1|exact He1|]. apply A7, L.
Qed.
End Take.

(* ---- a client and what is pending for it ---- *)
Record going (e : env) (k : backend) (c : codec) (ts : list atask) (l : list oper) : Prop := {
  go_tasks : Forall (task_ok e k c) ts;
  go_kinds : StronglySorted le (map a_kind ts);
  go_phased : phased l;
  go_ids : forall a, In a l -> an_id e (place e a);
  go_ops : forall id, an_id e id -> ops_at id ts = filter (here e id) l
}.
Lemma task_entry e k c t x : task_ok e k c t -> In x (a_all t) -> exists b, entry_ok e k c (a_kind t) b x.
Proof.
  intros (F1 & F2 & _) H. unfold a_all in H. apply in_app_iff in H. rewrite Forall_forall in F1, F2. destruct H as [H|H]; [exists true; apply F1, H|exists false; apply F2, H].
Qed.
Lemma going_kind e k c t ts l b : going e k c (t :: ts) l -> In b l -> (a_kind t <= phase b)%nat.
Proof.
  intros G Hb. pose proof (go_ops _ _ _ _ _ G _ (go_ids _ _ _ _ _ G b Hb)) as O.
  assert (Ib : In b (ops_at (place e b) (t :: ts))) by (rewrite O; apply filter_In; split; [exact Hb|unfold here; apply Z.eqb_refl]).
  unfold ops_at in Ib. apply in_flat_map in Ib as (t' & Ht' & Ib). unfold ops_in in Ib. apply in_flat_map in Ib as (x & Hx & Ib).
  destruct (fst x =? place e b)%Z; [|destruct Ib].
  pose proof (go_tasks _ _ _ _ _ G) as Ft. rewrite Forall_forall in Ft. destruct (task_entry e k c t' x (Ft t' Ht') Hx) as (bb & _ & _ & _ & _ & Fx).
  rewrite Forall_forall in Fx. destruct (Fx b Ib) as (_ & _ & ->).
  pose proof (go_kinds _ _ _ _ _ G) as K. cbn [map] in K. inversion K as [|? ? K1 K2]; subst. destruct Ht' as [<-|Ht']; [apply Nat.le_refl|].
  rewrite Forall_forall in K2. apply K2. apply in_map. exact Ht'.
Qed.
Lemma going_next e k c t ts l : going e k c (t :: ts) l -> a_all t = [] -> going e k c ts l.
Proof.
  intros [G1 G2 G3 G4 G5] H. inversion G1; subst. inversion G2; subst. constructor; try assumption.
  intros id Hid. rewrite <- (G5 id Hid). cbn [ops_at flat_map]. rewrite H. reflexivity.
Qed.
Lemma going_done e k c l : going e k c [] l -> l = [].
Proof.
  intros G. destruct l as [|a l]; [reflexivity|]. pose proof (go_ops _ _ _ _ _ G _ (go_ids _ _ _ _ _ G a (or_introl eq_refl))) as O.
  cbn [ops_at flat_map filter] in O. unfold here in O. rewrite Z.eqb_refl in O. discriminate.
Qed.
(* one entry carried out *)
Lemma going_entry E k c i t t' ts l x b M M' ys (P : pending) xs : effects (E i) k c M (snd x) M' ys -> going (E i) k c (t :: ts) l -> a_kind t' = a_kind t -> task_ok (E i) k c t' ->
  Permutation (a_all t) (x :: a_all t') -> entry_ok (E i) k c (a_kind t) b x -> P i = Some (l, xs) ->
  exists l' (P' : pending), P' i = Some (l', xs ++ ys) /\ (forall j, j <> i -> P' j = P j) /\ going (E i) k c (t' :: ts) l' /\
    forall tr, legal E k c M' P' tr -> legal E k c M P (map (EOper i) (snd x) ++ tr).
Proof.
  intros He G Hk Ht' Hp (Hid & _ & _ & _ & HF) HP.
  assert (N : NoDup (map fst (a_all t))) by (pose proof (go_tasks _ _ _ _ _ G) as F; inversion F as [|? ? (_ & _ & N) _]; exact N).
  assert (Ops : forall j, ops_at j (t :: ts) = (if (fst x =? j)%Z then snd x else []) ++ ops_at j (t' :: ts)).
  { intros j. cbn [ops_at flat_map]. rewrite (NoDup_perm_ops j _ _ N Hp). cbn [ops_in flat_map]. rewrite <- app_assoc. reflexivity. }
  destruct (take_all E k c i (fst x) (a_kind t) (snd x) l M M' ys P xs (ops_at (fst x) (t' :: ts)) He HP) as (l' & P' & A1 & A2 & A3 & A4 & A5 & A6 & A7).
  - apply (go_phased _ _ _ _ _ G).
  - intros y Hy. eapply going_kind; [exact G|exact Hy].
  - revert HF. apply Forall_impl. intros a Ha. apply Ha.
  - rewrite <- (go_ops _ _ _ _ _ G _ Hid), Ops, Z.eqb_refl. reflexivity.
  - exists l', P'. split; [exact A1|]. split; [exact A2|]. split; [|exact A7]. constructor.
    + pose proof (go_tasks _ _ _ _ _ G) as F. inversion F; subst. constructor; assumption.
    + pose proof (go_kinds _ _ _ _ _ G) as K. cbn [map] in K |- *. rewrite Hk. exact K.
    + exact A3.
    + intros a Ha. apply (go_ids _ _ _ _ _ G). apply A4, Ha.
    + intros j Hj. destruct (Z.eq_dec j (fst x)) as [->|Hn]; [symmetry; exact A5|]. rewrite (A6 j Hn), <- (go_ops _ _ _ _ _ G j Hj), Ops.
      destruct (Z.eqb_spec (fst x) j); [congruence|reflexivity].
Qed.

(* ---- what calls leave to do ---- *)
Lemma holding_none {A} e (qs : list (list (list A))) (wrap : list A -> body) (L : Z -> list A) : holding e qs L -> (forall id, L id = []) -> process_tasks e wrap qs = [].
Proof.
  intros (HL & HT & HC) H0. unfold process_tasks. assert (R : remaining qs = O); [|rewrite R; reflexivity].
  assert (Q : Forall (fun q => q = []) qs).
  { apply Forall_forall. intros q Hq. destruct (In_nth qs q [] Hq) as (m & Hm & En). assert (Hid : an_id e (Z.of_nat m)) by (unfold an_id; lia).
    specialize (HC _ Hid). rewrite H0 in HC. unfold queue_of in HC. rewrite Nat2Z.id, En in HC. unfold tidy in HT. rewrite Forall_forall in HT.
    apply (concat_nonempty e q); [apply HT, Hq|exact HC]. }
  unfold remaining. clear - Q. induction Q as [|q qs -> _ IH]; [reflexivity|exact IH].
Qed.
Lemma sorted_const n (ts : list atask) : Forall (fun t => a_kind t = n) ts -> StronglySorted le (map a_kind ts).
Proof.
  induction 1 as [|t ts Ht HF IH]; [constructor|]. cbn [map]. constructor; [exact IH|]. apply Forall_forall. intros x Hx. apply in_map_iff in Hx as (u & <- & Hu).
  rewrite Forall_forall in HF. rewrite Ht, (HF u Hu). apply Nat.le_refl.
Qed.
Lemma sorted_app (l1 l2 : list nat) : StronglySorted le l1 -> StronglySorted le l2 -> (forall a b, In a l1 -> In b l2 -> (a <= b)%nat) -> StronglySorted le (l1 ++ l2).
Proof.
  induction l1 as [|a l1 IH]; cbn [app]; intros H1 H2 H; [exact H2|]. inversion H1 as [|? ? A B]; subst. constructor.
  - apply IH; [exact A|exact H2|]. intros x y Hx Hy. apply H; [right; exact Hx|exact Hy].
  - apply Forall_app. split; [exact B|]. apply Forall_forall. intros y Hy. apply H; [left; reflexivity|exact Hy].
Qed.
Lemma phased_map {T} n (mk : T -> oper) l : (forall t, phase (mk t) = n) -> phased (map mk l).
Proof.
  intros H. unfold phased. induction l as [|t l IH]; [constructor|]. cbn [map]. constructor; [exact IH|]. apply Forall_forall. intros x Hx.
  apply in_map_iff in Hx as (u & <- & _). rewrite !H. apply Nat.le_refl.
Qed.
Lemma filter_map_ {A B} (g : B -> bool) (h : A -> B) l : filter g (map h l) = map h (filter (fun a => g (h a)) l).
Proof. induction l as [|a l IH]; [reflexivity|]. cbn [map filter]. destruct (g (h a)); cbn [map]; rewrite IH; reflexivity. Qed.

Definition mk_put (t : arg * arg * arg) : oper := let '(s, p, o) := t in OPut s p o.
Definition mk_get (t : arg * arg * N) : oper := let '(s, p, ty) := t in OGet s p ty.
Definition mk_del (t : arg * arg) : oper := let '(s, p) := t in ODel s p.
Lemma body_put l : body_of 0 (map mk_put l) = QPut (map put_req l).
Proof. cbn [body_of]. f_equal. induction l as [|[[s p] o] l IH]; [reflexivity|]. cbn [map flat_map mk_put put_of app]. rewrite IH. reflexivity. Qed.
Lemma body_get l : body_of 1 (map mk_get l) = QGet (map get_req l).
Proof. cbn [body_of]. f_equal. induction l as [|[[s p] o] l IH]; [reflexivity|]. cbn [map flat_map mk_get get_of app]. rewrite IH. reflexivity. Qed.
Lemma body_scan l : body_of 2 (map OScan l) = QGetOp (map getop_req l).
Proof. cbn [body_of]. f_equal. induction l as [|t l IH]; [reflexivity|]. cbn [map flat_map scan_of app]. rewrite IH. reflexivity. Qed.
Lemma body_del l : body_of 3 (map mk_del l) = QDel (map del_req l).
Proof. cbn [body_of]. f_equal. induction l as [|[s p] l IH]; [reflexivity|]. cbn [map flat_map mk_del del_of app]. rewrite IH. reflexivity. Qed.
Lemma opers_eq e cs : opers e cs =
  map mk_put (flat_map (call_puts e) cs) ++ map mk_get (flat_map call_gets cs) ++ map OScan (flat_map call_getops cs) ++ map mk_del (flat_map call_dels cs).
Proof. reflexivity. Qed.

(* tasks of the four kinds *)
Lemma going_parts e k c t1 t2 t3 t4 ps gs os ds : total_hash e ->
  Forall (fun t => a_kind t = 0%nat /\ task_ok e k c t) t1 -> Forall (fun t => a_kind t = 1%nat /\ task_ok e k c t) t2 ->
  Forall (fun t => a_kind t = 2%nat /\ task_ok e k c t) t3 -> Forall (fun t => a_kind t = 3%nat /\ task_ok e k c t) t4 ->
  Forall (good3 c) ps -> Forall (good2t c) gs -> Forall (good_scan c) os -> Forall (good2 c) ds ->
  (forall id, an_id e id -> ops_at id t1 = map mk_put (filter (fun '(s, p, _) => goes e id s p) ps)) ->
  (forall id, an_id e id -> ops_at id t2 = map mk_get (filter (fun '(s, p, _) => goes e id s p) gs)) ->
  (forall id, an_id e id -> ops_at id t3 = map OScan (filter (fun '(s, p, _, _, _) => goes e id s p) os)) ->
  (forall id, an_id e id -> ops_at id t4 = map mk_del (filter (fun '(s, p) => goes e id s p) ds)) ->
  going e k c (t1 ++ t2 ++ t3 ++ t4) (map mk_put ps ++ map mk_get gs ++ map OScan os ++ map mk_del ds).
Proof.
  intros T F1 F2 F3 F4 P1 P2 P3 P4 O1 O2 O3 O4. rewrite Forall_forall in P1, P2, P3, P4.
  assert (K : forall n ts, Forall (fun t => a_kind t = n /\ task_ok e k c t) ts -> Forall (fun t => a_kind t = n) ts /\ Forall (task_ok e k c) ts).
  { intros n ts H. split; revert H; apply Forall_impl; tauto. }
  destruct (K _ _ F1) as [K1 T1]. destruct (K _ _ F2) as [K2 T2]. destruct (K _ _ F3) as [K3 T3]. destruct (K _ _ F4) as [K4 T4].
  assert (KI : forall n ts x, Forall (fun t => a_kind t = n) ts -> In x (map a_kind ts) -> x = n).
  { intros n ts x H Hx. apply in_map_iff in Hx as (t & <- & Ht). rewrite Forall_forall in H. apply H, Ht. }
  assert (PI : forall {X} n (mk : X -> oper) l a, (forall x, phase (mk x) = n) -> In a (map mk l) -> phase a = n).
  { intros X n mk l a H Ha. apply in_map_iff in Ha as (x & <- & _). apply H. }
  assert (Q1 : forall t, phase (mk_put t) = 0%nat) by (intros [[? ?] ?]; reflexivity). assert (Q2 : forall t, phase (mk_get t) = 1%nat) by (intros [[? ?] ?]; reflexivity).
  assert (Q3 : forall t, phase (OScan t) = 2%nat) by reflexivity. assert (Q4 : forall t, phase (mk_del t) = 3%nat) by (intros [? ?]; reflexivity).
  constructor.
  - repeat (apply Forall_app; split); assumption.
  - rewrite !map_app. apply sorted_app; [eapply sorted_const; eassumption| |].
    + apply sorted_app; [eapply sorted_const; eassumption| |].
      * apply sorted_app; [eapply sorted_const; eassumption|eapply sorted_const; eassumption|]. intros a b Ha Hb. rewrite (KI _ _ _ K3 Ha), (KI _ _ _ K4 Hb). lia.
      * intros a b Ha Hb. rewrite (KI _ _ _ K2 Ha). apply in_app_iff in Hb as [Hb|Hb]; [rewrite (KI _ _ _ K3 Hb)|rewrite (KI _ _ _ K4 Hb)]; lia.
    + intros a b Ha Hb. rewrite (KI _ _ _ K1 Ha). lia.
  - apply phased_app; [apply (phased_map 0), Q1| |].
    + apply phased_app; [apply (phased_map 1), Q2| |].
      * apply phased_app; [apply (phased_map 2), Q3|apply (phased_map 3), Q4|]. intros a b Ha Hb. rewrite (PI _ _ _ _ _ Q3 Ha), (PI _ _ _ _ _ Q4 Hb). lia.
      * intros a b Ha Hb. rewrite (PI _ _ _ _ _ Q2 Ha). apply in_app_iff in Hb as [Hb|Hb]; [rewrite (PI _ _ _ _ _ Q3 Hb)|rewrite (PI _ _ _ _ _ Q4 Hb)]; lia.
    + intros a b Ha Hb. rewrite (PI _ _ _ _ _ Q1 Ha). lia.
  - intros a Ha. repeat (apply in_app_iff in Ha as [Ha|Ha]); apply in_map_iff in Ha as (t & <- & Ht).
    + destruct t as [[a b] o]. destruct (P1 _ Ht) as (A & B & _). apply (at_total c e a b T A B).
    + destruct t as [[a b] o]. destruct (P2 _ Ht) as (A & B & _). apply (at_total c e a b T A B).
    + destruct t as [[[[a b] ty] n] op]. destruct (P3 _ Ht) as (A & B & _). apply (at_total c e a b T A B).
    + destruct t as [a b]. destruct (P4 _ Ht) as (A & B). apply (at_total c e a b T A B).
  - intros id Hid. rewrite !ops_at_app, O1, O2, O3, O4 by exact Hid. rewrite !filter_app, !filter_map_. f_equal; [|f_equal; [|f_equal]]; f_equal; apply filter_ext_in.
    + intros [[a b] o] Hi. destruct (P1 _ Hi) as (A & B & _). apply (at_total c e a b T A B).
    + intros [[a b] o] Hi. destruct (P2 _ Hi) as (A & B & _). apply (at_total c e a b T A B).
    + intros [[[[a b] ty] n] op] Hi. destruct (P3 _ Hi) as (A & B & _). apply (at_total c e a b T A B).
    + intros [a b] Hi. destruct (P4 _ Hi) as (A & B). apply (at_total c e a b T A B).
Qed.
(* the operations of calls are good *)
Section Good.
Context (e : env) (k : backend) (c : codec) (id : Z).
Lemma good_puts l : Forall (good3 c) l ->
  Forall (fun t => good_oper e k c (mk_put t) /\ place e (mk_put t) = id /\ phase (mk_put t) = 0%nat) (filter (fun '(s, p, _) => goes e id s p) l).
Proof.
  intros H. rewrite Forall_forall in *. intros [[a b] o] Hi. apply filter_In in Hi as [Hi Hg]. destruct (H _ Hi) as (A & B & D). cbn [mk_put good_oper place phase].
  split; [auto|]. split; [apply goes_at, Hg|reflexivity].
Qed.
Lemma good_gets l : Forall (good2t c) l ->
  Forall (fun t => good_oper e k c (mk_get t) /\ place e (mk_get t) = id /\ phase (mk_get t) = 1%nat) (filter (fun '(s, p, _) => goes e id s p) l).
Proof.
  intros H. rewrite Forall_forall in *. intros [[a b] o] Hi. apply filter_In in Hi as [Hi Hg]. destruct (H _ Hi) as (A & B & D). cbn [mk_get good_oper place phase].
  split; [auto|]. split; [apply goes_at, Hg|reflexivity].
Qed.
Lemma good_scans l : Forall (good_scan c) l -> Forall (steady e k) l ->
  Forall (fun t => good_oper e k c (OScan t) /\ place e (OScan t) = id /\ phase (OScan t) = 2%nat) (filter (fun '(s, p, _, _, _) => goes e id s p) l).
Proof.
  intros H Hs. rewrite Forall_forall in *. intros t Hi. apply filter_In in Hi as [Hi Hg]. cbn [good_oper place phase]. split; [split; [apply H, Hi|apply Hs, Hi]|].
  destruct t as [[[[a b] ty] n] op]. split; [apply goes_at, Hg|reflexivity].
Qed.
Lemma good_dels l : Forall (good2 c) l ->
  Forall (fun t => good_oper e k c (mk_del t) /\ place e (mk_del t) = id /\ phase (mk_del t) = 3%nat) (filter (fun '(s, p) => goes e id s p) l).
Proof.
  intros H. rewrite Forall_forall in *. intros [a b] Hi. apply filter_In in Hi as [Hi Hg]. destruct (H _ Hi) as (A & B). cbn [mk_del good_oper place phase].
  split; [auto|]. split; [apply goes_at, Hg|reflexivity].
Qed.
End Good.

Lemma calls_going e k c s cl cs : good_client e -> fresh e s -> Forall (scan_call c) cs -> Forall (steady e k) (flat_map call_getops cs) -> spread e cs ->
  exists s1 oks ts, do_calls e s cl cs = Ok (s1, cl, oks) /\ fresh e (flushed s1) /\ flush_tasks e s1 = map (task_of e) ts /\ going e k c ts (opers e cs).
Proof.
  intros (S & T & Co & Ops) F Hc Hst Sp.
  assert (Dh : defined_hash e) by (intros a b La Lb; destruct (T a b La Lb) as (id & E & Hid); exists id; split; [exact E|apply Hid]).
  assert (Hpl : Forall plain cs) by (revert Hc; apply Forall_impl, scan_plain).
  destruct (calls_ok e S Dh Ops cs s cl (proj1 F) (fresh_sized e s F)) as [[[s1 cl1] oks] Ec].
  { revert Hc. apply Forall_impl. apply scan_sane. } { exact Hpl. }
  destruct (calls_grown e cs s cl s1 cl1 oks Hpl (proj1 F) Ec) as [-> [Gu Gk GP GG GO GD GH]].
  rewrite (proj2 F) in GP, GG, GO, GD, GH. cbn [opened_session s_qs q_puts q_gets q_getops q_dels q_hists] in GP, GG, GO, GD, GH.
  apply added_holding in GP, GG, GO, GD, GH. destruct Sp as (U1 & U2 & U3 & U4 & _).
  destruct (scans_parts e c cs Hc) as (P1 & P2 & P3 & P4 & P5).
  destruct (kind_tasks 0 QPut put_req mk_put body_put e k c (q_puts (s_qs s1)) (fun id => filter (fun '(s, p, _) => goes e id s p) (flat_map (call_puts e) cs)) S GP) as (t1 & E1 & F1 & O1).
  { intros id _. apply good_puts, P1. } { exact U1. }
  destruct (kind_tasks 1 QGet get_req mk_get body_get e k c (q_gets (s_qs s1)) (fun id => filter (fun '(s, p, _) => goes e id s p) (flat_map call_gets cs)) S GG) as (t2 & E2 & F2 & O2).
  { intros id _. apply good_gets, P2. } { exact U2. }
  destruct (kind_tasks 2 QGetOp getop_req OScan body_scan e k c (q_getops (s_qs s1)) (fun id => filter (fun '(s, p, _, _, _) => goes e id s p) (flat_map call_getops cs)) S GO)
    as (t3 & E3 & F3 & O3).
  { intros id _. apply good_scans; assumption. } { exact U3. }
  destruct (kind_tasks 3 QDel del_req mk_del body_del e k c (q_dels (s_qs s1)) (fun id => filter (fun '(s, p) => goes e id s p) (flat_map call_dels cs)) S GD) as (t4 & E4 & F4 & O4).
  { intros id _. apply good_dels, P3. } { exact U4. }
  exists s1, oks, (t1 ++ t2 ++ t3 ++ t4). split; [exact Ec|]. split; [|split].
  - split; [cbn [flushed s_up]; rewrite Gu; apply F|]. cbn [flushed s_qs]. unfold opened_session. cbn [s_qs].
    rewrite !(drained_empty _ (e_total e)); [reflexivity|apply GH|apply GD|apply GO|apply GG|apply GP].
  - unfold flush_tasks. rewrite E1, E2, E3, E4.
    rewrite (holding_none e _ QHist _ GH) by (intros id; unfold hists_to; rewrite P5; reflexivity). rewrite app_nil_r, !map_app. reflexivity.
  - rewrite opers_eq. apply going_parts; assumption.
Qed.
(* calls without GETOPs *)
Lemma data_scans e k c cs : Forall (data_call c) cs -> Forall (scan_call c) cs /\ Forall (steady e k) (flat_map call_getops cs).
Proof.
  intros H. split.
  - revert H. apply Forall_impl. intros x. destruct x; cbn [scan_call data_call]; tauto.
  - destruct (calls_parts e c cs H) as (_ & _ & _ & E & _). rewrite E. constructor.
Qed.
