(* Turns of clients that lose operations: what is left takes effect on one map *)
From Verif Require Import ModelBytes ProofBytes ModelKey ModelWire ModelHist ModelMsg SpecMsg ProofMsg ModelStore ModelGetOp ModelDs
  SpecStore ProofStore ProofDs ProofDs2 ProofDs3 ModelElen ModelRoute SpecRoute ProofRoute ProofRoute2 ModelClient SpecClient SpecCluster ProofClient ProofClient2
  ProofClient3 ProofClient4 ProofClient5 ProofClient6 ProofClient8 ProofCluster ProofCluster2 SpecLost ProofLost ProofLost2 ProofLost3.
Local Open Scope Z_scope.

Lemma drop_filter {A} (place : A -> Z) id : forall l n, filter (fun a => place a =? id) (drop_at place n l) = skipn (n id) (filter (fun a => place a =? id) l).
Proof.
  induction l as [|a l IH]; intros n; cbn [drop_at filter]; [symmetry; apply skipn_nil|].
  destruct (n (place a)) as [|m] eqn:En.
  - cbn [filter]. rewrite IH. destruct (Z.eqb_spec (place a) id) as [<-|]; [rewrite En; reflexivity|reflexivity].
  - rewrite IH. destruct (Z.eqb_spec (place a) id) as [<-|Hn].
    + rewrite Z.eqb_refl, En. reflexivity.
    + destruct (Z.eqb_spec id (place a)); [congruence|reflexivity].
Qed.
Lemma drop_In {A} (place : A -> Z) : forall l n a, In a (drop_at place n l) -> In a l.
Proof.
  induction l as [|b l IH]; intros n a H; [destruct H|]. cbn [drop_at] in H. destruct (n (place b)); [destruct H as [<-|H]; [left; reflexivity|]|]; right; eapply IH, H.
Qed.

(* operations lost at datastore id *)
Definition nlost {A} (e : env) (qs : list (list (list A))) (id : Z) : nat := length (concat (firstn (lost e (lens qs) id) (queue_of qs id))).
Lemma sent_skipn {A} e (qs : list (list (list A))) id : concat (sent e qs id) = skipn (nlost e qs id) (concat (queue_of qs id)).
Proof.
  rewrite sent_def. unfold nlost. rewrite <- (firstn_skipn (lost e (lens qs) id) (queue_of qs id)) at 3. rewrite concat_app.
  rewrite skipn_app, skipn_all, Nat.sub_diag. reflexivity.
Qed.
Lemma most_In l : most l <> O -> exists n, In n l /\ n <> O.
Proof.
  induction l as [|n l IH]; cbn [most fold_right]; [congruence|]. fold (most l). intros H. destruct n as [|n]; [|exists (S n); split; [left; reflexivity|discriminate]].
  destruct IH as (m & Hm & Hn); [lia|]. exists m. split; [right; exact Hm|exact Hn].
Qed.
Lemma nlost_lossy {A} e (qs : list (list (list A))) (L : Z -> list A) (used : list Z) : holding e qs L ->
  (forall j, an_id e j -> L j <> [] -> In j used) -> lossy e (nlost e qs) used.
Proof.
  intros (H1 & H2 & H3) Hu id Hid Hn. assert (Hl : lost e (lens qs) id <> O).
  { intros E. apply Hn. unfold nlost. rewrite E. reflexivity. }
  unfold lost in Hl. destruct (far e id); [|congruence]. split; [reflexivity|]. destruct (most_In _ Hl) as (n & Hi & Hz).
  apply in_map_iff in Hi as (j & <- & Hj). unfold later in Hj. apply filter_In in Hj as [Hj Hb]. apply upto_In in Hj. apply andb_prop in Hb as [Hlt Hr].
  exists j. split; [|split; [apply Z.ltb_lt, Hlt|apply Z.eqb_eq, Hr]]. apply Hu; [exact Hj|]. rewrite <- (H3 j Hj).
  intros E. apply (concat_nonempty e) in E; [|apply queue_tidy, H2]. unfold lens in Hz. rewrite E in Hz. apply Hz. reflexivity.
Qed.

Section Left.
Context {I A : Type} (e : env) (place : I -> Z) (req : I -> A) (g : Z -> I -> bool) (qs : list (list (list A))) (l : list I).
Context (Hg : forall id a, In a l -> g id a = (place a =? id)).
Context (Hq : holding e qs (fun id => map req (filter (g id) l))).
Lemma g_filter id l' : (forall a, In a l' -> In a l) -> filter (g id) l' = filter (fun a => place a =? id) l'.
Proof. intros H. apply filter_ext_in. intros a Ha. apply Hg, H, Ha. Qed.
Lemma left_ok : fewer e place l (drop_at place (nlost e qs) l) /\
  forall id, an_id e id -> map req (filter (g id) (drop_at place (nlost e qs) l)) = concat (sent e qs id).
Proof.
  split.
  - exists (nlost e qs). split; [|reflexivity]. apply (nlost_lossy e qs _ _ Hq). intros j Hj Hne.
    rewrite g_filter in Hne by auto. destruct (filter (fun a => place a =? j) l) as [|a r] eqn:E; [exfalso; apply Hne; reflexivity|].
    assert (Ha : In a (filter (fun a => place a =? j) l)) by (rewrite E; left; reflexivity). apply filter_In in Ha as [Ha Hp]. apply Z.eqb_eq in Hp. subst j.
    apply in_map, Ha.
  - intros id Hid. rewrite g_filter by (intros a; apply drop_In). rewrite drop_filter, sent_skipn. destruct Hq as (_ & _ & H3). rewrite (H3 id Hid), g_filter by auto.
    symmetry. apply skipn_map.
Qed.
End Left.

Definition left_calls (P : list (arg * arg * arg)) (G : list (arg * arg * N)) (R : list (arg * arg)) : list call :=
  [CBPut (Some (map (fun '(s, p, o) => (s, p, o, 1%N)) P)); CBGet (Some G); CBDelete (Some R)].
Lemma left_puts e c P G R : total_hash e -> Forall (good3 c) P -> flat_map (call_puts e) (left_calls P G R) = P /\
  flat_map call_gets (left_calls P G R) = G /\ flat_map call_dels (left_calls P G R) = R.
Proof.
  intros T HP. cbn [left_calls flat_map call_puts call_gets call_dels app]. rewrite !app_nil_r. split; [|split; reflexivity].
  induction HP as [|[[s p] o] P (Gs & Gp & Go) _ IH]; [reflexivity|]. cbn [map flat_map]. rewrite IH.
  destruct (at_total c e s p T Gs Gp) as (_ & _ & Hpl). unfold one_put, put_triples. cbn. rewrite Hpl. reflexivity.
Qed.
Lemma left_data c P G R : Forall (good3 c) P -> Forall (good2t c) G -> Forall (good2 c) R -> Forall (data_call c) (left_calls P G R).
Proof.
  intros HP HG HR. constructor; [|constructor; [|constructor; [|constructor]]]; cbn [data_call].
  - apply Forall_forall. intros x Hx. apply in_map_iff in Hx as ([[s p] o] & <- & Hx). rewrite Forall_forall in HP. exact (HP _ Hx).
  - exact HG.
  - exact HR.
Qed.
Lemma Forall_drop {A} (P : A -> Prop) place n l : Forall P l -> Forall P (drop_at place n l).
Proof. intros H. rewrite Forall_forall in *. intros a Ha. apply H. eapply drop_In, Ha. Qed.

Lemma left_served e k c s cl M cs : good_client e -> fresh e s -> stores e k c cl M -> Forall (data_call c) cs ->
  exists cs' s1 oks D D', turn_left (fun _ => e) (0, cs) (0, cs') /\ Forall (data_call c) cs' /\ Forall plain cs /\ do_calls e s cl cs = Ok (s1, cl, oks) /\ holds e cl D /\
    sendable e D (ops_sent e s1) /\ (forall id, an_id e id -> d_open (D id) = true) /\
    (forall id, an_id e id -> serve_all (far e id) id (D id) (ops_sent e s1 id) = Ok (D' id, filter (of_id id) (snd (batch e k M cs')))) /\
    (forall id, an_id e id -> exists m, at_ds k c (D' id) m /\ part e id (fst (batch e k M cs')) m).
Proof.
  intros (S & T & Co & Ops) F St Hc.
  assert (Dh : defined_hash e) by (intros a b La Lb; destruct (T a b La Lb) as (id & E & Hid); exists id; split; [exact E|apply Hid]).
  destruct (calls_ok e S Dh Ops cs s cl (proj1 F) (fresh_sized e s F)) as [[[s1 cl1] oks] Ec].
  { revert Hc. apply Forall_impl. apply data_sane. } { revert Hc. apply Forall_impl. apply data_plain. }
  assert (Pl : Forall plain cs) by (revert Hc; apply Forall_impl; apply data_plain).
  destruct (calls_holding e s cl cs s1 cl1 oks F Pl Ec) as (-> & _ & _ & H1 & H2 & H3 & H4 & H5).
  destruct (calls_parts e c cs Hc) as (GP & GG & GD & EO & EH).
  destruct (left_ok e (fun '(a, b, _) => at_ e a b) put_req (fun id '(a, b, _) => goes e id a b) (q_puts (s_qs s1)) (flat_map (call_puts e) cs)) as [L1 L1'].
  { intros id [[a b] o] Ha. rewrite Forall_forall in GP. destruct (GP _ Ha) as (Gs & Gp & _). apply (at_total c e a b T Gs Gp). } { exact H1. }
  destruct (left_ok e (fun '(a, b, _) => at_ e a b) get_req (fun id '(a, b, _) => goes e id a b) (q_gets (s_qs s1)) (flat_map call_gets cs)) as [L2 L2'].
  { intros id [[a b] o] Ha. rewrite Forall_forall in GG. destruct (GG _ Ha) as (Gs & Gp & _). apply (at_total c e a b T Gs Gp). } { exact H2. }
  destruct (left_ok e (fun '(a, b) => at_ e a b) del_req (fun id '(a, b) => goes e id a b) (q_dels (s_qs s1)) (flat_map call_dels cs)) as [L4 L4'].
  { intros id [a b] Ha. rewrite Forall_forall in GD. destruct (GD _ Ha) as (Gs & Gp). apply (at_total c e a b T Gs Gp). } { exact H4. }
  set (P := drop_at (fun '(a, b, _) => at_ e a b) (nlost e (q_puts (s_qs s1))) (flat_map (call_puts e) cs)) in *.
  set (G := drop_at (fun '(a, b, _) => at_ e a b) (nlost e (q_gets (s_qs s1))) (flat_map call_gets cs)) in *.
  set (R := drop_at (fun '(a, b) => at_ e a b) (nlost e (q_dels (s_qs s1))) (flat_map call_dels cs)) in *.
  assert (GP' : Forall (good3 c) P) by (apply Forall_drop, GP). assert (GG' : Forall (good2t c) G) by (apply Forall_drop, GG).
  assert (GD' : Forall (good2 c) R) by (apply Forall_drop, GD).
  destruct (left_puts e c P G R T GP') as (EP & EG & ER). pose proof (left_data c P G R GP' GG' GD') as Hc'. set (cs' := left_calls P G R) in *.
  assert (Ereq : forall id, an_id e id -> ops_sent e s1 id = requests_to e id cs').
  { intros id Hid. unfold ops_sent, requests_to, puts_to, gets_to, getops_to, dels_to, hists_to. rewrite EP, EG, ER.
    rewrite (L1' id Hid), (L2' id Hid), (L4' id Hid). destruct (calls_parts e c cs' Hc') as (_ & _ & _ & EO' & EH'). rewrite EO', EH'.
    destruct (holding_ending e _ _ id H3 Hid) as [x3 X3]. unfold getops_to in X3. rewrite EO in X3. cbn [filter map] in X3. symmetry in X3. apply app_eq_nil in X3 as [_ X3].
    destruct (holding_ending e _ _ id H5 Hid) as [x5 X5]. unfold hists_to in X5. rewrite EH in X5. cbn [filter map] in X5. symmetry in X5. apply app_eq_nil in X5 as [_ X5].
    rewrite X3, X5. reflexivity. }
  assert (Hd : exists D : Z -> ds, forall id, an_id e id -> cl (rank_of e id) (id mod l_per (e_layout e))%Z = Some (D id) /\ exists m, at_ds k c (D id) m /\ part e id M m).
  { apply (choose e (fun id d => cl (rank_of e id) (id mod l_per (e_layout e))%Z = Some d /\ exists m, at_ds k c d m /\ part e id M m) (opened k c)).
    intros id Hid. destruct (St id Hid) as (d & m & A & B). exists d. split; [exact A|]. exists m. exact B. }
  destruct Hd as [D HD].
  assert (Hd' : exists D' : Z -> ds, forall id, an_id e id -> serve_all (far e id) id (D id) (requests_to e id cs') = Ok (D' id, filter (of_id id) (snd (batch e k M cs'))) /\
     (exists m, at_ds k c (D' id) m /\ part e id (fst (batch e k M cs')) m) /\ (far e id = true -> fits_wire (D id) (requests_to e id cs'))).
  { apply (choose e (fun id d' => serve_all (far e id) id (D id) (requests_to e id cs') = Ok (d', filter (of_id id) (snd (batch e k M cs'))) /\
     (exists m, at_ds k c d' m /\ part e id (fst (batch e k M cs')) m) /\ (far e id = true -> fits_wire (D id) (requests_to e id cs'))) (opened k c)).
    intros id Hid. destruct (HD id Hid) as (_ & m & A & B).
    destruct (batch_served e k c T (far e id) id (D id) m M cs' Hc' A B) as (d' & m' & E & A' & B' & W). exists d'. split; [exact E|]. split; [|exact W]. exists m'. auto. }
  destruct Hd' as [D' HD'].
  exists cs', s1, oks, D, D'. split; [|split; [exact Hc'|]; split; [exact Pl|split; [exact Ec|split; [intros id Hid; apply HD, Hid|split; [|split; [|split]]]]]].
  - unfold turn_left. cbn [fst snd]. rewrite EP, EG, ER. split; [reflexivity|]. split; [exact L1|]. split; [exact L2|].
    split; [rewrite EO; exists (fun _ => O); split; [intros id _ X; congruence|reflexivity]|exact L4].
  - intros id Hid Hf _. split; [apply Co; assumption|]. rewrite (Ereq id Hid). apply HD'; assumption.
  - intros id Hid. destruct (HD id Hid) as (_ & m & (rws & -> & _) & _). reflexivity.
  - intros id Hid. rewrite (Ereq id Hid). apply HD', Hid.
  - intros id Hid. apply HD', Hid.
Qed.
Lemma turn_step e k c s cl M cs : good_client e -> fresh e s -> stores e k c cl M -> Forall (data_call c) cs ->
  exists cs' s1 oks s2 cl2 xs, turn_left (fun _ => e) (0, cs) (0, cs') /\ do_calls e s cl cs = Ok (s1, cl, oks) /\ flush e s1 cl = Ok (s2, cl2, xs) /\ fresh e s2 /\
    stores e k c cl2 (fst (batch e k M cs')) /\ Permutation xs (snd (batch e k M cs')).
Proof.
  intros G F St Hc. destruct (left_served e k c s cl M cs G F St Hc) as (cs' & s1 & oks & D & D' & Tl & Hc' & Pl & Ec & HD & Hs & _ & Hsv & HD'). destruct G as (S & T & _).
  destruct (calls_then_flush_lost e s cl cs s1 cl oks D D' (fun id => filter (of_id id) (snd (batch e k M cs'))) S F HD Pl Ec Hs Hsv) as (_ & s2 & cl2 & xs & Ef & F2 & _ & Hh & _ & _ & Pm).
  exists cs', s1, oks, s2, cl2, xs. split; [exact Tl|split; [exact Ec|split; [exact Ef|split; [exact F2|split]]]].
  - intros id Hid. destruct (HD' id Hid) as (m & A & B). exists (D' id), m. split; [apply Hh, Hid|]. auto.
  - rewrite Pm. apply Permutation_sym, by_ids; [|eapply batch_from; eassumption]. destruct (T [] []) as (id & _ & Hid); [reflexivity|reflexivity|]. unfold an_id in Hid. lia.
Qed.

Lemma play_left E k c e0 : forall l S cl M,
  (forall i, In i (map fst l) -> good_client (E i) /\ same_cluster e0 (E i) /\ fresh (E i) (S i)) -> stores e0 k c cl M ->
  Forall (fun ic => Forall (data_call c) (snd ic)) l ->
  exists l' cl' rs, Forall2 (turn_left E) l l' /\ play E S cl l = Ok (cl', rs) /\ Forall2 (@Permutation result) rs (expected E k M l').
Proof.
  induction l as [|[i cs] l IH]; intros S cl M HE St HF.
  - exists [], cl, []. split; [constructor|]. split; [reflexivity|constructor].
  - inversion HF as [|? ? Hc HF']; subst. cbn [snd] in Hc.
    destruct (HE i (or_introl eq_refl)) as (G & Same & F).
    destruct (turn_step (E i) k c (S i) cl M cs G F (stores_same _ _ _ _ _ _ Same St) Hc) as (cs' & s1 & oks & s2 & cl2 & xs & Tl & Ec & Ef & F2 & St2 & P).
    destruct (batch (E i) k M cs') as [M' ys] eqn:Eb. cbn [fst snd] in *.
    destruct (IH (next S i s2) cl2 M') as (l' & cl' & rs & Fl & Ep & R).
    + intros j Hj. destruct (HE j (or_intror Hj)) as (G' & Same' & F'). split; [exact G'|]. split; [exact Same'|].
      unfold next. destruct (Z.eqb_spec j i) as [->|]; assumption.
    + eapply stores_same; [apply same_sym, Same|exact St2].
    + exact HF'.
    + exists ((i, cs') :: l'), cl', (xs :: rs). split; [constructor; [|exact Fl]|].
      * unfold turn_left in Tl |- *. cbn [fst snd] in Tl |- *. exact (conj eq_refl (proj2 Tl)).
      * cbn [play expected]. rewrite Ec. cbn [obind fst snd]. rewrite Ef. cbn [obind fst snd]. rewrite Ep. cbn [obind]. split; [reflexivity|]. rewrite Eb. constructor; assumption.
Qed.

Lemma cluster_left E k c e0 S cl l :
  (forall i, In i (map fst l) -> good_client (E i) /\ same_cluster e0 (E i) /\ fresh (E i) (S i)) ->
  holds e0 cl (fun _ => opened k c) -> Forall (fun ic => Forall (data_call c) (snd ic)) l ->
  exists l' cl' rs, Forall2 (turn_left E) l l' /\ play E S cl l = Ok (cl', rs) /\ Forall2 (@Permutation result) rs (expected E k no_triples l').
Proof.
  intros HE H HF. eapply play_left; [exact HE| |exact HF]. intros id Hid. exists (opened k c), no_triples. split; [apply H, Hid|]. split.
  - exists []. split; [reflexivity|]. split; [apply agrees_empty|]. intros s p o Ho. discriminate.
  - intros s p. destruct (goesf _ id s p); reflexivity.
Qed.
(* with nothing to lose everything is left *)
Lemma fewer_all {A} e (place : A -> Z) l l' : Forall (fun a => an_id e (place a)) l -> fewer e place l l' ->
  (forall i j, In i (map place l) -> In j (map place l) -> far e i = true -> rank_of e j = rank_of e i -> i = j) -> l' = l.
Proof.
  intros Ha (n & Hn & ->) Ho. assert (Z0 : forall a, In a l -> n (place a) = O).
  { intros a Hi. destruct (n (place a)) as [|m] eqn:E; [reflexivity|]. rewrite Forall_forall in Ha.
    destruct (Hn (place a) (Ha a Hi)) as (Ff & j & Hj & Hlt & Hr); [rewrite E; discriminate|].
    specialize (Ho (place a) j (in_map _ _ _ Hi) Hj Ff Hr). lia. }
  clear - Z0. induction l as [|a l IH]; [reflexivity|]. cbn [drop_at]. rewrite (Z0 a (or_introl eq_refl)). f_equal. apply IH. intros b Hb. apply Z0. right. exact Hb.
Qed.
