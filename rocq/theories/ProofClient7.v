(* Refused calls, limits of packets, queues, success of calls *)
From Verif Require Import ModelBytes ProofBytes ModelKey ModelWire ModelHist ModelMsg SpecMsg ModelStore ModelGetOp ModelDs
  SpecStore ProofStore ProofDs ProofDs2 ModelElen ModelRoute SpecRoute ProofRoute ProofRoute2 ModelClient SpecClient
  ProofClient ProofClient2 ProofClient3 ProofClient4 ProofClient5 ProofClient6.
Local Open Scope N_scope.

(* ---- C25 ---- *)
Lemma refused_call e s cl c : s_up s = false \/ invalid c -> do_call e s cl c = Ok (s, cl, false).
Proof.
  unfold do_call. intros [->|H]; [reflexivity|]. destruct (s_up s); [|reflexivity]. cbn [negb].
  destruct c as [x y z m|x y ty|x y ty n op|x y|id nm|l|l|l|l|l|t ty l|t ty l|t ops ty l]; cbn [invalid] in H; try contradiction;
    try (destruct l; [contradiction|reflexivity]).
  - destruct (given x), (given y), (given z); try reflexivity. destruct H as [H|[H|H]]; discriminate.
  - destruct (given x), (given y); try reflexivity. destruct H; discriminate.
  - rewrite H. reflexivity.
  - destruct (given x), (given y); try reflexivity. destruct H; discriminate.
Qed.

(* ---- queues keep their number and their packets' limits ---- *)
Definition packet_in {A} (e : env) (sz : A -> N) (k : N) (p : list A) : Prop :=
  p <> [] /\ N.of_nat (length p) <= e_max_ops e /\
  (e_max_size e <> 0 -> 1 < N.of_nat (length p) -> packet_size sz p <= e_max_size e + k).
Definition within {A} (e : env) (sz : A -> N) (k : N) (qs : list (list (list A))) : Prop :=
  length qs = Z.to_nat (e_total e) /\ Forall (Forall (packet_in e sz k)) qs.
Definition kept (e : env) (s : session) : Prop :=
  within e sz_put 16 (q_puts (s_qs s)) /\ within e sz_get 20 (q_gets (s_qs s)) /\ within e sz_getop 16 (q_getops (s_qs s)) /\
  within e sz_del 16 (q_dels (s_qs s)) /\ within e sz_name 0 (q_hists (s_qs s)).

Lemma sumN_last l x : sumN (l ++ [x]) = sumN l + x.
Proof. induction l as [|y l IH]; cbn [sumN app fold_right] in *; [lia|]. unfold sumN in *. cbn [fold_right]. lia. Qed.
Lemma put_last_in {A} e sz k additional (a : A) : sz a <= additional + k -> 0 < e_max_ops e -> forall q,
  Forall (packet_in e sz k) q -> Forall (packet_in e sz k) (put_last (fits e sz additional) q a).
Proof.
  intros Ha Hm. assert (One : packet_in e sz k [a]).
  { split; [discriminate|]. cbn [length]. split; [lia|]. intros _ X. exfalso. change (N.of_nat 1) with 1 in X. lia. }
  induction q as [|p q IH]; intros H; cbn [put_last]; [constructor; [exact One|constructor]|].
  inversion H as [|? ? Hp Hq]; subst. destruct q as [|p' q].
  - destruct (fits e sz additional p) eqn:Ef; [|constructor; [exact Hp|constructor; [exact One|constructor]]].
    constructor; [|constructor]. unfold fits in Ef. apply andb_true_iff in Ef as [E1 E2]. destruct Hp as (P1 & P2 & P3).
    split; [destruct p; discriminate|]. rewrite app_length. cbn [length]. split; [lia|]. intros Hz _.
    unfold packet_size in *. rewrite map_app. cbn [map]. rewrite sumN_last. destruct (N.eqb_spec (e_max_size e) 0); [contradiction|]. cbn [orb] in E2. lia.
  - constructor; [exact Hp|]. apply IH, Hq.
Qed.
Lemma set_nth_length {A} n (x : A) l : (n < length l)%nat -> length (set_nth n x l) = length l.
Proof. intros H. unfold set_nth. rewrite app_length, firstn_length. cbn [length]. rewrite skipn_length. lia. Qed.
Lemma enqueue_within {A} e sz k additional (qs : list (list (list A))) id a qs' : sz a <= additional + k -> within e sz k qs ->
  enqueue e sz additional qs id a = Ok qs' -> within e sz k qs'.
Proof.
  intros Ha [L F] H. unfold enqueue in H. destruct (nth_error qs (Z.to_nat id)) as [q|] eqn:En; [|discriminate].
  destruct (N.eqb_spec (e_max_ops e) 0); [discriminate|]. apply Ok_inj in H. subst qs'.
  assert (Hn : (Z.to_nat id < length qs)%nat) by (apply nth_error_Some; congruence). split; [rewrite set_nth_length by exact Hn; exact L|].
  apply Forall_forall. intros q' Hq. unfold set_nth in Hq. rewrite Forall_forall in F. apply in_app_iff in Hq as [Hq|[<-|Hq]].
  - apply F. rewrite <- (firstn_skipn (Z.to_nat id) qs). apply in_app_iff. left. exact Hq.
  - apply put_last_in; [exact Ha|lia|]. apply F. eapply nth_error_In, En.
  - apply F. rewrite <- (firstn_skipn (S (Z.to_nat id)) qs). apply in_app_iff. right. exact Hq.
Qed.
Lemma drained_within {A} e sz k (qs : list (list (list A))) : within e sz k qs -> within e sz k (drained qs).
Proof.
  intros [L _]. unfold drained. split; [rewrite map_length; exact L|]. apply Forall_forall. intros q Hq. apply in_map_iff in Hq as (x & <- & _). constructor.
Qed.
Lemma empty_within {A} e (sz : A -> N) k : within e sz k (empty_queues (e_total e)).
Proof.
  unfold empty_queues. split; [apply repeat_length|]. apply Forall_forall. intros q Hq. apply repeat_spec in Hq. subst. constructor.
Qed.

Lemma put_loop_within e mask s p o : forall bits qs n qs' n' ok, within e sz_put 16 qs ->
  put_loop e bits mask s p o qs n = Ok (qs', n', ok) -> within e sz_put 16 qs'.
Proof.
  induction bits as [|bit bits IH]; intros qs n qs' n' ok W H; cbn [put_loop] in H; [assert (qs = qs') by congruence; subst; exact W|].
  destruct (N.land mask bit =? 0); [eapply IH; eassumption|]. destruct (permuted bit s p o) as [[a b] c].
  apply obind_ok in H as (i & _ & H). destruct (i <? 0)%Z; [assert (qs = qs') by congruence; subst; exact W|].
  apply obind_ok in H as (q1 & E1 & H). eapply IH; [|exact H]. eapply enqueue_within; [|exact W|exact E1].
  unfold sz_put, sz_sp. cbn [pi_sub pi_pred pi_obj]. lia.
Qed.
Lemma bput_within e : forall l qs n qs' n', within e sz_put 16 qs -> bput_loop e l qs n = Ok (qs', n') -> within e sz_put 16 qs'.
Proof.
  induction l as [|[[[s p] o] m] l IH]; intros qs n qs' n' W H; cbn [bput_loop] in H; [assert (qs = qs') by congruence; subst; exact W|].
  apply obind_ok in H as ([[q1 k] ok] & E & H). cbn [fst snd] in H. eapply IH; [|exact H]. eapply put_loop_within; [exact W|exact E].
Qed.
Lemma key_within {A} e sz k (a : A) s p qs qs' ok :
  sz a <= blob_pack_size true (ref_blob s) + blob_pack_size true (ref_blob p) + k -> within e sz k qs ->
  key_impl e sz a s p qs = Ok (qs', ok) -> within e sz k qs'.
Proof.
  intros Ha W H. unfold key_impl in H. apply obind_ok in H as (i & _ & H). destruct (i <? 0)%Z; [assert (qs = qs') by congruence; subst; exact W|].
  apply obind_ok in H as (q1 & E1 & H). assert (q1 = qs') by congruence. subst. eapply enqueue_within; [exact Ha|exact W|exact E1].
Qed.
Lemma each_within {I A} e sz k (f : I -> list (list (list A)) -> outcome (list (list (list A)) * bool)) :
  (forall i qs qs' ok, within e sz k qs -> f i qs = Ok (qs', ok) -> within e sz k qs') ->
  forall l qs qs', within e sz k qs -> each f l qs = Ok qs' -> within e sz k qs'.
Proof.
  intros Hf. induction l as [|i l IH]; intros qs qs' W H; cbn [each] in H; [apply Ok_inj in H; subst; exact W|].
  apply obind_ok in H as ([q1 ok] & E & H). eapply IH; [|exact H]. eapply Hf; eassumption.
Qed.
Lemma bhist_within e : forall l qs qs', within e sz_name 0 qs -> bhist_loop e l qs = Ok qs' -> within e sz_name 0 qs'.
Proof.
  induction l as [|[i n] l IH]; intros qs qs' W H; cbn [bhist_loop] in H; [apply Ok_inj in H; subst; exact W|].
  apply obind_ok in H as (q1 & E & H). eapply IH; [|exact H]. unfold hist_impl in E. eapply enqueue_within; [|exact W|exact E].
  unfold sz_name, blob_pack_size, ref_blob. cbn [b_data b_type]. destruct (blen (a_data n)); lia.
Qed.
Lemma get_size s p ty : sz_get (mkGet (ref_blob s) (a_addr s) (ref_blob p) (a_addr p) ty) <= blob_pack_size true (ref_blob s) + blob_pack_size true (ref_blob p) + 20.
Proof. unfold sz_get, sz_sp. cbn [gi_sub gi_pred]. lia. Qed.
Lemma getop_size s p ty n op : sz_getop (mkGetOp op (ref_blob s) (ref_blob p) ty n) <= blob_pack_size true (ref_blob s) + blob_pack_size true (ref_blob p) + 16.
Proof. unfold sz_getop. cbn [oi_op oi_sub oi_pred]. destruct (op_has_key op); lia. Qed.
Lemma del_size s p : sz_del (mkDel (ref_blob s) (a_addr s) (ref_blob p) (a_addr p)) <= blob_pack_size true (ref_blob s) + blob_pack_size true (ref_blob p) + 16.
Proof. unfold sz_del, sz_sp. cbn [di_sub di_pred]. lia. Qed.

Lemma call_kept e s cl c s' cl' ok : kept e s -> do_call e s cl c = Ok (s', cl', ok) -> kept e s'.
Proof.
  intros (K1 & K2 & K3 & K4 & K5) H. assert (Same : s' = s -> kept e s') by (intros ->; unfold kept; auto).
  unfold do_call in H. destruct (negb (s_up s)); [apply Same; congruence|].
  destruct c as [x y z m|x y ty|x y ty n op|x y|id nm|l|l|l|l|l|t ty l|t ty l|t ops ty l]; try (destruct l as [l|]; [|apply Same; congruence]).
  - destruct (given x && given y && given z); [|apply Same; congruence]. apply obind_ok in H as ([[q k] o] & E & H). cbn [fst snd] in H.
    assert (s' = with_puts s q (s_count s + k)) by congruence. subst. unfold kept, with_puts. cbn [s_qs q_puts q_gets q_getops q_dels q_hists].
    split; [eapply put_loop_within; eassumption|auto].
  - destruct (given x && given y); [|apply Same; congruence]. apply obind_ok in H as ([q o] & E & H).
    assert (s' = with_gets s q) by congruence. subst. unfold kept, with_gets. cbn [s_qs q_puts q_gets q_getops q_dels q_hists].
    split; [exact K1|]. split; [eapply key_within; [apply get_size|exact K2|exact E]|auto].
  - destruct (given x); [|apply Same; congruence]. apply obind_ok in H as ([q o] & E & H).
    assert (s' = with_getops s q) by congruence. subst. unfold kept, with_getops. cbn [s_qs q_puts q_gets q_getops q_dels q_hists].
    split; [exact K1|]. split; [exact K2|]. split; [eapply key_within; [apply getop_size|exact K3|exact E]|auto].
  - destruct (given x && given y); [|apply Same; congruence]. apply obind_ok in H as ([q o] & E & H).
    assert (s' = with_dels s q) by congruence. subst. unfold kept, with_dels. cbn [s_qs q_puts q_gets q_getops q_dels q_hists].
    split; [exact K1|]. split; [exact K2|]. split; [exact K3|]. split; [eapply key_within; [apply del_size|exact K4|exact E]|auto].
  - destruct (accepts e id); [|apply Same; congruence]. apply obind_ok in H as (q & E & H).
    assert (s' = with_histq s q) by congruence. subst. unfold kept, with_histq. cbn [s_qs q_puts q_gets q_getops q_dels q_hists].
    split; [exact K1|]. split; [exact K2|]. split; [exact K3|]. split; [exact K4|]. apply (bhist_within e [(id, nm)] _ _ K5). cbn [bhist_loop]. rewrite E. reflexivity.
  - apply obind_ok in H as ([q k] & E & H). cbn [fst snd] in H.
    assert (s' = with_puts s q (s_count s + k)) by congruence. subst. unfold kept, with_puts. cbn [s_qs q_puts q_gets q_getops q_dels q_hists].
    split; [eapply bput_within; eassumption|auto].
  - apply obind_ok in H as (q & E & H). assert (s' = with_gets s q) by congruence. subst. unfold kept, with_gets. cbn [s_qs q_puts q_gets q_getops q_dels q_hists].
    split; [exact K1|]. split; [|auto]. eapply each_within; [|exact K2|exact E]. intros [[a b] ty] qs qs' o W. eapply key_within; [apply get_size|exact W].
  - apply obind_ok in H as (q & E & H). assert (s' = with_getops s q) by congruence. subst. unfold kept, with_getops. cbn [s_qs q_puts q_gets q_getops q_dels q_hists].
    split; [exact K1|]. split; [exact K2|]. split; [|auto]. eapply each_within; [|exact K3|exact E]. intros [[[[a b] ty] n] op] qs qs' o W. eapply key_within; [apply getop_size|exact W].
  - apply obind_ok in H as (q & E & H). assert (s' = with_dels s q) by congruence. subst. unfold kept, with_dels. cbn [s_qs q_puts q_gets q_getops q_dels q_hists].
    split; [exact K1|]. split; [exact K2|]. split; [exact K3|]. split; [|auto]. eapply each_within; [|exact K4|exact E]. intros [a b] qs qs' o W. eapply key_within; [apply del_size|exact W].
  - destruct (forallb (fun x => accepts e (fst x)) l); [|apply Same; congruence]. apply obind_ok in H as (q & E & H).
    assert (s' = with_histq s q) by congruence. subst. unfold kept, with_histq. cbn [s_qs q_puts q_gets q_getops q_dels q_hists].
    split; [exact K1|]. split; [exact K2|]. split; [exact K3|]. split; [exact K4|]. eapply bhist_within; eassumption.
  - destruct (negb t && negb (N.of_nat (length l) =? 0)); [discriminate|]. apply obind_ok in H as ([q k] & E & H). cbn [fst snd] in H.
    apply obind_ok in H as ([s2 cl2] & E2 & H). assert (s' = s2) by congruence. subst s2.
    apply bput_within in E; [|exact K1]. unfold serial_puts in E2. destruct (e_max_queued e <=? s_count (with_puts s q (s_count s + k))).
    + apply obind_ok in E2 as ([cl3 xs] & _ & E2). injection E2 as <- _. unfold kept, with_puts. cbn [s_qs q_puts q_gets q_getops q_dels q_hists].
      split; [apply drained_within, E|auto].
    + assert (s' = with_puts s q (s_count s + k)) by congruence. subst. unfold kept, with_puts. cbn [s_qs q_puts q_gets q_getops q_dels q_hists]. auto.
  - destruct (negb t && negb (N.of_nat (length l) =? 0)); [discriminate|]. apply obind_ok in H as (q & E & H). assert (s' = with_gets s q) by congruence.
    subst. unfold kept, with_gets. cbn [s_qs q_puts q_gets q_getops q_dels q_hists].
    split; [exact K1|]. split; [|auto]. eapply each_within; [|exact K2|exact E]. intros [a b] qs qs' o W. eapply key_within; [apply get_size|exact W].
  - destruct ops; [apply Same; congruence|]. destruct (negb (N.of_nat (length l) =? 0)); [discriminate|]. apply Same; congruence.
Qed.
Lemma flush_kept e s cl s' cl' xs : kept e s -> flush e s cl = Ok (s', cl', xs) -> kept e s' /\ s_up s' = s_up s.
Proof.
  intros (K1 & K2 & K3 & K4 & K5) H. unfold flush in H.
  apply obind_ok in H as ([[s1 c1] x1] & E1 & H). unfold flush_puts in E1. apply obind_ok in E1 as ([dcl1 dx1] & _ & E1).
  assert (s1 = with_puts s (drained (q_puts (s_qs s))) 0) by congruence. cbn [fst snd] in H.
  apply obind_ok in H as ([[s2 c2] x2] & E2 & H). unfold flush_gets in E2. apply obind_ok in E2 as ([dcl2 dx2] & _ & E2).
  assert (s2 = with_gets s1 (drained (q_gets (s_qs s1)))) by congruence. cbn [fst snd] in H.
  apply obind_ok in H as ([[s3 c3] x3] & E3 & H). unfold flush_getops in E3. apply obind_ok in E3 as ([dcl3 dx3] & _ & E3).
  assert (s3 = with_getops s2 (drained (q_getops (s_qs s2)))) by congruence. cbn [fst snd] in H.
  apply obind_ok in H as ([[s4 c4] x4] & E4 & H). unfold flush_dels in E4. apply obind_ok in E4 as ([dcl4 dx4] & _ & E4).
  assert (s4 = with_dels s3 (drained (q_dels (s_qs s3)))) by congruence. cbn [fst snd] in H.
  apply obind_ok in H as ([[s5 c5] x5] & E5 & H). unfold flush_hists in E5. apply obind_ok in E5 as ([dcl5 dx5] & _ & E5).
  assert (s5 = with_histq s4 (drained (q_hists (s_qs s4)))) by congruence. assert (s' = s5) by congruence. subst.
  unfold kept, with_histq, with_dels, with_getops, with_gets, with_puts. cbn [s_up s_qs q_puts q_gets q_getops q_dels q_hists].
  split; [|reflexivity]. split; [apply drained_within, K1|]. split; [apply drained_within, K2|]. split; [apply drained_within, K3|].
  split; [apply drained_within, K4|apply drained_within, K5].
Qed.
Lemma acts_kept e : forall l s cl s' cl', kept e s -> acts e s cl l = Ok (s', cl') -> kept e s'.
Proof.
  induction l as [|a l IH]; intros s cl s' cl' K H; cbn [acts] in H; [assert (s = s') by congruence; subst; exact K|].
  apply obind_ok in H as ([s1 cl1] & E & H). cbn [fst snd] in H. eapply IH; [|exact H]. destruct a as [c| |]; cbn [act] in E.
  - apply obind_ok in E as ([[s2 cl2] ok] & E & E'). assert (s2 = s1) by congruence. subst. eapply call_kept; eassumption.
  - apply obind_ok in E as ([[s2 cl2] xs] & E & E'). assert (s2 = s1) by congruence. subst. eapply flush_kept; eassumption.
  - apply obind_ok in E as ([[s2 cl2] xs] & E & E'). assert (s2 = s1) by congruence. subst. unfold sync in E.
    destruct (negb (s_up s)); [assert (s = s1) by congruence; subst; exact K|]. apply obind_ok in E as ([[s3 cl3] ys] & E & E2).
    apply obind_ok in E2 as ([cl4 zs] & _ & E2). cbn [fst snd] in E2. assert (s3 = s1) by congruence. subst. eapply flush_kept; eassumption.
Qed.
Lemma opened_kept e : kept e (opened_session e).
Proof. unfold kept, opened_session. cbn [s_qs q_puts q_gets q_getops q_dels q_hists]. do 4 (split; [apply empty_within|]). apply empty_within. Qed.

Lemma in_packets {A} e (sz : A -> N) k (wrap : list A -> body) qs q :
  (forall p, body_count (wrap p) = N.of_nat (length p)) -> (forall p, msg_size (mkMsg 0 0 (wrap p)) = packet_size sz p) ->
  (forall p, slack (wrap p) = k) -> within e sz k qs -> In q (map wrap (concat qs)) -> ops_ok e q /\ size_ok e (slack q) q.
Proof.
  intros Hc Hs Hk [_ F] H. apply in_map_iff in H as (p & <- & Hp). apply in_concat in Hp as (l & Hl & Hp).
  rewrite Forall_forall in F. specialize (F l Hl). rewrite Forall_forall in F. destruct (F p Hp) as (P1 & P2 & P3).
  unfold ops_ok, size_ok. rewrite Hc, Hs, Hk. split; [|exact P3]. split; [|exact P2]. destruct p; [congruence|]. cbn [length]. lia.
Qed.
(* C30 and C39 *)
Lemma opened_acts e cl l s cl' : acts e (opened_session e) cl l = Ok (s, cl') ->
  queues_ok e s /\ Forall (fun q => ops_ok e q /\ size_ok e (slack q) q) (packets s).
Proof.
  intros H. destruct (acts_kept _ _ _ _ _ _ (opened_kept e) H) as (K1 & K2 & K3 & K4 & K5).
  split; [unfold queues_ok; rewrite (proj1 K1), (proj1 K2), (proj1 K3), (proj1 K4), (proj1 K5); auto|].
  apply Forall_forall. intros q Hq. unfold packets in Hq. repeat (apply in_app_iff in Hq as [Hq|Hq]).
  - eapply (in_packets e sz_put 16 QPut); eauto; reflexivity.
  - eapply (in_packets e sz_get 20 QGet); eauto; reflexivity.
  - eapply (in_packets e sz_getop 16 QGetOp); eauto; reflexivity.
  - eapply (in_packets e sz_del 16 QDel); eauto; reflexivity.
  - eapply (in_packets e sz_name 0 QHist); eauto; reflexivity.
Qed.

(* ---- C34: Close does nothing with what is queued ---- *)
Lemma close_drops e s cl : close e s cl = close e (opened_session e) cl \/
  (exists s1 s2 cl', close e s cl = Ok (s1, cl') /\ close e (opened_session e) cl = Ok (s2, cl')).
Proof.
  unfold close, sync. cbn [s_up negb obind fst snd s_qs]. destruct (close_local e cl (upto (l_per (e_layout e)))) as [cl'| |]; cbn [obind]; eauto 6.
Qed.

(* ---- C35 ---- *)
Lemma while_all {A} (f : A -> bool) l : forallb f l = true -> while f l = l.
Proof. induction l as [|a l IH]; cbn [forallb while]; [reflexivity|]. intros H. apply andb_true_iff in H as [-> H]. rewrite IH by exact H. reflexivity. Qed.
Lemma grown_queued e s s' P G O D H : grown e s s' P G O D H -> forall id, (0 <= id)%Z ->
  queued (q_puts (s_qs s')) id = queued (q_puts (s_qs s)) id ++ P id /\ queued (q_gets (s_qs s')) id = queued (q_gets (s_qs s)) id ++ G id /\
  queued (q_getops (s_qs s')) id = queued (q_getops (s_qs s)) id ++ O id /\ queued (q_dels (s_qs s')) id = queued (q_dels (s_qs s)) id ++ D id /\
  queued (q_hists (s_qs s')) id = queued (q_hists (s_qs s)) id ++ H id.
Proof.
  intros [_ _ p g o d h] id Hid. split; [apply p, Hid|]. split; [apply g, Hid|]. split; [apply o, Hid|]. split; [apply d, Hid|apply h, Hid].
Qed.
Lemma nn_pos {A} (L : Z -> list A) id : (0 <= id)%Z -> nn L id = L id.
Proof. intros H. unfold nn. destruct (Z.leb_spec 0 id); [reflexivity|lia]. Qed.
Lemma queued_all e s cl c s' cl' ok : plain c -> s_up s = true -> do_call e s cl c = Ok (s', cl', ok) ->
  Forall (fun x => placed e (fst x) (snd x) = true) (asked_pairs c) -> call_puts e c = asked_puts c -> all_queued e s s' c.
Proof.
  intros Hp Hu H Hpl Ec. split; [exact Hpl|]. intros id Hid. destruct (call_grown e s cl c s' cl' ok Hp Hu H) as [_ G].
  pose proof (grown_queued _ _ _ _ _ _ _ _ G id Hid) as Q. rewrite !nn_pos in Q by exact Hid.
  replace (map put_req (filter (fun '(s0, p, _) => goes e id s0 p) (asked_puts c))) with (puts_to e id [c]); [exact Q|].
  unfold puts_to. cbn [flat_map]. rewrite app_nil_r, Ec. reflexivity.
Qed.
Lemma placed_pairs e (l : list (arg * arg * arg)) : Forall (fun x => placed e (fst x) (snd x) = true) (map fst l) <-> forallb (placed3 e) l = true.
Proof.
  induction l as [|[[s p] o] l IH]; cbn [map forallb]; [split; [reflexivity|constructor]|]. rewrite andb_true_iff, <- IH. split.
  - intros H. inversion H; subst. auto.
  - intros [H1 H2]. constructor; assumption.
Qed.
(* calls all of whose pairs have datastores *)
Lemma placed_call e s cl c s' cl' ok : plain c -> s_up s = true -> do_call e s cl c = Ok (s', cl', ok) ->
  Forall (fun x => placed e (fst x) (snd x) = true) (asked_pairs c) -> (ok = true -> all_queued e s s' c) /\ (ok = false -> s' = s).
Proof.
  intros Hp Hu H Hpl. pose proof Hpl as Hall. unfold asked_pairs in Hpl. rewrite !Forall_app in Hpl. destruct Hpl as (P1 & P2 & P3 & P4).
  pose proof H as H0. unfold do_call in H. rewrite Hu in H. cbn [negb] in H.
  assert (Q : call_puts e c = asked_puts c -> all_queued e s s' c) by (intros Ec; eapply queued_all; eassumption).
  destruct c as [x y z m|x y ty|x y ty n op|x y|id nm|l|l|l|l|l|t ty l|t ty l|t ops ty l]; cbn [plain] in Hp; try contradiction;
    try (destruct l as [l|]; [|split; intros E; [exfalso; congruence|congruence]]).
  - cbn [asked_puts] in P1. rewrite placed_pairs in P1. destruct (given x && given y && given z) eqn:Eg; [|split; congruence].
    apply obind_ok in H as ([[q k] o] & E & H). apply put_impl_added in E as (_ & _ & Eo). rewrite P1 in Eo. split; [|congruence].
    intros _. apply Q. cbn [call_puts asked_puts]. rewrite Eg. apply while_all, P1.
  - destruct (given x && given y) eqn:Eg; [|split; congruence]. apply obind_ok in H as ([q o] & E & H). unfold get_impl in E. apply key_impl_added in E as (_ & Eo).
    cbn [call_gets] in P2. rewrite Eg in P2. inversion P2; subst. cbn [fst snd] in *. split; [intros _; apply Q; reflexivity|congruence].
  - destruct (given x) eqn:Eg; [|split; congruence]. apply obind_ok in H as ([q o] & E & H). unfold getop_impl in E. apply key_impl_added in E as (_ & Eo).
    cbn [call_getops] in P3. rewrite Eg in P3. inversion P3; subst. cbn [fst snd] in *. split; [intros _; apply Q; reflexivity|congruence].
  - destruct (given x && given y) eqn:Eg; [|split; congruence]. apply obind_ok in H as ([q o] & E & H). unfold del_impl in E. apply key_impl_added in E as (_ & Eo).
    cbn [call_dels] in P4. rewrite Eg in P4. inversion P4; subst. cbn [fst snd] in *. split; [intros _; apply Q; reflexivity|congruence].
  - destruct (accepts e id); [|split; congruence]. apply obind_ok in H as (q & _ & H). split; [intros _; apply Q; reflexivity|congruence].
  - apply obind_ok in H as ([q k] & _ & H). split; [intros _; apply Q|congruence]. cbn [call_puts asked_puts] in P1 |- *.
    rewrite placed_pairs in P1. clear -P1. induction l as [|[[[s p] o] m] l IH]; [reflexivity|]. cbn [flat_map] in *. rewrite forallb_app in P1.
    apply andb_true_iff in P1 as [A B]. rewrite IH by exact B. f_equal. apply while_all, A.
  - apply obind_ok in H as (q & _ & H). split; [intros _; apply Q; reflexivity|congruence].
  - apply obind_ok in H as (q & _ & H). split; [intros _; apply Q; reflexivity|congruence].
  - apply obind_ok in H as (q & _ & H). split; [intros _; apply Q; reflexivity|congruence].
  - destruct (forallb _ l); [|split; congruence]. apply obind_ok in H as (q & _ & H). split; [intros _; apply Q; reflexivity|congruence].
  - destruct (negb t && _); [discriminate|]. apply obind_ok in H as (q & _ & H). split; [intros _; apply Q; reflexivity|congruence].
  - destruct ops; [split; congruence|]. destruct (negb _); [discriminate|]. split; [intros _; apply Q; reflexivity|congruence].
Qed.
(* single calls *)
Lemma single_call e s cl c s' cl' ok : single c -> s_up s = true -> do_call e s cl c = Ok (s', cl', ok) ->
  (ok = true -> all_queued e s s' c) /\ (ok = false -> (forall a b d m, c <> CPut a b d m) -> s' = s).
Proof.
  intros Hs Hu H. pose proof H as H0. assert (Hp : plain c) by (destruct c; try contradiction; exact I).
  assert (Q : call_puts e c = asked_puts c -> Forall (fun x => placed e (fst x) (snd x) = true) (asked_pairs c) -> all_queued e s s' c)
    by (intros Ec Ep; eapply queued_all; eassumption).
  unfold do_call in H. rewrite Hu in H. cbn [negb] in H.
  destruct c as [x y z m|x y ty|x y ty n op|x y| | | | | | | | | ]; try contradiction.
  - split; [|intros _ X; exfalso; eapply X; reflexivity]. intros ->. destruct (given x && given y && given z) eqn:Eg; [|congruence].
    apply obind_ok in H as ([[q k] o] & E & H). apply put_impl_added in E as (_ & _ & Eo). assert (Ep : forallb (placed3 e) (put_triples x y z m) = true) by congruence.
    apply Q.
    + cbn [call_puts asked_puts]. rewrite Eg. apply while_all, Ep.
    + unfold asked_pairs. cbn [asked_puts call_gets call_getops call_dels map app]. rewrite app_nil_r. apply placed_pairs, Ep.
  - destruct (given x && given y) eqn:Eg; [|split; congruence]. apply obind_ok in H as ([q o] & E & H). unfold get_impl in E. pose proof E as E'.
    apply key_impl_added in E as (_ & Eo). split.
    + intros ->. apply Q; [reflexivity|]. unfold asked_pairs. cbn [asked_puts call_gets call_getops call_dels map app]. rewrite Eg. cbn [map app fst].
      constructor; [cbn [fst snd]; congruence|constructor].
    + intros -> _. unfold key_impl in E'. apply obind_ok in E' as (i & _ & E'). destruct (i <? 0)%Z.
      * assert (q = q_gets (s_qs s)) by congruence. subst. assert (X : s' = with_gets s (q_gets (s_qs s))) by congruence. rewrite X. destruct s as [u [a b c d f] ct kp]. reflexivity.
      * apply obind_ok in E' as (q1 & _ & E'). congruence.
  - destruct (given x) eqn:Eg; [|split; congruence]. apply obind_ok in H as ([q o] & E & H). unfold getop_impl in E. pose proof E as E'.
    apply key_impl_added in E as (_ & Eo). split.
    + intros ->. apply Q; [reflexivity|]. unfold asked_pairs. cbn [asked_puts call_gets call_getops call_dels map app]. rewrite Eg. cbn [map app fst].
      constructor; [cbn [fst snd]; congruence|constructor].
    + intros -> _. unfold key_impl in E'. apply obind_ok in E' as (i & _ & E'). destruct (i <? 0)%Z.
      * assert (q = q_getops (s_qs s)) by congruence. subst. assert (X : s' = with_getops s (q_getops (s_qs s))) by congruence. rewrite X. destruct s as [u [a b c d f] ct kp]. reflexivity.
      * apply obind_ok in E' as (q1 & _ & E'). congruence.
  - destruct (given x && given y) eqn:Eg; [|split; congruence]. apply obind_ok in H as ([q o] & E & H). unfold del_impl in E. pose proof E as E'.
    apply key_impl_added in E as (_ & Eo). split.
    + intros ->. apply Q; [reflexivity|]. unfold asked_pairs. cbn [asked_puts call_gets call_getops call_dels map app]. rewrite Eg. cbn [map app fst].
      constructor; [cbn [fst snd]; congruence|constructor].
    + intros -> _. unfold key_impl in E'. apply obind_ok in E' as (i & _ & E'). destruct (i <? 0)%Z.
      * assert (q = q_dels (s_qs s)) by congruence. subst. assert (X : s' = with_dels s (q_dels (s_qs s))) by congruence. rewrite X. destruct s as [u [a b c d f] ct kp]. reflexivity.
      * apply obind_ok in E' as (q1 & _ & E'). congruence.
Qed.

(* ---- C54 ---- *)
Lemma each_map {I J Q} (g : I -> J) (f : J -> Q -> outcome (Q * bool)) : forall l q, each f (map g l) q = each (fun i => f (g i)) l q.
Proof. induction l as [|i l IH]; intros q; [reflexivity|]. cbn [map each]. destruct (f (g i) q) as [[q' ok]| |]; cbn [obind]; [apply IH|reflexivity|reflexivity]. Qed.
Lemma each_ext {I Q} (f g : I -> Q -> outcome (Q * bool)) : (forall i q, f i q = g i q) -> forall l q, each f l q = each g l q.
Proof. intros H. induction l as [|i l IH]; intros q; [reflexivity|]. cbn [each]. rewrite H. destruct (g i q) as [[q' ok]| |]; cbn [obind]; [apply IH|reflexivity|reflexivity]. Qed.
Lemma bget_one e s cl ty l : do_call e s cl (CBGetOne true ty (Some l)) = do_call e s cl (CBGet (Some (map (fun '(x, y) => (x, y, ty)) l))).
Proof.
  unfold do_call. destruct (negb (s_up s)); [reflexivity|]. cbn [negb andb]. rewrite each_map. f_equal. apply each_ext. intros [x y] q. reflexivity.
Qed.
Definition retype (ty : N) (x : arg * arg * arg * N) : arg * arg * arg * N := let '(s, p, o, m) := x in (s, p, mkArg (a_addr o) (a_data o) ty, m).
Lemma bput_one e s cl ty l s' cl' ok : do_call e s cl (CBPut (Some (map (retype ty) l))) = Ok (s', cl', ok) -> s_count s' < e_max_queued e ->
  do_call e s cl (CBPutOne true ty (Some l)) = Ok (s', cl', ok).
Proof.
  unfold do_call. destruct (negb (s_up s)); [auto|]. cbn [negb andb]. change (fun '(x, y, z, m) => (x, y, {| a_addr := a_addr z; a_data := a_data z; a_type := ty |}, m)) with (retype ty).
  intros H Hc. apply obind_ok in H as ([q k] & -> & H). cbn [obind fst snd] in *. assert (s' = with_puts s q (s_count s + k)) by congruence.
  assert (cl' = cl) by congruence. assert (ok = true) by congruence. subst. unfold serial_puts. cbn [with_puts s_count] in Hc |- *.
  destruct (N.leb_spec (e_max_queued e) (s_count s + k)); [lia|]. reflexivity.
Qed.
Lemma bgetop_one e s cl ty types l : s_up s = true -> do_call e s cl (CBGetOpOne types true ty (Some l)) = Ok (s, cl, false).
Proof. intros H. unfold do_call. rewrite H. reflexivity. Qed.
