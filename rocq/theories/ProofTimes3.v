(* Results carry the times of the operations they answer *)
From Verif Require Import ModelBytes ProofBytes ModelKey ModelWire ModelHist ModelMsg SpecMsg ProofMsg ModelStore ModelGetOp ModelDs
  SpecStore ProofStore ProofDs ProofDs2 ModelElen ModelRoute SpecRoute ProofRoute ProofRoute2 ModelClient SpecClient ProofClient ProofClient2
  ProofClient3 ModelTimes SpecTimes ProofTimes ProofTimes2.
Local Open Scope Z_scope.

(* ---- accounting for results ---- *)
Definition explains (e : env) (T : clock) (evs : list event) (xs : list (result * times)) : Prop :=
  exists gs lost, xs = concat (map snd gs) /\ Permutation evs (map fst gs ++ lost) /\ Forall (fun g => accounted e T (fst g) (snd g)) gs.
Lemma explains_none e T evs : explains e T evs [].
Proof. exists [], evs. repeat split; auto. Qed.
Lemma explains_app e T v1 v2 x1 x2 : explains e T v1 x1 -> explains e T v2 x2 -> explains e T (v1 ++ v2) (x1 ++ x2).
Proof.
  intros (g1 & l1 & -> & P1 & F1) (g2 & l2 & -> & P2 & F2). exists (g1 ++ g2), (l1 ++ l2). split; [rewrite map_app, concat_app; reflexivity|].
  split; [|apply Forall_app; auto]. rewrite P1, P2, map_app, <- !app_assoc. apply Permutation_app_head. rewrite !app_assoc. apply Permutation_app_tail, Permutation_app_comm.
Qed.
Lemma explains_perm e T v1 v2 x : Permutation v1 v2 -> explains e T v1 x -> explains e T v2 x.
Proof. intros P (g & l & E & P' & F). exists g, l. split; [exact E|]. split; [rewrite <- P; exact P'|exact F]. Qed.
Lemma explains_more e T v1 v2 x : explains e T v1 x -> explains e T (v1 ++ v2) x.
Proof. intros H. rewrite <- (app_nil_r x). apply explains_app; [exact H|apply explains_none]. Qed.

Section Clock.
Context (e : env) (HS : setting e) (T : clock) (HT : steady T).

Definition ev_ok (k : nat) (ev : event) : Prop :=
  (ev_after ev = ev_before ev + 4 \/ ev_after ev = ev_before ev + 6)%nat /\ (ev_after ev <= k)%nat.
Lemma ev_ok_le k k' ev : (k <= k')%nat -> ev_ok k ev -> ev_ok k' ev.
Proof. intros L [H1 H2]. split; [exact H1|lia]. Qed.
Definition sends_ok (evs : list event) (reqs : list send) : Prop := firstn (length evs) reqs = map (event_send T) evs.
(* what is left of the times of an operation in a response *)
Definition sent (ev : event) : send := if far e (ev_id ev) then event_send T ev else no_send.
Definition alloc_ok (evs : list event) (a : stamp) : Prop :=
  match evs with [] => True | ev :: r => event_alloc T ev = Some a /\ Forall (fun ev => event_alloc T ev = None) r end.
Definition trip_ok (k0 k1 : nat) (t : trip) : Prop :=
  ascending [T k0; tr_start t; fst (tr_pack t); snd (tr_pack t); tr_send t; tr_recv t; fst (tr_unpack t); snd (tr_unpack t);
             fst (tr_cleanup t); snd (tr_cleanup t); tr_end t; T k1].

Lemma rising_app l1 l2 : rising l1 -> rising l2 -> (forall a b, In a l1 -> In b l2 -> (a < b)%nat) -> rising (l1 ++ l2).
Proof.
  induction l1 as [|a l1 IH]; intros H1 H2 H; [exact H2|]. destruct l1 as [|b l1].
  - destruct l2 as [|c l2]; [exact Logic.I|]. split; [apply H; left; reflexivity|exact H2].
  - destruct H1 as [H1 H1']. split; [exact H1|]. apply IH; [exact H1'|exact H2|]. intros x y Hx. apply H. right. exact Hx.
Qed.
(* each of these times was read for itself *)
Definition trip_new (k0 k1 : nat) (t : trip) (ev : event) : Prop :=
  exists ks, rising ks /\ (forall i, In i ks -> (k0 <= i < k1)%nat) /\
    if far e (ev_id ev)
    then [tr_start t; fst (tr_pack t); snd (tr_pack t); tr_send t; tr_recv t; fst (tr_unpack t); snd (tr_unpack t); fst (tr_cleanup t);
          snd (tr_cleanup t); tr_end t] = map T ks
    else stays t /\ [tr_start t; fst (tr_pack t); tr_send t; tr_recv t; fst (tr_unpack t); fst (tr_cleanup t); tr_end t] = map T ks.
Lemma new_le k0 k1 k2 t ev : (k1 <= k2)%nat -> trip_new k0 k1 t ev -> trip_new k0 k2 t ev.
Proof. intros L (ks & H1 & H2 & H3). exists ks. split; [exact H1|]. split; [|exact H3]. intros i Hi. specialize (H2 i Hi). lia. Qed.

Lemma alloc_in ev : event_alloc T ev = None \/
  exists a b, event_alloc T ev = Some (a, b) /\ fst (sn_insert (event_send T ev)) <= a /\ a <= b /\ b <= snd (sn_insert (event_send T ev)).
Proof.
  unfold event_alloc, event_send. cbn [sn_insert fst snd]. destruct (Nat.eqb_spec (ev_after ev) (ev_before ev + 6)) as [->|_]; [|left; reflexivity].
  right. eexists _, _. split; [reflexivity|]. split; [|split]; apply HT; lia.
Qed.
Lemma times_ok ev t k0 k1 k al : ev_ok k0 ev -> trip_ok k0 k1 t -> trip_new k0 k1 t ev -> (k1 <= k)%nat -> al = event_alloc T ev ->
  times_of e T ev (mkTimes al (sent ev) t (T k, T (k + 1)%nat)).
Proof.
  intros [E1 E2] Ht (ks & N1 & N2 & N3) L ->. unfold times_of, sent. cbn [ti_send ti_alloc]. split; [reflexivity|].
  unfold trip_ok in Ht. cbn [ascending] in Ht. pose proof (HT (ev_after ev - 1) k0 ltac:(lia))%nat. pose proof (HT k1 k L). pose proof (HT k (k + 1) ltac:(lia))%nat.
  destruct (far e (ev_id ev)); split; [reflexivity| |reflexivity|].
  - split; [|split].
    + unfold moments. cbn [ti_send ti_trip ti_result event_send sn_hash sn_insert fst snd ascending].
      pose proof (HT (ev_before ev) (ev_before ev + 1) ltac:(lia))%nat. pose proof (HT (ev_before ev + 1) (ev_before ev + 2) ltac:(lia))%nat.
      pose proof (HT (ev_before ev + 2) (ev_after ev - 1) ltac:(lia))%nat. lia.
    + unfold alloc_inside. cbn [ti_alloc ti_send]. destruct (alloc_in ev) as [->|(a & b & -> & H')]; [exact Logic.I|exact H'].
    + exists ([ev_before ev; ev_before ev + 1; ev_before ev + 2; ev_after ev - 1] ++ ks ++ [k; k + 1])%nat. split.
      * apply rising_app; [cbn [rising]; repeat split; lia|apply rising_app; [exact N1|cbn [rising]; split; [lia|exact Logic.I]|]|].
        -- intros a b Ha Hb. specialize (N2 a Ha). destruct Hb as [<-|[<-|[]]]; lia.
        -- intros a b Ha Hb. apply in_app_iff in Hb. assert (B : (k0 <= b)%nat).
           { destruct Hb as [Hb|[<-|[<-|[]]]]; [apply N2, Hb| |]; destruct ks as [|i ks]; try discriminate N3; pose proof (N2 i (or_introl eq_refl)); lia. }
           destruct Ha as [<-|[<-|[<-|[<-|[]]]]]; lia.
      * unfold moments. cbn [ti_send ti_trip ti_result event_send sn_hash sn_insert fst snd]. rewrite !map_app, <- N3. reflexivity.
  - split; [|split].
    + unfold moments. cbn [ti_send ti_trip ti_result event_send sn_insert fst snd skipn ascending]. lia.
    + exact (proj1 N3).
    + exists (ks ++ [k; k + 1])%nat. split.
      * apply rising_app; [exact N1|cbn [rising]; split; [lia|exact Logic.I]|]. intros a b Ha Hb. specialize (N2 a Ha). destruct Hb as [<-|[<-|[]]]; lia.
      * unfold brief. cbn [ti_trip ti_result fst snd]. rewrite map_app, <- (proj2 N3). reflexivity.
Qed.
Lemma init_ok m k0 k1 : trip_ok k0 k1 (tm_trip m) -> forall gs evs k i xs k', t_init T k m i gs = Ok (xs, k') -> (k1 <= k)%nat ->
  Forall2 answers evs gs -> firstn (length evs) (skipn i (tm_reqs m)) = map sent evs -> Forall (ev_ok k0) evs -> Forall (trip_new k0 k1 (tm_trip m)) evs ->
  (match i with O => alloc_ok evs (tm_alloc m) | _ => Forall (fun ev => event_alloc T ev = None) evs end) ->
  exists g, xs = concat (map snd g) /\ evs = map fst g /\ Forall (fun g => accounted e T (fst g) (snd g)) g.
Proof.
  intros Ht. induction gs as [|g gs IH]; intros evs k i xs k' H L F S O Nw A.
  - inversion F; subst. injection H as <- <-. exists []. repeat split. constructor.
  - inversion F as [|ev g' evs' gs' Fa F']; subst. cbn [t_init] in H. destruct g as [|x g]; [discriminate|].
    destruct (nth_error (tm_reqs m) i) as [s|] eqn:En; [|discriminate]. obind H r Er. destruct r as [ys k2]. injection H as <- <-.
    assert (Es : skipn i (tm_reqs m) = s :: skipn (Datatypes.S i) (tm_reqs m)).
    { clear -En. revert i En. induction (tm_reqs m) as [|a l IHl]; intros [|i] En; try discriminate; cbn in En |- *; [congruence|]. apply IHl, En. }
    rewrite Es in S. cbn [length firstn map] in S. injection S as -> S. inversion O as [|a b O1 O2]; subst. inversion Nw as [|a b Nw1 Nw2]; subst.
    assert (A' : (match i with O => Some (tm_alloc m) | _ => None end) = event_alloc T ev /\ Forall (fun ev => event_alloc T ev = None) evs').
    { destruct i; [destruct A as [A1 A2]; auto|]. inversion A; subst; auto. }
    destruct A' as [A1 A2].
    destruct (IH evs' (k + 2)%nat (Datatypes.S i) ys k2 Er ltac:(lia) F' S O2 Nw2 A2) as (g2 & -> & -> & F2).
    exists ((ev, (x, mkTimes (match i with O => Some (tm_alloc m) | _ => None end) (sent ev) (tm_trip m) (T k, T (k + 1)%nat)) :: map (fun y => (y, no_times)) g) :: g2).
    split; [reflexivity|]. split; [reflexivity|]. constructor; [|exact F2]. cbn [fst snd]. unfold accounted. cbn [map fst]. rewrite map_map. cbn [fst]. rewrite map_id.
    split; [exact Fa|]. split; [eapply times_ok; eassumption|]. clear. induction g; constructor; auto.
Qed.

(* ---- responses ---- *)
Definition res_ok (k : nat) (m : tmsg) (evs : list event) : Prop :=
  (forall gs, item_results (tm_msg m) = Ok gs -> gs = [] \/ Forall2 answers evs gs /\ firstn (length evs) (tm_reqs m) = map sent evs) /\
  alloc_ok evs (tm_alloc m) /\ exists k0, Forall (ev_ok k0) evs /\ trip_ok k0 k (tm_trip m) /\ Forall (trip_new k0 k (tm_trip m)) evs.
Lemma trip_le k0 k1 k2 t : (k1 <= k2)%nat -> trip_ok k0 k1 t -> trip_ok k0 k2 t.
Proof. unfold trip_ok. cbn [ascending]. intros L H. pose proof (HT k1 k2 L). lia. Qed.
Lemma res_le k k' m evs : (k <= k')%nat -> res_ok k m evs -> res_ok k' m evs.
Proof.
  intros L (H1 & H2 & k0 & H3 & H4 & H5). split; [exact H1|]. split; [exact H2|]. exists k0. split; [exact H3|]. split; [eapply trip_le; eassumption|].
  eapply Forall_impl; [|exact H5]. intros ev. apply new_le, L.
Qed.
Lemma addall_ok : forall l k xs k', t_addall T k (map fst l) = Ok (xs, k') -> Forall (fun p => res_ok k (fst p) (snd p)) l ->
  explains e T (concat (map snd l)) xs.
Proof.
  induction l as [|[m evs] l IH]; intros k xs k' H F; cbn [map fst t_addall] in H; [injection H as <- <-; apply explains_none|].
  obind H gs Eg. obind H a Ea. destruct a as [ys k1]. obind H b Eb. destruct b as [zs k2]. injection H as <- <-.
  inversion F as [|p l1 F1 F2]; subst. cbn [map snd concat]. apply explains_app.
  - cbn [fst snd] in F1. destruct F1 as (G & A & k0 & O & Ht & Nw). destruct (G _ Eg) as [->|[G1 G2]]; [cbn [t_init] in Ea; injection Ea as <- <-; apply explains_none|].
    destruct (init_ok m k0 k Ht gs evs k 0%nat ys k1 Ea ltac:(lia) G1 G2 O Nw A) as (g & -> & -> & Fg).
    exists g, []. rewrite app_nil_r. auto.
  - eapply IH; [exact Eb|]. apply init_bare in Ea as [_ L]. eapply Forall_impl; [|exact F2]. intros p. apply res_le, L.
Qed.

(* ---- requests of one kind ---- *)
Section Kind.
Context {A : Type} (wrap : list A -> body) (of_op : op -> option A) (HA : kind_answers wrap of_op)
  (HD : forall l, body_dir (wrap l) = 1%N) (HC : forall l, body_count (wrap l) = N.of_nat (length l)).

Definition req_ok (k : nat) (m : tmsg) (evs : list event) : Prop :=
  exists id items, tm_msg m = mkMsg (e_rank e) id (wrap items) /\ an_id e id /\ stand of_op items evs /\ Forall (fun ev => ev_id ev = id) evs /\
    sends_ok evs (tm_reqs m) /\ alloc_ok evs (tm_alloc m) /\ Forall (ev_ok k) evs.
Lemma req_le k k' m evs : (k <= k')%nat -> req_ok k m evs -> req_ok k' m evs.
Proof.
  intros L (id & items & H1 & H2 & H3 & H4 & H5 & H6 & H7). exists id, items. repeat (split; [assumption|]).
  eapply Forall_impl; [|exact H7]. intros ev. apply ev_ok_le, L.
Qed.
Ltac asc := unfold trip_ok; cbn [ascending tm_trip tr_start tr_pack tr_send tr_recv tr_unpack tr_cleanup tr_end fst snd].
Lemma local_sends id body evs : is_local e (mkMsg (e_rank e) id body) = true -> Forall (fun ev => ev_id ev = id) evs ->
  firstn (length evs) (repeat no_send (length evs)) = map sent evs.
Proof.
  intros Lo I. rewrite firstn_all2 by (rewrite repeat_length; apply Nat.le_refl). induction I as [|ev evs E I IH]; [reflexivity|].
  cbn [length repeat map]. rewrite <- IH. f_equal. unfold sent. rewrite E. unfold far, rank_of. unfold is_local, dst_rank in Lo. cbn [m_dst] in Lo. rewrite Lo. reflexivity.
Qed.
Lemma remote_sends id body evs reqs : is_local e (mkMsg (e_rank e) id body) = false -> Forall (fun ev => ev_id ev = id) evs -> sends_ok evs reqs ->
  firstn (length evs) reqs = map sent evs.
Proof.
  intros Lo I ->. induction I as [|ev evs E I IH]; [reflexivity|].
  cbn [map]. rewrite <- IH. f_equal. unfold sent. rewrite E. unfold far, rank_of. unfold is_local, dst_rank in Lo. cbn [m_dst] in Lo. rewrite Lo. reflexivity.
Qed.
Lemma local_far id body evs : is_local e (mkMsg (e_rank e) id body) = true -> Forall (fun ev => ev_id ev = id) evs -> Forall (fun ev => far e (ev_id ev) = false) evs.
Proof. intros Lo. apply Forall_impl. intros ev ->. unfold far, rank_of. unfold is_local, dst_rank in Lo. cbn [m_dst] in Lo. rewrite Lo. reflexivity. Qed.
Lemma remote_far id body evs : is_local e (mkMsg (e_rank e) id body) = false -> Forall (fun ev => ev_id ev = id) evs -> Forall (fun ev => far e (ev_id ev) = true) evs.
Proof. intros Lo. apply Forall_impl. intros ev ->. unfold far, rank_of. unfold is_local, dst_rank in Lo. cbn [m_dst] in Lo. rewrite Lo. reflexivity. Qed.
Lemma local_new k evs : Forall (fun ev => far e (ev_id ev) = false) evs ->
  Forall (trip_new k (k + 7) (mkTrip (T k) (T (k + 1)%nat, T (k + 1)%nat) (T (k + 2)%nat) (T (k + 3)%nat) (T (k + 4)%nat, T (k + 4)%nat) (T (k + 5)%nat, T (k + 5)%nat) (T (k + 6)%nat))) evs.
Proof.
  apply Forall_impl. intros ev F. exists [k; k + 1; k + 2; k + 3; k + 4; k + 5; k + 6]%nat. split; [cbn [rising]; repeat split; lia|].
  split; [intros i Hi; cbn [In] in Hi; lia|]. rewrite F. split; [repeat split|reflexivity].
Qed.
Lemma remote_new k evs : Forall (fun ev => far e (ev_id ev) = true) evs ->
  Forall (trip_new k (k + 10) (mkTrip (T k) (T (k + 1)%nat, T (k + 2)%nat) (T (k + 3)%nat) (T (k + 4)%nat) (T (k + 5)%nat, T (k + 6)%nat) (T (k + 7)%nat, T (k + 8)%nat) (T (k + 9)%nat))) evs.
Proof.
  apply Forall_impl. intros ev F. exists [k; k + 1; k + 2; k + 3; k + 4; k + 5; k + 6; k + 7; k + 8; k + 9]%nat. split; [cbn [rising]; repeat split; lia|].
  split; [intros i Hi; cbn [In] in Hi; lia|]. rewrite F. reflexivity.
Qed.
Lemma local_ok w m evs w' r : req_ok (w_now w) m evs -> is_local e (tm_msg m) = true -> t_local e T w m = Ok (w', r) -> res_ok (w_now w') r evs.
Proof.
  intros (id & items & Em & Hid & St & I & Se & Al & O) Lo H. unfold t_local in H. obind H a Ea. destruct a as [cl rm].
  destruct (Nat.ltb_spec (length (tm_reqs m)) (N.to_nat (body_count (m_body rm)))) as [|L]; [discriminate|]. injection H as <- <-. cbn [w_now].
  unfold serve in Ea. rewrite Em in Ea. cbn [m_dst m_src m_body] in Ea. destruct (w_cl w (e_rank e) _) as [d|]; [|discriminate].
  obind Ea b Eb. destruct b as [d' b]. injection Ea as <- <-. split; [|split].
  - intros gs G. cbn [tm_msg tm_reqs] in *. destruct (HA false d items evs id (e_rank e) d' b gs St I Eb G) as [->|F]; [left; reflexivity|].
    right. split; [exact F|]. rewrite Em. cbn [m_body]. rewrite HC, Nat2N.id. rewrite Em in Lo. rewrite (Forall2_len _ _ _ St).
    eapply local_sends; eassumption.
  - exact Al.
  - exists (w_now w). split; [exact O|]. split; [|apply local_new, (local_far id (wrap items)); [rewrite <- Em; exact Lo|exact I]]. asc. set (k := w_now w).
    pose proof (HT k (k + 1) ltac:(lia))%nat. pose proof (HT (k + 1) (k + 2) ltac:(lia))%nat. pose proof (HT (k + 2) (k + 3) ltac:(lia))%nat.
    pose proof (HT (k + 3) (k + 4) ltac:(lia))%nat. pose proof (HT (k + 4) (k + 5) ltac:(lia))%nat. pose proof (HT (k + 5) (k + 6) ltac:(lia))%nat.
    pose proof (HT (k + 6) (k + 7) ltac:(lia))%nat. lia.
Qed.
Lemma remote_ok route w key m evs w' r : req_ok (w_now w) m evs -> is_local e (tm_msg m) = false -> t_remote e route T w key m = Ok (w', Some r) ->
  Forall body_ok (w_wire w') -> res_ok (w_now w') r evs.
Proof.
  intros (id & items & Em & Hid & St & I & Se & Al & O) Lo H W. unfold t_remote in H. destruct (route key) as [rk|]; [|discriminate].
  obind H bs Eb. obind H m1 E1. destruct m1 as [m1|]; [|discriminate]. obind H a Ea. destruct a as [cl m2]. obind H b2 Eb2. obind H m3 E3.
  destruct m3 as [m3|]; [|discriminate]. injection H as <- <-. cbn [w_now w_wire] in *. apply Forall_app in W as [_ W]. inversion W as [|x l W1 W2]; subst.
  inversion W2 as [|x l W3 _]; subst. clear W W2.
  assert (I1 : int32 (e_rank e)) by (apply rank_int32; exact HS). assert (I2 : int32 id) by (eapply an_id_int32; eassumption).
  rewrite Em in *. cbn [m_body] in W1. destruct (request_wire (mkMsg (e_rank e) id (wrap items)) (HD _) (conj I1 (conj I2 W1))) as (bs' & P1 & P2 & _ & _).
  rewrite P1 in Eb. injection Eb as <-. specialize (P2 []). rewrite app_nil_r in P2. rewrite P2 in E1. injection E1 as <-.
  unfold serve, seen_msg in Ea. cbn [m_dst m_src m_body] in Ea. destruct (w_cl w rk _) as [d|]; [|discriminate].
  obind Ea b Eo. destruct b as [d' b]. injection Ea as <- <-. fold (resp (seen_body (wrap items)) b) in *. rewrite (resp_seen _ b (HD items)) in *. cbn [m_body] in W3.
  destruct (response_wire (mkMsg id (e_rank e) (resp (wrap items) b)) (response_dir _ _ _ _ (HD _) Eo) (conj I2 (conj I1 W3))) as (bs2 & Q1 & Q2 & _ & _).
  rewrite Q1 in Eb2. injection Eb2 as <-. specialize (Q2 []). rewrite app_nil_r in Q2. rewrite Q2 in E3. injection E3 as <-.
  split; [|split].
  - intros gs G. cbn [tm_msg tm_reqs seen_msg m_src m_dst m_body] in *. unfold seen_msg in G. cbn [m_src m_dst m_body] in G.
    destruct (HA true d items evs id (e_rank e) d' b gs St I Eo G) as [->|F]; [left; reflexivity|]. right. split; [exact F|]. eapply remote_sends; eassumption.
  - exact Al.
  - exists (w_now w). split; [exact O|]. split; [|apply remote_new, (remote_far id (wrap items)); [exact Lo|exact I]]. asc. set (k := w_now w).
    pose proof (HT k (k + 1) ltac:(lia))%nat. pose proof (HT (k + 1) (k + 2) ltac:(lia))%nat. pose proof (HT (k + 2) (k + 3) ltac:(lia))%nat.
    pose proof (HT (k + 3) (k + 4) ltac:(lia))%nat. pose proof (HT (k + 4) (k + 5) ltac:(lia))%nat. pose proof (HT (k + 5) (k + 6) ltac:(lia))%nat.
    pose proof (HT (k + 6) (k + 7) ltac:(lia))%nat. pose proof (HT (k + 7) (k + 8) ltac:(lia))%nat. pose proof (HT (k + 8) (k + 9) ltac:(lia))%nat.
    pose proof (HT (k + 9) (k + 10) ltac:(lia))%nat. lia.
Qed.
Lemma wire_before w w' : later w w' -> Forall body_ok (w_wire w') -> Forall body_ok (w_wire w).
Proof. intros [_ [l E]] H. rewrite E in H. apply Forall_app in H. tauto. Qed.
Lemma run_local_ok : forall l w w' xs, t_run_local e T w (map fst l) = Ok (w', xs) ->
  Forall (fun p => req_ok (w_now w) (fst p) (snd p) /\ is_local e (tm_msg (fst p)) = true) l -> explains e T (concat (map snd l)) xs.
Proof.
  induction l as [|[m evs] l IH]; intros w w' xs H F; cbn [map fst t_run_local] in H; [injection H as <- <-; apply explains_none|].
  obind H a Ea. destruct a as [w1 r]. obind H b Eb. destruct b as [ys k]. obind H c Ec. destruct c as [w2 zs]. injection H as <- <-.
  inversion F as [|p l1 F1 F2]; subst. cbn [map snd concat]. apply explains_app.
  - rewrite <- (app_nil_r evs). apply (addall_ok [(r, evs)] _ _ _ Eb). constructor; [|constructor]. destruct F1. eapply local_ok; eassumption.
  - eapply IH; [exact Ec|]. cbn [at_time w_now]. apply local_bare in Ea as [_ [L1 _]]. apply addall_bare in Eb as [L2 _].
    eapply Forall_impl; [|exact F2]. intros p [Q Lo]. split; [|exact Lo]. eapply req_le; [|exact Q]. lia.
Qed.
Lemma communicate_ok route : forall (l : list (Z * tmsg * list event)) w w' rs, t_communicate e route T w (map fst l) = Ok (w', rs) ->
  Forall body_ok (w_wire w') -> Forall (fun p => req_ok (w_now w) (snd (fst p)) (snd p) /\ is_local e (tm_msg (snd (fst p))) = false) l ->
  exists l', rs = map fst l' /\ Forall (fun p => res_ok (w_now w') (fst p) (snd p)) l' /\ exists lost, Permutation (concat (map snd l)) (concat (map snd l') ++ lost).
Proof.
  induction l as [|[[k m] evs] l IH]; intros w w' rs H W F; cbn [map fst t_communicate] in H.
  - injection H as <- <-. exists []. split; [reflexivity|]. split; [constructor|]. exists []. reflexivity.
  - obind H a Ea. destruct a as [w1 r]. obind H b Eb. destruct b as [w2 rs']. injection H as <- <-.
    inversion F as [|p l1 F1 F2]; subst. cbn [fst snd] in F1. destruct F1 as [F1 Lf]. pose proof (remote_bare _ _ _ _ _ _ _ _ Ea) as [_ L1]. pose proof (proj1 (communicate_bare _ _ _ _ _ _ _ Eb)) as L2.
    destruct (IH w1 w2 rs' Eb W) as (l' & -> & Fr & lost & P).
    { eapply Forall_impl; [|exact F2]. intros p [Q Lo]. split; [|exact Lo]. eapply req_le; [|exact Q]. destruct L1; lia. }
    cbn [map snd concat]. destruct r as [r|].
    + exists ((r, evs) :: l'). split; [reflexivity|]. split.
      * constructor; [|exact Fr]. cbn [fst snd]. eapply res_le; [|eapply remote_ok; [exact F1|exact Lf|exact Ea|eapply wire_before; eassumption]]. destruct L2; lia.
      * exists lost. cbn [map snd concat]. rewrite <- app_assoc. apply Permutation_app_head. exact P.
    + exists l'. split; [reflexivity|]. split; [exact Fr|]. exists (lost ++ evs). rewrite app_assoc, <- P. apply Permutation_app_comm.
Qed.
Lemma round_ok (l : list (tmsg * list event)) w w' xs : t_round e T w (map fst l) = Ok (w', xs) -> Forall body_ok (w_wire w') ->
  Forall (fun p => req_ok (w_now w) (fst p) (snd p)) l -> explains e T (concat (map snd l)) xs.
Proof.
  intros H W F. pose proof (round_bare _ _ _ _ _ _ (set_iter _ HS) H) as [Lw _]. unfold t_round in H. obind H a Ea. destruct a as [w1 ys]. obind H b Eb. destruct b as [w2 zs]. injection H as <- <-.
  set (loc := fun p : tmsg * list event => is_local e (tm_msg (fst p))).
  assert (P : Permutation l (filter (fun p => negb (loc p)) l ++ filter loc l)).
  { clear. induction l as [|p l IH]; [constructor|]. cbn [filter]. destruct (loc p); cbn [negb app]; [|constructor; exact IH].
    rewrite <- Permutation_middle. constructor. exact IH. }
  assert (Fs : forall g, Forall (fun p => req_ok (w_now w) (fst p) (snd p) /\ g p = true) (filter g l)).
  { intros g. apply Forall_forall. intros p Hp. apply filter_In in Hp as [Hp Hg]. rewrite Forall_forall in F. auto. }
  apply (explains_perm e T (concat (map snd (filter (fun p => negb (loc p)) l)) ++ concat (map snd (filter loc l)))).
  { rewrite <- concat_app, <- map_app. rewrite <- !flat_map_concat_map. apply Permutation_flat_map, Permutation_sym, P. }
  rewrite filter_map in Eb. fold loc in Eb. pose proof (proj1 (run_local_bare _ _ _ _ _ _ Eb)) as L2. 
  destruct (remote_map_perm e (map fst l)) as [N [d Pd]]. rewrite filter_map in Pd. fold loc in Pd.
  change (fun x : tmsg * list event => negb (is_local e (tm_msg (fst x)))) with (fun p => negb (loc p)) in Pd.
  assert (X : later w w1 /\ explains e T (concat (map snd (filter (fun p => negb (loc p)) l))) ys).
  { destruct (t_remote_map e (map fst l)) as [|y rm] eqn:El; [injection Ea as <- <-; split; [apply later_refl|apply explains_none]|].
    destruct (e_transport e) as [route|]; [|discriminate]. obind Ea c Ec. destruct c as [w3 rs]. obind Ea f Ef. destruct f as [us k]. injection Ea as <- <-.
    pose proof (proj1 (communicate_bare _ _ _ _ _ _ _ Ec)) as L3. pose proof (proj1 (addall_bare _ _ _ _ _ Ef)) as L4.
    split; [apply later_at; assumption|].
    destruct (iter_spec e (y :: rm) (set_iter _ HS) N) as [Pi _].
    assert (Pm : Permutation (map fst (filter (fun p => negb (loc p)) l)) (map snd (t_iter e (y :: rm)) ++ d)).
    { rewrite Pd. apply Permutation_app_tail. apply Permutation_map, Permutation_sym, Pi. }
    apply Permutation_sym, Permutation_map_inv in Pm as (l3 & E3 & P3).
    symmetry in E3. apply map_eq_app in E3 as (la & lb & -> & Ela & Elb).
    assert (Z : exists lz : list (Z * tmsg * list event), map fst lz = t_iter e (y :: rm) /\ map (fun p => (snd (fst p), snd p)) lz = la).
    { clear -Ela. revert la Ela. induction (t_iter e (y :: rm)) as [|[k m] it IH]; intros la Ela.
      - destruct la; [|discriminate]. exists []. auto.
      - destruct la as [|[m' evs] la]; [discriminate|]. cbn in Ela. injection Ela as -> Ela. destruct (IH _ Ela) as (lz & E1 & E2).
        exists ((k, m, evs) :: lz). cbn. rewrite E1, E2. auto. }
    destruct Z as (lz & Ez & Ey). rewrite <- Ez in Ec.
    assert (Fz : Forall (fun p => req_ok (w_now w) (snd (fst p)) (snd p) /\ is_local e (tm_msg (snd (fst p))) = false) lz).
    { pose proof (Fs (fun p => negb (loc p))) as F'. rewrite P3 in F'. apply Forall_app in F' as [F' _]. rewrite <- Ey in F'. rewrite Forall_map in F'.
      eapply Forall_impl; [|exact F']. intros p [Q Lo]. cbn [fst snd] in Q. split; [exact Q|]. unfold loc in Lo. cbn [fst] in Lo. apply Bool.negb_true_iff, Lo. }
    destruct (communicate_ok route lz w w3 rs Ec) as (l' & -> & Fr & lost & Pc).
    { eapply wire_before; [|exact W]. eapply later_trans; [apply later_time, L4|exact L2]. }
    { exact Fz. }
    pose proof (addall_ok _ _ _ _ Ef Fr) as Ex. apply (explains_more e T _ (lost ++ concat (map snd lb))) in Ex. eapply explains_perm; [|exact Ex].
    rewrite app_assoc, <- Pc. transitivity (concat (map snd (la ++ lb))).
    { rewrite map_app, concat_app. apply Permutation_app_tail. rewrite <- Ey, map_map. cbn [snd]. reflexivity. }
    rewrite <- !flat_map_concat_map. apply Permutation_flat_map, Permutation_sym, P3. }
  destruct X as [L1 X]. apply explains_app; [exact X|]. eapply run_local_ok; [exact Eb|].
  eapply Forall_impl; [|exact (Fs loc)]. intros p [Q Lo]. split; [|exact Lo]. eapply req_le; [|exact Q]. destruct L1; lia.
Qed.
End Kind.
End Clock.
