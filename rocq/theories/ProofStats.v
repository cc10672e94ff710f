(* The statistics of a session *)
From Verif Require Import ModelBytes ProofBytes ModelKey ModelWire ModelHist ModelMsg SpecMsg ModelStore ModelGetOp ModelDs
  SpecStore ProofStore ModelElen ModelRoute SpecRoute ProofRoute ProofRoute2 ModelClient SpecClient ProofClient ProofClient2 ProofClient3 ProofClient4 ProofClient5
  ModelFloat ModelGen ModelStats SpecStats.
From Coq Require Import Permutation.
Local Open Scope N_scope.

(* ---- sums ---- *)
Lemma sumN_app l l' : sumN (l ++ l') = sumN l + sumN l'.
Proof. induction l as [|x l IH]; cbn [app sumN fold_right]; [reflexivity|]. change (x + sumN (l ++ l') = x + sumN l + sumN l'). rewrite IH. lia. Qed.
Lemma sumN_cons x l : sumN (x :: l) = x + sumN l.
Proof. reflexivity. Qed.
Lemma sumN_perm l l' : Permutation l l' -> sumN l = sumN l'.
Proof. induction 1; rewrite ?sumN_cons in *; try lia; reflexivity. Qed.
Lemma lenN_app {A} (l l' : list A) : lenN (l ++ l') = lenN l + lenN l'.
Proof. unfold lenN. rewrite app_length. lia. Qed.
Lemma lenN_cons {A} (x : A) l : lenN (x :: l) = lenN l + 1.
Proof. unfold lenN. cbn [length]. lia. Qed.
Lemma lenN_map {A B} (f : A -> B) l : lenN (map f l) = lenN l.
Proof. unfold lenN. rewrite map_length. reflexivity. Qed.
Lemma lenN_concat {A} (l : list (list A)) : lenN (concat l) = sumN (map lenN l).
Proof. induction l as [|a l IH]; [reflexivity|]. cbn [concat map]. rewrite sumN_cons, lenN_app, IH. reflexivity. Qed.
Lemma over_add e f g : over_ids e (fun id => f id + g id) = over_ids e f + over_ids e g.
Proof. unfold over_ids. induction (upto (e_total e)) as [|i l IH]; [reflexivity|]. cbn [map]. rewrite !sumN_cons, IH. lia. Qed.
Lemma over_ext e f g : (forall id, an_id e id -> f id = g id) -> over_ids e f = over_ids e g.
Proof.
  intros H. unfold over_ids. f_equal. apply map_ext_in. intros id Hi. apply H. unfold upto in Hi. apply in_map_iff in Hi as (n & <- & Hn).
  apply in_seq in Hn. unfold an_id. lia.
Qed.
Lemma over_0 e : over_ids e (fun _ => 0) = 0.
Proof. unfold over_ids. induction (upto (e_total e)) as [|i l IH]; [reflexivity|]. cbn [map]. rewrite sumN_cons, IH. reflexivity. Qed.
Lemma over_queues {A} e (f : list (list A) -> N) (qs : list (list (list A))) : length qs = Z.to_nat (e_total e) ->
  over_ids e (fun id => f (queue_of qs id)) = sumN (map f qs).
Proof.
  intros H. unfold over_ids, upto. rewrite <- H, map_map. f_equal.
  assert (G : forall k, map (fun x => f (queue_of qs (Z.of_nat x))) (seq k (length qs - k)) = map f (skipn k qs)).
  { intros k. remember (length qs - k)%nat as m eqn:Em. revert k Em. induction m as [|m IH]; intros k Em.
    - rewrite skipn_all2 by lia. reflexivity.
    - cbn [seq map]. rewrite IH by lia. unfold queue_of at 1. rewrite Nat2Z.id.
      assert (X : skipn k qs = nth k qs [] :: skipn (Datatypes.S k) qs).
      { clear - Em. revert k Em. induction qs as [|q qs IH]; intros k Em; [cbn [length] in Em; lia|]. destruct k as [|k]; [reflexivity|]. cbn [skipn nth length] in *. apply IH. lia. }
      rewrite X. reflexivity. }
  specialize (G O). rewrite Nat.sub_0_r in G. exact G.
Qed.

(* ---- what a run of process adds ---- *)
Definition mine (k : N) (m : msg) : bool := k =? body_op (m_body m).
Definition mine_to (k : N) (d : Z) (m : msg) : bool := (k =? body_op (m_body m)) && (d =? m_dst m)%Z.
Lemma notes : forall ms st,
  st_single (fold_left note ms st) = st_single st /\ st_bulk (fold_left note ms st) = st_bulk st /\
  (forall k, st_used (fold_left note ms st) k = st_used st k ++ map (fun m => body_count (m_body m)) (filter (mine k) ms)) /\
  (forall k d, st_out (fold_left note ms st) k d = st_out st k d + lenN (filter (mine_to k d) ms)).
Proof.
  induction ms as [|m ms IH]; intros st; cbn [fold_left].
  - split; [reflexivity|]. split; [reflexivity|]. split; intros; cbn [filter map]; [rewrite app_nil_r; reflexivity|unfold lenN; cbn [length]; lia].
  - destruct (IH (note st m)) as (I1 & I2 & I3 & I4). split; [exact I1|]. split; [exact I2|]. split.
    + intros k. rewrite I3. unfold note at 1, push. cbn [st_used filter]. unfold mine at 2. destruct (k =? body_op (m_body m)); [|reflexivity].
      cbn [map]. rewrite <- app_assoc. reflexivity.
    + intros k d. rewrite I4. unfold note at 1. cbn [st_out filter]. unfold mine_to at 2. destruct ((k =? body_op (m_body m)) && (d =? m_dst m)%Z); [|reflexivity].
      rewrite lenN_cons. lia.
Qed.

Section Process.
Context {A : Type} (e : env) (wrap : list A -> body) (k0 : N).
Context (Hop : forall p, body_op (wrap p) = k0) (Hcount : forall p, body_count (wrap p) = lenN p).
Definition heads (qs : list (list (list A))) : list (list A) := flat_map (fun q => match q with [] => [] | p :: _ => [p] end) qs.
Lemma heads_perm qs : Permutation (heads qs ++ concat (map (@tl _) qs)) (concat qs).
Proof.
  induction qs as [|q qs IH]; [constructor|]. unfold heads in *. cbn [flat_map map concat]. destruct q as [|p q]; cbn [tl app]; [exact IH|].
  constructor. etransitivity; [|apply Permutation_app_head, IH]. rewrite !app_assoc. apply Permutation_app_tail, Permutation_app_comm.
Qed.
Lemma pop_used k : forall qs id, map (fun m => body_count (m_body m)) (filter (mine k) (fst (pop wrap (e_rank e) id qs))) = if k =? k0 then map lenN (heads qs) else [].
Proof.
  induction qs as [|q qs IH]; intros id; [cbn; destruct (k =? k0); reflexivity|]. cbn [pop]. specialize (IH (id + 1)%Z).
  destruct (pop wrap (e_rank e) (id + 1)%Z qs) as [ms r]. cbn [fst] in IH. unfold heads in *. destruct q as [|p q]; cbn [fst flat_map app]; [exact IH|].
  cbn [filter]. unfold mine at 1. cbn [m_body]. rewrite Hop. destruct (k =? k0); [|exact IH]. cbn [map m_body]. rewrite Hcount, IH. reflexivity.
Qed.
Definition one_if (b : bool) : N := if b then 1 else 0.
Definition nonempty (q : list (list A)) : bool := match q with [] => false | _ => true end.
Lemma pop_out k d : forall qs id, lenN (filter (mine_to k d) (fst (pop wrap (e_rank e) id qs))) =
  one_if ((k =? k0) && (id <=? d)%Z && nonempty (nth (Z.to_nat (d - id)) qs [])).
Proof.
  induction qs as [|q qs IH]; intros id; [cbn [pop fst filter]; destruct (Z.to_nat (d - id)); cbn [nth nonempty]; rewrite andb_false_r; reflexivity|].
  cbn [pop]. specialize (IH (id + 1)%Z). destruct (pop wrap (e_rank e) (id + 1)%Z qs) as [ms r]. cbn [fst] in IH.
  assert (E : lenN (filter (mine_to k d) (fst (match q with [] => (ms, [] :: r) | p :: q' => (mkMsg (e_rank e) id (wrap p) :: ms, q' :: r) end))) =
    one_if ((k =? k0) && (d =? id)%Z && nonempty q) + lenN (filter (mine_to k d) ms)).
  { destruct q as [|p q]; cbn [fst nonempty]; [rewrite andb_false_r; cbn [one_if]; lia|]. cbn [filter]. unfold mine_to at 1. cbn [m_body m_dst]. rewrite Hop, andb_true_r.
    destruct ((k =? k0) && (d =? id)%Z); cbn [one_if]; [rewrite lenN_cons; lia|lia]. }
  rewrite E, IH. clear E IH. destruct (k =? k0); cbn [andb one_if]; [|reflexivity].
  destruct (Z.lt_trichotomy d id) as [H|[H|H]].
  - destruct (Z.eqb_spec d id), (Z.leb_spec (id + 1) d), (Z.leb_spec id d); try lia. reflexivity.
  - subst. rewrite Z.sub_diag. destruct (Z.eqb_spec id id), (Z.leb_spec (id + 1) id), (Z.leb_spec id id); try lia. cbn [Z.to_nat nth andb one_if]. lia.
  - destruct (Z.eqb_spec d id), (Z.leb_spec (id + 1) d), (Z.leb_spec id d); try lia. cbn [andb].
    replace (Z.to_nat (d - id)) with (Datatypes.S (Z.to_nat (d - (id + 1)))) by lia. cbn [nth one_if]. lia.
Qed.
Definition got_out (qs : list (list (list A))) (k : N) (d : Z) : N := if (k =? k0) && (0 <=? d)%Z then lenN (queue_of qs d) else 0.
Lemma rounds_spec_st : forall f qs st, (remaining qs <= f)%nat ->
  st_single (rounds_st f e wrap qs st) = st_single st /\ st_bulk (rounds_st f e wrap qs st) = st_bulk st /\
  (exists ps, Permutation ps (concat qs) /\ forall k, st_used (rounds_st f e wrap qs st) k = st_used st k ++ (if k =? k0 then map lenN ps else [])) /\
  (forall k d, st_out (rounds_st f e wrap qs st) k d = st_out st k d + got_out qs k d).
Proof.
  assert (Z0 : forall qs st, remaining qs = O -> st_single st = st_single st /\ st_bulk st = st_bulk st /\
    (exists ps, Permutation ps (concat qs) /\ forall k, st_used st k = st_used st k ++ (if k =? k0 then map lenN ps else [])) /\
    (forall k d, st_out st k d = st_out st k d + got_out qs k d)).
  { intros qs st H. split; [reflexivity|]. split; [reflexivity|]. split.
    - exists []. unfold remaining in H. destruct (concat qs); [|discriminate]. split; [constructor|]. intros k. cbn [map]. destruct (k =? k0); rewrite app_nil_r; reflexivity.
    - intros k d. unfold got_out, queue_of. rewrite remaining_0 by exact H. destruct (_ && _); cbn; lia. }
  induction f as [|f IH]; intros qs st Hf.
  - apply Z0. lia.
  - cbn [rounds_st]. destruct (remaining qs) as [|r] eqn:Er; [apply Z0, Er|].
    pose proof (pop_rest wrap (e_rank e) qs 0) as Hr. pose proof (fun k => pop_used k qs 0) as Hu. pose proof (fun k d => pop_out k d qs 0) as Ho.
    destruct (pop wrap (e_rank e) 0 qs) as [ms qs']. cbn [fst snd] in *. subst qs'.
    destruct (remaining_tl qs) as [Hlt _]. specialize (Hlt ltac:(lia)).
    destruct (IH (map (@tl _) qs) (fold_left note ms st) ltac:(lia)) as (I1 & I2 & (ps & P & I3) & I4). destruct (notes ms st) as (N1 & N2 & N3 & N4).
    split; [congruence|]. split; [congruence|]. split.
    + exists (heads qs ++ ps). split; [etransitivity; [apply Permutation_app_head, P|apply heads_perm]|].
      intros k. rewrite I3, N3, Hu, <- app_assoc. destruct (k =? k0); [|reflexivity]. rewrite map_app. reflexivity.
    + intros k d. rewrite I4, N4, Ho. unfold got_out. rewrite queue_tl, Z.sub_0_r. unfold queue_of.
      destruct (k =? k0), (Z.leb_spec 0 d); cbn [andb one_if]; try lia. destruct (nth (Z.to_nat d) qs []) as [|p q]; cbn [nonempty one_if tl]; [unfold lenN; cbn; lia|rewrite lenN_cons; lia].
Qed.
Lemma process_spec_st qs st :
  st_single (process_st e wrap qs st) = st_single st /\ st_bulk (process_st e wrap qs st) = st_bulk st /\
  (exists ps, Permutation ps (concat qs) /\ forall k, st_used (process_st e wrap qs st) k = st_used st k ++ (if k =? k0 then map lenN ps else [])) /\
  (forall k d, st_out (process_st e wrap qs st) k d = st_out st k d + got_out qs k d).
Proof. apply rounds_spec_st. reflexivity. Qed.

(* ---- the account of one kind ---- *)
Record acc (qs : list (list (list A))) (used : list N) (out : Z -> N) (I : Z -> N) : Prop := {
  ac_length : length qs = Z.to_nat (e_total e);
  ac_tidy : tidy e qs;
  ac_total : sumN used + over_ids e (fun id => lenN (queued qs id)) = over_ids e I;
  ac_packets : lenN used = over_ids e out;
  ac_range : Forall (fun n => 1 <= n <= e_max_ops e) used;
  ac_each : forall id, an_id e id -> out id + lenN (queued qs id) <= I id <= out id * e_max_ops e + lenN (queued qs id);
  ac_others : forall id, ~ an_id e id -> out id = 0
}.
Lemma acc_empty : acc (empty_queues (e_total e)) [] (fun _ => 0) (fun _ => 0).
Proof.
  assert (Q : forall id, @queued A (empty_queues (e_total e)) id = []) by (intros id; unfold queued; change (nth (Z.to_nat id) (empty_queues (e_total e)) []) with (@queue_of A (empty_queues (e_total e)) id); rewrite empty_queue_of; reflexivity).
  constructor; [apply empty_length|apply empty_tidy| | |constructor| |reflexivity].
  - rewrite (over_ext e _ (fun _ => 0)) by (intros id _; rewrite Q; reflexivity). reflexivity.
  - rewrite over_0. reflexivity.
  - intros id _. rewrite Q. cbn. lia.
Qed.
Lemma acc_ext qs used used' out out' I I' : used = used' -> (forall id, out id = out' id) -> (forall id, an_id e id -> I id = I' id) -> acc qs used out I -> acc qs used' out' I'.
Proof.
  intros <- Ho Hi [a1 a2 a3 a4 a5 a6 a7]. constructor; [exact a1|exact a2| | |exact a5| |].
  - rewrite a3. apply over_ext, Hi.
  - rewrite a4. apply over_ext. intros id _. apply Ho.
  - intros id H. rewrite <- Ho, <- Hi by exact H. apply a6, H.
  - intros id H. rewrite <- Ho. apply a7, H.
Qed.
Lemma acc_added L qs qs' used out I : added e L qs qs' -> acc qs used out I -> acc qs' used out (fun id => I id + lenN (L id)).
Proof.
  intros (D1 & D2 & D3 & D4) [a1 a2 a3 a4 a5 a6 a7].
  assert (Q : forall id, an_id e id -> lenN (queued qs' id) = lenN (queued qs id) + lenN (L id)).
  { intros id [H _]. unfold queued. change (lenN (concat (queue_of qs' id)) = lenN (concat (queue_of qs id)) + lenN (L id)). rewrite (D3 id H), lenN_app. reflexivity. }
  constructor; [congruence|auto| |exact a4|exact a5| |exact a7].
  - rewrite over_add, <- a3, (over_ext e _ _ Q), over_add. lia.
  - intros id H. rewrite (Q id H). specialize (a6 id H). lia.
Qed.
Lemma packets_len (q : list (list A)) : Forall (packet_ok e) q -> lenN q <= lenN (concat q) <= lenN q * e_max_ops e.
Proof.
  induction 1 as [|p q [H1 H2] _ IH]; cbn [concat]; [unfold lenN; cbn; lia|]. rewrite lenN_cons, lenN_app.
  assert (1 <= lenN p) by (unfold lenN; destruct p; [congruence|cbn [length]; lia]). change (lenN p <= e_max_ops e) in H2. rewrite N.mul_add_distr_r. lia.
Qed.
Lemma drained_queue (qs : list (list (list A))) id : queued (drained qs) id = [].
Proof.
  unfold queued, drained. replace (nth (Z.to_nat id) (map (fun _ => []) qs) []) with (@nil (list A)); [reflexivity|].
  generalize (Z.to_nat id). induction qs as [|q qs IH]; intros [|n]; try reflexivity. apply IH.
Qed.
Lemma acc_process qs st I : acc qs (st_used st k0) (st_out st k0) I ->
  acc (drained qs) (st_used (process_st e wrap qs st) k0) (st_out (process_st e wrap qs st) k0) I.
Proof.
  intros [a1 a2 a3 a4 a5 a6 a7]. destruct (process_spec_st qs st) as (_ & _ & (ps & P & U) & O).
  specialize (U k0). rewrite N.eqb_refl in U.
  assert (Q0 : forall id, lenN (queued (drained qs) id) = 0) by (intros id; rewrite drained_queue; reflexivity).
  assert (OO : forall d, (0 <= d)%Z -> st_out (process_st e wrap qs st) k0 d = st_out st k0 d + lenN (queue_of qs d)).
  { intros d Hd. rewrite O. unfold got_out. rewrite N.eqb_refl. destruct (Z.leb_spec 0 d); [reflexivity|lia]. }
  constructor.
  - unfold drained. rewrite map_length. exact a1.
  - unfold tidy, drained. apply Forall_map. apply Forall_forall. intros; constructor.
  - rewrite (over_ext e _ (fun _ => 0)) by (intros id _; apply Q0). rewrite over_0, U, sumN_app, <- a3.
    rewrite (sumN_perm _ _ (Permutation_map lenN P)), <- lenN_concat.
    assert (Y : over_ids e (fun id => lenN (queued qs id)) = sumN (map (fun q => lenN (concat q)) qs)) by exact (over_queues e (fun q => lenN (concat q)) qs a1).
    rewrite Y, lenN_concat.
    assert (X : sumN (map lenN (concat qs)) = sumN (map (fun q => lenN (concat q)) qs)).
    { clear. induction qs as [|q qs IH]; [reflexivity|]. cbn [concat map]. rewrite sumN_cons, map_app, sumN_app, IH, lenN_concat. reflexivity. }
    lia.
  - rewrite U, lenN_app, lenN_map, a4.
    rewrite (over_ext e (st_out (process_st e wrap qs st) k0) (fun d => st_out st k0 d + lenN (queue_of qs d))) by (intros id [H _]; apply OO, H).
    rewrite over_add, (over_queues e lenN qs a1), <- lenN_concat. unfold lenN. rewrite (Permutation_length P). reflexivity.
  - rewrite U. apply Forall_app. split; [exact a5|]. apply Forall_map. rewrite P. clear - a2. unfold tidy in a2.
    induction a2 as [|q qs H _ IH]; [constructor|]. cbn [concat]. apply Forall_app. split; [|exact IH].
    eapply Forall_impl; [|exact H]. intros p [H1 H2]. unfold lenN. destruct p; [congruence|]. cbn [length] in *. lia.
  - intros id H. specialize (a6 id H). rewrite Q0, OO by apply H.
    pose proof (packets_len (queue_of qs id)) as PL. assert (T : Forall (packet_ok e) (queue_of qs id)).
    { unfold queue_of. clear - a2. unfold tidy in a2. generalize (Z.to_nat id). induction a2 as [|q qs H _ IH]; intros [|n]; try constructor; [exact H|apply IH]. }
    specialize (PL T). unfold queued in a6. change (nth (Z.to_nat id) qs []) with (queue_of qs id) in a6. nia.
  - intros id H. rewrite O, a7 by exact H. unfold got_out. destruct (_ && _) eqn:E; [|reflexivity]. apply andb_true_iff in E as [_ E]. apply Z.leb_le in E.
    unfold queue_of. rewrite nth_overflow; [reflexivity|]. rewrite a1. unfold an_id in H. lia.
Qed.
Lemma process_others qs st k : k <> k0 -> st_used (process_st e wrap qs st) k = st_used st k /\ forall d, st_out (process_st e wrap qs st) k d = st_out st k d.
Proof.
  intros H. destruct (process_spec_st qs st) as (_ & _ & (ps & P & U) & O). rewrite U. assert (E : (k =? k0) = false) by (apply N.eqb_neq; exact H). rewrite E, app_nil_r.
  split; [reflexivity|]. intros d. rewrite O. unfold got_out. rewrite E. cbn [andb]. lia.
Qed.
Lemma process_calls qs st : st_single (process_st e wrap qs st) = st_single st /\ st_bulk (process_st e wrap qs st) = st_bulk st.
Proof. destruct (process_spec_st qs st) as (H1 & H2 & _). auto. Qed.
End Process.

(* ---- the account of a session ---- *)
Record accounts (e : env) (s : session) (st : stats) (I : N -> Z -> N) : Prop := {
  as_up : s_up s = true;
  as_puts : acc e (q_puts (s_qs s)) (st_used st 0) (st_out st 0) (I 0);
  as_gets : acc e (q_gets (s_qs s)) (st_used st 1) (st_out st 1) (I 1);
  as_getops : acc e (q_getops (s_qs s)) (st_used st 2) (st_out st 2) (I 2);
  as_dels : acc e (q_dels (s_qs s)) (st_used st 3) (st_out st 3) (I 3);
  as_hists : acc e (q_hists (s_qs s)) (st_used st 5) (st_out st 5) (I 5)
}.
Lemma accounts_ext e s st I I' : (forall k id, an_id e id -> I k id = I' k id) -> accounts e s st I -> accounts e s st I'.
Proof. intros H [u a b c d f]. constructor; [exact u|..]; (eapply acc_ext; [reflexivity|reflexivity|apply H|eassumption]). Qed.
Lemma record_packets w t st : st_used (record w t st) = st_used st /\ st_out (record w t st) = st_out st.
Proof. destruct w as [[[|] k]|]; auto. Qed.
Lemma accounts_record e s st I w t : accounts e s st I -> accounts e s (record w t st) I.
Proof. intros [u a b c d f]. destruct (record_packets w t st) as [E1 E2]. constructor; rewrite ?E1, ?E2; assumption. Qed.

Lemma step_puts e s st I : accounts e s st I -> accounts e (with_puts s (drained (q_puts (s_qs s))) 0) (process_st e QPut (q_puts (s_qs s)) st) I.
Proof.
  intros [u a b c d f]. pose proof (process_others e QPut 0 (fun _ => eq_refl) (fun _ => eq_refl) (q_puts (s_qs s)) st) as O.
  constructor; cbn [with_puts s_up s_qs q_puts q_gets q_getops q_dels q_hists]; [exact u|apply (acc_process e QPut 0); auto|..];
    match goal with |- acc e ?q (st_used _ ?k) _ _ => destruct (O k ltac:(lia)) as [E1 E2]; eapply acc_ext; [symmetry; exact E1|symmetry; apply E2|reflexivity|assumption] end.
Qed.
Lemma step_gets e s st I : accounts e s st I -> accounts e (with_gets s (drained (q_gets (s_qs s)))) (process_st e QGet (q_gets (s_qs s)) st) I.
Proof.
  intros [u a b c d f]. pose proof (process_others e QGet 1 (fun _ => eq_refl) (fun _ => eq_refl) (q_gets (s_qs s)) st) as O.
  constructor; cbn [with_gets s_up s_qs q_puts q_gets q_getops q_dels q_hists]; [exact u| |apply (acc_process e QGet 1); auto|..];
    match goal with |- acc e ?q (st_used _ ?k) _ _ => destruct (O k ltac:(lia)) as [E1 E2]; eapply acc_ext; [symmetry; exact E1|symmetry; apply E2|reflexivity|assumption] end.
Qed.
Lemma step_getops e s st I : accounts e s st I -> accounts e (with_getops s (drained (q_getops (s_qs s)))) (process_st e QGetOp (q_getops (s_qs s)) st) I.
Proof.
  intros [u a b c d f]. pose proof (process_others e QGetOp 2 (fun _ => eq_refl) (fun _ => eq_refl) (q_getops (s_qs s)) st) as O.
  constructor; cbn [with_getops s_up s_qs q_puts q_gets q_getops q_dels q_hists]; [exact u| | |apply (acc_process e QGetOp 2); auto|..];
    match goal with |- acc e ?q (st_used _ ?k) _ _ => destruct (O k ltac:(lia)) as [E1 E2]; eapply acc_ext; [symmetry; exact E1|symmetry; apply E2|reflexivity|assumption] end.
Qed.
Lemma step_dels e s st I : accounts e s st I -> accounts e (with_dels s (drained (q_dels (s_qs s)))) (process_st e QDel (q_dels (s_qs s)) st) I.
Proof.
  intros [u a b c d f]. pose proof (process_others e QDel 3 (fun _ => eq_refl) (fun _ => eq_refl) (q_dels (s_qs s)) st) as O.
  constructor; cbn [with_dels s_up s_qs q_puts q_gets q_getops q_dels q_hists]; [exact u| | | |apply (acc_process e QDel 3); auto|..];
    match goal with |- acc e ?q (st_used _ ?k) _ _ => destruct (O k ltac:(lia)) as [E1 E2]; eapply acc_ext; [symmetry; exact E1|symmetry; apply E2|reflexivity|assumption] end.
Qed.
Lemma step_hists e s st I : accounts e s st I -> accounts e (with_histq s (drained (q_hists (s_qs s)))) (process_st e QHist (q_hists (s_qs s)) st) I.
Proof.
  intros [u a b c d f]. pose proof (process_others e QHist 5 (fun _ => eq_refl) (fun _ => eq_refl) (q_hists (s_qs s)) st) as O.
  constructor; cbn [with_histq s_up s_qs q_puts q_gets q_getops q_dels q_hists]; [exact u| | | | |apply (acc_process e QHist 5); auto];
    match goal with |- acc e ?q (st_used _ ?k) _ _ => destruct (O k ltac:(lia)) as [E1 E2]; eapply acc_ext; [symmetry; exact E1|symmetry; apply E2|reflexivity|assumption] end.
Qed.
Lemma flush_account e s cl s' cl' xs st I : flush e s cl = Ok (s', cl', xs) -> accounts e s st I -> accounts e s' (flush_st e s st) I.
Proof.
  unfold flush. intros H A.
  apply obind_ok in H as ([[s1 c1] x1] & E1 & H). unfold flush_puts in E1. apply obind_ok in E1 as ([k1 y1] & _ & E1). apply Ok_inj in E1. injection E1 as <- _ _.
  apply obind_ok in H as ([[s2 c2] x2] & E2 & H). cbn [fst snd] in E2. unfold flush_gets in E2. apply obind_ok in E2 as ([k2 y2] & _ & E2). apply Ok_inj in E2. injection E2 as <- _ _.
  apply obind_ok in H as ([[s3 c3] x3] & E3 & H). cbn [fst snd] in E3. unfold flush_getops in E3. apply obind_ok in E3 as ([k3 y3] & _ & E3). apply Ok_inj in E3. injection E3 as <- _ _.
  apply obind_ok in H as ([[s4 c4] x4] & E4 & H). cbn [fst snd] in E4. unfold flush_dels in E4. apply obind_ok in E4 as ([k4 y4] & _ & E4). apply Ok_inj in E4. injection E4 as <- _ _.
  apply obind_ok in H as ([[s5 c5] x5] & E5 & H). cbn [fst snd] in E5. unfold flush_hists in E5. apply obind_ok in E5 as ([k5 y5] & _ & E5). apply Ok_inj in E5. injection E5 as <- _ _.
  apply Ok_inj in H. injection H as <- _ _.
  apply step_puts in A. apply step_gets in A. apply step_getops in A. apply step_dels in A. apply step_hists in A. exact A.
Qed.

(* a call that only queues *)
Lemma accounts_grown e s s' st I c : plain c -> s_up s = true ->
  grown e s s' (nn (fun id => puts_to e id [c])) (nn (fun id => gets_to e id [c])) (nn (fun id => getops_to e id [c]))
    (nn (fun id => dels_to e id [c])) (nn (fun id => hists_to e id [c])) ->
  accounts e s st I -> accounts e s' st (fun k id => I k id + issued1 e k id c).
Proof.
  intros Hp _ [gu _ g1 g2 g3 g4 g5] [u a b d f g].
  assert (NN : forall A (L : Z -> list A) id, an_id e id -> nn L id = L id) by (intros A L id [H _]; unfold nn; destruct (Z.leb_spec 0 id); [reflexivity|lia]).
  assert (PP : forall id, lenN (puts_to e id [c]) = issued1 e 0 id c).
  { intros id. unfold puts_to, issued1. change (0 =? 0) with true. cbv iota. rewrite lenN_map. cbn [flat_map]. rewrite app_nil_r. destruct c; try reflexivity. contradiction. }
  constructor; [congruence|..].
  - eapply acc_ext; [reflexivity|reflexivity| |eapply acc_added; [exact g1|exact a]]. intros id H. cbv beta. rewrite NN, PP by exact H. reflexivity.
  - eapply acc_ext; [reflexivity|reflexivity| |eapply acc_added; [exact g2|exact b]]. intros id H. cbv beta. rewrite NN by exact H. reflexivity.
  - eapply acc_ext; [reflexivity|reflexivity| |eapply acc_added; [exact g3|exact d]]. intros id H. cbv beta. rewrite NN by exact H. reflexivity.
  - eapply acc_ext; [reflexivity|reflexivity| |eapply acc_added; [exact g4|exact f]]. intros id H. cbv beta. rewrite NN by exact H. reflexivity.
  - eapply acc_ext; [reflexivity|reflexivity| |eapply acc_added; [exact g5|exact g]]. intros id H. cbv beta. rewrite NN by exact H. reflexivity.
Qed.
Lemma accounts_kept e s st I kept : accounts e s st I -> accounts e (mkSession (s_up s) (s_qs s) (s_count s) kept) st I.
Proof. intros [u a b c d f]. constructor; assumption. Qed.
Lemma call_account e s cl c s' cl' ok st st' I : do_call e s cl c = Ok (s', cl', ok) -> early_st e s c st = Ok st' ->
  accounts e s st I -> accounts e s' st' (fun k id => I k id + issued1 e k id c).
Proof.
  intros H E A. pose proof (as_up _ _ _ _ A) as U.
  assert (P : plain c -> accounts e s' st' (fun k id => I k id + issued1 e k id c)).
  { intros Hp. assert (st' = st) by (destruct c; try (apply Ok_inj in E; congruence); contradiction). subst. apply call_grown in H as [_ G]; [|exact Hp|exact U].
    apply (accounts_grown e s s' st I c Hp U G A). }
  destruct c as [x y z m|x y ty|x y ty n op|x y|id nm|l|l|l|l|l|t ty l|t ty l|t ops ty l]; try exact (P Logic.I). clear P.
  destruct l as [l|].
  2: { unfold do_call in H. rewrite U in H. cbn [negb] in H. apply Ok_inj in H. injection H as <- _ _. apply Ok_inj in E. subst.
       eapply accounts_ext; [|exact A]. intros k id _. unfold issued1. repeat (match goal with |- context [if ?b then _ else _] => destruct b end; [cbn; lia|]). lia. }
  unfold do_call in H. unfold early_st in E. rewrite U in H, E. cbn [negb] in H, E. destruct (negb t && _); [discriminate|].
  apply obind_ok in H as ([q k] & B & H). rewrite B in E. cbn [obind fst snd] in H, E.
  pose proof (bput_loop_added _ _ _ _ _ _ B) as [D _].
  assert (A1 : accounts e (with_puts s q (s_count s + k)) st (fun k id => I k id + issued1 e k id (CBPutOne t ty (Some l)))).
  { destruct A as [u a b c d f]. constructor; cbn [with_puts s_up s_qs q_puts q_gets q_getops q_dels q_hists]; [exact u| |..].
    - eapply acc_ext; [reflexivity|reflexivity| |eapply acc_added; [exact D|exact a]]. intros id _. cbv beta. f_equal.
      unfold issued1. change (0 =? 0) with true. cbv iota. rewrite lenN_map. unfold puts_of. f_equal. unfold goes3. f_equal.
      clear. induction l as [|[[[s p] o] m] l IH]; [reflexivity|]. cbn [map flat_map]. rewrite IH. reflexivity.
    - eapply acc_ext; [reflexivity|reflexivity| |exact b]. intros id _. cbn. lia.
    - eapply acc_ext; [reflexivity|reflexivity| |exact c]. intros id _. cbn. lia.
    - eapply acc_ext; [reflexivity|reflexivity| |exact d]. intros id _. cbn. lia.
    - eapply acc_ext; [reflexivity|reflexivity| |exact f]. intros id _. cbn. lia. }
  unfold serial_puts in H. cbn [with_puts s_count] in H. destruct (e_max_queued e <=? s_count s + k).
  - apply obind_ok in H as ([s1 c1] & F & H). apply obind_ok in F as ([k1 y1] & _ & F). apply Ok_inj in F. injection F as <- _. apply Ok_inj in H. injection H as <- _ _.
    apply Ok_inj in E. subst st'. apply step_puts in A1. apply (accounts_kept _ _ _ _ (s_kept s ++ y1)) in A1. exact A1.
  - cbn [obind] in H. apply Ok_inj in H. injection H as <- _ _. apply Ok_inj in E. subst. exact A1.
Qed.
Definition adds (e : env) (a : sact) (k : N) (id : Z) : N := match a with SCall c _ => issued1 e k id c | _ => 0 end.
Lemma sstep_account e s cl st a s' cl' st' I : sstep e s cl st a = Ok (s', cl', st') -> accounts e s st I ->
  accounts e s' st' (fun k id => I k id + adds e a k id).
Proof.
  intros H A. assert (X : accounts e s st (fun k id => I k id + 0)) by (eapply accounts_ext; [|exact A]; intros; cbv beta; lia).
  destruct a as [c t| | | | | | | ]; cbn [sstep] in H.
  - apply obind_ok in H as ([[s1 c1] ok] & E & H). apply obind_ok in H as (st1 & E1 & H). apply Ok_inj in H. injection H as <- _ <-.
    apply accounts_record. apply (call_account _ _ _ _ _ _ _ _ _ _ E E1 A).
  - apply obind_ok in H as ([[s1 c1] x] & E & H). apply Ok_inj in H. injection H as <- _ <-. unfold flush_puts in E. apply obind_ok in E as ([k1 y1] & _ & E). apply Ok_inj in E. injection E as <- _ _. apply step_puts, X.
  - apply obind_ok in H as ([[s1 c1] x] & E & H). apply Ok_inj in H. injection H as <- _ <-. unfold flush_gets in E. apply obind_ok in E as ([k1 y1] & _ & E). apply Ok_inj in E. injection E as <- _ _. apply step_gets, X.
  - apply obind_ok in H as ([[s1 c1] x] & E & H). apply Ok_inj in H. injection H as <- _ <-. unfold flush_getops in E. apply obind_ok in E as ([k1 y1] & _ & E). apply Ok_inj in E. injection E as <- _ _. apply step_getops, X.
  - apply obind_ok in H as ([[s1 c1] x] & E & H). apply Ok_inj in H. injection H as <- _ <-. unfold flush_dels in E. apply obind_ok in E as ([k1 y1] & _ & E). apply Ok_inj in E. injection E as <- _ _. apply step_dels, X.
  - apply obind_ok in H as ([[s1 c1] x] & E & H). apply Ok_inj in H. injection H as <- _ <-. unfold flush_hists in E. apply obind_ok in E as ([k1 y1] & _ & E). apply Ok_inj in E. injection E as <- _ _. apply step_hists, X.
  - apply obind_ok in H as ([[s1 c1] x] & E & H). apply Ok_inj in H. injection H as <- _ <-. eapply flush_account; [exact E|exact X].
  - apply obind_ok in H as ([[s1 c1] x] & E & H). apply Ok_inj in H. injection H as <- _ <-. rewrite (as_up _ _ _ _ A). unfold sync in E. rewrite (as_up _ _ _ _ A) in E. cbn [negb] in E.
    apply obind_ok in E as ([[s2 c2] x2] & E & F). apply obind_ok in F as ([c3 y3] & _ & F). apply Ok_inj in F. injection F as <- _ _. eapply flush_account; [exact E|exact X].
Qed.
Lemma ssteps_account e : forall l s cl st s' cl' st' I, ssteps e s cl st l = Ok (s', cl', st') -> accounts e s st I ->
  accounts e s' st' (fun k id => I k id + issued e l k id).
Proof.
  induction l as [|a l IH]; intros s cl st s' cl' st' I H A; cbn [ssteps] in H.
  - apply Ok_inj in H. injection H as <- _ <-. eapply accounts_ext; [|exact A]. intros k id _. unfold issued. cbn. lia.
  - apply obind_ok in H as ([[s1 c1] st1] & E & H). cbn [fst snd] in H. apply (sstep_account _ _ _ _ _ _ _ _ _ E) in A. apply (IH _ _ _ _ _ _ _ H) in A.
    eapply accounts_ext; [|exact A]. intros k id _. unfold issued. cbn [map]. rewrite sumN_cons. unfold adds. lia.
Qed.
Lemma opened_account e : accounts e (opened_session e) no_stats (fun _ _ => 0).
Proof. constructor; [reflexivity|apply acc_empty..]. Qed.
Lemma counted e cl l s cl' st k : ssteps e (opened_session e) cl no_stats l = Ok (s, cl', st) -> In k [0; 1; 2; 3; 5] -> packets_counted e s st l k.
Proof.
  intros H Hk. pose proof (ssteps_account _ _ _ _ _ _ _ _ _ H (opened_account e)) as A. destruct A as [_ a b c d f].
  assert (W : forall A (qs : list (list (list A))), acc e qs (st_used st k) (st_out st k) (fun id => 0 + issued e l k id) ->
    (forall id, waiting s k id = lenN (queued qs id)) -> packets_counted e s st l k).
  { intros A qs [a1 a2 a3 a4 a5 a6 a7] Hw. constructor; [|exact a4|exact a5| |exact a7].
    - rewrite (over_ext e _ (fun id => lenN (queued qs id))) by (intros id _; apply Hw). rewrite a3. apply over_ext. intros; cbv beta; lia.
    - intros id Hid. rewrite Hw. specialize (a6 id Hid). cbv beta in a6. lia. }
  cbn [In] in Hk. destruct Hk as [<-|[<-|[<-|[<-|[<-|[]]]]]]; eapply W; try eassumption; reflexivity.
Qed.

(* ---- the calls ---- *)
Definition in_bulk (c : call) : bool := negb (single_call c) || (call_op c =? 2).
Lemma recorded_ok e s cl c s' cl' ok : s_up s = true -> do_call e s cl c = Ok (s', cl', ok) ->
  Forall (fun x => placed e (fst x) (snd x) = true) (asked_pairs c) ->
  recorded e s c = if ok then Some (if in_bulk c then Bulk else Single, call_op c) else None.
Proof.
  intros Hu H Hpl. unfold asked_pairs in Hpl. rewrite !Forall_app in Hpl. destruct Hpl as (P1 & P2 & P3 & P4).
  unfold do_call in H. unfold recorded. rewrite Hu in H |- *. cbn [negb] in H |- *.
  destruct c as [x y z m|x y ty|x y ty n op|x y|id nm|l|l|l|l|l|t ty l|t ty l|t ops ty l];
    try (destruct l as [l|]; [|apply Ok_inj in H; injection H as _ _ <-; reflexivity]).
  - cbn [asked_puts] in P1. destruct (given x && given y && given z) eqn:Eg; [|apply Ok_inj in H; injection H as _ _ <-; reflexivity].
    apply obind_ok in H as ([[q k] o] & E & H). apply put_impl_added in E as (_ & _ & Eo). apply Ok_inj in H. injection H as _ _ <-.
    assert (X : o = true); [|rewrite X; reflexivity]. rewrite Eo. clear - P1. induction (put_triples x y z m) as [|[[a b] c] l IH]; [reflexivity|].
    cbn [map fst] in P1. inversion P1; subst. cbn [forallb placed3]. cbn [fst snd] in *. rewrite IH by assumption. rewrite andb_true_r. assumption.
  - destruct (given x && given y) eqn:Eg; [|apply Ok_inj in H; injection H as _ _ <-; reflexivity]. apply obind_ok in H as ([q o] & E & H). unfold get_impl in E. apply key_impl_added in E as (_ & Eo).
    cbn [call_gets] in P2. rewrite Eg in P2. inversion P2; subst. cbn [fst snd] in *. apply Ok_inj in H. injection H as _ _ <-. match goal with X : placed _ _ _ = true |- _ => rewrite X end. reflexivity.
  - destruct (given x) eqn:Eg; [|apply Ok_inj in H; injection H as _ _ <-; reflexivity]. apply obind_ok in H as ([q o] & E & H). unfold getop_impl in E. apply key_impl_added in E as (_ & Eo).
    cbn [call_getops] in P3. rewrite Eg in P3. inversion P3; subst. cbn [fst snd] in *. apply Ok_inj in H. injection H as _ _ <-. match goal with X : placed _ _ _ = true |- _ => rewrite X end. reflexivity.
  - destruct (given x && given y) eqn:Eg; [|apply Ok_inj in H; injection H as _ _ <-; reflexivity]. apply obind_ok in H as ([q o] & E & H). unfold del_impl in E. apply key_impl_added in E as (_ & Eo).
    cbn [call_dels] in P4. rewrite Eg in P4. inversion P4; subst. cbn [fst snd] in *. apply Ok_inj in H. injection H as _ _ <-. match goal with X : placed _ _ _ = true |- _ => rewrite X end. reflexivity.
  - destruct (accepts e id); [|apply Ok_inj in H; injection H as _ _ <-; reflexivity]. apply obind_ok in H as (q & _ & H). apply Ok_inj in H. injection H as _ _ <-. reflexivity.
  - apply obind_ok in H as (q & _ & H). apply Ok_inj in H. injection H as _ _ <-. reflexivity.
  - apply obind_ok in H as (q & _ & H). apply Ok_inj in H. injection H as _ _ <-. reflexivity.
  - apply obind_ok in H as (q & _ & H). apply Ok_inj in H. injection H as _ _ <-. reflexivity.
  - apply obind_ok in H as (q & _ & H). apply Ok_inj in H. injection H as _ _ <-. reflexivity.
  - destruct (forallb _ l); [|apply Ok_inj in H; injection H as _ _ <-; reflexivity]. apply obind_ok in H as (q & _ & H). apply Ok_inj in H. injection H as _ _ <-. reflexivity.
  - destruct (negb t && _); [discriminate|]. apply obind_ok in H as (q & _ & H). apply obind_ok in H as ([s1 c1] & _ & H). apply Ok_inj in H. injection H as _ _ <-. reflexivity.
  - destruct (negb t && _); [discriminate|]. apply obind_ok in H as (q & _ & H). apply Ok_inj in H. injection H as _ _ <-. reflexivity.
  - destruct ops; [apply Ok_inj in H; injection H as _ _ <-; reflexivity|]. destruct (negb _); [discriminate|]. apply Ok_inj in H. injection H as _ _ <-. reflexivity.
Qed.
Lemma early_calls e s c st st' : early_st e s c st = Ok st' -> st_single st' = st_single st /\ st_bulk st' = st_bulk st.
Proof.
  destruct c as [x y z m|x y ty|x y ty n op|x y|id nm|l|l|l|l|l|t ty l|t ty l|t ops ty l]; cbn [early_st]; try (intros H; apply Ok_inj in H; subst; auto; fail).
  destruct l as [l|]; [|intros H; apply Ok_inj in H; subst; auto]. destruct (negb (s_up s)); [intros H; apply Ok_inj in H; subst; auto|].
  intros H. apply obind_ok in H as ([q k] & _ & H). apply Ok_inj in H. subst. destruct (_ <=? _); [|auto]. apply (process_calls e QPut 0); auto.
Qed.
Lemma flush_calls e s st : st_single (flush_st e s st) = st_single st /\ st_bulk (flush_st e s st) = st_bulk st.
Proof.
  unfold flush_st. cbv zeta.
  destruct (process_calls e QPut 0 (fun _ => eq_refl) (fun _ => eq_refl) (q_puts (s_qs s)) st) as [A1 B1]. set (s1 := process_st e QPut (q_puts (s_qs s)) st) in *.
  destruct (process_calls e QGet 1 (fun _ => eq_refl) (fun _ => eq_refl) (q_gets (s_qs s)) s1) as [A2 B2]. set (s2 := process_st e QGet (q_gets (s_qs s)) s1) in *.
  destruct (process_calls e QGetOp 2 (fun _ => eq_refl) (fun _ => eq_refl) (q_getops (s_qs s)) s2) as [A3 B3]. set (s3 := process_st e QGetOp (q_getops (s_qs s)) s2) in *.
  destruct (process_calls e QDel 3 (fun _ => eq_refl) (fun _ => eq_refl) (q_dels (s_qs s)) s3) as [A4 B4]. set (s4 := process_st e QDel (q_dels (s_qs s)) s3) in *.
  destruct (process_calls e QHist 5 (fun _ => eq_refl) (fun _ => eq_refl) (q_hists (s_qs s)) s4) as [A5 B5].
  split; congruence.
Qed.
(* what one step records *)
Lemma sstep_calls e s cl st a s' cl' st' : sstep e s cl st a = Ok (s', cl', st') ->
  match a with
  | SCall c t => exists st1, st_single st1 = st_single st /\ st_bulk st1 = st_bulk st /\ st' = record (recorded e s c) t st1
  | _ => st_single st' = st_single st /\ st_bulk st' = st_bulk st
  end.
Proof.
  intros H. destruct a as [c t| | | | | | | ]; cbn [sstep] in H.
  - apply obind_ok in H as ([[s1 c1] ok] & E & H). apply obind_ok in H as (st1 & E1 & H). apply Ok_inj in H. injection H as _ _ <-. exists st1.
    apply early_calls in E1 as [E1 E2]. auto.
  - apply obind_ok in H as ([[s1 c1] x] & _ & H). apply Ok_inj in H. injection H as _ _ <-. apply (process_calls e QPut 0); auto.
  - apply obind_ok in H as ([[s1 c1] x] & _ & H). apply Ok_inj in H. injection H as _ _ <-. apply (process_calls e QGet 1); auto.
  - apply obind_ok in H as ([[s1 c1] x] & _ & H). apply Ok_inj in H. injection H as _ _ <-. apply (process_calls e QGetOp 2); auto.
  - apply obind_ok in H as ([[s1 c1] x] & _ & H). apply Ok_inj in H. injection H as _ _ <-. apply (process_calls e QDel 3); auto.
  - apply obind_ok in H as ([[s1 c1] x] & _ & H). apply Ok_inj in H. injection H as _ _ <-. apply (process_calls e QHist 5); auto.
  - apply obind_ok in H as ([[s1 c1] x] & _ & H). apply Ok_inj in H. injection H as _ _ <-. apply flush_calls.
  - apply obind_ok in H as ([[s1 c1] x] & _ & H). apply Ok_inj in H. injection H as _ _ <-. destruct (s_up s); [apply flush_calls|auto].
Qed.
Lemma ssteps_calls e : forall l s cl st s' cl' st' I, ssteps e s cl st l = Ok (s', cl', st') -> accounts e s st I -> all_placed e l -> forall k,
  st_single st' k = st_single st k ++ times (fun c => negb (in_bulk c)) k (calls_of e s cl st l) /\
  st_bulk st' k = st_bulk st k ++ times in_bulk k (calls_of e s cl st l).
Proof.
  induction l as [|a l IH]; intros s cl st s' cl' st' I H A Hp k; cbn [ssteps] in H; cbn [calls_of].
  - apply Ok_inj in H. injection H as <- _ <-. unfold times. cbn. rewrite !app_nil_r. auto.
  - apply obind_ok in H as ([[s1 c1] st1] & E & H). rewrite E. cbn [fst snd] in H |- *.
    pose proof (sstep_account _ _ _ _ _ _ _ _ _ E A) as A1. destruct (IH _ _ _ _ _ _ _ H A1 (fun c t Hc => Hp c t (or_intror Hc)) k) as [I1 I2].
    rewrite I1, I2. pose proof (sstep_calls _ _ _ _ _ _ _ _ E) as C. destruct a as [c t| | | | | | | ]; try (destruct C as [-> ->]; auto).
    destruct C as (st0 & C1 & C2 & ->). cbn [sstep] in E. apply obind_ok in E as ([[s2 c2] ok] & E & _). rewrite E.
    rewrite (recorded_ok _ _ _ _ _ _ _ (as_up _ _ _ _ A) E) by (apply (Hp c t); left; reflexivity).
    unfold times. cbn [app filter fst snd]. destruct ok; cbn [record andb]; [|rewrite C1, C2; auto].
    destruct (in_bulk c) eqn:B; cbn [record st_single st_bulk negb andb]; rewrite C1, C2; unfold push; rewrite (N.eqb_sym k); destruct (call_op c =? k); cbn [map fst snd]; rewrite <- ?app_assoc; auto.
Qed.
Lemma times_ext f g k l : (forall c, call_op c = k -> f c = g c) -> times f k l = times g k l.
Proof.
  intros H. unfold times. f_equal. apply filter_ext. intros [[c t] ok]. cbn [fst snd]. destruct (N.eqb_spec (call_op c) k) as [E|]; [|rewrite !andb_false_r; reflexivity].
  rewrite (H c E). reflexivity.
Qed.
Lemma times_none k l : times (fun _ => false) k l = [].
Proof. unfold times. rewrite filter_none; [reflexivity|]. apply Forall_forall. intros x _. rewrite andb_false_r. reflexivity. Qed.
Lemma recorded_calls e cl l s cl' st : ssteps e (opened_session e) cl no_stats l = Ok (s, cl', st) -> all_placed e l ->
  let log := calls_of e (opened_session e) cl no_stats l in
  (forall k, k <> 2 -> st_single st k = times single_call k log /\ st_bulk st k = times (fun c => negb (single_call c)) k log) /\
  st_single st 2 = [] /\ st_bulk st 2 = times (fun _ => true) 2 log.
Proof.
  intros H Hp log. pose proof (ssteps_calls _ _ _ _ _ _ _ _ _ H (opened_account e) Hp) as C. cbn [no_stats st_single st_bulk app] in C. fold log in C. split; [|split].
  - intros k Hk. destruct (C k) as [-> ->]. split; apply times_ext; intros c <-; unfold in_bulk; assert (E : (call_op c =? 2) = false) by (apply N.eqb_neq; exact Hk); rewrite E, orb_false_r; [apply negb_involutive|reflexivity].
  - destruct (C 2) as [-> _]. rewrite <- (times_none 2 log). apply times_ext. intros c E. unfold in_bulk. rewrite E, orb_true_r. reflexivity.
  - destruct (C 2) as [_ ->]. apply times_ext. intros c E. unfold in_bulk. rewrite E, orb_true_r. reflexivity.
Qed.

(* ---- durations ---- *)
Lemma op_time_from : forall l a, fold_left (fun t (x : stamp) => (t + (snd x - fst x))%Z) l a = (a + op_time l)%Z.
Proof.
  unfold op_time. induction l as [|x l IH]; intros a; cbn [fold_left]; [lia|]. rewrite IH, (IH (0 + _)%Z). lia.
Qed.
Lemma op_time_app l l' : op_time (l ++ l') = (op_time l + op_time l')%Z.
Proof. unfold op_time at 1. rewrite fold_left_app. apply op_time_from. Qed.
Lemma op_time_1 a b : op_time [(a, b)] = (b - a)%Z.
Proof. unfold op_time. cbn. lia. Qed.
Lemma op_time_push f k a b k' : op_time (push f k (a, b) k') = (op_time (f k') + (if (k' =? k)%N then b - a else 0))%Z.
Proof. unfold push. destruct (k' =? k)%N; [rewrite op_time_app, op_time_1; lia|lia]. Qed.
Lemma recorded_op e s c w : recorded e s c = Some w -> In (snd w) [0; 1; 2; 3; 5].
Proof.
  unfold recorded. destruct (negb (s_up s)); [discriminate|]. intros H.
  destruct c as [x y z m|x y ty|x y ty n op|x y|id nm|l|l|l|l|l|t ty l|t ty l|t ops ty l]; try destruct l as [l|];
    try match type of H with context [if ?b then _ else _] => destruct b end; try discriminate; injection H as <-; cbn; tauto.
Qed.
Lemma all_times_record w a b st : (forall x, w = Some x -> In (snd x) [0; 1; 2; 3; 5]) ->
  all_times (record w (a, b) st) = (all_times st + (if w then b - a else 0))%Z.
Proof.
  intros H. unfold all_times, sumZ. cbn [map fold_right]. destruct w as [[[|] k]|]; cbn [record st_single st_bulk]; [| |lia];
    rewrite !op_time_push; specialize (H _ eq_refl); cbn [snd In] in H; destruct H as [<-|[<-|[<-|[<-|[<-|[]]]]]]; cbn [N.eqb Pos.eqb]; lia.
Qed.
Lemma all_times_ext st st' : st_single st' = st_single st -> st_bulk st' = st_bulk st -> all_times st' = all_times st.
Proof. intros E1 E2. unfold all_times. rewrite E1, E2. reflexivity. Qed.
Lemma chronological_le : forall l t0 t1, chronological t0 l t1 -> (t0 <= t1)%Z.
Proof. induction l as [|a l IH]; intros t0 t1 H; cbn [chronological] in H; [exact H|]. destruct a as [c [a b]| | | | | | | ]; auto. destruct H as [H1 H2]. apply IH in H2. lia. Qed.
Lemma times_within e : forall l s cl st s' cl' st' t0 t1, ssteps e s cl st l = Ok (s', cl', st') -> chronological t0 l t1 ->
  (all_times st <= all_times st' <= all_times st + (t1 - t0))%Z.
Proof.
  induction l as [|a l IH]; intros s cl st s' cl' st' t0 t1 H C; cbn [ssteps] in H.
  - apply Ok_inj in H. injection H as _ _ <-. cbn [chronological] in C. lia.
  - apply obind_ok in H as ([[s1 c1] st1] & E & H). cbn [fst snd] in H. pose proof (sstep_calls _ _ _ _ _ _ _ _ E) as S1.
    destruct a as [c [a b]| | | | | | | ]; cbn [chronological] in C;
      try (specialize (IH _ _ _ _ _ _ _ _ H C); destruct S1 as [E1 E2]; rewrite (all_times_ext _ _ E1 E2) in IH; exact IH).
    destruct C as [C1 C]. specialize (IH _ _ _ _ _ _ _ _ H C). destruct S1 as (st0 & E1 & E2 & ->).
    rewrite all_times_record, (all_times_ext _ _ E1 E2) in IH by (intros x Hx; eapply recorded_op, Hx). pose proof (chronological_le _ _ _ C). destruct (recorded e s c); lia.
Qed.
