(* Times do not change what is done *)
From Verif Require Import ModelBytes ProofBytes ModelKey ModelWire ModelHist ModelMsg SpecMsg ProofMsg ModelStore ModelGetOp ModelDs
  SpecStore ProofStore ProofDs ProofDs2 ModelElen ModelRoute SpecRoute ProofRoute ProofRoute2 ModelClient SpecClient ProofClient ProofClient2
  ModelTimes SpecTimes.
Local Open Scope Z_scope.

Lemma results_items m : results_of m = do g <- item_results m; Ok (concat g).
Proof.
  unfold results_of, item_results. destruct (m_body m) as [l|l|l|l|l|l|l|l|l|l]; try reflexivity; cbn [obind]; f_equal; induction l as [|i l IH]; cbn [map concat app]; congruence.
Qed.
Lemma results_of_item m g : item_results m = Ok g -> results_of m = Ok (concat g).
Proof. intros H. rewrite results_items, H. reflexivity. Qed.
Lemma init_bare T m : forall l k i xs k', t_init T k m i l = Ok (xs, k') -> map fst xs = concat l /\ (k <= k')%nat.
Proof.
  induction l as [|g l IH]; intros k i xs k' H; cbn [t_init] in H; [injection H as <- <-; auto|].
  destruct g as [|x g]; [discriminate|]. destruct (nth_error (tm_reqs m) i) as [s|]; [|discriminate].
  obind H a Ea. destruct a as [ys k1]. injection H as <- <-. apply IH in Ea as [E1 E2]. split; [|lia].
  cbn [map fst concat app]. rewrite map_app, map_map, E1. cbn [fst]. rewrite map_id. reflexivity.
Qed.
Lemma addall_bare T : forall l k xs k', t_addall T k l = Ok (xs, k') ->
  (k <= k')%nat /\ exists gs, Forall2 (fun m g => results_of (tm_msg m) = Ok g) l gs /\ map fst xs = concat gs.
Proof.
  induction l as [|m l IH]; intros k xs k' H; cbn [t_addall] in H.
  - injection H as <- <-. split; [lia|]. exists []. split; [constructor|reflexivity].
  - obind H g Eg. obind H a Ea. destruct a as [ys k1]. obind H b Eb. destruct b as [zs k2]. injection H as <- <-.
    apply init_bare in Ea as [E1 E2]. apply IH in Eb as [E3 (gs & F & E4)]. split; [lia|]. exists (concat g :: gs).
    split; [constructor; [apply results_of_item, Eg|exact F]|]. rewrite map_app, E1, E4. reflexivity.
Qed.

(* a world that comes later *)
Definition later (w w' : world) : Prop := (w_now w <= w_now w')%nat /\ exists l, w_wire w' = w_wire w ++ l.
Lemma later_refl w : later w w.
Proof. split; [lia|]. exists []. symmetry. apply app_nil_r. Qed.
Lemma later_trans a b c : later a b -> later b c -> later a c.
Proof. intros [H1 [l1 E1]] [H2 [l2 E2]]. split; [lia|]. exists (l1 ++ l2). rewrite E2, E1, app_assoc. reflexivity. Qed.
Lemma later_time w k : (w_now w <= k)%nat -> later w (at_time w k).
Proof. intros H. split; [exact H|]. exists []. symmetry. apply app_nil_r. Qed.
Lemma later_at w w' k : later w w' -> (w_now w' <= k)%nat -> later w (at_time w' k).
Proof. intros H1 H2. eapply later_trans; [exact H1|apply later_time, H2]. Qed.

Lemma local_bare e T w q w' r : t_local e T w q = Ok (w', r) -> serve e (w_cl w) (e_rank e) (tm_msg q) = Ok (w_cl w', tm_msg r) /\ later w w'.
Proof.
  unfold t_local. intros H. obind H a Ea. destruct a as [cl m]. destruct (_ <? _)%nat; [discriminate|]. injection H as <- <-.
  split; [exact Ea|]. split; [cbn; lia|]. exists []. symmetry. apply app_nil_r.
Qed.
Lemma remote_bare e route T w k q w' r : t_remote e route T w k q = Ok (w', r) ->
  remote_call e route (w_cl w) k (tm_msg q) = Ok (w_cl w', option_map tm_msg r) /\ later w w'.
Proof.
  unfold t_remote, remote_call. intros H. destruct (route k) as [rk|]; [|injection H as <- <-; split; [reflexivity|apply later_refl]].
  obind H b Eb. rewrite Eb. cbn [obind]. obind H m1 E1. rewrite E1. cbn [obind]. destruct m1 as [m1|]; [|discriminate].
  obind H a Ea. destruct a as [cl m2]. rewrite Ea. cbn [obind]. obind H b2 Eb2. rewrite Eb2. cbn [obind]. obind H m3 E3. rewrite E3. cbn [obind].
  destruct m3 as [m3|]; injection H as <- <-; (split; [reflexivity|]; split; [cbn; lia|]; eexists; reflexivity).
Qed.
Lemma communicate_bare e route T : forall l w w' rs, t_communicate e route T w l = Ok (w', rs) -> later w w' /\
  forall gs, Forall2 (fun m g => results_of (tm_msg m) = Ok g) rs gs ->
  communicate e route (w_cl w) (map (fun y => (fst y, tm_msg (snd y))) l) = Ok (w_cl w', concat gs).
Proof.
  induction l as [|[k q] l IH]; intros w w' rs H; cbn [t_communicate] in H.
  - injection H as <- <-. split; [apply later_refl|]. intros gs F. inversion F; subst. reflexivity.
  - obind H a Ea. destruct a as [w1 r]. obind H b Eb. destruct b as [w2 rs']. injection H as <- <-.
    apply remote_bare in Ea as [E1 L1]. apply IH in Eb as [L2 E2]. split; [eapply later_trans; eassumption|]. intros gs F.
    cbn [map communicate fst snd]. rewrite E1. cbn [obind]. destruct r as [r|]; cbn [option_map].
    + inversion F as [|m g rs1 gs1 Hg F1]; subst. rewrite Hg. cbn [obind]. rewrite (E2 _ F1). reflexivity.
    + cbn [obind]. rewrite (E2 _ F). reflexivity.
Qed.
Lemma run_local_bare e T : forall l w w' xs, t_run_local e T w l = Ok (w', xs) -> later w w' /\
  run_local e (w_cl w) (map tm_msg l) = Ok (w_cl w', map fst xs).
Proof.
  induction l as [|q l IH]; intros w w' xs H; cbn [t_run_local] in H.
  - injection H as <- <-. split; [apply later_refl|reflexivity].
  - obind H a Ea. destruct a as [w1 r]. obind H b Eb. destruct b as [ys k]. obind H c Ec. destruct c as [w2 zs]. injection H as <- <-.
    apply local_bare in Ea as [E1 L1]. apply addall_bare in Eb as [L2 (gs & F & E2)]. apply IH in Ec as [L3 E3].
    split; [eapply later_trans; [apply later_at; eassumption|exact L3]|]. cbn [map run_local]. rewrite E1. cbn [obind].
    inversion F as [|m g rs1 gs1 Hg F1]; subst. inversion F1; subst. rewrite Hg. cbn [obind]. cbn [at_time w_cl] in E3. rewrite E3. cbn [obind].
    rewrite map_app, E2. cbn [concat]. rewrite app_nil_r. reflexivity.
Qed.

(* ---- the map of remote requests ---- *)
Definition drop_times (y : Z * tmsg) : Z * msg := (fst y, tm_msg (snd y)).
Lemma map_set_bare k m l : map drop_times (t_map_set k m l) = map_set k (tm_msg m) (map drop_times l).
Proof. induction l as [|[k' m'] l IH]; [reflexivity|]. cbn [t_map_set map map_set drop_times fst snd]. destruct (k =? k'); [reflexivity|]. cbn [map]. rewrite IH. reflexivity. Qed.
Lemma filter_map {A B} (f : A -> B) (p : B -> bool) l : filter p (map f l) = map f (filter (fun x => p (f x)) l).
Proof. induction l as [|a l IH]; [reflexivity|]. cbn [map filter]. destruct (p (f a)); cbn [map]; congruence. Qed.
Lemma remote_map_bare e ms : map drop_times (t_remote_map e ms) = remote_map e (map tm_msg ms).
Proof.
  unfold t_remote_map, remote_map. rewrite filter_map. change (@nil (Z * msg)) with (map drop_times []) at 1. generalize (@nil (Z * tmsg)).
  induction (filter (fun m => negb (is_local e (tm_msg m))) ms) as [|m l IH]; intros acc; [reflexivity|].
  cbn [map fold_left]. rewrite IH, map_set_bare. reflexivity.
Qed.
Lemma map_set_keys k m l x : In x (map fst (t_map_set k m l)) <-> x = k \/ In x (map fst l).
Proof.
  induction l as [|[k' m'] l IH]; cbn [t_map_set map fst In]; [intuition|]. destruct (Z.eqb_spec k k') as [<-|N]; cbn [map fst In]; [intuition|].
  rewrite IH. intuition.
Qed.
Lemma map_set_NoDup k m l : NoDup (map fst l) -> NoDup (map fst (t_map_set k m l)).
Proof.
  induction l as [|[k' m'] l IH]; cbn [t_map_set map fst]; intros H; [constructor; [intros []|constructor]|].
  inversion H as [|a b H1 H2]; subst. destruct (Z.eqb_spec k k') as [<-|N]; cbn [map fst]; constructor; auto.
  rewrite map_set_keys. intros [->|X]; [congruence|contradiction].
Qed.
Lemma map_set_perm k m l : exists d, Permutation (m :: map snd l) (map snd (t_map_set k m l) ++ d).
Proof.
  induction l as [|[k' m'] l IH]; cbn [t_map_set map snd]; [exists []; reflexivity|]. destruct (k =? k').
  - exists [m']. cbn [map snd]. cbn [app]. constructor. apply Permutation_cons_append.
  - destruct IH as [d P]. exists d. cbn [map snd app]. rewrite perm_swap. constructor. exact P.
Qed.
Lemma remote_map_perm e ms : NoDup (map fst (t_remote_map e ms)) /\
  exists d, Permutation (filter (fun m => negb (is_local e (tm_msg m))) ms) (map snd (t_remote_map e ms) ++ d).
Proof.
  unfold t_remote_map. set (l := filter _ ms). clearbody l.
  assert (X : forall l acc, NoDup (map fst acc) -> NoDup (map fst (fold_left (fun l m => t_map_set (dst_rank e (tm_msg m)) m l) l acc)) /\
    exists d, Permutation (l ++ map snd acc) (map snd (fold_left (fun l m => t_map_set (dst_rank e (tm_msg m)) m l) l acc) ++ d)).
  { clear. induction l as [|m l IH]; intros acc H; cbn [fold_left]; [split; [exact H|exists []; rewrite app_nil_r; reflexivity]|].
    destruct (IH (t_map_set (dst_rank e (tm_msg m)) m acc) (map_set_NoDup _ _ _ H)) as [N [d P]]. split; [exact N|].
    destruct (map_set_perm (dst_rank e (tm_msg m)) m acc) as [d' P']. exists (d ++ d'). rewrite app_assoc, <- P, <- app_assoc.
    cbn [app]. rewrite Permutation_middle. apply Permutation_app_head. exact P'. }
  destruct (X l [] (NoDup_nil _)) as [N [d P]]. split; [exact N|]. exists d. cbn [map] in P. rewrite app_nil_r in P. exact P.
Qed.
Lemma find_key l y : NoDup (map fst l) -> In y l -> find (fun z : Z * tmsg => fst z =? fst y) l = Some y.
Proof.
  induction l as [|z l IH]; intros N H; [destruct H|]. cbn [map] in N. inversion N as [|a b N1 N2]; subst. cbn [find].
  destruct (Z.eqb_spec (fst z) (fst y)) as [E|E].
  - destruct H as [->|H]; [reflexivity|]. exfalso. apply N1. rewrite E. apply in_map. exact H.
  - destruct H as [->|H]; [congruence|]. apply IH; assumption.
Qed.
Lemma iter_self (l : list (Z * tmsg)) : NoDup (map fst l) -> forall l', incl l' l ->
  flat_map (fun x : Z * msg => match find (fun y => fst y =? fst x) l with Some y => [y] | None => [] end) (map drop_times l') = l'.
Proof.
  intros N. induction l' as [|y l' IH]; intros I; [reflexivity|]. cbn [map flat_map drop_times fst].
  rewrite (find_key l y N (I y (or_introl eq_refl))). cbn [app]. rewrite IH; [reflexivity|]. intros z Hz. apply I. right. exact Hz.
Qed.
Lemma iter_spec e l : (forall x, Permutation (e_iter e x) x) -> NoDup (map fst l) ->
  Permutation (t_iter e l) l /\ map drop_times (t_iter e l) = e_iter e (map drop_times l).
Proof.
  intros P N. unfold t_iter. change (fun y : Z * tmsg => (fst y, tm_msg (snd y))) with drop_times.
  pose proof (P (map drop_times l)) as Q. apply Permutation_map_inv in Q as (l3 & E & Q). rewrite E.
  rewrite (iter_self l N l3) by (intros z Hz; apply (Permutation_in _ (Permutation_sym Q)); exact Hz).
  split; [symmetry; exact Q|reflexivity].
Qed.

Lemma round_bare e T w ms w' xs : (forall x, Permutation (e_iter e x) x) -> t_round e T w ms = Ok (w', xs) ->
  later w w' /\ round e (w_cl w) (map tm_msg ms) = Ok (w_cl w', map fst xs).
Proof.
  intros P H. unfold t_round in H. obind H a Ea. destruct a as [w1 ys]. obind H b Eb. destruct b as [w2 zs]. injection H as <- <-.
  apply run_local_bare in Eb as [L2 E2]. rewrite <- filter_map in E2.
  assert (X : later w w1 /\ match remote_map e (map tm_msg ms) with
     | [] => Ok (w_cl w, []) | remote => match e_transport e with None => UB | Some route => communicate e route (w_cl w) (e_iter e remote) end
     end = Ok (w_cl w1, map fst ys)).
  { rewrite <- remote_map_bare. destruct (remote_map_perm e ms) as [N _]. destruct (t_remote_map e ms) as [|y l] eqn:El.
    - injection Ea as <- <-. split; [apply later_refl|reflexivity].
    - change (match map drop_times (y :: l) with [] => Ok (w_cl w, []) | p :: l0 => match e_transport e with Some route => communicate e route (w_cl w) (e_iter e (p :: l0)) | None => UB end end)
        with (match e_transport e with None => UB | Some route => communicate e route (w_cl w) (e_iter e (map drop_times (y :: l))) end).
      destruct (e_transport e) as [route|]; [|discriminate]. obind Ea c Ec. destruct c as [w3 rs]. obind Ea d Ed. destruct d as [us k]. injection Ea as <- <-.
      apply communicate_bare in Ec as [L1 E1]. apply addall_bare in Ed as [L3 (gs & F & E3)]. split; [apply later_at; assumption|].
      specialize (E1 _ F). fold drop_times in E1. change (fun y : Z * tmsg => (fst y, tm_msg (snd y))) with drop_times in E1.
      rewrite (proj2 (iter_spec e _ P N)) in E1. rewrite E1, E3. reflexivity. }
  destruct X as [L1 E1]. split; [eapply later_trans; eassumption|]. unfold round. rewrite E1. cbn [obind]. rewrite E2. cbn [obind].
  rewrite map_app. reflexivity.
Qed.
Lemma pop_bare {A} (wrap : list A -> body) rank : forall qs id ms r, t_pop wrap rank id qs = (ms, r) -> pop wrap rank id (bare qs) = (map tm_msg ms, bare r).
Proof.
  induction qs as [|q qs IH]; intros id ms r H; cbn [t_pop] in H; [injection H as <- <-; reflexivity|].
  destruct (t_pop wrap rank (id + 1) qs) as [ms1 r1] eqn:E. cbn [bare map pop]. change (map (map pk_items) qs) with (bare qs). rewrite (IH _ _ _ E).
  destruct q as [|p q]; injection H as <- <-; reflexivity.
Qed.
Lemma remaining_bare {A} (qs : list (list (packet A))) : remaining (bare qs) = length (concat qs).
Proof. unfold remaining. induction qs as [|q qs IH]; [reflexivity|]. cbn [bare map concat]. rewrite !app_length, map_length. unfold bare in IH. rewrite IH. reflexivity. Qed.
Lemma rounds_bare {A} e (wrap : list A -> body) T : (forall x, Permutation (e_iter e x) x) -> forall f qs w w' xs, t_rounds f e wrap T qs w = Ok (w', xs) ->
  later w w' /\ rounds f e wrap (bare qs) (w_cl w) = Ok (w_cl w', map fst xs).
Proof.
  intros P. induction f as [|f IH]; intros qs w w' xs H; cbn [t_rounds] in H; [injection H as <- <-; split; [apply later_refl|reflexivity]|].
  cbn [rounds]. rewrite remaining_bare. destruct (length (concat qs)); [injection H as <- <-; split; [apply later_refl|reflexivity]|].
  destruct (t_pop wrap (e_rank e) 0 qs) as [ms qs'] eqn:Ep. rewrite (pop_bare _ _ _ _ _ _ Ep).
  obind H a Ea. destruct a as [w1 ys]. obind H b Eb. destruct b as [w2 zs]. injection H as <- <-.
  apply (round_bare _ _ _ _ _ _ P) in Ea as [L1 E1]. apply IH in Eb as [L2 E2]. split; [eapply later_trans; eassumption|].
  rewrite E1. cbn [obind]. rewrite E2. cbn [obind]. rewrite map_app. reflexivity.
Qed.
Lemma process_bare {A} e (wrap : list A -> body) T qs w w' xs : (forall x, Permutation (e_iter e x) x) -> t_process e wrap T qs w = Ok (w', xs) ->
  later w w' /\ process e wrap (bare qs) (w_cl w) = Ok (w_cl w', map fst xs).
Proof. intros P H. unfold process. rewrite remaining_bare. exact (rounds_bare e wrap T P _ _ _ _ _ H). Qed.
Lemma drained_bare {A} (qs : list (list (packet A))) : bare (t_drained qs) = drained (bare qs).
Proof. unfold bare, t_drained, drained. rewrite !map_map. reflexivity. Qed.
Lemma flush_bare e T qs w qs' w' xs up n kept : (forall x, Permutation (e_iter e x) x) -> t_flush e T qs w = Ok (qs', w', xs) ->
  flush e (mkSession up (bare_queues qs) n kept) (w_cl w) = Ok (mkSession up (bare_queues qs') 0 kept, w_cl w', map fst xs).
Proof.
  intros P H. unfold t_flush in H. obind H a Ea. destruct a as [w1 x1]. obind H b Eb. destruct b as [w2 x2]. obind H c Ec. destruct c as [w3 x3].
  obind H d Ed. destruct d as [w4 x4]. obind H f Ef. destruct f as [w5 x5]. injection H as <- <- <-.
  apply (process_bare _ _ _ _ _ _ _ P) in Ea as [_ Ea], Eb as [_ Eb], Ec as [_ Ec], Ed as [_ Ed], Ef as [_ Ef].
  unfold flush, flush_puts, flush_gets, flush_getops, flush_dels, flush_hists, bare_queues. cbn -[process drained bare]. rewrite Ea. cbn -[process drained bare].
  rewrite Eb. cbn -[process drained bare]. rewrite Ec. cbn -[process drained bare]. rewrite Ed. cbn -[process drained bare]. rewrite Ef. cbn -[process drained bare].
  rewrite !map_app, !drained_bare. reflexivity.
Qed.

(* ---- queueing ---- *)
Lemma write_ok i x l l' : write_req i x l = Ok l' -> (i < length l)%nat /\ l' = set_nth i x l.
Proof. unfold write_req. destruct (Nat.ltb_spec i (length l)); [|discriminate]. intros [= <-]. auto. Qed.
Lemma add_bare {A} T k h s (p : packet A) a p' : add_item T k h s p a = Ok p' -> pk_items p' = pk_items p ++ [a].
Proof. unfold add_item. intros H. obind H r Er. injection H as <-. reflexivity. Qed.
Lemma last_bare {A} e (ok : list A -> bool) T k h s a : forall q q' k', t_last e ok T k h s q a = Ok (q', k') ->
  map pk_items q' = put_last ok (map pk_items q) a.
Proof.
  induction q as [|p q IH]; intros q' k' H; cbn [t_last] in H.
  - unfold new_packet in H. obind H p' Ep. injection H as <- <-. apply add_bare in Ep. cbn [map app]. rewrite Ep. reflexivity.
  - destruct q as [|p2 q].
    + cbn [map put_last]. destruct (ok (pk_items p)).
      * obind H p' Ep. injection H as <- <-. apply add_bare in Ep. cbn [map]. rewrite Ep. reflexivity.
      * unfold new_packet in H. obind H p' Ep. injection H as <- <-. apply add_bare in Ep. cbn [map app]. rewrite Ep. reflexivity.
    + obind H r Er. destruct r as [r k1]. injection H as <- <-. cbn [map]. rewrite (IH _ _ Er). reflexivity.
Qed.
Lemma fresh_room {A} e T k k' h s (p' : packet A) a : add_item T k h s (fst (new_packet e T k')) a = Ok p' -> e_max_ops e <> 0%N.
Proof. unfold add_item. intros H E. obind H r Er. apply write_ok in Er as [Er _]. unfold new_packet in Er. cbn [fst pk_reqs pk_items] in Er. rewrite E in Er. cbn in Er. lia. Qed.
Lemma last_room {A} e (sz : A -> N) additional T k h s a : forall q r, t_last e (fits e sz additional) T k h s q a = Ok r -> e_max_ops e <> 0%N.
Proof.
  induction q as [|p q IH]; intros r H; cbn [t_last] in H.
  - obind H x Ex. apply (fresh_room e T (k + 2) k h s x a Ex).
  - destruct q as [|p2 q].
    + destruct (fits e sz additional (pk_items p)) eqn:F.
      * unfold fits in F. apply andb_true_iff in F as [F _]. apply N.ltb_lt in F. lia.
      * obind H x Ex. apply (fresh_room e T (k + 2) k h s x a Ex).
    + obind H x Ex. exact (IH _ Ex).
Qed.
Lemma set_nth_map {A B} (f : A -> B) n x l : set_nth n (f x) (map f l) = map f (set_nth n x l).
Proof. unfold set_nth. rewrite map_app, firstn_map. cbn [map]. rewrite skipn_map. reflexivity. Qed.

Lemma insert_bare {A} e (sz : A -> N) additional T k qs id a qs' k' : t_insert e sz additional T k qs id a = Ok (qs', k') ->
  enqueue e sz additional (bare qs) id a = Ok (bare qs').
Proof.
  unfold t_insert, enqueue. intros H. unfold bare at 1. rewrite nth_error_map. destruct (nth_error qs (Z.to_nat id)) as [q|]; [|discriminate].
  cbn [option_map]. obind H r Er. destruct r as [q' k1]. injection H as <- <-. pose proof (last_room _ _ _ _ _ _ _ _ _ _ Er) as R.
  destruct (N.eqb_spec (e_max_ops e) 0) as [E|_]; [contradiction|]. apply last_bare in Er. rewrite <- Er. unfold bare. rewrite set_nth_map. reflexivity.
Qed.
Lemma op_bare e T k qs o qs' k' b : t_op e T k qs o = Ok (qs', k', b) -> queue_op e (bare_queues qs) o = Ok (bare_queues qs', b).
Proof.
  unfold t_op. intros H. obind H j Ei. destruct o as [s p x|s p ty|s p ty n how|s p|i n]; cbn [op_id] in Ei; cbn [queue_op].
  - unfold put_impl, PERMUTATIONS. cbn [put_loop]. change (N.land 1 1 =? 0)%N with false. cbn [permuted N.eqb].
    change (permuted 1 s p x) with (s, p, x). cbv iota beta. rewrite Ei. cbn [obind].
    destruct (j <? 0); [injection H as <- <- <-; unfold bare_queues; reflexivity|]. obind H r Er. destruct r as [q k1]. injection H as <- <- <-.
    apply insert_bare in Er. cbn [bare_queues q_puts]. rewrite Er. cbn [obind fst snd]. reflexivity.
  - unfold get_impl, key_impl. rewrite Ei. cbn [obind]. destruct (j <? 0); [injection H as <- <- <-; reflexivity|]. obind H r Er. destruct r as [q k1]. injection H as <- <- <-.
    apply insert_bare in Er. cbn [bare_queues q_gets]. rewrite Er. reflexivity.
  - unfold getop_impl, key_impl. rewrite Ei. cbn [obind]. destruct (j <? 0); [injection H as <- <- <-; reflexivity|]. obind H r Er. destruct r as [q k1]. injection H as <- <- <-.
    apply insert_bare in Er. cbn [bare_queues q_getops]. rewrite Er. reflexivity.
  - unfold del_impl, key_impl. rewrite Ei. cbn [obind]. destruct (j <? 0); [injection H as <- <- <-; reflexivity|]. obind H r Er. destruct r as [q k1]. injection H as <- <- <-.
    apply insert_bare in Er. cbn [bare_queues q_dels]. rewrite Er. reflexivity.
  - injection Ei as <-. destruct (i <? 0); [injection H as <- <- <-; reflexivity|]. obind H r Er. destruct r as [q k1]. injection H as <- <- <-.
    apply insert_bare in Er. unfold hist_impl. cbn [bare_queues q_hists]. rewrite Er. reflexivity.
Qed.
Lemma sync_bare e T : forall offs w w' xs, t_sync_local e T w offs = Ok (w', xs) -> later w w' /\
  sync_local e (w_cl w) offs = Ok (w_cl w', map fst xs) /\ Forall (fun x => of_sync x = true) xs.
Proof.
  induction offs as [|off offs IH]; intros w w' xs H; cbn [t_sync_local] in H; cbn [sync_local].
  - injection H as <- <-. split; [apply later_refl|split; [reflexivity|constructor]].
  - destruct (w_cl w (e_rank e) off) as [d|]; [|apply IH, H]. obind H r Er. destruct r as [d' st]. obind H r Er'. destruct r as [w1 ys]. injection H as <- <-.
    apply IH in Er' as (L & E & F). rewrite Er. cbn [obind w_cl] in *. rewrite E. cbn [obind map fst]. split; [|split; [reflexivity|constructor; [reflexivity|exact F]]].
    eapply later_trans; [|exact L]. split; [cbn; lia|]. exists []. symmetry. apply app_nil_r.
Qed.
