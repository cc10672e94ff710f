(* Calls with usable arguments are carried out *)
From Verif Require Import ModelBytes ProofBytes ModelKey ModelWire ModelHist ModelMsg SpecMsg ModelStore ModelGetOp ModelDs
  SpecStore ProofStore ProofDs ProofDs2 ModelElen ModelRoute SpecRoute ProofRoute ProofRoute2 ModelClient SpecClient
  ProofClient ProofClient2 ProofClient3 ProofClient4 ProofClient5.
Local Open Scope Z_scope.

Section Progress.
Context (e : env) (S : setting e) (Hash : defined_hash e) (Ops : (0 < e_max_ops e)%N).

Lemma accepts_range id : accepts e id = true -> 0 <= id < e_total e.
Proof.
  unfold accepts, histogram_accepts. intros H. apply andb_true_iff in H as [H1 H2]. split; [lia|].
  destruct (totals _ (set_layout _ S)) as [T _]. rewrite T in H2. rewrite (set_total _ S). unfold datastores.
  destruct (set_layout _ S) as (_ & _ & _ & Hp & Hd). unfold datastores in Hd.
  assert (B : 0 <= servers (e_layout e) (l_size (e_layout e))) by (unfold servers; lia).
  change int_max with 2147483647 in Hd. set (k := servers (e_layout e) (l_size (e_layout e))) in *.
  assert (B2 : k <= k * l_per (e_layout e)) by nia. rewrite to_int_id in H2 by lia. lia.
Qed.
Lemma enqueue_ok {A} sz additional (qs : list (list (list A))) id a : length qs = Z.to_nat (e_total e) -> 0 <= id < e_total e ->
  exists qs', enqueue e sz additional qs id a = Ok qs'.
Proof.
  intros Hl Hid. unfold enqueue. destruct (nth_error qs (Z.to_nat id)) as [q|] eqn:Eq; [|apply nth_error_None in Eq; lia].
  destruct (N.eqb_spec (e_max_ops e) 0); [lia|]. eauto.
Qed.
Lemma hash_ok s p : sane s -> sane p -> exists id, hash_of e s p = Ok id /\ id < e_total e.
Proof.
  intros Hs Hp. unfold hash_of.
  assert (X : forall a, sane a -> (a_addr a =? 0)%N && negb (blen (a_data a) =? 0)%N = false).
  { intros a Ha. destruct (N.eqb_spec (a_addr a) 0) as [E|]; [|reflexivity]. rewrite (proj1 Ha E). reflexivity. }
  rewrite (X s Hs), (X p Hp). apply Hash; [apply Hs|apply Hp].
Qed.
Lemma permuted_sane bit s p o a b c : sane s -> sane p -> sane o -> permuted bit s p o = (a, b, c) -> sane a /\ sane b /\ sane c.
Proof. intros Hs Hp Ho. unfold permuted. repeat (destruct (_ =? _)%N); intros E; injection E as <- <- <-; auto. Qed.

Lemma put_loop_ok mask s p o : sane s -> sane p -> sane o -> forall bits qs n, length qs = Z.to_nat (e_total e) ->
  exists r, put_loop e bits mask s p o qs n = Ok r /\ length (fst (fst r)) = Z.to_nat (e_total e).
Proof.
  intros Hs Hp Ho. induction bits as [|bit bits IH]; intros qs n Hl; cbn [put_loop]; [eexists; split; [reflexivity|exact Hl]|].
  destruct (N.land mask bit =? 0)%N; [apply IH, Hl|].
  destruct (permuted bit s p o) as [[a b] c] eqn:Ep. destruct (permuted_sane bit s p o a b c Hs Hp Ho Ep) as (Sa & Sb & _).
  destruct (hash_ok a b Sa Sb) as (id & -> & Hid). cbn [obind]. destruct (Z.ltb_spec id 0); [eexists; split; [reflexivity|exact Hl]|].
  assert (H0 : 0 <= id) by lia.
  match goal with |- context [enqueue e sz_put ?w qs id ?x] => destruct (enqueue_ok sz_put w qs id x Hl ltac:(lia)) as [q1 E1] end.
  rewrite E1. cbn [obind]. apply IH. rewrite <- Hl. apply (enqueue_added _ _ _ _ _ _ _ H0 E1).
Qed.
Lemma bput_loop_ok : forall l qs n, Forall (fun '(s, p, o, _) => sane s /\ sane p /\ sane o) l -> length qs = Z.to_nat (e_total e) ->
  exists r, bput_loop e l qs n = Ok r.
Proof.
  induction l as [|[[[s p] o] m] l IH]; intros qs n H Hl; cbn [bput_loop]; [eauto|]. inversion H as [|? ? Hx H']; subst. cbn beta iota in Hx. destruct Hx as (Hs & Hp & Ho).
  destruct (put_loop_ok m s p o Hs Hp Ho PERMUTATIONS qs 0%N Hl) as ([[q k] ok] & E & Hl'). unfold put_impl. rewrite E. cbn [obind fst snd] in *.
  apply IH; assumption.
Qed.
Lemma key_impl_ok {A} sz (a : A) s p qs : sane s -> sane p -> length qs = Z.to_nat (e_total e) ->
  exists r, key_impl e sz a s p qs = Ok r /\ length (fst r) = Z.to_nat (e_total e).
Proof.
  intros Hs Hp Hl. unfold key_impl. destruct (hash_ok s p Hs Hp) as (id & -> & Hid). cbn [obind].
  destruct (Z.ltb_spec id 0); [eexists; split; [reflexivity|exact Hl]|].
  assert (H0 : 0 <= id) by lia.
  match goal with |- context [enqueue e sz ?w qs id ?x] => destruct (enqueue_ok sz w qs id x Hl ltac:(lia)) as [q1 E1] end.
  rewrite E1. cbn [obind]. eexists. split; [reflexivity|]. cbn [fst]. rewrite <- Hl. apply (enqueue_added _ _ _ _ _ _ _ H0 E1).
Qed.
Lemma each_ok {I A} (f : I -> list (list (list A)) -> outcome (list (list (list A)) * bool)) (P : I -> Prop) :
  (forall i qs, P i -> length qs = Z.to_nat (e_total e) -> exists r, f i qs = Ok r /\ length (fst r) = Z.to_nat (e_total e)) ->
  forall l qs, Forall P l -> length qs = Z.to_nat (e_total e) -> exists r, each f l qs = Ok r.
Proof.
  intros Hf. induction l as [|i l IH]; intros qs H Hl; cbn [each]; [eauto|]. inversion H; subst.
  destruct (Hf i qs) as ([q1 ok] & E & Hl'); [assumption|exact Hl|]. rewrite E. cbn [obind]. apply IH; assumption.
Qed.
Lemma bhist_loop_ok : forall l qs, Forall (fun x => 0 <= fst x < e_total e) l -> length qs = Z.to_nat (e_total e) -> exists r, bhist_loop e l qs = Ok r.
Proof.
  induction l as [|[id n] l IH]; intros qs H Hl; cbn [bhist_loop]; [eauto|]. inversion H as [|? ? Hid H']; subst. cbn [fst] in Hid.
  assert (H0 : 0 <= id) by lia.
  unfold hist_impl. match goal with |- context [enqueue e ?sz ?w qs id ?x] => destruct (enqueue_ok sz w qs id x Hl ltac:(lia)) as [q1 E1] end.
  rewrite E1. cbn [obind]. apply IH; [exact H'|]. rewrite <- Hl. apply (enqueue_added _ _ _ _ _ _ _ H0 E1).
Qed.

Definition sized (s : session) : Prop :=
  length (q_puts (s_qs s)) = Z.to_nat (e_total e) /\ length (q_gets (s_qs s)) = Z.to_nat (e_total e) /\
  length (q_getops (s_qs s)) = Z.to_nat (e_total e) /\ length (q_dels (s_qs s)) = Z.to_nat (e_total e) /\ length (q_hists (s_qs s)) = Z.to_nat (e_total e).

Lemma call_ok s cl c : sized s -> sane_call c -> plain c -> exists r, do_call e s cl c = Ok r.
Proof.
  intros (L1 & L2 & L3 & L4 & L5) Hc Hp. unfold do_call. destruct (negb (s_up s)); [eauto|].
  destruct c as [x y z m|x y ty|x y ty n op|x y|id nm|l|l|l|l|l|t ty l|t ty l|t ops ty l]; cbn [sane_call plain] in Hc, Hp; try (destruct l as [l|]; [|solve [eauto]]).
  - destruct (given x && given y && given z); [|eauto]. destruct Hc as (Hx & Hy & Hz).
    destruct (put_loop_ok m x y z Hx Hy Hz PERMUTATIONS _ 0%N L1) as ([[q k] o] & E & _). unfold put_impl. rewrite E. cbn [obind]. eauto.
  - destruct (given x && given y); [|eauto]. destruct Hc as (Hx & Hy).
    destruct (key_impl_ok sz_get (mkGet (ref_blob x) (a_addr x) (ref_blob y) (a_addr y) ty) x y _ Hx Hy L2) as ([q o] & E & _). unfold get_impl. rewrite E. cbn [obind]. eauto.
  - destruct (given x); [|eauto]. destruct Hc as (Hx & Hy).
    destruct (key_impl_ok sz_getop (mkGetOp op (ref_blob x) (ref_blob y) ty n) x y _ Hx Hy L3) as ([q o] & E & _). unfold getop_impl. rewrite E. cbn [obind]. eauto.
  - destruct (given x && given y); [|eauto]. destruct Hc as (Hx & Hy).
    destruct (key_impl_ok sz_del (mkDel (ref_blob x) (a_addr x) (ref_blob y) (a_addr y)) x y _ Hx Hy L4) as ([q o] & E & _). unfold del_impl. rewrite E. cbn [obind]. eauto.
  - destruct (accepts e id) eqn:Ea; [|eauto]. destruct (bhist_loop_ok [(id, nm)] (q_hists (s_qs s))) as [r E]; [|exact L5|].
    + constructor; [|constructor]. cbn [fst]. apply accepts_range, Ea.
    + cbn [bhist_loop] in E. apply obind_ok in E as (q & -> & _). cbn [obind]. eauto.
  - destruct (bput_loop_ok l _ 0%N Hc L1) as [[q n] E]. rewrite E. cbn [obind]. eauto.
  - destruct (each_ok (fun '(x, y, ty) => get_impl e x y ty) (fun '(x, y, _) => sane x /\ sane y)) with (l := l) (qs := q_gets (s_qs s)) as [q E]; [|exact Hc|exact L2|].
    + intros [[x y] ty] qs (Hx & Hy) Hl. apply (key_impl_ok sz_get _ x y qs Hx Hy Hl).
    + rewrite E. cbn [obind]. eauto.
  - destruct (each_ok (fun '(x, y, ty, n, op) => getop_impl e x y ty n op) (fun '(x, y, _, _, _) => sane x /\ sane y)) with (l := l) (qs := q_getops (s_qs s)) as [q E]; [|exact Hc|exact L3|].
    + intros [[[[x y] ty] n] op] qs (Hx & Hy) Hl. apply (key_impl_ok sz_getop _ x y qs Hx Hy Hl).
    + rewrite E. cbn [obind]. eauto.
  - destruct (each_ok (fun '(x, y) => del_impl e x y) (fun '(x, y) => sane x /\ sane y)) with (l := l) (qs := q_dels (s_qs s)) as [q E]; [|exact Hc|exact L4|].
    + intros [x y] qs (Hx & Hy) Hl. apply (key_impl_ok sz_del _ x y qs Hx Hy Hl).
    + rewrite E. cbn [obind]. eauto.
  - destruct (forallb (fun x => accepts e (fst x)) l) eqn:Ea; [|eauto].
    destruct (bhist_loop_ok l (q_hists (s_qs s))) as [r E]; [|exact L5|rewrite E; cbn [obind]; eauto].
    rewrite forallb_forall in Ea. apply Forall_forall. intros x Hx. apply accepts_range, Ea, Hx.
  - destruct Hp.
  - destruct Hc as [Hc|Hc].
    + destruct Hc as [-> Hc]. cbn [negb andb].
      destruct (each_ok (fun '(x, y) => get_impl e x y ty) (fun '(x, y) => sane x /\ sane y)) with (l := l) (qs := q_gets (s_qs s)) as [q E]; [|exact Hc|exact L2|].
      * intros [x y] qs (Hx & Hy) Hl. apply (key_impl_ok sz_get _ x y qs Hx Hy Hl).
      * rewrite E. cbn [obind]. eauto.
    + subst l. cbn [length N.of_nat N.eqb negb]. rewrite andb_false_r. cbn [each obind]. eauto.
  - destruct ops; [eauto|]. destruct Hc as [Hc|Hc]; [discriminate|]. subst l. cbn [length N.of_nat N.eqb negb]. eauto.
Qed.

Lemma grown_sized s s' P G O D H : sized s -> grown e s s' P G O D H -> sized s'.
Proof.
  intros (L1 & L2 & L3 & L4 & L5) [_ _ p g o d h]. unfold sized.
  rewrite (proj1 p), (proj1 g), (proj1 o), (proj1 d), (proj1 h). auto.
Qed.
Lemma calls_ok : forall cs s cl, s_up s = true -> sized s -> Forall (sane_call) cs -> Forall plain cs -> exists r, do_calls e s cl cs = Ok r.
Proof.
  induction cs as [|c cs IH]; intros s cl Hu Hz Hc Hp; cbn [do_calls]; [eauto|]. inversion Hc; inversion Hp; subst.
  destruct (call_ok s cl c) as [[[s1 cl1] ok] E]; try assumption. rewrite E. cbn [obind fst snd].
  destruct (call_grown e s cl c s1 cl1 ok) as [-> G]; try assumption.
  destruct (IH s1 cl) as [[[s2 cl2] oks] E2]; [rewrite (gr_up _ _ _ _ _ _ _ _ G); exact Hu|eapply grown_sized; eassumption|assumption|assumption|].
  rewrite E2. cbn [obind]. eauto.
Qed.
End Progress.

Lemma fresh_sized e s : fresh e s -> sized e s.
Proof. intros [_ Hq]. unfold sized. rewrite Hq. cbn [opened_session s_qs q_puts q_gets q_getops q_dels q_hists]. rewrite !empty_length. auto. Qed.
