(* What is read from the statistics *)
From Verif Require Import ModelBytes ProofBytes ModelKey ModelWire ModelHist ModelMsg ModelStore ProofStore ModelGetOp ModelDs ModelElen ModelFloat ModelRoute
  SpecRoute SpecClient ModelClient ModelStats SpecStats ModelDsStats SpecDsStats ProofDsStats ProofDsStats2.
Local Open Scope N_scope.

Lemma order_le l : forall t0 t1, in_order t0 l t1 -> (t0 <= t1)%Z.
Proof. induction l as [|[a b] l IH]; intros t0 t1 H; cbn [in_order] in H; [exact H|]. destruct H as [[H1 H2] H3]. apply IH in H3. lia. Qed.
Lemma order_weak l : forall t0 t0' t1, in_order t0 l t1 -> (t0' <= t0)%Z -> in_order t0' l t1.
Proof. destruct l as [|[a b] l]; intros t0 t0' t1 H L; cbn [in_order] in *; [lia|]. destruct H as [[H1 H2] H3]. split; [lia|exact H3]. Qed.
Lemma order_drop a : forall l t0 t1, in_order t0 (a ++ l) t1 -> in_order t0 l t1.
Proof.
  induction a as [|[x y] a IH]; intros l t0 t1 H; cbn [app in_order] in H; [exact H|]. destruct H as [[H1 H2] H3].
  apply order_weak with y; [apply IH; exact H3|lia].
Qed.
Lemma order_keep a : forall l l' t0 t1, (forall t, in_order t l t1 -> in_order t l' t1) -> in_order t0 (a ++ l) t1 -> in_order t0 (a ++ l') t1.
Proof.
  induction a as [|[x y] a IH]; intros l l' t0 t1 F H; cbn [app in_order] in *; [apply F; exact H|]. destruct H as [H1 H3].
  split; [exact H1|]. apply IH with l; assumption.
Qed.
Lemma order_filter {A} (f : A -> list stamp) p log t1 : forall t0, in_order t0 (flat_map f log) t1 -> in_order t0 (flat_map f (filter p log)) t1.
Proof.
  induction log as [|x log IH]; intros t0 H; cbn [flat_map filter] in *; [exact H|].
  destruct (p x); cbn [flat_map].
  - revert H. apply order_keep. exact IH.
  - apply IH. apply order_drop in H. exact H.
Qed.
Lemma order_sum l : forall t0 t1, in_order t0 l t1 -> Forall (fun t => (0 <= dur t <= t1 - t0)%Z) l /\ (0 <= sumZ (map dur l) <= t1 - t0)%Z.
Proof.
  induction l as [|[a b] l IH]; intros t0 t1 H; cbn [in_order] in H.
  - split; [constructor|]. cbn. lia.
  - destruct H as [[H1 H2] H3]. pose proof (order_le _ _ _ H3). destruct (IH _ _ H3) as [F S].
    cbn [map]. change (sumZ (dur (a, b) :: map dur l)) with (dur (a, b) + sumZ (map dur l))%Z.
    assert (D : dur (a, b) = (b - a)%Z) by reflexivity. rewrite D. split; [|lia]. constructor; [rewrite D; lia|]. revert F. apply Forall_impl. intros t T. lia.
Qed.
Lemma nano_dur l : Forall (fun t => (0 <= dur t < 2 ^ 64)%Z) l -> sumN (map nano l) = Z.to_N (sumZ (map dur l)) /\ (0 <= sumZ (map dur l))%Z.
Proof.
  induction l as [|t l IH]; intros H; [split; [reflexivity|cbn; lia]|]. inversion H as [|? ? H1 H2]; subst. destruct (IH H2) as [E P]. cbn [map].
  change (sumZ (dur t :: map dur l)) with (dur t + sumZ (map dur l))%Z. change (sumN (nano t :: map nano l)) with (nano t + sumN (map nano l)).
  rewrite E. unfold nano. change (snd t - fst t)%Z with (dur t). rewrite Z.mod_small by exact H1. split; lia.
Qed.
Lemma order_nano l t0 t1 : in_order t0 l t1 -> (t1 - t0 < 2 ^ 64)%Z -> total64 (map nano l) = Z.to_N (sumZ (map dur l)).
Proof.
  intros H B. destruct (order_sum _ _ _ H) as [F S]. rewrite total64_sum.
  destruct (nano_dur l) as [E _]. { revert F. apply Forall_impl. intros t T. lia. }
  rewrite E. apply N.mod_small. lia.
Qed.
Lemma time_split p log : time_of log = (time_of (filter p log) + time_of (filter (fun x => negb (p x)) log))%Z.
Proof.
  unfold time_of. induction log as [|x log IH]; [reflexivity|]. cbn [flat_map filter]. rewrite map_app, sumZ_app, IH.
  destruct (p x); cbn [negb flat_map]; rewrite map_app, sumZ_app; lia.
Qed.

Lemma run_time k c l d rs st t0 t1 : truns (ds_new k c) no_events l = Ok (d, rs, st) ->
  in_order t0 (flat_map stamps (answered l rs)) t1 -> (t1 - t0 < 2 ^ 64)%Z ->
  let log := answered l rs in
  Z.of_N (t_put_time (get_stats st)) = time_of (filter is_put log) /\
  Z.of_N (t_get_time (get_stats st)) = time_of (filter (fun x => negb (is_put x)) log) /\
  (Z.of_N (t_put_time (get_stats st)) + Z.of_N (t_get_time (get_stats st)) <= t1 - t0)%Z.
Proof.
  intros H O B log. destruct (run_adds _ _ _ _ _ _ H) as (pe & ge & P & G & A). cbn [no_events st_puts st_gets app] in P, G.
  unfold get_stats. cbn [t_put_time t_get_time]. rewrite P, G.
  rewrite <- (map_map ev_time nano pe), <- (map_map ev_time nano ge), (ad_put_times _ _ _ _ _ A), (ad_get_times _ _ _ _ _ A). fold log. fold log in O.
  pose proof (order_filter stamps is_put log t1 t0 O) as OP. pose proof (order_filter stamps (fun x => negb (is_put x)) log t1 t0 O) as OG.
  rewrite (order_nano _ _ _ OP B), (order_nano _ _ _ OG B).
  destruct (order_sum _ _ _ OP) as [_ SP]. destruct (order_sum _ _ _ OG) as [_ SG]. destruct (order_sum _ _ _ O) as [_ SO].
  pose proof (time_split is_put log) as T. unfold time_of in T |- *. rewrite !Z2N.id by lia. split; [reflexivity|]. split; [reflexivity|]. lia.
Qed.

(* ---- the report ---- *)
Lemma report_line l x : report l = Ok x -> ln_count x = sumN (map ev_count l) mod 2 ^ 64 /\ ln_size x = sumN (map ev_size l) mod 2 ^ 64.
Proof.
  unfold report. rewrite !total64_sum. destruct (_ =? 0); intros H.
  - apply Ok_inj in H as <-. split; reflexivity.
  - obind H s Es. apply Ok_inj in H as <-. split; reflexivity.
Qed.
Lemma run_puts k c l d rs st : truns (ds_new k c) no_events l = Ok (d, rs, st) ->
  let log := answered l rs in
  t_num_put (get_stats st) = lenN (filter is_put log) /\
  (forall x, report (st_puts st) = Ok x -> ln_count x = lenN (flat_map put_items log) mod 2 ^ 64 /\ ln_size x = bytes_put c log mod 2 ^ 64).
Proof.
  intros H log. destruct (run_adds _ _ _ _ _ _ H) as (pe & ge & P & G & A). cbn [no_events st_puts st_gets app ds_new d_kind d_codec] in *. fold log in A.
  rewrite P. split.
  - unfold get_stats. cbn [t_num_put]. rewrite P. exact (ad_puts _ _ _ _ _ A).
  - intros x X. apply report_line in X as [X1 X2]. rewrite X1, X2, (ad_put_count _ _ _ _ _ A), (ad_put_size _ _ _ _ _ A). split; reflexivity.
Qed.
Lemma run_gets k c l d rs st : truns (ds_new k c) no_events l = Ok (d, rs, st) ->
  let log := answered l rs in
  t_num_get (get_stats st) = sumN (map got_events log) /\
  (forall x, report (st_gets st) = Ok x -> ln_count x = sumN (map got_count log) mod 2 ^ 64 /\
    (Forall no_getop log -> ln_size x = get_bytes k c log mod 2 ^ 64)).
Proof.
  intros H log. destruct (run_adds _ _ _ _ _ _ H) as (pe & ge & P & G & A). cbn [no_events st_puts st_gets app ds_new d_kind d_codec] in *. fold log in A.
  rewrite G. split.
  - unfold get_stats. cbn [t_num_get]. rewrite G. exact (ad_gets _ _ _ _ _ A).
  - intros x X. apply report_line in X as [X1 X2]. rewrite X1, X2, (ad_get_count _ _ _ _ _ A). split; [reflexivity|].
    intros F. exact (ad_get_size _ _ _ _ _ A F).
Qed.
