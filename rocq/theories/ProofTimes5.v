(* Results carry the times of the operations they answer: sessions *)
From Verif Require Import ModelBytes ProofBytes ModelKey ModelWire ModelHist ModelMsg SpecMsg ProofMsg ModelStore ModelGetOp ModelDs
  SpecStore ProofStore ProofDs ProofDs2 ModelElen ModelRoute SpecRoute ProofRoute ProofRoute2 ModelClient SpecClient ProofClient ProofClient2
  ProofClient3 ModelTimes SpecTimes ProofTimes ProofTimes2 ProofTimes3 ProofTimes4.
Local Open Scope Z_scope.

Section Run.
Context (e : env) (HS : setting e) (T : clock) (HT : steady T).
Definition sized_q {A} (qs : list (list (packet A))) : Prop := length qs = Z.to_nat (e_total e).
Definition inv (k : nat) (qs : tqueues) (evs : list event) : Prop :=
  exists e1 e2 e3 e4 e5,
    (sized_q (tq_puts qs) /\ qs_ok e T put_of 0 k (tq_puts qs) e1) /\ (sized_q (tq_gets qs) /\ qs_ok e T get_of 0 k (tq_gets qs) e2) /\
    (sized_q (tq_getops qs) /\ qs_ok e T getop_of 0 k (tq_getops qs) e3) /\ (sized_q (tq_dels qs) /\ qs_ok e T del_of 0 k (tq_dels qs) e4) /\
    (sized_q (tq_hists qs) /\ qs_ok e T hist_of 0 k (tq_hists qs) e5) /\
    Permutation evs (pending e1 ++ pending e2 ++ pending e3 ++ pending e4 ++ pending e5).
Lemma inv_le k k' qs evs : (k <= k')%nat -> inv k qs evs -> inv k' qs evs.
Proof.
  intros L (e1 & e2 & e3 & e4 & e5 & [S1 Q1] & [S2 Q2] & [S3 Q3] & [S4 Q4] & [S5 Q5] & P). exists e1, e2, e3, e4, e5.
  repeat (split; [split; [assumption|eapply qs_le; eassumption]|]). exact P.
Qed.
Lemma total_nonneg : 0 <= e_total e.
Proof. rewrite (set_total _ HS). unfold datastores, servers. destruct (set_layout _ HS) as (H1 & H2 & H3 & H4 & H5). nia. Qed.
Lemma total_nat n : n = Z.to_nat (e_total e) -> Z.of_nat n <= e_total e.
Proof. pose proof total_nonneg. lia. Qed.

Lemma op_ok k qs evs o id qs' k' b : inv k qs evs -> op_id e o = Ok id -> t_op e T k qs o = Ok (qs', k', b) ->
  (k <= k')%nat /\ inv k' qs' ((if b then [mkEvent o id k k'] else []) ++ evs).
Proof.
  intros I Eid H. unfold t_op in H. rewrite Eid in H. cbn [obind] in H. destruct (Z.ltb_spec id 0) as [_|H0]; [injection H as <- <- <-; split; [lia|]; eapply inv_le; [|exact I]; lia|].
  destruct I as (e1 & e2 & e3 & e4 & e5 & [S1 Q1] & [S2 Q2] & [S3 Q3] & [S4 Q4] & [S5 Q5] & P).
  destruct o as [s p x|s p ty|s p ty n how|s p|i n]; obind H r Er; destruct r as [q k1]; injection H as <- <- <-.
  - destruct (insert_ok e T put_of _ _ k (OPut s p x) _ eq_refl _ _ _ _ _ H0 Q1 Er) as (L & Ln & e' & Q' & P'). split; [exact L|]. exists e', e2, e3, e4, e5.
    cbn [tq_puts tq_gets tq_getops tq_dels tq_hists]. split; [split; [unfold sized_q in *; congruence|exact Q']|].
    repeat (split; [split; [assumption|eapply qs_le; eassumption]|]). cbn [app]. rewrite P, P'. reflexivity.
  - destruct (insert_ok e T get_of _ _ k (OGet s p ty) _ eq_refl _ _ _ _ _ H0 Q2 Er) as (L & Ln & e' & Q' & P'). split; [exact L|]. exists e1, e', e3, e4, e5.
    cbn [tq_puts tq_gets tq_getops tq_dels tq_hists]. split; [split; [assumption|eapply qs_le; eassumption]|]. split; [split; [unfold sized_q in *; congruence|exact Q']|].
    repeat (split; [split; [assumption|eapply qs_le; eassumption]|]). cbn [app]. rewrite P, P'. apply Permutation_middle.
  - destruct (insert_ok e T getop_of _ _ k (OGetOp s p ty n how) _ eq_refl _ _ _ _ _ H0 Q3 Er) as (L & Ln & e' & Q' & P'). split; [exact L|]. exists e1, e2, e', e4, e5.
    cbn [tq_puts tq_gets tq_getops tq_dels tq_hists]. do 2 (split; [split; [assumption|eapply qs_le; eassumption]|]). split; [split; [unfold sized_q in *; congruence|exact Q']|].
    repeat (split; [split; [assumption|eapply qs_le; eassumption]|]). rewrite P, P'. cbn [app]. rewrite <- (Permutation_middle (pending e2)), <- (Permutation_middle (pending e1)). reflexivity.
  - destruct (insert_ok e T del_of _ _ k (ODel s p) _ eq_refl _ _ _ _ _ H0 Q4 Er) as (L & Ln & e' & Q' & P'). split; [exact L|]. exists e1, e2, e3, e', e5.
    cbn [tq_puts tq_gets tq_getops tq_dels tq_hists]. do 3 (split; [split; [assumption|eapply qs_le; eassumption]|]). split; [split; [unfold sized_q in *; congruence|exact Q']|].
    repeat (split; [split; [assumption|eapply qs_le; eassumption]|]). rewrite P, P'. cbn [app]. rewrite <- (Permutation_middle (pending e3)), <- (Permutation_middle (pending e2)), <- (Permutation_middle (pending e1)). reflexivity.
  - destruct (insert_ok e T hist_of _ _ k (OHist i n) _ eq_refl _ _ _ _ _ H0 Q5 Er) as (L & Ln & e' & Q' & P'). split; [exact L|]. exists e1, e2, e3, e4, e'.
    cbn [tq_puts tq_gets tq_getops tq_dels tq_hists]. do 4 (split; [split; [assumption|eapply qs_le; eassumption]|]). split; [split; [unfold sized_q in *; congruence|exact Q']|].
    rewrite P, P'. cbn [app]. rewrite <- (Permutation_middle (pending e4)), <- (Permutation_middle (pending e3)), <- (Permutation_middle (pending e2)), <- (Permutation_middle (pending e1)). reflexivity.
Qed.
Lemma process_ok {A} (wrap : list A -> body) of_op (HA : kind_answers wrap of_op) (HD : forall l, body_dir (wrap l) = 1%N)
  (HC : forall l, body_count (wrap l) = N.of_nat (length l)) qs ess w w' xs :
  sized_q qs -> qs_ok e T of_op 0 (w_now w) qs ess -> t_process e wrap T qs w = Ok (w', xs) -> Forall body_ok (w_wire w') -> explains e T (pending ess) xs.
Proof. intros S Q H W. eapply (rounds_ok e HS T HT wrap of_op HA HD HC); [apply total_nat, S|exact H|exact W|exact Q]. Qed.
Lemma flush_ok qs evs w qs' w' xs : inv (w_now w) qs evs -> t_flush e T qs w = Ok (qs', w', xs) -> Forall body_ok (w_wire w') ->
  later w w' /\ explains e T evs xs /\ inv (w_now w') qs' [].
Proof.
  intros (e1 & e2 & e3 & e4 & e5 & [S1 Q1] & [S2 Q2] & [S3 Q3] & [S4 Q4] & [S5 Q5] & P) H W. unfold t_flush in H.
  obind H a Ea. destruct a as [w1 x1]. obind H b Eb. destruct b as [w2 x2]. obind H c Ec. destruct c as [w3 x3].
  obind H d Ed. destruct d as [w4 x4]. obind H f Ef. destruct f as [w5 x5]. injection H as <- <- <-.
  pose proof (proj1 (process_bare _ _ _ _ _ _ _ (set_iter _ HS) Ea)) as L1. pose proof (proj1 (process_bare _ _ _ _ _ _ _ (set_iter _ HS) Eb)) as L2.
  pose proof (proj1 (process_bare _ _ _ _ _ _ _ (set_iter _ HS) Ec)) as L3. pose proof (proj1 (process_bare _ _ _ _ _ _ _ (set_iter _ HS) Ed)) as L4.
  pose proof (proj1 (process_bare _ _ _ _ _ _ _ (set_iter _ HS) Ef)) as L5.
  assert (L45 : later w3 w5) by (eapply later_trans; eassumption). assert (L35 : later w2 w5) by (eapply later_trans; eassumption).
  assert (L25 : later w1 w5) by (eapply later_trans; eassumption). assert (L02 : later w w2) by (eapply later_trans; eassumption).
  assert (L03 : later w w3) by (eapply later_trans; eassumption). assert (L04 : later w w4) by (eapply later_trans; eassumption).
  split; [eapply later_trans; eassumption|]. split.
  - eapply explains_perm; [apply Permutation_sym, P|].
    apply explains_app; [eapply (process_ok QPut put_of answers_put); [reflexivity|reflexivity|exact S1|exact Q1|exact Ea|eapply wire_before; eassumption]|].
    apply explains_app; [eapply (process_ok QGet get_of answers_get); [reflexivity|reflexivity|exact S2|eapply qs_le; [|exact Q2]; apply L1|exact Eb|eapply wire_before; eassumption]|].
    apply explains_app; [eapply (process_ok QGetOp getop_of answers_getop); [reflexivity|reflexivity|exact S3|eapply qs_le; [|exact Q3]; apply L02|exact Ec|eapply wire_before; eassumption]|].
    apply explains_app; [eapply (process_ok QDel del_of answers_del); [reflexivity|reflexivity|exact S4|eapply qs_le; [|exact Q4]; apply L03|exact Ed|eapply wire_before; eassumption]|].
    eapply (process_ok QHist hist_of answers_hist); [reflexivity|reflexivity|exact S5|eapply qs_le; [|exact Q5]; apply L04|exact Ef|exact W].
  - set (z := fun A (qs : list (list (packet A))) => map (fun _ => @nil (list event)) qs).
    exists (z _ (tq_puts qs)), (z _ (tq_gets qs)), (z _ (tq_getops qs)), (z _ (tq_dels qs)), (z _ (tq_hists qs)). unfold z.
    cbn [tq_puts tq_gets tq_getops tq_dels tq_hists]. unfold sized_q in *.
    destruct (drained_ok e T put_of (w_now w5) (tq_puts qs) 0) as (D1 & -> & E1). destruct (drained_ok e T get_of (w_now w5) (tq_gets qs) 0) as (D2 & -> & E2).
    destruct (drained_ok e T getop_of (w_now w5) (tq_getops qs) 0) as (D3 & -> & E3). destruct (drained_ok e T del_of (w_now w5) (tq_dels qs) 0) as (D4 & -> & E4).
    destruct (drained_ok e T hist_of (w_now w5) (tq_hists qs) 0) as (D5 & -> & E5).
    repeat (split; [split; [congruence|assumption]|]). constructor.
Qed.
Lemma explained_no_sync evs xs : explains e T evs xs -> filter (fun x => negb (of_sync x)) xs = xs.
Proof.
  intros (gs & lost & -> & _ & F). apply filter_all. apply Forall_concat. apply Forall_map. eapply Forall_impl; [|exact F]. intros [ev g] [A _]. cbn [fst snd] in *.
  apply Forall_forall. intros x Hx. apply (in_map fst) in Hx. unfold of_sync. unfold answers in A.
  destruct (ev_op ev); [destruct A as (ok & A)|destruct A as (ok & o & A)|destruct A as (_ & A)|destruct A as (ok & A)|destruct A as (ok & h & A)];
    try (rewrite A in Hx; destruct Hx as [<-|[]]; reflexivity).
  rewrite Forall_forall in A. destruct (A _ Hx) as (ok & s' & p' & o' & ->). reflexivity.
Qed.
Lemma last_time {A} ok k h x (a : A) : forall q q' k', t_last e ok T k h x q a = Ok (q', k') -> (k <= k')%nat.
Proof.
  induction q as [|p q IH]; intros q' k' H; cbn [t_last] in H.
  - unfold new_packet in H. obind H r Er. injection H as <- <-. lia.
  - destruct q as [|p2 q]; [destruct (ok (pk_items p))|].
    + obind H r Er. injection H as <- <-. lia.
    + unfold new_packet in H. obind H r Er. injection H as <- <-. lia.
    + obind H r Er. destruct r as [r k1]. injection H as <- <-. eapply IH, Er.
Qed.
Lemma insert_time {A} sz additional k qs id (a : A) qs' k' : t_insert e sz additional T k qs id a = Ok (qs', k') -> (k <= k')%nat.
Proof. unfold t_insert. intros H. destruct (nth_error qs (Z.to_nat id)); [|discriminate]. obind H r Er. destruct r as [q k1]. injection H as <- <-. apply last_time in Er. lia. Qed.
Lemma op_time k qs o qs' k' b : t_op e T k qs o = Ok (qs', k', b) -> (k <= k')%nat.
Proof.
  unfold t_op. intros H. obind H i Ei. destruct (i <? 0); [injection H as <- <- <-; lia|].
  destruct o; obind H r Er; destruct r as [q k1]; injection H as <- <- <-; eapply insert_time, Er.
Qed.
Lemma flush_later qs w qs' w' xs : t_flush e T qs w = Ok (qs', w', xs) -> later w w'.
Proof.
  intros H. unfold t_flush in H. obind H a Ea. destruct a as [w1 x1]. obind H b Eb. destruct b as [w2 x2]. obind H c Ec. destruct c as [w3 x3].
  obind H d Ed. destruct d as [w4 x4]. obind H f Ef. destruct f as [w5 x5]. injection H as <- <- <-.
  pose proof (proj1 (process_bare _ _ _ _ _ _ _ (set_iter _ HS) Ea)) as L1. pose proof (proj1 (process_bare _ _ _ _ _ _ _ (set_iter _ HS) Eb)) as L2.
  pose proof (proj1 (process_bare _ _ _ _ _ _ _ (set_iter _ HS) Ec)) as L3. pose proof (proj1 (process_bare _ _ _ _ _ _ _ (set_iter _ HS) Ed)) as L4.
  pose proof (proj1 (process_bare _ _ _ _ _ _ _ (set_iter _ HS) Ef)) as L5.
  eapply later_trans; [|exact L5]. eapply later_trans; [|exact L4]. eapply later_trans; [|exact L3]. eapply later_trans; eassumption.
Qed.
Lemma run_later : forall l qs w qs' w' evs xs, t_run e T qs w l = Ok (qs', w', evs, xs) -> later w w'.
Proof.
  induction l as [|[o| |] l IH]; intros qs w qs' w' evs xs H; cbn [t_run] in H.
  - injection H as <- <- <- <-. apply later_refl.
  - obind H r Er. destruct r as [[q k] b]. obind H i Ei. obind H s Es. destruct s as [[[qs2 w2] evs2] xs2]. injection H as <- <- <- <-.
    eapply later_trans; [|eapply IH, Es]. apply later_time. eapply op_time, Er.
  - obind H r Er. destruct r as [[q w1] x1]. obind H s Es. destruct s as [[[qs2 w2] evs2] xs2]. injection H as <- <- <- <-.
    eapply later_trans; [eapply flush_later; eassumption|eapply IH, Es].
  - obind H r Er. destruct r as [[q w1] x1]. obind H z Ez. destruct z as [w3 zs]. obind H s Es. destruct s as [[[qs2 w2] evs2] xs2]. injection H as <- <- <- <-.
    eapply later_trans; [eapply flush_later; eassumption|]. eapply later_trans; [apply (proj1 (sync_bare _ _ _ _ _ _ Ez))|eapply IH, Es].
Qed.
Lemma run_ok : forall l qs w qs' w' evs xs evs0, inv (w_now w) qs evs0 -> t_run e T qs w l = Ok (qs', w', evs, xs) -> Forall body_ok (w_wire w') ->
  explains e T (evs0 ++ evs) (filter (fun x => negb (of_sync x)) xs).
Proof.
  induction l as [|[o| |] l IH]; intros qs w qs' w' evs xs evs0 I H W; cbn [t_run] in H.
  - injection H as <- <- <- <-. apply explains_none.
  - obind H r Er. destruct r as [[qs1 k] b]. obind H i Ei. obind H s Es. destruct s as [[[qs2 w2] evs2] xs2]. injection H as <- <- <- <-.
    destruct (op_ok _ _ _ _ _ _ _ _ I Ei Er) as [L I']. pose proof (IH qs1 (at_time w k) qs2 w2 evs2 xs2 _ I' Es W) as X.
    eapply explains_perm; [|exact X]. rewrite !app_assoc. apply Permutation_app_tail, Permutation_app_comm.
  - obind H r Er. destruct r as [[qs1 w1] x1]. obind H s Es. destruct s as [[[qs2 w2] evs2] xs2]. injection H as <- <- <- <-.
    pose proof (run_later _ _ _ _ _ _ _ Es) as L2. destruct (flush_ok _ _ _ _ _ _ I Er (wire_before _ _ L2 W)) as (_ & X & I').
    rewrite filter_app, (explained_no_sync _ _ X). apply explains_app; [exact X|]. apply (IH _ _ _ _ _ _ [] I' Es W).
  - obind H r Er. destruct r as [[qs1 w1] x1]. obind H z Ez. destruct z as [w3 zs]. obind H s Es. destruct s as [[[qs2 w2] evs2] xs2]. injection H as <- <- <- <-.
    pose proof (run_later _ _ _ _ _ _ _ Es) as L2. pose proof (sync_bare _ _ _ _ _ _ Ez) as (L3 & _ & Fz).
    destruct (flush_ok _ _ _ _ _ _ I Er (wire_before _ _ (later_trans _ _ _ L3 L2) W)) as (_ & X & I').
    rewrite !filter_app, (explained_no_sync _ _ X). rewrite (filter_none _ zs) by (eapply Forall_impl; [|exact Fz]; intros x ->; reflexivity). cbn [app].
    apply explains_app; [exact X|]. refine (IH qs1 w3 qs2 w2 evs2 xs2 [] _ Es W). eapply inv_le; [apply L3|exact I'].  
Qed.
Lemma opened_inv k : inv k (t_opened e) [].
Proof.
  set (z := repeat (@nil (list event)) (Z.to_nat (e_total e))). exists z, z, z, z, z. unfold z. cbn [t_opened tq_puts tq_gets tq_getops tq_dels tq_hists]. unfold sized_q.
  destruct (none_ok e T put_of (e_total e) k) as (D1 & P & E1). destruct (none_ok e T get_of (e_total e) k) as (D2 & _ & E2).
  destruct (none_ok e T getop_of (e_total e) k) as (D3 & _ & E3). destruct (none_ok e T del_of (e_total e) k) as (D4 & _ & E4). destruct (none_ok e T hist_of (e_total e) k) as (D5 & _ & E5).
  rewrite !P. repeat (split; [split; assumption|]). constructor.
Qed.
End Run.
