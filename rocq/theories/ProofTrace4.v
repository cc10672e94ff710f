(* The trace of the results of a session *)
From Verif Require Import ModelBytes ProofBytes ModelKey ModelWire ModelHist ModelMsg SpecMsg ModelStore ModelGetOp ModelDs SpecStore ProofStore ModelElen ModelRoute SpecRoute
  ModelClient SpecClient ModelFloat ModelStats ModelDsStats ModelTimes SpecTimes ProofTimes3 ProofTimes5 ModelTrace SpecTrace ProofTrace2 ProofTrace3.
Local Open Scope Z_scope.

Lemma one_result rank epoch x t print st : tc_run rank epoch (tc_opened (mkOut true [])) [TResult x t print; TGet] = Ok st ->
  o_text (tc_out st) = flat_map (line rank epoch) (result_events x t print).
Proof.
  intros H. assert (C : careful false [TResult x t print; TGet]) by (cbn; auto).
  pose proof (run_complete rank epoch [TResult x t print; TGet] (tc_opened (mkOut true [])) st false) as K.
  cbn [tc_opened tc_buf tc_up tc_out tc_log o_good o_text] in K. destruct (K ltac:(discriminate) eq_refl eq_refl eq_refl C H) as [E _].
  cbn [flat_map printed app] in E. rewrite app_nil_r in E. rewrite <- E.
  cbn [tc_run tc_step tc_opened tc_up tc_buf tc_out tc_log obind] in H. apply Ok_inj in H as <-. cbn [tc_out tc_buf tc_log]. rewrite app_nil_r. reflexivity.
Qed.
Lemma answered_name ev x rest : answers ev (x :: rest) -> op_name x = operation (ev_op ev).
Proof.
  unfold answers. destruct (ev_op ev); [intros (ok & [= -> _])|intros (ok & o & [= -> _])|intros (_ & F)|intros (ok & [= -> _])|intros (ok & h & [= -> _])]; try reflexivity.
  apply Forall_inv in F. destruct F as (ok & s' & p' & o' & ->). reflexivity.
Qed.
Lemma result_traced e T epoch ev x t rest : steady T -> epoch <= T 0%nat -> accounted e T ev ((x, t) :: rest) -> far e (ev_id ev) = true -> traced T epoch ev x t.
Proof.
  intros HT HE [A [[AL X] _]] F rank print st U P1 P2 R. rewrite F in X. destruct X as (S & AS & AI & _). rewrite (one_result _ _ _ _ _ _ R). cbn [map fst] in A.
  assert (H0 : fst (sn_hash (ti_send t)) = T (ev_before ev)) by (rewrite S; reflexivity).
  pose proof (HT 0%nat (ev_before ev) ltac:(lia)) as HB.
  pose proof (lines_told rank epoch _ (events_after epoch x t print AS AI ltac:(lia) ltac:(lia) P1 ltac:(lia))) as L.
  pose proof (event_names x t print) as N. rewrite (answered_name _ _ _ A), AL in N.
  unfold result_events in L, N |- *. cbn [app map fst] in L, N |- *. rewrite H0, (answered_name _ _ _ A) in L |- *.
  match type of L with records _ _ _ (_ :: ?r) => exists r end. split; [exact L|]. exact (f_equal (@tl _) N).
Qed.

(* ---- operations that stay on the rank of the client ---- *)
Lemma sec_mod a b : sec (a, b) = sec (0, (b - a) mod 2 ^ 64).
Proof. unfold sec, nano. cbn [fst snd]. rewrite Z.sub_0_r, Z.mod_mod by discriminate. reflexivity. Qed.
Lemma body_reads rank epoch name a b : plain name ->
  exists d, read_line (body_of rank epoch (name, a, b)) = Some (rank, name, nano (epoch, a), nano (epoch, b), d) /\
    has_no "010"%char (body_of rank epoch (name, a, b)).
Proof.
  intros PN. unfold body_of. rewrite (sec_mod a b). pose proof (Z.mod_pos_bound (b - a) (2 ^ 64) eq_refl) as B.
  destruct (show_sec 0 ((b - a) mod 2 ^ 64) ltac:(lia)) as (d & Rd & _ & Cd). exists d. split.
  - unfold read_line.
    rewrite cut_app by apply plain_space, number_plain, show_int_chars. rewrite cut_app by apply plain_space, PN.
    rewrite cut_app by apply plain_space, to_string_plain. rewrite cut_app by apply plain_space, to_string_plain.
    rewrite cut_none by apply plain_space, number_plain, Cd. rewrite read_show_int, !read_nat_to_string, Rd. reflexivity.
  - apply has_no_app; [apply plain_newline, number_plain, show_int_chars|]. constructor; [discriminate|].
    apply has_no_app; [apply plain_newline, PN|]. constructor; [discriminate|].
    apply has_no_app; [apply plain_newline, to_string_plain|]. constructor; [discriminate|].
    apply has_no_app; [apply plain_newline, to_string_plain|]. constructor; [discriminate|]. apply plain_newline, number_plain, Cd.
Qed.
Lemma cut_some c s : cut c s <> [].
Proof. destruct s as [|x s]; cbn [cut]; [discriminate|]. destruct (Ascii.eqb x c); [discriminate|]. destruct (cut c s); discriminate. Qed.
Lemma trace_cons rank epoch v s : has_no "010"%char (body_of rank epoch v) ->
  read_trace (line rank epoch v ++ s) = read_line (body_of rank epoch v) :: read_trace s.
Proof.
  intros N. unfold read_trace. rewrite line_body, <- app_assoc. cbn [app]. rewrite cut_app by exact N.
  pose proof (cut_some "010"%char s) as NE. destruct (cut "010"%char s) as [|w ws]; [congruence|]. reflexivity.
Qed.
Lemma nano_before epoch : 0 < epoch < 2 ^ 64 -> nano (epoch, 0) = Z.to_N (2 ^ 64 - epoch).
Proof.
  intros H. unfold nano. cbn [fst snd]. replace (0 - epoch) with (2 ^ 64 - epoch + (-1) * 2 ^ 64) by lia. rewrite Z_mod_plus_full, Z.mod_small by lia. reflexivity.
Qed.
Lemma body_zero rank epoch name : 0 < epoch < 2 ^ 64 -> plain name ->
  read_line (body_of rank epoch (name, 0, 0)) = Some (rank, name, Z.to_N (2 ^ 64 - epoch), Z.to_N (2 ^ 64 - epoch), (0%N, 0)) /\
  has_no "010"%char (body_of rank epoch (name, 0, 0)).
Proof.
  intros H PN. unfold body_of. rewrite (sec_zero 0), (nano_before epoch H). split.
  - unfold read_line.
    rewrite cut_app by apply plain_space, number_plain, show_int_chars. rewrite cut_app by apply plain_space, PN.
    rewrite cut_app by apply plain_space, to_string_plain. rewrite cut_app by apply plain_space, to_string_plain.
    rewrite read_show_int, !read_nat_to_string. reflexivity.
  - apply has_no_app; [apply plain_newline, number_plain, show_int_chars|]. constructor; [discriminate|].
    apply has_no_app; [apply plain_newline, PN|]. constructor; [discriminate|].
    apply has_no_app; [apply plain_newline, to_string_plain|]. constructor; [discriminate|].
    apply has_no_app; [apply plain_newline, to_string_plain|]. constructor; [discriminate|]. constructor; [discriminate|constructor].
Qed.
Lemma op_plain x : plain (op_name x).
Proof. pose proof names_plain as N. cbn [map] in N. repeat (let h := fresh "N" in apply Forall_cons_iff in N as [h N]). destruct x; assumption. Qed.
Lemma hash_plain : plain (bstr "Hash"%string) /\ plain (bstr "Insert"%string).
Proof. pose proof names_plain as N. cbn [map] in N. repeat (let h := fresh "N" in apply Forall_cons_iff in N as [h N]). split; assumption. Qed.
(* the first three lines of a result without times of the hash function and the insertion *)
Lemma unset_three rank epoch x t print st : 0 < epoch < 2 ^ 64 -> ti_send t = no_send ->
  tc_run rank epoch (tc_opened (mkOut true [])) [TResult x t print; TGet] = Ok st ->
  exists d, read_trace (o_text (tc_out st)) =
    Some (rank, op_name x, Z.to_N (2 ^ 64 - epoch), nano (epoch, snd (ti_result t)), d) :: wrapped rank epoch "Hash" :: wrapped rank epoch "Insert" ::
    read_trace (flat_map (line rank epoch) (skipn 3 (result_events x t print))).
Proof.
  intros H S R. rewrite (one_result _ _ _ _ _ _ R). unfold result_events. rewrite S.
  cbn [no_send no_stamp sn_hash sn_insert fst snd app flat_map skipn]. destruct hash_plain as [PH PI].
  destruct (body_reads rank epoch (op_name x) 0 (snd (ti_result t)) (op_plain x)) as (d & R1 & N1).
  destruct (body_zero rank epoch _ H PH) as [R2 N2]. destruct (body_zero rank epoch _ H PI) as [R3 N3].
  exists d. rewrite trace_cons by exact N1. rewrite trace_cons by exact N2. rewrite trace_cons by exact N3.
  rewrite R1, R2, R3, (nano_before epoch H). reflexivity.
Qed.
Lemma unset_lines rank epoch x t print st : 0 < epoch < 2 ^ 64 -> ti_send t = no_send ->
  tc_run rank epoch (tc_opened (mkOut true [])) [TResult x t print; TGet] = Ok st ->
  In (wrapped rank epoch "Hash") (read_trace (o_text (tc_out st))).
Proof. intros H S R. destruct (unset_three _ _ _ _ _ _ H S R) as (d & ->). right. left. reflexivity. Qed.
Lemma ev_alloc_after T ev a b : steady T -> event_alloc T ev = Some (a, b) -> T 0%nat <= a <= b /\ b <= snd (sn_insert (event_send T ev)).
Proof.
  intros HT. unfold event_alloc, event_send. cbn [sn_insert snd]. destruct (Nat.eqb_spec (ev_after ev) (ev_before ev + 6)) as [->|]; [|discriminate].
  intros [= <- <-]. pose proof (HT 0 (ev_before ev + 3) ltac:(lia))%nat. pose proof (HT (ev_before ev + 3) (ev_before ev + 4) ltac:(lia))%nat.
  pose proof (HT (ev_before ev + 4) (ev_before ev + 6 - 1) ltac:(lia))%nat. lia.
Qed.
Lemma result_late e T epoch ev x t rest : steady T -> epoch <= T 0%nat -> accounted e T ev ((x, t) :: rest) -> far e (ev_id ev) = false -> traced_late T epoch ev x t.
Proof.
  intros HT HE [A [[AL X] _]] F rank print st H U P1 P2 R. rewrite F in X. destruct X as (S & AS & _).
  destruct (unset_three _ _ _ _ _ _ H S R) as (d & ->). cbn [map fst] in A. pose proof (event_names x t print) as N. rewrite AL in N.
  pose proof (HT 0%nat (ev_after ev - 1)%nat ltac:(lia)) as HB. change (T (ev_after ev - 1)%nat) with (snd (sn_insert (event_send T ev))) in HB.
  assert (L : Forall (after epoch) (skipn 3 (result_events x t print))).
  { unfold moments in AS. destruct t as [al sn [ts [p1 p2] sd rc [u1 u2] [c1 c2] en] [r1 r2]]. destruct print as [q1 q2].
    cbn [ti_send ti_trip ti_result ti_alloc tr_start tr_pack tr_send tr_recv tr_unpack tr_cleanup tr_end fst snd skipn ascending] in *.
    pose proof names_plain as NP. cbn [map] in NP. repeat (let h := fresh "NP" in apply Forall_cons_iff in NP as [h NP]).
    assert (K : forall name a b, plain name -> epoch <= a <= b -> b - epoch < 2 ^ 64 -> after epoch (name, a, b)) by (intros; repeat split; try assumption; lia).
    unfold result_events. cbn [ti_send ti_trip ti_result ti_alloc tr_start tr_pack tr_send tr_recv tr_unpack tr_cleanup tr_end fst snd app skipn].
    apply Forall_app. split.
    - destruct al as [[a1 a2]|]; [|constructor]. destruct (ev_alloc_after T ev a1 a2 HT (eq_sym AL)) as [B1 B2].
      constructor; [|constructor]. apply K; [assumption|cbn [fst snd]; lia|cbn [fst snd]; lia].
    - repeat (constructor; [apply K; [assumption|cbn [fst snd]; lia|cbn [fst snd]; lia]|]). constructor. }
  exists d, (skipn 3 (result_events x t print)). eexists. split; [|split; [exact (lines_told rank epoch _ L)|]].
  - rewrite (answered_name _ _ _ A). unfold nano. cbn [fst snd]. rewrite Z.mod_small; [reflexivity|]. unfold moments in AS. cbn [skipn ascending] in AS. lia.
  - apply (f_equal (skipn 3)) in N. rewrite skipn_map in N. exact N.
Qed.
Lemma session_traced e T epoch cl k l qs w evs xs : setting e -> steady T -> epoch <= T 0%nat ->
  t_run e T (t_opened e) (mkWorld cl k []) l = Ok (qs, w, evs, xs) -> Forall body_ok (w_wire w) ->
  exists gs lost, filter (fun x => negb (of_sync x)) xs = concat (map snd gs) /\ Permutation evs (map fst gs ++ lost) /\
    Forall (fun g => exists x t rest, snd g = (x, t) :: rest /\
      if far e (ev_id (fst g)) then traced T epoch (fst g) x t else traced_late T epoch (fst g) x t) gs.
Proof.
  intros HS HT HE R W. destruct (run_ok e HS T HT l _ (mkWorld cl k []) _ _ _ _ [] (opened_inv e T k) R W) as (gs & lost & E & P & F).
  exists gs, lost. split; [exact E|]. split; [exact P|]. eapply Forall_impl; [|exact F]. intros [ev g] A. cbn [fst snd] in *.
  destruct g as [|[x t] rest]; [destruct A as [_ []]|]. exists x, t, rest. split; [reflexivity|].
  destruct (far e (ev_id ev)) eqn:Ef; [eapply result_traced; eassumption|eapply result_late; eassumption].
Qed.


(* ---- what a call returns ---- *)
Lemma step_up rank epoch st a st' b : tc_step rank epoch st a = Ok (st', b) -> tc_up st = b /\ tc_up st' = (b && match a with TClose => false | _ => true end)%bool /\ (b = false -> st' = st).
Proof. destruct st as [[|] buf o lg], a; cbn; intros H; inversion H; subst; (split; [reflexivity|]; split; [reflexivity|]; intros C; first [reflexivity|discriminate C]). Qed.
Lemma run_up rank epoch : forall l st st', tc_run rank epoch st l = Ok st' -> tc_up st = true -> (tc_up st' = true <-> ~ In TClose l).
Proof.
  assert (D : forall l st st', tc_run rank epoch st l = Ok st' -> tc_up st = false -> tc_up st' = false).
  { induction l as [|a l IH]; cbn [tc_run]; intros st st' H U; [apply Ok_inj in H as <-; exact U|]. obind H r E. destruct r as [s1 b]. apply step_up in E as (E1 & E2 & _).
    eapply IH; [exact H|]. rewrite E2, <- E1, U. reflexivity. }
  induction l as [|a l IH]; cbn [tc_run]; intros st st' H U; [apply Ok_inj in H as <-; split; auto|]. obind H r E. destruct r as [s1 b]. apply step_up in E as (E1 & E2 & _).
  rewrite U in E1. subst b. cbn [andb] in E2. destruct a as [v|x t pr| |]; try (rewrite (IH _ _ H E2); split; [intros N [C|C]; [discriminate C|exact (N C)]|intros N C; apply N; right; exact C]).
  rewrite (D _ _ _ H E2). split; [discriminate|]. intros N. exfalso. apply N. left. reflexivity.
Qed.
