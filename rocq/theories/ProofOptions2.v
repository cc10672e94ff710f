From Verif Require Import ModelBytes ModelElen ModelConf ModelOptions SpecConf SpecOptions ProofBytes ProofStore ProofElen ProofConf ProofOptions.
Local Open Scope N_scope.

Lemma reads_process w rs c : ascii_world w -> reads w rs c -> exists c', process_sequence w rs = Ok c' /\ forall k, c' k = c k.
Proof.
  intros A R. destruct (sequence_total w rs A) as [c' E]. exists c'. split; [exact E|]. intro k.
  pose proof (sequence_last _ _ _ E k) as L. destruct (c' k) as [v|] eqn:X.
  - symmetry. apply R. apply L. reflexivity.
  - destruct (c k) as [v|] eqn:Y; [|reflexivity]. apply R in Y. apply L in Y. discriminate.
Qed.
Lemma says_ext {A} c c' k (R : bytes -> A -> Prop) x : (forall k, c' k = c k) -> says c k R x -> says c' k R x.
Proof. intros E S. destruct x as [a|]; cbn [says] in *; rewrite E; exact S. Qed.
Lemma config_says_ext c c' s : (forall k, c' k = c k) -> config_says c s -> config_says c' s.
Proof.
  intros E S. unfold config_says in *. repeat rewrite E.
  destruct S as [S1 [S2 [S3 [S4 [S5 [S6 [S7 [S8 [S9 [S10 [S11 [S12 [S13 [S14 [S15 [S16 [S17 [S18 [S19 [S20 [S21 S22]]]]]]]]]]]]]]]]]]]]].
  assert (says_where c' (s_where s)) as W.
  { destruct (s_where s); cbn [says_where] in *; rewrite E; [assumption| |]; (destruct S5 as [X Y]; split; [exact X|exact (says_ext _ _ _ _ _ E Y)]). }
  assert (says_how c' (s_how s)) as H.
  { destruct (s_how s); cbn [says_how] in *; repeat rewrite E; [assumption| |].
    - destruct S9 as [X [Y Z]]. split; [exact X|split; [exact (says_ext _ _ _ _ _ E Y)|exact (says_ext _ _ _ _ _ E Z)]].
    - destruct S9 as [X [Q [Y Z]]]. split; [exact X|split; [exact Q|split; [exact (says_ext _ _ _ _ _ E Y)|exact (says_ext _ _ _ _ _ E Z)]]]. }
  exact (conj (says_ext _ _ _ _ _ E S1) (conj (says_ext _ _ _ _ _ E S2) (conj (says_ext _ _ _ _ _ E S3) (conj (says_ext _ _ _ _ _ E S4)
    (conj W (conj S6 (conj S7 (conj (says_ext _ _ _ _ _ E S8) (conj H (conj S10 (conj (says_ext _ _ _ _ _ E S11) (conj (says_ext _ _ _ _ _ E S12)
    (conj (says_ext _ _ _ _ _ E S13) (conj (says_ext _ _ _ _ _ E S14) (conj (says_ext _ _ _ _ _ E S15) (conj (says_ext _ _ _ _ _ E S16) (conj (says_ext _ _ _ _ _ E S17)
    (conj (says_ext _ _ _ _ _ E S18) (conj (says_ext _ _ _ _ _ E S19) (conj (says_ext _ _ _ _ _ E S20) (conj (says_ext _ _ _ _ _ E S21) (says_ext _ _ _ _ _ E S22)))))))))))))))))))))).
Qed.

(* the defaults, with the symbol they really have *)
Definition real_defaults (b : build) (size : N) (o : opts) : opts :=
  let d := effect size (default_settings b) o in set_elen d (ascii_of_N 1) (o_pos d) (o_float d) (o_double d).
Lemma fill_defaults b size o : fill_options b size (DEFAULT_CONFIG b) o = Parsed (real_defaults b size o) true.
Proof. destruct o. destruct b as [[] [] []]; vm_compute; reflexivity. Qed.
Lemma effect_elen size s d x y z u : effect size s (set_elen d x y z u) = effect size s d.
Proof. reflexivity. Qed.
Lemma reader_complete b size w keys c s o : ascii_world w -> reads w (sources keys) c -> config_says c s -> valid b s ->
  default_reader b size w keys o = Ok (Parsed (effect size s (effect size (default_settings b) o)) true).
Proof.
  intros A R S V. unfold default_reader. rewrite fill_defaults. destruct (reads_process _ _ _ A R) as [c' [E X]]. rewrite E. cbn [obind].
  rewrite (fill_says b size c' s) by (try exact V; exact (config_says_ext _ _ _ X S)). unfold real_defaults. cbv zeta. rewrite effect_elen. reflexivity.
Qed.

(* what comes before the datastore leaves the rest alone *)
Lemma same_rest_refl o : same_rest o o.
Proof. unfold same_rest. auto 20. Qed.
Lemma same_rest_trans o o' o'' : same_rest o o' -> same_rest o' o'' -> same_rest o o''.
Proof.
  unfold same_rest. intros [? [? [? [? [? [? [? [? [? [? [? [? [? [? [? [? [? [? ?]]]]]]]]]]]]]]]]]] [? [? [? [? [? [? [? [? [? [? [? [? [? [? [? [? [? [? ?]]]]]]]]]]]]]]]]]].
  repeat (split; [congruence|]). congruence.
Qed.
Definition keeps_rest (o : opts) (x : parsed) : Prop := match x with Parsed o' _ => same_rest o o' | Forever => False end.
Lemma keeps_then o x f : keeps_rest o x -> (forall o', same_rest o o' -> keeps_rest o (f o')) -> keeps_rest o (and_then x f).
Proof. destruct x as [o' []|]; cbn [keeps_rest and_then]; auto. Qed.
Lemma keeps_got {A} (g : got A) set o o0 : same_rest o0 o -> (forall o a o', set o a = Some o' -> same_rest o o') -> keeps_rest o0 (parse_got g set o).
Proof.
  intros S H. destruct g as [a| |]; cbn [parse_got keeps_rest]; try exact S.
  destruct (set o a) as [o'|] eqn:E; cbn [keeps_rest]; [|exact S]. exact (same_rest_trans _ _ _ S (H _ _ _ E)).
Qed.
Lemma keeps_setters : 
  (forall o a o', always set_debug o a = Some o' -> same_rest o o') /\ (forall o a o', positive set_client o a = Some o' -> same_rest o o') /\
  (forall o a o', positive set_server o a = Some o' -> same_rest o o') /\ (forall o a o', positive set_per o a = Some o' -> same_rest o o').
Proof.
  unfold always, positive. split; [|split; [|split]]; intros o a o' H; try (destruct (a <? 1); [discriminate|]); injection H as <-; unfold same_rest; repeat split; reflexivity.
Qed.
Lemma no_datastore b size c o : c K_DS = None -> exists o', fill_options b size c o = Parsed o' false /\ same_rest o o'.
Proof.
  intro D. destruct keeps_setters as [K1 [K2 [K3 K4]]].
  assert (forall o, parse_datastore b c o = Parsed o false) as PD by (intro o1; unfold parse_datastore, get_from_map, get_value; rewrite D; reflexivity).
  unfold fill_options.
  set (x := and_then _ _).
  assert (keeps_rest o x /\ match x with Parsed _ ok => ok = false | Forever => True end) as [H1 H2].
  { subst x. unfold parse_value.
    pose proof (keeps_got (get_from_map DEBUG_LEVELS c K_DEBUG) (always set_debug) o o (same_rest_refl o) K1) as G1.
    destruct (parse_got (get_from_map DEBUG_LEVELS c K_DEBUG) (always set_debug) o) as [o1 []|]; cbn [and_then keeps_rest] in *; [|split; auto|split; auto].
    pose proof (keeps_got (get_value read_size c K_CLIENT) (positive set_client) o1 o G1 K2) as G2.
    destruct (parse_got (get_value read_size c K_CLIENT) (positive set_client) o1) as [o2 []|]; cbn [and_then keeps_rest] in *; [|split; auto|split; auto].
    pose proof (keeps_got (get_value read_size c K_SERVER) (positive set_server) o2 o G2 K3) as G3.
    destruct (parse_got (get_value read_size c K_SERVER) (positive set_server) o2) as [o3 []|]; cbn [and_then keeps_rest] in *; [|split; auto|split; auto].
    pose proof (keeps_got (get_value read_size c K_PER) (positive set_per) o3 o G3 K4) as G4.
    destruct (parse_got (get_value read_size c K_PER) (positive set_per) o3) as [o4 []|]; cbn [and_then keeps_rest] in *; [|split; auto|split; auto].
    rewrite PD. cbn [and_then]. split; auto. }
  destruct x as [o' ok|]; [|destruct H1]. exists o'. subst ok. auto.
Qed.
(* an incomplete configuration is as good as none, and nothing is said *)
Lemma reader_dropped b size w keys o : ascii_world w -> (forall r v, In r (sources keys) -> ~ source_says w r K_DS v) ->
  exists o', default_reader b size w keys o = Ok (Parsed o' true) /\ same_rest (real_defaults b size o) o'.
Proof.
  intros A N. unfold default_reader. rewrite fill_defaults. destruct (sequence_total w (sources keys) A) as [c E]. rewrite E. cbn [obind].
  pose proof (proj2 (sequence_absent _ _ _ E K_DS) N) as D. destruct (no_datastore b size c (real_defaults b size o) D) as [o' [F S]]. rewrite F. exists o'. auto.
Qed.

(* a list of endpoints is never accepted *)
Lemma then_true x f o' : and_then x f = Parsed o' true -> exists o, x = Parsed o true /\ f o = Parsed o' true.
Proof. destruct x as [o []|]; cbn [and_then]; intro H; [exists o; auto|discriminate|discriminate]. Qed.
Lemma group_list b size c v o o' : c K_GROUP = Some v -> v <> bstr "ALL" -> fill_options b size c o <> Parsed o' true.
Proof.
  intros E N H. unfold fill_options in H.
  do 7 (apply then_true in H; let x := fresh "o" in let X := fresh "X" in destruct H as [x [X H]]).
  unfold parse_endpointgroup in X5. rewrite E in X5. destruct (beqb v (bstr "ALL")) eqn:B; [apply beqb_true in B; congruence|].
  destruct (read_int v) as [id|]; [destruct (id <? 0)%Z|]; discriminate.
Qed.
(* with a number in front it is read for ever *)
Lemma group_forever b size c s v n o : config_says c s -> valid b s -> read_int v = Some n -> (0 <= n)%Z -> fill_options b size (cfg_set c K_GROUP v) o = Forever.
Proof.
  intros S V RI NN. unfold config_says in S. destruct S as [S1 [S2 [S3 [S4 [S5 [S6 [S7 [S8 [S9 _]]]]]]]]].
  unfold valid in V. destruct V as [V1 [V2 [V3 [V4 [V5 [V6 [V7 [V8 [V9 _]]]]]]]]].
  unfold fill_options.
  change (parse_got (get_from_map DEBUG_LEVELS (cfg_set c K_GROUP v) K_DEBUG) (always set_debug) o) with (parse_got (get_from_map DEBUG_LEVELS c K_DEBUG) (always set_debug) o).
  rewrite (step_debug c (s_debug s)) by assumption. cbn [and_then]. set (o1 := set_debug _ _).
  change (parse_value read_size (cfg_set c K_GROUP v) K_CLIENT (positive set_client) o1) with (parse_value read_size c K_CLIENT (positive set_client) o1).
  rewrite (step_ratio c K_CLIENT (s_client s) set_client o_client) by (try assumption; intros []; reflexivity). cbn [and_then]. set (o2 := set_client _ _).
  change (parse_value read_size (cfg_set c K_GROUP v) K_SERVER (positive set_server) o2) with (parse_value read_size c K_SERVER (positive set_server) o2).
  rewrite (step_ratio c K_SERVER (s_server s) set_server o_server) by (try assumption; intros []; reflexivity). cbn [and_then]. set (o3 := set_server _ _).
  change (parse_value read_size (cfg_set c K_GROUP v) K_PER (positive set_per) o3) with (parse_value read_size c K_PER (positive set_per) o3).
  rewrite (step_ratio c K_PER (s_per s) set_per o_per) by (try assumption; intros []; reflexivity). cbn [and_then]. set (o4 := set_per _ _).
  change (parse_datastore b (cfg_set c K_GROUP v) o4) with (parse_datastore b c o4).
  rewrite (step_datastore b c s) by assumption. cbn [and_then]. set (o5 := set_ds _ _).
  change (parse_transport b (cfg_set c K_GROUP v) o5) with (parse_transport b c o5).
  rewrite (step_transport b c (s_how s)) by assumption. cbn [and_then].
  unfold parse_endpointgroup. change (cfg_set c K_GROUP v K_GROUP) with (Some v). cbv iota.
  destruct (beqb v (bstr "ALL")) eqn:B; [apply beqb_true in B; subst v; discriminate|].
  rewrite RI. assert ((n <? 0)%Z = false) as X by (apply Z.ltb_ge; exact NN). rewrite X. reflexivity.
Qed.

(* the hash is not used without a transport *)
Lemma got_hash {A} (g : got A) set o o' ok : (forall o a o', set o a = Some o' -> o_hash o' = o_hash o) -> parse_got g set o = Parsed o' ok -> o_hash o' = o_hash o.
Proof.
  intros H E. destruct g as [a| |]; cbn [parse_got] in E.
  - destruct (set o a) as [o1|] eqn:S; injection E as <- _; [exact (H _ _ _ S)|reflexivity].
  - injection E as <- _. reflexivity.
  - injection E as <- _. reflexivity.
Qed.
Lemma with_default_hash {A} c o (read : bytes -> option A) k d f o' ok : (forall a, f a = Parsed o' ok -> o_hash o' = o_hash o) -> with_default c o read k d f = Parsed o' ok -> o_hash o' = o_hash o.
Proof. intros H E. unfold with_default in E. destruct (get_value read c k) as [a| |]; [exact (H _ E)|exact (H _ E)|injection E as <- _; reflexivity]. Qed.
Lemma null_hash b size c o o' : c K_TRANSPORT = Some (bstr "NULL") -> fill_options b size c o = Parsed o' true -> o_hash o' = bstr "RANK_MOD_DATASTORES".
Proof.
  intros E H. unfold fill_options in H.
  do 6 (apply then_true in H; let x := fresh "o" in let X := fresh "X" in destruct H as [x [X H]]).
  assert (o_hash o5 = bstr "RANK_MOD_DATASTORES") as <-.
  { unfold parse_transport, get_from_map, get_value in X4. rewrite E in X4. cbn in X4. injection X4 as <-. reflexivity. }
  clear X X0 X1 X2 X3 X4.
  apply then_true in H; destruct H as [o6 [X6 H]].
  assert (o_hash o6 = o_hash o5) as <-.
  { unfold parse_endpointgroup in X6. destruct (c K_GROUP) as [v|]; [|discriminate]. destruct (beqb v (bstr "ALL")); [injection X6 as <-; reflexivity|].
    destruct (read_int v) as [id|]; [destruct (id <? 0)%Z|]; discriminate. }
  apply then_true in H; destruct H as [o7 [X7 H]]. apply got_hash in X7; [|unfold always; intros ? ? ? Y; injection Y as <-; reflexivity]. rewrite <- X7.
  apply then_true in H; destruct H as [o8 [X8 H]]. apply got_hash in X8; [|unfold always; intros ? ? ? Y; injection Y as <-; reflexivity]. rewrite <- X8.
  apply then_true in H; destruct H as [o9 [X9 H]]. apply got_hash in X9; [|unfold always; intros ? ? ? Y; injection Y as <-; reflexivity]. rewrite <- X9.
  apply then_true in H; destruct H as [o10 [X10 H]].
  assert (o_hash o10 = o_hash o9) as <-.
  { unfold parse_elen in X10. revert X10. apply with_default_hash. intro a. apply with_default_hash. intro a'. apply with_default_hash. intro z. apply with_default_hash. intro z'.
    destruct (_ <=? _)%Z; [discriminate|]. destruct (_ <=? _)%Z; [discriminate|]. intro Y. injection Y as <-. reflexivity. }
  unfold parse_histogram in H.
  apply then_true in H; destruct H as [o11 [X11 H]]. apply got_hash in X11; [|unfold always; intros ? ? ? Y; injection Y as <-; reflexivity]. rewrite <- X11.
  apply then_true in H; destruct H as [o12 [X12 H]].
  apply got_hash in X12; [|unfold named; intros ? ? ? Y; cbv zeta in Y; destruct (assoc _ _); [injection Y as <-; reflexivity|discriminate]]. rewrite <- X12.
  destruct (get_value read_bool c K_READ), (get_value read_bool c K_WRITE); try discriminate; cbv zeta in H; destruct (c K_TRACK); injection H as <-; reflexivity.
Qed.

(* ---- environment variables that are not looked at ---- *)
Lemma beqb_app_l a x y : beqb (a ++ x) (a ++ y) = beqb x y.
Proof.
  destruct (beqb x y) eqn:E.
  - apply beqb_true in E. subst y. apply beqb_refl.
  - apply beqb_false in E. apply beqb_false. intro H. apply app_inv_head in H. congruence.
Qed.
Lemma env_ignored w keys k v : ~ In k keys -> k <> bstr "CONFIG" ->
  process_sequence (with_env w (bstr "HXHIM_" ++ k) v) (sources keys) = process_sequence w (sources keys).
Proof.
  intros N C. unfold process_sequence, sources.
  assert (forall l c, ~ In k l -> read_sources (with_env w (bstr "HXHIM_" ++ k) v) c (map (fun k => REnvVar (bstr "HXHIM_" ++ k) k) l) = read_sources w c (map (fun k => REnvVar (bstr "HXHIM_" ++ k) k) l)) as K.
  { induction l as [|x l IH]; intros c I; [reflexivity|]. cbn [map read_sources read_source with_env w_env]. rewrite beqb_app_l.
    assert (beqb x k = false) as B by (apply beqb_false; intro X; apply I; left; exact X). rewrite B.
    destruct (w_env w (bstr "HXHIM_" ++ x)); cbn [obind]; apply IH; intro X; apply I; right; exact X. }
  assert (forall c f, read_file (with_env w (bstr "HXHIM_" ++ k) v) c f = read_file w c f) as KF by reflexivity.
  cbn [read_sources read_source]. rewrite KF. destruct (read_file w cfg_empty (bstr "hxhim.conf")) as [c1| |]; cbn [obind]; [|reflexivity|reflexivity].
  assert (w_env (with_env w (bstr "HXHIM_" ++ k) v) (bstr "HXHIM_CONFIG") = w_env w (bstr "HXHIM_CONFIG")) as KE.
  { cbn [with_env w_env]. change (bstr "HXHIM_CONFIG") with (bstr "HXHIM_" ++ bstr "CONFIG"). rewrite beqb_app_l.
    assert (beqb (bstr "CONFIG") k = false) as B by (apply beqb_false; congruence). rewrite B. reflexivity. }
  rewrite KE. destruct (w_env w (bstr "HXHIM_CONFIG")) as [f|].
  - rewrite KF. destruct (read_file w c1 f) as [c2| |]; cbn [obind]; [|reflexivity|reflexivity]. apply K. exact N.
  - cbn [obind]. apply K. exact N.
Qed.
