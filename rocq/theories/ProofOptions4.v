From Verif Require Import ModelBytes ModelElen ModelConf ModelOptions SpecConf SpecOptions ProofBytes ProofStore ProofElen ProofConf ProofOptions.
Local Open Scope N_scope.

(* ---- the number of threads of the Thallium transport (C49) ---- *)
Definition clamped (w : option bytes) : Z :=
  let n := match w with Some v => read_threads v | None => (-1)%Z end in if (n <? -1)%Z then (-1)%Z else n.
Definition put (c : config) (w : option bytes) : config := fun k => if beqb k K_THREADS then w else c k.
Lemma then_ext x f g : (forall o, f o = g o) -> and_then x f = and_then x g.
Proof. intro H. destruct x as [o [|]|]; cbn [and_then]; auto. Qed.
Lemma fill_put b size c w w' o : clamped w = clamped w' -> fill_options b size (put c w) o = fill_options b size (put c w') o.
Proof.
  intro H. unfold fill_options.
  do 5 (match goal with |- and_then ?x ?f = and_then ?y ?g => change y with x; apply (then_ext x f g); clear o; intro o end).
  assert (parse_transport b (put c w) o = parse_transport b (put c w') o) as E.
  { unfold parse_transport. change (get_from_map (TRANSPORTS b) (put c w') K_TRANSPORT) with (get_from_map (TRANSPORTS b) (put c w) K_TRANSPORT).
    destruct (get_from_map (TRANSPORTS b) (put c w) K_TRANSPORT) as [t| |]; [|reflexivity|reflexivity]. destruct t; [reflexivity|reflexivity|].
    change (put c w' K_MODULE) with (put c w K_MODULE). destruct (put c w K_MODULE) as [m|]; [|reflexivity].
    change (put c w K_THREADS) with w. change (put c w' K_THREADS) with w'. cbv zeta. unfold clamped in H. cbv zeta in H. rewrite H. reflexivity. }
  rewrite E. reflexivity.
Qed.
Lemma eqb_no (c d : byte) : c <> d -> Ascii.eqb c d = false.
Proof. intro H. apply Ascii.eqb_neq. exact H. Qed.
Lemma not_digit (c : byte) : ~ digit_char c -> is_digit c = false.
Proof. intro H. destruct (is_digit c) eqn:E; [|reflexivity]. exfalso. apply H. apply is_digit_range in E. exact E. Qed.
Lemma take_text ds rest : Forall (fun d => d < 10) ds -> (forall c r, rest = c :: r -> ~ digit_char c) -> take_digits (text_of ds ++ rest) = text_of ds.
Proof.
  intros F R. induction F as [|d ds H F IH].
  - cbn [text_of map app]. destruct rest as [|c r]; [reflexivity|]. cbn [take_digits]. rewrite not_digit by exact (R c r eq_refl). reflexivity.
  - cbn [text_of map app take_digits]. rewrite digit_is_digit by exact H. f_equal. exact IH.
Qed.
Lemma text_not ds d ds' (x : byte) : ds = d :: ds' -> d < 10 -> code x < 48 -> Ascii.eqb (ascii_of_N (48 + d)) x = false.
Proof. intros _ H X. apply eqb_no. intro E. apply (f_equal N_of_ascii) in E. rewrite digit_code in E by exact H. unfold code in X. lia. Qed.
(* the sign and what follows it *)
Lemma sign_plain ds rest : ds <> [] -> Forall (fun d => d < 10) ds -> take_sign (skip_space (text_of ds ++ rest)) = (false, text_of ds ++ rest).
Proof.
  intros N F. destruct ds as [|d ds]; [congruence|]. inversion F as [|? ? H _]; subst. cbn [text_of map app].
  rewrite skip_space_stop by (apply digit_not_white; exact H). cbn [take_sign].
  rewrite !(text_not (d :: ds) d ds) by (try reflexivity; try exact H; unfold code; cbn; lia). reflexivity.
Qed.
Lemma white_nil v : Forall white v -> skip_space v = [].
Proof. intro H. pose proof (skip_space_white v [] H) as E. rewrite app_nil_r in E. rewrite E. reflexivity. Qed.
Lemma threads_digits v minus ds rest : skip_space v <> [] -> take_sign (skip_space v) = (minus, text_of ds ++ rest) -> ds <> [] -> Forall (fun d => d < 10) ds ->
  (forall c r, rest = c :: r -> ~ digit_char c) ->
  read_threads v = (let n := Z.of_N (fold_left (fun a d => 10 * a + d)%N ds 0%N) in let z := (if minus then - n else n)%Z in
    if (z <? - 2 ^ 31)%Z || (2 ^ 31 - 1 <? z)%Z then (if minus then (- 2 ^ 31)%Z else (2 ^ 31 - 1)%Z) else z).
Proof.
  intros S T N F R. unfold read_threads, read_int. rewrite T, take_text by assumption.
  assert (exists x t, text_of ds = x :: t) as [x [t E]] by (destruct ds; [congruence|]; do 2 eexists; reflexivity).
  destruct (skip_space v) as [|c w]; [congruence|]. rewrite E. rewrite <- E, num_prefix_text by exact F. cbv zeta.
  destruct (_ || _); reflexivity.
Qed.
Lemma clamped_text v t : no_count v t -> clamped (Some v) = t.
Proof.
  unfold clamped. cbv zeta. intros [[W ->]|[[ws [sign [rest [-> [W [NE [C ->]]]]]]]|[[ws [sign [digits [n [rest [-> [W [SG [N [R [L ->]]]]]]]]]]]|[ws [digits [n [rest [-> [W [N [R [L ->]]]]]]]]]]]].
  - unfold read_threads. rewrite white_nil by exact W. reflexivity.
  - assert (exists c w, skip_space (ws ++ sign ++ rest) = c :: w) as [c [w SS]].
    { rewrite skip_space_white by exact W. destruct C as [[[->| ->] _]|[-> C]].
      - do 2 eexists; apply skip_space_stop; intro X; unfold white in X; cbn in X; intuition discriminate.
      - do 2 eexists; apply skip_space_stop; intro X; unfold white in X; cbn in X; intuition discriminate.
      - destruct rest as [|c r]; [exfalso; exact (NE eq_refl)|]. exists c, r. apply skip_space_stop. exact (proj1 (proj2 (C c r eq_refl))). }
    assert (exists minus, take_sign (skip_space (ws ++ sign ++ rest)) = (minus, rest)) as [minus T].
    { rewrite skip_space_white by exact W. destruct C as [[[->| ->] _]|[-> C]].
      - exists false. cbn [app]. rewrite skip_space_stop by (intro X; unfold white in X; cbn in X; intuition discriminate). reflexivity.
      - exists true. cbn [app]. rewrite skip_space_stop by (intro X; unfold white in X; cbn in X; intuition discriminate). reflexivity.
      - destruct rest as [|d r]; [exfalso; exact (NE eq_refl)|]. destruct (C d r eq_refl) as [_ [C2 [C3 C4]]]. exists false. cbn [app]. rewrite skip_space_stop by exact C2.
        cbn [take_sign]. rewrite (eqb_no d "-"%char C4), (eqb_no d "+"%char C3). reflexivity. }
    assert (take_digits rest = []) as D.
    { destruct rest as [|d r]; [reflexivity|]. cbn [take_digits]. rewrite not_digit; [reflexivity|]. destruct C as [[_ C]|[_ C]]; [exact (C d r eq_refl)|exact (proj1 (C d r eq_refl))]. }
    unfold read_threads, read_int. rewrite T, D, SS. reflexivity.
  - destruct N as [ds [N [F [-> ->]]]]. fold (text_of ds) in *.
    assert (exists d ds', ds = d :: ds' /\ d < 10) as [d [ds' [E D]]] by (destruct ds; [congruence|]; inversion F; subst; eauto).
    rewrite (threads_digits _ false ds rest).
    + cbv zeta. set (n := fold_left _ ds 0) in *.
      assert (((Z.of_N n <? - 2 ^ 31)%Z || (2 ^ 31 - 1 <? Z.of_N n)%Z) = true) as X by (apply orb_true_iff; right; apply Z.ltb_lt; lia).
      rewrite X. reflexivity.
    + rewrite skip_space_white by exact W. destruct SG as [->| ->].
      * cbn [app]. rewrite E. cbn [text_of map app]. rewrite skip_space_stop by (apply digit_not_white; exact D). discriminate.
      * cbn [app]. rewrite skip_space_stop by (intro X; unfold white in X; cbn in X; intuition discriminate). discriminate.
    + rewrite skip_space_white by exact W. destruct SG as [->| ->].
      * cbn [app]. apply sign_plain; assumption.
      * cbn [app]. rewrite skip_space_stop by (intro X; unfold white in X; cbn in X; intuition discriminate). reflexivity.
    + exact N.
    + exact F.
    + exact R.
  - destruct N as [ds [N [F [-> ->]]]]. fold (text_of ds) in *.
    assert (skip_space (ws ++ "-"%char :: text_of ds ++ rest) = "-"%char :: text_of ds ++ rest) as SS.
    { rewrite skip_space_white by exact W. apply skip_space_stop. intro X; unfold white in X; cbn in X; intuition discriminate. }
    rewrite (threads_digits _ true ds rest).
    + cbv zeta. set (n := fold_left _ ds 0) in *.
      destruct ((- Z.of_N n <? - 2 ^ 31)%Z || (2 ^ 31 - 1 <? - Z.of_N n)%Z); [reflexivity|].
      destruct (- Z.of_N n <? -1)%Z eqn:Y; [reflexivity|]. apply Z.ltb_ge in Y. lia.
    + intro Q. generalize (eq_trans (eq_sym SS) Q). discriminate.
    + exact (f_equal take_sign SS).
    + exact N.
    + exact F.
    + exact R.
Qed.
Lemma threads_says c s m n h w k : config_says c s -> s_how s = ByThallium m n h ->
  says (put c w) (bstr "THALLIUM_THREAD_COUNT") number k -> config_says (put c w) (with_threads s k).
Proof.
  intros S E K. unfold config_says in *. unfold with_threads. cbn [s_debug s_client s_server s_per s_where s_prefix s_base s_post s_how s_async s_ops s_size s_neg s_pos s_float s_double s_first s_gen s_read s_write s_track].
  rewrite E in *. destruct S as [S1 [S2 [S3 [S4 [S5 [S6 [S7 [S8 [[A1 [A2 [A3 A4]]] S]]]]]]]]].
  exact (conj S1 (conj S2 (conj S3 (conj S4 (conj S5 (conj S6 (conj S7 (conj S8 (conj (conj A1 (conj A2 (conj K A4))) S))))))))).
Qed.
Lemma threads_valid b s m n h k : valid b s -> s_how s = ByThallium m n h -> each k fits31 -> valid b (with_threads s k).
Proof.
  intros V E K. unfold valid in *. unfold with_threads. cbn [s_debug s_client s_server s_per s_where s_prefix s_base s_post s_how s_async s_ops s_size s_neg s_pos s_float s_double s_first s_gen s_read s_write s_track].
  rewrite E in *. intuition.
Qed.
Lemma fill_ext b size c v o : fill_options b size (cfg_set c K_THREADS v) o = fill_options b size (put c (Some v)) o.
Proof. reflexivity. Qed.
Lemma no_count_is v t : no_count v t -> (t = count_of None /\ clamped (Some v) = clamped None) \/
  (exists w, t = count_of (Some 0) /\ number w 0 /\ clamped (Some v) = clamped (Some w)) \/
  (exists w, t = count_of (Some 2147483647) /\ number w 2147483647 /\ clamped (Some v) = clamped (Some w)).
Proof.
  intro H. pose proof (clamped_text v t H) as E. rewrite E.
  destruct H as [[_ ->]|[[? [? [? [_ [_ [_ [_ ->]]]]]]]|[[? [? [? [? [? [_ [_ [_ [_ [_ [_ ->]]]]]]]]]]]|[? [? [? [? [_ [_ [_ [_ [_ ->]]]]]]]]]]]].
  - left. split; reflexivity.
  - right. left. exists (bstr "0"%string). split; [reflexivity|]. split; [|reflexivity]. exists [0]. split; [discriminate|]. split; [constructor; [reflexivity|constructor]|]. split; reflexivity.
  - right. right. exists (bstr "2147483647"%string). split; [reflexivity|]. split; [|reflexivity].
    exists [2; 1; 4; 7; 4; 8; 3; 6; 4; 7]. split; [discriminate|]. split; [do 10 (constructor; [reflexivity|]); constructor|]. split; reflexivity.
  - left. split; reflexivity.
Qed.
Lemma threads_any b size c s m n h o v t : config_says c s -> valid b s -> s_how s = ByThallium m n h -> no_count v t ->
  exists k, count_of k = t /\ fill_options b size (cfg_set c (bstr "THALLIUM_THREAD_COUNT") v) o = Parsed (effect size (with_threads s k) o) true.
Proof.
  intros S V E H. change (bstr "THALLIUM_THREAD_COUNT") with K_THREADS. rewrite fill_ext.
  destruct (no_count_is v t H) as [[-> X]|[[w [-> [N X]]]|[w [-> [N X]]]]].
  - exists None. split; [reflexivity|]. rewrite (fill_put b size c (Some v) None o X). apply fill_says.
    + exact (threads_says c s m n h None None S E eq_refl).
    + exact (threads_valid b s m n h None V E Logic.I).
  - exists (Some 0). split; [reflexivity|]. rewrite (fill_put b size c (Some v) (Some w) o X). apply fill_says.
    + apply (threads_says c s m n h (Some w) (Some 0) S E). exists w. exact (conj eq_refl N).
    + apply (threads_valid b s m n h (Some 0) V E). reflexivity.
  - exists (Some 2147483647). split; [reflexivity|]. rewrite (fill_put b size c (Some v) (Some w) o X). apply fill_says.
    + apply (threads_says c s m n h (Some w) (Some 2147483647) S E). exists w. exact (conj eq_refl N).
    + apply (threads_valid b s m n h (Some 2147483647) V E). reflexivity.
Qed.
