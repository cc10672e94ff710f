From Verif Require Import ModelBytes ModelElen ModelConf ModelOptions SpecConf SpecOptions ProofBytes ProofStore ProofElen ProofConf ProofOptions ProofOptions2.
Local Open Scope N_scope.

Lemma is_digit_char c : is_digit c = true <-> digit_char c.
Proof. unfold digit_char, code. apply is_digit_range. Qed.
Lemma take_digits_spec s : exists rest, s = take_digits s ++ rest /\ all_digits (take_digits s) /\ forall c t, rest = c :: t -> ~ digit_char c.
Proof.
  induction s as [|c s [rest [E [A R]]]]; cbn [take_digits].
  - exists []. split; [reflexivity|]. split; [constructor|discriminate].
  - destruct (is_digit c) eqn:D.
    + exists rest. split; [cbn [app]; congruence|]. split; [constructor; assumption|exact R].
    + exists (c :: s). split; [reflexivity|]. split; [constructor|]. intros x t X H. injection X as <- _. apply is_digit_char in H. congruence.
Qed.
Lemma digits_number s : s <> [] -> all_digits s -> number s (num_prefix 0 s).
Proof.
  intros N A. exists (map (fun c => N_of_ascii c - 48) s).
  assert (Forall (fun d => d < 10) (map (fun c => N_of_ascii c - 48) s)) as F.
  { apply Forall_map. eapply Forall_impl; [|exact A]. cbn beta. intros c C. apply is_digit_range in C. lia. }
  assert (s = text_of (map (fun c => N_of_ascii c - 48) s)) as T.
  { unfold text_of. rewrite map_map. clear N F. induction A as [|c s C A IH]; [reflexivity|]. cbn [map]. f_equal; [|exact IH].
    apply is_digit_range in C. replace (48 + (N_of_ascii c - 48)) with (N_of_ascii c) by lia. symmetry. apply ascii_N_embedding. }
  split; [destruct s; [congruence|discriminate]|]. split; [exact F|]. split; [exact T|].
  rewrite T at 1. apply num_prefix_text. exact F.
Qed.
Lemma take_sign_spec s b r : take_sign s = (b, r) -> (b = true /\ s = "-"%char :: r) \/ (b = false /\ (s = r \/ s = "+"%char :: r)).
Proof.
  destruct s as [|c s]; cbn [take_sign]; intro H; [injection H as <- <-; auto|].
  destruct (Ascii.eqb c "-"%char) eqn:M; [apply Ascii.eqb_eq in M; subst c; injection H as <- <-; auto|].
  destruct (Ascii.eqb c "+"%char) eqn:P; [apply Ascii.eqb_eq in P; subst c; injection H as <- <-; auto|]. injection H as <- <-. auto.
Qed.
Lemma read_size_loose v n : read_size v = Some n -> loose_number v n.
Proof.
  unfold read_size. destruct (skip_space_spec v) as [ws [E [W _]]]. destruct (take_sign (skip_space v)) as [minus s] eqn:T.
  destruct (take_digits_spec s) as [rest [S [A R]]]. intro H.
  destruct (take_digits s) as [|d ds] eqn:D; [discriminate|]. cbv zeta in H. set (m := num_prefix 0 (d :: ds)) in *.
  destruct (2 ^ 64 <=? m) eqn:L; [discriminate|]. apply N.leb_gt in L. injection H as <-.
  pose proof (digits_number (d :: ds) ltac:(discriminate) A) as NU. fold m in NU.
  destruct (take_sign_spec _ _ _ T) as [[-> X]|[-> [X|X]]].
  - exists ws, ["-"%char], (d :: ds), rest, m. split; [rewrite E, X, S; reflexivity|]. split; [exact W|]. split; [exact NU|]. split; [exact L|]. split; [exact R|]. right. auto.
  - exists ws, [], (d :: ds), rest, m. split; [rewrite E, X, S; reflexivity|]. split; [exact W|]. split; [exact NU|]. split; [exact L|]. split; [exact R|]. left. auto.
  - exists ws, ["+"%char], (d :: ds), rest, m. split; [rewrite E, X, S; reflexivity|]. split; [exact W|]. split; [exact NU|]. split; [exact L|]. split; [exact R|]. left. auto.
Qed.

(* ---- what a successful step has done ---- *)
Lemma took_number c k set get o o' : (forall o, set o (get o) = o) -> parse_value read_size c k (always set) o = Parsed o' true -> exists n, o' = set o n /\ taken c k (get o) n.
Proof.
  intros G H. unfold parse_value, get_value, always, taken in *. destruct (c k) as [v|].
  - destruct (read_size v) as [n|] eqn:R; cbn [parse_got] in H; [|discriminate]. injection H as <-. exists n. split; [reflexivity|exact (read_size_loose _ _ R)].
  - cbn [parse_got] in H. injection H as <-. exists (get o). rewrite G. auto.
Qed.
Lemma took_ratio c k set get o o' : (forall o, set o (get o) = o) -> parse_value read_size c k (positive set) o = Parsed o' true ->
  exists n, o' = set o n /\ taken c k (get o) n /\ (c k <> None -> 0 < n).
Proof.
  intros G H. unfold parse_value, get_value, positive, taken in *. destruct (c k) as [v|].
  - destruct (read_size v) as [n|] eqn:R; cbn [parse_got] in H; [|discriminate]. destruct (n <? 1) eqn:L; [discriminate|].
    injection H as <-. apply N.ltb_ge in L. exists n. split; [reflexivity|]. split; [exact (read_size_loose _ _ R)|lia].
  - cbn [parse_got] in H. injection H as <-. exists (get o). rewrite G. repeat split; auto; congruence.
Qed.
Lemma took_debug c o o' : parse_got (get_from_map DEBUG_LEVELS c K_DEBUG) (always set_debug) o = Parsed o' true ->
  exists n, o' = set_debug o n /\ match c K_DEBUG with Some t => In (t, n) levels | None => n = o_debug o end.
Proof.
  unfold get_from_map, get_value, always. intro H. destruct (c K_DEBUG) as [t|].
  - destruct (assoc DEBUG_LEVELS t) as [n|] eqn:A; cbn [parse_got] in H; [|discriminate]. injection H as <-. exists n. split; [reflexivity|].
    unfold DEBUG_LEVELS in A. cbn [assoc] in A. unfold levels. cbn [In].
    repeat (match type of A with (if beqb t ?k then _ else _) = _ => let B := fresh "B" in destruct (beqb t k) eqn:B; [apply beqb_true in B; subst t; injection A as <-; auto 20|] end).
    discriminate.
  - cbn [parse_got] in H. injection H as <-. exists (o_debug o). split; [destruct o; reflexivity|reflexivity].
Qed.
Lemma took_datastore b c o o' : parse_datastore b c o = Parsed o' true -> exists p n s d, o' = set_ds (set_names3 o p n s) d.
Proof.
  unfold parse_datastore. intro H. destruct (get_from_map (DATASTORES b) c K_DS) as [t| |]; try discriminate.
  destruct (get_value read_string c K_PREFIX) as [p| |]; try discriminate. cbv zeta in H. destruct (get_value read_string c K_BASE) as [n| |]; try discriminate.
  destruct (get_value read_string c K_POST) as [s| |], t; try (injection H as <-; do 4 eexists; reflexivity);
    (destruct (get_value read_bool c K_LEVELDB) as [x| |] || destruct (get_value read_bool c K_ROCKSDB) as [x| |]); try discriminate;
    try (destruct (get_value read_bool c K_ROCKSDB) as [y| |]; try discriminate); injection H as <-; do 4 eexists; reflexivity.
Qed.
Lemma took_hash c o o' : parse_hash c o = Parsed o' true -> exists h, o' = set_hash o h.
Proof.
  unfold parse_hash, parse_value, named. intro H. destruct (get_value read_string c K_HASH) as [n| |]; cbn [parse_got] in H; try discriminate.
  - cbv zeta in H. destruct (assoc HASHES (cstr n)); [|discriminate]. injection H as <-. eexists. reflexivity.
  - injection H as <-. exists (o_hash o). destruct o; reflexivity.
Qed.
Lemma took_transport b c o o' : parse_transport b c o = Parsed o' true -> exists t h, o' = set_hash (set_tr o t) h.
Proof.
  unfold parse_transport. intro H. destruct (get_from_map (TRANSPORTS b) c K_TRANSPORT) as [[| |]| |]; try discriminate.
  - injection H as <-. do 2 eexists. reflexivity.
  - destruct (get_value read_size c K_LISTENERS); try discriminate. apply took_hash in H. destruct H as [h ->]. do 2 eexists. reflexivity.
  - destruct (c K_MODULE); [|discriminate]. cbv zeta in H. apply took_hash in H. destruct H as [h ->]. do 2 eexists. reflexivity.
Qed.
Lemma took_group size c o o' : parse_endpointgroup size c o = Parsed o' true -> c K_GROUP = Some (bstr "ALL") /\ o' = set_group o (map Z.of_nat (seq 0 (N.to_nat size))).
Proof.
  unfold parse_endpointgroup. intro H. destruct (c K_GROUP) as [v|]; [|discriminate]. destruct (beqb v (bstr "ALL")) eqn:B.
  - apply beqb_true in B. subst v. injection H as <-. auto.
  - destruct (read_int v) as [id|]; [destruct (id <? 0)%Z|]; discriminate.
Qed.
Lemma took_elen c o o' : parse_elen c o = Parsed o' true -> exists x y p q, o' = set_elen o x y p q /\ (char_value x < char_value y)%Z.
Proof.
  assert (forall A (read : bytes -> option A) k d f, with_default c o read k d f = Parsed o' true -> exists a, f a = Parsed o' true) as K.
  { intros A read k d f E. unfold with_default in E. destruct (get_value read c k); [eexists; exact E|eexists; exact E|discriminate]. }
  unfold parse_elen. intro H. apply K in H. destruct H as [x H]. apply K in H. destruct H as [y H]. apply K in H. destruct H as [p H]. apply K in H. destruct H as [q H].
  destruct (schar y <=? schar x)%Z eqn:L; [discriminate|]. destruct (q <=? p)%Z; [discriminate|]. injection H as <-. apply Z.leb_gt in L. rewrite !schar_value in L.
  do 4 eexists. split; [reflexivity|exact L].
Qed.
Lemma took_histogram c o o' : parse_histogram c o = Parsed o' true -> exists n g r w l, o' = set_names (set_rw (set_gen (set_first o n) g) r w) l /\ taken c K_FIRST (o_first o) n.
Proof.
  unfold parse_histogram. intro H. apply then_true in H. destruct H as [o1 [X H]]. apply (took_number c K_FIRST set_first o_first) in X; [|intros []; reflexivity].
  destruct X as [n [-> T]]. apply then_true in H. destruct H as [o2 [X H]].
  assert (exists g, o2 = set_gen (set_first o n) g) as [g ->].
  { unfold parse_value, named in X. destruct (get_value read_string c K_GEN) as [m| |]; cbn [parse_got] in X; try discriminate.
    - cbv zeta in X. destruct (assoc GENERATORS (cstr m)); [|discriminate]. injection X as <-. eexists. reflexivity.
    - injection X as <-. exists (o_gen o). destruct o; reflexivity. }
  set (o2 := set_gen (set_first o n) g) in *.
  exists n, g. assert (exists r w l, o' = set_names (set_rw o2 r w) l) as [r [w [l ->]]].
  { destruct (get_value read_bool c K_READ) as [r| |]; try discriminate; cbv zeta in H;
    (destruct (get_value read_bool c K_WRITE) as [w| |]; try discriminate); cbv zeta in H; destruct (c K_TRACK); injection H as <-;
    match goal with
    | |- exists r w l, set_rw _ ?a ?b = _ => exists a, b, (o_names o2); reflexivity
    | |- exists r w l, set_names (set_rw _ ?a ?b) ?m = _ => exists a, b, m; reflexivity
    end. }
  exists r, w, l. auto.
Qed.

Lemma accepted b size c o o' : fill_options b size c o = Parsed o' true ->
  (match c K_DEBUG with Some t => In (t, o_debug o') levels | None => o_debug o' = o_debug o end) /\
  taken c K_CLIENT (o_client o) (o_client o') /\ (c K_CLIENT <> None -> 0 < o_client o') /\
  taken c K_SERVER (o_server o) (o_server o') /\ (c K_SERVER <> None -> 0 < o_server o') /\
  taken c K_PER (o_per o) (o_per o') /\ (c K_PER <> None -> 0 < o_per o') /\
  c K_GROUP = Some (bstr "ALL") /\ o_group o' = map Z.of_nat (seq 0 (N.to_nat size)) /\
  taken c K_ASYNC (o_async o) (o_async o') /\ taken c K_OPS (o_ops o) (o_ops o') /\ taken c K_SIZE (o_size o) (o_size o') /\
  (char_value (o_neg o') < char_value (o_pos o'))%Z /\ taken c K_FIRST (o_first o) (o_first o') /\ o_ds o' <> None /\ o_tr o' <> None.
Proof.
  intro H. unfold fill_options in H.
  apply then_true in H. destruct H as [o1 [X H]]. apply took_debug in X. destruct X as [n1 [-> T1]].
  apply then_true in H. destruct H as [o2 [X H]]. apply (took_ratio c K_CLIENT set_client o_client) in X; [|intros []; reflexivity]. destruct X as [n2 [-> [T2 P2]]].
  apply then_true in H. destruct H as [o3 [X H]]. apply (took_ratio c K_SERVER set_server o_server) in X; [|intros []; reflexivity]. destruct X as [n3 [-> [T3 P3]]].
  apply then_true in H. destruct H as [o4 [X H]]. apply (took_ratio c K_PER set_per o_per) in X; [|intros []; reflexivity]. destruct X as [n4 [-> [T4 P4]]].
  apply then_true in H. destruct H as [o5 [X H]]. apply took_datastore in X. destruct X as [p [m [q [d ->]]]].
  apply then_true in H. destruct H as [o6 [X H]]. apply took_transport in X. destruct X as [t [h ->]].
  apply then_true in H. destruct H as [o7 [X H]]. apply took_group in X. destruct X as [G ->].
  apply then_true in H. destruct H as [o8 [X H]]. apply (took_number c K_ASYNC set_async o_async) in X; [|intros []; reflexivity]. destruct X as [n5 [-> T5]].
  apply then_true in H. destruct H as [o9 [X H]]. apply (took_number c K_OPS set_ops o_ops) in X; [|intros []; reflexivity]. destruct X as [n6 [-> T6]].
  apply then_true in H. destruct H as [o10 [X H]]. apply (took_number c K_SIZE set_size o_size) in X; [|intros []; reflexivity]. destruct X as [n7 [-> T7]].
  apply then_true in H. destruct H as [o11 [X H]]. apply took_elen in X. destruct X as [x [y [fp [dp [-> L]]]]].
  apply took_histogram in H. destruct H as [n8 [g [r [w [l [-> T8]]]]]].
  split; [exact T1|]. split; [exact T2|]. split; [exact P2|]. split; [exact T3|]. split; [exact P3|]. split; [exact T4|]. split; [exact P4|]. split; [exact G|].
  split; [reflexivity|]. split; [exact T5|]. split; [exact T6|]. split; [exact T7|]. split; [exact L|]. split; [exact T8|]. split; discriminate.
Qed.
