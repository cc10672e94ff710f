From Verif Require Import ModelBytes ModelElen ModelConf SpecConf ProofBytes ProofStore.
Local Open Scope N_scope.

Lemma is_space_spec c : is_space c = true <-> white c.
Proof.
  unfold is_space, white, code. cbn [In].
  destruct (N_of_ascii c =? 32) eqn:E; cbn [orb].
  - apply N.eqb_eq in E. rewrite E. split; auto 10.
  - split; intro H.
    + lia.
    + lia.
Qed.
Lemma is_space_no c : is_space c = false <-> ~ white c.
Proof. rewrite <- is_space_spec. destruct (is_space c); split; congruence. Qed.

(* ---- lines ---- *)
Lemma nl_newline : nl = newline. Proof. reflexivity. Qed.
Lemma getlines_app s : forall cur, ~ In newline cur -> 
  exists ls, getlines newline cur s = ls /\ lines (cur ++ s) ls.
Proof.
  induction s as [|c s IH]; intros cur Hc; cbn [getlines].
  - destruct cur as [|x cur].
    + exists []. split; auto. split; [constructor|left; reflexivity].
    + exists [x :: cur]. split; auto. split; [repeat constructor; exact Hc|].
      right. exists [], (x :: cur). rewrite app_nil_r. repeat split. discriminate.
  - destruct (Ascii.eqb c newline) eqn:E.
    + apply Ascii.eqb_eq in E. subst c.
      destruct (IH [] (fun H => H)) as [ls [E [F G]]]. exists (cur :: ls). split; [rewrite E; reflexivity|].
      split; [constructor; auto|].
      destruct G as [G|[ls' [l [G1 [G2 G3]]]]].
      * left. cbn [ended flat_map]. cbn [app] in G. rewrite G at 1. rewrite <- app_assoc. reflexivity.
      * right. exists (cur :: ls'), l. rewrite G1. cbn [app] in G3 |- *. split; [reflexivity|split; [exact G2|]].
        cbn [ended flat_map]. rewrite G3 at 1. unfold ended. rewrite <- !app_assoc. reflexivity.
    + destruct (IH (cur ++ [c])) as [ls [E' L]].
      { rewrite in_app_iff. cbn [In]. intros [H|[H|[]]]; [auto|]. subst c. rewrite Ascii.eqb_refl in E. discriminate. }
      exists ls. split; [exact E'|]. rewrite <- app_assoc in L. exact L.
Qed.
Lemma getlines_lines s : lines s (getlines newline [] s).
Proof. destruct (getlines_app s [] (fun H => H)) as [ls [E L]]. rewrite E. exact L. Qed.

Lemma getlines_line l : forall cur s, ~ In newline l -> getlines newline cur (l ++ newline :: s) = (cur ++ l) :: getlines newline [] s.
Proof.
  induction l as [|c l IH]; intros cur s H; cbn [getlines app].
  - rewrite Ascii.eqb_refl, app_nil_r. reflexivity.
  - assert (Ascii.eqb c newline = false) as E by (apply Ascii.eqb_neq; intro X; apply H; left; exact X).
    rewrite E, IH, <- app_assoc; [reflexivity|]. intro X. apply H. right. exact X.
Qed.
Lemma getlines_last l : forall cur, ~ In newline l -> cur ++ l <> [] -> getlines newline cur l = [cur ++ l].
Proof.
  induction l as [|c l IH]; intros cur H N; cbn [getlines].
  - rewrite app_nil_r in *. destruct cur; [congruence|reflexivity].
  - assert (Ascii.eqb c newline = false) as E by (apply Ascii.eqb_neq; intro X; apply H; left; exact X).
    rewrite E, IH, <- app_assoc; [reflexivity| |].
    + intro X. apply H. right. exact X.
    + destruct cur; discriminate.
Qed.
Lemma getlines_ended ls s : Forall (fun l => ~ In nl l) ls -> getlines newline [] (ended ls ++ s) = ls ++ getlines newline [] s.
Proof.
  induction 1 as [|l ls H _ IH]; [reflexivity|].
  cbn [ended flat_map]. rewrite <- !app_assoc. cbn [app]. rewrite nl_newline, getlines_line; [|exact H].
  cbn [app]. f_equal. exact IH.
Qed.
(* the lines of a text are unique *)
Lemma lines_unique s ls : lines s ls -> ls = getlines newline [] s.
Proof.
  intros [F [E|[ls' [l [E [N T]]]]]]; subst s.
  - rewrite <- (app_nil_r (ended ls)), getlines_ended by exact F. cbn [getlines]. rewrite app_nil_r. reflexivity.
  - subst ls. apply Forall_app in F. destruct F as [F1 F2].
    rewrite getlines_ended by exact F1. rewrite getlines_last; [reflexivity| |exact N].
    inversion F2; subst. assumption.
Qed.

(* ---- words ---- *)
Lemma skip_space_spec s : exists ws, s = ws ++ skip_space s /\ Forall white ws /\ (skip_space s = [] \/ exists c t, skip_space s = c :: t /\ ~ white c).
Proof.
  induction s as [|c s [ws [E [W R]]]]; cbn [skip_space].
  - exists []. repeat split; auto.
  - destruct (is_space c) eqn:S.
    + exists (c :: ws). split; [cbn [app]; congruence|]. split; [constructor; [apply is_space_spec; exact S|exact W]|exact R].
    + exists []. split; [reflexivity|]. split; [constructor|]. right. exists c, s. split; [reflexivity|apply is_space_no; exact S].
Qed.
Lemma take_word_spec s w r : take_word s = (w, r) -> s = w ++ r /\ Forall (fun c => ~ white c) w /\ (r = [] \/ exists c t, r = c :: t /\ white c).
Proof.
  revert w r. induction s as [|c s IH]; intros w r H; cbn [take_word] in H.
  - injection H as <- <-. repeat split; auto.
  - destruct (is_space c) eqn:S.
    + injection H as <- <-. split; [reflexivity|]. split; [constructor|]. right. exists c, s. split; [reflexivity|apply is_space_spec; exact S].
    + destruct (take_word s) as [w' r'] eqn:T. injection H as <- <-.
      destruct (IH _ _ eq_refl) as [E [F R]]. split; [cbn [app]; congruence|]. split; [constructor; [apply is_space_no; exact S|exact F]|exact R].
Qed.
Lemma skip_space_white ws s : Forall white ws -> skip_space (ws ++ s) = skip_space s.
Proof. induction 1 as [|c ws H _ IH]; [reflexivity|]. cbn [app skip_space]. apply is_space_spec in H. rewrite H. exact IH. Qed.
Lemma skip_space_stop c t : ~ white c -> skip_space (c :: t) = c :: t.
Proof. intro H. cbn [skip_space]. apply is_space_no in H. rewrite H. reflexivity. Qed.
Lemma take_word_word w r : Forall (fun c => ~ white c) w -> (r = [] \/ exists c t, r = c :: t /\ white c) -> take_word (w ++ r) = (w, r).
Proof.
  induction 1 as [|c w H _ IH]; intro R.
  - destruct R as [->|[c [t [-> W]]]]; [reflexivity|]. cbn [app take_word]. apply is_space_spec in W. rewrite W. reflexivity.
  - cbn [app take_word]. apply is_space_no in H. rewrite H, IH by exact R. reflexivity.
Qed.

(* ---- trimming ---- *)
Lemma count_space_ok s n : count_space s = Ok n -> exists ws t, s = ws ++ t /\ length ws = n /\ Forall white ws /\ (t = [] \/ exists c u, t = c :: u /\ ~ white c).
Proof.
  revert n. induction s as [|c s IH]; intros n H; cbn [count_space] in H.
  - apply Ok_inj in H. subst n. exists [], []. repeat split; auto.
  - obind H b E. unfold isspace in E. destruct (128 <=? N_of_ascii c); [discriminate|]. apply Ok_inj in E. subst b.
    destruct (is_space c) eqn:S.
    + obind H m E. apply Ok_inj in H. subst n. destruct (IH _ E) as [ws [t [E1 [E2 [F R]]]]].
      exists (c :: ws), t. split; [cbn [app]; congruence|]. split; [cbn [length]; congruence|]. split; [constructor; [apply is_space_spec; exact S|exact F]|exact R].
    + apply Ok_inj in H. subst n. exists [], (c :: s). repeat split; auto. right. exists c, s. split; [reflexivity|apply is_space_no; exact S].
Qed.
Lemma count_space_total s : ascii_text s -> exists n, count_space s = Ok n.
Proof.
  induction 1 as [|c s H _ [n IH]]; cbn [count_space]; [eexists; reflexivity|].
  unfold isspace. assert ((128 <=? N_of_ascii c) = false) as E by (apply N.leb_gt; exact H). rewrite E. cbn [obind].
  destruct (is_space c); [|eexists; reflexivity]. rewrite IH. cbn [obind]. eexists. reflexivity.
Qed.
Lemma Forall_white_rev s : Forall white s -> Forall white (rev s).
Proof. intro H. apply Forall_rev. exact H. Qed.

Lemma skipn_plus {A} (l : list A) : forall a b, skipn b (skipn a l) = skipn (a + b) l.
Proof. induction l as [|x l IH]; intros [|a] b; cbn [skipn plus Nat.add]; auto; destruct b; auto. Qed.

Lemma trim_ok s v : trim s = Ok v -> exists l r, s = l ++ v ++ r /\ Forall white l /\ Forall white r /\ trimmed v.
Proof.
  unfold trim. intro H. obind H lhs E1. obind H n E2. apply Ok_inj in H.
  destruct (count_space_ok _ _ E1) as [ws [t [S1 [L1 [F1 R1]]]]].
  destruct (count_space_ok _ _ E2) as [wr [u [S2 [L2 [F2 R2]]]]].
  assert (s = rev u ++ rev wr) as S3 by (rewrite <- rev_app_distr, <- S2, rev_involutive; reflexivity).
  destruct R1 as [->|[c [t' [-> W]]]].
  - (* all whitespace *)
    rewrite app_nil_r in S1. subst ws.
    assert (v = []) as ->.
    { rewrite <- H, <- L1, skipn_all, firstn_nil. destruct (Nat.leb (length s) (length s - n)); reflexivity. }
    exists s, []. rewrite app_nil_r. repeat split; auto. intros c' t' [X|X]; [discriminate|destruct t'; discriminate].
  - destruct R2 as [->|[d [u' [-> W2]]]].
    { exfalso. cbn [rev app] in S3. apply Forall_white_rev in F2. rewrite <- S3, S1, Forall_app in F2. destruct F2 as [_ F2]. inversion F2; subst. auto. }
    cbn [rev] in S3. rewrite <- app_assoc in S3. cbn [app] in S3.
    (* ws is shorter than rev u' ++ [d] *)
    assert (length ws <= length u')%nat as LE.
    { destruct (Nat.le_gt_cases (length ws) (length u')) as [X|X]; [exact X|exfalso].
      assert (nth_error s (length u') = Some d) as N by (rewrite S3, nth_error_app2, rev_length, Nat.sub_diag by (rewrite rev_length; lia); reflexivity).
      rewrite S1, nth_error_app1 in N by exact X. apply nth_error_In in N. rewrite Forall_forall in F1. auto. }
    assert (length s = length u' + 1 + n)%nat as LS by (rewrite S3, app_length, rev_length; cbn [length]; rewrite rev_length, L2; lia).
    assert ((lhs <=? length s - n)%nat = true) as C by (apply Nat.leb_le; lia).
    rewrite C in H. subst v.
    assert (s = ws ++ firstn (length s - n - lhs) (skipn lhs s) ++ rev wr) as S4.
    { rewrite <- (firstn_skipn lhs s) at 1. rewrite <- L1 at 1.
      rewrite S1 at 1. rewrite firstn_app, Nat.sub_diag, firstn_O, app_nil_r, firstn_all. f_equal.
      rewrite <- (firstn_skipn (length s - n - lhs) (skipn lhs s)) at 1. f_equal.
      rewrite skipn_plus. replace (lhs + (length s - n - lhs))%nat with (length s - n)%nat by lia.
      rewrite S3 at 2. rewrite LS. replace (length u' + 1 + n - n)%nat with (length (rev u' ++ [d])) by (rewrite app_length, rev_length; cbn [length]; lia).
      change (d :: rev wr) with ([d] ++ rev wr). rewrite app_assoc, skipn_app, Nat.sub_diag, skipn_O, skipn_all. reflexivity. }
    set (v := firstn (length s - n - lhs) (skipn lhs s)) in *.
    exists ws, (rev wr). split; [exact S4|]. split; [exact F1|]. split; [apply Forall_white_rev; exact F2|].
    assert (v ++ rev wr = c :: t') as V1 by (rewrite S1 in S4 at 1; apply app_inv_head in S4; congruence).
    assert (ws ++ v = rev u' ++ [d]) as V2.
    { apply (app_inv_tail (rev wr)). rewrite <- !app_assoc. cbn [app]. congruence. }
    intros x y [X|X].
    + rewrite X in V1. cbn [app] in V1. congruence.
    + rewrite X, app_assoc in V2. apply app_inj_tail in V2. destruct V2 as [_ ->]. exact W2.
Qed.
Lemma trim_total s : ascii_text s -> exists v, trim s = Ok v.
Proof.
  intro A. unfold trim. destruct (count_space_total s A) as [n E]. rewrite E. cbn [obind].
  destruct (count_space_total (rev s) (Forall_rev A)) as [m E2]. rewrite E2. cbn [obind]. eexists. reflexivity.
Qed.
(* the trimmed part is unique *)
Lemma white_split l v r l' v' r' : l ++ v ++ r = l' ++ v' ++ r' -> Forall white l -> Forall white r -> Forall white l' -> Forall white r' -> trimmed v -> trimmed v' ->
  (length l <= length l')%nat -> v = v'.
Proof.
  intros E L R L' R' T T' Le.
  assert (exists m, l' = l ++ m) as [m ->].
  { exists (skipn (length l) l'). rewrite <- (firstn_skipn (length l) l') at 1. f_equal.
    assert (firstn (length l) (l ++ v ++ r) = firstn (length l) (l' ++ v' ++ r')) as X by congruence.
    rewrite firstn_app, Nat.sub_diag, firstn_O, app_nil_r, firstn_all in X.
    rewrite firstn_app in X. replace (length l - length l')%nat with 0%nat in X by lia. rewrite firstn_O, app_nil_r in X. congruence. }
  rewrite <- app_assoc in E. apply app_inv_head in E. apply Forall_app in L'. destruct L' as [_ M].
  destruct v as [|c v].
  - (* nothing but whitespace *)
    cbn [app] in E. rewrite E in R. apply Forall_app in R. destruct R as [_ R]. apply Forall_app in R. destruct R as [R _].
    destruct v' as [|c' v']; [reflexivity|]. inversion R; subst. exfalso. exact (T' c' v' (or_introl eq_refl) H1).
  - destruct m as [|x m].
    2:{ cbn [app] in E. injection E as -> _. inversion M; subst. exfalso. exact (T x v (or_introl eq_refl) H1). }
    cbn [app] in E.
    (* now compare the ends *)
    assert (forall a b ra rb, a ++ ra = b ++ rb -> Forall white ra -> Forall white rb -> trimmed a -> trimmed b -> (length a <= length b)%nat -> a = b) as K.
    { intros a b ra rb Q Wa Wb Ta Tb LL.
      assert (exists z, b = a ++ z) as [z ->].
      { exists (skipn (length a) b). rewrite <- (firstn_skipn (length a) b) at 1. f_equal.
        assert (firstn (length a) (a ++ ra) = firstn (length a) (b ++ rb)) as X by congruence.
        rewrite firstn_app, Nat.sub_diag, firstn_O, app_nil_r, firstn_all in X.
        rewrite firstn_app in X. replace (length a - length b)%nat with 0%nat in X by lia. rewrite firstn_O, app_nil_r in X. congruence. }
      rewrite <- app_assoc in Q. apply app_inv_head in Q. subst ra. apply Forall_app in Wa. destruct Wa as [Wz _].
      destruct z as [|q z _] using rev_ind; [rewrite app_nil_r; reflexivity|].
      apply Forall_app in Wz. destruct Wz as [_ Wq]. inversion Wq; subst. exfalso.
      apply (Tb q (a ++ z)); [|assumption]. right. rewrite app_assoc. reflexivity. }
    change (c :: v ++ r) with ((c :: v) ++ r) in E.
    destruct (Nat.le_gt_cases (length (c :: v)) (length v')) as [X|X].
    + exact (K _ _ _ _ E R R' T T' X).
    + symmetry. symmetry in E. exact (K _ _ _ _ E R' R T' T (Nat.lt_le_incl _ _ X)).
Qed.
Lemma trim_unique l v r l' v' r' : l ++ v ++ r = l' ++ v' ++ r' -> Forall white l -> Forall white r -> Forall white l' -> Forall white r' -> trimmed v -> trimmed v' -> v = v'.
Proof.
  intros E L R L' R' T T'. destruct (Nat.le_gt_cases (length l) (length l')) as [X|X].
  - exact (white_split _ _ _ _ _ _ E L R L' R' T T' X).
  - symmetry in E. symmetry. exact (white_split _ _ _ _ _ _ E L' R' L R T' T (Nat.lt_le_incl _ _ X)).
Qed.

(* ---- one line ---- *)
Lemma line_form line k v : line_says line k v -> exists rest, read_word line = Some (k, rest) /\ exists l r, rest = l ++ v ++ r /\ Forall white l /\ Forall white r.
Proof.
  intros [bf [bt [af [E [W1 [W2 [W3 [N [K [_ [T O]]]]]]]]]]].
  unfold read_word. rewrite E, skip_space_white by exact W1.
  destruct k as [|c k]; [congruence|]. inversion K as [|? ? C _]; subst.
  cbn [app]. rewrite skip_space_stop by exact C.
  change (c :: k ++ bt ++ v ++ af) with ((c :: k) ++ (bt ++ v ++ af)).
  exists (bt ++ v ++ af). split.
  - f_equal. apply take_word_word; [exact K|].
    destruct bt as [|b bt].
    + destruct O as [->|]; [|congruence]. cbn [app]. destruct af as [|a af]; [left; reflexivity|right].
      inversion W3; subst. exists a, af. split; [reflexivity|assumption].
    + right. inversion W2; subst. exists b, (bt ++ v ++ af). split; [reflexivity|assumption].
  - exists bt, af. repeat split; assumption.
Qed.
Lemma parse_line_says line k v : parse_line line = Ok (Some (k, v)) -> line_says line k v.
Proof.
  unfold parse_line, read_word. intro H.
  destruct (skip_space_spec line) as [ws [E [W R]]].
  destruct (skip_space line) as [|c t] eqn:S; [discriminate|].
  destruct (take_word (c :: t)) as [key rest] eqn:T.
  destruct (take_word_spec _ _ _ T) as [E2 [F R2]].
  destruct key as [|d key]; [discriminate|].
  destruct (Ascii.eqb d "#") eqn:D; [discriminate|].
  obind H x X. apply Ok_inj in H. injection H as <- ->.
  destruct (trim_ok _ _ X) as [l [r [E3 [L1 [L2 TR]]]]].
  destruct l as [|b l].
  - cbn [app] in E3. destruct v as [|a v].
    + exists ws, [], r. rewrite E, E2, E3. cbn [app]. repeat split; auto; try discriminate.
      intros u Y. injection Y as Y _. subst d. cbn in D. discriminate.
    + exfalso. destruct R2 as [->|[z [u [-> Z]]]]; [discriminate|]. cbn [app] in E3. injection E3 as -> _. exact (TR a v (or_introl eq_refl) Z).
  - exists ws, (b :: l), r. rewrite E, E2, E3. repeat split; auto; try discriminate.
    + intros u Y. injection Y as Y _. subst d. cbn in D. discriminate.
    + right. discriminate.
Qed.
Lemma parse_line_none line : parse_line line = Ok None -> forall k v, ~ line_says line k v.
Proof.
  unfold parse_line. intros H k v L. destruct (line_form _ _ _ L) as [rest [E _]]. rewrite E in H.
  destruct L as [_ [_ [_ [_ [_ [_ [_ [N [_ [C _]]]]]]]]]].
  destruct k as [|c k]; [congruence|]. destruct (Ascii.eqb c "#") eqn:D.
  - apply Ascii.eqb_eq in D. subst c. exact (C k eq_refl).
  - obind H x X. discriminate.
Qed.
Lemma line_unique line k v k' v' : line_says line k v -> line_says line k' v' -> k = k' /\ v = v'.
Proof.
  intros A B. destruct (line_form _ _ _ A) as [r1 [E1 [a [b [F1 [W1 W2]]]]]]. destruct (line_form _ _ _ B) as [r2 [E2 [a' [b' [F2 [W3 W4]]]]]].
  rewrite E1 in E2. injection E2 as -> ->. split; [reflexivity|].
  destruct A as [_ [_ [_ [_ [_ [_ [_ [_ [_ [_ [T1 _]]]]]]]]]]]. destruct B as [_ [_ [_ [_ [_ [_ [_ [_ [_ [_ [T2 _]]]]]]]]]]].
  rewrite F1 in F2. exact (trim_unique _ _ _ _ _ _ F2 W1 W2 W3 W4 T1 T2).
Qed.
Lemma parse_line_total line : ascii_text line -> exists r, parse_line line = Ok r.
Proof.
  intro A. unfold parse_line, read_word. destruct (skip_space_spec line) as [ws [E [W R]]].
  destruct (skip_space line) as [|c t] eqn:S; [eexists; reflexivity|].
  destruct (take_word (c :: t)) as [key rest] eqn:T. destruct (take_word_spec _ _ _ T) as [E2 [F R2]].
  destruct key as [|d key].
  { exfalso. destruct R as [|[x [u [X Y]]]]; [discriminate|]. injection X as <- <-. cbn [app] in E2. 
    destruct R2 as [->|[z [y [-> Z]]]]; [discriminate|]. injection E2 as -> _. auto. }
  destruct (Ascii.eqb d "#"); [eexists; reflexivity|].
  assert (ascii_text rest) as AR.
  { unfold ascii_text in *. rewrite E, Forall_app in A. destruct A as [_ A]. rewrite E2, Forall_app in A. apply A. }
  destruct (trim_total _ AR) as [v V]. rewrite V. cbn [obind]. eexists. reflexivity.
Qed.

(* ---- many lines ---- *)
Definition last_line (ls : list bytes) (k v : bytes) : Prop :=
  exists l1 line l2, ls = l1 ++ line :: l2 /\ line_says line k v /\ forall l v', In l l2 -> ~ line_says l k v'.
Lemma parse_lines_spec ls : forall c c', parse_lines c ls = Ok c' ->
  forall k, (exists v, last_line ls k v /\ c' k = Some v) \/ ((forall l v, In l ls -> ~ line_says l k v) /\ c' k = c k).
Proof.
  induction ls as [|line ls IH]; intros c c' H k; cbn [parse_lines] in H.
  - apply Ok_inj in H. subst c'. right. split; [intros l v []|reflexivity].
  - obind H kv E. destruct (IH _ _ H k) as [[v [[l1 [l [l2 [X [Y Z]]]]] V]]|[N V]].
    + left. exists v. split; [|exact V]. exists (line :: l1), l, l2. rewrite X. repeat split; auto.
    + destruct kv as [[k' v']|].
      * unfold cfg_set in V. pose proof (parse_line_says _ _ _ E) as L. destruct (beqb k k') eqn:B.
        -- apply beqb_true in B. subst k'. left. exists v'. split; [|exact V]. exists [], line, ls. repeat split; auto.
        -- right. split; [|exact V]. intros l v [->|I] S; [|exact (N _ _ I S)].
           destruct (line_unique _ _ _ _ _ L S) as [-> _]. assert (beqb k k = true) by (apply beqb_true; reflexivity). congruence.
      * right. split; [|exact V]. intros l v [->|I] S; [exact (parse_line_none _ E _ _ S)|exact (N _ _ I S)].
Qed.
Lemma parse_lines_total ls : forall c, Forall ascii_text ls -> exists c', parse_lines c ls = Ok c'.
Proof.
  induction ls as [|l ls IH]; intros c H; cbn [parse_lines]; [eexists; reflexivity|].
  inversion H; subst. destruct (parse_line_total l H2) as [r E]. rewrite E. cbn [obind]. apply IH. exact H3.
Qed.
Lemma text_says_iff s k v : text_says s k v <-> last_line (getlines newline [] s) k v.
Proof.
  split.
  - intros [l1 [l [l2 [L R]]]]. exists l1, l, l2. split; [symmetry; exact (lines_unique _ _ L)|exact R].
  - intros [l1 [l [l2 [E R]]]]. exists l1, l, l2. split; [rewrite <- E; apply getlines_lines|exact R].
Qed.
Lemma stream_spec c c' s : parse_kv_stream c s = Ok c' -> forall k, (exists v, text_says s k v /\ c' k = Some v) \/ ((forall v, ~ text_says s k v) /\ c' k = c k).
Proof.
  unfold parse_kv_stream. intros H k. destruct (parse_lines_spec _ _ _ H k) as [[v [L V]]|[N V]].
  - left. exists v. split; [apply text_says_iff; exact L|exact V].
  - right. split; [|exact V]. intros v T. apply text_says_iff in T. destruct T as [l1 [l [l2 [E [S _]]]]].
    apply (N l v); [rewrite E; apply in_or_app; right; left; reflexivity|exact S].
Qed.
Lemma getlines_ascii d s : forall cur, ascii_text cur -> ascii_text s -> Forall ascii_text (getlines d cur s).
Proof.
  induction s as [|c s IH]; intros cur A B; cbn [getlines].
  - destruct cur; constructor; auto.
  - inversion B; subst. destruct (Ascii.eqb c d).
    + constructor; [exact A|]. apply IH; [constructor|assumption].
    + apply IH; [|assumption]. apply Forall_app. split; [exact A|]. constructor; [assumption|constructor].
Qed.
Lemma stream_total c s : ascii_text s -> exists c', parse_kv_stream c s = Ok c'.
Proof. intro A. apply parse_lines_total. apply getlines_ascii; [constructor|exact A]. Qed.

(* a source has one thing to say about a key *)
Lemma text_unique s k v v' : text_says s k v -> text_says s k v' -> v = v'.
Proof.
  intros A B. apply text_says_iff in A. apply text_says_iff in B.
  destruct A as [a [x [b [E1 [L1 N1]]]]]. destruct B as [a' [x' [b' [E2 [L2 N2]]]]]. rewrite E1 in E2.
  assert (b = b' /\ x = x') as [_ <-]; [|destruct (line_unique _ _ _ _ _ L1 L2) as [_ ?]; assumption].
  clear E1. revert a' E2. induction a as [|y a IH]; intros [|y' a'] E2; cbn [app] in E2.
  - injection E2 as -> ->. auto.
  - injection E2 as -> ->. exfalso. apply (N1 x' v'); [apply in_or_app; right; left; reflexivity|exact L2].
  - injection E2 as -> <-. exfalso. apply (N2 x v); [apply in_or_app; right; left; reflexivity|exact L1].
  - injection E2 as _ E2. exact (IH _ E2).
Qed.

(* ---- sources ---- *)
Lemma source_spec w c r c' : read_source w c r = Ok c' -> forall k, (exists v, source_says w r k v /\ c' k = Some v) \/ ((forall v, ~ source_says w r k v) /\ c' k = c k).
Proof.
  intros H k. destruct r as [f|e|e k']; cbn [read_source source_says] in *.
  - unfold read_file in H. destruct (w_files w f) as [s|] eqn:F.
    + destruct (stream_spec _ _ _ H k) as [[v [T V]]|[N V]].
      * left. exists v. split; [exists s; auto|exact V].
      * right. split; [|exact V]. intros v [s' [X Y]]. injection X as <-. exact (N v Y).
    + apply Ok_inj in H. subst c'. right. split; [|reflexivity]. intros v [s' [X _]]. discriminate.
  - destruct (w_env w e) as [f|] eqn:G.
    2:{ apply Ok_inj in H. subst c'. right. split; [|reflexivity]. intros v [f [s' [X _]]]. discriminate. }
    unfold read_file in H. destruct (w_files w f) as [s|] eqn:F.
    + destruct (stream_spec _ _ _ H k) as [[v [T V]]|[N V]].
      * left. exists v. split; [exists f, s; auto|exact V].
      * right. split; [|exact V]. intros v [f' [s' [Z [X Y]]]]. injection Z as <-. rewrite F in X. injection X as <-. exact (N v Y).
    + apply Ok_inj in H. subst c'. right. split; [|reflexivity]. intros v [f' [s' [Z [X _]]]]. injection Z as <-. congruence.
  - destruct (w_env w e) as [v|] eqn:G; apply Ok_inj in H; subst c'.
    + unfold cfg_set. destruct (beqb k k') eqn:B.
      * apply beqb_true in B. subst k'. left. exists v. auto.
      * right. split; [|reflexivity]. intros v' [-> _]. assert (beqb k' k' = true) by (apply beqb_true; reflexivity). congruence.
    + right. split; [|reflexivity]. intros v [_ X]. discriminate.
Qed.
Lemma source_total w c r : ascii_world w -> exists c', read_source w c r = Ok c'.
Proof.
  intro A. assert (forall c f, exists c', read_file w c f = Ok c') as K.
  { intros c0 f. unfold read_file. destruct (w_files w f) as [s|] eqn:F; [|eexists; reflexivity]. apply stream_total. exact (A _ _ F). }
  destruct r as [f|e|e k]; cbn [read_source]; [apply K| |]; destruct (w_env w e); try (eexists; reflexivity). apply K.
Qed.
Lemma sources_spec w rs : forall c c', read_sources w c rs = Ok c' ->
  forall k, (exists v, sources_say w rs k v /\ c' k = Some v) \/ ((forall r v, In r rs -> ~ source_says w r k v) /\ c' k = c k).
Proof.
  induction rs as [|r rs IH]; intros c c' H k; cbn [read_sources] in H.
  - apply Ok_inj in H. subst c'. right. split; [intros r v []|reflexivity].
  - obind H c1 E. destruct (IH _ _ H k) as [[v [[l1 [l [l2 [X [Y Z]]]]] V]]|[N V]].
    + left. exists v. split; [|exact V]. exists (r :: l1), l, l2. rewrite X. repeat split; auto.
    + destruct (source_spec _ _ _ _ E k) as [[v [S V']]|[S V']].
      * left. exists v. split; [|congruence]. exists [], r, rs. repeat split; auto.
      * right. split; [|congruence]. intros r' v [<-|I]; [apply S|exact (N _ _ I)].
Qed.
Lemma source_unique w r k v v' : source_says w r k v -> source_says w r k v' -> v = v'.
Proof.
  destruct r as [f|e|e k']; cbn [source_says].
  - intros [s [A B]] [s' [A' B']]. rewrite A in A'. injection A' as <-. exact (text_unique _ _ _ _ B B').
  - intros [f [s [C [A B]]]] [f' [s' [C' [A' B']]]]. rewrite C in C'. injection C' as <-. rewrite A in A'. injection A' as <-. exact (text_unique _ _ _ _ B B').
  - intros [_ A] [_ B]. congruence.
Qed.
Lemma sources_unique w rs k v v' : sources_say w rs k v -> sources_say w rs k v' -> v = v'.
Proof.
  intros [a [x [b [E1 [L1 N1]]]]] [a' [x' [b' [E2 [L2 N2]]]]]. subst rs.
  assert (x = x') as <-; [|exact (source_unique _ _ _ _ _ L1 L2)].
  revert a' E2. induction a as [|y a IH]; intros [|y' a'] E2; cbn [app] in E2.
  - injection E2 as -> ->. auto.
  - injection E2 as -> ->. exfalso. apply (N1 x' v'); [apply in_or_app; right; left; reflexivity|exact L2].
  - injection E2 as -> <-. exfalso. apply (N2 x v); [apply in_or_app; right; left; reflexivity|exact L1].
  - injection E2 as _ E2. exact (IH _ E2).
Qed.
Lemma sequence_last w rs c : process_sequence w rs = Ok c -> forall k v, c k = Some v <-> sources_say w rs k v.
Proof.
  unfold process_sequence. intros H k v. destruct (sources_spec _ _ _ _ H k) as [[v' [S V]]|[N V]]; rewrite V.
  - split; [intro X; injection X as <-; exact S|]. intro S'. f_equal. exact (sources_unique _ _ _ _ _ S S').
  - split; [discriminate|]. intros [l1 [r [l2 [-> [S _]]]]]. exfalso. apply (N r v); [apply in_or_app; right; left; reflexivity|exact S].
Qed.
Lemma sequence_absent w rs c : process_sequence w rs = Ok c -> forall k, c k = None <-> forall r v, In r rs -> ~ source_says w r k v.
Proof.
  unfold process_sequence. intros H k. destruct (sources_spec _ _ _ _ H k) as [[v' [S V]]|[N V]]; rewrite V.
  - split; [discriminate|]. intro X. exfalso. destruct S as [l1 [r [l2 [-> [S _]]]]]. apply (X r v'); [apply in_or_app; right; left; reflexivity|exact S].
  - split; auto.
Qed.
Lemma sequence_total w rs : ascii_world w -> exists c, process_sequence w rs = Ok c.
Proof.
  intro A. unfold process_sequence. generalize cfg_empty. induction rs as [|r rs IH]; intro c; cbn [read_sources]; [eexists; reflexivity|].
  destruct (source_total w c r A) as [c' E]. rewrite E. cbn [obind]. apply IH.
Qed.
