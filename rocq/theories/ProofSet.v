From Verif Require Import ModelBytes ModelElen ModelConf ModelOptions ModelSet SpecSet ProofBytes ProofStore.
Local Open Scope N_scope.

Lemma assoc_known : forall (l : list (bytes * unit)) n, (exists u, assoc l n = Some u) <-> In n (map fst l).
Proof.
  intros l n. induction l as [|[k u] l IH]; cbn [assoc map fst In].
  - split; [ intros (u & E); discriminate E | tauto ].
  - destruct (beqb n k) eqn:E.
    + apply beqb_true in E. subst. split; [ now left | intros _; now exists u ].
    + rewrite IH. split; [ now right |]. intros [-> | H]; [| exact H ]. assert (beqb n n = true) by now apply beqb_true. congruence.
Qed.
Lemma assoc_unknown : forall (l : list (bytes * unit)) n, assoc l n = None -> ~ In n (map fst l).
Proof. intros l n E K. apply assoc_known in K as (u & K). congruence. Qed.
Lemma is_hash : forall n, In n (map fst HASHES) <-> In n hashes.
Proof. intros n. cbn [HASHES hashes map fst In]. tauto. Qed.
Lemma is_generator : forall n, In n (map fst GENERATORS) <-> In n generators.
Proof. intros n. cbn [GENERATORS generators map fst In]. tauto. Qed.
Lemma beqb_swap : forall a b, beqb a b = beqb b a.
Proof.
  intros a b. destruct (beqb a b) eqn:E, (beqb b a) eqn:F; try reflexivity; [ apply beqb_true in E | apply beqb_true in F ]; subst; rewrite beqb_refl in *; congruence.
Qed.
Lemma extra_number : forall n, extra n = number_of n.
Proof.
  intros n. unfold extra, number_of, numbers. cbn [find fst]. rewrite !(beqb_swap n).
  destruct (beqb (bstr "10_BUCKETS") n) eqn:A; [ apply beqb_true in A; subst n; vm_compute; reflexivity |].
  destruct (beqb (bstr "UNIFORM_LOG2") n) eqn:B; [ apply beqb_true in B; subst n; vm_compute; reflexivity |].
  destruct (beqb (bstr "UNIFORM_LOG10") n) eqn:C; [ apply beqb_true in C; subst n; vm_compute; reflexivity | reflexivity ].
Qed.

(* ---- objects ---- *)
Definition tidy (y : state) : Prop := kept y /\ Forall (fun i => i < y_next y) (y_live y).
Lemma filter_out : forall i l, NoDup l -> In i l -> Permutation l (i :: filter (fun j => negb (N.eqb j i)) l).
Proof.
  intros i l. induction l as [|x l IH]; intros ND H; [ destruct H |]. inversion ND as [|? ? Hx ND']; subst. cbn [filter].
  destruct (N.eqb_spec x i) as [-> | Ne]; cbn [negb].
  - apply perm_skip. clear - Hx. induction l as [|y l IH]; cbn [filter]; [ reflexivity |].
    destruct (N.eqb_spec y i) as [-> | Ny]; cbn [negb]; [ exfalso; apply Hx; now left |]. apply perm_skip, IH. intros C. apply Hx. now right.
  - destruct H as [-> | H]; [ congruence |]. etransitivity; [ apply perm_skip, (IH ND' H) |]. apply perm_swap.
Qed.
Lemma filter_none : forall i l, ~ In i l -> filter (fun j => negb (N.eqb j i)) l = l.
Proof.
  intros i l. induction l as [|x l IH]; intros H; cbn [filter]; [ reflexivity |].
  destruct (N.eqb_spec x i) as [-> | Ne]; [ exfalso; apply H; now left |]. cbn [negb]. now rewrite IH by (intros C; apply H; now right).
Qed.
Lemma free_ok : forall p L live, NoDup live -> Permutation (match p with Some i => [i] | None => [] end ++ L) live ->
  exists live', free p live = Ok live' /\ NoDup live' /\ Permutation L live' /\ incl live' live.
Proof.
  intros [i|] L live ND P; cbn [free app] in *; [| exists live; split; [ reflexivity |]; split; [ exact ND |]; split; [ exact P | apply incl_refl ] ].
  assert (H : In i live) by (eapply Permutation_in; [ exact P | now left ]).
  assert (E : existsb (N.eqb i) live = true) by (apply existsb_exists; exists i; split; [ exact H | apply N.eqb_refl ]).
  rewrite E. eexists. split; [ reflexivity |]. pose proof (filter_out i live ND H) as F. split; [| split ].
  - now apply NoDup_filter.
  - apply (Permutation_cons_inv (a := i)). now rewrite P.
  - intros x Hx. now apply filter_In in Hx.
Qed.
Lemma less_trans : forall l n, Forall (fun i => i < n) l -> Forall (fun i => i < n + 1) l.
Proof. intros l n. apply Forall_impl. intros; lia. Qed.
Lemma fresh_nodup : forall n l, NoDup l -> Forall (fun i => i < n) l -> NoDup (n :: l).
Proof. intros n l ND F. constructor; [| exact ND ]. intros C. rewrite Forall_forall in F. apply F in C. lia. Qed.

Lemma refuse_tidy : forall y, tidy y -> exists l', free (Some (y_next y)) (y_next y :: y_live y) = Ok l' /\ tidy (mkState (y_h y) (y_next y + 1) l').
Proof.
  intros [h n l] ((ND & P) & F). cbn [y_h y_next y_live] in *. pose proof (fresh_nodup n l ND F) as ND'.
  destruct (free_ok (Some n) (holds h) (n :: l) ND') as (l' & E & ND2 & P2 & I2); [ cbn [app]; now apply perm_skip |].
  exists l'. split; [ exact E |]. split; [ now split |]. cbn [y_next y_live]. apply (incl_Forall I2). constructor; [ lia | now apply less_trans ].
Qed.
Lemma ds_tidy : forall y r s c, tidy y -> y_h y = Has r s ->
  exists l', free (option_map fst (z_ds s)) (y_next y :: y_live y) = Ok l' /\ tidy (mkState (Has r (up_ds s (Some (y_next y, c)))) (y_next y + 1) l').
Proof.
  intros [h n l] r s c ((ND & P) & F) E. cbn [y_h y_next y_live] in *. subst h. pose proof (fresh_nodup n l ND F) as ND'. cbn [holds] in P.
  set (T := match z_tr s with Some (i, _) => [i] | None => [] end) in *.
  destruct (free_ok (option_map fst (z_ds s)) (n :: T) (n :: l) ND') as (l' & El & ND2 & P2 & I2).
  { rewrite <- Permutation_middle. apply perm_skip. rewrite <- P. destruct (z_ds s) as [[i d]|]; reflexivity. }
  exists l'. split; [ exact El |]. split; [ split; [ exact ND2 |]; cbn [y_h holds up_ds z_ds z_tr app y_live]; exact P2 |].
  cbn [y_next y_live]. apply (incl_Forall I2). constructor; [ lia | now apply less_trans ].
Qed.
Lemma tr_tidy : forall y r s c, tidy y -> y_h y = Has r s ->
  exists l', free (option_map fst (z_tr s)) (y_next y :: y_live y) = Ok l' /\ tidy (mkState (Has r (up_tr s (Some (y_next y, c)))) (y_next y + 1) l').
Proof.
  intros [h n l] r s c ((ND & P) & F) E. cbn [y_h y_next y_live] in *. subst h. pose proof (fresh_nodup n l ND F) as ND'. cbn [holds] in P.
  set (D := match z_ds s with Some (i, _) => [i] | None => [] end) in *.
  destruct (free_ok (option_map fst (z_tr s)) (D ++ [n]) (n :: l) ND') as (l' & El & ND2 & P2 & I2).
  { rewrite app_assoc. rewrite <- Permutation_cons_append. apply perm_skip. rewrite <- P. rewrite Permutation_app_comm. apply Permutation_app_head. destruct (z_tr s) as [[i d]|]; reflexivity. }
  exists l'. split; [ exact El |]. split; [ split; [ exact ND2 |]; cbn [y_h holds up_tr z_ds z_tr app y_live]; exact P2 |].
  cbn [y_next y_live]. apply (incl_Forall I2). constructor; [ lia | now apply less_trans ].
Qed.

(* ---- one call ---- *)
Lemma insert_in : forall l i j, In j (insert_id l i) <-> j = i \/ In j l.
Proof.
  intros l i j. unfold insert_id. destruct (existsb (Z.eqb i) l) eqn:E; [| cbn [In]; split; intros [H | H]; auto ].
  apply existsb_exists in E as (k & Hk & Ek). apply Z.eqb_eq in Ek. subst k. split; [ now right |]. now intros [-> | H].
Qed.
Lemma add_name_in : forall l n m, In m (add_name l n) <-> m = n \/ In m l.
Proof.
  intros l n m. unfold add_name. destruct (existsb (beqb n) l) eqn:E; [| rewrite in_app_iff; cbn [In]; split; [ intros [H | [H | []]]; auto | intros [H | H]; auto ] ].
  apply existsb_exists in E as (k & Hk & Ek). apply beqb_true in Ek. subst k. split; [ now right |]. now intros [-> | H].
Qed.

Definition tidy_same_holds : forall h h' n l, holds h' = holds h -> tidy (mkState h n l) -> tidy (mkState h' n l).
Proof. intros h h' n l E ((A & B) & C). split; [| exact C ]. split; [ exact A |]. cbn [y_h y_live] in *. now rewrite E. Qed.

Lemma added_cons : forall c l i, added (c :: l) i <-> added l i \/ (c = SAdd i /\ ~ In SClear l).
Proof.
  intros c l i. split.
  - intros ([|x l1] & l2 & E & N); cbn [app] in E; injection E as -> ->; [ now right |]. left. now exists l1, l2.
  - intros [(l1 & l2 & -> & N) | (-> & N)]; [ now exists (c :: l1), l2 | now exists [], l ].
Qed.
Lemma added_nil : forall i, ~ added [] i. Proof. intros i ([|x l1] & l2 & E & _); discriminate E. Qed.
Lemma after_nil : forall s, after s s [] /\ sets_after s s [].
Proof.
  intros s. split; [ unfold after; cbn [latest]; repeat split |]. split.
  - intros i. split; [ intros H; right; split; [ exact H | intros [] ] | intros [H | (H & _)]; [ now apply added_nil in H | exact H ] ].
  - intros n. split; [ now right | now intros [[] | H] ].
Qed.
Definition step (s s' : settings) (c : setter) : Prop :=
  after s s' [c] /\
  (forall i, In i (z_group s') <-> c = SAdd i \/ (In i (z_group s) /\ c <> SClear)) /\
  (forall n, In n (z_names s') <-> c = STrack n \/ In n (z_names s)).
Lemma step_then : forall s s1 s' c l, step s s1 c -> after s1 s' l -> sets_after s1 s' l -> after s s' (c :: l) /\ sets_after s s' (c :: l).
Proof.
  intros s s1 s' c l (A & G & N) A' (G' & N'). split.
  - unfold after in *. cbn [latest] in *. repeat (match goal with H : _ /\ _ |- _ => destruct H end). repeat split; congruence.
  - split.
    + intros i. rewrite G', added_cons, G. cbn [In]. split.
      * intros [H | ([-> | (H & Nc)] & Nl)]; [ auto | auto | right; split; [ exact H |]; intros [C | C]; [ now apply Nc | now apply Nl ] ].
      * intros [[H | (-> & Nl)] | (H & Nl)]; [ auto | auto |]. right. split; [ right; split; [ exact H |]; intros ->; apply Nl; now left | intros C; apply Nl; now right ].
    + intros n. rewrite N', N. cbn [In]. split; [ intros [H | [H | H]]; auto | intros [[H | H] | H]; auto ].
Qed.

Ltac done_step := split; [ unfold after; cbn [latest]; repeat split | split; [ intros i; split; [ intros Hz_; right; split; [ exact Hz_ | discriminate ] | intros [Hz_ | (Hz_ & _)]; [ discriminate Hz_ | exact Hz_ ] ]
  | intros n'; split; [ intros Hz_; right; exact Hz_ | intros [Hz_ | Hz_]; [ discriminate Hz_ | exact Hz_ ] ] ] ].
Lemma one : forall y s c, tidy y -> y_h y = Has false s -> no_null c -> async_agrees s ->
  exists r y' s', set_one y c = Ok (r, y') /\ y_h y' = Has false s' /\ tidy y' /\ async_agrees s' /\
    (r = true <-> proper c) /\ (r = true -> step s s' c) /\ (r = false -> c <> SComm 0%Z -> s' = s).
Proof.
  intros y s c T E NN AA. assert (T0 := T). destruct y as [h n l]. cbn [y_h] in E. subst h.
  assert (Keep : forall s' r, holds (Has false s') = holds (Has false s) -> async_agrees s' -> (r = true <-> proper c) -> (r = true -> step s s' c) ->
    (r = false -> c <> SComm 0%Z -> s' = s) ->
    exists r0 y' s0, Ok (r, mkState (Has false s') n l) = Ok (r0, y') /\ y_h y' = Has false s0 /\ tidy y' /\ async_agrees s0 /\
    (r0 = true <-> proper c) /\ (r0 = true -> step s s0 c) /\ (r0 = false -> c <> SComm 0%Z -> s0 = s)).
  { intros s' r Hh A P S R. exists r, (mkState (Has false s') n l), s'. split; [ reflexivity |]. split; [ reflexivity |].
    split; [ eapply tidy_same_holds; [ exact Hh | exact T ] |]. auto. }
  assert (Yes : forall P : Prop, P -> (true = true <-> P)) by (intros; split; auto).
  assert (No : forall P : Prop, ~ P -> (false = true <-> P)) by (intros P Q; split; [ discriminate | intros H; contradiction ]).
  destruct c; cbn [set_one change y_h obind no_null proper] in *; unfold ModelSet.always; cbn [obind y_next y_live].
  - (* SComm *) destruct (Z.eqb_spec c 0) as [-> | Nz]; cbn [negb obind]; apply Keep; try reflexivity; try exact AA.
    + apply No. congruence.
    + discriminate.
    + intros _ C. now destruct C.
    + now apply Yes.
    + intros _. done_step.
    + discriminate.
  - apply Keep; try reflexivity; try exact AA; [ now apply Yes | intros _; done_step | discriminate ].
  - destruct (N.ltb_spec n0 1); cbn [obind]; apply Keep; try reflexivity; try exact AA; try discriminate; try (apply No; lia); try (apply Yes; lia). intros _. done_step.
  - destruct (N.ltb_spec n0 1); cbn [obind]; apply Keep; try reflexivity; try exact AA; try discriminate; try (apply No; lia); try (apply Yes; lia). intros _. done_step.
  - destruct (N.eqb_spec n0 0); cbn [obind]; apply Keep; try reflexivity; try exact AA; try discriminate; try (apply No; lia); try (apply Yes; lia). intros _. done_step.
  - apply Keep; try reflexivity; try exact AA; [ now apply Yes | intros _; done_step | discriminate ].
  - apply Keep; try reflexivity; try exact AA; [ now apply Yes | intros _; done_step | discriminate ].
  - destruct NN as (A & B & C). destruct prefix as [p|]; [| congruence ]. destruct base as [b|]; [| congruence ]. destruct post as [q|]; [| congruence ].
    cbn [str obind]. apply Keep; try reflexivity; try exact AA; [ now apply Yes | intros _; done_step | discriminate ].
  - unfold set_datastore. cbn [y_h y_next y_live]. destruct (ds_tidy _ false s c T0 eq_refl) as (l' & El & Tl). cbn [y_next y_live] in *. rewrite El. cbn [obind].
    eexists. eexists. exists (up_ds s (Some (n, c))). split; [ reflexivity |]. split; [ reflexivity |]. split; [ exact Tl |]. split; [ exact AA |].
    split; [ now apply Yes |]. split; [ intros _; done_step | discriminate ].
  - destruct name as [m|]; [| congruence ]. cbn [str obind]. destruct (assoc HASHES m) as [u|] eqn:Ea; cbn [obind]; apply Keep; try reflexivity; try exact AA; try discriminate.
    + apply Yes. apply (proj1 (is_hash m)). apply assoc_known. now exists u.
    + intros _. done_step.
    + apply No. rewrite <- is_hash. now apply assoc_unknown.
  - destruct f as [f|]; cbn [obind].
    + destruct name as [m|]; [| congruence ]. cbn [str obind]. apply Keep; try reflexivity; try exact AA; [ apply Yes; discriminate | intros _; done_step | discriminate ].
    + apply Keep; try reflexivity; try exact AA; try discriminate. apply No. congruence.
  - unfold set_transport. cbn [y_h y_next y_live]. destruct (tr_tidy _ false s (TrNull, 0%Z) T0 eq_refl) as (l' & El & Tl). cbn [y_next y_live] in *. rewrite El. cbn [obind].
    eexists. eexists. eexists. split; [ reflexivity |]. split; [ reflexivity |]. split; [ exact Tl |]. split; [ exact AA |].
    split; [ now apply Yes |]. split; [ intros _; done_step | discriminate ].
  - unfold set_transport. cbn [y_h y_next y_live]. destruct (tr_tidy _ false s (TrMpi listeners, z_comm s) T0 eq_refl) as (l' & El & Tl). cbn [y_next y_live] in *. rewrite El. cbn [obind].
    eexists. eexists. eexists. split; [ reflexivity |]. split; [ reflexivity |]. split; [ exact Tl |]. split; [ exact AA |].
    split; [ now apply Yes |]. split; [ intros _; done_step | discriminate ].
  - destruct module as [m|]; [| congruence ]. cbn [str obind].
    unfold set_transport. cbn [y_h y_next y_live]. destruct (tr_tidy _ false s (TrThallium m threads, 0%Z) T0 eq_refl) as (l' & El & Tl). cbn [y_next y_live] in *. rewrite El. cbn [obind].
    eexists. eexists. eexists. split; [ reflexivity |]. split; [ reflexivity |]. split; [ exact Tl |]. split; [ exact AA |].
    split; [ now apply Yes |]. split; [ intros _; done_step | discriminate ].
  - destruct (Z.ltb_spec id 0); cbn [obind]; apply Keep; try reflexivity; try exact AA; try discriminate; try (apply No; lia); try (apply Yes; lia).
    intros _. split; [ unfold after; cbn [latest]; repeat split |]. split.
    + intros i. cbn [up_group z_group]. rewrite insert_in. split; [ intros [-> | Hi]; [ now left | right; split; [ exact Hi | discriminate ] ] | intros [C | (Hi & _)]; [ left; congruence | now right ] ].
    + intros n'. split; [ intros Hn; right; exact Hn | intros [C | Hn]; [ discriminate C | exact Hn ] ].
  - apply Keep; try reflexivity; try exact AA; try discriminate; [ now apply Yes |].
    intros _. split; [ unfold after; cbn [latest]; repeat split |]. split.
    + intros i. cbn [up_group z_group In]. split; [ tauto |]. intros [C | (_ & C)]; [ discriminate C | congruence ].
    + intros n'. split; [ intros Hn; right; exact Hn | intros [C | Hn]; [ discriminate C | exact Hn ] ].
  - apply Keep; try reflexivity; try discriminate; [ now apply Yes |]. intros _. done_step.
  - apply Keep; try reflexivity; try exact AA; [ now apply Yes | intros _; done_step | discriminate ].
  - apply Keep; try reflexivity; try exact AA; [ now apply Yes | intros _; done_step | discriminate ].
  - apply Keep; try reflexivity; try exact AA; [ now apply Yes | intros _; done_step | discriminate ].
  - destruct name as [m|]; [| congruence ]. cbn [str obind]. destruct (assoc GENERATORS m) as [u|] eqn:Ea; cbn [obind]; apply Keep; try reflexivity; try exact AA; try discriminate.
    + apply Yes. apply (proj1 (is_generator m)). apply assoc_known. now exists u.
    + intros _. rewrite extra_number. done_step.
    + apply No. rewrite <- is_generator. now apply assoc_unknown.
  - destruct f as [f|]; cbn [obind]; apply Keep; try reflexivity; try exact AA; try discriminate; [ apply Yes; discriminate | intros _; done_step | apply No; congruence ].
  - apply Keep; try reflexivity; try exact AA; try discriminate; [ now apply Yes |].
    intros _. split; [ unfold after; cbn [latest]; repeat split |]. split.
    + intros i. split; [ intros Hi; right; split; [ exact Hi | discriminate ] | intros [C | (Hi & _)]; [ discriminate C | exact Hi ] ].
    + intros n'. cbn [up_names z_names]. rewrite add_name_in. split; [ intros [-> | Hn]; auto | intros [C | Hn]; [ left; congruence | now right ] ].
Qed.

Lemma all : forall l y s, tidy y -> y_h y = Has false s -> Forall no_null l -> ~ In (SComm 0%Z) l -> async_agrees s ->
  exists rs y' s', set_all y l = Ok (rs, y') /\ y_h y' = Has false s' /\ tidy y' /\ async_agrees s' /\
    Forall2 (fun c r => r = true <-> proper c) l rs /\ after s s' (answered l rs) /\ sets_after s s' (answered l rs).
Proof.
  intros l. induction l as [|c l IH]; intros y s T E NN NC AA.
  - exists [], y, s. cbn [set_all answered]. destruct (after_nil s). split; [ reflexivity |]. split; [ exact E |]. split; [ exact T |]. split; [ exact AA |]. split; [ constructor |]. now split.
  - inversion NN as [|? ? Nc Nl]; subst. destruct (one y s c T E Nc AA) as (r & y1 & s1 & E1 & H1 & T1 & A1 & P1 & S1 & R1).
    destruct (IH y1 s1 T1 H1 Nl) as (rs & y2 & s2 & E2 & H2 & T2 & A2 & P2 & S2 & Q2); [ intros C; apply NC; now right | exact A1 |].
    exists (r :: rs), y2, s2. cbn [set_all]. rewrite E1. cbn [obind]. rewrite E2. cbn [obind]. split; [ reflexivity |]. split; [ exact H2 |]. split; [ exact T2 |].
    split; [ exact A2 |]. split; [ now constructor |]. cbn [answered]. destruct r; cbn [app].
    + apply (step_then s s1); auto.
    + assert (s1 = s) by (apply R1; [ reflexivity | intros ->; apply NC; now left ]). subst s1. auto.
Qed.

(* ---- sessions that are not there, or run ---- *)
Lemma refused : forall y c, tidy y -> no_null c -> (match y_h y with Has r _ => r = true | _ => forall n, c <> STrMpi n end) ->
  exists y', set_one y c = Ok (false, y') /\ y_h y' = y_h y /\ tidy y'.
Proof.
  intros y c T NN H. destruct (refuse_tidy y T) as (l' & El & Tl).
  assert (Ch : forall f, change y f = Ok (false, y)) by (intros f; unfold change; destruct (y_h y) as [| |[] s]; try reflexivity; discriminate H).
  assert (Hd : forall d, set_datastore y d = Ok (false, mkState (y_h y) (y_next y + 1) l')).
  { intros d. unfold set_datastore. destruct (y_h y) as [| |[] s]; try discriminate H; rewrite El; reflexivity. }
  assert (Ht : forall d z, set_transport y d z = Ok (false, mkState (y_h y) (y_next y + 1) l')).
  { intros d z. unfold set_transport. destruct (y_h y) as [| |[] s]; try discriminate H; rewrite El; reflexivity. }
  destruct c; cbn [set_one no_null] in *; try (exists y; rewrite Ch; auto; fail); try (eexists; rewrite Hd; split; [ reflexivity | auto ]; fail);
    try (eexists; rewrite Ht; split; [ reflexivity | auto ]; fail).
  - destruct (y_h y) as [| | r s] eqn:Ey; [ exfalso; now apply (H listeners) | exfalso; now apply (H listeners) |].
    rewrite Ht. eexists. split; [ reflexivity | auto ].
  - destruct module as [m|]; [| congruence ]. cbn [str obind]. rewrite Ht. eexists. split; [ reflexivity | auto ].
Qed.

(* ---- the life of a session ---- *)
Definition agrees (y : state) : Prop := match y_h y with Has _ s => async_agrees s | _ => True end.
Lemma occur_tidy : forall y e, tidy y -> agrees y -> orderly y e -> exists y', occur y e = Ok y' /\ tidy y' /\ agrees y' /\ (e = EClose -> y_h y <> NoHx -> y_live y' = [] ).
Proof.
  intros y e T A O. destruct e as [| c | |]; cbn [occur orderly] in *.
  - destruct (y_h y) as [| | r s] eqn:Ey.
    + exists y. split; [ reflexivity |]. split; [ exact T |]. split; [ exact A |]. intros C. discriminate C.
    + eexists. split; [ reflexivity |]. split; [ destruct T as ((ND & P) & F); rewrite Ey in P; split; [ split; [ exact ND | exact P ] | exact F ] |]. split; [ reflexivity |]. intros C. discriminate C.
    + destruct O.
  - assert (NN : no_null c) by (destruct c; cbn [no_null] in *; auto).
    destruct (y_h y) as [| | [] s] eqn:Ey.
    + destruct (refused y c T NN) as (y' & E & Hh & T'). { rewrite Ey. destruct c; try discriminate. destruct O. }
      rewrite E. cbn [obind]. exists y'. split; [ reflexivity |]. split; [ exact T' |]. split; [ unfold agrees; now rewrite Hh, Ey |]. intros C. discriminate C.
    + destruct (refused y c T NN) as (y' & E & Hh & T'). { rewrite Ey. destruct c; try discriminate. destruct O. }
      rewrite E. cbn [obind]. exists y'. split; [ reflexivity |]. split; [ exact T' |]. split; [ unfold agrees; now rewrite Hh, Ey |]. intros C. discriminate C.
    + destruct (refused y c T NN) as (y' & E & Hh & T'). { now rewrite Ey. }
      rewrite E. cbn [obind]. exists y'. split; [ reflexivity |]. split; [ exact T' |]. split; [ unfold agrees in *; now rewrite Hh, Ey in * |]. intros C. discriminate C.
    + unfold agrees in A. rewrite Ey in A. destruct (one y s c T Ey NN A) as (r & y1 & s1 & E1 & H1 & T1 & A1 & _). rewrite E1. cbn [obind]. exists y1.
      split; [ reflexivity |]. split; [ exact T1 |]. split; [ unfold agrees; now rewrite H1 |]. intros C. discriminate C.
  - destruct (y_h y) as [| | r s] eqn:Ey; [ destruct O | destruct O |]. eexists. split; [ reflexivity |].
    split; [ destruct T as ((ND & P) & F); rewrite Ey in P; split; [ split; [ exact ND | exact P ] | exact F ] |]. split; [ unfold agrees in *; now rewrite Ey in A |]. intros C. discriminate C.
  - destruct T as ((ND & P) & F). destruct (y_h y) as [| | r s] eqn:Ey; cbn [holds] in P.
    + exists y. split; [ reflexivity |]. split; [ split; [ split; [ exact ND | now rewrite Ey ] | exact F ] |]. split; [ exact A |]. intros _ C. congruence.
    + exists y. split; [ reflexivity |]. split; [ split; [ split; [ exact ND | now rewrite Ey ] | exact F ] |]. split; [ exact A |]. intros _ _. now apply Permutation_nil.
    + destruct (free_ok (option_map fst (z_tr s)) (match z_ds s with Some (i, _) => [i] | None => [] end) (y_live y) ND) as (l1 & E1 & N1 & P1 & I1).
      { rewrite Permutation_app_comm. rewrite <- P. apply Permutation_app_head. destruct (z_tr s) as [[i d]|]; reflexivity. }
      rewrite E1. cbn [obind]. destruct (free_ok (option_map fst (z_ds s)) [] l1 N1) as (l2 & E2 & N2 & P2 & I2).
      { rewrite <- P1, app_nil_r. destruct (z_ds s) as [[i d]|]; reflexivity. }
      rewrite E2. cbn [obind]. apply Permutation_nil in P2. subst l2. eexists. split; [ reflexivity |]. split; [ split; [ split; [ constructor | constructor ] | constructor ] |].
      split; [ exact Logic.I |]. intros _ _. reflexivity.
Qed.
Lemma start_tidy : tidy nothing_yet /\ agrees nothing_yet.
Proof. split; [ split; [ split; constructor | constructor ] | exact Logic.I ]. Qed.
Lemma happen_tidy : forall l y, tidy y -> agrees y -> all_orderly y l -> exists y', happen y l = Ok y' /\ tidy y' /\ agrees y'.
Proof.
  intros l. induction l as [|e l IH]; intros y T A O; cbn [happen all_orderly] in *; [ now exists y |].
  destruct O as (Oe & Ol). destruct (occur_tidy y e T A Oe) as (y1 & E1 & T1 & A1 & _). rewrite E1. cbn [obind]. apply IH; auto.
Qed.
Lemma lived : forall l y, all_orderly nothing_yet l -> happen nothing_yet l = Ok y -> tidy y /\ agrees y.
Proof. intros l y O E. destruct start_tidy as (T & A). destruct (happen_tidy l _ T A O) as (y' & E' & T' & A'). assert (y' = y) by congruence. now subst. Qed.

Lemma stale : forall y s n c, tidy y -> y_h y = Has false s -> c <> 0%Z ->
  exists y' s' i, set_all y [STrMpi n; SComm c] = Ok ([true; true], y') /\ y_h y' = Has false s' /\ z_comm s' = c /\ z_tr s' = Some (i, (TrMpi n, z_comm s)).
Proof.
  intros y s n c T E Nc. destruct (tr_tidy y false s (TrMpi n, z_comm s) T E) as (l' & El & _).
  cbn [set_all set_one]. unfold set_transport. rewrite E, El. cbn [obind]. unfold change. cbn [y_h obind y_next y_live].
  destruct (Z.eqb_spec c 0) as [C | _]; [ contradiction |]. cbn [negb obind].
  eexists. eexists. exists (y_next y). split; [ reflexivity |]. split; [ reflexivity |]. split; reflexivity.
Qed.

Lemma latest_unset {A} : forall (g : setter -> option A) l d, (forall c, In c l -> g c = None) -> latest g d l = d.
Proof.
  intros g l. induction l as [|c l IH]; intros d H; cbn [latest]; [ reflexivity |]. rewrite (H c (or_introl eq_refl)). apply IH. intros c' Hc. apply H. now right.
Qed.
Lemma answered_in : forall l rs c, In c (answered l rs) -> In c l.
Proof.
  intros l. induction l as [|x l IH]; intros [|r rs] c; cbn [answered]; [ intros [] | intros [] | intros [] |].
  rewrite in_app_iff. intros [H | H]; [ left; destruct r; [ now destruct H | destruct H ] | right; exact (IH rs c H) ].
Qed.
Lemma unset : forall s s' l rs, after s s' (answered l rs) ->
  ((forall n, ~ In (SClient n) l) -> z_client s' = z_client s) /\ ((forall n, ~ In (SServer n) l) -> z_server s' = z_server s) /\
  ((forall n, ~ In (SPer n) l) -> z_per s' = z_per s) /\ ((forall d, ~ In (SDs d) l) -> option_map snd (z_ds s') = option_map snd (z_ds s)) /\
  ((forall n, ~ In (SDebug n) l) -> z_debug s' = z_debug s) /\ ((forall b, ~ In (SOpenInit b) l) -> z_open s' = z_open s) /\
  ((forall r w, ~ In (SHists r w) l) -> z_hists s' = z_hists s) /\ ((forall n, ~ In (SAsync n) l) -> snd (z_async s') = snd (z_async s)) /\
  ((forall n, ~ In (SOps n) l) -> z_ops s' = z_ops s) /\ ((forall n, ~ In (SSize n) l) -> z_size s' = z_size s) /\ ((forall n, ~ In (SFirst n) l) -> z_first s' = z_first s).
Proof.
  intros s s' l rs A. unfold after in A. repeat (match goal with H : _ /\ _ |- _ => destruct H end).
  repeat split; intros N; match goal with H : ?x s' = latest ?g _ _ |- ?x s' = _ => rewrite H | H : ?f (?x s') = latest ?g _ _ |- ?f (?x s') = _ => rewrite H | H : option_map _ (z_ds s') = _ |- option_map _ (z_ds s') = _ => rewrite H end;
  apply latest_unset; intros c Hc; apply answered_in in Hc; destruct c; try reflexivity; exfalso; eapply N; exact Hc.
Qed.
