From Verif Require Import ModelBytes ModelOwn SpecOwn ProofBytes ProofStore ProofOwn ProofOwn2.
Local Open Scope nat_scope.

Lemma add_shape : forall ok ds m h m', add ok ds m h = Ok m' ->
  g_kind m' = g_kind m /\ g_max m' = g_max m /\ g_count m' = S (g_count m).
Proof. intros ok ds m h m' E. unfold add in E. destruct (forallb _ _); [| discriminate E ]. injection E as <-. auto. Qed.
Lemma add_record_shape : forall r ds m h m', add_record r ds m h = Ok m' ->
  g_kind m' = g_kind m /\ g_max m' = g_max m /\ g_count m' = S (g_count m).
Proof. intros r ds m h m' E. unfold add_record in E. obind E m1 E1. injection E as <-. auto. Qed.
Lemma steal_shape : forall t f n ok ds h t' f', steal t f n ok ds h = Ok (t', f') ->
  (g_kind t' = g_kind t /\ g_max t' = g_max t /\ g_count t' = S (g_count t)) /\
  (g_kind f' = g_kind f /\ g_max f' = g_max f /\ g_count f' = g_count f) /\
  (g_recs f' = clear_record n (g_recs f) \/ (g_kind f <> Response GetOp /\ g_recs f' = g_recs f)).
Proof.
  intros t f n ok ds h t' f' E. unfold steal in E. destruct (g_kind f) as [o | o] eqn:K; [ discriminate E |].
  destruct (forallb _ _); [| discriminate E ]. destruct o; obind E t1 E1; injection E as <- <-;
    first [ apply add_shape in E1 | apply add_record_shape in E1 ]; (split; [ exact E1 |]); (split; [ cbn; auto |]);
    first [ left; reflexivity | right; split; [ discriminate | reflexivity ] ].
Qed.

Definition elsewhere (l : list nat) (w w' : world) : Prop :=
  length (w_all w') = length (w_all w) /\ forall k, ~ In k l -> nth_error (w_all w') k = nth_error (w_all w) k.
Lemma put_at_length {A} : forall i (l : list A) x y, nth_error l i = Some x -> length (put_at i y l) = length l.
Proof. intros i l x y E. apply nth_error_split in E as (l1 & l2 & -> & <-). rewrite put_at_mid, !app_length. reflexivity. Qed.

Lemma acts_app : forall l1 l2 w w1, acts w l1 = Ok w1 -> acts w (l1 ++ l2) = acts w1 l2.
Proof.
  intros l1. induction l1 as [|a l1 IH]; intros l2 w w1 E; cbn [acts app] in *; [ now injection E as <- |].
  destruct (act w a) as [w2| |]; cbn [obind] in *; [ now apply IH | discriminate E | discriminate E ].
Qed.

Lemma answers : forall o c l i w m, sound w -> nth_error (w_all w) i = Some (Some m) -> g_kind m = Response o -> g_max m = c ->
  g_count m + length l <= c -> Forall item_fits l ->
  exists w' m', acts w (map (answer o i) l) = Ok w' /\ sound w' /\ elsewhere [i] w w' /\
    nth_error (w_all w') i = Some (Some m') /\ g_kind m' = Response o /\ g_max m' = c /\ g_count m' = g_count m + length l.
Proof.
  intros o c l. induction l as [|x l IH]; intros i w m S E K M C F.
  - exists w, m. cbn [map acts]. rewrite Nat.add_0_r. split; [ reflexivity |]. split; [ exact S |]. split; [ now split |]. auto.
  - inversion F as [|? ? Fx Fl]; subst. cbn [length] in C.
    assert (Ca : careful w (answer o i x)).
    { assert (R : has_room m) by (unfold has_room; lia). destruct o; cbn [answer careful]; try split; try exact Fx; exists m; (split; [ exact E |]); (split; [ rewrite K; (discriminate || reflexivity) | exact R ]). }
    destruct (act_sound w _ S Ca) as (w1 & E1 & S1).
    assert (Sh : exists m1, w_all w1 = put_at i (Some m1) (w_all w) /\ g_kind m1 = g_kind m /\ g_max m1 = g_max m /\ g_count m1 = Datatypes.S (g_count m)).
    { clear - E1 E. destruct o; cbn [answer act] in E1; rewrite (at_ok _ _ _ E) in E1; cbn [obind] in E1.
      3: { destruct (alloc_array _ _) as [s h1]. destruct (alloc_array _ h1) as [p h2]. destruct (alloc_array _ h2) as [q h3].
           obind E1 m1 Em. injection E1 as <-. apply add_record_shape in Em. exists m1. auto. }
      all: obind E1 m1 Em; injection E1 as <-; apply add_shape in Em; exists m1; auto. }
    destruct Sh as (m1 & A1 & K1 & M1 & C1).
    destruct (IH i w1 m1) as (w2 & m2 & E2 & S2 & (L2 & O2) & N2 & K2 & M2 & C2); auto; try congruence; try lia.
    { rewrite A1. eapply put_at_same, E. }
    exists w2, m2. cbn [map acts]. rewrite E1. cbn [obind]. split; [ exact E2 |]. split; [ exact S2 |]. split; [| repeat split; auto; cbn [length]; lia ]. 
    split.
    + rewrite L2, A1. eapply put_at_length, E.
    + intros k Nk. rewrite (O2 k Nk), A1. eapply put_at_other; [ exact E |]. intros ->. apply Nk. now left.
Qed.

Lemma firstn_clear : forall j l, flat_map record_owns (firstn j l) = [] -> flat_map record_owns (firstn (S j) (clear_record j l)) = [].
Proof.
  intros j l H. unfold clear_record. destruct (nth_error l j) as [r|] eqn:E.
  - apply nth_error_split in E as (l1 & l2 & -> & <-). rewrite firstn_app, firstn_all, Nat.sub_diag, firstn_O, app_nil_r in H.
    fold (put_at (length l1) (mkRecord None None None (r_num r)) (l1 ++ r :: l2)). rewrite put_at_mid.
    rewrite firstn_app, firstn_all2 by lia. replace (S (length l1) - length l1) with 1 by lia. cbn [firstn]. rewrite flat_map_app, H. reflexivity.
  - apply nth_error_None in E. rewrite firstn_all2 in H by lia. now rewrite firstn_all2 by lia.
Qed.

Lemma thefts : forall o c n l i j k w t f, sound w -> i <> j -> nth_error (w_all w) i = Some (Some t) -> nth_error (w_all w) j = Some (Some f) ->
  g_kind t = Response o -> g_max t = c -> g_count t = k -> g_kind f = Response o -> g_count f = n -> n <= c -> k + length l = n ->
  flat_map record_owns (firstn k (g_recs f)) = [] ->
  exists w' t' f', acts w (steals i j k l) = Ok w' /\ sound w' /\ elsewhere [i; j] w w' /\
    nth_error (w_all w') i = Some (Some t') /\ nth_error (w_all w') j = Some (Some f') /\
    g_kind t' = Response o /\ g_max t' = c /\ g_count t' = n /\ g_count f' = n /\ flat_map record_owns (firstn n (g_recs f')) = [].
Proof.
  intros o c n l. induction l as [|x l IH]; intros i j k w t f Sd Ne Ei Ej Kt Mt Ct Kf Cf Le Len Z; cbn [length] in Len.
  - exists w, t, f. cbn [steals acts]. assert (k = n) by lia. subst k. repeat (split; [ first [ reflexivity | assumption | now split | congruence ] |]). congruence.
  - assert (Ca : careful w (ASteal i j k (i_ok x) (i_ds x))).
    { split; [ exact Ne |]. exists o. split; [ exists t | exists f ]; (split; [ assumption |]); (split; [ assumption |]); [ unfold has_room; lia | lia ]. }
    destruct (act_sound w _ Sd Ca) as (w1 & E1 & S1). pose proof E1 as E1'. cbn [act] in E1'. rewrite (at_ok _ _ _ Ei), (at_ok _ _ _ Ej) in E1'. cbn [obind] in E1'.
    destruct (steal t f k (i_ok x) (i_ds x) (w_heap w)) as [[t1 f1]| |] eqn:Es; cbn [obind] in E1'; try discriminate E1'. injection E1' as <-.
    apply steal_shape in Es as ((Kt1 & Mt1 & Ct1) & (Kf1 & Mf1 & Cf1) & Rf1).
    assert (Ej' : nth_error (put_at i (Some t1) (w_all w)) j = Some (Some f)) by (rewrite (put_at_other i j _ (Some t)); auto).
    destruct (IH i j (S k) (mkWorld (put_at j (Some f1) (put_at i (Some t1) (w_all w))) (w_heap w)) t1 f1) as (w2 & t2 & f2 & E2 & S2 & (L2 & O2) & N2 & N2' & R2);
      auto; cbn [w_all]; try congruence; try lia.
    { rewrite (put_at_other j i _ (Some f)) by auto. eapply put_at_same, Ei. }
    { eapply put_at_same, Ej'. }
    { destruct Rf1 as [-> | (Nk & ->)]; [ now apply firstn_clear |].
      assert (Gf : good (w_heap w) f) by (destruct Sd as (_ & G); apply G; eapply nth_error_In; exact Ej). rewrite (good_recs _ _ Gf Nk). now rewrite firstn_nil. }
    exists w2, t2, f2. cbn [steals acts]. rewrite E1. cbn [obind]. split; [ exact E2 |]. split; [ exact S2 |]. split; [| auto ]. cbn [w_all] in L2, O2. split.
    + rewrite L2. rewrite (put_at_length j _ (Some f)) by exact Ej'. eapply put_at_length, Ei.
    + intros q Nq. rewrite (O2 q Nq). cbn [In] in Nq. rewrite (put_at_other j q _ (Some f)) by (auto; intros ->; tauto). apply (put_at_other i q _ (Some t)); [ exact Ei |]. intros ->. tauto.
Qed.

Lemma put_at_end {A} : forall (l : list A) x y, put_at (length l) y (l ++ [x]) = l ++ [y].
Proof. intros. apply put_at_mid. Qed.
Lemma new_act : forall w k c, sound w -> exists m h, act w (ANew k c) = Ok (mkWorld (w_all w ++ [Some m]) h) /\ sound (mkWorld (w_all w ++ [Some m]) h) /\
  g_kind m = k /\ g_max m = c /\ g_count m = 0 /\ g_size m = 24%N.
Proof.
  intros w k c Sd. destruct (act_sound w (ANew k c) Sd Logic.I) as (w1 & E1 & S1). pose proof E1 as E. cbn [act] in E. unfold construct in E.
  set (e := mkMessage k (fun _ => None) [] 0 0 24%N) in *. assert (Be : blank k 24%N e) by (repeat split).
  destruct (alloc_msg_inv c e (w_heap w) (owned (w_all w)) (blank_good _ _ _ _ Be)) as (m & h & Em & _ & _ & _ & K & M & C & _ & Z).
  { rewrite (blank_owns _ _ _ Be). now destruct Sd. }
  rewrite Em in E. cbn [obind] in E. injection E as <-. exists m, h. repeat (split; [ assumption |]). exact Z.
Qed.

Lemma local_sound : forall o q c l w r, sound w -> nth_error (w_all w) q = Some (Some r) -> length l <= c -> Forall item_fits l ->
  exists w' t, acts w (local_serve o q c (length (w_all w)) l) = Ok w' /\ sound w' /\ w_all w' = w_all w ++ [Some t; None] /\
    g_kind t = Response o /\ g_max t = c /\ g_count t = length l.
Proof.
  intros o q c l w r Sd Eq Le F. unfold local_serve. set (b := length (w_all w)).
  assert (Hq : q < b) by (apply nth_error_Some; congruence).
  destruct (new_act w (Response o) c Sd) as (t & h1 & E1 & S1 & Kt & Mt & Ct & _).
  set (w1 := mkWorld (w_all w ++ [Some t]) h1) in *.
  assert (Eb1 : nth_error (w_all w1) b = Some (Some t)) by (subst w1 b; cbn [w_all]; rewrite nth_error_app2 by lia; now rewrite Nat.sub_diag).
  assert (Eq1 : nth_error (w_all w1) q = Some (Some r)) by (subst w1; cbn [w_all]; rewrite nth_error_app1 by exact Hq; exact Eq).
  assert (C2 : careful w1 (ATimes b q false)) by (split; [ lia |]; split; [ exists t | exists r ]; auto).
  assert (P2 : put_at q (Some r) (put_at b (Some t) (w_all w1)) = w_all w1).
  { destruct (put_at_split b _ _ Eb1) as (l1 & l2 & El & P). rewrite (P (Some t)), <- El. destruct (put_at_split q _ _ Eq1) as (k1 & k2 & Ek & Q). now rewrite (Q (Some r)), <- Ek. }
  assert (E2 : act w1 (ATimes b q false) = Ok w1).
  { cbn [act]. rewrite (at_ok _ _ _ Eb1), (at_ok _ _ _ Eq1). cbn [obind steal_timestamps]. rewrite P2. reflexivity. }
  destruct (new_act w1 (Response o) c S1) as (f & h3 & E3 & S3 & Kf & Mf & Cf & _).
  set (w3 := mkWorld (w_all w1 ++ [Some f]) h3) in *.
  assert (Lb : length (w_all w1) = S b) by (subst w1 b; cbn [w_all]; rewrite app_length; cbn; lia).
  assert (Ef3 : nth_error (w_all w3) (S b) = Some (Some f)) by (subst w3; cbn [w_all]; rewrite nth_error_app2 by lia; rewrite Lb; now rewrite Nat.sub_diag).
  assert (Eb3 : nth_error (w_all w3) b = Some (Some t)) by (subst w3; cbn [w_all]; rewrite nth_error_app1 by lia; exact Eb1).
  destruct (answers o c l (S b) w3 f S3 Ef3 Kf Mf ltac:(lia) F) as (w4 & f4 & E4 & S4 & (L4 & O4) & Ef4 & Kf4 & Mf4 & Cf4).
  assert (Eb4 : nth_error (w_all w4) b = Some (Some t)) by (rewrite O4; [ exact Eb3 | intros [C | []]; lia ]).
  destruct (thefts o c (length l) l b (S b) 0 w4 t f4 S4 ltac:(lia) Eb4 Ef4 Kt Mt Ct Kf4 ltac:(lia) Le eq_refl eq_refl) as (w5 & t5 & f5 & E5 & S5 & (L5 & O5) & Eb5 & Ef5 & Kt5 & Mt5 & Ct5 & Cf5 & Z5).
  assert (Z : flat_map record_owns (g_recs f5) = []).
  { assert (G5 : good (w_heap w5) f5) by (destruct S5 as (_ & G); apply G; eapply nth_error_In; exact Ef5).
    rewrite <- (recs_first f5 (good_rest _ _ G5)). now rewrite Cf5. }
  destruct (act_sound w5 (AZero (S b)) S5) as (w6 & E6 & S6); [ exists f5; auto |].
  assert (A6 : w_all w6 = put_at (S b) (Some (zero_count f5)) (w_all w5)).
  { cbn [act] in E6. rewrite (at_ok _ _ _ Ef5) in E6. cbn [obind] in E6. now injection E6 as <-. }
  assert (Ef6 : nth_error (w_all w6) (S b) = Some (Some (zero_count f5))) by (rewrite A6; eapply put_at_same, Ef5).
  destruct (act_sound w6 (ADestroy (S b)) S6) as (w7 & E7 & S7); [ exists (zero_count f5); auto |].
  assert (A7 : w_all w7 = put_at (S b) None (w_all w6)).
  { cbn [act] in E7. rewrite (at_ok _ _ _ Ef6) in E7. cbn [obind] in E7. obind E7 h Eh. now injection E7 as <-. }
  exists w7, t5. split; [| split; [ exact S7 | split; [| auto ] ] ].
  - cbn [app]. cbn [acts]. fold b in E1. rewrite E1. cbn [obind]. rewrite E2. cbn [obind]. rewrite E3. cbn [obind].
    rewrite (acts_app _ _ _ _ E4), (acts_app _ _ _ _ E5). cbn [acts]. rewrite E6. cbn [obind]. rewrite E7. reflexivity.
  - assert (X : forall k, nth_error (w_all w7) k = nth_error (w_all w ++ [Some t5; None]) k).
    { intros k. rewrite A7. destruct (Nat.eq_dec k (S b)) as [-> | Nk].
      - rewrite (put_at_same _ _ _ None Ef6). rewrite nth_error_app2 by (fold b; lia). fold b. replace (S b - b) with 1 by lia. reflexivity.
      - rewrite (put_at_other (S b) k _ _ None Ef6) by auto. rewrite A6. rewrite (put_at_other (S b) k _ _ _ Ef5) by auto.
        destruct (Nat.eq_dec k b) as [-> | Nb].
        + rewrite Eb5. rewrite nth_error_app2 by (fold b; lia). fold b. now rewrite Nat.sub_diag.
        + rewrite O5 by (intros [C | [C | []]]; lia). rewrite O4 by (intros [C | []]; lia).
          subst w3 w1. cbn [w_all]. rewrite <- app_assoc. cbn [app].
          destruct (Nat.lt_ge_cases k b) as [C | C]; [ now rewrite !nth_error_app1 by (fold b; lia) |].
          rewrite !nth_error_app2 by (fold b; lia). fold b. destruct (k - b) as [|[|d]] eqn:Ed; [ lia | lia | now destruct d ]. }
    clear - X. revert X. generalize (w_all w7) (w_all w ++ [Some t5; None]). intros a. induction a as [|x a IH]; intros [|y d] X.
    + reflexivity.
    + specialize (X 0). discriminate X.
    + specialize (X 0). discriminate X.
    + pose proof (X 0) as X0. injection X0 as ->. f_equal. apply IH. intros k. apply (X (S k)).
Qed.

Lemma released_all : forall w, sound w -> Forall (fun x => x = None) (w_all w) -> h_live (w_heap w) = [].
Proof.
  intros w ((_ & _ & P) & _) F. assert (Z : owned (w_all w) = []).
  { clear P. unfold owned. induction F as [|x l -> F IH]; [ reflexivity | exact IH ]. }
  rewrite Z in P. apply Permutation_nil in P. unfold in_use in P. now apply map_eq_nil in P.
Qed.

Lemma reach_full : forall h m a, good h m -> In a (made (g_kind m)) -> a <> Reqs -> g_count m = g_max m -> reach h (g_at m) (g_count m) a = false.
Proof.
  intros h m a G Ha Na Hc. unfold reach. destruct (good_room _ _ G a Ha Na) as [(_ & ->) | (b & -> & ->)]; [ reflexivity |]. apply Nat.ltb_ge. lia.
Qed.
Lemma written_some : forall k ok, exists a, In a (written k ok).
Proof. intros [[]|[]] []; cbn; eexists; now left. Qed.
Lemma add_full : forall ok ds m h, good h m -> g_count m = g_max m -> add ok ds m h = UB.
Proof.
  intros ok ds m h G C. unfold add. destruct (written_some (g_kind m) ok) as (a & Ha).
  assert (E : forallb (reach h (g_at m) (g_count m)) (written (g_kind m) ok) = false).
  { destruct (forallb _ _) eqn:E; [| reflexivity ]. rewrite forallb_forall in E. specialize (E a Ha). apply written_made in Ha as (Ha & Na).
    now rewrite (reach_full h m a G Ha Na C) in E. }
  now rewrite E.
Qed.
Lemma full_add : forall w i ok ds, sound w -> exists_at w i (fun m => g_count m = g_max m) -> act w (AAdd i ok ds) = UB.
Proof.
  intros w i ok ds (_ & G) (m & E & C). cbn [act]. rewrite (at_ok _ _ _ E). cbn [obind]. rewrite add_full; [ reflexivity | | exact C ]. apply G. eapply nth_error_In, E.
Qed.
Lemma full_steal : forall w i j n ok ds, sound w -> exists_at w i (fun m => g_count m = g_max m) -> exists_at w j (fun _ => True) -> act w (ASteal i j n ok ds) = UB.
Proof.
  intros w i j n ok ds (_ & G) (t & Ei & C) (f & Ej & _). cbn [act]. rewrite (at_ok _ _ _ Ei), (at_ok _ _ _ Ej). cbn [obind].
  assert (Gt : good (w_heap w) t) by (apply G; eapply nth_error_In, Ei).
  unfold steal. destruct (g_kind f) as [o | o]; [ reflexivity |]. destruct (forallb _ _); [| reflexivity ].
  destruct o; unfold add_record; rewrite (add_full _ _ t _ Gt C); reflexivity.
Qed.
Lemma reuse_size : forall w i m max, sound w -> nth_error (w_all w) i = Some (Some m) ->
  exists w' m', act w (AAlloc i max) = Ok w' /\ nth_error (w_all w') i = Some (Some m') /\ g_count m' = 0 /\ g_max m' = max /\ g_size m' = g_size m.
Proof.
  intros w i m max Sd E. destruct (focus w i m Sd E) as (R & Gm & Im & _ & _). cbn [act]. rewrite (at_ok _ _ _ E). cbn [obind].
  destruct (alloc_msg_inv max m (w_heap w) R Gm Im) as (m' & h & Em & _ & _ & _ & _ & M & C & _ & Z). rewrite Em. cbn [obind].
  eexists. exists m'. split; [ reflexivity |]. cbn [w_all]. split; [ eapply put_at_same, E |]. auto.
Qed.
Lemma reach_sound : forall l w, all_careful start l -> acts start l = Ok w -> sound w.
Proof. intros l w C E. destruct (acts_sound l start sound_start C) as (w' & E' & S). congruence. Qed.
Lemma careful_app : forall l1 l2 w w1, all_careful w l1 -> acts w l1 = Ok w1 -> all_careful w1 l2 -> all_careful w (l1 ++ l2).
Proof.
  intros l1. induction l1 as [|a l1 IH]; intros l2 w w1 C E C2; cbn [acts all_careful app] in *; [ now injection E as -> |].
  destruct C as (Ca & Cl). split; [ exact Ca |]. intros w' E'. rewrite E' in E. cbn [obind] in E. eapply IH; eauto.
Qed.
