From Verif Require Import ModelBytes ModelOwn SpecOwn ProofBytes ProofStore ProofOwn.
Local Open Scope nat_scope.

Definition sound (w : world) : Prop :=
  inv (w_heap w) (owned (w_all w)) /\ (forall m, In (Some m) (w_all w) -> good (w_heap w) m).

Definition owns_o (x : option message) : list N := match x with Some m => owns m | None => [] end.
Lemma owned_app : forall l1 l2, owned (l1 ++ l2) = owned l1 ++ owned l2. Proof. intros. unfold owned. apply flat_map_app. Qed.
Lemma owned_cons : forall x l, owned (x :: l) = owns_o x ++ owned l. Proof. reflexivity. Qed.
Lemma owned_mid : forall l1 x l2, Permutation (owned (l1 ++ x :: l2)) (owns_o x ++ (owned l1 ++ owned l2)).
Proof. intros. rewrite owned_app, owned_cons, !app_assoc. apply Permutation_app_tail, Permutation_app_comm. Qed.
Lemma owned_in : forall m l, In (Some m) l -> incl (owns m) (owned l).
Proof. intros m l H b Hb. unfold owned. apply in_flat_map. exists (Some m). auto. Qed.

Lemma put_at_split {A} : forall i (l : list A) x, nth_error l i = Some x -> exists l1 l2, l = l1 ++ x :: l2 /\ forall y, put_at i y l = l1 ++ y :: l2.
Proof.
  intros i l x E. apply nth_error_split in E as (l1 & l2 & -> & <-). exists l1, l2. split; [ reflexivity |]. intros y. unfold put_at.
  rewrite firstn_app, firstn_all, Nat.sub_diag, firstn_O, app_nil_r. f_equal. f_equal.
  rewrite skipn_app, skipn_all2 by lia. replace (S (length l1) - length l1) with 1 by lia. reflexivity.
Qed.
Lemma put_at_other {A} : forall i j (l : list A) x y, nth_error l i = Some x -> i <> j -> nth_error (put_at i y l) j = nth_error l j.
Proof.
  intros i j l x y E Ne. apply nth_error_split in E as (l1 & l2 & -> & <-). unfold put_at.
  rewrite firstn_app, firstn_all, Nat.sub_diag, firstn_O, app_nil_r. rewrite skipn_app, skipn_all2 by lia.
  replace (S (length l1) - length l1) with 1 by lia. cbn [skipn app].
  destruct (Nat.lt_ge_cases j (length l1)) as [C | C]; [ now rewrite !nth_error_app1 by lia |].
  rewrite !nth_error_app2 by lia. destruct (j - length l1) eqn:E; [ lia | reflexivity ].
Qed.
Lemma put_at_same {A} : forall i (l : list A) x y, nth_error l i = Some x -> nth_error (put_at i y l) i = Some y.
Proof.
  intros i l x y E. apply nth_error_split in E as (l1 & l2 & -> & <-). unfold put_at.
  rewrite firstn_app, firstn_all, Nat.sub_diag, firstn_O, app_nil_r. rewrite nth_error_app2 by lia. now rewrite Nat.sub_diag.
Qed.
Lemma put_at_mid {A} : forall l1 l2 (x y : A), put_at (length l1) y (l1 ++ x :: l2) = l1 ++ y :: l2.
Proof.
  intros. unfold put_at. rewrite firstn_app, firstn_all, Nat.sub_diag, firstn_O, app_nil_r. rewrite skipn_app, skipn_all2 by lia.
  replace (S (length l1) - length l1) with 1 by lia. reflexivity.
Qed.
Lemma put_at_twice {A} : forall i (l : list A) x y z, nth_error l i = Some x -> put_at i y (put_at i z l) = put_at i y l.
Proof. intros i l x y z E. apply nth_error_split in E as (l1 & l2 & -> & <-). now rewrite !put_at_mid. Qed.
Lemma pts_ext : forall f g, (forall a, f a = g a) -> pts f = pts g.
Proof. intros f g H. unfold pts. apply flat_map_ext. intros a. now rewrite H. Qed.
Lemma focus : forall w i m, sound w -> nth_error (w_all w) i = Some (Some m) ->
  exists R, good (w_heap w) m /\ inv (w_heap w) (owns m ++ R) /\ Permutation (owned (w_all w)) (owns m ++ R) /\
    forall h' x', inv h' (owns_o x' ++ R) -> same_on R (w_heap w) h' -> (forall m', x' = Some m' -> good h' m') -> sound (mkWorld (put_at i x' (w_all w)) h').
Proof.
  intros [ms h] i m (I & G) E. cbn [w_all w_heap] in *. destruct (put_at_split i ms _ E) as (l1 & l2 & El & Pu). exists (owned l1 ++ owned l2).
  assert (P : Permutation (owned ms) (owns m ++ (owned l1 ++ owned l2))) by (rewrite El; apply (owned_mid l1 (Some m) l2)).
  split; [ apply G; rewrite El; apply in_or_app; right; now left |].
  split; [ eapply inv_perm; [ symmetry; exact P | exact I ] |]. split; [ exact P |].
  intros h' x' I' S' G'. split; cbn [w_all w_heap].
  - rewrite Pu. eapply inv_perm; [ apply owned_mid | exact I' ].
  - intros m' Hm. rewrite Pu in Hm. apply in_app_or in Hm as [Hm | [Hm | Hm]]; [ | now apply G' | ].
    + eapply good_same; [ eapply same_incl; [| exact S' ] | apply G; rewrite El; apply in_or_app; now left ].
      intros b Hb. apply in_or_app. left. eapply owned_in; eauto.
    + eapply good_same; [ eapply same_incl; [| exact S' ] | apply G; rewrite El; apply in_or_app; right; now right ].
      intros b Hb. apply in_or_app. right. eapply owned_in; eauto.
Qed.
Lemma put_at_owned : forall i ms m, nth_error ms i = Some (Some m) -> exists R, Permutation (owned ms) (owns m ++ R) /\ forall x, Permutation (owned (put_at i x ms)) (owns_o x ++ R).
Proof.
  intros i ms m E. destruct (put_at_split i ms _ E) as (l1 & l2 & El & Pu). exists (owned l1 ++ owned l2). split.
  - rewrite El. apply (owned_mid l1 (Some m) l2).
  - intros x. rewrite Pu. apply owned_mid.
Qed.
Lemma put_at_in {A} : forall i (l : list A) x y z, nth_error l i = Some x -> In z (put_at i y l) -> z = y \/ In z l.
Proof.
  intros i l x y z E H. destruct (put_at_split i l x E) as (l1 & l2 & El & Pu). rewrite Pu in H. rewrite El.
  apply in_app_or in H as [H | [H | H]]; [ right; apply in_or_app; now left | now left | right; apply in_or_app; right; now right ].
Qed.
Lemma pair_sound : forall w i j t f t' f', sound w -> i <> j -> nth_error (w_all w) i = Some (Some t) -> nth_error (w_all w) j = Some (Some f) ->
  Permutation (owns t' ++ owns f') (owns t ++ owns f) -> good (w_heap w) t' -> good (w_heap w) f' ->
  sound (mkWorld (put_at j (Some f') (put_at i (Some t') (w_all w))) (w_heap w)).
Proof.
  intros w i j t f t' f' (I & G) Ne Ei Ej P Gt Gf.
  assert (Ej' : nth_error (put_at i (Some t') (w_all w)) j = Some (Some f)) by (rewrite (put_at_other i j _ (Some t)); auto).
  destruct (put_at_owned i _ t Ei) as (R1 & P1 & Q1). destruct (put_at_owned j _ f Ej') as (R2 & P2 & Q2).
  split; cbn [w_all w_heap].
  - eapply inv_perm; [| exact I ]. rewrite Q2, P1. cbn [owns_o]. apply (Permutation_app_inv_l (owns f)).
    specialize (Q1 (Some t')). cbn [owns_o] in Q1. rewrite Q1 in P2.
    transitivity (owns f' ++ owns f ++ R2); [ rewrite !app_assoc; apply Permutation_app_tail, Permutation_app_comm |].
    rewrite <- P2. transitivity ((owns t' ++ owns f') ++ R1); [ rewrite !app_assoc; apply Permutation_app_tail, Permutation_app_comm |].
    rewrite P. rewrite !app_assoc. apply Permutation_app_tail, Permutation_app_comm.
  - intros m Hm. apply (put_at_in j _ (Some f)) in Hm; [| exact Ej' ]. destruct Hm as [Hm | Hm]; [ now injection Hm as -> |].
    apply (put_at_in i _ (Some t)) in Hm; [| exact Ei ]. destruct Hm as [Hm | Hm]; [ now injection Hm as -> | now apply G ].
Qed.

Lemma clear_owns : forall i l, Permutation (flat_map record_owns (clear_record i l) ++ record_owns (nth i l no_record)) (flat_map record_owns l).
Proof.
  intros i l. unfold clear_record. destruct (nth_error l i) as [r|] eqn:E.
  - rewrite (nth_error_nth l i no_record E). apply nth_error_split in E as (l1 & l2 & -> & <-).
    rewrite firstn_app, firstn_all, Nat.sub_diag, firstn_O, app_nil_r. rewrite skipn_app, skipn_all2 by lia.
    replace (S (length l1) - length l1) with 1 by lia. cbn [skipn app]. rewrite !flat_map_app. cbn [flat_map record_owns r_s r_p r_o pointer app].
    rewrite <- app_assoc. apply Permutation_app_head, Permutation_app_comm.
  - rewrite nth_overflow by now apply nth_error_None. cbn. now rewrite app_nil_r.
Qed.
Lemma clear_length : forall i l, length (clear_record i l) = length l.
Proof.
  intros i l. unfold clear_record. destruct (nth_error l i) as [r|] eqn:E; [| reflexivity ].
  apply nth_error_split in E as (l1 & l2 & -> & <-). rewrite firstn_app, firstn_all, Nat.sub_diag, firstn_O, app_nil_r. rewrite skipn_app, skipn_all2 by lia.
  replace (S (length l1) - length l1) with 1 by lia. cbn [skipn app]. rewrite !app_length. reflexivity.
Qed.
Lemma clear_rest : forall i n l, i < n -> skipn n (clear_record i l) = skipn n l.
Proof.
  intros i n l Hi. unfold clear_record. destruct (nth_error l i) as [r|] eqn:E; [| reflexivity ].
  apply nth_error_split in E as (l1 & l2 & -> & <-). rewrite firstn_app, firstn_all, Nat.sub_diag, firstn_O, app_nil_r.
  rewrite (skipn_app (S (length l1))), (skipn_all2 (n := S (length l1))) by lia.
  replace (S (length l1) - length l1) with 1 by lia. cbn [skipn app]. rewrite !(skipn_app n), !(skipn_all2 (n := n)) by lia.
  destruct (n - length l1) eqn:En; [ lia | reflexivity ].
Qed.
Lemma clear_fine : forall h i l, Forall (fine_record h) l -> Forall (fine_record h) (clear_record i l).
Proof.
  intros h i l F. unfold clear_record. destruct (nth_error l i) as [r|] eqn:E; [| exact F ].
  rewrite <- (firstn_skipn i l) in F. apply Forall_app in F as (F1 & F2). apply Forall_app. split; [ exact F1 |]. constructor.
  - repeat split; intros b Eb; discriminate Eb.
  - apply nth_error_split in E as (l1 & l2 & -> & <-). rewrite skipn_app, skipn_all, Nat.sub_diag in F2. cbn [skipn app] in F2. inversion F2; subst.
    rewrite skipn_app, skipn_all2 by lia. replace (S (length l1) - length l1) with 1 by lia. exact H2.
Qed.
Lemma nth_fine : forall h i l, Forall (fine_record h) l -> fine_record h (nth i l no_record).
Proof.
  intros h i l F. destruct (nth_in_or_default i l no_record) as [H | ->]; [ rewrite Forall_forall in F; now apply F |].
  repeat split; intros b Eb; discriminate Eb.
Qed.

Lemma steal_inv : forall h t f o n ok ds, good h t -> good h f -> g_kind t = Response o -> g_kind f = Response o -> has_room t -> n < g_count f ->
  exists t' f', steal t f n ok ds h = Ok (t', f') /\ good h t' /\ good h f' /\ Permutation (owns t' ++ owns f') (owns t ++ owns f).
Proof.
  intros h t f o n ok ds Gt Gf Kt Kf R Hn. unfold steal. rewrite Kf.
  assert (E : forallb (reach h (g_at f) n) (stolen o) = true).
  { apply forallb_forall. intros a Ha. apply stolen_made in Ha as (Ha & Na). pose proof (good_count _ _ Gf). apply reach_good; [ exact Gf | now rewrite Kf | exact Na | lia ]. }
  rewrite E. assert (D : o = GetOp \/ o <> GetOp) by (destruct o; auto; right; discriminate). destruct D as [-> | No].
  - unfold add_record. rewrite (add_ok true ds t h Gt R). cbn [obind]. eexists. eexists. split; [ reflexivity |].
    split; [ apply add_record_good; auto; apply nth_fine, (good_fine _ _ Gf) |]. split.
    + destruct Gf. split; cbn [g_kind g_at g_recs g_max g_count] in *; rewrite ?Kf in *; auto.
      * intros C. contradiction.
      * now apply clear_fine.
      * intros _. rewrite clear_length. auto.
      * now rewrite clear_rest.
    + rewrite (add_record_owns h t _ _ Gt), !owns_pts. cbn [g_at g_recs]. rewrite <- (clear_owns n (g_recs f)).
      rewrite <- !app_assoc. do 2 apply Permutation_app_head. rewrite Permutation_app_comm, <- !app_assoc. reflexivity.
  - replace (match o with GetOp => do to' <- add_record (nth n (g_recs f) no_record) ds t h;
                   Ok (to', mkMessage (Response o) (g_at f) (clear_record n (g_recs f)) (g_max f) (g_count f) (g_size f))
        | _ => do to' <- add ok ds t h; Ok (to', f) end) with (do to' <- add ok ds t h; Ok (to', f)) by (destruct o; congruence).
    rewrite (add_ok ok ds t h Gt R). cbn [obind]. eexists. exists f. split; [ reflexivity |].
    split; [ apply add_good; auto; congruence |]. split; [ exact Gf | reflexivity ].
Qed.

Lemma good_with : forall h m g, good h m -> (forall a, a <> Reqs -> g a = g_at m a) -> good h (with_at m g).
Proof.
  intros h m g [] E. split; cbn [with_at g_kind g_at g_recs g_max g_count] in *; auto.
  - intros a Ha. rewrite E; auto. intros ->. apply Ha, made_reqs.
  - intros a Ha Na. rewrite E by exact Na. auto.
Qed.
Lemma good_reqs : forall h m p, good h m -> good h (with_at m (set (g_at m) Reqs p)).
Proof. intros h m p G. apply good_with; [ exact G |]. intros a Na. apply set_other. congruence. Qed.
Lemma at_ok : forall w i m, nth_error (w_all w) i = Some (Some m) -> message_at w i = Ok m.
Proof. intros w i m E. unfold message_at. now rewrite E. Qed.

Lemma gather : forall (M s p o R : list N), Permutation ((M ++ s ++ p ++ o) ++ R) (o ++ p ++ s ++ M ++ R).
Proof.
  intros. rewrite <- !app_assoc. rewrite (Permutation_app_swap_app M s), (Permutation_app_swap_app M p), (Permutation_app_swap_app M o).
  rewrite (Permutation_app_swap_app p o), (Permutation_app_swap_app s o), (Permutation_app_swap_app s p). reflexivity.
Qed.
Lemma act_sound : forall w a, sound w -> careful w a -> exists w', act w a = Ok w' /\ sound w'.
Proof.
  intros w a Sd C. pose proof Sd as (I & G). destruct a as [k max | i max | i ok ds | i room num ds | i j n ok ds | i j b | i | i]; cbn [act careful] in *.
  - unfold construct. set (e := mkMessage k (fun _ => None) [] 0 0 24%N).
    assert (Be : blank k 24%N e) by (repeat split).
    destruct (alloc_msg_inv max e (w_heap w) (owned (w_all w)) (blank_good _ _ _ _ Be)) as (m & h & Em & Gm & Im & Sm & _).
    { now rewrite (blank_owns _ _ _ Be). }
    rewrite Em. cbn [obind]. eexists. split; [ reflexivity |]. split; cbn [w_all w_heap].
    + eapply inv_perm; [| exact Im ]. rewrite owned_app, owned_cons. cbn [owned flat_map owns_o]. rewrite app_nil_r. apply Permutation_app_comm.
    + intros m' Hm. apply in_app_or in Hm as [Hm | [Hm | []]]; [| now injection Hm as <- ].
      eapply good_same; [ eapply same_incl; [| exact Sm ] | now apply G ]. now apply owned_in.
  - destruct C as (m & Ei & _). rewrite (at_ok _ _ _ Ei). cbn [obind]. destruct (focus w i m Sd Ei) as (R & Gm & Im & _ & K).
    destruct (alloc_msg_inv max m (w_heap w) R Gm Im) as (m' & h & Em & Gm' & Im' & Sm & _). rewrite Em. cbn [obind].
    eexists. split; [ reflexivity |]. apply K; [ exact Im' | exact Sm |]. now intros ? [= <-].
  - destruct C as (m & Ei & Kn & Rm). rewrite (at_ok _ _ _ Ei). cbn [obind]. destruct (focus w i m Sd Ei) as (R & Gm & Im & _ & K).
    rewrite (add_ok ok ds m _ Gm Rm). cbn [obind]. eexists. split; [ reflexivity |]. apply K; [ exact Im | apply same_refl |].
    intros ? [= <-]. now apply add_good.
  - destruct C as ((m & Ei & Km & Rm) & Le). rewrite (at_ok _ _ _ Ei). cbn [obind]. destruct (focus w i m Sd Ei) as (R & Gm & Im & _ & K).
    destruct (alloc_array room (w_heap w)) as [s h1] eqn:E1. destruct (alloc_inv _ _ _ _ _ Im E1) as (I1 & S1 & Z1 & P1).
    destruct (alloc_array room h1) as [p h2] eqn:E2. destruct (alloc_inv _ _ _ _ _ I1 E2) as (I2 & S2 & Z2 & P2).
    destruct (alloc_array room h2) as [o h3] eqn:E3. destruct (alloc_inv _ _ _ _ _ I2 E3) as (I3 & S3 & Z3 & P3).
    assert (Sall : same_on (owns m ++ R) (w_heap w) h3).
    { eapply same_trans; [ exact S1 |]. eapply same_trans; [ eapply same_incl; [| exact S2 ] | eapply same_incl; [| exact S3 ] ]; intros x Hx; rewrite !in_app_iff in *; tauto. }
    assert (Gm3 : good h3 m) by (eapply good_same; [ eapply same_incl; [| exact Sall ] | exact Gm ]; intros x Hx; apply in_or_app; now left).
    assert (Fr : fine_record h3 (mkRecord s p o num)).
    { unfold fine_record. cbn [r_s r_p r_o r_num]. destruct room as [|room'].
      - rewrite (Z1 eq_refl), (Z2 eq_refl), (Z3 eq_refl). repeat split; intros b Eb; discriminate Eb.
      - destruct (P1 ltac:(lia)) as (b1 & -> & B1). destruct (P2 ltac:(lia)) as (b2 & -> & B2). destruct (P3 ltac:(lia)) as (b3 & -> & B3).
        repeat split; intros b [= <-]; exists (S room'); (split; [| exact Le ]).
        + rewrite (S3 b1) by (cbn; tauto). rewrite (S2 b1) by (cbn; tauto). exact B1.
        + rewrite (S3 b2) by (cbn; tauto). exact B2.
        + exact B3. }
    unfold add_record. rewrite (add_ok true ds m h3 Gm3 Rm). cbn [obind]. eexists. split; [ reflexivity |]. apply K.
    + cbn [owns_o]. eapply inv_perm; [| exact I3 ]. rewrite (add_record_owns h3 m _ _ Gm3). unfold record_owns. cbn [r_s r_p r_o].
      apply gather.
    + eapply same_incl; [| exact Sall ]. intros x Hx. apply in_or_app. now right.
    + intros ? [= <-]. now apply add_record_good.
  - destruct C as (Ne & o & (t & Ei & Kt & Rt) & (f & Ej & Kf & Hn)). rewrite (at_ok _ _ _ Ei), (at_ok _ _ _ Ej). cbn [obind].
    destruct (steal_inv (w_heap w) t f o n ok ds) as (t' & f' & Es & Gt & Gf & P); auto; try (apply G; eapply nth_error_In; eassumption).
    rewrite Es. cbn [obind]. eexists. split; [ reflexivity |]. eapply pair_sound; eauto.
  - destruct C as (Ne & (t & Ei & _) & (f & Ej & _)). rewrite (at_ok _ _ _ Ei), (at_ok _ _ _ Ej). cbn [obind]. unfold steal_timestamps.
    destruct b; cbn [obind].
    + destruct (focus w i t Sd Ei) as (R & Gt & It & _ & K).
      set (t1 := with_at t (set (g_at t) Reqs None)).
      assert (Pt : Permutation (owns t) (pointer (g_at t Reqs) ++ owns t1)).
      { rewrite !owns_pts. subst t1. cbn [with_at g_at g_recs]. rewrite app_assoc. apply Permutation_app_tail, pts_clear. }
      destruct (dealloc_inv false (g_at t Reqs) (g_max t) (w_heap w) (owns t1 ++ R)) as (h1 & E1 & I1 & S1).
      { eapply inv_perm; [| exact It ]. rewrite Pt. now rewrite app_assoc. }
      { intros ? ? _ _ C. discriminate C. }
      rewrite E1. cbn [obind].
      assert (S1' : same_on R (w_heap w) h1) by (eapply same_incl; [| exact S1 ]; intros x Hx; apply in_or_app; now right).
      assert (Gt1 : good h1 t1).
      { eapply good_same; [ eapply same_incl; [| exact S1 ]; intros x Hx; apply in_or_app; now left |]. now apply good_reqs. }
      assert (Sd1 : sound (mkWorld (put_at i (Some t1) (w_all w)) h1)) by (apply K; [ exact I1 | exact S1' | now intros ? [= <-] ]).
      assert (Ei1 : nth_error (put_at i (Some t1) (w_all w)) i = Some (Some t1)) by (eapply put_at_same; exact Ei).
      assert (Ej1 : nth_error (put_at i (Some t1) (w_all w)) j = Some (Some f)) by (rewrite (put_at_other i j _ (Some t)); auto).
      assert (Gf : good h1 f) by (destruct Sd1 as (_ & G1); apply G1; eapply nth_error_In; exact Ej1).
      eexists. split; [ reflexivity |].
      assert (Eq : put_at j (Some (with_at f (set (g_at f) Reqs None))) (put_at i (Some (with_at t (set (g_at t) Reqs (g_at f Reqs)))) (w_all w)) =
                   put_at j (Some (with_at f (set (g_at f) Reqs None))) (put_at i (Some (with_at t (set (g_at t) Reqs (g_at f Reqs)))) (put_at i (Some t1) (w_all w)))).
      { f_equal. symmetry. eapply put_at_twice. exact Ei. }
      rewrite Eq. apply (pair_sound (mkWorld (put_at i (Some t1) (w_all w)) h1) i j t1 f); auto.
      * rewrite !owns_pts. subst t1. cbn [with_at g_at g_recs].
        set (X := flat_map record_owns (g_recs t)). set (Y := flat_map record_owns (g_recs f)). rewrite (pts_clear (g_at f) Reqs).
        assert (Q : Permutation (pts (set (g_at t) Reqs (g_at f Reqs))) (pointer (g_at f Reqs) ++ pts (set (g_at t) Reqs None))).
        { rewrite (pts_clear (set (g_at t) Reqs (g_at f Reqs)) Reqs). rewrite set_same. apply Permutation_app_head.
          erewrite pts_ext; [ reflexivity |]. intros a. unfold set. now destruct (member_eq Reqs a). }
        rewrite Q, <- !app_assoc. rewrite (Permutation_app_swap_app (pointer (g_at f Reqs))). apply Permutation_app_head. apply Permutation_app_swap_app.
      * cbn [w_heap]. apply (good_with h1 t1); [ exact Gt1 |]. intros a Na. subst t1. cbn [with_at g_at]. rewrite !set_other by congruence. reflexivity.
      * cbn [w_heap]. now apply good_reqs.
    + eexists. split; [ reflexivity |]. apply (pair_sound w i j t f t f Sd Ne Ei Ej); [ reflexivity | |]; apply G; eapply nth_error_In; eassumption.
  - destruct C as (m & Ei & Em). rewrite (at_ok _ _ _ Ei). cbn [obind]. destruct (focus w i m Sd Ei) as (R & Gm & Im & _ & K).
    eexists. split; [ reflexivity |]. apply K; [ exact Im | apply same_refl |]. intros ? [= <-].
    destruct Gm. split; cbn [zero_count g_kind g_at g_recs g_max g_count] in *; auto; lia.
  - destruct C as (m & Ei & _). rewrite (at_ok _ _ _ Ei). cbn [obind]. destruct (focus w i m Sd Ei) as (R & Gm & Im & _ & K).
    destruct (destroy_inv m (w_heap w) R Gm Im) as (h & Eh & Ih & Sh). rewrite Eh. cbn [obind]. eexists. split; [ reflexivity |].
    apply K; [ exact Ih | exact Sh |]. intros ? C. discriminate C.
Qed.

Lemma sound_start : sound start.
Proof. split; [ repeat split; [ constructor | intros b [] | constructor ] | intros m [] ]. Qed.
Lemma sound_accounted : forall w, sound w -> accounted w.
Proof. intros w ((ND & _ & P) & _). split; assumption. Qed.
Lemma acts_sound : forall l w, sound w -> all_careful w l -> exists w', acts w l = Ok w' /\ sound w'.
Proof.
  intros l. induction l as [|a l IH]; intros w S C; cbn [acts all_careful] in *; [ now exists w |].
  destruct C as (Ca & Cl). destruct (act_sound w a S Ca) as (w1 & E1 & S1). rewrite E1. cbn [obind]. now apply IH; [| apply Cl ].
Qed.
