From Verif Require Import ModelBytes.
Local Open Scope N_scope.
Ltac Zify.zify_post_hook ::= Z.div_mod_to_equations.

Lemma N_of_ascii_inj a b : N_of_ascii a = N_of_ascii b -> a = b.
Proof.
  intros H. rewrite <- (ascii_N_embedding a), <- (ascii_N_embedding b), H. reflexivity.
Qed.

Lemma N_of_ascii_lt a : N_of_ascii a < 256.
Proof. destruct a as [[] [] [] [] [] [] [] []]; reflexivity. Qed.

Lemma le_enc_length k n : length (le_enc k n) = k.
Proof. revert n; induction k as [|k IH]; intros n; cbn [le_enc length]; [|rewrite IH]; reflexivity. Qed.

Lemma le_dec_lt s : le_dec s < 256 ^ N.of_nat (length s).
Proof.
  induction s as [|b s IH]; cbn [le_dec length]; [reflexivity|].
  rewrite Nat2N.inj_succ, N.pow_succ_r'. pose proof (N_of_ascii_lt b). nia.
Qed.

Lemma le_dec_enc k n : n < 256 ^ N.of_nat k -> le_dec (le_enc k n) = n.
Proof.
  revert n; induction k as [|k IH]; intros n H; cbn [le_enc le_dec].
  - cbn in H. lia.
  - rewrite Nat2N.inj_succ, N.pow_succ_r' in H.
    rewrite N_ascii_embedding by (apply N.mod_lt; discriminate).
    rewrite IH; [pose proof (N.div_mod' n 256); lia|].
    apply N.div_lt_upper_bound; [discriminate|exact H].
Qed.

Lemma le_enc_dec s : le_enc (length s) (le_dec s) = s.
Proof.
  induction s as [|b s IH]; cbn [le_enc le_dec length]; [reflexivity|].
  pose proof (N_of_ascii_lt b) as Hb.
  replace ((N_of_ascii b + 256 * le_dec s) mod 256) with (N_of_ascii b)
    by (rewrite N.mul_comm, N.mod_add by discriminate; symmetry; apply N.mod_small; exact Hb).
  replace ((N_of_ascii b + 256 * le_dec s) / 256) with (le_dec s)
    by (rewrite N.mul_comm, N.div_add by discriminate; rewrite N.div_small by exact Hb; reflexivity).
  rewrite ascii_N_embedding, IH. reflexivity.
Qed.

Lemma le_enc_inj k m n : m < 256 ^ N.of_nat k -> n < 256 ^ N.of_nat k ->
  le_enc k m = le_enc k n -> m = n.
Proof. intros Hm Hn H. rewrite <- (le_dec_enc k m), <- (le_dec_enc k n), H by assumption. reflexivity. Qed.

(* comparison *)
Lemma bcmp_refl a : bcmp a a = Eq.
Proof. induction a as [|x a IH]; cbn; [reflexivity|]. rewrite N.compare_refl. exact IH. Qed.

Lemma bcmp_eq a b : bcmp a b = Eq <-> a = b.
Proof.
  split; [|intros <-; apply bcmp_refl].
  revert b; induction a as [|x a IH]; intros [|y b]; cbn; try discriminate; [reflexivity|].
  destruct (N.compare_spec (N_of_ascii x) (N_of_ascii y)) as [E|E|E]; try discriminate.
  intros H. apply N_of_ascii_inj in E. subst. f_equal. apply IH, H.
Qed.

Lemma bcmp_antisym a b : bcmp b a = CompOpp (bcmp a b).
Proof.
  revert b; induction a as [|x a IH]; intros [|y b]; cbn; try reflexivity.
  rewrite (N.compare_antisym (N_of_ascii x)).
  destruct (N.compare (N_of_ascii x) (N_of_ascii y)); cbn; auto.
Qed.

Lemma bcmp_lt_trans a b c : bcmp a b = Lt -> bcmp b c = Lt -> bcmp a c = Lt.
Proof.
  revert b c; induction a as [|x a IH]; intros [|y b] [|z c]; cbn; try discriminate; try reflexivity.
  destruct (N.compare_spec (N_of_ascii x) (N_of_ascii y)) as [E|E|E]; try discriminate;
  destruct (N.compare_spec (N_of_ascii y) (N_of_ascii z)) as [F|F|F]; try discriminate; intros H1 H2.
  - rewrite E, F, N.compare_refl. eapply IH; eassumption.
  - rewrite E. apply N.compare_lt_iff in F. rewrite F. reflexivity.
  - rewrite <- F. apply N.compare_lt_iff in E. rewrite E. reflexivity.
  - assert (G : N_of_ascii x < N_of_ascii z) by lia. apply N.compare_lt_iff in G. rewrite G. reflexivity.
Qed.

Definition blt (a b : bytes) : Prop := bcmp a b = Lt.
Definition ble (a b : bytes) : Prop := bcmp a b <> Gt.

Lemma bltb_true a b : bltb a b = true <-> blt a b.
Proof. unfold bltb, blt. destruct (bcmp a b); split; congruence. Qed.
Lemma bleb_true a b : bleb a b = true <-> ble a b.
Proof. unfold bleb, ble. destruct (bcmp a b); split; congruence. Qed.
Lemma beqb_true a b : beqb a b = true <-> a = b.
Proof. rewrite <- bcmp_eq. unfold beqb. destruct (bcmp a b); split; congruence. Qed.
Lemma beqb_refl a : beqb a a = true.
Proof. apply beqb_true. reflexivity. Qed.
Lemma beqb_false a b : beqb a b = false <-> a <> b.
Proof. rewrite <- (beqb_true a b). destruct (beqb a b); split; congruence. Qed.

Lemma bytes_eq_dec (a b : bytes) : {a = b} + {a <> b}.
Proof. apply list_eq_dec, ascii_dec. Qed.

Lemma blt_irrefl a : ~ blt a a.
Proof. unfold blt. rewrite bcmp_refl. discriminate. Qed.
Lemma blt_trans a b c : blt a b -> blt b c -> blt a c.
Proof. apply bcmp_lt_trans. Qed.
Lemma blt_ble a b : blt a b -> ble a b.
Proof. unfold blt, ble. intros ->. discriminate. Qed.
Lemma ble_refl a : ble a a.
Proof. unfold ble. rewrite bcmp_refl. discriminate. Qed.
Lemma ble_lt_eq a b : ble a b <-> blt a b \/ a = b.
Proof.
  unfold ble, blt. rewrite <- bcmp_eq. destruct (bcmp a b); split; intros H;
    first [tauto | discriminate | congruence | (destruct H; discriminate) | auto].
Qed.
Lemma not_ble a b : ~ ble a b <-> blt b a.
Proof.
  unfold ble, blt. rewrite (bcmp_antisym a b). destruct (bcmp a b); cbn; split; intros H; try congruence;
  try (exfalso; apply H; discriminate).
Qed.
Lemma not_blt a b : ~ blt a b <-> ble b a.
Proof.
  unfold ble, blt. rewrite (bcmp_antisym a b). destruct (bcmp a b); cbn; split; intros H; try congruence;
  try (intros; discriminate).
Qed.
Lemma ble_total a b : ble a b \/ blt b a.
Proof. unfold ble, blt. rewrite (bcmp_antisym a b). destruct (bcmp a b); cbn; auto; left; discriminate. Qed.
Lemma ble_trans a b c : ble a b -> ble b c -> ble a c.
Proof.
  rewrite !ble_lt_eq. intros [H|H] [G|G]; subst; auto. left. eapply blt_trans; eassumption.
Qed.
Lemma ble_blt_trans a b c : ble a b -> blt b c -> blt a c.
Proof. rewrite ble_lt_eq. intros [H|H] G; subst; auto. eapply blt_trans; eassumption. Qed.
Lemma blt_ble_trans a b c : blt a b -> ble b c -> blt a c.
Proof. rewrite ble_lt_eq. intros G [H|H]; subst; auto. eapply blt_trans; eassumption. Qed.
Lemma blt_not_eq a b : blt a b -> a <> b.
Proof. intros H E. subst. exact (blt_irrefl _ H). Qed.
Lemma ble_antisym a b : ble a b -> ble b a -> a = b.
Proof.
  rewrite !ble_lt_eq. intros [H|H] [G|G]; subst; auto. exfalso. exact (blt_irrefl _ (blt_trans _ _ _ H G)).
Qed.

Lemma bcmp_app_same p a b : bcmp (p ++ a) (p ++ b) = bcmp a b.
Proof. induction p as [|x p IH]; cbn; [reflexivity|]. rewrite N.compare_refl. exact IH. Qed.

Lemma ble_app_r p s : ble p (p ++ s).
Proof.
  unfold ble. rewrite <- (app_nil_r p) at 1. rewrite bcmp_app_same. destruct s; cbn; discriminate.
Qed.

Lemma starts_with_app p s : starts_with p s = true <-> exists t, s = p ++ t.
Proof.
  revert s; induction p as [|x p IH]; intros s; cbn.
  - split; [intros _; exists s; reflexivity|reflexivity].
  - destruct s as [|y s].
    + split; [discriminate|intros [t H]; discriminate].
    + rewrite andb_true_iff, Ascii.eqb_eq, IH. split.
      * intros [-> [t ->]]. exists t. reflexivity.
      * intros [t H]. injection H as <- ->. split; [reflexivity|exists t; reflexivity].
Qed.

(* strict difference: the two strings differ at a position both have *)
Definition slt (a b : bytes) : Prop :=
  exists c x y a' b', a = c ++ x :: a' /\ b = c ++ y :: b' /\ N_of_ascii x < N_of_ascii y.

Lemma slt_blt a b s t : slt a b -> blt (a ++ s) (b ++ t).
Proof.
  intros (c & x & y & a' & b' & -> & -> & H). unfold blt.
  rewrite <- !app_assoc, bcmp_app_same. cbn.
  apply N.compare_lt_iff in H. rewrite H. reflexivity.
Qed.

Lemma slt_blt_nil a b : slt a b -> blt a b.
Proof. intros H. rewrite <- (app_nil_r a), <- (app_nil_r b). apply slt_blt, H. Qed.

Lemma slt_app a b s t : slt a b -> slt (a ++ s) (b ++ t).
Proof.
  intros (c & x & y & a' & b' & -> & -> & H).
  exists c, x, y, (a' ++ s), (b' ++ t). rewrite <- !app_assoc. auto.
Qed.

Lemma slt_prefix p a b : slt a b -> slt (p ++ a) (p ++ b).
Proof.
  intros (c & x & y & a' & b' & -> & -> & H).
  exists (p ++ c), x, y, a', b'. rewrite <- !app_assoc. auto.
Qed.

Lemma slt_cons x a b : slt a b -> slt (x :: a) (x :: b).
Proof. apply (slt_prefix [x]). Qed.

Lemma slt_head x y a b : N_of_ascii x < N_of_ascii y -> slt (x :: a) (y :: b).
Proof. intros H. exists [], x, y, a, b. auto. Qed.

(* firstn / skipn over N lengths *)
Lemma blen_app a b : blen (a ++ b) = blen a + blen b.
Proof. unfold blen. rewrite app_length. lia. Qed.

Lemma firstn_app_exact {A} (a b : list A) : firstn (length a) (a ++ b) = a.
Proof. rewrite firstn_app, Nat.sub_diag, firstn_all, firstn_O, app_nil_r. reflexivity. Qed.
Lemma skipn_app_exact {A} (a b : list A) : skipn (length a) (a ++ b) = b.
Proof. rewrite skipn_app, Nat.sub_diag, skipn_all. reflexivity. Qed.

Lemma Ok_inj {A} (a b : A) : Ok a = Ok b -> a = b.
Proof. intros H; injection H; auto. Qed.
