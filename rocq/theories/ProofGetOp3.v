(* GETOP: integers are alone under their prefix; HIGHEST finds nothing *)
From Verif Require Import ModelBytes ProofBytes ModelKey ProofKey ModelElen SpecElen ProofElen ModelWire ModelHist ModelMsg ModelStore ModelGetOp ModelDs
  SpecStore ProofStore ProofDs ProofDs2 ProofDs3 SpecGetOp ProofGetOp ProofGetOp2 ExampleStore.
Local Open Scope N_scope.

Lemma slt_no_prefix a b x : slt a b \/ slt b a -> starts_with a (b ++ x) = false.
Proof.
  intros H. destruct (starts_with a (b ++ x)) eqn:E; [|reflexivity]. exfalso. apply starts_with_app in E as (y & E).
  destruct H as [H|H].
  - pose proof (slt_blt _ _ y x H) as A. rewrite E in A. exact (blt_irrefl _ A).
  - pose proof (slt_blt _ _ x y H) as B. rewrite E in B. exact (blt_irrefl _ B).
Qed.

Lemma int_field c neg pos fe fd f T : c = default_codec neg pos fe fd -> int_of (f_type f) = Some T -> sym_ok neg pos -> lossless c f ->
  (1 <= it_bytes T <= 8)%nat /\ exists v, encodable T v /\ enc_int T v neg pos = Ok (enc c f) /\ f_data f = store T v.
Proof.
  intros -> Ht Hs Hl. destruct (enc_lossless _ _ Hl) as (He & Hd & _ & _). specialize (He false ltac:(discriminate)).
  assert (HT : ((1 <= it_bytes T <= 8)%nat /\ (it_signed T = true -> forall d, load T d = Ok (it_min T) -> tr_enc_int T neg pos d = UB)) /\
     c_enc (default_codec neg pos fe fd) (f_type f) false = tr_enc_int T neg pos /\ c_dec (default_codec neg pos fe fd) (f_type f) = tr_dec_int T neg pos).
  { clear He Hd. unfold int_of in Ht. destruct f as [d t]. cbn [f_type f_data] in *.
    destruct (N.eqb_spec t T_INT32) as [->|]; [injection Ht as <-; split; [|repeat split]; split; [cbn; lia|intros _ d0 E; unfold tr_enc_int; rewrite E; reflexivity]|].
    destruct (N.eqb_spec t T_INT64) as [->|]; [injection Ht as <-; split; [|repeat split]; split; [cbn; lia|intros _ d0 E; unfold tr_enc_int; rewrite E; reflexivity]|].
    destruct (N.eqb_spec t T_UINT32) as [->|]; [injection Ht as <-; split; [|repeat split]; split; [cbn; lia|discriminate]|].
    destruct (N.eqb_spec t T_UINT64) as [->|]; [injection Ht as <-; split; [|repeat split]; split; [cbn; lia|discriminate]|discriminate]. }
  destruct HT as ((HT & Hmin) & E1 & E2). rewrite E1 in He. rewrite E2 in Hd. split; [exact HT|].
  pose proof He as He'. unfold tr_enc_int in He. apply obind_ok in He as (v & Ev & He). apply obind_ok in He as (s & Es & He). 
  assert (s = enc (default_codec neg pos fe fd) f) by congruence. subst s.
  assert (Hv : encodable T v).
  { split; [eapply load_range; eassumption|]. intros Hsg ->. rewrite (Hmin Hsg _ Ev) in He'. discriminate. }
  exists v. split; [exact Hv|]. split; [exact Es|].
  destruct (int_round_trip T v neg pos HT Hs Hv) as (s2 & Es2 & Ed). rewrite Es in Es2. apply Ok_inj in Es2. subst s2.
  unfold tr_dec_int in Hd. rewrite Ed in Hd. cbn [obind] in Hd. injection Hd as Hd. symmetry. exact Hd.
Qed.

Lemma sym_ord_ok' neg pos : sym_ord neg pos -> sym_ok neg pos.
Proof. apply sym_ord_ok. Qed.

(* integers of one type *)
Lemma ints_differ c neg pos fe fd f g T T' : c = default_codec neg pos fe fd -> int_of (f_type f) = Some T -> int_of (f_type g) = Some T' ->
  f_type f = f_type g -> sym_ord neg pos -> lossless c f -> lossless c g ->
  f = g \/ slt (enc c f) (enc c g) \/ slt (enc c g) (enc c f).
Proof.
  intros Hc Hf Hg Ht Hs Lf Lg. pose proof Hg as Hg'. rewrite <- Ht, Hf in Hg'. injection Hg' as <-.
  destruct (int_field c neg pos fe fd f T Hc Hf (sym_ord_ok' _ _ Hs) Lf) as (HT & v & Hv & Ev & Dv).
  destruct (int_field c neg pos fe fd g T Hc Hg (sym_ord_ok' _ _ Hs) Lg) as (_ & w & Hw & Ew & Dw).
  destruct (Z.lt_trichotomy v w) as [H|[->|H]].
  - right. left. eapply (int_order T T v w); eassumption.
  - left. destruct f, g; cbn in *. congruence.
  - right. right. eapply (int_order T T w v); eassumption.
Qed.
Lemma ints_alone neg pos fe fd k d m ts s p :
  let c := default_codec neg pos fe fd in
  sym_ord neg pos -> reached k c d m -> contents c m ts -> lossless c s -> lossless c p ->
  int_of (f_type s) <> None -> int_of (f_type p) <> None ->
  (forall t, In t ts -> f_type (t_sub t) = f_type s /\ f_type (t_pred t) = f_type p) ->
  alone c ts s p.
Proof.
  intros c Hs Hr Hc Ls Lp Hsi Hpi Hty t Ht Hsw. destruct (Hty t Ht) as [Ts Tp].
  destruct (reached_rows _ _ _ _ _ Hr Hc) as (_ & _ & _ & _ & Hw & _). rewrite Forall_forall in Hw. destruct (Hw t Ht) as (Wsu & Wp & _).
  destruct (int_of (f_type s)) as [T1|] eqn:E1; [|congruence]. destruct (int_of (f_type p)) as [T2|] eqn:E2; [|congruence].
  unfold tkey in Hsw. destruct (key_app c (t_sub t) (t_pred t)) as (x & Ex & _). rewrite Ex in Hsw.
  assert (S1 : s = t_sub t).
  { destruct (ints_differ c neg pos fe fd s (t_sub t) T1 T1 eq_refl E1 ltac:(rewrite Ts; exact E1) (eq_sym Ts) Hs Ls Wsu) as [E|E]; [exact E|exfalso].
    rewrite <- app_assoc in Hsw. rewrite slt_no_prefix in Hsw; [discriminate|].
    rewrite <- (app_nil_r (enc c (t_sub t))). destruct E as [E|E]; [left|right]; apply slt_app, E. }
  split; [symmetry; exact S1|].
  destruct (ints_differ c neg pos fe fd p (t_pred t) T2 T2 eq_refl E2 ltac:(rewrite Tp; exact E2) (eq_sym Tp) Hs Lp Wp) as [E|E]; [symmetry; exact E|exfalso].
  rewrite <- S1 in Hsw. rewrite slt_no_prefix in Hsw; [discriminate|].
  destruct E as [E|E]; [left|right]; apply slt_prefix, E.
Qed.

(* ---- HIGHEST ---- *)
Lemma memcmp_differ p : forall k, starts_with p k = false -> starts_with k p = false -> memcmp_eq p k = Ok false.
Proof.
  induction p as [|x p IH]; intros k H1 H2; [discriminate|]. destruct k as [|y k]; [discriminate|]. cbn [memcmp_eq starts_with] in *.
  destruct (Ascii.eqb_spec x y) as [->|Hne]; [|reflexivity]. rewrite Ascii.eqb_refl in H2. cbn [andb] in *. apply IH; assumption.
Qed.
Lemma starts_with_longer k p z : starts_with k p = true -> starts_with k (p ++ z) = true.
Proof. rewrite !starts_with_app. intros (t & ->). exists (t ++ z). rewrite app_assoc. reflexivity. Qed.
Lemma below_zero P k : ble k (P ++ [zero]) -> starts_with P k = true -> starts_with k (P ++ [zero]) = true.
Proof.
  intros H Hs. apply starts_with_app in Hs as (x & ->). unfold ble in H. rewrite bcmp_app_same in H. apply starts_with_app.
  destruct x as [|a x]; [exists [zero]; rewrite app_nil_r; reflexivity|]. cbn in H.
  change (N_of_ascii zero) with 0 in H. destruct (N.compare_spec (N_of_ascii a) 0) as [E|E|E].
  - change 0 with (N_of_ascii zero) in E. apply N_of_ascii_inj in E as ->. destruct x; [exists []; rewrite app_nil_r; reflexivity|]. destruct H; reflexivity.
  - lia.
  - destruct H; reflexivity.
Qed.
Lemma upper_rows c k ts : tsorted c ts -> upper k (map (row c) ts) =
  (map (row c) (filter (fun t => bleb (tkey c t) k) ts), map (row c) (filter (fun t => negb (bleb (tkey c t) k)) ts)).
Proof.
  intros H. unfold upper. apply (span_filter c); [|exact H]. intros a b H1 H2. apply bleb_true. apply bleb_true in H2. apply blt_ble. eapply blt_ble_trans; eassumption.
Qed.

Lemma highest_nothing k c can d m ts i g : reached k c d m -> contents c m ts -> fits c can i ->
  oi_op i = GETOP_HIGHEST -> 1 <= oi_num i -> least c can i = prefix_of c can i ++ [zero] ->
  (forall t, In t ts -> starts_with (tkey c t) (prefix_of c can i ++ [zero]) = false) ->
  asks d i g -> g = nothing i \/ g = found [].
Proof.
  intros Hr Hc Hf Hop Hn Hle Hno Hg. set (P := prefix_of c can i) in *.
  destruct (reached_rows _ _ _ _ _ Hr Hc) as (Ho & Hk & Hcd & Hrw & Hw & Hs).
  destruct k.
  - unfold asks in Hg. cbn [operate] in Hg. rewrite Ho, Hk, Hcd, Hrw in Hg. cbn [negb] in Hg. apply obind_ok in Hg as (gs & E & Hg).
    injection Hg as ->. unfold bgetop in E. apply omap_cons in E as (g' & gs' & E & E2 & E3). injection E2 as <-. injection E3 as <-.
    unfold getop1 in E. rewrite (state_prefix InMemory c can) in E by (rewrite ?Hop; assumption || reflexivity). fold P in E. rewrite Hop, Hle in E.
    cbn [getop_body] in E. unfold im_body in E.
    cbn [N.eqb Pos.eqb GETOP_HIGHEST GETOP_LOWEST GETOP_EQ GETOP_NEXT GETOP_PREV GETOP_FIRST GETOP_LAST] in E.
    rewrite upper_rows in E by exact Hs.
    set (lo := filter (fun t => bleb (tkey c t) (P ++ [zero])) ts) in *. set (hi := filter _ ts) in E.
    assert (X : forall x, Ok (fail start) = x -> gives i x g -> g = nothing i).
    { intros x <- G. pose proof (gives_nothing i Hn) as G'. unfold gives in *. congruence. }
    destruct hi as [|t hi]; [left; destruct (map (row c) lo); eapply X; try reflexivity; exact E|].
    cbn [map] in E. assert (Hl : forall t, In t lo -> memcmp_eq P (tkey c t) = Ok false).
    { intros u Hu. apply filter_In in Hu as [Hu Hb]. apply bleb_true in Hb. specialize (Hno u Hu). apply memcmp_differ.
      - destruct (starts_with P (tkey c u)) eqn:Eu; [|reflexivity]. destruct (eq_true_false_abs _ (below_zero P _ Hb Eu) Hno).
      - destruct (starts_with (tkey c u) P) eqn:Eu; [|reflexivity]. destruct (eq_true_false_abs _ (starts_with_longer _ _ [zero] Eu) Hno). }
    assert (Hwl : Forall (whole c) lo) by apply filter_whole, Hw.
    destruct lo as [|u lo]; [discriminate|]. right. cbn [map tl] in E. rewrite <- map_rev in E.
    unfold start in E. rewrite (walk_rows c (oi_num i) (memcmp_eq P) (fun _ => false)) in E.
    + assert (Ew : while (fun _ => false) (rev lo) = []) by (destruct (rev lo); reflexivity). rewrite Ew, firstn_nil in E.
      cbn in E. injection E as <-. reflexivity.
    + apply rev_whole. inversion Hwl; assumption.
    + apply Forall_forall. intros v Hv. apply Hl. right. apply in_rev. exact Hv.
  - pose proof (highest_ldb c can d m ts i Hr Hc Hf Hop Hn) as X. cbv zeta in X. fold P in X. rewrite Hle in X.
    set (lo := filter (under c (P ++ [zero])) ts) in *.
    assert (E : filter (fun t => starts_with P (tkey c t)) lo = []).
    { destruct (filter (fun t => starts_with P (tkey c t)) lo) as [|t l] eqn:E; [reflexivity|exfalso].
      assert (Ht : In t (filter (fun t => starts_with P (tkey c t)) lo)) by (rewrite E; left; reflexivity).
      apply filter_In in Ht as [Ht Hp]. apply filter_In in Ht as [Ht Hb]. apply bltb_true, blt_ble in Hb.
      specialize (Hno t Ht). destruct (eq_true_false_abs _ (below_zero P _ Hb Hp) Hno). }
    rewrite E in X. unfold asks in *. rewrite X in Hg. unfold first in Hg. cbn [rev] in Hg. rewrite firstn_nil in Hg.
    destruct lo; injection Hg as <-; auto.
Qed.
