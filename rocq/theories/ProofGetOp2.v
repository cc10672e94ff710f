(* GETOP: the requested pair alone under its prefix, soundness, safety, HIGHEST *)
From Verif Require Import ModelBytes ProofBytes ModelKey ProofKey ModelWire ModelHist ModelMsg ModelStore ModelGetOp ModelDs
  SpecStore ProofStore ProofDs ProofDs2 ProofDs3 SpecGetOp ProofGetOp.
Local Open Scope N_scope.

Lemma between_prefix p : forall q x, ble p q -> blt q (p ++ x) -> starts_with p q = true.
Proof.
  induction p as [|a p IH]; intros q x Y H; [reflexivity|].
  destruct q as [|b q]; [destruct Y; reflexivity|]. unfold blt, ble in *. cbn in *.
  destruct (N.compare_spec (N_of_ascii a) (N_of_ascii b)) as [Eab|Hab|Hab].
  - apply N_of_ascii_inj in Eab as ->. rewrite N.compare_refl in H. rewrite Ascii.eqb_refl. cbn. eapply IH; eassumption.
  - destruct (N.compare_spec (N_of_ascii b) (N_of_ascii a)); try lia; discriminate.
  - destruct Y. reflexivity.
Qed.

Lemma split_sorted c k ts : tsorted c ts -> ts = filter (under c k) ts ++ filter (over c k) ts.
Proof.
  induction 1 as [|t ts Hs IH Hf]; [reflexivity|]. cbn [filter]. unfold under at 1, over at 1. destruct (bltb (tkey c t) k) eqn:E.
  - rewrite <- (negb_bltb (tkey c t) k), E. cbn [negb app]. f_equal. exact IH.
  - rewrite <- (negb_bltb (tkey c t) k), E. cbn [negb].
    assert (L : filter (under c k) ts = []).
    { destruct (filter (under c k) ts) as [|u us] eqn:Eu; [reflexivity|]. exfalso.
      assert (Hu : In u (filter (under c k) ts)) by (rewrite Eu; left; reflexivity). apply filter_In in Hu as [Hu Hk].
      rewrite Forall_forall in Hf. specialize (Hf u Hu). apply bltb_true in Hf, Hk. apply bltb_false in E.
      apply (blt_irrefl k). eapply ble_blt_trans; [exact E|]. eapply blt_trans; eassumption. }
    rewrite L in *. cbn [app] in *. rewrite <- IH. reflexivity.
Qed.

Lemma key_app c s p : exists x, key c s p = (enc c s ++ enc c p) ++ x /\ x <> [].
Proof. unfold key, sp_to_key. cbn [f_data]. eexists. rewrite <- !app_assoc. split; [reflexivity|discriminate]. Qed.

Section Alone.
Context (c : codec) (m : tmap) (ts : list triple) (s p o : field).
Context (Hc : contents c m ts) (Hm : m s p = Some o) (Ha : alone c ts s p).
Let P := enc c s ++ enc c p.
Let t0 := mkTriple s p o.

Lemma stored_in : In t0 ts.
Proof. apply (proj2 Hc). exact Hm. Qed.
Lemma over_first : exists h, filter (over c P) ts = t0 :: h.
Proof.
  destruct (key_app c s p) as (x & Ex & _). destruct Hc as [Hs Hi].
  assert (H0 : In t0 (filter (over c P) ts)).
  { apply filter_In. split; [apply stored_in|]. unfold over, tkey. cbn [t0 t_sub t_pred]. apply bleb_true. rewrite Ex. apply ble_app_r. }
  pose proof (filter_tsorted c (over c P) ts Hs) as Hs'.
  destruct (filter (over c P) ts) as [|t h] eqn:E; [destruct H0|]. exists h. f_equal.
  destruct H0 as [->|H0]; [reflexivity|]. inversion Hs' as [|? ? _ Hf]; subst. rewrite Forall_forall in Hf. specialize (Hf _ H0).
  apply bltb_true in Hf. unfold tkey at 2 in Hf. cbn [t0 t_sub t_pred] in Hf. rewrite Ex in Hf.
  assert (Ht : In t (filter (over c P) ts)) by (rewrite E; left; reflexivity). apply filter_In in Ht as [Ht Ho].
  destruct (Ha t Ht) as [Es Ep].
  { fold P. eapply between_prefix; [apply bleb_true, Ho|exact Hf]. }
  apply Hi in Ht. rewrite Es, Ep, Hm in Ht. injection Ht as Ht. destruct t; cbn in *. subst. reflexivity.
Qed.
Lemma over_split : exists h, ts = filter (under c P) ts ++ t0 :: h.
Proof. destruct over_first as (h & E). exists h. rewrite <- E. apply split_sorted. exact (proj1 Hc). Qed.
Lemma not_after : filter (fun t => bleb (tkey c t) (key c s p)) ts = filter (under c P) ts ++ [t0].
Proof.
  destruct over_split as (h & E). destruct (key_app c s p) as (x & Ex & _).
  assert (L : Forall (fun t => bleb (tkey c t) (key c s p) = true) (filter (under c P) ts)).
  { apply Forall_forall. intros t Ht. apply filter_In in Ht as [_ Ht]. apply bltb_true in Ht. apply bleb_true, blt_ble.
    eapply blt_ble_trans; [exact Ht|]. rewrite Ex. apply ble_app_r. }
  assert (R : Forall (fun t => bleb (tkey c t) (key c s p) = false) h).
  { destruct Hc as [Hs _]. rewrite E in Hs. clear - Hs. induction (filter (under c P) ts) as [|u us IH].
    - cbn in Hs. inversion Hs as [|? ? _ Hf]; subst. eapply Forall_impl; [|exact Hf]. cbn. intros t Ht. apply bleb_false, bltb_true, Ht.
    - inversion Hs; subst. apply IH. assumption. }
  rewrite E at 1. rewrite filter_app. f_equal.
  - clear - L. induction (filter (under c P) ts) as [|u us IH]; [reflexivity|]. inversion L; subst. cbn [filter]. rewrite H1. f_equal. apply IH; assumption.
  - cbn [filter]. assert (X : bleb (tkey c t0) (key c s p) = true) by (apply bleb_true, ble_refl). rewrite X. f_equal.
    clear - R. induction h as [|u us IH]; [reflexivity|]. inversion R; subst. cbn [filter]. rewrite H1. apply IH; assumption.
Qed.
End Alone.

(* ---- what the theorems say ---- *)
Lemma prefix_given c can i : can (oi_pred i) = true -> prefix_of c can i = enc c (fld (oi_sub i)) ++ enc c (fld (oi_pred i)).
Proof. intros H. unfold prefix_of, pred_enc. rewrite H. reflexivity. Qed.
Lemma fits_all c i : storable c (oi_sub i) -> storable c (oi_pred i) -> fits c all_can i.
Proof. split; assumption. Qed.

Lemma next_stored k c d m ts i o : reached k c d m -> contents c m ts -> storable c (oi_sub i) -> storable c (oi_pred i) ->
  let s := fld (oi_sub i) in let p := fld (oi_pred i) in
  m s p = Some o -> alone c ts s p -> oi_op i = GETOP_NEXT -> 1 <= oi_num i ->
  exists us, asks d i (found (mkTriple s p o :: us)).
Proof.
  intros Hr Hc Hs Hp s p Hm Ha Hop Hn. destruct (over_first c m ts s p o Hc Hm Ha) as (h & E).
  pose proof (next_spec k c all_can d m ts i Hr Hc (fits_all _ _ Hs Hp) Hop Hn) as X.
  rewrite (prefix_given c all_can i eq_refl) in X. fold s p in X. rewrite E in X.
  exists (firstn (pred (N.to_nat (oi_num i))) h). unfold first in X. destruct (N.to_nat (oi_num i)) eqn:En; [lia|]. exact X.
Qed.
Lemma eq_stored k c d m ts i o : reached k c d m -> contents c m ts -> storable c (oi_sub i) -> storable c (oi_pred i) ->
  let s := fld (oi_sub i) in let p := fld (oi_pred i) in
  m s p = Some o -> alone c ts s p -> oi_op i = GETOP_EQ -> 1 <= oi_num i ->
  asks d i (found [mkTriple s p o]).
Proof.
  intros Hr Hc Hs Hp s p Hm Ha Hop Hn. destruct (over_first c m ts s p o Hc Hm Ha) as (h & E).
  pose proof (eq_spec k c all_can d m ts i Hr Hc (fits_all _ _ Hs Hp) Hop Hn) as X.
  rewrite (prefix_given c all_can i eq_refl) in X. fold s p in X. rewrite E in X. exact X.
Qed.
Lemma prev_stored k c d m ts i o : reached k c d m -> contents c m ts -> storable c (oi_sub i) -> storable c (oi_pred i) ->
  let s := fld (oi_sub i) in let p := fld (oi_pred i) in
  m s p = Some o -> alone c ts s p -> oi_op i = GETOP_PREV -> 1 <= oi_num i ->
  let le := filter (fun t => bleb (tkey c t) (key c s p)) ts in
  asks d i (found (first (oi_num i) (rev le))) /\ hd_error (rev le) = Some (mkTriple s p o).
Proof.
  intros Hr Hc Hs Hp s p Hm Ha Hop Hn le. unfold le. rewrite (not_after c m ts s p o Hc Hm Ha), rev_app_distr. cbn [rev app].
  split; [|reflexivity]. destruct (over_first c m ts s p o Hc Hm Ha) as (h & E).
  pose proof (prev_spec k c all_can d m ts i Hr Hc (fits_all _ _ Hs Hp) Hop Hn) as X.
  rewrite (prefix_given c all_can i eq_refl) in X. fold s p in X. rewrite E in X. exact X.
Qed.

Lemma lowest_all k c can d m ts i : reached k c d m -> contents c m ts -> fits c can i ->
  oi_op i = GETOP_LOWEST -> 1 <= oi_num i ->
  let with_prefix := filter (fun t => starts_with (prefix_of c can i) (tkey c t)) ts in
  Forall (fun t => bleb (least c can i) (tkey c t) = true) with_prefix ->
  (with_prefix <> [] -> asks d i (found (first (oi_num i) with_prefix))) /\
  (with_prefix = [] -> asks d i (found []) \/ asks d i (nothing i)).
Proof.
  intros Hr Hc Hf Hop Hn w Hw. pose proof (lowest_spec k c can d m ts i Hr Hc Hf Hop Hn) as X. cbv zeta in X.
  assert (E : filter (fun t => starts_with (prefix_of c can i) (tkey c t)) (filter (over c (least c can i)) ts) = w).
  { unfold w in *. clear - Hw. induction ts as [|t l IH]; [reflexivity|]. cbn [filter] in *. unfold over at 1.
    destruct (starts_with (prefix_of c can i) (tkey c t)) eqn:E.
    - inversion Hw; subst. rewrite H1. cbn [filter]. rewrite E. f_equal. apply IH. assumption.
    - destruct (bleb (least c can i) (tkey c t)); [|apply IH, Hw]. cbn [filter]. rewrite E. apply IH, Hw. }
  rewrite E in X. split; intros Hne.
  - destruct (filter (over c (least c can i)) ts) as [|t h]; [cbn in E; congruence|exact X].
  - rewrite Hne in X. destruct (filter (over c (least c can i)) ts); [right; exact X|left]. unfold first in X. rewrite firstn_nil in X. exact X.
Qed.

(* ---- HIGHEST ---- *)
Lemma filter_rev {A} (f : A -> bool) l : filter f (rev l) = rev (filter f l).
Proof. induction l as [|a l IH]; [reflexivity|]. cbn [rev filter]. rewrite filter_app, IH. cbn [filter]. destruct (f a); [reflexivity|apply app_nil_r]. Qed.
Lemma while_rev c P us : tsorted c us -> (exists z, Forall (fun t => blt (tkey c t) (P ++ z)) us) ->
  while (fun t => starts_with P (tkey c t)) (rev us) = rev (filter (fun t => starts_with P (tkey c t)) us).
Proof.
  intros Hs (z & Hz). rewrite <- filter_rev. 
  assert (G : forall t u, In t us -> In u us -> blt (tkey c t) (tkey c u) -> starts_with P (tkey c u) = false -> starts_with P (tkey c t) = false).
  { intros t u Ht Hu Hlt E. destruct (starts_with P (tkey c t)) eqn:Et; [|reflexivity]. rewrite <- E. symmetry.
    rewrite Forall_forall in Hz. eapply between_prefix; [|apply Hz, Hu]. apply starts_with_app in Et as (x & Ex). 
    eapply ble_trans; [apply ble_app_r|]. rewrite <- Ex. apply blt_ble, Hlt. }
  assert (Hd : StronglySorted (fun t u => blt (tkey c u) (tkey c t)) (rev us)).
  { clear - Hs. induction Hs as [|t us Hs IH Hf]; [constructor|]. cbn [rev].
    assert (X : Forall (fun u => blt (tkey c t) (tkey c u)) (rev us)).
    { apply Forall_forall. intros u Hu. apply in_rev in Hu. rewrite Forall_forall in Hf. apply bltb_true, Hf, Hu. }
    induction (rev us) as [|u l IHl]; [constructor; constructor|]. inversion IH as [|? ? I1 I2]; inversion X as [|? ? X1 X2]; subst. cbn [app].
    constructor; [apply IHl; assumption|]. apply Forall_app. split; [exact I2|]. constructor; [exact X1|constructor]. }
  assert (G' : forall t u, In t (rev us) -> In u (rev us) -> blt (tkey c t) (tkey c u) -> starts_with P (tkey c u) = false -> starts_with P (tkey c t) = false).
  { intros t u Ht Hu. apply G; apply in_rev; assumption. }
  clear - Hd G'. induction (rev us) as [|t l IH]; [reflexivity|]. inversion Hd as [|? ? D1 D2]; subst. cbn [while filter].
  destruct (starts_with P (tkey c t)) eqn:E.
  - f_equal. apply IH; [assumption|]. intros x y Hx Hy. apply G'; right; assumption.
  - symmetry. rewrite Forall_forall in D2.
    assert (X : forall u, In u l -> starts_with P (tkey c u) = false).
    { intros u Hu. eapply (G' u t); [right; exact Hu|left; reflexivity|apply D2, Hu|exact E]. }
    clear - X. induction l as [|u l IH]; [reflexivity|]. cbn [filter]. rewrite (X u) by (left; reflexivity). apply IH. intros v Hv. apply X. right; exact Hv.
Qed.

Lemma highest_ldb c can d m ts i : reached LevelDB c d m -> contents c m ts -> fits c can i ->
  oi_op i = GETOP_HIGHEST -> 1 <= oi_num i ->
  let lo := filter (under c (least c can i)) ts in
  asks d i (match lo with [] => nothing i
            | _ => found (first (oi_num i) (rev (filter (fun t => starts_with (prefix_of c can i) (tkey c t)) lo))) end).
Proof.
  intros Hr Hc Hf Hop Hn lo. eapply asks_state; [eassumption..|].
  destruct (reached_rows _ _ _ _ _ Hr Hc) as (_ & _ & _ & _ & Hw & Hs).
  rewrite (state_prefix LevelDB c can) by (rewrite ?Hop; assumption || reflexivity). rewrite Hop. cbn [getop_body]. unfold ldb_body.
  cbn [N.eqb Pos.eqb GETOP_HIGHEST GETOP_LOWEST GETOP_EQ GETOP_NEXT GETOP_PREV GETOP_FIRST GETOP_LAST].
  rewrite lower_rows by exact Hs. cbn [fst]. fold lo. rewrite <- map_rev.
  assert (Hl : Forall (whole c) lo) by apply filter_whole, Hw.
  assert (Hls : tsorted c lo) by apply filter_tsorted, Hs.
  assert (Hz : exists z, Forall (fun t => blt (tkey c t) (prefix_of c can i ++ z)) lo).
  { destruct (least_app c can i) as (z & Ez & _). exists z. apply Forall_forall. intros t Ht. apply filter_In in Ht as [_ Ht].
    unfold under in Ht. rewrite Ez in Ht. apply bltb_true, Ht. }
  pose proof (while_rev c (prefix_of c can i) lo Hls Hz) as Hwr.
  destruct lo as [|t l]; [apply gives_nothing, Hn|].
  assert (Hne : rev (t :: l) <> []) by (intros E; apply (f_equal (@length _)) in E; rewrite rev_length in E; discriminate).
  apply rev_whole in Hl. destruct (rev (t :: l)) as [|u r] eqn:Er; [congruence|].
  cbn [map]. change (row c u :: map (row c) r) with (map (row c) (u :: r)).
  unfold start. rewrite (walk_rows c (oi_num i) (has_prefix (prefix_of c can i)) (fun t => starts_with (prefix_of c can i) (tkey c t)));
    [|exact Hl|apply Forall_forall; reflexivity].
  rewrite Hwr, N.sub_0_r. apply gives_found.
Qed.

(* ---- soundness for every operator and every request ---- *)
Lemma walk_sound c n cond ts : Forall (whole c) ts -> forall j recs st, j <= n ->
  walk c n cond (map (row c) ts) j (mkGst true recs) = Ok st ->
  exists x, st = mkGst true (recs ++ map seen3 (firstn x ts)) /\ N.of_nat x <= n - j.
Proof.
  induction ts as [|t ts IH]; intros Hw j recs st Hj H.
  - injection H as <-. exists O. cbn. rewrite app_nil_r. split; [reflexivity|lia].
  - inversion Hw as [|? ? W1 W2]; subst. cbn [map walk] in H. change (fst (row c t)) with (tkey c t) in H.
    destruct (N.ltb_spec j n) as [Hlt|Hge]; [|injection H as <-; exists O; cbn; rewrite app_nil_r; split; [reflexivity|lia]].
    apply obind_ok in H as (b & _ & H). destruct b.
    + rewrite copy_row in H by assumption. cbn [obind] in H. apply IH in H as (x & -> & Hx); [|assumption|lia].
      exists (S x). cbn [firstn map]. rewrite <- app_assoc. split; [reflexivity|lia].
    + injection H as <-. exists O. cbn. rewrite app_nil_r. split; [reflexivity|lia].
Qed.
Lemma span_part c below ts : exists lo hi, ts = lo ++ hi /\ span below (map (row c) ts) = (map (row c) lo, map (row c) hi).
Proof.
  induction ts as [|t ts (lo & hi & E & IH)]; [exists [], []; auto|]. cbn [map span]. destruct (below (fst (row c t))).
  - rewrite IH. exists (t :: lo), hi. rewrite E at 1. auto.
  - exists [], (t :: ts). auto.
Qed.

Definition sound (ts : list triple) (n : N) (st : gst) : Prop :=
  st = fail start \/ exists us, st = mkGst true (map seen3 us) /\ NoDup us /\ incl us ts /\ N.of_nat (length us) <= n.
Lemma firstn_incl {A} (l : list A) n : incl (firstn n l) l.
Proof. intros x Hx. rewrite <- (firstn_skipn n l). apply in_or_app. left. exact Hx. Qed.
Lemma NoDup_firstn {A} (l : list A) : forall n, NoDup l -> NoDup (firstn n l).
Proof.
  induction l as [|a l IH]; intros [|n] H; cbn; try constructor; inversion H; subst; [|apply IH; assumption].
  intros X. apply H2. eapply firstn_incl, X.
Qed.
Lemma walk_result c n cond us ts st : Forall (whole c) us -> NoDup us -> incl us ts ->
  walk c n cond (map (row c) us) 0 start = Ok st -> sound ts n st.
Proof.
  intros Hw Hn Hi H. apply walk_sound in H as (x & -> & Hx); [|assumption|lia]. right. exists (firstn x us).
  split; [reflexivity|]. split; [apply NoDup_firstn, Hn|]. split; [intros y Hy; apply Hi; eapply firstn_incl, Hy|].
  rewrite firstn_length. lia.
Qed.
Lemma fail_sound ts n st : Ok (fail start) = Ok st -> sound ts n st.
Proof. intros [= <-]. left. reflexivity. Qed.
Lemma NoDup_app_r {A} (l r : list A) : NoDup (l ++ r) -> NoDup r.
Proof. induction l; cbn; [auto|]. inversion 1; auto. Qed.
Lemma NoDup_app_l {A} (l r : list A) : NoDup (l ++ r) -> NoDup l.
Proof.
  induction l as [|a l IH]; cbn; intros H; [constructor|]. inversion H as [|? ? N1 N2]; subst. constructor; [|apply IH, N2].
  intros X. apply N1, in_or_app. left; exact X.
Qed.
Lemma NoDup_tl {A} (l : list A) : NoDup l -> NoDup (tl l).
Proof. destruct l; [auto|]. inversion 1; auto. Qed.

Section Sound.
Context (c : codec) (ts : list triple) (Hw : Forall (whole c) ts) (Hn : NoDup ts).
Let W us : incl us ts -> Forall (whole c) us.
Proof. intros H. apply Forall_forall. intros t Ht. rewrite Forall_forall in Hw. apply Hw, H, Ht. Qed.

Lemma hi_sound n cond hi st : (exists lo, ts = lo ++ hi) ->
  match map (row c) hi with [] => Ok (fail start) | h => walk c n cond h 0 start end = Ok st -> sound ts n st.
Proof.
  intros (lo & E) H. destruct hi as [|t hi]; [apply fail_sound, H|]. cbn [map] in H. change (row c t :: map (row c) hi) with (map (row c) (t :: hi)) in H.
  assert (I : incl (t :: hi) ts) by (rewrite E; intros x Hx; apply in_or_app; right; exact Hx).
  eapply walk_result; [apply W, I| |exact I|exact H]. rewrite E in Hn. eapply NoDup_app_r, Hn.
Qed.
Lemma eq_sound n hi st : (exists lo, ts = lo ++ hi) ->
  match map (row c) hi with r :: _ => copy_response c n r 0 start | [] => Ok (fail start) end = Ok st -> sound ts n st.
Proof.
  intros (lo & E) H. destruct hi as [|t hi]; [apply fail_sound, H|]. cbn [map] in H.
  assert (I : In t ts) by (rewrite E; apply in_or_app; right; left; reflexivity).
  assert (Wt : whole c t) by (rewrite Forall_forall in Hw; auto).
  destruct (N.lt_ge_cases 0 n) as [Hlt|Hge].
  - unfold start in H. rewrite copy_row in H by assumption. injection H as <-. right. exists [t]. split; [reflexivity|].
    split; [constructor; [intros []|constructor]|]. split; [intros x [<-|[]]; exact I|cbn; lia].
  - exfalso. assert (n = 0) by lia. subst n. clear - H Wt. destruct Wt as (Hs & Hp & Ho). unfold copy_response in H.
    cbn [g_unset negb start row fst snd] in H. unfold tkey, key in H.
    rewrite key_to_sp_of_key in H by (apply enc_field_ok; assumption). cbn [obind] in H.
    pose proof (enc_lossless c _ Hs) as (_ & Ds & _ & _). pose proof (enc_lossless c _ Hp) as (_ & Dp & _ & _).
    pose proof (enc_lossless c _ Ho) as (_ & Do & _ & To).
    rewrite remove_type_value in H by exact To. cbn [obind f_type f_data] in H. unfold obind2 in H.
    rewrite Ds in H. cbn [obind] in H. rewrite Dp in H. cbn [obind] in H. rewrite Do in H. discriminate.
Qed.
Lemma rev_sound n cond lo st : (exists a b, ts = a ++ lo ++ b) -> walk c n cond (map (row c) (rev lo)) 0 start = Ok st -> sound ts n st.
Proof.
  intros (a & b & E) H.
  assert (I : incl (rev lo) ts) by (rewrite E; intros x Hx; apply in_or_app; right; apply in_or_app; left; apply in_rev; exact Hx).
  eapply walk_result; [apply W, I| |exact I|exact H]. apply NoDup_rev. rewrite E in Hn. eapply NoDup_app_l, NoDup_app_r, Hn.
Qed.
Lemma prev_sound n lo hi st : ts = lo ++ hi ->
  match map (row c) hi with [] => Ok (fail start) | r :: _ => walk c n always (r :: rev (map (row c) lo)) 0 start end = Ok st -> sound ts n st.
Proof.
  intros E H. destruct hi as [|t hi]; [apply fail_sound, H|]. cbn [map] in H. rewrite <- map_rev in H.
  change (row c t :: map (row c) (rev lo)) with (map (row c) (t :: rev lo)) in H.
  assert (I : incl (t :: rev lo) ts).
  { rewrite E. intros x [<-|Hx]; apply in_or_app; [right; left; reflexivity|left; apply in_rev; exact Hx]. }
  eapply walk_result; [apply W, I| |exact I|exact H]. rewrite E in Hn. constructor.
  - intros X. apply in_rev in X. apply NoDup_remove_2 in Hn. apply Hn, in_or_app. left; exact X.
  - apply NoDup_rev. eapply NoDup_app_l, Hn.
Qed.

Lemma body_sound k op n P seek st : getop_body k c (map (row c) ts) op n P seek = Ok st -> sound ts n st.
Proof.
  intros H.
  destruct (span_part c (fun x => bltb x P) ts) as (lo & hi & E & Es).
  destruct (span_part c (fun x => bltb x seek) ts) as (lo1 & hi1 & E1 & Es1).
  destruct (span_part c (fun x => bleb x seek) ts) as (lo2 & hi2 & E2 & Es2).
  destruct k; cbn [getop_body] in H; [unfold im_body in H|unfold ldb_body in H]; unfold lower, upper in H;
    rewrite ?Es, ?Es1, ?Es2 in H; cbn [fst snd] in H.
  - destruct (op =? GETOP_EQ); [eapply (eq_sound n hi); [exists lo; exact E|exact H]|]. destruct (op =? GETOP_NEXT); [eapply (hi_sound n _ hi); [exists lo; exact E|exact H]|].
    destruct (op =? GETOP_PREV); [eapply (prev_sound n lo hi); [exact E|exact H]|]. destruct (op =? GETOP_FIRST); [apply (hi_sound n always ts); [exists []; reflexivity|destruct (map (row c) ts); exact H]|].
    destruct (op =? GETOP_LAST).
    { destruct (map (row c) ts) eqn:Em; [discriminate|]. rewrite <- Em, <- map_rev in H. eapply rev_sound; [|exact H]. exists [], []. rewrite app_nil_r. reflexivity. }
    destruct (op =? GETOP_LOWEST); [eapply (hi_sound n _ hi1); [exists lo1; exact E1|exact H]|]. destruct (op =? GETOP_HIGHEST); [|apply fail_sound, H].
    destruct hi2 as [|t2 hi2]; [destruct (map (row c) lo2); apply fail_sound, H|]. cbn [map] in H.
    destruct lo2 as [|u lo2]; [discriminate|]. cbn [map tl] in H. rewrite <- map_rev in H. eapply rev_sound; [|exact H]. exists [u], (t2 :: hi2). exact E2.
  - destruct (op =? GETOP_EQ); [eapply (eq_sound n hi); [exists lo; exact E|exact H]|]. destruct (op =? GETOP_NEXT); [eapply (hi_sound n _ hi); [exists lo; exact E|exact H]|].
    destruct (op =? GETOP_PREV); [eapply (prev_sound n lo hi); [exact E|exact H]|]. destruct (op =? GETOP_FIRST); [apply (hi_sound n always ts); [exists []; reflexivity|destruct (map (row c) ts); exact H]|].
    destruct (op =? GETOP_LAST).
    { destruct (map (row c) ts) eqn:Em; [apply fail_sound, H|]. rewrite <- Em, <- map_rev in H. eapply rev_sound; [|exact H]. exists [], []. rewrite app_nil_r. reflexivity. }
    destruct (op =? GETOP_LOWEST); [eapply (hi_sound n _ hi1); [exists lo1; exact E1|exact H]|]. destruct (op =? GETOP_HIGHEST); [|apply fail_sound, H].
    rewrite <- map_rev in H. destruct (map (row c) (rev lo1)) eqn:Em; [apply fail_sound, H|]. rewrite <- Em in H. eapply rev_sound; [|exact H]. exists [], hi1. exact E1.
Qed.
End Sound.

Lemma tsorted_NoDup c ts : tsorted c ts -> NoDup ts.
Proof.
  induction 1 as [|t ts Hs IH Hf]; [constructor|]. constructor; [|exact IH]. intros Ht. rewrite Forall_forall in Hf. specialize (Hf t Ht).
  apply bltb_true in Hf. exact (blt_irrefl _ Hf).
Qed.
Lemma seen3_inj t u : seen3 t = seen3 u -> t = u.
Proof. destruct t as [[] [] []], u as [[] [] []]. unfold seen3, seen. cbn. congruence. Qed.

Lemma getop_sound k c d m ts l d' r : reached k c d m -> contents c m ts ->
  operate d (QGetOp l) = Ok (d', r) ->
  d' = d /\ exists gs, r = Some (RGetOp gs) /\ Forall2 (fun i g => gp_status g = Z.of_N DATASTORE_SUCCESS ->
    incl (gp_recs g) (map seen3 ts) /\ NoDup (gp_recs g) /\ N.of_nat (length (gp_recs g)) <= oi_num i) l gs.
Proof.
  intros Hr Hc H. destruct (reached_rows _ _ _ _ _ Hr Hc) as (Ho & Hk & Hcd & Hrw & Hw & Hs).
  cbn [operate] in H. rewrite Ho, Hk, Hcd, Hrw in H. cbn [negb] in H. apply obind_ok in H as (gs & E & H). injection H as <- <-.
  split; [reflexivity|]. exists gs. split; [reflexivity|].
  unfold bgetop in E. revert gs E. induction l as [|i l IH]; intros gs E; [injection E as <-; constructor|].
  apply omap_cons in E as (g & gs' & E1 & E2 & ->). constructor; [|apply IH, E2]. intros Hst.
  unfold getop1 in E1. apply obind_ok in E1 as (st & Est & E1).
  assert (So : sound ts (oi_num i) st).
  { unfold getop_state in Est. pose proof (tsorted_NoDup _ _ Hs) as Hnd. destruct (op_has_key (oi_op i)).
    - apply obind_ok in Est as (es & _ & Est). apply obind_ok in Est as (ep & _ & Est).
      destruct es; [|apply fail_sound, Est]. cbv zeta in Est. eapply body_sound; eassumption.
    - eapply body_sound; eassumption. }
  destruct So as [->|(us & -> & Hnd & Hi & Hl)].
  - cbn [fail start g_unset g_recs] in E1. apply obind_ok in E1 as (recs & _ & E1). injection E1 as <-. discriminate Hst.
  - cbn [g_unset g_recs] in E1. injection E1 as <-. cbn [gp_recs]. split; [|split].
    + intros x Hx. apply in_map_iff in Hx as (u & <- & Hu). apply in_map, Hi, Hu.
    + clear - Hnd. induction Hnd as [|u us Hu Hnd IH]; [constructor|]. cbn [map]. constructor; [|exact IH].
      intros X. apply in_map_iff in X as (v & Ev & Hv). apply seen3_inj in Ev. subst v. contradiction.
    + rewrite map_length. exact Hl.
Qed.

Lemma getop_bulk d l gs : d_open d = true -> (operate d (QGetOp l) = Ok (d, Some (RGetOp gs)) <-> Forall2 (asks d) l gs).
Proof.
  intros Ho.
  assert (A : forall i g, asks d i g <-> getop1 (d_kind d) (d_codec d) (d_rows d) i = Ok g).
  { intros i g. unfold asks. cbn [operate]. rewrite Ho. cbn [negb]. unfold bgetop. cbn [omap].
    destruct (getop1 (d_kind d) (d_codec d) (d_rows d) i) as [g'| |]; cbn [obind]; split; congruence. }
  cbn [operate]. rewrite Ho. cbn [negb]. unfold bgetop.
  revert gs. induction l as [|i l IH]; intros gs.
  - cbn. split; [intros [= <-]; constructor|inversion 1; reflexivity].
  - split.
    + intros H. apply obind_ok in H as (g0 & E & H). injection H as <-. apply omap_cons in E as (g & gs' & E1 & E2 & ->).
      constructor; [apply A, E1|]. apply IH. rewrite E2. reflexivity.
    + inversion 1 as [|? g ? gs' H1 H2]; subst. apply A in H1. apply IH in H2. cbn [omap]. rewrite H1. cbn [obind].
      apply obind_ok in H2 as (r & E & H2). injection H2 as ->. rewrite E. reflexivity.
Qed.

(* ---- safety ---- *)
Lemma getop_safe1 k c can d m ts i : reached k c d m -> contents c m ts -> fits c can i -> safe k ts i -> exists g, asks d i g.
Proof.
  intros Hr Hc Hf [Hn Hk].
  destruct (N.eq_dec (oi_op i) GETOP_EQ) as [E|N0]; [eexists; eapply (eq_spec k c can); eassumption|].
  destruct (N.eq_dec (oi_op i) GETOP_NEXT) as [E|N1]; [eexists; eapply (next_spec k c can); eassumption|].
  destruct (N.eq_dec (oi_op i) GETOP_PREV) as [E|N2]; [eexists; eapply (prev_spec k c can); eassumption|].
  destruct (N.eq_dec (oi_op i) GETOP_FIRST) as [E|N3]; [eexists; eapply first_spec; eassumption|].
  destruct (N.eq_dec (oi_op i) GETOP_LAST) as [E|N4]; [eexists; eapply last_spec; try eassumption; intros ->; apply Hk; auto|].
  destruct (N.eq_dec (oi_op i) GETOP_LOWEST) as [E|N5]; [eexists; eapply (lowest_spec k c can); eassumption|].
  destruct (N.eq_dec (oi_op i) GETOP_HIGHEST) as [E|N6].
  { destruct k; [destruct (Hk eq_refl); contradiction|]. eexists. eapply highest_ldb; eassumption. }
  exists (nothing i). eapply asks_state; [eassumption..|].
  assert (B : forall P seek, getop_body k c (map (row c) ts) (oi_op i) (oi_num i) P seek = Ok (fail start)).
  { intros P seek. destruct k; cbn [getop_body]; [unfold im_body|unfold ldb_body];
      repeat match goal with |- context [oi_op i =? ?x] => destruct (N.eqb_spec (oi_op i) x); [contradiction|] end; reflexivity. }
  unfold getop_state. destruct (op_has_key (oi_op i)) eqn:Ek.
  - pose proof (state_prefix k c can (map (row c) ts) i Hf Ek) as X. unfold getop_state in X. rewrite Ek in X. rewrite X, B. apply gives_nothing, Hn.
  - rewrite B. apply gives_nothing, Hn.
Qed.
Lemma getop_safe k c can d m ts l : reached k c d m -> contents c m ts -> Forall (fits c can) l -> Forall (safe k ts) l ->
  exists gs, operate d (QGetOp l) = Ok (d, Some (RGetOp gs)).
Proof.
  intros Hr Hc Hf Hs. destruct (reached_rows _ _ _ _ _ Hr Hc) as (Ho & _).
  assert (X : exists gs, Forall2 (asks d) l gs).
  { induction l as [|i l IH]; [exists []; constructor|]. inversion Hf; inversion Hs; subst. destruct IH as (gs & Hg); [assumption..|].
    destruct (getop_safe1 k c can d m ts i) as (g & Hg1); [assumption..|]. exists (g :: gs). constructor; assumption. }
  destruct X as (gs & Hg). exists gs. apply getop_bulk; assumption.
Qed.
