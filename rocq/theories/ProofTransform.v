From Verif Require Import ModelBytes ModelKey ModelElen ModelHist ModelMsg ModelStore ModelTransform SpecTransform ProofBytes.
Local Open Scope N_scope.

Lemma tfind_app {A} t (m1 m2 : table A) :
  tfind t (m1 ++ m2) = match tfind t m1 with Some x => Some x | None => tfind t m2 end.
Proof.
  induction m1 as [|[t' x] m1 IH]; cbn [app tfind]; [reflexivity|].
  destruct (t =? t'); [reflexivity|exact IH].
Qed.
Lemma tfind_emplace {A} t (m : table A) t' x :
  tfind t (emplace m t' x) =
  match tfind t m with Some y => Some y | None => if t =? t' then Some x else None end.
Proof.
  unfold emplace. destruct (tfind t' m) as [y|] eqn:E.
  - destruct (tfind t m) eqn:F; [reflexivity|].
    destruct (t =? t') eqn:G; [|reflexivity].
    apply N.eqb_eq in G. subst. congruence.
  - rewrite tfind_app. destruct (tfind t m); reflexivity.
Qed.
Lemma tfind_emplace_all {A} t (u : table A) : forall m,
  tfind t (emplace_all m u) = match tfind t m with Some y => Some y | None => tfind t u end.
Proof.
  induction u as [|[t' x] u IH]; intros m; cbn [emplace_all fold_left fst snd tfind].
  - destruct (tfind t m); reflexivity.
  - change (fold_left (fun m e => emplace m (fst e) (snd e)) u (emplace m t' x))
      with (emplace_all (emplace m t' x) u).
    rewrite IH, tfind_emplace.
    destruct (tfind t m); [reflexivity|]. destruct (t =? t'); reflexivity.
Qed.

Definition first_of {A} (l : list A) : option A := match l with [] => None | x :: _ => Some x end.

Lemma last_cons_dflt {A} (l : list A) x d : last (x :: l) d = last l x.
Proof.
  revert x d. induction l as [|y l IH]; intros x d; [reflexivity|].
  change (last (x :: y :: l) d) with (last (y :: l) d). rewrite IH, IH. reflexivity.
Qed.

Lemma configure_num_gen l : forall c, cb_num (fold_left configure1 l c) = last (nums_of l) (cb_num c).
Proof.
  induction l as [|r l IH]; intros c; [reflexivity|].
  cbn [fold_left]. rewrite IH. destruct r as [t e d|n]; cbn [nums_of configure1 fst set_transform_function set_transform_numeric_values cb_num].
  - reflexivity.
  - rewrite last_cons_dflt. reflexivity.
Qed.
Lemma configure_num n0 l : cb_num (configure n0 l) = last (nums_of l) n0.
Proof. unfold configure. rewrite configure_num_gen. reflexivity. Qed.

Lemma configure_enc_gen l t : forall c, tfind t (cb_enc (fold_left configure1 l c)) =
  match tfind t (cb_enc c) with Some y => Some y | None => option_map fst (first_of (regs_of t l)) end.
Proof.
  induction l as [|r l IH]; intros c; cbn [fold_left].
  - cbn [regs_of first_of option_map]. destruct (tfind t (cb_enc c)); reflexivity.
  - rewrite IH. destruct r as [t' e d|n]; cbn [configure1 fst set_transform_function set_transform_numeric_values cb_enc regs_of].
    + rewrite tfind_emplace. destruct (tfind t (cb_enc c)); [reflexivity|].
      destruct (t =? t'); reflexivity.
    + reflexivity.
Qed.
Lemma configure_dec_gen l t : forall c, tfind t (cb_dec (fold_left configure1 l c)) =
  match tfind t (cb_dec c) with Some y => Some y | None => option_map snd (first_of (regs_of t l)) end.
Proof.
  induction l as [|r l IH]; intros c; cbn [fold_left].
  - cbn [regs_of first_of option_map]. destruct (tfind t (cb_dec c)); reflexivity.
  - rewrite IH. destruct r as [t' e d|n]; cbn [configure1 fst set_transform_function set_transform_numeric_values cb_dec regs_of].
    + rewrite tfind_emplace. destruct (tfind t (cb_dec c)); [reflexivity|].
      destruct (t =? t'); reflexivity.
    + reflexivity.
Qed.

Lemma known_find_enc f n t : In t known_types -> exists x, tfind t (cb_enc (default_callbacks f n)) = Some x.
Proof.
  intros H. cbn [known_types In] in H.
  repeat (destruct H as [<-|H]; [eexists; reflexivity|]). destruct H.
Qed.
Lemma known_find_dec f n t : In t known_types -> exists x, tfind t (cb_dec (default_callbacks f n)) = Some x.
Proof.
  intros H. cbn [known_types In] in H.
  repeat (destruct H as [<-|H]; [eexists; reflexivity|]). destruct H.
Qed.
Lemma unknown_find_enc f n t : ~ In t known_types -> tfind t (cb_enc (default_callbacks f n)) = None.
Proof.
  intros H. cbn [default_callbacks cb_enc tfind].
  repeat match goal with |- (if t =? ?k then _ else _) = _ =>
    let E := fresh in destruct (t =? k) eqn:E;
    [exfalso; apply H; apply N.eqb_eq in E; rewrite E; cbn [known_types In]; tauto|] end.
  reflexivity.
Qed.
Lemma unknown_find_dec f n t : ~ In t known_types -> tfind t (cb_dec (default_callbacks f n)) = None.
Proof.
  intros H. cbn [default_callbacks cb_dec tfind].
  repeat match goal with |- (if t =? ?k then _ else _) = _ =>
    let E := fresh in destruct (t =? k) eqn:E;
    [exfalso; apply H; apply N.eqb_eq in E; rewrite E; cbn [known_types In]; tauto|] end.
  reflexivity.
Qed.

Lemma session_known f u t : In t known_types ->
  uses (session_codec (init_transform f u)) t (c_enc (builtin f (cb_num u)) t) (c_dec (builtin f (cb_num u)) t).
Proof.
  intros H. split; intros; cbn [session_codec c_enc c_dec]; unfold ds_encode, ds_decode, init_transform;
    cbn [cb_enc cb_dec]; rewrite tfind_emplace_all; cbn [known_types In] in H;
    repeat (destruct H as [<-|H]; [reflexivity|]); destruct H.
Qed.

Lemma session_unknown f n0 l t : ~ In t known_types ->
  match regs_of t l with
  | [] => uses (session_codec (init_transform f (configure n0 l))) t (fun _ _ => Ok None) (fun _ => Ok None)
  | (e, d) :: _ => uses (session_codec (init_transform f (configure n0 l))) t (run_enc e) (run_dec d)
  end.
Proof.
  intros H.
  assert (E : forall null x, ds_encode (init_transform f (configure n0 l)) t null x =
             match option_map fst (first_of (regs_of t l)) with
             | None => Ok None | Some None => copy_enc null x | Some (Some e) => e null x end).
  { intros. unfold ds_encode, init_transform. cbn [cb_enc].
    rewrite tfind_emplace_all, unknown_find_enc by exact H.
    unfold configure. rewrite configure_enc_gen. cbn [cb_enc tfind]. reflexivity. }
  assert (D : forall x, ds_decode (init_transform f (configure n0 l)) t x =
             match option_map snd (first_of (regs_of t l)) with
             | None => Ok None | Some None => Ok (Some x) | Some (Some e) => e x end).
  { intros. unfold ds_decode, init_transform. cbn [cb_dec].
    rewrite tfind_emplace_all, unknown_find_dec by exact H.
    unfold configure. rewrite configure_dec_gen. cbn [cb_dec tfind]. reflexivity. }
  destruct (regs_of t l) as [|[e d] r]; cbn [first_of option_map fst snd] in E, D;
    (split; intros; cbn [session_codec c_enc c_dec]; [rewrite E|rewrite D]; try reflexivity).
  - destruct e; reflexivity.
  - destruct d; reflexivity.
Qed.

Lemma registered_once f n0 l :
  (forall t, In t known_types -> regs_of t l = []) ->
  (forall t, (length (regs_of t l) <= 1)%nat) ->
  registered (session_codec (init_transform f (configure n0 l))) l.
Proof.
  intros K O t e d L.
  assert (U : ~ In t known_types).
  { intros I. rewrite (K t I) in L. discriminate L. }
  pose proof (session_unknown f n0 l t U) as S. specialize (O t).
  destruct (regs_of t l) as [|[e1 d1] [|? ?]]; cbn in L, O.
  - discriminate L.
  - injection L as -> ->. exact S.
  - lia.
Qed.

Lemma known_ignored f n0 l t : In t known_types ->
  uses (session_codec (init_transform f (configure n0 l))) t
       (c_enc (builtin f (last_of (nums_of l) n0)) t) (c_dec (builtin f (last_of (nums_of l) n0)) t).
Proof.
  intros H. pose proof (session_known f (configure n0 l) t H) as S.
  rewrite configure_num in S. exact S.
Qed.

Lemma running_ignored c t e d n :
  set_transform_function true t e d c = (c, false) /\ set_transform_numeric_values true n c = (c, false).
Proof. split; reflexivity. Qed.

(* witnesses *)
Definition num0 : numeric := mkNumeric "-"%char "+"%char 8 16.
Definition fl0 : float_codec := mkFloatCodec (fun _ _ _ _ _ => Ok None) (fun _ _ _ _ => Ok None).
Definition e_rev : option efun := Some (fun _ d => Ok (Some (rev d))).
Definition d_rev : option dfun := Some (fun d => Ok (Some (rev d))).
Definition e_one : option efun := Some (fun _ d => Ok (Some ("1"%char :: d))).
Definition d_one : option dfun := Some (fun d => Ok (Some (tl d))).

(* every registration for a known type is without effect, so one that differs from the built-in is a witness *)
Lemma known_refuted f n0 t e d : In t known_types ->
  (exists null x, run_enc e null x <> c_enc (builtin f n0) t null x) ->
  ~ registered (session_codec (init_transform f (configure n0 [RFun t e d]))) [RFun t e d].
Proof.
  intros H (null & x & NE) R. specialize (R t e d).
  cbn [regs_of] in R. rewrite N.eqb_refl in R. specialize (R eq_refl). destruct R as [R _].
  apply NE. rewrite <- R.
  pose proof (known_ignored f n0 [RFun t e d] t H) as [S _]. exact (S null x).
Qed.

Lemma second_refuted f n0 t e1 d1 e2 d2 : ~ In t known_types ->
  (exists null x, run_enc e1 null x <> run_enc e2 null x) ->
  ~ registered (session_codec (init_transform f (configure n0 [RFun t e1 d1; RFun t e2 d2]))) [RFun t e1 d1; RFun t e2 d2].
Proof.
  intros H (null & x & NE) R. specialize (R t e2 d2).
  cbn [regs_of] in R. rewrite N.eqb_refl in R. specialize (R eq_refl). destruct R as [R _].
  pose proof (session_unknown f n0 [RFun t e1 d1; RFun t e2 d2] t H) as S.
  cbn [regs_of] in S. rewrite N.eqb_refl in S. destruct S as [S _].
  apply NE. rewrite <- R, <- S. reflexivity.
Qed.

Lemma ex_byte : ~ registered (session_codec (init_transform fl0 (configure num0 [RFun T_BYTE e_rev d_rev]))) [RFun T_BYTE e_rev d_rev].
Proof.
  apply known_refuted.
  - cbn [known_types In]. tauto.
  - exists false, ["a"%char; "b"%char]. vm_compute. discriminate.
Qed.
Lemma ex_unknown : ~ In 40 known_types.
Proof. cbn [known_types In]. vm_compute. intros H. repeat (destruct H as [H|H]; [discriminate H|]). exact H. Qed.
Lemma ex_second : ~ registered (session_codec (init_transform fl0 (configure num0 [RFun 40 e_rev d_rev; RFun 40 e_one d_one])))
   [RFun 40 e_rev d_rev; RFun 40 e_one d_one].
Proof.
  apply second_refuted; [exact ex_unknown|].
  exists false, ["a"%char; "b"%char]. vm_compute. discriminate.
Qed.
