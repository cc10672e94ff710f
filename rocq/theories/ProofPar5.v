(* Clients working at the same time: a completed PUT is seen *)
From Verif Require Import ModelBytes ProofBytes ModelKey ModelWire ModelHist ModelMsg SpecMsg ModelStore ModelGetOp ModelDs
  SpecStore ProofStore ModelElen ModelRoute SpecRoute ModelClient SpecClient SpecCluster ProofClient SpecScan ModelPar SpecPar.
Local Open Scope N_scope.

Section Moves.
Context (E : Z -> env) (k : backend) (c : codec).
(* legal, with the state it leads to *)
Inductive move : tmap -> pending -> event -> tmap -> pending -> Prop :=
| move_call M P i cs : P i = None -> move M P (ECall i cs) M (upd P i (Some (opers (E i) cs, [])))
| move_oper M P i a l1 l2 xs M' ys : P i = Some (l1 ++ a :: l2, xs) -> effect (E i) k c M a M' ys ->
    move M P (EOper i a) M' (upd P i (Some (l1 ++ l2, xs ++ ys)))
| move_return M P i xs ys : P i = Some ([], ys) -> Permutation xs ys -> move M P (EReturn i xs) M (upd P i None).
Lemma legal_cons M P x tr : legal E k c M P (x :: tr) -> exists M' P', move M P x M' P' /\ legal E k c M' P' tr.
Proof.
  intros H. inversion H; subst.
  - eexists _, _. split; [apply move_call; assumption|assumption].
  - eexists _, _. split; [eapply move_oper; eassumption|assumption].
  - eexists _, _. split; [eapply move_return; eassumption|assumption].
Qed.
(* an invariant over a piece of the history *)
Lemma piece (I : tmap -> pending -> Prop) h : (forall M P x M' P', move M P x M' P' -> (forall y, In y (visible [x]) -> In y h) -> I M P -> I M' P') ->
  forall g tr M P rest, (forall y, In y g -> In y h) -> legal E k c M P tr -> visible tr = g ++ rest -> I M P ->
  exists tr' M' P', legal E k c M' P' tr' /\ visible tr' = rest /\ I M' P'.
Proof.
  intros HI. induction g as [|y g IH]; intros tr M P rest Hg L V HM.
  - exists tr, M, P. auto.
  - revert M P L V HM. induction tr as [|x tr IHt]; intros M P L V HM; [discriminate|].
    apply legal_cons in L as (M' & P' & Mv & L).
    assert (HM' : (forall z, In z (visible [x]) -> In z h) -> I M' P') by (intros Hx; eapply HI; eassumption).
    destruct x as [i cs|i a|i xs].
    + injection V as <- V. eapply (IH tr M' P'); [intros z Hz; apply Hg; right; exact Hz|exact L|exact V|]. apply HM'. intros z [<-|[]]. apply Hg. left. reflexivity.
    + apply (IHt M' P' L V). apply HM'. intros z [].
    + injection V as <- V. eapply (IH tr M' P'); [intros z Hz; apply Hg; right; exact Hz|exact L|exact V|]. apply HM'. intros z [<-|[]]. apply Hg. left. reflexivity.
Qed.
(* up to the next visible event *)
Lemma next_visible (I : tmap -> pending -> Prop) : (forall M P i a M' P', move M P (EOper i a) M' P' -> I M P -> I M' P') ->
  forall tr M P y rest, legal E k c M P tr -> visible tr = y :: rest -> I M P ->
  exists x tr' M1 P1 M' P', I M1 P1 /\ move M1 P1 x M' P' /\ visible [x] = [y] /\ legal E k c M' P' tr' /\ visible tr' = rest.
Proof.
  intros HI. induction tr as [|x tr IH]; intros M P y rest L V HM; [discriminate|]. apply legal_cons in L as (M' & P' & Mv & L).
  destruct x as [i cs|i a|i xs].
  - injection V as <- V. exists (ECall i cs), tr, M, P, M', P'. auto 10.
  - apply (IH M' P' y rest L V). eapply HI; eassumption.
  - injection V as <- V. exists (EReturn i xs), tr, M, P, M', P'. auto 10.
Qed.
End Moves.

Section Seen.
Context (E : Z -> env) (k : backend) (c : codec) (s p o : arg).
Let ks := fa s. Let kp := fa p.
Definition clean (P : pending) (j : Z) : Prop := forall l xs, P j = Some (l, xs) -> forall a, In a l -> ~ changes ks kp a.
Lemma clean_move M P x M' P' h j : move E k c M P x M' P' -> untouched E ks kp h -> (forall y, In y (visible [x]) -> In y h) -> clean P j -> clean P' j.
Proof.
  intros Mv U Hx C l xs. inversion Mv as [? ? i cs Hn|? ? i a l1 l2 ys M0 qs0 Hs He|? ? i zs ys Hs Hp]; subst; unfold upd; destruct (Z.eqb_spec j i) as [->|Hj]; intros Hl; try (eapply C; exact Hl).
  - injection Hl as <- <-. apply (U i cs). apply Hx. left. reflexivity.
  - injection Hl as <- <-. intros b Hb. apply (C _ _ Hs). apply in_app_iff in Hb. apply in_app_iff. destruct Hb; [auto|right; right; assumption].
  - discriminate.
Qed.
Lemma quiet_effect e M a M' xs : ~ changes ks kp a -> effect e k c M a M' xs -> M' ks kp = M ks kp.
Proof.
  intros H He. destruct a as [x y z|x y ty|t|x y]; cbn [effect changes] in *; destruct He as [-> _]; [|reflexivity|reflexivity|]; apply tset_other; intros X; apply H; (split; [apply (f_equal fst) in X; exact X|apply (f_equal snd) in X; exact X]).
Qed.
(* M ks kp stays while nothing that changes it is pending *)
Lemma quiet_move M P x M' P' v : move E k c M P x M' P' -> (forall j, clean P j) -> M ks kp = v -> M' ks kp = v.
Proof.
  intros Mv C <-. inversion Mv as [? ? i cs Hn|? ? i a l1 l2 ys M0 qs0 Hs He|? ? i zs ys Hs Hp]; subst; try reflexivity.
  eapply quiet_effect; [|exact He]. apply (C i _ _ Hs). apply in_app_iff. right. left. reflexivity.
Qed.
(* client i is about to store o, or has *)
Definition storing (i : Z) (M : tmap) (P : pending) : Prop :=
  (forall j, j <> i -> clean P j) /\
  (P i = Some ([OPut s p o], []) \/ (exists ys, P i = Some ([], ys)) /\ M ks kp = Some (fa o)).
Lemma storing_move i M P x M' P' h : move E k c M P x M' P' -> untouched E ks kp h -> still i h -> (forall y, In y (visible [x]) -> In y h) -> storing i M P -> storing i M' P'.
Proof.
  intros Mv U St Hx [C Hi]. split; [intros j Hj; eapply clean_move; eauto|].
  inversion Mv as [? ? n cs Hn|? ? n a l1 l2 ys M0 qs0 Hs He|? ? n zs ys Hs Hp]; subst; unfold upd.
  - destruct (Z.eqb_spec i n) as [<-|]; [|exact Hi]. destruct Hi as [Hi|[[ys Hi] _]]; congruence.
  - destruct (Z.eqb_spec i n) as [<-|Hne].
    + destruct Hi as [Hi|[[ys0 Hi] _]]; rewrite Hi in Hs.
      * injection Hs as Hl Hys. right. destruct l1 as [|b l1]; cbn [app] in Hl; injection Hl as <- Hl.
        -- subst l2. cbn [app]. split; [eexists; reflexivity|]. destruct He as [-> _]. apply tset_same.
        -- destruct l1; discriminate.
      * injection Hs as Hl _. destruct l1; discriminate.
    + destruct Hi as [Hi|[Hi Hm]]; [left; exact Hi|right; split; [exact Hi|]]. rewrite (quiet_effect (E n) M a M' qs0); [exact Hm| |exact He].
      apply (C n ltac:(congruence) _ _ Hs). apply in_app_iff. right. left. reflexivity.
  - destruct (Z.eqb_spec i n) as [<-|]; [|exact Hi]. exfalso. eapply St. apply Hx. left. reflexivity.
Qed.
(* client j is reading *)
Definition reading (j : Z) (gs : list oper) (M : tmap) (P : pending) : Prop :=
  (forall n, clean P n) /\ M ks kp = Some (fa o) /\
  exists l ys, P j = Some (l, ys) /\ forall x y ty, In (OGet x y ty) gs -> fa x = ks -> fa y = kp ->
    In (OGet x y ty) l \/ In (XGet (at_ (E j) x y) true (rf x) (rf y) (mkBlob false (a_data o) (a_type o))) ys.
Lemma reading_move j gs M P x M' P' h : move E k c M P x M' P' -> untouched E ks kp h -> still j h -> (forall y, In y (visible [x]) -> In y h) -> reading j gs M P -> reading j gs M' P'.
Proof.
  intros Mv U St Hx (C & Hm & l & ys & Hl & H). split; [intros n; eapply clean_move; eauto|]. split; [eapply quiet_move; eauto|].
  inversion Mv as [? ? n cs Hn|? ? n a l1 l2 zs M0 qs0 Hs He|? ? n ws zs Hs Hp]; subst; unfold upd.
  - destruct (Z.eqb_spec j n) as [<-|]; [congruence|]. exists l, ys. auto.
  - destruct (Z.eqb_spec j n) as [<-|]; [|exists l, ys; auto]. rewrite Hl in Hs. injection Hs as -> ->. eexists _, _. split; [reflexivity|].
    intros x0 y0 ty Hg Ex Ey. destruct (H x0 y0 ty Hg Ex Ey) as [Hi|Hi]; [|right; apply in_app_iff; auto]. apply in_app_iff in Hi. destruct Hi as [Hi|[->|Hi]].
    + left. apply in_app_iff. auto.
    + right. apply in_app_iff. right. destruct He as [_ ->]. left. rewrite Ex, Ey, Hm. reflexivity.
    + left. apply in_app_iff. auto.
  - destruct (Z.eqb_spec j n) as [<-|]; [|exists l, ys; auto]. exfalso. eapply St. apply Hx. left. reflexivity.
Qed.

Lemma seen_put i j cs h1 h2 h3 h4 h5 ys xs :
  explained E k c (h1 ++ Called i [CPut s p o 1] :: h2 ++ Returned i ys :: h3 ++ Called j cs :: h4 ++ Returned j xs :: h5) ->
  opers (E i) [CPut s p o 1] = [OPut s p o] ->
  untouched E ks kp (h1 ++ h2 ++ h3 ++ Called j cs :: h4) -> still i h2 -> still j h4 ->
  forall x y ty, In (OGet x y ty) (opers (E j) cs) -> fa x = ks -> fa y = kp ->
    In (XGet (at_ (E j) x y) true (rf x) (rf y) (mkBlob false (a_data o) (a_type o))) xs.
Proof.
  intros (tr & L & V) Op U Si Sj x y ty Hg Ex Ey. set (hall := h1 ++ h2 ++ h3 ++ Called j cs :: h4) in *.
  assert (U2 : untouched E ks kp h2) by (intros a b Hab; apply U; unfold hall; rewrite !in_app_iff; auto).
  assert (U4 : untouched E ks kp h4) by (intros a b Hab; apply U; unfold hall; rewrite !in_app_iff; right; right; right; right; exact Hab).
  (* before *)
  assert (HI1 : forall M P z M' P', move E k c M P z M' P' -> (forall y, In y (visible [z]) -> In y hall) -> (forall n, clean P n) -> forall n, clean P' n)
    by (intros M P z M' P' Hm Hz C n; eapply clean_move; [exact Hm|exact U|exact Hz|apply C]).
  destruct (piece E k c (fun _ P => forall n, clean P n) hall HI1 h1 tr _ _ _ (fun y Hy => in_or_app _ _ _ (or_introl Hy)) L V) as (t1 & M1 & P1 & L1 & V1 & C1).
  { intros n l zs X. discriminate. }
  destruct (next_visible E k c (fun _ P => forall n, clean P n)) with (2 := L1) (3 := V1) (4 := C1) as (z & t2 & Ma & Pa & M2 & P2 & Ca & Mv & Vz & L2 & V2).
  { intros M P n a M' P' Hmv C q. eapply (clean_move _ _ _ _ _ []); [exact Hmv|intros ? ? []|intros ? []|apply C]. }
  assert (S2 : storing i M2 P2).
  { inversion Mv as [? ? n cs0 Hn|? ? n a l1 l2 ws M0 qs0 Hs He|? ? n ws qs Hs Hp]; subst; cbn [visible flat_map app] in Vz; try discriminate. injection Vz as -> ->.
    split; [|left; unfold upd; rewrite Z.eqb_refl, Op; reflexivity]. intros n Hne l zs. unfold upd. destruct (Z.eqb_spec n i); [contradiction|]. apply Ca. }
  (* while it is stored *)
  assert (HI2 : forall M P z M' P', move E k c M P z M' P' -> (forall y, In y (visible [z]) -> In y h2) -> storing i M P -> storing i M' P')
    by (intros M P z' M' P' Hm Hz S; eapply storing_move; [exact Hm|exact U2|exact Si|exact Hz|exact S]).
  destruct (piece E k c (storing i) h2 HI2 h2 t2 _ _ _ (fun y Hy => Hy) L2 V2 S2) as (t3 & M3 & P3 & L3 & V3 & S3).
  destruct (next_visible E k c (storing i)) with (2 := L3) (3 := V3) (4 := S3) as (z3 & t4 & Mb & Pb & M4 & P4 & Sb & Mv4 & Vz4 & L4 & V4).
  { intros M P n a M' P' Hmv C. eapply (storing_move _ _ _ _ _ _ []); [exact Hmv|intros ? ? []|intros ? []|intros ? []|apply C]. }
  assert (Q4 : (forall n, clean P4 n) /\ M4 ks kp = Some (fa o)).
  { destruct Sb as [Cb Hb]. inversion Mv4 as [? ? n cs0 Hn|? ? n a l1 l2 ws M0 qs0 Hs He|? ? n ws qs Hs Hp]; subst; cbn [visible flat_map app] in Vz4; try discriminate. injection Vz4 as -> ->.
    destruct Hb as [Hb|[_ Hb]]; [congruence|]. split; [|exact Hb]. intros n l zs. unfold upd. destruct (Z.eqb_spec n i) as [->|Hne]; [discriminate|]. apply Cb, Hne. }
  (* between *)
  assert (U3 : untouched E ks kp h3) by (intros a b Hab; apply U; unfold hall; rewrite !in_app_iff; auto).
  assert (HI3 : forall M P z M' P', move E k c M P z M' P' -> (forall y, In y (visible [z]) -> In y h3) -> (forall n, clean P n) /\ M ks kp = Some (fa o) -> (forall n, clean P' n) /\ M' ks kp = Some (fa o)).
  { intros M P z0 M' P' Hmv Hz [C Hm]. split; [intros n; eapply clean_move; [exact Hmv|exact U3|exact Hz|apply C]|eapply quiet_move; eauto]. }
  destruct (piece E k c (fun M P => (forall n, clean P n) /\ M ks kp = Some (fa o)) h3 HI3 h3 t4 _ _ _ (fun y Hy => Hy) L4 V4 Q4) as (t5 & M5 & P5 & L5 & V5 & Q5).
  destruct (next_visible E k c (fun M P => (forall n, clean P n) /\ M ks kp = Some (fa o))) with (2 := L5) (3 := V5) (4 := Q5)
    as (z5 & t6 & Mc & Pc & M6 & P6 & [Cc Hc] & Mv6 & Vz6 & L6 & V6).
  { intros M P n a M' P' Hmv [C Hm]. split; [intros q; eapply (clean_move _ _ _ _ _ []); [exact Hmv|intros ? ? []|intros ? []|apply C]|eapply quiet_move; eauto]. }
  assert (R6 : reading j (opers (E j) cs) M6 P6).
  { inversion Mv6 as [? ? n cs0 Hn|? ? n a l1 l2 ws M0 qs0 Hs He|? ? n ws qs Hs Hp]; subst; cbn [visible flat_map app] in Vz6; try discriminate. injection Vz6 as -> ->.
    split; [|split; [exact Hc|]].
    - intros n. eapply (clean_move _ _ _ _ _ [Called j cs]); [exact Mv6| |intros q Hq; exact Hq|apply Cc]. intros a b [Hab|[]]. apply U. unfold hall. rewrite !in_app_iff. right; right; right. left. exact Hab.
    - eexists _, _. split; [unfold upd; rewrite Z.eqb_refl; reflexivity|]. auto. }
  (* while it is read *)
  assert (HI6 : forall M P z M' P', move E k c M P z M' P' -> (forall y, In y (visible [z]) -> In y h4) -> reading j (opers (E j) cs) M P -> reading j (opers (E j) cs) M' P')
    by (intros M P z' M' P' Hm Hz S; eapply reading_move; [exact Hm|exact U4|exact Sj|exact Hz|exact S]).
  destruct (piece E k c (reading j (opers (E j) cs)) h4 HI6 h4 t6 _ _ _ (fun y Hy => Hy) L6 V6 R6) as (t7 & M7 & P7 & L7 & V7 & R7).
  destruct (next_visible E k c (reading j (opers (E j) cs))) with (2 := L7) (3 := V7) (4 := R7) as (z7 & t8 & Md & Pd & M8 & P8 & Rd & Mv8 & Vz8 & L8 & V8).
  { intros M P n a M' P' Hmv C. eapply (reading_move _ _ _ _ _ _ _ []); [exact Hmv|intros ? ? []|intros ? []|intros ? []|apply C]. }
  destruct Rd as (_ & _ & l & qs & Hl & HR).
  inversion Mv8 as [? ? n cs0 Hn|? ? n a l1 l2 ws M0 qs0 Hs He|? ? n ws rs Hs Hp]; subst; cbn [visible flat_map app] in Vz8; try discriminate. injection Vz8 as -> ->.
  rewrite Hl in Hs. injection Hs as -> ->. destruct (HR x y ty Hg Ex Ey) as [[]|Hi]. apply (Permutation_in _ (Permutation_sym Hp)). exact Hi.
Qed.
End Seen.

(* what is seen comes from the labels *)
Lemma step_called E st l st' h i cs : step E st l = Ok (st', h) -> In (Called i cs) h -> l = LCall i cs.
Proof.
  intros H Hi. destruct st as [C cl]. unfold step in H. destruct l as [n ds|n j|n|n|n]; cbn [who] in H; destruct (c_mode (C n)) as [|ts xs].
  - apply obind_ok in H as ([[s1 cl1] oks] & _ & H). injection H as _ <-. destruct Hi as [Hi|[]]. injection Hi as -> ->. reflexivity.
  - injection H as _ <-. destruct Hi.
  - injection H as _ <-. destruct Hi.
  - destruct ts as [|t ts]; [injection H as _ <-; destruct Hi|]. destruct (nth_error (t_far t) j) as [[r m]|]; [|injection H as _ <-; destruct Hi].
    destruct (e_transport (E n)); [|discriminate]. apply obind_ok in H as ([cl' a] & _ & H). apply obind_ok in H as (ys & _ & H). injection H as _ <-. destruct Hi.
  - injection H as _ <-. destruct Hi.
  - destruct ts as [|[[|f fs] [|m ms]] ts]; try (injection H as _ <-; destruct Hi).
    apply obind_ok in H as ([cl' a] & _ & H). apply obind_ok in H as (ys & _ & H). injection H as _ <-. destruct Hi.
  - injection H as _ <-. destruct Hi.
  - destruct ts as [|[[|f fs] [|m ms]] ts]; injection H as _ <-; destruct Hi.
  - injection H as _ <-. destruct Hi.
  - destruct ts as [|t ts]; injection H as _ <-; [destruct Hi as [Hi|[]]; discriminate|destruct Hi].
Qed.
Lemma run_called E i cs : forall ls st st' h, run E st ls = Ok (st', h) -> In (Called i cs) h -> In (LCall i cs) ls.
Proof.
  induction ls as [|l ls IH]; intros st st' h H Hi; cbn [run] in H; [injection H as _ <-; destruct Hi|].
  apply obind_ok in H as ([st1 h1] & E1 & H). apply obind_ok in H as ([st2 h2] & E2 & H). injection H as _ <-. apply in_app_iff in Hi.
  destruct Hi as [Hi|Hi]; [left; eapply step_called; eassumption|right; eapply IH; eassumption].
Qed.
