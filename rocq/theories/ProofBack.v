(* A pair that only one client changes, while others work *)
From Verif Require Import ModelBytes ProofBytes ModelKey ModelWire ModelHist ModelMsg SpecMsg ModelStore ModelGetOp ModelDs
  ProofStore ModelElen ModelRoute SpecRoute ModelClient SpecClient SpecCluster ProofClient SpecScan ModelPar SpecPar ModelAsync ModelBack SpecStore SpecBack.
Local Open Scope N_scope.

Section Sole.
Context (E : Z -> env) (k : backend) (c : codec) (s p : field) (t : Z).
Definition vset (v : option field) (a : oper) : option field :=
  match a with
  | OPut x y o => if feqb (fa x) s && feqb (fa y) p then Some (fa o) else v
  | ODel x y => if feqb (fa x) s && feqb (fa y) p then None else v
  | _ => v
  end.
Definition vsets (v : option field) (l : list oper) : option field := fold_left vset l v.
Lemma effect_vset e M a M' xs : effect e k c M a M' xs -> M' s p = vset (M s p) a.
Proof. destruct a as [x y o|x y ty|a|x y]; cbn [effect vset]; intros [-> _]; reflexivity. Qed.
Lemma quiet_vset v a : ~ changes s p a -> vset v a = v.
Proof.
  intros H. destruct a as [x y o|x y ty|a|x y]; cbn [vset changes] in *; try reflexivity;
    (destruct (feqb (fa x) s) eqn:E1; [destruct (feqb (fa y) p) eqn:E2|]; cbn [andb]; try reflexivity; exfalso; apply H; split; apply feqb_eq; assumption).
Qed.
Lemma quiet_vsets v l : (forall a, In a l -> ~ changes s p a) -> vsets v l = v.
Proof. revert v. induction l as [|a l IH]; intros v H; [reflexivity|]. unfold vsets. cbn [fold_left]. rewrite quiet_vset by (apply H; left; reflexivity). apply IH. intros b Hb. apply H. right. exact Hb. Qed.
Lemma vsets_app v a b : vsets v (a ++ b) = vsets (vsets v a) b.
Proof. apply fold_left_app. Qed.
Lemma changes_dec a : changes s p a \/ ~ changes s p a.
Proof.
  destruct a as [x y o|x y ty|a|x y]; cbn [changes]; auto;
    (destruct (feqb (fa x) s) eqn:E1; [destruct (feqb (fa y) p) eqn:E2|]; [left; split; apply feqb_eq; assumption| |];
     right; intros [H1 H2]; [apply feqb_eq in H2|apply feqb_eq in H1]; congruence).
Qed.
Lemma changes_place e a b : changes s p a -> changes s p b -> place e a = place e b.
Proof.
  assert (X : forall x y x' y', fa x = s /\ fa y = p -> fa x' = s /\ fa y' = p -> at_ e x y = at_ e x' y').
  { intros x y x' y' [H1 H2] [H3 H4]. unfold at_, target. rewrite <- H3 in H1. rewrite <- H4 in H2. apply (f_equal f_data) in H1, H2. cbn [fa f_data] in H1, H2. rewrite H1, H2. reflexivity. }
  destruct a, b; cbn [changes place]; intros; try contradiction; apply X; assumption.
Qed.
Lemma overtake e v l1 a l2 : (forall b, In b l1 -> phase b = phase a /\ place e b <> place e a) -> vsets v (l1 ++ a :: l2) = vsets (vset v a) (l1 ++ l2).
Proof.
  intros H. rewrite !vsets_app. change (vsets (vsets v l1) (a :: l2)) with (vsets (vset (vsets v l1) a) l2). f_equal. destruct (changes_dec a) as [Ha|Ha].
  - assert (Q : forall b, In b l1 -> ~ changes s p b) by (intros b Hb Hc; apply (proj2 (H b Hb)); apply changes_place; assumption).
    rewrite !quiet_vsets by exact Q. reflexivity.
  - rewrite !quiet_vset by exact Ha. reflexivity.
Qed.

(* what t has called but not returned *)
Fixpoint open_call (o : option (list call)) (h : list shown) : option (list call) :=
  match h with
  | [] => o
  | Called i cs :: h' => open_call (if (i =? t)%Z then Some cs else o) h'
  | Returned i _ :: h' => open_call (if (i =? t)%Z then None else o) h'
  end.
Definition calls_of (h : list shown) : list oper :=
  flat_map (fun x => match x with Called i cs => if (i =? t)%Z then opers (E t) cs else [] | _ => [] end) h.
Definition tidy (P : pending) (i : Z) : Prop := forall l xs, P i = Some (l, xs) -> forall a, In a l -> ~ changes s p a.
Definition due (M : tmap) (P : pending) (o : option (list call)) (v : option field) : Prop :=
  match P t, o with
  | None, None => M s p = v
  | Some (l, _), Some cs => vsets (M s p) l = v /\ incl l (opers (E t) cs)
  | _, _ => False
  end.
Lemma sole_prefix : forall h1 tr M P rest o v, legal E k c M P tr -> visible tr = h1 ++ rest -> only E t s p h1 ->
  (forall i, i <> t -> tidy P i) -> due M P o v ->
  exists tr' M' P', legal E k c M' P' tr' /\ visible tr' = rest /\ (forall i, i <> t -> tidy P' i) /\ due M' P' (open_call o h1) (vsets v (calls_of h1)).
Proof.
  induction h1 as [|y h1 IH]; intros tr M P rest o v L V U T D.
  - exists tr, M, P. auto.
  - assert (U' : only E t s p h1) by (intros i cs Hi Hc; apply (U i cs Hi); right; exact Hc).
    revert M P L V T D. induction tr as [|x tr IHt]; intros M P L V T D; [discriminate|].
    inversion L as [|? ? i cs ? Hn L'|? ? i a l1 l2 xs M' ys ? Hs Ho He L'|? ? i xs ys ? Hs Hp L']; subst.
    + injection V as <- V. cbn [open_call calls_of flat_map]. rewrite vsets_app. eapply IH; [exact L'|exact V|exact U'| |].
      * intros j Hj l zs. unfold upd. destruct (Z.eqb_spec j i) as [->|Hji]; [|apply T, Hj]. intros X. injection X as <- <-. apply (U i cs Hj). left. reflexivity.
      * unfold due, upd in *. rewrite (Z.eqb_sym t i). destruct (Z.eqb_spec i t) as [->|Hit]; [|cbn [vsets fold_left]; exact D].
        rewrite Hn in D. destruct o; [contradiction|]. split; [rewrite D; reflexivity|apply incl_refl].
    + apply (IHt M' _ L' V).
      * intros j Hj l zs. unfold upd. destruct (Z.eqb_spec j i) as [->|Hji]; [|apply T, Hj]. intros X. injection X as <- <-. intros b Hb. apply (T i Hj _ _ Hs). apply in_app_iff in Hb. apply in_app_iff. destruct Hb; [auto|right; right; assumption].
      * unfold due, upd in *. rewrite (Z.eqb_sym t i). destruct (Z.eqb_spec i t) as [->|Hit].
        -- rewrite Hs in D. destruct o as [cs|]; [|contradiction]. destruct D as [Dv Di]. split.
           ++ rewrite (effect_vset _ _ _ _ _ He), <- (overtake (E t)) by exact Ho. exact Dv.
           ++ intros b Hb. apply Di. apply in_app_iff in Hb. apply in_app_iff. destruct Hb; [auto|right; right; assumption].
        -- rewrite (effect_vset _ _ _ _ _ He), quiet_vset; [exact D|]. apply (T i Hit _ _ Hs). apply in_app_iff. right. left. reflexivity.
    + injection V as <- V. cbn [open_call calls_of flat_map]. eapply IH; [exact L'|exact V|exact U'| |].
      * intros j Hj l zs. unfold upd. destruct (Z.eqb_spec j i) as [->|Hji]; [discriminate|apply T, Hj].
      * unfold due, upd in *. rewrite (Z.eqb_sym t i). destruct (Z.eqb_spec i t) as [->|Hit]; [|exact D].
        rewrite Hs in D. destruct o as [cs|]; [|contradiction]. exact (proj1 D).
Qed.

(* nobody changes the pair *)
Definition quiet (v : option field) (M : tmap) (P : pending) : Prop := (forall i, tidy P i) /\ M s p = v.
(* j is asking; gs: what it asks *)
Definition asking (v : option field) (j : Z) (gs : list oper) (M : tmap) (P : pending) : Prop :=
  quiet v M P /\ exists l ys, P j = Some (l, ys) /\ forall x y ty, In (OGet x y ty) gs -> fa x = s -> fa y = p ->
    In (OGet x y ty) l \/ In (get_gives (E j) x y v) ys.
(* one event: what is visible of it is in h *)
Lemma quiet_oper v M P i a l1 l2 xs M' ys : P i = Some (l1 ++ a :: l2, xs) -> effect (E i) k c M a M' ys -> quiet v M P -> quiet v M' (upd P i (Some (l1 ++ l2, xs ++ ys))).
Proof.
  intros Hs He [T Hm]. split.
  - intros j l zs. unfold upd. destruct (Z.eqb_spec j i) as [->|Hji]; [|apply T]. intros X. injection X as <- <-. intros b Hb. apply (T i _ _ Hs). apply in_app_iff in Hb. apply in_app_iff. destruct Hb; [auto|right; right; assumption].
  - rewrite (effect_vset _ _ _ _ _ He), quiet_vset; [exact Hm|]. apply (T i _ _ Hs). apply in_app_iff. right. left. reflexivity.
Qed.
Lemma quiet_call v M P i cs : (forall a, In a (opers (E i) cs) -> ~ changes s p a) -> quiet v M P -> quiet v M (upd P i (Some (opers (E i) cs, []))).
Proof. intros H [T Hm]. split; [|exact Hm]. intros j l zs. unfold upd. destruct (Z.eqb_spec j i) as [->|Hji]; [|apply T]. intros X. injection X as <- <-. exact H. Qed.
Lemma quiet_return v M P i : quiet v M P -> quiet v M (upd P i None).
Proof. intros [T Hm]. split; [|exact Hm]. intros j l zs. unfold upd. destruct (Z.eqb_spec j i) as [->|Hji]; [discriminate|apply T]. Qed.
Lemma quiet_piece v : forall h tr M P rest, legal E k c M P tr -> visible tr = h ++ rest -> untouched E s p h -> quiet v M P ->
  exists tr' M' P', legal E k c M' P' tr' /\ visible tr' = rest /\ quiet v M' P'.
Proof.
  induction h as [|y h IH]; intros tr M P rest L V U Q; [exists tr, M, P; auto|].
  assert (U' : untouched E s p h) by (intros i cs Hc; apply (U i cs); right; exact Hc).
  revert M P L V Q. induction tr as [|x tr IHt]; intros M P L V Q; [discriminate|].
  inversion L as [|? ? i cs ? Hn L'|? ? i a l1 l2 xs M' ys ? Hs Ho He L'|? ? i xs ys ? Hs Hp L']; subst.
  - injection V as <- V. eapply IH; [exact L'|exact V|exact U'|]. apply quiet_call; [apply (U i cs); left; reflexivity|exact Q].
  - apply (IHt M' _ L' V). eapply quiet_oper; eassumption.
  - injection V as <- V. eapply IH; [exact L'|exact V|exact U'|]. apply quiet_return, Q.
Qed.
Lemma asking_piece v j gs : forall h tr M P rest, legal E k c M P tr -> visible tr = h ++ rest -> untouched E s p h -> still j h -> asking v j gs M P ->
  exists tr' M' P', legal E k c M' P' tr' /\ visible tr' = rest /\ asking v j gs M' P'.
Proof.
  induction h as [|y h IH]; intros tr M P rest L V U St Q; [exists tr, M, P; auto|].
  assert (U' : untouched E s p h) by (intros i cs Hc; apply (U i cs); right; exact Hc).
  assert (St' : still j h) by (intros zs Hz; apply (St zs); right; exact Hz).
  revert M P L V Q. induction tr as [|x tr IHt]; intros M P L V Q; [discriminate|]. pose proof Q as [Qu (l & ys & Hl & HR)].
  inversion L as [|? ? i cs ? Hn L'|? ? i a l1 l2 xs M' zs ? Hs Ho He L'|? ? i xs zs ? Hs Hp L']; subst.
  - injection V as <- V. eapply IH; [exact L'|exact V|exact U'|exact St'|]. split; [apply quiet_call; [apply (U i cs); left; reflexivity|exact Qu]|].
    exists l, ys. split; [|exact HR]. unfold upd. destruct (Z.eqb_spec j i) as [->|]; [congruence|exact Hl].
  - apply (IHt M' _ L' V). split; [eapply quiet_oper; eassumption|]. unfold upd. destruct (Z.eqb_spec j i) as [->|]; [|exists l, ys; auto].
    rewrite Hl in Hs. injection Hs as -> ->. eexists _, _. split; [reflexivity|].
    intros x0 y0 ty Hg Ex Ey. destruct (HR x0 y0 ty Hg Ex Ey) as [Hi|Hi]; [|right; apply in_app_iff; auto]. apply in_app_iff in Hi. destruct Hi as [Hi|[->|Hi]].
    + left. apply in_app_iff. auto.
    + right. apply in_app_iff. right. destruct He as [_ ->]. left. rewrite Ex, Ey, (proj2 Qu). unfold get_gives. destruct v; reflexivity.
    + left. apply in_app_iff. auto.
  - injection V as <- V. eapply IH; [exact L'|exact V|exact U'|exact St'|]. split; [apply quiet_return, Qu|]. exists l, ys. split; [|exact HR].
    unfold upd. destruct (Z.eqb_spec j i) as [->|]; [|exact Hl]. exfalso. apply (St xs). left. reflexivity.
Qed.

Lemma sole_seen h1 h3 j cs h4 xs h5 :
  explained E k c (h1 ++ h3 ++ Called j cs :: h4 ++ Returned j xs :: h5) -> only E t s p h1 ->
  (forall cs', open_call None h1 = Some cs' -> forall a, In a (opers (E t) cs') -> ~ changes s p a) ->
  untouched E s p (h3 ++ Called j cs :: h4) -> still j h4 ->
  forall x y ty, In (OGet x y ty) (opers (E j) cs) -> fa x = s -> fa y = p -> In (get_gives (E j) x y (vsets None (calls_of h1))) xs.
Proof.
  intros (tr & L & V) U1 Op U Sj x y ty Hg Ex Ey. set (v := vsets None (calls_of h1)).
  destruct (sole_prefix h1 tr _ _ _ None None L V U1) as (t1 & M1 & P1 & L1 & V1 & T1 & D1); [intros ? ? ? ? X; discriminate|reflexivity|].
  assert (Q1 : quiet v M1 P1).
  { unfold due in D1. fold v in D1. destruct (P1 t) as [[l zs]|] eqn:Pt, (open_call None h1) as [cs'|]; try contradiction.
    - destruct D1 as [Dv Di]. assert (N : forall a, In a l -> ~ changes s p a) by (intros a Ha; eapply Op; [reflexivity|apply Di, Ha]). rewrite quiet_vsets in Dv by exact N.
      split; [|exact Dv]. intros i. destruct (Z.eq_dec i t) as [->|Hi]; [|apply T1, Hi]. intros l' zs' X. rewrite Pt in X. injection X as <- <-. exact N.
    - split; [|exact D1]. intros i. destruct (Z.eq_dec i t) as [->|Hi]; [|apply T1, Hi]. intros l' zs' X. congruence. }
  assert (V1' : visible t1 = (h3 ++ [Called j cs]) ++ h4 ++ Returned j xs :: h5) by (rewrite <- app_assoc; exact V1).
  destruct (quiet_piece v h3 t1 M1 P1 _ L1 V1) as (t2 & M2 & P2 & L2 & V2 & Q2); [intros i zs Hz; apply (U i zs); apply in_app_iff; auto|exact Q1|].
  clear L1 V1 V1' Q1 D1 T1 M1 P1 L V.
  (* up to the call of j *)
  assert (Ha : exists t3 M3 P3, legal E k c M3 P3 t3 /\ visible t3 = h4 ++ Returned j xs :: h5 /\ asking v j (opers (E j) cs) M3 P3).
  { revert M2 P2 L2 V2 Q2. induction t2 as [|e t2 IHt]; intros M P L V Q; [discriminate|].
    inversion L as [|? ? i cs0 ? Hn L'|? ? i a l1 l2 zs M' ys ? Hs Ho He L'|? ? i zs ys ? Hs Hp L']; subst.
    - injection V as -> -> V. eexists _, _, _. split; [exact L'|]. split; [exact V|]. split; [apply quiet_call; [apply (U j cs); apply in_app_iff; right; left; reflexivity|exact Q]|].
      eexists _, _. split; [unfold upd; rewrite Z.eqb_refl; reflexivity|]. auto.
    - apply (IHt M' _ L' V). eapply quiet_oper; eassumption.
    - discriminate. }
  destruct Ha as (t3 & M3 & P3 & L3 & V3 & A3).
  destruct (asking_piece v j (opers (E j) cs) h4 t3 M3 P3 _ L3 V3) as (t4 & M4 & P4 & L4 & V4 & A4); [intros i zs Hz; apply (U i zs); apply in_app_iff; right; right; exact Hz|exact Sj|exact A3|].
  clear - L4 V4 A4 Hg Ex Ey. revert M4 P4 L4 V4 A4. induction t4 as [|e t4 IHt]; intros M P L V A; [discriminate|].
  inversion L as [|? ? i cs0 ? Hn L'|? ? i a l1 l2 zs M' ys ? Hs Ho He L'|? ? i zs ys ? Hs Hp L']; subst; [discriminate| |].
  - apply (IHt M' _ L' V). destruct A as [Qu (l & qs & Hl & HR)]. split; [eapply quiet_oper; eassumption|]. unfold upd. destruct (Z.eqb_spec j i) as [->|]; [|exists l, qs; auto].
    rewrite Hl in Hs. injection Hs as -> ->. eexists _, _. split; [reflexivity|].
    intros x0 y0 ty0 Hg0 Ex0 Ey0. destruct (HR x0 y0 ty0 Hg0 Ex0 Ey0) as [Hi|Hi]; [|right; apply in_app_iff; auto]. apply in_app_iff in Hi. destruct Hi as [Hi|[->|Hi]].
    + left. apply in_app_iff. auto.
    + right. apply in_app_iff. right. destruct He as [_ ->]. left. rewrite Ex0, Ey0, (proj2 Qu). unfold get_gives. destruct v; reflexivity.
    + left. apply in_app_iff. auto.
  - injection V as -> -> V. destruct A as [_ (l & qs & Hl & HR)]. rewrite Hl in Hs. injection Hs as -> ->.
    destruct (HR x y ty Hg Ex Ey) as [[]|Hi]. apply (Permutation_in _ (Permutation_sym Hp)). exact Hi.
Qed.
End Sole.
