From Verif Require Import ModelBytes ModelOwn SpecOwn ProofBytes ProofStore.
Local Open Scope nat_scope.

(* ---- the heap ---- *)
Definition inv (h : heap) (L : list N) : Prop :=
  NoDup (in_use h) /\ (forall b, In b (in_use h) -> (b < h_next h)%N) /\ Permutation L (in_use h).
Definition same_on (L : list N) (h h' : heap) : Prop := forall b, In b L -> size_of h' b = size_of h b.

Lemma inv_perm : forall h L L', Permutation L' L -> inv h L -> inv h L'.
Proof. intros h L L' P (A & B & C). repeat split; auto. now rewrite P. Qed.
Lemma inv_nodup : forall h L, inv h L -> NoDup L.
Proof. intros h L (A & _ & C). eapply Permutation_NoDup; [ symmetry; exact C | exact A ]. Qed.
Lemma same_refl : forall L h, same_on L h h. Proof. intros L h b _. reflexivity. Qed.
Lemma same_trans : forall L h1 h2 h3, same_on L h1 h2 -> same_on L h2 h3 -> same_on L h1 h3.
Proof. intros L h1 h2 h3 A B b Hb. rewrite (B b Hb). exact (A b Hb). Qed.
Lemma same_incl : forall L L' h h', incl L' L -> same_on L h h' -> same_on L' h h'.
Proof. intros L L' h h' I S b Hb. apply S, I, Hb. Qed.

Lemma size_of_in : forall h b, In b (in_use h) -> exists s, size_of h b = Some s.
Proof.
  intros [nx l] b. unfold in_use, size_of. cbn [h_live]. induction l as [|[x s] l IH]; cbn [map In find fst]; [ tauto |].
  intros [-> | H]; [ rewrite N.eqb_refl; now exists s |]. destruct (N.eqb x b); [ now exists s | auto ].
Qed.
Lemma filter_ids : forall b (l : list (N * nat)), NoDup (map fst l) -> In b (map fst l) ->
  Permutation (map fst l) (b :: map fst (filter (fun x => negb (N.eqb (fst x) b)) l)).
Proof.
  intros b l. induction l as [|[x s] l IH]; cbn [map In filter fst]; [ tauto |].
  intros ND H. inversion ND as [|? ? Hx ND']; subst. destruct (N.eqb_spec x b) as [-> | Ne]; cbn [negb].
  - apply perm_skip. clear - Hx. induction l as [|[y t] l IH]; cbn [map filter fst]; [ reflexivity |].
    cbn [map In fst] in Hx. destruct (N.eqb_spec y b) as [-> | Ny]; cbn [negb map fst]; [ tauto |]. apply perm_skip, IH. tauto.
  - destruct H as [-> | H]; [ tauto |]. cbn [map fst]. etransitivity; [ apply perm_skip, (IH ND' H) |]. apply perm_swap.
Qed.
Lemma filter_find : forall b b' (l : list (N * nat)), b' <> b ->
  find (fun x => N.eqb (fst x) b') (filter (fun x => negb (N.eqb (fst x) b)) l) = find (fun x => N.eqb (fst x) b') l.
Proof.
  intros b b' l Ne. induction l as [|[x s] l IH]; cbn [filter find fst]; [ reflexivity |].
  destruct (N.eqb_spec x b) as [-> | Nx]; cbn [negb find fst].
  - destruct (N.eqb_spec b b') as [-> | _]; [ congruence | exact IH ].
  - destruct (N.eqb x b'); [ reflexivity | exact IH ].
Qed.

Lemma dealloc_inv : forall d p n h L, inv h (pointer p ++ L) ->
  (forall b s, p = Some b -> size_of h b = Some s -> d = true -> n <= s) ->
  exists h', dealloc_array d p n h = Ok h' /\ inv h' L /\ same_on L h h'.
Proof.
  intros d [b|] n h L I D; cbn [pointer app dealloc_array] in *; [| exists h; split; [ reflexivity | split; [ exact I | apply same_refl ] ] ].
  pose proof I as (ND & Bd & P). assert (Hb : In b (in_use h)) by (eapply Permutation_in; [ exact P | now left ]).
  destruct (size_of_in _ _ Hb) as [s Es]. rewrite Es.
  assert (Ed : d && (s <? n) = false).
  { destruct d; [| reflexivity ]. cbn [andb]. apply Nat.ltb_ge. now apply (D b s). }
  rewrite Ed. eexists. split; [ reflexivity |].
  pose proof (filter_ids b (h_live h) ND Hb) as F. fold (in_use h) in F.
  split; [ repeat split |].
  - unfold in_use. cbn [h_live]. apply (Permutation_NoDup F) in ND. now inversion ND.
  - unfold in_use. cbn [h_live h_next]. intros x Hx. apply Bd. eapply Permutation_in; [ symmetry; exact F |]. now right.
  - unfold in_use. cbn [h_live]. apply (Permutation_cons_inv (a := b)). now rewrite P.
  - intros x Hx. unfold size_of. cbn [h_live]. rewrite filter_find; [ reflexivity |]. intros ->.
    apply inv_nodup in I. inversion I. contradiction.
Qed.

Lemma alloc_inv : forall n h L p h', inv h L -> alloc_array n h = (p, h') ->
  inv h' (pointer p ++ L) /\ same_on L h h' /\ (n = 0 -> p = None) /\ (0 < n -> exists b, p = Some b /\ size_of h' b = Some n).
Proof.
  intros [|n] h L p h' I E; cbn [alloc_array] in E; inversion E; subst; clear E; cbn [pointer app].
  - split; [ exact I |]. split; [ apply same_refl |]. split; [ reflexivity | lia ].
  - destruct I as (ND & Bd & P). assert (Nw : ~ In (h_next h) (in_use h)) by (intros H; apply Bd in H; lia).
    split; [ repeat split |].
    + cbn. now constructor.
    + unfold in_use. cbn [h_live map fst h_next In]. intros b [<- | H]; [ lia |]. apply Bd in H. lia.
    + unfold in_use. cbn [h_live map fst]. now apply perm_skip.
    + split; [| split; [ discriminate |] ].
      * intros b Hb. unfold size_of. cbn [h_live find fst]. destruct (N.eqb_spec (h_next h) b) as [<- | _]; [| reflexivity ].
        exfalso. apply Nw. now apply (Permutation_in _ P).
      * intros _. exists (h_next h). split; [ reflexivity |]. unfold size_of. cbn [h_live find fst]. now rewrite N.eqb_refl.
Qed.

(* ---- arrays of a message ---- *)
Definition pts (f : members) : list N := flat_map (fun a => pointer (f a)) every_member.
Lemma every_member_all : forall a, In a every_member. Proof. intros []; cbn; tauto. Qed.
Lemma every_member_nodup : NoDup every_member.
Proof. repeat constructor; cbn; intros H; repeat destruct H as [H | H]; try discriminate H; exact H. Qed.
Lemma set_same : forall f a p, set f a p a = p. Proof. intros. unfold set. now destruct (member_eq a a). Qed.
Lemma set_other : forall f a p a', a <> a' -> set f a p a' = f a'. Proof. intros. unfold set. now destruct (member_eq a a'). Qed.
Lemma pts_on : forall l f a p, NoDup l -> In a l ->
  Permutation (flat_map (fun x => pointer (set f a p x)) l ++ pointer (f a)) (pointer p ++ flat_map (fun x => pointer (f x)) l).
Proof.
  intros l f a p. induction l as [|x l IH]; cbn [In flat_map]; [ tauto |]. intros ND H. inversion ND as [|? ? Hx ND']; subst.
  destruct (member_eq x a) as [-> | Ne].
  - rewrite set_same.
    assert (E : flat_map (fun x => pointer (set f a p x)) l = flat_map (fun x => pointer (f x)) l).
    { clear - Hx. induction l as [|y l IH]; cbn [flat_map]; [ reflexivity |]. rewrite set_other by (intros ->; apply Hx; now left). now rewrite IH by (intros C; apply Hx; now right). }
    rewrite E, <- app_assoc. apply Permutation_app_head, Permutation_app_comm.
  - destruct H as [-> | H]; [ congruence |]. rewrite set_other by congruence. rewrite <- app_assoc, (IH ND' H).
    rewrite !app_assoc. apply Permutation_app_tail, Permutation_app_comm.
Qed.
Lemma pts_set : forall f a p, Permutation (pts (set f a p) ++ pointer (f a)) (pointer p ++ pts f).
Proof. intros. apply pts_on; [ apply every_member_nodup | apply every_member_all ]. Qed.
Lemma pts_clear : forall f a, Permutation (pts f) (pointer (f a) ++ pts (set f a None)).
Proof. intros f a. pose proof (pts_set f a None) as P. cbn [pointer app] in P. rewrite <- P. apply Permutation_app_comm. Qed.
Lemma pts_fill : forall f a p, f a = None -> Permutation (pts (set f a p)) (pointer p ++ pts f).
Proof. intros f a p E. pose proof (pts_set f a p) as P. rewrite E in P. cbn [pointer] in P. now rewrite app_nil_r in P. Qed.
Lemma pts_none : forall f, (forall a, f a = None) -> pts f = [].
Proof. intros f H. unfold pts. cbn [every_member flat_map]. now rewrite !H. Qed.
Lemma pts_in : forall f a b, f a = Some b -> In b (pts f).
Proof. intros f a b E. unfold pts. apply in_flat_map. exists a. split; [ apply every_member_all | rewrite E; now left ]. Qed.

Lemma release_inv : forall k max l f h L, inv h (pts f ++ L) ->
  (forall a b s, In a l -> f a = Some b -> size_of h b = Some s -> destroys k a = true -> max <= s) ->
  exists f' h', release k l max f h = Ok (f', h') /\ (forall a, f' a = None \/ f' a = f a) /\ (forall a, In a l -> f' a = None) /\ inv h' (pts f' ++ L) /\ same_on L h h'.
Proof.
  intros k max l. induction l as [|a l IH]; intros f h L I D.
  - exists f, h. cbn [release]. split; [ reflexivity |]. split; [ auto |]. split; [ intros a [] |]. split; [ exact I | apply same_refl ].
  - cbn [release].
    assert (I' : inv h (pointer (f a) ++ (pts (set f a None) ++ L))).
    { eapply inv_perm; [| exact I ]. rewrite app_assoc. apply Permutation_app_tail. symmetry. apply pts_clear. }
    destruct (dealloc_inv (destroys k a) (f a) max h _ I') as (h1 & E1 & I1 & S1).
    { intros b s Eb Es Ed. eapply D; [ now left | exact Eb | exact Es | exact Ed ]. }
    rewrite E1. cbn [obind].
    destruct (IH (set f a None) h1 L I1) as (f' & h' & E2 & F1 & F2 & I2 & S2).
    { intros a' b s Ha Eb Es Ed. rewrite S1 in Es by (apply in_or_app; left; eapply pts_in; exact Eb).
      unfold set in Eb. destruct (member_eq a a'); [ discriminate Eb |]. eapply D; [ right; exact Ha | exact Eb | exact Es | exact Ed ]. }
    exists f', h'. split; [ exact E2 |]. split; [| split; [| split; [ exact I2 |] ] ].
    + intros a'. destruct (F1 a') as [E | E]; [ now left |]. rewrite E. unfold set. destruct (member_eq a a'); auto.
    + intros a' [<- | Ha]; [| now apply F2 ]. destruct (F1 a) as [E | E]; [ exact E |]. now rewrite E, set_same.
    + eapply same_trans; [| exact S2 ]. eapply same_incl; [| exact S1 ]. intros x Hx. apply in_or_app. now right.
Qed.

Lemma acquire_inv : forall max l f h L f' h', 0 < max -> NoDup l -> (forall a, In a l -> f a = None) -> inv h (pts f ++ L) -> acquire l max f h = (f', h') ->
  inv h' (pts f' ++ L) /\ same_on (pts f ++ L) h h' /\ (forall a, ~ In a l -> f' a = f a) /\ (forall a, In a l -> exists b, f' a = Some b /\ size_of h' b = Some max).
Proof.
  intros max l. induction l as [|a l IH]; intros f h L f' h' M ND No I E; cbn [acquire] in E.
  - inversion E; subst. split; [ exact I |]. split; [ apply same_refl |]. split; [ auto | intros a [] ].
  - destruct (alloc_array max h) as [p h1] eqn:Ea. destruct (alloc_inv _ _ _ _ _ I Ea) as (I1 & S1 & _ & P1). destruct (P1 M) as (b & -> & Eb). clear P1.
    inversion ND as [|? ? Ha ND']; subst.
    assert (Pf : Permutation (pts (set f a (Some b)) ++ L) ([b] ++ pts f ++ L)).
    { rewrite (pts_fill f a (Some b)) by (apply No; now left). now rewrite <- app_assoc. }
    destruct (IH (set f a (Some b)) h1 L f' h' M ND') as (I2 & S2 & F1 & F2); [| eapply inv_perm; [ exact Pf | exact I1 ] | exact E |].
    { intros a' Ha'. rewrite set_other by (intros ->; contradiction). apply No. now right. }
    split; [ exact I2 |]. split; [| split ].
    + eapply same_trans; [ exact S1 |]. eapply same_incl; [| exact S2 ]. intros x Hx. eapply Permutation_in; [ symmetry; exact Pf |]. now right.
    + intros a' Na. rewrite F1 by (intros C; apply Na; now right). apply set_other. intros ->. apply Na. now left.
    + intros a' [<- | Ha']; [| now apply F2 ]. exists b. rewrite (F1 a Ha), set_same. split; [ reflexivity |]. rewrite S2; [ exact Eb |].
      eapply Permutation_in; [ symmetry; exact Pf |]. now left.
Qed.

(* ---- records ---- *)
Definition fine_p (h : heap) (n : nat) (p : option N) : Prop := forall b, p = Some b -> exists s, size_of h b = Some s /\ n <= s.
Definition fine_record (h : heap) (r : record) : Prop := fine_p h (r_num r) (r_s r) /\ fine_p h (r_num r) (r_p r) /\ fine_p h (r_num r) (r_o r).
Lemma fine_same : forall h h' r, same_on (record_owns r) h h' -> fine_record h r -> fine_record h' r.
Proof.
  intros h h' [s p o n] S (A & B & C). unfold fine_record, record_owns in *. cbn [r_s r_p r_o r_num] in *.
  repeat split; intros b Eb; subst; [ destruct (A b eq_refl) as (z & Ez & Le) | destruct (B b eq_refl) as (z & Ez & Le) | destruct (C b eq_refl) as (z & Ez & Le) ];
    exists z; (split; [| exact Le ]); rewrite <- Ez; apply S; rewrite !in_app_iff; cbn; tauto.
Qed.
Lemma dealloc_fine : forall p n h L, inv h (pointer p ++ L) -> fine_p h n p -> exists h', dealloc_array true p n h = Ok h' /\ inv h' L /\ same_on L h h'.
Proof.
  intros p n h L I F. apply dealloc_inv; [ exact I |]. intros b s -> Es _. destruct (F b eq_refl) as (z & Ez & Le). congruence.
Qed.
Lemma fine_p_same : forall h h' n p, same_on (pointer p) h h' -> fine_p h n p -> fine_p h' n p.
Proof. intros h h' n p S F b ->. destruct (F b eq_refl) as (z & Ez & Le). exists z. split; [| exact Le ]. rewrite <- Ez. apply S. now left. Qed.
Lemma release_records_inv : forall l h L, inv h (flat_map record_owns l ++ L) -> Forall (fine_record h) l ->
  exists h', release_records l h = Ok h' /\ inv h' L /\ same_on L h h'.
Proof.
  intros l. induction l as [|r l IH]; intros h L I F; cbn [release_records flat_map app] in *.
  - exists h. split; [ reflexivity | split; [ exact I | apply same_refl ] ].
  - inversion F as [|? ? (Fs & Fp & Fo) Fl]; subst. unfold record_owns in I. rewrite <- !app_assoc in I.
    destruct (dealloc_fine _ _ _ _ I Fs) as (h1 & E1 & I1 & S1). rewrite E1. cbn [obind].
    destruct (dealloc_fine _ (r_num r) _ _ I1) as (h2 & E2 & I2 & S2).
    { eapply fine_p_same; [| exact Fp ]. eapply same_incl; [| exact S1 ]. intros x Hx. rewrite !in_app_iff. tauto. }
    rewrite E2. cbn [obind].
    destruct (dealloc_fine _ (r_num r) _ _ I2) as (h3 & E3 & I3 & S3).
    { eapply fine_p_same; [ eapply same_incl; [| exact S2 ] | eapply fine_p_same; [ eapply same_incl; [| exact S1 ] | exact Fo ] ]; intros x Hx; rewrite !in_app_iff; tauto. }
    rewrite E3. cbn [obind].
    assert (S : same_on (flat_map record_owns l ++ L) h h3).
    { eapply same_trans; [| eapply same_trans; [| exact S3 ] ]; [ eapply same_incl; [| exact S1 ] | eapply same_incl; [| exact S2 ] ]; intros x Hx; rewrite !in_app_iff in *; tauto. }
    destruct (IH h3 L I3) as (h' & E4 & I4 & S4).
    { rewrite Forall_forall in *. intros q Hq. eapply fine_same; [| apply Fl, Hq ]. eapply same_incl; [| exact S ].
      intros x Hx. apply in_or_app. left. apply in_flat_map. now exists q. }
    exists h'. split; [ exact E4 |]. split; [ exact I4 |]. eapply same_trans; [ eapply same_incl; [| exact S ] | exact S4 ]. intros x Hx. apply in_or_app. now right.
Qed.

(* ---- messages ---- *)
Record good (h : heap) (m : message) : Prop := mkGood {
  good_other : forall a, ~ In a (made (g_kind m)) -> g_at m a = None;
  good_room : forall a, In a (made (g_kind m)) -> a <> Reqs ->
                (g_max m = 0 /\ g_at m a = None) \/ (exists b, g_at m a = Some b /\ size_of h b = Some (g_max m));
  good_count : g_count m <= g_max m;
  good_recs : g_kind m <> Response GetOp -> g_recs m = [];
  good_fine : Forall (fine_record h) (g_recs m);
  good_long : g_kind m = Response GetOp -> g_count m <= length (g_recs m);
  good_rest : flat_map record_owns (skipn (g_count m) (g_recs m)) = [] }.

Lemma owns_pts : forall m, owns m = pts (g_at m) ++ flat_map record_owns (g_recs m). Proof. reflexivity. Qed.
Lemma good_same : forall h h' m, same_on (owns m) h h' -> good h m -> good h' m.
Proof.
  intros h h' m S []. split; auto.
  - intros a Ha Na. destruct (good_room0 a Ha Na) as [H | (b & Eb & Es)]; [ now left |]. right. exists b. split; [ exact Eb |]. rewrite <- Es. apply S.
    rewrite owns_pts. apply in_or_app. left. eapply pts_in, Eb.
  - rewrite Forall_forall in *. intros r Hr. eapply fine_same; [| apply good_fine0, Hr ]. eapply same_incl; [| exact S ].
    intros x Hx. rewrite owns_pts. apply in_or_app. right. apply in_flat_map. now exists r.
Qed.
Lemma recs_first : forall m, flat_map record_owns (skipn (g_count m) (g_recs m)) = [] ->
  flat_map record_owns (firstn (g_count m) (g_recs m)) = flat_map record_owns (g_recs m).
Proof.
  intros m E. rewrite <- (firstn_skipn (g_count m) (g_recs m)) at 2. now rewrite flat_map_app, E, app_nil_r.
Qed.
Lemma reach_good : forall h m i a, good h m -> In a (made (g_kind m)) -> a <> Reqs -> i < g_max m -> reach h (g_at m) i a = true.
Proof.
  intros h m i a G Ha Na Hi. unfold reach. destruct (good_room _ _ G a Ha Na) as [(Z & _) | (b & Eb & Es)]; [ lia |].
  rewrite Eb, Es. now apply Nat.ltb_lt.
Qed.
Lemma destroys_reqs : forall k, destroys k Reqs = false. Proof. intros [[]|[]]; reflexivity. Qed.
Lemma released_made : forall k a, In a (released k) <-> In a (made k).
Proof. intros [[]|[]] []; cbn; split; intros H; repeat (destruct H as [H | H]; [ try discriminate H; tauto |]); try tauto. Qed.
Lemma made_nodup : forall k, NoDup (made k).
Proof. intros [[]|[]]; repeat constructor; cbn; intros H; repeat destruct H as [H | H]; try discriminate H; exact H. Qed.
Lemma made_reqs : forall k, In Reqs (made k). Proof. intros [[]|[]]; cbn; tauto. Qed.

Definition blank (k : kind) (sz : N) (m : message) : Prop :=
  g_kind m = k /\ (forall a, g_at m a = None) /\ g_recs m = [] /\ g_max m = 0 /\ g_count m = 0 /\ g_size m = sz.
Lemma blank_owns : forall k sz m, blank k sz m -> owns m = [].
Proof. intros k sz m (_ & A & R & _). rewrite owns_pts, (pts_none _ A), R. reflexivity. Qed.
Lemma blank_good : forall k sz m h, blank k sz m -> good h m.
Proof.
  intros k sz m h (_ & A & R & M & C & _). split; rewrite ?R, ?M, ?C; auto.
Qed.

Lemma cleanup_inv : forall m h L, good h m -> inv h (owns m ++ L) ->
  exists m' h', cleanup m h = Ok (m', h') /\ blank (g_kind m) (g_size m) m' /\ inv h' L /\ same_on L h h'.
Proof.
  intros m h L G I. unfold cleanup.
  assert (Step : exists h1, (match g_kind m, g_count m with
            | Response GetOp, S i => if forallb (reach h (g_at m) i) [Subjects; Predicates; Objects; NumRecs] then release_records (firstn (S i) (g_recs m)) h else UB
            | _, _ => Ok h end) = Ok h1 /\ inv h1 (pts (g_at m) ++ L) /\ same_on (pts (g_at m) ++ L) h h1).
  { assert (Ir : inv h (flat_map record_owns (g_recs m) ++ pts (g_at m) ++ L)).
    { eapply inv_perm; [| exact I ]. rewrite owns_pts, !app_assoc. apply Permutation_app_tail, Permutation_app_comm. }
    assert (Em : g_kind m <> Response GetOp \/ g_count m = 0 -> exists h1, Ok h = Ok h1 /\ inv h1 (pts (g_at m) ++ L) /\ same_on (pts (g_at m) ++ L) h h1).
    { intros C. exists h. split; [ reflexivity |]. split; [| apply same_refl ].
      assert (Z : flat_map record_owns (g_recs m) = []).
      { destruct C as [C | C]; [ now rewrite (good_recs _ _ G C) |]. pose proof (good_rest _ _ G) as R. now rewrite C in R. }
      now rewrite Z in Ir. }
    destruct (g_kind m) as [o | [| | | |]] eqn:Ek; try (apply Em; left; discriminate).
    destruct (g_count m) as [|i] eqn:Ec; [ apply Em; now right |].
    assert (R : forallb (reach h (g_at m) i) [Subjects; Predicates; Objects; NumRecs] = true).
    { pose proof (good_count _ _ G) as C. apply forallb_forall. intros a Ha. apply reach_good; [ exact G | rewrite Ek | intros -> | lia ];
        cbn in Ha; cbn; repeat (destruct Ha as [Ha | Ha]; [ try discriminate Ha; subst; tauto |]); tauto. }
    rewrite R. rewrite <- Ec. apply release_records_inv.
    - rewrite recs_first by apply (good_rest _ _ G). exact Ir.
    - apply Forall_forall. intros r Hr. pose proof (good_fine _ _ G) as F. rewrite Forall_forall in F. apply F.
      rewrite <- (firstn_skipn (g_count m) (g_recs m)). apply in_or_app. now left. }
  destruct Step as (h1 & E1 & I1 & S1). rewrite E1. cbn [obind].
  destruct (release_inv (g_kind m) (g_max m) (released (g_kind m)) (g_at m) h1 L I1) as (f & h2 & E2 & F1 & F2 & I2 & S2).
  { intros a b s Ha Eb Es Ed. destruct (member_eq a Reqs) as [-> | Na]; [ rewrite destroys_reqs in Ed; discriminate Ed |].
    apply released_made in Ha. rewrite S1 in Es by (apply in_or_app; left; eapply pts_in; exact Eb).
    destruct (good_room _ _ G a Ha Na) as [(_ & C) | (b' & Eb' & Es')]; [ congruence |].
    assert (Some s = Some (g_max m)) as Q by congruence. injection Q as ->. apply Nat.le_refl. }
  rewrite E2. cbn [obind].
  assert (A : forall a, f a = None).
  { intros a. destruct (in_dec member_eq a (made (g_kind m))) as [Ha | Ha]; [ apply F2; now apply released_made |].
    destruct (F1 a) as [E | E]; [ exact E |]. rewrite E. now apply (good_other _ _ G). }
  eexists. exists h2. split; [ reflexivity |]. split; [ repeat split; exact A |].
  rewrite (pts_none f A) in I2. split; [ exact I2 |]. eapply same_trans; [ eapply same_incl; [| exact S1 ] | exact S2 ]. intros x Hx. apply in_or_app. now right.
Qed.

Lemma alloc_msg_inv : forall max m h L, good h m -> inv h (owns m ++ L) ->
  exists m' h', alloc max m h = Ok (m', h') /\ good h' m' /\ inv h' (owns m' ++ L) /\ same_on L h h' /\
                g_kind m' = g_kind m /\ g_max m' = max /\ g_count m' = 0 /\ g_recs m' = [] /\ g_size m' = g_size m.
Proof.
  intros max m h L G I. unfold alloc. destruct (cleanup_inv m h L G I) as (m1 & h1 & E1 & B & I1 & S1). rewrite E1. cbn [obind].
  destruct max as [|n].
  - exists m1, h1. split; [ reflexivity |]. split; [ eapply blank_good, B |]. rewrite (blank_owns _ _ _ B). split; [ exact I1 |]. split; [ exact S1 |].
    destruct B as (K & A & R & M & C & Z). auto 6.
  - destruct B as (K & A & R & M & C & Z).
    destruct (acquire (made (g_kind m1)) (S n) (g_at m1) h1) as [f h2] eqn:Ea.
    assert (I1' : inv h1 (pts (g_at m1) ++ L)) by now rewrite (pts_none _ A).
    destruct (acquire_inv (S n) (made (g_kind m1)) (g_at m1) h1 L f h2 ltac:(lia) (made_nodup _) (fun a _ => A a) I1' Ea) as (I2 & S2 & F1 & F2).
    exists (mkMessage (g_kind m1) f [] (S n) 0 (g_size m1)), h2. split; [ reflexivity |].
    split; [ split; cbn [g_kind g_at g_max g_count g_recs]; auto; try lia |].
    + intros a Ha. rewrite (F1 a Ha). apply A.
    + split; [ rewrite owns_pts; cbn [g_at g_recs flat_map]; rewrite app_nil_r; exact I2 |].
      split; [| cbn [g_kind g_max g_count g_recs g_size]; auto 6 ].
      eapply same_trans; [ exact S1 |]. eapply same_incl; [| exact S2 ]. intros x Hx. apply in_or_app. now right.
Qed.
Lemma destroy_inv : forall m h L, good h m -> inv h (owns m ++ L) -> exists h', destroy m h = Ok h' /\ inv h' L /\ same_on L h h'.
Proof.
  intros m h L G I. unfold destroy. destruct (cleanup_inv m h L G I) as (m1 & h1 & E1 & B & I1 & S1). rewrite E1. cbn [obind release].
  destruct B as (K & A & _). rewrite (A Reqs). cbn [dealloc_array obind]. exists h1. auto.
Qed.

Lemma written_made : forall k ok a, In a (written k ok) -> In a (made k) /\ a <> Reqs.
Proof. intros [[]|[]] [] []; cbn; intros H; (split; [ repeat (destruct H as [H | H]; [ first [ discriminate H | tauto ] |]); try contradiction; tauto | repeat (destruct H as [H | H]; [ first [ discriminate H | discriminate ] |]); contradiction ]). Qed.
Lemma stolen_made : forall o a, In a (stolen o) -> In a (made (Response o)) /\ a <> Reqs.
Proof. intros [] []; cbn; intros H; (split; [ repeat (destruct H as [H | H]; [ first [ discriminate H | tauto ] |]); try contradiction; tauto | repeat (destruct H as [H | H]; [ first [ discriminate H | discriminate ] |]); contradiction ]). Qed.

Lemma add_ok : forall ok ds m h, good h m -> has_room m -> 
  add ok ds m h = Ok (mkMessage (g_kind m) (g_at m) (g_recs m) (g_max m) (S (g_count m)) (g_size m + ds)%N).
Proof.
  intros ok ds m h G R. unfold add.
  assert (E : forallb (reach h (g_at m) (g_count m)) (written (g_kind m) ok) = true).
  { apply forallb_forall. intros a Ha. apply written_made in Ha as (Ha & Na). now apply reach_good. }
  now rewrite E.
Qed.
Lemma add_good : forall h m sz, good h m -> has_room m -> g_kind m <> Response GetOp ->
  good h (mkMessage (g_kind m) (g_at m) (g_recs m) (g_max m) (S (g_count m)) sz).
Proof.
  intros h m sz G R K. unfold has_room in R. destruct G. split; cbn [g_kind g_at g_recs g_max g_count] in *; auto; [ intros C; contradiction |].
  rewrite (good_recs0 K). now rewrite skipn_nil.
Qed.
Lemma skipn_short {A} : forall n (l : list A), length l <= n -> skipn n l = [].
Proof. intros. now apply skipn_all2. Qed.
Lemma add_record_good : forall h m r sz, good h m -> has_room m -> fine_record h r -> g_kind m = Response GetOp ->
  good h (mkMessage (g_kind m) (g_at m) (firstn (g_count m) (g_recs m) ++ [r]) (g_max m) (S (g_count m)) sz).
Proof.
  intros h m r sz G R F K. unfold has_room in R. destruct G. specialize (good_long0 K). split; cbn [g_kind g_at g_recs g_max g_count] in *; auto.
  - intros C. contradiction.
  - apply Forall_app. split; [| now constructor ]. rewrite <- (firstn_skipn (g_count m) (g_recs m)) in good_fine0. now apply Forall_app in good_fine0.
  - intros _. rewrite app_length, firstn_length. cbn [length]. lia.
  - rewrite skipn_short; [ reflexivity |]. rewrite app_length, firstn_length. cbn [length]. lia.
Qed.
Lemma add_record_owns : forall h m r sz, good h m ->
  Permutation (owns (mkMessage (g_kind m) (g_at m) (firstn (g_count m) (g_recs m) ++ [r]) (g_max m) (S (g_count m)) sz)) (owns m ++ record_owns r).
Proof.
  intros h m r sz G. rewrite !owns_pts. cbn [g_at g_recs]. rewrite flat_map_app, (recs_first m (good_rest _ _ G)). cbn [flat_map]. now rewrite app_nil_r, app_assoc.
Qed.
