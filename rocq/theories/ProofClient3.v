(* The loop of process *)
From Verif Require Import ModelBytes ProofBytes ModelKey ModelWire ModelHist ModelMsg SpecMsg ProofMsg ModelStore ModelGetOp ModelDs
  SpecStore ProofStore ProofDs ProofDs2 ModelElen ModelRoute SpecRoute ProofRoute ProofRoute2 ModelClient SpecClient ProofClient ProofClient2.
Local Open Scope Z_scope.

Definition queue_of {A} (qs : list (list (list A))) (id : Z) : list (list A) := nth (Z.to_nat id) qs [].

Lemma pop_rest {A} (wrap : list A -> body) rank : forall qs id, snd (pop wrap rank id qs) = map (@tl _) qs.
Proof.
  induction qs as [|q qs IH]; intros id; [reflexivity|]. cbn [pop map]. specialize (IH (id + 1)).
  destruct (pop wrap rank (id + 1) qs) as [ms r]. cbn [snd] in IH. subst r. destruct q; reflexivity.
Qed.
Lemma pop_msgs {A} (wrap : list A -> body) rank : forall qs id m, 0 <= id -> In m (fst (pop wrap rank id qs)) <->
  exists k p q, nth_error qs k = Some (p :: q) /\ m = mkMsg rank (id + Z.of_nat k) (wrap p).
Proof.
  induction qs as [|q qs IH]; intros id m Hid.
  - cbn [pop fst In]. split; [intros []|intros ([|k] & p & q & E & _); discriminate].
  - cbn [pop]. specialize (IH (id + 1) m ltac:(lia)). destruct (pop wrap rank (id + 1) qs) as [ms r]. cbn [fst] in IH.
    destruct q as [|p q]; cbn [fst].
    + rewrite IH. split.
      * intros (k & p & q & E & ->). exists (S k), p, q. split; [exact E|]. f_equal. lia.
      * intros ([|k] & p & q & E & ->); [discriminate|]. exists k, p, q. split; [exact E|]. f_equal. lia.
    + cbn [In]. rewrite IH. split.
      * intros [<-|(k & p' & q' & E & ->)]; [exists O, p, q; split; [reflexivity|f_equal; lia]|]. exists (S k), p', q'. split; [exact E|]. f_equal. lia.
      * intros ([|k] & p' & q' & E & ->); [injection E as -> ->; left; f_equal; lia|]. right. exists k, p', q'. split; [exact E|]. f_equal. lia.
Qed.
Lemma pop_NoDup {A} (wrap : list A -> body) rank : forall qs id, 0 <= id -> NoDup (map m_dst (fst (pop wrap rank id qs))).
Proof.
  induction qs as [|q qs IH]; intros id Hid; [constructor|]. cbn [pop]. specialize (IH (id + 1) ltac:(lia)).
  pose proof (pop_msgs wrap rank qs (id + 1)) as P. destruct (pop wrap rank (id + 1) qs) as [ms r]. cbn [fst] in IH, P.
  destruct q as [|p q]; cbn [fst]; [exact IH|]. cbn [map m_dst]. constructor; [|exact IH].
  intros Hin. apply in_map_iff in Hin as (m & E & Hin). apply P in Hin as (k & p' & q' & _ & ->); [|lia]. cbn [m_dst] in E. lia.
Qed.

Lemma nth_tl {A} (qs : list (list (list A))) n : nth n (map (@tl _) qs) [] = tl (nth n qs []).
Proof. change (@nil (list A)) with (@tl (list A) []) at 1. apply map_nth. Qed.
Lemma queue_tl {A} (qs : list (list (list A))) id : queue_of (map (@tl _) qs) id = tl (queue_of qs id).
Proof. apply nth_tl. Qed.
Lemma remaining_tl {A} (qs : list (list (list A))) : (remaining qs <> 0 -> remaining (map (@tl _) qs) < remaining qs)%nat /\ (remaining (map (@tl _) qs) <= remaining qs)%nat.
Proof.
  unfold remaining. induction qs as [|q qs [IH1 IH2]]; cbn [map concat length]; [split; lia|]. rewrite !app_length.
  destruct q as [|p q]; cbn [tl length]; split; lia.
Qed.
Lemma remaining_0 {A} (qs : list (list (list A))) n : remaining qs = O -> nth n qs [] = [].
Proof.
  unfold remaining. revert n; induction qs as [|q qs IH]; intros n H; [destruct n; reflexivity|].
  cbn [concat] in H. rewrite app_length in H. destruct n; cbn [nth]; [destruct q; [reflexivity|cbn [length] in H; lia]|apply IH; lia].
Qed.

Lemma filter_flat_map {A B} (f : B -> bool) (g : A -> list B) l : filter f (flat_map g l) = flat_map (fun a => filter f (g a)) l.
Proof. induction l as [|a l IH]; [reflexivity|]. cbn [flat_map]. rewrite filter_app, IH. reflexivity. Qed.
Lemma filter_all {A} (f : A -> bool) l : Forall (fun x => f x = true) l -> filter f l = l.
Proof. induction 1 as [|a l H _ IH]; [reflexivity|]. cbn [filter]. rewrite H, IH. reflexivity. Qed.
Lemma filter_none {A} (f : A -> bool) l : Forall (fun x => f x = false) l -> filter f l = [].
Proof. induction 1 as [|a l H _ IH]; [reflexivity|]. cbn [filter]. rewrite H, IH. reflexivity. Qed.
(* results of different datastores side by side: those of one of them *)
Lemma results_by_id (X : Z -> list result) ids id : NoDup ids -> (forall j, In j ids -> Forall (fun x => from x = j) (X j)) ->
  filter (of_id id) (flat_map X ids) = if in_dec Z.eq_dec id ids then X id else [].
Proof.
  induction ids as [|j ids IH]; intros Hn HX; [reflexivity|]. cbn [flat_map]. rewrite filter_app.
  inversion Hn as [|? ? Hj Hn']; subst. rewrite IH by (auto using in_cons; intros k Hk; apply HX; right; exact Hk).
  pose proof (HX j (or_introl eq_refl)) as Hf. destruct (Z.eq_dec j id) as [->|Hne].
  - rewrite filter_all by (apply (Forall_impl _) with (2 := Hf); intros x Hx; unfold of_id; rewrite Hx; apply Z.eqb_refl).
    destruct (in_dec Z.eq_dec id ids); [contradiction|]. rewrite app_nil_r.
    destruct (in_dec Z.eq_dec id (id :: ids)) as [|n0]; [reflexivity|]. exfalso. apply n0. left. reflexivity.
  - rewrite filter_none by (apply (Forall_impl _) with (2 := Hf); intros x Hx; unfold of_id; rewrite Hx; apply Z.eqb_neq; exact Hne).
    cbn [app]. destruct (in_dec Z.eq_dec id ids) as [i|n0], (in_dec Z.eq_dec id (j :: ids)) as [i1|n1]; try reflexivity.
    + exfalso. apply n1. right. exact i.
    + destruct i1 as [i1|i1]; [congruence|contradiction].
Qed.

(* splitting a list by a number loses nothing *)
Lemma by_key {A} (key : A -> Z) (xs : list A) n : 0 <= n -> Forall (fun x => 0 <= key x < n) xs ->
  Permutation xs (flat_map (fun id => filter (fun x => key x =? id) xs) (upto n)).
Proof.
  intros Hn HF. assert (G : forall k, 0 <= k -> Permutation (filter (fun x => (0 <=? key x) && (key x <? k)) xs) (flat_map (fun id => filter (fun x => key x =? id) xs) (upto k))).
  { apply upto_ind.
    - rewrite upto_0 by lia. cbn [flat_map]. rewrite filter_none; [constructor|]. apply Forall_forall. intros x _. destruct (Z.leb_spec 0 (key x)), (Z.ltb_spec (key x) 0); cbn [andb]; try reflexivity; lia.
    - intros k Hk IH. rewrite upto_succ by exact Hk. rewrite flat_map_app. cbn [flat_map]. rewrite app_nil_r.
      rewrite <- IH. clear - Hk. induction xs as [|x xs IH]; [constructor|]. cbn [filter].
      destruct (Z.leb_spec 0 (key x)), (Z.ltb_spec (key x) (k + 1)), (Z.ltb_spec (key x) k), (Z.eqb_spec (key x) k); cbn [andb app]; try lia; try exact IH.
      + constructor. exact IH.
      + apply Permutation_cons_app. exact IH. }
  specialize (G n Hn). rewrite filter_all in G; [exact G|]. apply (Forall_impl _) with (2 := HF). intros x Hx. destruct (Z.leb_spec 0 (key x)), (Z.ltb_spec (key x) n); cbn [andb]; try reflexivity; lia.
Qed.
(* results by where they come from *)
Lemma by_ids (xs : list result) n : 0 <= n -> Forall (fun x => 0 <= from x < n) xs ->
  Permutation xs (flat_map (fun id => filter (of_id id) xs) (upto n)).
Proof. apply by_key. Qed.

(* the first packet of a queue *)
Definition first {A} (wrap : list A -> body) (f : bool) (id : Z) (d : ds) (q : list (list A)) : ds * list result :=
  match q with
  | [] => (d, [])
  | p :: _ => match serve_one f id d (wrap p) with Ok r => r | _ => (d, []) end
  end.

Section Process.
Context {A : Type} (e : env) (S : setting e) (wrap : list A -> body) (Hw : forall p, body_dir (wrap p) = 1%N).

Lemma rounds_spec : forall f qs cl (D D' : Z -> ds) (X : Z -> list result),
  (remaining qs <= f)%nat -> length qs = Z.to_nat (e_total e) -> holds e cl D ->
  (forall id, an_id e id -> serve_all (far e id) id (D id) (map wrap (queue_of qs id)) = Ok (D' id, X id)) ->
  (forall id, an_id e id -> queue_of qs id <> [] -> far e id = true -> routed e id /\ fits_wire (D id) (map wrap (queue_of qs id))) ->
  one_per_rank e (fun id => queue_of qs id <> []) ->
  exists cl' xs, rounds f e wrap qs cl = Ok (cl', xs) /\ holds e cl' D' /\ frame e cl cl' /\
    (forall id, an_id e id -> filter (of_id id) xs = X id) /\ Forall (fun x => an_id e (from x)) xs.
Proof.
  induction f as [|f IH]; intros qs cl D D' X Hf Hlen H Hs Hfar Hone.
  - assert (Hr : remaining qs = O) by lia. exists cl, []. cbn [rounds]. split; [reflexivity|].
    assert (E : forall id, an_id e id -> D' id = D id /\ X id = []).
    { intros id Hid. specialize (Hs id Hid). unfold queue_of in Hs. rewrite remaining_0 in Hs by exact Hr. cbn [map serve_all] in Hs.
      injection Hs as -> <-. split; reflexivity. }
    split; [intros id Hid; rewrite (proj1 (E id Hid)); apply H, Hid|]. split; [apply frame_refl|].
    split; [intros id Hid; rewrite (proj2 (E id Hid)); reflexivity|constructor].
  - cbn [rounds]. destruct (remaining qs) as [|n] eqn:Hr.
    { exists cl, []. split; [reflexivity|].
      assert (E : forall id, an_id e id -> D' id = D id /\ X id = []).
      { intros id Hid. specialize (Hs id Hid). unfold queue_of in Hs. rewrite remaining_0 in Hs by exact Hr. cbn [map serve_all] in Hs.
        injection Hs as -> <-. split; reflexivity. }
      split; [intros id Hid; rewrite (proj1 (E id Hid)); apply H, Hid|]. split; [apply frame_refl|].
      split; [intros id Hid; rewrite (proj2 (E id Hid)); reflexivity|constructor]. }
    pose proof (pop_rest wrap (e_rank e) qs 0) as PR. pose proof (pop_msgs wrap (e_rank e) qs 0) as PM.
    pose proof (pop_NoDup wrap (e_rank e) qs 0 ltac:(lia)) as PN.
    destruct (pop wrap (e_rank e) 0 qs) as [ms qs'] eqn:Epop. cbn [fst snd] in PR, PM, PN. subst qs'.
    set (D1 := fun id => fst (first wrap (far e id) id (D id) (queue_of qs id))).
    set (X1 := fun id => snd (first wrap (far e id) id (D id) (queue_of qs id))).
    (* what the messages are *)
    assert (Hms : forall m, In m ms -> an_id e (m_dst m) /\ exists p q, queue_of qs (m_dst m) = p :: q /\ m = mkMsg (e_rank e) (m_dst m) (wrap p)).
    { intros m Hin. apply PM in Hin; [|lia]. destruct Hin as (k & p & q & Ek & ->). cbn [m_dst].
      assert (Hk : (k < length qs)%nat) by (apply nth_error_Some; congruence). split; [unfold an_id; rewrite Hlen in Hk; lia|].
      exists p, q. split; [|reflexivity]. unfold queue_of. replace (Z.to_nat (0 + Z.of_nat k)) with k by lia. apply nth_error_nth. exact Ek. }
    assert (Hms' : forall id, an_id e id -> queue_of qs id <> [] -> In id (map m_dst ms)).
    { intros id Hid Hq. destruct (queue_of qs id) as [|p q] eqn:Eq; [congruence|]. unfold queue_of in Eq. unfold an_id in Hid.
      apply in_map_iff. exists (mkMsg (e_rank e) id (wrap p)). split; [reflexivity|]. apply PM; [lia|].
      exists (Z.to_nat id), p, q. split; [|f_equal; lia]. rewrite <- Eq. apply nth_error_nth'. lia. }
    (* splitting off the first packets *)
    assert (Hsplit : forall id, an_id e id ->
       (forall p q, queue_of qs id = p :: q -> serve_one (far e id) id (D id) (wrap p) = Ok (D1 id, X1 id)) /\
       (queue_of qs id = [] -> D1 id = D id /\ X1 id = []) /\
       exists X2, serve_all (far e id) id (D1 id) (map wrap (queue_of (map (@tl _) qs) id)) = Ok (D' id, X2) /\ X id = X1 id ++ X2).
    { intros id Hid. specialize (Hs id Hid). unfold D1, X1. rewrite queue_tl.
      destruct (queue_of qs id) as [|p q] eqn:Eq; cbn [map tl first] in Hs |- *.
      - split; [discriminate|]. split; [auto|]. exists (X id). split; [exact Hs|reflexivity].
      - cbn [serve_all] in Hs. obind Hs a Ea. destruct a as [d1 x1]. obind Hs b Eb. destruct b as [d2 x2]. injection Hs as <- <-.
        rewrite Ea. cbn [fst snd]. split; [intros p' q' Epq; injection Epq as <- <-; exact Ea|]. split; [discriminate|].
        exists x2. split; [exact Eb|reflexivity]. }
    destruct (round_spec e S D D1 X1 cl ms H PN) as (cl1 & ids & ER & PI & M).
    + apply Forall_forall. intros m Hin. destruct (Hms m Hin) as (Hid & p & q & Eq & Em). unfold round_ok.
      split; [split; [exact Hid|]; rewrite Em; split; [reflexivity|apply Hw]|].
      destruct (Hsplit (m_dst m) Hid) as [H1 _]. assert (Eb : m_body m = wrap p) by (rewrite Em; reflexivity). rewrite Eb.
      split; [apply (H1 p q Eq)|]. intros Ff. destruct (Hfar (m_dst m) Hid ltac:(rewrite Eq; discriminate) Ff) as [R F].
      split; [exact R|]. rewrite Eq in F. cbn [map fits_wire] in F. destruct F as (F1 & d' & r & F2 & F3 & _).
      cbn [fits_wire]. eauto 8.
    + intros m1 m2 I1 I2 F1 R. destruct (Hms m1 I1) as (A1 & p1 & q1 & E1 & _). destruct (Hms m2 I2) as (A2 & p2 & q2 & E2 & _).
      apply Hone; try assumption; congruence.
    + assert (Hids : Forall (an_id e) ids).
      { apply Forall_forall. intros id Hid. apply (Permutation_in _ PI) in Hid. apply in_map_iff in Hid as (m & <- & Hin). apply Hms, Hin. }
      assert (ND : NoDup ids) by (apply (Permutation_NoDup (Permutation_sym PI)), PN).
      assert (Hempty : forall id, an_id e id -> ~ In id ids -> D1 id = D id /\ X1 id = []).
      { intros id Hid Hnin. destruct (Hsplit id Hid) as (_ & H2 & _). apply H2. destruct (queue_of qs id) as [|p q] eqn:Eq; [reflexivity|].
        exfalso. apply Hnin. apply (Permutation_in _ (Permutation_sym PI)). apply Hms'; [exact Hid|congruence]. }
      assert (Hol : holds e cl1 D1).
      { apply (moved_holds e ids D D1 cl cl1 S Hids H M). intros id Hid Hnin. apply (Hempty id Hid Hnin). }
      assert (HX1 : forall j, In j ids -> Forall (fun x => from x = j) (X1 j)).
      { intros j Hj. rewrite Forall_forall in Hids. destruct (Hsplit j (Hids j Hj)) as (H1 & H2 & _).
        destruct (queue_of qs j) as [|p q] eqn:Eq; [rewrite (proj2 (H2 eq_refl)); constructor|]. exact (serve_one_from _ _ _ _ _ _ (H1 p q eq_refl)). }
      set (X2 := fun id => match serve_all (far e id) id (D1 id) (map wrap (queue_of (map (@tl _) qs) id)) with Ok (_, x) => x | _ => [] end).
      destruct (IH (map (@tl _) qs) cl1 D1 D' X2) as (cl2 & xs & E2 & H2 & F2 & B2 & A2).
      * destruct (remaining_tl qs) as [L1 L2]. lia.
      * rewrite map_length. exact Hlen.
      * exact Hol.
      * intros id Hid. destruct (Hsplit id Hid) as (_ & _ & x2 & E2 & _). unfold X2. rewrite E2. reflexivity.
      * intros id Hid Hq Ff. assert (Hq0 : queue_of qs id <> []).
        { intros E0. apply Hq. rewrite queue_tl, E0. reflexivity. }
        destruct (Hfar id Hid Hq0 Ff) as [R F]. split; [exact R|].
        destruct (Hsplit id Hid) as (H1 & _ & _). destruct (queue_of qs id) as [|p q] eqn:Eq; [congruence|].
        rewrite queue_tl, Eq. cbn [tl map fits_wire] in F |- *.
        destruct F as (_ & d' & r & Fo & _ & F). specialize (H1 p q eq_refl). unfold serve_one in H1. rewrite Ff, Fo in H1. cbn [obind] in H1.
        obind H1 x Ex. injection H1 as H1 _. rewrite <- H1. exact F.
      * intros i j Hi Hj Ui Uj. apply Hone; try assumption.
        -- intros E0. apply Ui. rewrite queue_tl, E0. reflexivity.
        -- intros E0. apply Uj. rewrite queue_tl, E0. reflexivity.
      * exists cl2, (flat_map X1 ids ++ xs). rewrite ER. cbn [obind]. rewrite E2. cbn [obind]. split; [reflexivity|].
        split; [exact H2|]. split; [apply (frame_trans e cl cl1 cl2); [apply (moved_frame e ids D1 cl cl1 Hids M)|exact F2]|]. split.
        -- intros id Hid. rewrite filter_app, (B2 id Hid), (results_by_id X1 ids id ND HX1).
           destruct (Hsplit id Hid) as (_ & _ & x2 & Ex & ->). unfold X2. rewrite Ex. f_equal.
           destruct (in_dec Z.eq_dec id ids) as [|Hnin]; [reflexivity|]. symmetry. apply (Hempty id Hid Hnin).
        -- apply Forall_app. split; [|exact A2]. apply Forall_forall. intros x Hx. apply in_flat_map in Hx as (j & Hj & Hx).
           pose proof (HX1 j Hj) as Hf1. rewrite Forall_forall in Hf1, Hids. rewrite (Hf1 x Hx). apply Hids, Hj.
Qed.

Lemma process_spec qs cl (D D' : Z -> ds) (X : Z -> list result) :
  length qs = Z.to_nat (e_total e) -> holds e cl D ->
  (forall id, an_id e id -> serve_all (far e id) id (D id) (map wrap (queue_of qs id)) = Ok (D' id, X id)) ->
  (forall id, an_id e id -> queue_of qs id <> [] -> far e id = true -> routed e id /\ fits_wire (D id) (map wrap (queue_of qs id))) ->
  one_per_rank e (fun id => queue_of qs id <> []) ->
  exists cl' xs, process e wrap qs cl = Ok (cl', xs) /\ holds e cl' D' /\ frame e cl cl' /\
    (forall id, an_id e id -> filter (of_id id) xs = X id) /\ Forall (fun x => an_id e (from x)) xs.
Proof. intros. apply (rounds_spec (remaining qs) qs cl D D' X); auto. Qed.
End Process.
