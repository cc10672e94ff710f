(* The loop of process with several datastores of one other rank *)
From Verif Require Import ModelBytes ProofBytes ModelKey ModelWire ModelHist ModelMsg SpecMsg ProofMsg ModelStore ModelGetOp ModelDs
  SpecStore ProofStore ProofDs ProofDs2 ModelElen ModelRoute SpecRoute ProofRoute ProofRoute2 ModelClient SpecClient ProofClient ProofClient2
  ProofClient3 SpecLost ProofLost.
From Coq Require Import Sorted.
Local Open Scope Z_scope.

Definition lens {A} (qs : list (list (list A))) (j : Z) : nat := length (queue_of qs j).
Lemma sent_def {A} e (qs : list (list (list A))) id : sent e qs id = skipn (lost e (lens qs) id) (queue_of qs id).
Proof. reflexivity. Qed.
Lemma most_0 l : most l = O <-> Forall (fun n => n = O) l.
Proof. induction l as [|n l IH]; cbn [most fold_right]; [split; auto|]. fold (most l). rewrite Forall_cons_iff, <- IH. lia. Qed.
Lemma most_pred l : most (map Nat.pred l) = Nat.pred (most l).
Proof. induction l as [|n l IH]; [reflexivity|]. cbn [map most fold_right]. fold (most l). fold (most (map Nat.pred l)). rewrite IH. lia. Qed.
Lemma lost_tl {A} e (qs : list (list (list A))) id : lost e (lens (map (@tl _) qs)) id = Nat.pred (lost e (lens qs) id).
Proof.
  unfold lost. destruct (far e id); [|reflexivity]. rewrite <- most_pred, map_map. f_equal. apply map_ext. intros j.
  unfold lens. rewrite queue_tl. destruct (queue_of qs j); reflexivity.
Qed.
Lemma lost_0 {A} e (qs : list (list (list A))) id : lost e (lens qs) id = O <->
  (far e id = true -> forall j, an_id e j -> id < j -> rank_of e j = rank_of e id -> queue_of qs j = []).
Proof.
  unfold lost. destruct (far e id); [|split; [discriminate|reflexivity]]. rewrite most_0, Forall_map, Forall_forall. unfold later. split.
  - intros H _ j Hj Hl Hr. specialize (H j). unfold lens in H. assert (E : length (queue_of qs j) = O).
    { apply H. apply filter_In. split; [apply upto_In, Hj|]. rewrite Hr, Z.eqb_refl. destruct (Z.ltb_spec id j); [reflexivity|lia]. }
    destruct (queue_of qs j); [reflexivity|discriminate].
  - intros H j Hj. apply filter_In in Hj as [Hj Hb]. apply upto_In in Hj. apply andb_prop in Hb as [Hl Hr].
    unfold lens. rewrite (H eq_refl j Hj); [reflexivity|apply Z.ltb_lt, Hl|apply Z.eqb_eq, Hr].
Qed.
Lemma sent_kept {A} e (qs : list (list (list A))) id : lost e (lens qs) id = O ->
  sent e qs id = queue_of qs id /\ sent e (map (@tl _) qs) id = tl (queue_of qs id).
Proof. intros H. rewrite !sent_def, lost_tl, H, queue_tl. split; reflexivity. Qed.
Lemma sent_lost {A} e (qs : list (list (list A))) id : lost e (lens qs) id <> O -> sent e (map (@tl _) qs) id = sent e qs id.
Proof.
  intros H. rewrite !sent_def, lost_tl, queue_tl. destruct (lost e (lens qs) id) as [|n]; [congruence|]. cbn [Nat.pred].
  destruct (queue_of qs id) as [|p q]; cbn [tl skipn]; [destruct n; reflexivity|reflexivity].
Qed.
Lemma sent_none {A} e (qs : list (list (list A))) id : remaining qs = O -> sent e qs id = [].
Proof. intros H. rewrite sent_def. unfold queue_of. rewrite remaining_0 by exact H. apply skipn_nil. Qed.

Lemma pop_sorted {A} (wrap : list A -> body) rank : forall qs id, 0 <= id -> StronglySorted before (fst (pop wrap rank id qs)).
Proof.
  induction qs as [|q qs IH]; intros id Hid; [constructor|]. cbn [pop]. specialize (IH (id + 1) ltac:(lia)).
  pose proof (pop_msgs wrap rank qs (id + 1)) as P. destruct (pop wrap rank (id + 1) qs) as [ms r]. cbn [fst] in IH, P.
  destruct q as [|p q]; cbn [fst]; [exact IH|]. constructor; [exact IH|]. apply Forall_forall. intros m Hin.
  apply P in Hin as (k & p' & q' & _ & ->); [|lia]. unfold before. cbn [m_dst]. lia.
Qed.

Section Process.
Context {A : Type} (e : env) (S : setting e) (wrap : list A -> body) (Hw : forall p, body_dir (wrap p) = 1%N).

Lemma rounds_lost : forall f qs cl (D D' : Z -> ds) (X : Z -> list result),
  (remaining qs <= f)%nat -> length qs = Z.to_nat (e_total e) -> holds e cl D ->
  (forall id, an_id e id -> serve_all (far e id) id (D id) (map wrap (sent e qs id)) = Ok (D' id, X id)) ->
  sendable e D (fun id => map wrap (sent e qs id)) ->
  exists cl' xs, rounds f e wrap qs cl = Ok (cl', xs) /\ holds e cl' D' /\ frame e cl cl' /\
    (forall id, an_id e id -> filter (of_id id) xs = X id) /\ Forall (fun x => an_id e (from x)) xs.
Proof.
  induction f as [|f IH]; intros qs cl D D' X Hf Hlen H Hs Hfar.
  - assert (Hr : remaining qs = O) by lia. exists cl, []. cbn [rounds]. split; [reflexivity|].
    assert (E : forall id, an_id e id -> D' id = D id /\ X id = []).
    { intros id Hid. specialize (Hs id Hid). rewrite sent_none in Hs by exact Hr. cbn [map serve_all] in Hs. injection Hs as -> <-. split; reflexivity. }
    split; [intros id Hid; rewrite (proj1 (E id Hid)); apply H, Hid|]. split; [apply frame_refl|].
    split; [intros id Hid; rewrite (proj2 (E id Hid)); reflexivity|constructor].
  - cbn [rounds]. destruct (remaining qs) as [|n] eqn:Hr.
    { exists cl, []. split; [reflexivity|].
      assert (E : forall id, an_id e id -> D' id = D id /\ X id = []).
      { intros id Hid. specialize (Hs id Hid). rewrite sent_none in Hs by exact Hr. cbn [map serve_all] in Hs. injection Hs as -> <-. split; reflexivity. }
      split; [intros id Hid; rewrite (proj1 (E id Hid)); apply H, Hid|]. split; [apply frame_refl|].
      split; [intros id Hid; rewrite (proj2 (E id Hid)); reflexivity|constructor]. }
    pose proof (pop_rest wrap (e_rank e) qs 0) as PR. pose proof (pop_msgs wrap (e_rank e) qs 0) as PM.
    pose proof (pop_sorted wrap (e_rank e) qs 0 ltac:(lia)) as PS.
    destruct (pop wrap (e_rank e) 0 qs) as [ms qs'] eqn:Epop. cbn [fst snd] in PR, PM, PS. subst qs'.
    (* the packets that go out in this round *)
    set (H0 := fun id => match lost e (lens qs) id with O => firstn 1 (queue_of qs id) | _ => [] end).
    set (D1 := fun id => fst (first wrap (far e id) id (D id) (H0 id))).
    set (X1 := fun id => snd (first wrap (far e id) id (D id) (H0 id))).
    assert (Hms : forall m, In m ms -> an_id e (m_dst m) /\ exists p q, queue_of qs (m_dst m) = p :: q /\ m = mkMsg (e_rank e) (m_dst m) (wrap p)).
    { intros m Hin. apply PM in Hin; [|lia]. destruct Hin as (k & p & q & Ek & ->). cbn [m_dst].
      assert (Hk : (k < length qs)%nat) by (apply nth_error_Some; congruence). split; [unfold an_id; rewrite Hlen in Hk; lia|].
      exists p, q. split; [|reflexivity]. unfold queue_of. replace (Z.to_nat (0 + Z.of_nat k)) with k by lia. apply nth_error_nth. exact Ek. }
    assert (Hms' : forall id p q, an_id e id -> queue_of qs id = p :: q -> In (mkMsg (e_rank e) id (wrap p)) ms).
    { intros id p q Hid Eq. unfold queue_of in Eq. unfold an_id in Hid. apply PM; [lia|].
      exists (Z.to_nat id), p, q. split; [|f_equal; lia]. rewrite <- Eq. apply nth_error_nth'. lia. }
    assert (Hgo : forall m, In m ms -> goes_out e ms m = true <-> lost e (lens qs) (m_dst m) = O).
    { intros m Hin. rewrite lost_0. unfold goes_out. split.
      - intros G F j Hj Hl Hrk. change (is_local e m) with (rank_of e (m_dst m) =? e_rank e) in G. unfold far in F.
        destruct (rank_of e (m_dst m) =? e_rank e) eqn:EF; [discriminate F|]. cbn [orb] in G. rewrite forallb_forall in G.
        destruct (queue_of qs j) as [|p q] eqn:Eq; [reflexivity|]. specialize (G _ (Hms' j p q Hj Eq)). cbn [m_dst] in G.
        unfold is_local, dst_rank in G. cbn [m_dst] in G. change (ds_to_rank (e_layout e) j) with (rank_of e j) in G.
        change (ds_to_rank (e_layout e) (m_dst m)) with (rank_of e (m_dst m)) in G. rewrite Hrk, EF, Z.eqb_refl in G. cbn [orb negb] in G.
        apply Z.leb_le in G. lia.
      - intros G. destruct (is_local e m) eqn:L; [reflexivity|]. cbn [orb]. apply forallb_forall. intros m' Hin'.
        destruct (is_local e m'); [reflexivity|]. destruct (Z.eqb_spec (dst_rank e m') (dst_rank e m)) as [E|]; [|reflexivity]. cbn [orb negb].
        apply Z.leb_le. destruct (Z.le_gt_cases (m_dst m') (m_dst m)) as [Hle|Hgt]; [exact Hle|]. exfalso.
        destruct (Hms m' Hin') as (Hid' & p & q & Eq & _). rewrite (G ltac:(unfold far; change (rank_of e (m_dst m) =? e_rank e) with (is_local e m); rewrite L; reflexivity) (m_dst m') Hid' Hgt E) in Eq. discriminate Eq. }
    (* splitting off what goes out *)
    assert (Hsplit : forall id, an_id e id ->
       (forall p q, queue_of qs id = p :: q -> lost e (lens qs) id = O -> serve_one (far e id) id (D id) (wrap p) = Ok (D1 id, X1 id)) /\
       (H0 id = [] -> D1 id = D id /\ X1 id = []) /\
       exists X2, serve_all (far e id) id (D1 id) (map wrap (sent e (map (@tl _) qs) id)) = Ok (D' id, X2) /\ X id = X1 id ++ X2).
    { intros id Hid. specialize (Hs id Hid). unfold D1, X1, H0. destruct (lost e (lens qs) id) as [|k] eqn:El.
      - destruct (sent_kept e qs id El) as [K1 K2]. rewrite K1 in Hs. rewrite K2.
        destruct (queue_of qs id) as [|p q] eqn:Eq; cbn [map tl first firstn] in Hs |- *.
        + split; [discriminate|]. split; [auto|]. exists (X id). split; [exact Hs|reflexivity].
        + cbn [serve_all] in Hs. obind Hs a Ea. destruct a as [d1 x1]. obind Hs b Eb. destruct b as [d2 x2]. injection Hs as <- <-.
          rewrite Ea. cbn [fst snd]. split; [intros p' q' Epq; injection Epq as <- <-; intros _; exact Ea|]. split; [discriminate|].
          exists x2. split; [exact Eb|reflexivity].
      - rewrite (sent_lost e qs id) by (rewrite El; discriminate). cbn [first fst snd]. split; [discriminate|]. split; [auto|].
        exists (X id). split; [exact Hs|reflexivity]. }
    destruct (round_lost e S D D1 X1 cl ms H PS) as (cl1 & ids & ER & PI & M).
    + apply Forall_forall. intros m Hin. apply filter_In in Hin as [Hin Hg]. apply (Hgo m Hin) in Hg.
      destruct (Hms m Hin) as (Hid & p & q & Eq & Em). unfold round_ok.
      split; [split; [exact Hid|]; rewrite Em; split; [reflexivity|apply Hw]|].
      destruct (Hsplit (m_dst m) Hid) as [H1 _]. assert (Eb : m_body m = wrap p) by (rewrite Em; reflexivity). rewrite Eb.
      split; [apply (H1 p q Eq Hg)|]. intros Ff. destruct (sent_kept e qs (m_dst m) Hg) as [K1 _].
      destruct (Hfar (m_dst m) Hid Ff ltac:(cbv beta; rewrite K1, Eq; discriminate)) as [R F].
      split; [exact R|]. rewrite K1, Eq in F. cbn [map fits_wire] in F. destruct F as (F1 & d' & r & F2 & F3 & _).
      cbn [fits_wire]. eauto 8.
    + assert (Hids : Forall (an_id e) ids).
      { apply Forall_forall. intros id Hid. apply (Permutation_in _ PI) in Hid. apply in_map_iff in Hid as (m & <- & Hin). apply filter_In in Hin as [Hin _]. apply Hms, Hin. }
      assert (ND : NoDup ids) by (apply (Permutation_NoDup (Permutation_sym PI)), sorted_NoDup, sorted_filter, PS).
      assert (Hempty : forall id, an_id e id -> ~ In id ids -> D1 id = D id /\ X1 id = []).
      { intros id Hid Hnin. destruct (Hsplit id Hid) as (_ & H2 & _). apply H2. unfold H0. destruct (lost e (lens qs) id) eqn:El; [|reflexivity].
        destruct (queue_of qs id) as [|p q] eqn:Eq; [reflexivity|]. exfalso. apply Hnin. apply (Permutation_in _ (Permutation_sym PI)).
        apply in_map_iff. exists (mkMsg (e_rank e) id (wrap p)). split; [reflexivity|]. pose proof (Hms' id p q Hid Eq) as Hin. apply filter_In.
        split; [exact Hin|]. apply (Hgo _ Hin). exact El. }
      assert (Hol : holds e cl1 D1).
      { apply (moved_holds e ids D D1 cl cl1 S Hids H M). intros id Hid Hnin. apply (Hempty id Hid Hnin). }
      assert (HX1 : forall j, In j ids -> Forall (fun x => from x = j) (X1 j)).
      { intros j Hj. rewrite Forall_forall in Hids. destruct (Hsplit j (Hids j Hj)) as (H1 & H2 & _). unfold H0 in H2.
        destruct (lost e (lens qs) j) eqn:El; [|rewrite (proj2 (H2 eq_refl)); constructor].
        destruct (queue_of qs j) as [|p q] eqn:Eq; [rewrite (proj2 (H2 eq_refl)); constructor|]. exact (serve_one_from _ _ _ _ _ _ (H1 p q eq_refl eq_refl)). }
      set (X2 := fun id => match serve_all (far e id) id (D1 id) (map wrap (sent e (map (@tl _) qs) id)) with Ok (_, x) => x | _ => [] end).
      destruct (IH (map (@tl _) qs) cl1 D1 D' X2) as (cl2 & xs & E2 & H2 & F2 & B2 & A2).
      * destruct (remaining_tl qs) as [L1 L2]. lia.
      * rewrite map_length. exact Hlen.
      * exact Hol.
      * intros id Hid. destruct (Hsplit id Hid) as (_ & _ & x2 & E2 & _). unfold X2. rewrite E2. reflexivity.
      * intros id Hid Ff Hne. cbv beta in Hne |- *. destruct (lost e (lens qs) id) as [|k] eqn:El.
        -- destruct (sent_kept e qs id El) as [K1 K2]. rewrite K2 in Hne |- *.
           destruct (queue_of qs id) as [|p q] eqn:Eq; [cbn [tl map] in Hne; congruence|].
           destruct (Hfar id Hid Ff ltac:(cbv beta; rewrite K1; discriminate)) as [R F]. split; [exact R|].
           destruct (Hsplit id Hid) as (H1 & _ & _). rewrite K1 in F. cbn [tl map fits_wire] in F |- *.
           destruct F as (_ & d' & r & Fo & _ & F). specialize (H1 p q Eq El). unfold serve_one in H1. rewrite Ff, Fo in H1. cbn [obind] in H1.
           obind H1 x Ex. injection H1 as H1 _. rewrite <- H1. exact F.
        -- rewrite (sent_lost e qs id) in Hne |- * by (rewrite El; discriminate). destruct (Hfar id Hid Ff Hne) as [R F]. split; [exact R|].
           destruct (Hsplit id Hid) as (_ & H3 & _). unfold H0 in H3. rewrite El in H3. rewrite (proj1 (H3 eq_refl)). exact F.
      * exists cl2, (flat_map X1 ids ++ xs). rewrite ER. cbn [obind]. rewrite E2. cbn [obind]. split; [reflexivity|].
        split; [exact H2|]. split; [apply (frame_trans e cl cl1 cl2); [apply (moved_frame e ids D1 cl cl1 Hids M)|exact F2]|]. split.
        -- intros id Hid. rewrite filter_app, (B2 id Hid), (results_by_id X1 ids id ND HX1).
           destruct (Hsplit id Hid) as (_ & _ & x2 & Ex & ->). unfold X2. rewrite Ex. f_equal.
           destruct (in_dec Z.eq_dec id ids) as [|Hnin]; [reflexivity|]. symmetry. apply (Hempty id Hid Hnin).
        -- apply Forall_app. split; [|exact A2]. apply Forall_forall. intros x Hx. apply in_flat_map in Hx as (j & Hj & Hx).
           pose proof (HX1 j Hj) as Hf1. rewrite Forall_forall in Hf1, Hids. rewrite (Hf1 x Hx). apply Hids, Hj.
Qed.
Lemma process_lost qs cl (D D' : Z -> ds) (X : Z -> list result) :
  length qs = Z.to_nat (e_total e) -> holds e cl D ->
  (forall id, an_id e id -> serve_all (far e id) id (D id) (map wrap (sent e qs id)) = Ok (D' id, X id)) ->
  sendable e D (fun id => map wrap (sent e qs id)) ->
  exists cl' xs, process e wrap qs cl = Ok (cl', xs) /\ holds e cl' D' /\ frame e cl cl' /\
    (forall id, an_id e id -> filter (of_id id) xs = X id) /\ Forall (fun x => an_id e (from x)) xs.
Proof. intros. apply (rounds_lost (remaining qs) qs cl D D' X); auto. Qed.
End Process.
