(* What puts.c leaves in the cluster *)
From Verif Require Import ModelBytes ProofBytes ModelKey ModelWire ModelHist ModelMsg SpecMsg ModelStore ModelGetOp ModelDs
  SpecStore ProofStore ProofDs ModelElen ModelTransform ModelFloat ModelRoute SpecRoute ModelClient SpecClient SpecCluster ProofCluster ProofCluster2
  SpecGetOp SpecScan ModelTyped SpecTyped ProofTyped ProofTyped2 SpecMixed ProofMixed ProofMixed2 SpecMixed3 ProofMixed3 ProofTemps3 SpecOne ProofOne ModelLowest ProofTemps SpecHx ModelPuts SpecPuts SpecStore SpecTyped SpecCluster.
Local Open Scope N_scope.

(* ---- the texts ---- *)
Lemma below_S k : below_n (N.succ k) = 0 :: map N.succ (below_n k).
Proof. unfold below_n. rewrite N2Nat.inj_succ. cbn [seq map]. f_equal. rewrite <- seq_shift, !map_map. apply map_ext. intro a. lia. Qed.
Lemma in_below n i : In i (below_n n) <-> i < n.
Proof. exact (counts_In n i). Qed.
Lemma draw_taken rnd k : forall a, draw rnd a k = taken rnd a (N.of_nat k).
Proof.
  induction k as [|k IH]; intro a; [reflexivity|]. rewrite Nat2N.inj_succ. unfold taken. rewrite below_S. cbn [draw map]. rewrite N.add_0_r. f_equal.
  rewrite IH. unfold taken. rewrite map_map. apply map_ext. intro b. f_equal. f_equal. f_equal. lia.
Qed.
Lemma taken_length rnd a k : blen (taken rnd a k) = k.
Proof. unfold blen, taken, below_n. rewrite !map_length, seq_length. lia. Qed.
Lemma patterns rnd k count : forall a, gen_patterns rnd a k k count = (map (fun i => taken rnd (a + (k + 1) * i + 1) k) (below_n (N.of_nat count)), a + (k + 1) * N.of_nat count).
Proof.
  induction count as [|count IH]; intro a; [cbn; f_equal; lia|]. cbn [gen_patterns]. unfold gen_random_pattern. rewrite N.sub_diag, N.mod_1_r, N.add_0_l, IH, draw_taken, N2Nat.id.
  rewrite Nat2N.inj_succ, below_S. cbn [map]. rewrite map_map. f_equal; [|lia]. f_equal; [f_equal; lia|]. apply map_ext. intro i. f_equal. lia.
Qed.

(* ---- the program ---- *)
Definition its_item (h : puts_memory) (rnd : N -> N) (n t i : N) : arg * arg * arg * N :=
  (mkArg (pm_subject h t i) (f_data (its_subject rnd n t i)) T_BYTE, mkArg (pm_predicate h t i) (f_data (its_predicate rnd n t i)) T_BYTE,
   mkArg (pm_object h t i) (f_data (its_object rnd n t i)) T_BYTE, 1).
Definition its_call (h : puts_memory) (rnd : N -> N) (n t : N) : call := CBPutOne true T_BYTE (Some (map (its_item h rnd n t) (below_n n))).
Lemma combine_maps {A B C} (f : A -> B) (g : A -> C) l : combine (map f l) (map g l) = map (fun a => (f a, g a)) l.
Proof. induction l as [|a l IH]; [reflexivity|]. cbn [map combine]. rewrite IH. reflexivity. Qed.
Lemma combine_self {A B} (f : A -> B) l : combine l (map f l) = map (fun a => (a, f a)) l.
Proof. induction l as [|a l IH]; [reflexivity|]. cbn [map combine]. rewrite IH. reflexivity. Qed.
Lemma rounds_are h rnd n times : forall t, puts_rounds h rnd (39 * n * t) n t times =
  flat_map (fun t' => [Say (its_call h rnd n t'); Send None]) (map (N.add t) (below_n (N.of_nat times))).
Proof.
  induction times as [|times IH]; intro t; [reflexivity|]. cbn [puts_rounds]. unfold spo_gen_random. rewrite !patterns, N2Nat.id.
  rewrite Nat2N.inj_succ, below_S. cbn [map flat_map app]. rewrite N.add_0_r. f_equal; [|f_equal].
  - unfold its_call. f_equal. f_equal. f_equal. unfold round_items. rewrite map_length. unfold below_n at 1. rewrite map_length, seq_length, N2Nat.id.
    change (counts n) with (below_n n). rewrite !combine_maps, combine_self, map_map. apply map_ext. intro i. unfold its_item, its_subject, its_predicate, its_object. cbn [f_data].
    replace (39 * n * t + (8 + 1) * i + 1) with (39 * n * t + 9 * i + 1) by lia. replace (39 * n * t + (8 + 1) * n + (4 + 1) * i + 1) with (39 * n * t + 9 * n + 5 * i + 1) by lia.
    replace (39 * n * t + (8 + 1) * n + (4 + 1) * n + (24 + 1) * i + 1) with (39 * n * t + 14 * n + 25 * i + 1) by lia. reflexivity.
  - replace (39 * n * t + (8 + 1) * n + (4 + 1) * n + (24 + 1) * n) with (39 * n * (t + 1)) by lia. rewrite IH, map_map. f_equal. apply map_ext. intro a. lia.
Qed.
Lemma program_is h rnd n times : puts_moves h rnd n times = flat_map (fun t => [Say (its_call h rnd n t); Send None]) (below_n times).
Proof.
  unfold puts_moves. rewrite <- (N.mul_0_r (39 * n)) at 1. rewrite rounds_are, N2Nat.id. f_equal. rewrite <- (map_id (below_n times)) at 2. apply map_ext. reflexivity.
Qed.
Lemma program_says h rnd n times x : In (Say x) (puts_moves h rnd n times) -> exists t, t < times /\ x = its_call h rnd n t.
Proof. rewrite program_is, in_flat_map. intros (t & Ht & [H|[H|[]]]); [|discriminate H]. exists t. apply in_below in Ht. split; [exact Ht|congruence]. Qed.
Lemma program_said h rnd n times t : t < times -> In (Say (its_call h rnd n t)) (puts_moves h rnd n times).
Proof. intro Ht. rewrite program_is, in_flat_map. exists t. split; [apply in_below, Ht|left; reflexivity]. Qed.
Lemma program_ends h rnd n times : puts_moves h rnd n times = [] \/ exists ms, puts_moves h rnd n times = ms ++ [Send None].
Proof.
  rewrite program_is. destruct (below_n times) as [|t0 ts0]; [left; reflexivity|]. destruct (exists_last (l:=t0 :: ts0) ltac:(discriminate)) as (l & a & ->). right. exists (flat_map (fun t => [Say (its_call h rnd n t); Send None]) l ++ [Say (its_call h rnd n a)]).
  rewrite flat_map_app. cbn [flat_map app]. rewrite <- app_assoc. reflexivity.
Qed.

(* ---- maps ---- *)
Lemma put_all_some l : forall M s p o, put_all M l s p = Some o -> M s p = Some o \/ exists a b d, In (a, b, d) l /\ s = fa a /\ p = fa b /\ o = fa d.
Proof.
  induction l as [|[[a b] d] l IH]; intros M s p o H; [left; exact H|]. cbn [put_all] in H. apply IH in H as [H|(a' & b' & d' & I & E)]; [|right; exists a', b', d'; split; [right; exact I|exact E]].
  unfold tset in H. destruct (feqb (fa a) s) eqn:E1; [|left; exact H]. destruct (feqb (fa b) p) eqn:E2; [|left; exact H]. apply feqb_eq in E1, E2. injection H as <-.
  right. exists a, b, d. split; [left; reflexivity|]. auto.
Qed.
Lemma put_all_keeps l : forall M s p, M s p <> None -> put_all M l s p <> None.
Proof.
  induction l as [|[[a b] d] l IH]; intros M s p H; [exact H|]. cbn [put_all]. apply IH. unfold tset. destruct (feqb (fa a) s && feqb (fa b) p); [discriminate|exact H].
Qed.
Lemma put_all_has l : forall M a b d, In (a, b, d) l -> put_all M l (fa a) (fa b) <> None.
Proof.
  induction l as [|[[a' b'] d'] l IH]; intros M a b d H; [destruct H|]. destruct H as [H|H]; cbn [put_all]; [|eapply IH, H]. injection H as -> -> ->. apply put_all_keeps. rewrite tset_same. discriminate.
Qed.

(* ---- moves that only put and flush ---- *)
Section Puts.
Context (E : Z -> env) (k : backend) (c : codec).
Definition said (m : Z * move) : list (arg * arg * arg) := match snd m with Say x => call_puts (E (fst m)) (spelled x) | Send _ => [] end.
Definition no_dels (m : Z * move) : Prop := match snd m with Say x => call_dels (spelled x) = [] | Send _ => True end.
Record knows (M : tmap) (W : Z -> waiting) (ts : list (arg * arg * arg)) : Prop := {
  kn_only : forall s p o, M s p = Some o -> exists a b d, In (a, b, d) ts /\ s = fa a /\ p = fa b /\ o = fa d;
  kn_wait : forall i t, In t (w_puts (W i)) -> In t ts;
  kn_all : forall a b d, In (a, b, d) ts -> M (fa a) (fa b) <> None \/ exists i, In (a, b, d) (w_puts (W i));
  kn_dels : forall i, w_dels (W i) = []
}.
Lemma knows_put M W ts i ps w : knows M W ts -> w_puts w = w_puts (W i) ++ ps -> w_dels w = [] -> knows M (waits W i w) (ts ++ ps).
Proof.
  intros [A B C D] Hw Hd. constructor.
  - intros s p o H. apply A in H as (a & b & d & H & X). exists a, b, d. split; [apply in_or_app; left; exact H|exact X].
  - intros j t H. unfold waits in H. apply in_or_app. destruct (Z.eqb_spec j i) as [->|]; [|left; eapply B, H]. rewrite Hw in H. apply in_app_or in H as [H|H]; [left; eapply B, H|right; exact H].
  - intros a b d H. apply in_app_or in H as [H|H].
    + destruct (C a b d H) as [H'|(j & H')]; [left; exact H'|]. right. exists j. unfold waits. destruct (Z.eqb_spec j i) as [->|]; [|exact H']. rewrite Hw. apply in_or_app. left. exact H'.
    + right. exists i. unfold waits. rewrite Z.eqb_refl, Hw. apply in_or_app. right. exact H.
  - intro j. unfold waits. destruct (j =? i)%Z; [exact Hd|apply D].
Qed.
Lemma knows_flush M W ts i w : knows M W ts -> w_puts w = [] -> w_dels w = [] -> knows (put_all M (w_puts (W i))) (waits W i w) ts.
Proof.
  intros [A B C D] Hw Hd. constructor.
  - intros s p o H. apply put_all_some in H as [H|(a & b & d & H & X)]; [apply A, H|]. exists a, b, d. split; [eapply B, H|exact X].
  - intros j t H. unfold waits in H. destruct (j =? i)%Z; [rewrite Hw in H; destruct H|eapply B, H].
  - intros a b d H. destruct (C a b d H) as [H'|(j & H')]; [left; apply put_all_keeps, H'|]. destruct (Z.eq_dec j i) as [->|N]; [left; eapply put_all_has, H'|].
    right. exists j. unfold waits. apply Z.eqb_neq in N. rewrite N. exact H'.
  - intro j. unfold waits. destruct (j =? i)%Z; [exact Hd|apply D].
Qed.
Lemma knows_same M W ts i w : knows M W ts -> w_puts w = w_puts (W i) -> w_dels w = [] -> knows M (waits W i w) ts.
Proof. intros K Hw Hd. rewrite <- (app_nil_r ts). apply knows_put; [exact K|rewrite app_nil_r; exact Hw|exact Hd]. Qed.
Lemma knows_sent M W ts i p : knows M W ts -> knows (left_all (E i) k M (W i) (pieces p)) (waits W i (fold_left without (pieces p) (W i))) ts.
Proof.
  intro K. pose proof (kn_dels _ _ _ K i) as D. destruct p as [[| | |]|]; cbn [pieces left_all left_ fold_left without w_puts w_gets w_getops w_dels].
  - apply knows_flush; [exact K|reflexivity|exact D].
  - apply knows_same; [exact K|reflexivity|exact D].
  - apply knows_same; [exact K|reflexivity|exact D].
  - rewrite D. cbn [del_all fst]. apply knows_same; [exact K|reflexivity|reflexivity].
  - rewrite D. cbn [del_all fst]. apply knows_flush; [exact K|reflexivity|reflexivity].
Qed.
Lemma waits_same W i w : waits W i w i = w.
Proof. unfold waits. rewrite Z.eqb_refl. reflexivity. Qed.
Lemma knows_ext M W W' ts : (forall i, W' i = W i) -> knows M W ts -> knows M W' ts.
Proof.
  intros Ex [A B C D]. constructor; [exact A| | |].
  - intros i t H. rewrite Ex in H. eapply B, H.
  - intros a b d H. destruct (C a b d H) as [Y|(j & Y)]; [left; exact Y|]. right. exists j. rewrite Ex. exact Y.
  - intro i. rewrite Ex. apply D.
Qed.
(* the last move of i, if any, is Flush *)
Definition settled (i : Z) (w : waiting) (l : list (Z * move)) : Prop := (alone i l = [] /\ w = idle) \/ exists ms, alone i l = ms ++ [(i, Send None)].
Lemma settled_step i W j m l w : settled i (W i) ((j, m) :: l) -> (m = Send None -> w = idle) -> settled i (waits W j w i) l.
Proof.
  unfold settled, alone, waits. cbn [filter fst]. rewrite (Z.eqb_sym i j). destruct (Z.eqb_spec j i) as [->|]; intros H Hm; [|exact H].
  destruct H as [[H _]|(ms & H)]; [discriminate H|]. destruct ms as [|m' ms]; cbn [app] in H.
  - injection H as -> H. left. split; [exact H|apply Hm; reflexivity].
  - injection H as _ H. right. exists ms. exact H.
Qed.
Lemma all_known : forall l M W ts l2 rs, all_seen E k c M W (l ++ l2) rs -> Forall no_dels l -> knows M W ts ->
  exists M' W' rs1 rs2, rs = rs1 ++ rs2 /\ all_seen E k c M' W' l2 rs2 /\ knows M' W' (ts ++ flat_map said l) /\ forall i, settled i (W i) l -> W' i = idle.
Proof.
  induction l as [|[i [x|p]] l IH]; intros M W ts l2 rs H HF K.
  - exists M, W, [], rs. split; [reflexivity|]. split; [exact H|]. split; [cbn [flat_map]; rewrite app_nil_r; exact K|]. intros i [[_ Hi]|(ms & Hi)]; [exact Hi|]. destruct ms; discriminate Hi.
  - apply Forall_cons_iff in HF as [Hd HF]. cbn [app all_seen] in H. cbn [no_dels snd] in Hd.
    assert (K1 : knows M (waits W i (wait (E i) (W i) (spelled x))) (ts ++ said (i, Say x))).
    { apply knows_put; [exact K|reflexivity|]. cbn [wait w_dels]. rewrite Hd, (kn_dels _ _ _ K i). reflexivity. }
    destruct (at_limit (E i) x (wait (E i) (W i) (spelled x))).
    + assert (K3 : knows (put_all M (w_puts (wait (E i) (W i) (spelled x)))) (waits W i (without (wait (E i) (W i) (spelled x)) Puts)) (ts ++ said (i, Say x))).
      { set (w := wait (E i) (W i) (spelled x)) in *. assert (Dw : w_dels (without w Puts) = []) by (cbn [w without wait w_dels]; rewrite Hd, (kn_dels _ _ _ K i); reflexivity).
        pose proof (knows_flush _ _ _ i (without w Puts) K1 eq_refl Dw) as K2. rewrite waits_same in K2. eapply knows_ext; [|exact K2].
        intro j. unfold waits. destruct (j =? i)%Z; reflexivity. }
      destruct (IH _ _ _ _ _ H HF K3) as (M' & W' & rs1 & rs2 & A & B & C & D). exists M', W', rs1, rs2. split; [exact A|]. split; [exact B|].
      split; [cbn [flat_map]; rewrite app_assoc; exact C|]. intros j Hj. apply D. eapply settled_step; [exact Hj|discriminate].
    + destruct (IH _ _ _ _ _ H HF K1) as (M' & W' & rs1 & rs2 & A & B & C & D). exists M', W', rs1, rs2. split; [exact A|]. split; [exact B|].
      split; [cbn [flat_map]; rewrite app_assoc; exact C|]. intros j Hj. apply D. eapply settled_step; [exact Hj|discriminate].
  - apply Forall_cons_iff in HF as [_ HF]. cbn [app all_seen] in H. destruct H as (xs & ys & rs' & -> & _ & _ & H).
    destruct (IH _ _ _ _ _ H HF (knows_sent _ _ _ i p K)) as (M' & W' & rs1 & rs2 & -> & B & C & D). exists M', W', (xs :: rs1), rs2. split; [reflexivity|]. split; [exact B|].
    split; [exact C|]. intros j Hj. apply D. eapply settled_step; [exact Hj|]. intros [= ->]. reflexivity.
Qed.
End Puts.
