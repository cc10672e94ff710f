(* hx.cpp on any number of ranks *)
From Verif Require Import ModelBytes ProofBytes ModelKey ModelWire ModelHist ModelMsg SpecMsg ModelStore ModelGetOp ModelDs
  SpecStore ProofStore ProofDs ModelElen ModelTransform ModelFloat ModelRoute SpecRoute ModelClient SpecClient SpecCluster ProofCluster ProofCluster2
  SpecGetOp SpecScan ModelTyped SpecTyped ProofTyped ProofTyped2 SpecElen SpecFp ProofFpLibm ProofFloat ProofTyped3
  SpecMixed ProofMixed SpecMixed3 ProofMixed3 ProofMixed4 ModelLowest ProofTemps ModelHx SpecHx ProofHx SpecStore.
From Verif Require Import SpecFp SpecTyped.
From Coq Require Import Reals.
Local Open Scope N_scope.

Lemma alone_kept c i l : alone i (map (kept_move c) l) = map (kept_move c) (alone i l).
Proof.
  induction l as [|[j m] l IH]; [reflexivity|]. unfold alone in *. cbn [map filter kept_move fst snd]. destruct (j =? i)%Z; [cbn [map kept_move fst snd]; f_equal; exact IH|exact IH].
Qed.
Lemma mine_kept c i l : forall rs, mine i (map (kept_move c) l) rs = mine i l rs.
Proof.
  induction l as [|[j [x|p]] l IH]; intro rs; [reflexivity| |]; cbn [map kept_move fst snd mine]; [apply IH|]. destruct rs as [|r rs]; [reflexivity|]. rewrite IH. reflexivity.
Qed.
Lemma alone_In r m l : In (r, m) l -> In (r, m) (alone r l).
Proof. intro H. apply filter_In. split; [exact H|]. cbn [fst]. apply Z.eqb_refl. Qed.

Section Ranks.
Context (L : libm) (u : callbacks) (E : Z -> env) (h : Z -> hx_memory) (d y : Z -> N -> spec_float) (n : N) (ranks : list Z).
Let c := session L u.
Context (Rng : forall r, In r ranks -> (0 <= r < 2 ^ 31)%Z) (GC : forall r, In r ranks -> good_client (E r)) (Mem : forall r, In r ranks -> good_memory (h r) n).
Context (Back : forall r i, In r ranks -> i < n -> comes_back L u T_DOUBLE DBL (d r i) (y r i)).
Definition of_rank (r : Z) (s p : field) : Prop := exists i, i < n /\ s = fa (subject_at (h r) r i) /\ p = fa (predicate_at (h r) r i).
Lemma say_cases r x : In (Say x) (program_of h d n r) -> exists i, i < n /\
  (x = CPut (subject_at (h r) r i) (predicate_at (h r) r i) (fp_arg T_DOUBLE (mkPtr (hx_doubles (h r) + 8 * i) (store_fp DBL (d r i)))) 1 \/
   x = CGet (subject_at (h r) r i) (predicate_at (h r) r i) T_DOUBLE).
Proof.
  unfold program_of, puts_of, gets_of. rewrite !map_map. intro H.
  assert (G : In (Say x) (map (fun i => Say (CGet (subject_at (h r) r i) (predicate_at (h r) r i) T_DOUBLE)) (below_n n)) -> exists i, i < n /\ x = CGet (subject_at (h r) r i) (predicate_at (h r) r i) T_DOUBLE).
  { intro I. apply in_map_iff in I as (i & [= <-] & I). exists i. split; [apply (below_In n), I|reflexivity]. }
  apply in_app_or in H as [H|H].
  - apply in_map_iff in H as (i & [= <-] & I). exists i. split; [apply (below_In n), I|]. left. reflexivity.
  - apply in_app_or in H as [H|H]; [apply G in H as (i & A & B); exists i; auto|].
    apply in_app_or in H as [[H|[H|[]]]|H]; [discriminate H|discriminate H|]. apply in_app_or in H as [H|H]; [apply G in H as (i & A & B); exists i; auto|]. destruct H as [H|[]]. discriminate H.
Qed.
Lemma say_pairs r x : In r ranks -> In (Say x) (program_of h d n r) -> within (of_rank r) (E r) (kept c x).
Proof.
  intros Hj H. apply say_cases in H as (i & Hi & [-> | ->]); cbn [kept]; unfold within; cbn [call_puts call_gets call_dels call_getops].
  - split; [|split; [constructor|split; [constructor|reflexivity]]]. destruct (_ && _ && _)%bool; [|constructor]. unfold one_put. change (put_triples ?s ?p ?o 1) with [(s, p, o)]. cbn [while].
    destruct (placed _ _ _); [|constructor]. constructor; [|constructor]. exists i. auto.
  - split; [constructor|]. split; [|split; [constructor|reflexivity]]. destruct (_ && _)%bool; [|constructor]. constructor; [|constructor]. exists i. auto.
Qed.
Lemma other_pairs r r' s p : In r ranks -> In r' ranks -> r' <> r -> of_rank r' s p -> ~ of_rank r s p.
Proof.
  intros Hj Hj' Ne (i & _ & -> & _) (i' & _ & A & _). apply Ne. pose proof (f_equal f_data A) as B. change (subject r' i = subject r i') in B.
  apply subject_inj in B as [-> _]; [reflexivity|apply (Rng _ Hj')|apply (Rng _ Hj)].
Qed.
Lemma all_left l r : In r ranks -> ranks_run ranks (fun r => hx_moves (h r) (d r) r n) l -> Forall (left_to (of_rank r) E r) (map (kept_move c) l).
Proof.
  intros Hj [Hp Ha]. apply Forall_forall. intros m Hm. apply in_map_iff in Hm as ([r' m'] & <- & Hm). pose proof (Ha _ Hm) as Hj'. cbn [fst] in Hj'.
  destruct (Hp r' Hj') as (ms & Ep & Ea). pose proof (Mem r' Hj') as (_ & _ & Hn).
  rewrite (hx_program E h d y n r' (Rng r' Hj') ltac:(lia)) in Ep. apply Ok_inj in Ep. subst ms. apply alone_In in Hm. rewrite Ea in Hm.
  apply in_map_iff in Hm as (m & [= ->] & Hm). destruct m' as [x|p]; [|exact Logic.I]. unfold left_to. cbn [kept_move fst snd].
  pose proof (say_pairs r' x Hj' Hm) as Hw. destruct (Z.eqb_spec r' r) as [->|Ne]; [exact Hw|]. destruct Hw as (A & _ & B & _). split.
  - revert A. apply Forall_impl. intros [[s p] o] A. apply (other_pairs r r'); assumption.
  - revert B. apply Forall_impl. intros [s p] B. apply (other_pairs r r'); assumption.
Qed.
Lemma hx_runs k e0 S cl l : (forall r, In r ranks -> same_cluster e0 (E r) /\ fresh (E r) (S r)) -> holds e0 cl (fun _ => opened k c) ->
  ranks_run ranks (fun r => hx_moves (h r) (d r) r n) l -> moves_apart E (fun _ => idle) l ->
  exists cl' rs, moves E S cl l = Ok (cl', rs) /\ forall r, In r ranks -> hx_shows (E r) (h r) (y r) r n (mine r l rs).
Proof.
  intros HE Hc HR HA.
  assert (Prog : forall r, In r ranks -> alone r l = map (pair r) (program_of h d n r)).
  { intros r Hj. destruct (proj1 HR r Hj) as (ms & Ep & Ea). pose proof (Mem r Hj) as (_ & _ & Hn). rewrite (hx_program E h d y n r (Rng r Hj) ltac:(lia)) in Ep. apply Ok_inj in Ep. subst ms. exact Ea. }
  destruct (cluster_moves2 E k c e0 S cl l) as (cl' & rs & Em & Seen).
  - intros r Hi. apply in_map_iff in Hi as (m & <- & Hm). pose proof (proj2 HR m Hm) as Hj. split; [apply GC, Hj|apply HE, Hj].
  - exact Hc.
  - apply Forall_forall. intros [r m] Hm. pose proof (proj2 HR _ Hm) as Hj. cbn [fst] in Hj. apply alone_In in Hm. rewrite (Prog r Hj) in Hm.
    pose proof (program_obj L u E h d y n (fun r => In r ranks) Rng Mem Back r Hj) as F. rewrite Forall_forall in F. exact (F _ Hm).
  - exact HA.
  - exists cl', rs. split; [exact Em|]. intros r Hj.
    apply (alone_shows L u E h d y n (fun r => In r ranks) Rng Mem Back r Hj (GC r Hj) k). fold c. rewrite <- (Prog r Hj), <- alone_kept, <- (mine_kept c).
    apply (client_alone (of_rank r)); [exact Seen|apply all_left; assumption].
Qed.
End Ranks.

(* finitely many choices *)
Lemma choice_below {A} (P : N -> A -> Prop) (a0 : A) n : (forall i, i < n -> exists a, P i a) -> exists f, forall i, i < n -> P i (f i).
Proof.
  induction n as [|n IH] using N.peano_ind; intro H; [exists (fun _ => a0); intros i Hi; lia|].
  destruct IH as [f Hf]; [intros i Hi; apply H; lia|]. destruct (H n) as [a Ha]; [lia|].
  exists (fun i => if i =? n then a else f i). intros i Hi. destruct (N.eqb_spec i n) as [->|]; [exact Ha|apply Hf; lia].
Qed.
Lemma choice_list {A} (P : Z -> A -> Prop) (a0 : A) l : (forall i, In i l -> exists a, P i a) -> exists f, forall i, In i l -> P i (f i).
Proof.
  induction l as [|j l IH]; intro H; [exists (fun _ => a0); intros i []|].
  destruct IH as [f Hf]; [intros i Hi; apply H; right; exact Hi|]. destruct (H j (or_introl eq_refl)) as [a Ha].
  exists (fun i => if (i =? j)%Z then a else f i). intros i Hi. destruct (Z.eqb_spec i j) as [->|Ne]; [exact Ha|]. apply Hf. destruct Hi as [->|Hi]; [contradiction|exact Hi].
Qed.

(* C87 *)
Lemma hx_close_valid L u E k e0 S cl h d n ranks l : good_libm L -> sym_ok (ne_neg (cb_num u)) (ne_pos (cb_num u)) -> ne_double (cb_num u) = DOUBLE_PRECISION ->
  (forall r, In r ranks -> (0 <= r < 2 ^ 31)%Z /\ good_client (E r) /\ same_cluster e0 (E r) /\ fresh (E r) (S r) /\ good_memory (h r) n /\ forall i, i < n -> keeps (d r i)) ->
  holds e0 cl (fun _ => opened k (session L u)) -> ranks_run ranks (fun r => hx_moves (h r) (d r) r n) l -> moves_apart E (fun _ => idle) l ->
  exists cl' rs, moves E S cl l = Ok (cl', rs) /\ forall r, In r ranks -> exists y, hx_shows (E r) (h r) y r n (mine r l rs) /\
    forall i, i < n -> finite_fp (y i) /\ valid DBL (y i) /\ (Rabs (val (y i) - val (d r i)) <= Rabs (val (d r i)) * ten (-14))%R.
Proof.
  intros HL Hs Hp HR Hc Hl Ha.
  destruct (choice_list (fun r y => forall i, i < n -> comes_back L u T_DOUBLE DBL (d r i) (y i) /\ finite_fp (y i) /\ valid DBL (y i) /\ (Rabs (val (y i) - val (d r i)) <= Rabs (val (d r i)) * ten (-14))%R) (fun _ => S754_nan) ranks) as [y Hy].
  { intros r Hj. apply (choice_below (fun i yi => comes_back L u T_DOUBLE DBL (d r i) yi /\ finite_fp yi /\ valid DBL yi /\ (Rabs (val yi - val (d r i)) <= Rabs (val (d r i)) * ten (-14))%R) S754_nan).
    intros i Hi. destruct (HR r Hj) as (_ & _ & _ & _ & _ & Hk). destruct (Hk i Hi) as (Hv & Hf & Hr & N1 & N2).
    destruct (back_dbl_valid L u (d r i) HL Hs Hp Hv Hf Hr N1 N2) as (x & C & Fr & Vr & B). exists x. auto. }
  destruct (hx_runs L u E h d y n ranks) with (k := k) (e0 := e0) (S := S) (cl := cl) (l := l) as (cl' & rs & Em & Sh); try assumption.
  - intros r Hj. apply (HR r Hj).
  - intros r Hj. apply (HR r Hj).
  - intros r Hj. apply (HR r Hj).
  - intros r i Hj Hi. apply (Hy r Hj i Hi).
  - intros r Hj. destruct (HR r Hj) as (_ & _ & A & B & _). auto.
  - exists cl', rs. split; [exact Em|]. intros r Hj. exists (y r). split; [apply Sh, Hj|]. intros i Hi. apply (Hy r Hj i Hi).
Qed.
Lemma hx_close L u E k e0 S cl h d n ranks l : good_libm L -> sym_ok (ne_neg (cb_num u)) (ne_pos (cb_num u)) -> ne_double (cb_num u) = DOUBLE_PRECISION ->
  (forall r, In r ranks -> (0 <= r < 2 ^ 31)%Z /\ good_client (E r) /\ same_cluster e0 (E r) /\ fresh (E r) (S r) /\ good_memory (h r) n /\ forall i, i < n -> keeps (d r i)) ->
  holds e0 cl (fun _ => opened k (session L u)) -> ranks_run ranks (fun r => hx_moves (h r) (d r) r n) l -> moves_apart E (fun _ => idle) l ->
  exists cl' rs, moves E S cl l = Ok (cl', rs) /\ forall r, In r ranks -> exists y, hx_shows (E r) (h r) y r n (mine r l rs) /\
    forall i, i < n -> finite_fp (y i) /\ (Rabs (val (y i) - val (d r i)) <= Rabs (val (d r i)) * ten (-14))%R.
Proof.
  intros HL Hs Hp HR Hc Hl Ha. destruct (hx_close_valid L u E k e0 S cl h d n ranks l HL Hs Hp HR Hc Hl Ha) as (cl' & rs & Em & Sh).
  exists cl', rs. split; [exact Em|]. intros r Hj. destruct (Sh r Hj) as (y & A & B). exists y. split; [exact A|]. intros i Hi. destruct (B i Hi) as (C & _ & D). auto.
Qed.
Lemma hx_all L u E k e0 S cl h d y n ranks l :
  (forall r, In r ranks -> (0 <= r < 2 ^ 31)%Z /\ good_client (E r) /\ same_cluster e0 (E r) /\ fresh (E r) (S r) /\ good_memory (h r) n /\
     forall i, i < n -> comes_back L u T_DOUBLE DBL (d r i) (y r i)) ->
  holds e0 cl (fun _ => opened k (session L u)) -> ranks_run ranks (fun r => hx_moves (h r) (d r) r n) l -> moves_apart E (fun _ => idle) l ->
  exists cl' rs, moves E S cl l = Ok (cl', rs) /\ forall r, In r ranks -> hx_shows (E r) (h r) (y r) r n (mine r l rs).
Proof.
  intros HR Hc Hl Ha. eapply hx_runs; try eassumption.
  - intros r Hj. apply (HR r Hj).
  - intros r Hj. apply (HR r Hj).
  - intros r Hj. apply (HR r Hj).
  - intros r i Hj Hi. apply (HR r Hj), Hi.
  - intros r Hj. destruct (HR r Hj) as (_ & _ & A & B & _). auto.
Qed.
Lemma ranks_apart E e0 S ranks prog l : (forall r, In r ranks -> good_client (E r) /\ same_cluster e0 (E r) /\ fresh (E r) (S r)) -> l_per (e_layout e0) = 1%Z ->
  ranks_run ranks prog l -> moves_apart E (fun _ => idle) l.
Proof.
  intros HE H1 [_ Hm]. apply moves_apart_one. intros i Hi. apply in_map_iff in Hi as (m & <- & Im). destruct (HE _ (Hm m Im)) as ((A & _) & (B & _) & _).
  split; [exact A|]. rewrite <- B. exact H1.
Qed.
