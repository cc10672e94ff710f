(* What hx.cpp and hx.c print *)
From Verif Require Import ModelBytes ProofBytes ModelKey ModelWire ModelHist ModelMsg ModelStore ModelGetOp ModelDs ProofStore ModelElen ProofElen ModelFloat ModelTransform ModelRoute ProofRoute2 ModelClient SpecClient SpecCluster
  SpecScan SpecElen ModelConf SpecConf ModelCli SpecCli ProofCli5 ProofCli6 ModelTyped SpecMixed SpecMixed3 ProofDs SpecRoute SpecTyped ProofFpLibm ModelHx SpecHx ProofHx ProofHx2 ModelHxPrint SpecHxPrint.
From Verif Require Import SpecFp.
From Coq Require Import Reals Lra.
Local Open Scope N_scope.

Lemma to_string_no_nul n : ~ In "000"%char (to_string n).
Proof. intros H. destruct (to_string_spec n) as [A _]. unfold all_digits in A. rewrite Forall_forall in A. specialize (A _ H). discriminate A. Qed.
Lemma text_no_nul w r i : ~ In "000"%char w -> ~ In "000"%char (w ++ to_string r ++ bstr "-" ++ to_string i).
Proof.
  intros Hw H. apply in_app_or in H as [H|H]; [exact (Hw H)|]. apply in_app_or in H as [H|H]; [exact (to_string_no_nul _ H)|].
  apply in_app_or in H as [[H|[]]|H]; [discriminate H|exact (to_string_no_nul _ H)].
Qed.

Section Print.
Context (mem : N -> bytes) (e : env) (h : hx_memory) (r : Z) (n : N) (Rng : (0 <= r < 2 ^ 31)%Z) (Mem : good_memory h n) (Txt : holds_texts mem h r n).
Lemma ref_print a t : a <> 0 -> mem a = t -> ~ In "000"%char t -> blen t < 2 ^ 31 -> print_ref mem (rf (mkArg a t T_BYTE)) = Ok t.
Proof.
  intros Ha Et Hn Hl. unfold print_ref, rf. cbn [a_addr a_data a_type r_addr r_len r_type]. rewrite Et, N.ltb_irrefl, andb_false_r.
  destruct (N.eqb_spec a 0); [contradiction|]. unfold blen. rewrite Nnat.Nat2N.id, firstn_all. apply print_text; assumption.
Qed.
Lemma n_64 : n < 2 ^ 64.
Proof. destruct Mem as (_ & _ & H). lia. Qed.
Lemma subject_print i : i < n -> print_ref mem (rf (subject_at h r i)) = Ok (subject r i).
Proof.
  intro Hi. destruct (proj1 Mem i Hi) as (A & _ & _). destruct (Txt i Hi) as [B _]. pose proof n_64. apply ref_print; [exact A|exact B| |].
  - apply text_no_nul. vm_compute. intuition discriminate.
  - rewrite <- pattern_subject by lia. pose proof (pattern_short (bstr "subject") r i ltac:(discriminate) Rng ltac:(lia)). lia.
Qed.
Lemma predicate_print i : i < n -> print_ref mem (rf (predicate_at h r i)) = Ok (predicate r i).
Proof.
  intro Hi. destruct (proj1 Mem i Hi) as (_ & _ & A & _). destruct (Txt i Hi) as [_ B]. pose proof n_64. apply ref_print; [exact A|exact B| |].
  - apply text_no_nul. vm_compute. intuition discriminate.
  - rewrite <- pattern_predicate by lia. pose proof (pattern_short (bstr "predicate") r i ltac:(discriminate) Rng ltac:(lia)). lia.
Qed.
Lemma rank_is : rank_text r = bstr "Rank " ++ to_string (Z.to_N r) ++ bstr " ".
Proof. unfold rank_text, show_int. destruct (Z.ltb_spec r 0); [lia|reflexivity]. Qed.
Lemma line_is t f : line_of r t f (rank_text r ++ t ++ from_server f).
Proof. exists (show_int f). split; [apply show_int_whole|]. rewrite rank_is. unfold from_server. rewrite <- !app_assoc. reflexivity. Qed.

Lemma ranked_lines (f : result -> outcome bytes) (g : N -> result) (line : N -> bytes -> Prop) l :
  (forall i, i < n -> exists a, f (g i) = Ok a /\ line i (rank_text r ++ a)) -> Permutation l (map g (below_n n)) ->
  exists out, print_ranked r f l = Ok out /\ lines n line out.
Proof.
  intros H P. apply Permutation_map_inv in P as (order & -> & P). apply Permutation_sym in P.
  assert (X : exists ls, print_ranked r f (map g order) = Ok (concat ls) /\ Forall2 line order ls).
  { assert (B : forall i, In i order -> i < n) by (intros i Hi; apply below_In; eapply Permutation_in; eassumption).
    clear P. induction order as [|i order IH]; [exists []; split; [reflexivity|constructor]|]. destruct IH as (ls & A & F); [intros j Hj; apply B; right; exact Hj|].
    destruct (H i (B i (or_introl eq_refl))) as (a & Ea & La). exists ((rank_text r ++ a) :: ls). cbn [map print_ranked]. rewrite Ea. cbn [obind]. rewrite A. cbn [obind concat].
    split; [rewrite <- app_assoc; reflexivity|constructor; assumption]. }
  destruct X as (ls & A & F). exists (concat ls). split; [exact A|]. exists order, ls. auto.
Qed.
Context (y : N -> spec_float) (Val : forall i, i < n -> valid DBL (y i) /\ finite_fp (y i)).
Lemma fail_prints f i : f = hx_result mem \/ f = print_result mem -> i < n -> exists a, f (fails e h r i) = Ok a /\ fail_line e h r i (rank_text r ++ a).
Proof.
  intros Hf Hi. exists (bstr "GET returned ERROR" ++ from_server (server e h r i)). split; [destruct Hf as [-> | ->]; reflexivity|]. apply line_is.
Qed.
Lemma done_prints i : i < n -> exists a, hx_result mem (stored_ e h r i) = Ok a /\ done_line e h r i (rank_text r ++ a).
Proof. intro Hi. eexists. split; [reflexivity|]. apply (line_is (bstr "PUT returned SUCCESS")). Qed.
Lemma done_c_prints i : i < n -> exists a, print_result mem (stored_ e h r i) = Ok a /\ done_c_line e h r i (rank_text r ++ a).
Proof.
  intro Hi. exists ((bstr "PUT          " ++ braces r i ++ bstr " returned SUCCESS") ++ from_server (server e h r i)). split; [|apply line_is].
  unfold stored_. cbn [print_result]. unfold pair_line. rewrite subject_print, predicate_print by exact Hi. cbn [obind]. unfold braces. rewrite <- !app_assoc. reflexivity.
Qed.
Lemma number_prints f i : f = hx_result mem \/ f = print_result mem -> i < n -> exists a, f (returns e h y r i) = Ok a /\ number_line e h r (nearly y) i (rank_text r ++ a).
Proof.
  intros Hf Hi. destruct (Val i Hi) as [V F]. destruct (print_float DBL T_DOUBLE 17 (y i)) as (w & minus & m & Ew & D & Nr); [right; auto|exact V|exact F|].
  exists ((bstr "GET returned " ++ braces r i ++ bstr " -> " ++ w) ++ from_server (server e h r i)). split.
  - replace (f (returns e h y r i)) with (get_line true (server e h r i) (print_ref mem (rf (subject_at h r i))) (print_ref mem (rf (predicate_at h r i))) (print_blob (mkBlob false (store_fp DBL (y i)) T_DOUBLE))) by (destruct Hf as [-> | ->]; reflexivity).
    rewrite subject_print, predicate_print by exact Hi. unfold print_blob. cbn [b_null b_data b_type]. rewrite Ew. unfold get_line. cbn [obind]. unfold braces. rewrite <- !app_assoc. reflexivity.
  - exists w, minus, m. split; [exact D|]. split; [exact Nr|apply line_is].
Qed.
Lemma hx_prints rs : hx_shows e h y r n rs ->
  prints (hx_print mem r) rs (lines n (fail_line e h r)) (lines n (done_line e h r)) (lines n (number_line e h r (nearly y))) /\
  prints (hx_c_print mem r) rs (lines n (fail_line e h r)) (lines n (done_c_line e h r)) (lines n (number_line e h r (nearly y))).
Proof.
  intros (r1 & r2 & r3 & -> & P1 & P2 & P3). split.
  - destruct (ranked_lines (hx_result mem) _ (fail_line e h r) r1 (fun i => fail_prints _ i (or_introl eq_refl)) P1) as (o1 & A1 & B1).
    destruct (ranked_lines (hx_result mem) _ (done_line e h r) r2 done_prints P2) as (o2 & A2 & B2).
    destruct (ranked_lines (hx_result mem) _ (number_line e h r (nearly y)) r3 (fun i => number_prints _ i (or_introl eq_refl)) P3) as (o3 & A3 & B3).
    exists r1, r2, r3, o1, o2, o3. auto 10.
  - destruct (ranked_lines (print_result mem) _ (fail_line e h r) r1 (fun i => fail_prints _ i (or_intror eq_refl)) P1) as (o1 & A1 & B1).
    destruct (ranked_lines (print_result mem) _ (done_c_line e h r) r2 done_c_prints P2) as (o2 & A2 & B2).
    destruct (ranked_lines (print_result mem) _ (number_line e h r (nearly y)) r3 (fun i => number_prints _ i (or_intror eq_refl)) P3) as (o3 & A3 & B3).
    exists r1, r2, r3, o1, o2, o3. auto 10.
Qed.
End Print.

Lemma lines_weaken n (f g : N -> bytes -> Prop) out : (forall i l, i < n -> f i l -> g i l) -> lines n f out -> lines n g out.
Proof.
  intros H (order & ls & P & -> & F). exists order, ls. split; [exact P|]. split; [reflexivity|].
  assert (B : forall i, In i order -> i < n) by (intros i Hi; apply below_In; eapply Permutation_in; eassumption). clear P.
  induction F as [|i l order ls Hf _ IH]; [constructor|]. constructor; [apply H; [apply B; left; reflexivity|exact Hf]|]. apply IH. intros j Hj. apply B. right. exact Hj.
Qed.
Lemma prints_weaken p rs f1 f2 (f3 f3' : bytes -> Prop) : (forall o, f3 o -> f3' o) -> prints p rs f1 f2 f3 -> prints p rs f1 f2 f3'.
Proof. intros H (r1 & r2 & r3 & o1 & o2 & o3 & E & A & B & C & F1 & F2 & F3). exists r1, r2, r3, o1, o2, o3. auto 10. Qed.
Lemma near_14 n d y : (forall i, i < n -> (Rabs (val (y i) - val (d i)) <= Rabs (val (d i)) * ten (-14))%R) ->
  forall i v, i < n -> nearly y i v -> fourteen d i v.
Proof.
  intros H i v Hi Hv. unfold nearly, fourteen in *. specialize (H i Hi). replace (v - val (d i))%R with ((v - val (y i)) + (val (y i) - val (d i)))%R by lra.
  eapply Rle_trans; [apply Rabs_triang|]. lra.
Qed.
Lemma hx_output L u E k e0 S cl h d n ranks l mem : good_libm L -> sym_ok (ne_neg (cb_num u)) (ne_pos (cb_num u)) -> ne_double (cb_num u) = DOUBLE_PRECISION ->
  (forall r, In r ranks -> (0 <= r < 2 ^ 31)%Z /\ good_client (E r) /\ same_cluster e0 (E r) /\ fresh (E r) (S r) /\ good_memory (h r) n /\ forall i, i < n -> keeps (d r i)) ->
  (forall r, In r ranks -> holds_texts (mem r) (h r) r n) ->
  holds e0 cl (fun _ => opened k (session L u)) -> ranks_run ranks (fun r => hx_moves (h r) (d r) r n) l -> moves_apart E (fun _ => idle) l ->
  exists cl' rs, moves E S cl l = Ok (cl', rs) /\ forall r, In r ranks ->
    prints (hx_print (mem r) r) (mine r l rs) (lines n (fail_line (E r) (h r) r)) (lines n (done_line (E r) (h r) r)) (lines n (number_line (E r) (h r) r (fourteen (d r)))) /\
    prints (hx_c_print (mem r) r) (mine r l rs) (lines n (fail_line (E r) (h r) r)) (lines n (done_c_line (E r) (h r) r)) (lines n (number_line (E r) (h r) r (fourteen (d r)))).
Proof.
  intros HL Hs Hp HR Ht Hc Hl Ha. destruct (hx_close_valid L u E k e0 S cl h d n ranks l HL Hs Hp HR Hc Hl Ha) as (cl' & rs & Em & Sh).
  exists cl', rs. split; [exact Em|]. intros r Hj. destruct (Sh r Hj) as (y & A & B). destruct (HR r Hj) as (Rr & _ & _ & _ & Mr & _).
  destruct (hx_prints (mem r) (E r) (h r) r n Rr Mr (Ht r Hj) y ltac:(intros i Hi; destruct (B i Hi) as (? & ? & _); auto) (mine r l rs) A) as [P Q].
  assert (W : forall o, lines n (number_line (E r) (h r) r (nearly y)) o -> lines n (number_line (E r) (h r) r (fourteen (d r))) o).
  { intros o. apply lines_weaken. intros i line Hi (w & minus & m & D & Nr & Li). exists w, minus, m. split; [exact D|]. split; [|exact Li].
    apply (near_14 n (d r) y); [intros j Hjn; apply (B j Hjn)|exact Hi|exact Nr]. }
  split; eapply prints_weaken; try exact W; assumption.
Qed.
