From Verif Require Import ModelBytes ModelHist ModelKey ModelWire ModelMsg ModelStore ModelGetOp ModelDs ModelElen ModelConf ModelFloat ModelRoute SpecRoute SpecStore ModelClient SpecClient ModelCli SpecCluster SpecConf SpecOptions SpecFp SpecCli ProofBytes ProofStore ProofConf ProofClient4 ProofCluster2 ProofCluster3 ProofDs ProofCli ProofCli4 ProofCli5.
From Coq Require Import Reals.
Local Open Scope N_scope.

(* ---- values ---- *)
Lemma value_prints t d : showable t d -> exists w, print_by_type false d t = Ok w /\ shows t d w.
Proof.
  intros [[-> L]|[[-> L]|[[-> [L B]]|[[-> [L B]]|[[-> [N B]]|[F [x [K [V [Fi ->]]]]]]]]]].
  - destruct (int_prints 4 d ltac:(lia) L) as [W [R [H _]]]. exists (shown 4 d). split; [apply print_4; [left; reflexivity|exact L]|].
    left. exists (bstr "INT32"). apply (int32 _ (signed 32 (ModelBytes.le_dec d))); [exact W|exact R|exact H].
  - destruct (int_prints 8 d ltac:(lia) L) as [W [R [H _]]]. exists (shown 8 d). split; [apply print_8; [left; reflexivity|exact L]|].
    left. exists (bstr "INT64"). apply (int64 _ (signed 64 (ModelBytes.le_dec d))); [exact W|exact R|exact H].
  - destruct (int_prints 4 d ltac:(lia) L) as [W [R [H P]]]. exists (shown 4 d). split; [apply print_4; [right; reflexivity|exact L]|].
    left. exists (bstr "UINT32"). apply (uint32 _ (signed 32 (ModelBytes.le_dec d))); [exact W| |exact H]. split; [exact (P B)|]. eapply Z.lt_le_trans; [apply R|]. discriminate.
  - destruct (int_prints 8 d ltac:(lia) L) as [W [R [H P]]]. exists (shown 8 d). split; [apply print_8; [right; reflexivity|exact L]|].
    left. exists (bstr "UINT64"). apply (uint64 _ (signed 64 (ModelBytes.le_dec d))); [exact W| |exact H]. split; [exact (P B)|]. eapply Z.lt_le_trans; [apply R|]. discriminate.
  - exists d. split; [apply print_text; assumption|]. right. left. split; reflexivity.
  - destruct K as [[-> ->]|[-> ->]].
    + destruct (print_float FLT T_FLOAT 9 x) as [w [minus [m [E [D N]]]]]; [left; auto|exact V|exact Fi|]. exists w. split; [exact E|]. right. right.
      exists FLT, 9, x, minus, m. split; [left; auto|]. split; [exact V|]. split; [reflexivity|]. split; assumption.
    + destruct (print_float DBL T_DOUBLE 17 x) as [w [minus [m [E [D N]]]]]; [right; auto|exact V|exact Fi|]. exists w. split; [exact E|]. right. right.
      exists DBL, 17, x, minus, m. split; [right; auto|]. split; [exact V|]. split; [reflexivity|]. split; assumption.
Qed.
(* ---- lines ---- *)
Lemma ref_prints mem r : ref_showable mem r -> exists w, print_ref mem r = Ok w /\ ref_shows mem r w.
Proof.
  intros [A [L S]]. destruct (value_prints _ _ S) as [w [E H]]. exists w. split; [|exact H]. unfold print_ref.
  destruct (N.eqb_spec (r_addr r) 0); [contradiction|]. cbn [negb andb]. apply N.ltb_ge in L. rewrite L. exact E.
Qed.
Lemma blob_prints b : blob_showable b -> exists w, print_blob b = Ok w /\ blob_shows b w.
Proof. intros [N S]. destruct (value_prints _ _ S) as [w [E H]]. exists w. split; [|exact H]. unfold print_blob. rewrite N. exact E. Qed.
Lemma line_prints mem x : result_showable mem x -> exists line, print_result mem x = Ok line /\ result_line mem x line.
Proof.
  destruct x as [f ok s p|f ok s p o|f ok s p o|f ok s p|f ok|f ok h]; cbn [result_showable print_result result_line]; try contradiction.
  - intros [S P]. destruct (ref_prints mem s S) as [a [Ea A]]. destruct (ref_prints mem p P) as [b [Eb B]]. unfold pair_line. rewrite Ea, Eb. cbn [obind].
    eexists. split; [reflexivity|]. exists a, b. split; [exact A|]. split; [exact B|]. exists (show_int f). split; [apply show_int_whole|]. unfold from_server. destruct ok; reflexivity.
  - destruct ok; intro H; unfold get_line.
    + destruct (H eq_refl) as [S [P O]]. destruct (ref_prints mem s S) as [a [Ea A]]. destruct (ref_prints mem p P) as [b [Eb B]]. destruct (blob_prints o O) as [c [Ec C]].
      rewrite Ea, Eb, Ec. cbn [obind]. eexists. split; [reflexivity|]. exists a, b, c. split; [exact A|]. split; [exact B|]. split; [exact C|].
      exists (show_int f). split; [apply show_int_whole|]. unfold from_server. rewrite <- !app_assoc. reflexivity.
    + eexists. split; [reflexivity|]. exists (show_int f). split; [apply show_int_whole|reflexivity].
  - destruct ok; intro H; unfold get_line.
    + destruct (H eq_refl) as [S [P O]]. destruct (blob_prints s S) as [a [Ea A]]. destruct (blob_prints p P) as [b [Eb B]]. destruct (blob_prints o O) as [c [Ec C]].
      rewrite Ea, Eb, Ec. cbn [obind]. eexists. split; [reflexivity|]. exists a, b, c. split; [exact A|]. split; [exact B|]. split; [exact C|].
      exists (show_int f). split; [apply show_int_whole|]. unfold from_server. rewrite <- !app_assoc. reflexivity.
    + eexists. split; [reflexivity|]. exists (show_int f). split; [apply show_int_whole|reflexivity].
  - intros [S P]. destruct (ref_prints mem s S) as [a [Ea A]]. destruct (ref_prints mem p P) as [b [Eb B]]. unfold pair_line. rewrite Ea, Eb. cbn [obind].
    eexists. split; [reflexivity|]. exists a, b. split; [exact A|]. split; [exact B|]. exists (show_int f). split; [apply show_int_whole|]. unfold from_server. destruct ok; reflexivity.
Qed.
Lemma lines_print mem l : Forall (result_showable mem) l -> exists ls, print_results mem l = Ok (concat ls) /\ Forall2 (result_line mem) l ls.
Proof.
  induction 1 as [|x l H _ [ls [E F]]]; [exists []; split; [reflexivity|constructor]|]. destruct (line_prints mem x H) as [line [El L]].
  exists (line :: ls). cbn [print_results]. rewrite El. cbn [obind]. rewrite E. cbn [obind concat]. split; [reflexivity|constructor; assumption].
Qed.

(* ---- a script: what the results refer to is still there ---- *)
Definition held (mem : N -> bytes) (a : arg) : Prop := a_addr a <> 0 /\ mem (a_addr a) = a_data a /\ showable (a_type a) (a_data a).
Definition stored_ok (M : tmap) : Prop := forall s p o, M s p = Some o ->
  showable (f_type s) (f_data s) /\ showable (f_type p) (f_data p) /\ showable (f_type o) (f_data o).
Lemma held_ref mem a : held mem a -> ref_showable mem (rf a).
Proof.
  intros [A [M S]]. unfold rf, ref_showable. cbn [r_addr r_len r_type]. rewrite M. split; [exact A|]. split; [lia|].
  unfold blen. rewrite Nat2N.id, firstn_all. exact S.
Qed.
Definition held3 mem (t : arg * arg * arg) : Prop := let '(a, b, c) := t in held mem a /\ held mem b /\ held mem c.
Lemma put_all_ok mem l : Forall (held3 mem) l -> forall M, stored_ok M -> stored_ok (put_all M l).
Proof.
  induction 1 as [|[[a b] c] l H _ IH]; intros M SM; [exact SM|]. cbn [put_all]. apply IH. intros s p o E.
  destruct (tset_cases M (fa a) (fa b) (Some (fa c)) s p) as [[<- [<- X]]|[_ X]]; rewrite X in E; [injection E as <-; destruct H as [[_ [_ H1]] [[_ [_ H2]] [_ [_ H3]]]]; split; [exact H1|split; assumption]|exact (SM s p o E)].
Qed.
Lemma del_all_ok mem e k l : Forall (fun t => held mem (fst t) /\ held mem (snd t)) l -> forall M, stored_ok M ->
  stored_ok (fst (del_all e k M l)) /\ Forall (result_showable mem) (snd (del_all e k M l)).
Proof.
  induction 1 as [|[a b] l [Ha Hb] _ IH]; intros M SM; cbn [del_all].
  - split; [exact SM|constructor].
  - assert (stored_ok (tset M (fa a) (fa b) None)) as S1.
    { intros s p o E. destruct (tset_cases M (fa a) (fa b) None s p) as [[_ [_ X]]|[_ X]]; rewrite X in E; [congruence|exact (SM s p o E)]. }
    specialize (IH _ S1). destruct (del_all e k (tset M (fa a) (fa b) None) l) as [M' r]. cbn [fst snd] in *. destruct IH as [I1 I2].
    split; [exact I1|]. constructor; [split; apply held_ref; assumption|exact I2].
Qed.
Definition call_held mem (x : call) : Prop :=
  match x with
  | CPut s p o _ => held mem s /\ held mem p /\ held mem o
  | CGet s p _ | CDelete s p | CGetOp s p _ _ _ => held mem s /\ held mem p
  | _ => False
  end.
Lemma puts_held mem e cs : Forall (call_held mem) cs -> Forall (held3 mem) (flat_map (call_puts e) cs).
Proof.
  intro F. apply Forall_forall. intros t I. apply in_flat_map in I. destruct I as [x [Ix It]]. rewrite Forall_forall in F. specialize (F x Ix).
  destruct x; cbn [call_held call_puts In] in *; try contradiction. destruct (given s && given p && given o); [|contradiction].
  unfold one_put in It. apply while_In in It. apply triples_six in It. destruct F as [A [B C]].
  cbn [In] in It. destruct It as [<-|[<-|[<-|[<-|[<-|[<-|[]]]]]]]; cbn [held3]; tauto.
Qed.
Lemma gets_held mem cs : Forall (call_held mem) cs -> Forall (fun t => held mem (fst (fst t)) /\ held mem (snd (fst t))) (flat_map call_gets cs).
Proof.
  intro F. apply Forall_forall. intros t I. apply in_flat_map in I. destruct I as [x [Ix It]]. rewrite Forall_forall in F. specialize (F x Ix).
  destruct x; cbn [call_held call_gets In] in *; try contradiction. destruct (given s && given p); [|contradiction]. destruct It as [<-|[]]. exact F.
Qed.
Lemma dels_held mem cs : Forall (call_held mem) cs -> Forall (fun t => held mem (fst t) /\ held mem (snd t)) (flat_map call_dels cs).
Proof.
  intro F. apply Forall_forall. intros t I. apply in_flat_map in I. destruct I as [x [Ix It]]. rewrite Forall_forall in F. specialize (F x Ix).
  destruct x; cbn [call_held call_dels In] in *; try contradiction. destruct (given s && given p); [|contradiction]. destruct It as [<-|[]]. exact F.
Qed.
Lemma batch_ok mem e k M cs : Forall (call_held mem) cs -> stored_ok M -> stored_ok (fst (batch e k M cs)) /\ Forall (result_showable mem) (snd (batch e k M cs)).
Proof.
  intros F SM. unfold batch. pose proof (puts_held mem e cs F) as P. pose proof (put_all_ok mem _ P M SM) as S1.
  pose proof (del_all_ok mem e k _ (dels_held mem cs F) _ S1) as [S2 D]. destruct (del_all e k (put_all M (flat_map (call_puts e) cs)) (flat_map call_dels cs)) as [M2 r].
  cbn [fst snd] in *. split; [exact S2|]. apply Forall_app. split; [|apply Forall_app; split; [|exact D]].
  - apply Forall_map. eapply Forall_impl; [|exact P]. intros [[a b] c] [A [B _]]. split; apply held_ref; assumption.
  - apply Forall_map. eapply Forall_impl; [|exact (gets_held mem cs F)]. intros [[a b] ty] [A B]. cbn [fst snd] in *. cbn [get_result].
    destruct (put_all M (flat_map (call_puts e) cs) (fa a) (fa b)) as [o|] eqn:E; cbn [result_showable]; [|discriminate].
    intros _. split; [apply held_ref, A|]. split; [apply held_ref, B|]. split; [reflexivity|exact (proj2 (proj2 (S1 _ _ _ E)))].
Qed.
Lemma expected_ok mem e k l : Forall (Forall (call_held mem)) l -> forall M, stored_ok M ->
  Forall (Forall (result_showable mem)) (expected (fun _ => e) k M (map (fun cs => (0%Z, cs)) l)).
Proof.
  induction 1 as [|cs l F _ IH]; intros M SM; [constructor|]. cbn [map expected]. pose proof (batch_ok mem e k M cs F SM) as [S1 R].
  destruct (batch e k M cs) as [M' xs]. constructor; [exact R|exact (IH M' S1)].
Qed.
Lemma kept_calls mem at_ b : forall i, Forall on_pairs b -> kept_cmds mem at_ i b -> Forall (call_held mem) (calls_at at_ i b).
Proof.
  induction b as [|c b IH]; intros i D K; [constructor|]. cbn [calls_at]. destruct K as [K1 K2]. inversion D as [|? ? D1 D2]; subst.
  unfold kept_cmd in K1. destruct (at_ i) as [[x y] z]. destruct c; cbn [on_pairs] in D1; try contradiction; cbn [call_of]; constructor; try exact (IH (S i) D2 K2); exact K1.
Qed.
Lemma kept_app mem at_ a : forall i b, kept_cmds mem at_ i (a ++ b) -> kept_cmds mem at_ i a /\ kept_cmds mem at_ (i + List.length a) b.
Proof.
  induction a as [|c a IH]; intros i b K; cbn [app kept_cmds List.length] in *; [rewrite Nat.add_0_r; split; [exact Logic.I|exact K]|].
  destruct K as [K1 K2]. destruct (IH (S i) b K2) as [K3 K4]. split; [split; assumption|]. rewrite Nat.add_succ_r. exact K4.
Qed.
Lemma kept_batches mem at_ bs : forall i, Forall (Forall on_pairs) bs -> kept_cmds mem at_ i (script bs) -> Forall (Forall (call_held mem)) (batches at_ i bs).
Proof.
  induction bs as [|b bs IH]; intros i D K; [constructor|]. inversion D as [|? ? D1 D2]; subst. cbn [batches]. cbn [script flat_map] in K.
  apply kept_app in K. destruct K as [K1 K2]. apply kept_app in K1. destruct K1 as [K1 _]. rewrite app_length in K2. cbn [List.length] in K2. rewrite Nat.add_assoc in K2.
  constructor; [exact (kept_calls mem at_ b i D1 K1)|exact (IH _ D2 K2)].
Qed.
Lemma concat_showable mem xss yss : Forall2 (@Permutation result) xss yss -> Forall (Forall (result_showable mem)) yss -> Forall (result_showable mem) (concat xss).
Proof.
  induction 1 as [|xs ys xss yss P _ IH]; intro F; [constructor|]. inversion F as [|? ? F1 F2]; subst. cbn [concat]. apply Forall_app. split; [|exact (IH F2)].
  apply Permutation_sym in P. eapply Permutation_Forall; eassumption.
Qed.
Lemma script_prints e k c s cl at_ bs mem : good_client e -> fresh e s -> holds e cl (fun _ => opened k c) -> Forall (Forall on_data) bs ->
  Forall (fun cs => Forall (data_call c) cs /\ spread e cs) (batches at_ 0 bs) -> kept_cmds mem at_ 0 (script bs) ->
  exists s' cl' rs xss ls, run_commands e at_ 0 s cl (script bs) = Ok (s', cl', rs) /\ flat_map fst rs = concat xss /\
    Forall2 (@Permutation result) xss (expected (fun _ => e) k no_triples (map (fun cs => (0%Z, cs)) (batches at_ 0 bs))) /\
    print_results mem (flat_map fst rs) = Ok (concat ls) /\ Forall2 (result_line mem) (flat_map fst rs) ls.
Proof.
  intros G F H D C K. destruct (script_is_map e k c s cl at_ bs G F H D C) as (s' & cl' & rs & xss & E & _ & X & P).
  assert (Forall (result_showable mem) (flat_map fst rs)) as SH.
  { rewrite X. eapply concat_showable; [exact P|]. apply expected_ok; [exact (kept_batches mem at_ bs 0 (data_pairs bs D) K)|]. intros ? ? ? Y. discriminate Y. }
  destruct (lines_print mem _ SH) as [ls [E1 E2]]. exists s', cl', rs, xss, ls. split; [exact E|]. split; [exact X|]. split; [exact P|]. split; assumption.
Qed.
