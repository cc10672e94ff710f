(* Creating the directories of a path: what is added *)
From Verif Require Import ModelBytes ProofBytes ModelDir SpecDir ProofDir ProofDir2 ProofDir3.
Local Open Scope nat_scope.

Lemma walk_from f r cs : forall d d', walk f r d cs = inl d' -> d' = from d cs.
Proof.
  induction cs as [|c cs IH]; intros d d' W; cbn [walk] in W; [injection W as <-; reflexivity|]. cbn [from fold_left]. fold (from (next d c) cs). unfold next.
  change (bytes_eqb c (bstr ".")) with (bytes_eqb c dot). change (bytes_eqb c (bstr "..")) with (bytes_eqb c dotdot).
  destruct (f d) as [[]|]; [|discriminate W|discriminate W]. destruct (may_search r d); [|discriminate W].
  destruct (bytes_eqb c [] || bytes_eqb c dot)%bool; [exact (IH _ _ W)|]. destruct (bytes_eqb c dotdot); [exact (IH _ _ W)|].
  match type of W with match ?x with _ => _ end = _ => destruct x end; [exact (IH _ _ W)|discriminate W].
Qed.
Lemma mkdir_adds f r cwd b f' e : mkdir f r cwd b = (f', e) -> f' = f \/ exists p, f p = None /\ f' = make f p /\ In p (along (start cwd b) (split_on b)).
Proof.
  intros M. unfold mkdir in M. destruct b as [|x b]; [injection M as <- _; left; reflexivity|].
  destruct (rev (strip (split_on (x :: b)))) as [|c front] eqn:R; [injection M as <- _; left; reflexivity|].
  destruct (walk f r (start cwd (x :: b)) (rev front ++ [dot])) as [d|] eqn:W; [|injection M as <- _; left; reflexivity].
  destruct (bytes_eqb c dot) eqn:B1; [injection M as <- _; left; reflexivity|]. destruct (bytes_eqb c dotdot) eqn:B2; [injection M as <- _; left; reflexivity|]. cbn [orb] in M.
  match type of M with match ?x with _ => _ end = _ => destruct x eqn:N end; [injection M as <- _; left; reflexivity|].
  destruct (may_add r _); [injection M as <- _; left; reflexivity|]. injection M as <- _. right. exists (c :: d). split; [exact N|]. split; [reflexivity|].
  assert (E : strip (split_on (x :: b)) = rev front ++ [c]) by (rewrite <- (rev_involutive (strip _)), R; reflexivity).
  destruct (strip_front (split_on (x :: b))) as (m & ->). rewrite E, !along_app. apply in_or_app. left. apply in_or_app. right. left.
  apply walk_dot in W as (W & _). apply walk_from in W. rewrite <- W. unfold next. pose proof (strip_last _ _ _ R) as CN. destruct (beqb_spec c []); [contradiction|].
  cbn [orb]. change (bytes_eqb c (bstr ".")) with (bytes_eqb c dot). change (bytes_eqb c (bstr "..")) with (bytes_eqb c dotdot). rewrite B1, B2. reflexivity.
Qed.
Lemma adds_trans f g h ps : adds f g ps -> adds g h ps -> adds f h ps.
Proof.
  intros A B p. destruct (B p) as [E|(E1 & E2 & E3)].
  - rewrite E. apply A.
  - destruct (A p) as [E|(_ & E & _)]; [right; rewrite <- E; auto|congruence].
Qed.
Section Adds.
Context (r : rights) (cwd : place) (path : bytes) (NN : ~ In NUL path).
Notation n := (length path).
Lemma loop_adds fuel : forall k i f f' e, 1 <= i -> loop fuel quiet r cwd n slash k (path ++ [NUL]) i f = Ok (f', e) ->
  adds f f' (along (start cwd path) (split_on path)).
Proof.
  induction fuel as [|fuel IH]; intros k i f f' e L E.
  - apply Ok_inj in E. injection E as <- _. intros p. left. reflexivity.
  - destruct (Nat.lt_ge_cases i n) as [B|B].
    2: { rewrite loop_out in E by exact B. apply Ok_inj in E. injection E as <- _. intros p. left. reflexivity. }
    destruct (loop_step quiet r cwd path slash fuel k i f B) as (j & BJ & ST & _ & EQ). rewrite EQ in E. clear EQ. unfold quiet in E at 1.
    rewrite (cut_prefix path NN) in E. destruct (mkdir f r cwd (firstn j path)) as [f1 e1] eqn:M.
    assert (A : adds f f1 (along (start cwd path) (split_on path))).
    { intros p. destruct (mkdir_adds _ _ _ _ _ _ M) as [->|(q & N & -> & J)]; [left; reflexivity|]. unfold make. destruct (peqb_spec p q) as [->|]; [|left; reflexivity].
      right. split; [exact N|]. split; [reflexivity|]. rewrite (start_prefix cwd path NN j) in J by lia. destruct (split_stop path j ST) as (rest & ->).
      rewrite along_app. apply in_or_app. left. exact J. }
    destruct (_ || _)%bool.
    + eapply adds_trans; [exact A|]. eapply IH; [|exact E]. lia.
    + apply Ok_inj in E. injection E as <- _. exact A.
Qed.
Lemma mkdir_p_adds f f' e : mkdir_p quiet r cwd path slash f = Ok (f', e) -> adds f f' (along (start cwd path) (split_on path)).
Proof. apply loop_adds. lia. Qed.
End Adds.
(* no file is made *)
Lemma loop_files others r cwd n sep : (forall k f, tree f -> tree (others k f) /\ forall p, others k f p = Some File -> f p = Some File) -> errors r -> forall fuel k a i g f' e, tree g ->
  loop fuel others r cwd n sep k a i g = Ok (f', e) -> forall p, f' p = Some File -> g p = Some File.
Proof.
  intros HO HR. induction fuel as [|fuel IH]; intros k a i g f' e T E p P; cbn [loop] in E.
  - apply Ok_inj in E. injection E as <- _. exact P.
  - destruct (i <? n); [|apply Ok_inj in E; injection E as <- _; exact P]. destruct (scan _ _ _ _ _) as [j| |]; [|discriminate E|discriminate E]. cbn [obind] in E.
    destruct (put_at a j NUL) as [a1| |]; [|discriminate E|discriminate E]. cbn [obind] in E. destruct (c_string a1) as [b|]; [|discriminate E].
    destruct (HO k g T) as [T1 F1]. destruct (mkdir (others k g) r cwd b) as [g1 e1] eqn:M. destruct (mkdir_done _ _ _ _ _ _ HR T1 M) as (T2 & _).
    assert (X : g1 p = Some File -> g p = Some File).
    { intros Q. apply F1. destruct (mkdir_adds _ _ _ _ _ _ M) as [->|(q & _ & -> & _)]; [exact Q|]. unfold make in Q. destruct (place_eqb p q); [discriminate Q|exact Q]. }
    destruct (_ || _)%bool.
    + destruct (put_at a1 j sep) as [a2| |]; [|discriminate E|discriminate E]. cbn [obind] in E. apply X. exact (IH _ _ _ _ _ _ T2 E p P).
    + apply Ok_inj in E. injection E as <- _. exact (X P).
Qed.
Lemma keeps_files others r cwd path sep f : (forall k f, tree f -> tree (others k f) /\ forall p, others k f p = Some File -> f p = Some File) -> tree f -> errors r -> forall f' e,
  mkdir_p others r cwd path sep f = Ok (f', e) -> forall p, f' p = Some File -> f p = Some File.
Proof. intros HO T HR f' e. apply loop_files; assumption. Qed.
