(* Creating the directories of a path: when it succeeds, and what it adds *)
From Verif Require Import ModelBytes ProofBytes ModelDir SpecDir ProofDir ProofDir2.
Local Open Scope nat_scope.

Definition from (d : place) (cs : list bytes) : place := fold_left next cs d.
Lemma along_app d cs cs' : along d (cs ++ cs') = along d cs ++ along (from d cs) cs'.
Proof. revert d. induction cs as [|c cs IH]; intros d; [reflexivity|]. cbn [app along from fold_left]. rewrite IH. reflexivity. Qed.
Lemma from_app d cs cs' : from d (cs ++ cs') = from (from d cs) cs'.
Proof. apply fold_left_app. Qed.
Lemma from_in d cs : from d cs = d \/ In (from d cs) (along d cs).
Proof.
  induction cs as [|c cs IH] using rev_ind; [left; reflexivity|]. right. rewrite along_app. apply in_or_app. right. rewrite from_app. left. reflexivity.
Qed.
Lemma along_empties d m : forall p, In p (along d (repeat [] m)) -> p = d.
Proof. induction m as [|m IH]; [intros p []|]. intros p [<-|J]; [reflexivity|apply IH; exact J]. Qed.

Lemma from_not_file (f : fs) d cs : f d = Some Dir -> Forall (fun p => f p <> Some File) (along d cs) -> f (from d cs) <> Some File.
Proof.
  intros D F. destruct (from_in d cs) as [E|J]; [rewrite E, D; discriminate|]. rewrite Forall_forall in F. exact (F _ J).
Qed.
(* directories all along *)
Definition dirs (f : fs) (d : place) (cs : list bytes) : Prop := f d = Some Dir /\ Forall (fun p => f p = Some Dir) (along d cs).
Lemma dirs_from f d cs : dirs f d cs -> f (from d cs) = Some Dir.
Proof. intros [D F]. destruct (from_in d cs) as [->|J]; [exact D|]. rewrite Forall_forall in F. exact (F _ J). Qed.
Lemma dirs_app f d cs cs' : dirs f d (cs ++ cs') <-> dirs f d cs /\ dirs f (from d cs) cs'.
Proof.
  unfold dirs. rewrite along_app, Forall_app. split.
  - intros (D & A & B). split; [split; assumption|]. split; [apply (dirs_from f d cs); split; assumption|exact B].
  - intros ((D & A) & _ & B). auto.
Qed.
Lemma dirs_grows f g d cs : grows f g -> dirs f d cs -> dirs g d cs.
Proof. intros G [D F]. split; [exact (G _ _ D)|]. revert F. apply Forall_impl. intros p E. exact (G _ _ E). Qed.
Lemma walk_dirs f cs : forall d, dirs f d cs -> walk f all_rights d cs = inl (from d cs).
Proof.
  induction cs as [|c cs IH]; intros d [D F]; [reflexivity|]. cbn [walk along] in *. rewrite D. cbn [may_search all_rights]. inversion F as [|? ? A B]; subst.
  cbn [from fold_left]. unfold next in *. change (bytes_eqb c dot) with (bytes_eqb c (bstr ".")). change (bytes_eqb c dotdot) with (bytes_eqb c (bstr "..")).
  clear F. revert A B. destruct (bytes_eqb c [] || bytes_eqb c (bstr "."))%bool; [intros A B; apply IH; split; assumption|].
  destruct (bytes_eqb c (bstr "..")); intros A B; [apply IH; split; assumption|].
  match goal with |- match ?x with _ => _ end = _ => destruct x eqn:N end.
  - injection A as ->. apply IH. split; assumption.
  - discriminate A.
Qed.
Lemma make_here f p : make f p p = Some Dir.
Proof. unfold make. destruct (peqb_spec p p) as [_|N]; [reflexivity|destruct (N eq_refl)]. Qed.

(* one more name *)
Lemma mkdir_next f cwd b front c : tree f -> b <> [] -> split_on b = front ++ [c] -> dirs f (start cwd b) front -> f (from (start cwd b) (front ++ [c])) <> Some File ->
  exists f' e, mkdir f all_rights cwd b = (f', e) /\ fine e /\ dirs f' (start cwd b) (front ++ [c]).
Proof.
  intros T NB SP DF NF. set (s := start cwd b) in *.
  assert (ALL : forall f' e, mkdir f all_rights cwd b = (f', e) -> fine e -> grows f f' -> f' (from s (front ++ [c])) = Some Dir ->
    exists f' e, mkdir f all_rights cwd b = (f', e) /\ fine e /\ dirs f' s (front ++ [c])).
  { intros f' e M F G D. exists f', e. split; [exact M|]. split; [exact F|]. apply dirs_app. split; [exact (dirs_grows _ _ _ _ G DF)|].
    split; [exact (dirs_from _ _ _ (dirs_grows _ _ _ _ G DF))|]. constructor; [|constructor]. rewrite from_app in D. exact D. }
  destruct (list_eq_dec ascii_dec c []) as [->|NC].
  - (* nothing after the last slash *)
    assert (ST : strip (split_on b) = strip front) by (rewrite SP; apply strip_empty). destruct (strip_front front) as (m & FR).
    assert (D2 : dirs f s (strip front)) by (rewrite FR in DF; apply dirs_app in DF; exact (proj1 DF)).
    assert (FD : f (from s (front ++ [[]])) = Some Dir) by (rewrite from_app; exact (dirs_from _ _ _ DF)).
    eapply (ALL f EEXIST); [|right; reflexivity|apply grows_refl|exact FD].
    unfold mkdir. destruct b as [|x b']; [contradiction|]. rewrite ST. destruct (rev (strip front)) as [|c' front'] eqn:R; [reflexivity|].
    assert (E : strip front = rev front' ++ [c']) by (rewrite <- (rev_involutive (strip front)), R; reflexivity).
    rewrite E in D2. apply dirs_app in D2 as [D3 D4]. fold s.
    assert (W : walk f all_rights s (rev front' ++ [dot]) = inl (from s (rev front'))).
    { rewrite walk_app, walk_dirs by exact D3. cbn [walk]. rewrite (dirs_from _ _ _ D3). reflexivity. }
    rewrite W. destruct (bytes_eqb c' dot) eqn:B1; [reflexivity|]. destruct (bytes_eqb c' dotdot) eqn:B2; [reflexivity|]. cbn [orb].
    destruct D4 as [_ D4]. cbn [along] in D4. inversion D4 as [|? ? A _]; subst. unfold next in A. pose proof (strip_last _ _ _ R) as CN.
    change (bytes_eqb c' (bstr ".")) with (bytes_eqb c' dot) in A. change (bytes_eqb c' (bstr "..")) with (bytes_eqb c' dotdot) in A. rewrite B1, B2 in A.
    destruct (beqb_spec c' []); [contradiction|]. cbn [orb] in A.
    match goal with |- match ?x with _ => _ end = _ => destruct x eqn:N end; [reflexivity|discriminate A].
  - assert (ST : strip (split_on b) = front ++ [c]) by (rewrite SP; apply strip_snoc; exact NC).
    assert (M : mkdir f all_rights cwd b = match rev (front ++ [c]) with [] => (f, EEXIST) | c :: front =>
       match walk f all_rights s (rev front ++ [dot]) with
          | inr e => (f, e)
          | inl d => if bytes_eqb c dot || bytes_eqb c dotdot then (f, EEXIST)
                     else match f (c :: d) with
                          | Some _ => (f, EEXIST)
                          | None => match may_add all_rights (c :: d) with Some e => (f, e) | None => (make f (c :: d), 0%Z) end
                          end
          end end) by (unfold mkdir; destruct b as [|x b']; [contradiction|]; rewrite ST; reflexivity).
    rewrite rev_app_distr in M. cbn [rev app] in M. rewrite rev_involutive in M.
    assert (W : walk f all_rights s (front ++ [dot]) = inl (from s front)).
    { rewrite walk_app, walk_dirs by exact DF. cbn [walk]. rewrite (dirs_from _ _ _ DF). reflexivity. }
    rewrite W in M. assert (FS : from s (front ++ [c]) = next (from s front) c) by (rewrite from_app; reflexivity). unfold next in FS.
    change (bytes_eqb c (bstr ".")) with (bytes_eqb c dot) in FS. change (bytes_eqb c (bstr "..")) with (bytes_eqb c dotdot) in FS.
    destruct (beqb_spec c []) as [Z0|_]; [contradiction|]. cbn [orb] in FS.
    pose proof (dirs_from _ _ _ DF) as PD.
    destruct (bytes_eqb c dot); [eapply ALL; [exact M|right; reflexivity|apply grows_refl|]; rewrite FS; exact PD|].
    destruct (bytes_eqb c dotdot).
    { eapply ALL; [exact M|right; reflexivity|apply grows_refl|]. rewrite FS. destruct (from s front) as [|x d]; [exact PD|]. apply (proj2 T x d). rewrite PD. discriminate. }
    cbn [orb may_add all_rights] in M. match type of M with _ = match ?x with _ => _ end => destruct x as [k|] eqn:N end.
    + eapply ALL; [exact M|right; reflexivity|apply grows_refl|]. rewrite FS in *. destruct k; [exact N|]. destruct (NF N).
    + eapply ALL; [exact M|left; reflexivity|exact (make_grows _ _ N)|]. rewrite FS. apply make_here.
Qed.

(* ---- it succeeds unless a file is in the way ---- *)
Section Enough.
Context (others : nat -> fs -> fs) (cwd : place) (path : bytes) (HO : friendly others) (NN : ~ In NUL path).
Notation n := (length path).
Notation s := (start cwd path).
Lemma start_prefix j : 1 <= j -> start cwd (firstn j path) = s.
Proof. destruct j as [|j]; [lia|]. destruct path; reflexivity. Qed.
Lemma cut_prefix j : cut (firstn j path) = firstn j path.
Proof. apply cut_id. intros J. apply NN. rewrite <- (firstn_skipn j path). apply in_or_app. left. exact J. Qed.
Lemma prefix_next i j : i <= j <= n -> firstn j path = firstn i path ++ firstn (j - i) (skipn i path).
Proof.
  intros B. rewrite <- (firstn_skipn i path) at 1. rewrite firstn_app, firstn_firstn. rewrite firstn_length_le by lia. f_equal. f_equal. lia.
Qed.
Lemma seg_plain i j : i <= j <= n -> (forall m, i <= m < j -> nth_error path m <> Some slash) -> Forall (fun x => x <> slash) (firstn (j - i) (skipn i path)).
Proof.
  intros B H. apply Forall_forall. intros x J ->. apply In_nth_error in J as (m & E).
  assert (M : m < j - i).
  { assert (H0 : m < length (firstn (j - i) (skipn i path))) by (apply nth_error_Some; intros Z0; discriminate (eq_trans (eq_sym E) Z0)). rewrite firstn_length in H0. lia. }
  assert (E2 : nth_error (skipn i path) m = Some slash).
  { rewrite <- (firstn_skipn (j - i) (skipn i path)). rewrite nth_error_app1; [exact E|]. apply nth_error_Some. intros Z0; discriminate (eq_trans (eq_sym E) Z0). }
  apply (H (i + m)); [lia|]. clear - E2. revert path E2. induction i as [|i IH]; intros p E2; [exact E2|]. destruct p as [|y p]; [destruct m; discriminate E2|]. exact (IH p E2).
Qed.
Lemma split_stop j : stop path slash j -> exists rest, split_on path = split_on (firstn j path) ++ rest.
Proof.
  intros [->|E0]; [exists []; rewrite firstn_all, app_nil_r; reflexivity|].
  assert (PJ : path = (firstn j path ++ [slash]) ++ skipn (S j) path).
  { rewrite <- app_assoc. rewrite <- (firstn_skipn j path) at 1. f_equal. clear - E0. revert path E0. induction j as [|j IHj]; intros [|y p] E0; try discriminate E0.
    - injection E0 as ->. reflexivity.
    - cbn [nth_error] in E0. exact (IHj _ E0). }
  assert (H : forall a b, exists rest, split_on ((a ++ [slash]) ++ b) = split_on a ++ rest).
  { clear. induction a as [|y a IHa]; intros b.
    - cbn [app split_on]. destruct (ascii_dec slash slash) as [_|NE]; [|destruct (NE eq_refl)]. eexists. reflexivity.
    - cbn [app split_on]. destruct (IHa b) as (rest & R). rewrite R. destruct (ascii_dec y slash); [exists rest; reflexivity|].
      destruct (split_cons a) as (z & zs & ->). exists rest. reflexivity. }
  destruct (H (firstn j path) (skipn (S j) path)) as (rest & R). exists rest. rewrite <- R. f_equal. exact PJ.
Qed.
(* the names up to i *)
Definition ready (f : fs) (i : nat) : Prop := exists front c, split_on (firstn i path) = front ++ [c] /\ dirs f s front.
Lemma loop_enough fuel : forall k i f, tree f -> 1 <= i < n -> n - i < fuel -> ready f i -> Forall (fun p => f p <> Some File) (along s (split_on path)) ->
  exists f', loop fuel others all_rights cwd n slash k (path ++ [NUL]) i f = Ok (f', 0%Z) /\ dirs f' s (split_on path).
Proof.
  induction fuel as [|fuel IH]; intros k i f T L F (front & c & SP & DF) NF; [lia|].
  destruct (loop_step others all_rights cwd path slash fuel k i f (proj2 L)) as (j & B & ST & PL & ->). destruct (HO k f T) as (T1 & G1 & FF).
  rewrite cut_prefix.
  destruct (split_more (firstn i path) _ (seg_plain i j B PL)) as (front' & c' & SP' & SPJ). rewrite <- prefix_next in SPJ by exact B.
  rewrite SP in SP'. apply app_inj_tail in SP' as [<- <-]. set (cj := c ++ _) in *.
  assert (NF1 : Forall (fun p => others k f p <> Some File) (along s (split_on path))).
  { revert NF. apply Forall_impl. intros p N E. apply N. exact (FF _ E). }
  assert (SJ : start cwd (firstn j path) = s) by (apply start_prefix; lia).
  destruct (split_stop j ST) as (rest & SR).
  destruct (mkdir_next (others k f) cwd (firstn j path) front cj T1) as (f1 & e & M & FE & D1).
  { intros Z0. assert (LJ : length (firstn j path) = j) by (apply firstn_length_le; lia). rewrite Z0 in LJ. cbn [length] in LJ. lia. }
  { exact SPJ. } { rewrite SJ. exact (dirs_grows _ _ _ _ G1 DF). }
  { rewrite SJ. rewrite SR, SPJ, along_app in NF1. apply Forall_app in NF1 as [NF1 _]. exact (from_not_file _ _ _ (G1 _ _ (proj1 DF)) NF1). }
  rewrite SJ in D1. rewrite M. replace ((e =? 0) || (e =? EEXIST))%Z with true by (destruct FE as [->| ->]; reflexivity).
  destruct (mkdir_done _ all_rights _ _ _ _ ltac:(intros p e0 E0; discriminate E0) T1 M) as (T2 & G2 & CH & _).
  assert (NF2 : Forall (fun p => f1 p <> Some File) (along s (split_on path))).
  { revert NF1. apply Forall_impl. intros p N. destruct CH as [->|(q & _ & ->)]; [exact N|]. unfold make. destruct (place_eqb p q); [discriminate|exact N]. }
  destruct (Nat.lt_ge_cases (S j) n) as [B2|B2].
  - apply IH; [exact T2|lia|lia| |exact NF2]. destruct ST as [->|E0]; [lia|].
    assert (FJ : firstn (S j) path = firstn j path ++ [slash]).
    { clear - E0. revert path E0. induction j as [|j IHj]; intros [|y p] E0; try discriminate E0.
      - injection E0 as ->. reflexivity.
      - cbn [nth_error] in E0. cbn [firstn app] in *. f_equal. exact (IHj _ E0). }
    exists (front ++ [cj]), []. rewrite FJ, split_slash, SPJ. split; [reflexivity|exact D1].
  - rewrite loop_out by lia. exists f1. split; [reflexivity|].
    assert (RR : rest = [] \/ rest = [[]]).
    { destruct (Nat.eq_dec j n) as [->|NJ].
      - left. rewrite firstn_all in SR. apply (f_equal (@length _)) in SR. rewrite app_length in SR. destruct rest; [reflexivity|cbn [length] in SR; lia].
      - right. destruct ST as [|E0]; [contradiction|]. assert (PJ : path = firstn j path ++ [slash]).
        { rewrite <- (firstn_skipn j path) at 1. f_equal. apply nth_error_split in E0 as (l1 & l2 & PE & E2). assert (l2 = []) as ->.
          { destruct l2; [reflexivity|]. rewrite PE, app_length in B2. cbn [length] in B2. lia. }
          rewrite PE. subst j. rewrite skipn_app, Nat.sub_diag, skipn_all. reflexivity. }
        rewrite PJ in SR at 1. rewrite split_slash in SR. apply app_inv_head in SR. symmetry. exact SR. }
    rewrite SR, SPJ. apply dirs_app. split; [exact D1|]. split; [exact (dirs_from _ _ _ D1)|]. destruct RR as [->| ->]; [constructor|].
    constructor; [exact (dirs_from _ _ _ D1)|constructor].
Qed.
Lemma mkdir_p_enough f : tree f -> f cwd = Some Dir -> Forall (fun p => f p <> Some File) (along s (split_on path)) ->
  exists f', mkdir_p others all_rights cwd path slash f = Ok (f', 0%Z) /\ (2 <= n -> Forall (fun p => f' p = Some Dir) (along s (split_on path))).
Proof.
  intros T C NF. unfold mkdir_p. destruct (Nat.lt_ge_cases 1 n) as [L|L].
  - destruct (loop_enough (S n) 0 1 f T) as (f' & E & D); [lia|lia| |exact NF|].
    + assert (D0 : f s = Some Dir).
      { unfold start. destruct path as [|x p]; [exact C|]. destruct (ascii_dec x slash); [exact (proj1 T)|exact C]. }
      destruct path as [|x p] eqn:P; [cbn [length] in L; lia|]. unfold ready. rewrite P. cbn [firstn split_on]. destruct (ascii_dec x slash).
      * exists [[]], []. split; [reflexivity|]. split; [exact D0|]. constructor; [exact D0|constructor].
      * exists [], [x]. split; [reflexivity|]. split; [exact D0|constructor].
    + exists f'. split; [exact E|]. intros _. exact (proj2 D).
  - rewrite loop_out by lia. exists f. split; [reflexivity|]. lia.
Qed.
End Enough.
