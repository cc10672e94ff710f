(* Creating the directories of a path: the loop *)
From Verif Require Import ModelBytes ProofBytes ModelDir SpecDir ProofDir.
Local Open Scope nat_scope.

Lemma c_string_cut b rest : c_string (b ++ NUL :: rest) = Some (cut b).
Proof.
  induction b as [|x b IH]; cbn [app c_string cut]; [destruct (ascii_dec NUL NUL) as [_|N]; [reflexivity|destruct (N eq_refl)]|].
  destruct (ascii_dec x NUL); [reflexivity|]. rewrite IH. reflexivity.
Qed.
Lemma cut_id b : ~ In NUL b -> cut b = b.
Proof.
  induction b as [|x b IH]; intros N; [reflexivity|]. cbn [cut]. destruct (ascii_dec x NUL) as [->|NX]; [destruct N; left; reflexivity|].
  f_equal. apply IH. intros J. apply N. right. exact J.
Qed.

Section Loop.
Context (others : nat -> fs -> fs) (r : rights) (cwd : place) (path : bytes) (sep : ascii).
Notation n := (length path).
(* where mkdir is called *)
Definition stop (i : nat) : Prop := i = n \/ nth_error path i = Some sep.
Lemma get_in i : i < n -> exists x, nth_error path i = Some x /\ get_at (path ++ [NUL]) i = Ok x.
Proof.
  intros L. destruct (nth_error path i) as [x|] eqn:E; [|apply nth_error_None in E; lia]. exists x. split; [reflexivity|]. unfold get_at.
  rewrite nth_error_app1 by exact L. rewrite E. reflexivity.
Qed.
Lemma scan_end fuel : forall i, n - i <= fuel -> i <= n -> exists j, scan fuel (path ++ [NUL]) n sep i = Ok j /\ i <= j <= n /\ stop j /\
  forall m, i <= m < j -> nth_error path m <> Some sep.
Proof.
  induction fuel as [|fuel IH]; intros i F L; cbn [scan].
  - exists i. split; [reflexivity|]. split; [lia|]. split; [left; lia|]. intros m B. lia.
  - destruct (Nat.ltb_spec i n) as [B|B].
    + destruct (get_in i B) as (x & E & ->). cbn [obind]. destruct (ascii_dec x sep) as [->|NX].
      * exists i. split; [reflexivity|]. split; [lia|]. split; [right; exact E|]. intros m M. lia.
      * destruct (IH (S i)) as (j & S1 & S2 & S3 & S4); [lia|lia|]. exists j. split; [exact S1|]. split; [lia|]. split; [exact S3|].
        intros m M. destruct (Nat.eq_dec m i) as [->|]; [congruence|]. apply S4. lia.
    + exists i. split; [reflexivity|]. split; [lia|]. split; [left; lia|]. intros m M. lia.
Qed.
Lemma put_in i x : i <= n -> put_at (path ++ [NUL]) i x = Ok (firstn i (path ++ [NUL]) ++ x :: skipn (S i) (path ++ [NUL])).
Proof. intros L. unfold put_at. rewrite app_length. cbn [length]. destruct (Nat.ltb_spec i (n + 1)); [reflexivity|lia]. Qed.
Lemma put_back i x : i <= n -> nth_error (path ++ [NUL]) i = Some x ->
  put_at (firstn i (path ++ [NUL]) ++ NUL :: skipn (S i) (path ++ [NUL])) i x = Ok (path ++ [NUL]).
Proof.
  intros L E. set (a := path ++ [NUL]) in *. assert (LA : length a = S n) by (unfold a; rewrite app_length; cbn [length]; lia).
  assert (LF : length (firstn i a) = i) by (apply firstn_length_le; lia).
  unfold put_at. rewrite app_length, LF. cbn [length]. destruct (Nat.ltb_spec i (i + S (length (skipn (S i) a)))); [|lia]. f_equal.
  rewrite firstn_app, LF, Nat.sub_diag, firstn_firstn, Nat.min_id. rewrite app_nil_r.
  rewrite skipn_app, LF. replace (S i - i) with 1 by lia. rewrite (skipn_all2 (firstn i a)) by lia. cbn [skipn app].
  rewrite <- (firstn_skipn i a) at 3. f_equal. clear - E. clearbody a. revert i E. induction a as [|y a IH]; intros [|i] E; try discriminate E.
  - injection E as ->. reflexivity.
  - cbn [nth_error] in E. cbn [skipn]. rewrite <- (IH _ E). destruct a; reflexivity.
Qed.
Lemma prefix_c_string i : i <= n -> c_string (firstn i (path ++ [NUL]) ++ NUL :: skipn (S i) (path ++ [NUL])) = Some (cut (firstn i path)).
Proof. intros L. rewrite c_string_cut, firstn_app. replace (i - n) with 0 by lia. rewrite app_nil_r. reflexivity. Qed.
(* the rest is not looked at *)
Lemma loop_out fuel k a i f : n <= i -> loop fuel others r cwd n sep k a i f = Ok (f, 0%Z).
Proof. intros L. destruct fuel; [reflexivity|]. cbn [loop]. destruct (Nat.ltb_spec i n); [lia|reflexivity]. Qed.
Lemma put_length a i x a' : put_at a i x = Ok a' -> length a' = length a.
Proof.
  unfold put_at. destruct (Nat.ltb_spec i (length a)); [|discriminate]. intros E. apply Ok_inj in E. subst a'. rewrite app_length, firstn_length_le by lia. cbn [length].
  rewrite skipn_length. lia.
Qed.
Lemma put_ok a i x : i < length a -> exists a', put_at a i x = Ok a'.
Proof. intros L. unfold put_at. destruct (Nat.ltb_spec i (length a)); [eauto|lia]. Qed.
(* one pass *)
Lemma loop_step fuel k i f : i < n -> exists j, i <= j <= n /\ stop j /\ (forall m, i <= m < j -> nth_error path m <> Some sep) /\
  loop (S fuel) others r cwd n sep k (path ++ [NUL]) i f =
    (let '(f', e) := mkdir (others k f) r cwd (cut (firstn j path)) in
     if ((e =? 0) || (e =? EEXIST))%Z then loop fuel others r cwd n sep (S k) (path ++ [NUL]) (S j) f' else Ok (f', e)).
Proof.
  intros L. destruct (scan_end n i) as (j & S1 & S2 & S3 & S4); [lia|lia|]. exists j. split; [exact S2|]. split; [exact S3|]. split; [exact S4|].
  cbn [loop]. destruct (Nat.ltb_spec i n); [|lia]. rewrite S1. cbn [obind]. rewrite put_in by lia. cbn [obind]. rewrite prefix_c_string by lia.
  destruct (mkdir (others k f) r cwd (cut (firstn j path))) as [f' e]. destruct (_ || _)%bool; [|reflexivity].
  destruct S3 as [->|E].
  - match goal with |- obind (put_at ?a n sep) _ = _ => destruct (put_ok a n sep) as (a' & ->) end.
    + rewrite app_length, firstn_length_le by (rewrite app_length; lia). cbn [length]. lia.
    + cbn [obind]. rewrite !loop_out by lia. reflexivity.
  - rewrite put_back; [reflexivity|lia|]. rewrite nth_error_app1; [exact E|]. apply nth_error_Some. congruence.
Qed.
End Loop.

(* ---- what is there afterwards ---- *)
Section Done.
Context (others : nat -> fs -> fs) (r : rights) (cwd : place) (path : bytes) (sep : ascii).
Context (HO : forall k f, tree f -> tree (others k f) /\ grows f (others k f)) (HR : errors r).
Notation n := (length path).
Lemma loop_done fuel : forall k i f, tree f -> i < n -> n - i < fuel -> exists f' e, loop fuel others r cwd n sep k (path ++ [NUL]) i f = Ok (f', e) /\
  tree f' /\ grows f f' /\ (e = 0%Z -> exists j d, i <= j /\ (j = n \/ (S j = n /\ nth_error path j = Some sep)) /\ exists_at f' cwd (cut (firstn j path)) d).
Proof.
  induction fuel as [|fuel IH]; intros k i f T L F; [lia|].
  destruct (loop_step others r cwd path sep fuel k i f L) as (j & B & ST & _ & ->). destruct (HO k f T) as [T1 G1].
  destruct (mkdir (others k f) r cwd (cut (firstn j path))) as [f1 e] eqn:M. destruct (mkdir_done _ _ _ _ _ _ HR T1 M) as (T2 & G2 & _ & X).
  destruct ((e =? 0) || (e =? EEXIST))%Z eqn:FI.
  - assert (FE : fine e) by (apply Bool.orb_true_iff in FI as [E|E]; apply Z.eqb_eq in E; [left|right]; exact E).
    destruct (Nat.lt_ge_cases (S j) n) as [B2|B2].
    + destruct (IH (S k) (S j) f1 T2 B2) as (f' & e' & -> & T3 & G3 & Y); [lia|]. exists f', e'. split; [reflexivity|]. split; [exact T3|].
      split; [exact (grows_trans _ _ _ G1 (grows_trans _ _ _ G2 G3))|]. intros E. destruct (Y E) as (j' & d & B3 & C & D). exists j', d. split; [lia|]. split; [exact C|exact D].
    + rewrite loop_out by lia. exists f1, 0%Z. split; [reflexivity|]. split; [exact T2|]. split; [exact (grows_trans _ _ _ G1 G2)|]. intros _.
      destruct (X FE) as (d & D). exists j, d. split; [lia|]. split; [|exact D]. destruct ST as [->|E]; [left; reflexivity|].
      destruct (Nat.eq_dec j n); [left; assumption|right]. split; [lia|exact E].
  - exists f1, e. split; [reflexivity|]. split; [exact T2|]. split; [exact (grows_trans _ _ _ G1 G2)|]. intros ->. discriminate FI.
Qed.
Lemma cut_app a b : cut (a ++ b) = if in_dec ascii_dec NUL a then cut a else a ++ cut b.
Proof.
  induction a as [|x a IH]; [reflexivity|]. cbn [app cut]. rewrite IH. destruct (ascii_dec x NUL) as [->|N].
  - destruct (in_dec ascii_dec NUL (NUL :: a)) as [_|NI]; [reflexivity|]. destruct NI. left. reflexivity.
  - destruct (in_dec ascii_dec NUL a) as [I|I]; destruct (in_dec ascii_dec NUL (x :: a)) as [J|J]; try reflexivity.
    + destruct J. right. exact I.
    + destruct J as [J|J]; [congruence|contradiction].
Qed.
End Done.

(* the case of mkdir_p: slashes *)
Lemma exists_slash f cwd b d : b <> [] -> exists_at f cwd b d -> exists_at f cwd (b ++ [slash]) d.
Proof.
  intros N [L E]. split; [|exact E]. rewrite split_slash, strip_empty. destruct b as [|x b]; [contradiction|]. exact L.
Qed.
Theorem mkdir_p_done others r cwd path f : (forall k f, tree f -> tree (others k f) /\ grows f (others k f)) -> errors r -> tree f ->
  exists f' e, mkdir_p others r cwd path slash f = Ok (f', e) /\ tree f' /\ grows f f' /\ (2 <= length path -> e = 0%Z -> exists d, exists_at f' cwd (cut path) d).
Proof.
  intros HO HR T. unfold mkdir_p. destruct (Nat.lt_ge_cases 1 (length path)) as [L|L].
  - destruct (loop_done others r cwd path slash HO HR (S (length path)) 0 1 f T L) as (f' & e & E & T' & G & X); [lia|].
    exists f', e. split; [exact E|]. split; [exact T'|]. split; [exact G|]. intros _ E0. destruct (X E0) as (j & d & B & C & D). exists d.
    destruct C as [->|[C E1]]; [rewrite firstn_all in D; exact D|].
    assert (P : path = firstn j path ++ [slash]).
    { rewrite <- (firstn_skipn j path) at 1. f_equal. apply nth_error_split in E1 as (l1 & l2 & -> & E2). rewrite app_length in C. cbn [length] in C.
      assert (l2 = []) as -> by (destruct l2; [reflexivity|cbn [length] in C; lia]). subst j. rewrite skipn_app, Nat.sub_diag, skipn_all. reflexivity. }
    rewrite P, cut_app. destruct (in_dec ascii_dec NUL (firstn j path)) as [I|I]; [exact D|]. cbn [cut].
    destruct (ascii_dec slash NUL) as [N|_]; [discriminate N|]. apply exists_slash.
    + intros Z0. assert (length (firstn j path) = j) by (apply firstn_length_le; lia). rewrite Z0 in H. cbn [length] in H. lia.
    + rewrite cut_id in D by exact I. exact D.
  - rewrite loop_out by lia. exists f, 0%Z. split; [reflexivity|]. split; [exact T|]. split; [apply grows_refl|]. lia.
Qed.
