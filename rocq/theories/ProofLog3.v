(* Facilities: names, masks and texts of masks *)
From Verif Require Import ModelBytes ModelLog SpecLog SpecLog2 ProofBytes ProofStore ProofLog ProofLog2.

Definition fac_is (s : sources) (i : nat) : fac := mkFac (mask_of s i) (fst (names_of s i)) (snd (names_of s i)).
(* the array shows the facilities; beyond them nothing was changed *)
Definition shows (s : sources) (fs : facs) : Prop :=
  fs_cnt fs = known s /\ (known s <= length (fs_list fs))%nat /\
  (forall i, (i < length (fs_list fs))%nat -> nth_error (fs_list fs) i = Some (fac_is s i)) /\
  (forall i, (known s <= i)%nat -> fac_is s i = new_fac (fs_def fs) i) /\
  (1 <= known s)%nat /\ N.land (fs_def fs) PRIMASK = fs_def fs /\ (forall i, N.land (mask_of s i) PRIMASK = mask_of s i).

Definition grow (s : sources) (n : nat) : sources := mkSources (Nat.max (known s) n) (mask_of s) (names_of s).

Lemma nth_error_map_seq : forall {A} (f : nat -> A) a n i, (i < n)%nat -> nth_error (map f (seq a n)) i = Some (f (a + i)%nat).
Proof.
  intros A f a n i H. rewrite nth_error_map. assert (E : nth_error (seq a n) i = Some (a + i)%nat).
  { rewrite (nth_error_nth' _ 0%nat) by (rewrite seq_length; exact H). rewrite seq_nth by exact H. reflexivity. }
  rewrite E. reflexivity.
Qed.
Lemma nth_error_firstn_lt : forall {A} (l : list A) n i, (i < n)%nat -> nth_error (firstn n l) i = nth_error l i.
Proof.
  intros A l. induction l as [|x l IH]; intros n i H; [rewrite firstn_nil; destruct i; reflexivity|].
  destruct n as [|n]; [lia|]. destruct i as [|i]; [reflexivity|]. cbn [firstn nth_error]. apply IH. lia.
Qed.

Lemma setnfac_shows : forall s fs n, shows s fs -> shows (grow s n) (setnfac fs n).
Proof.
  intros s fs n (C & L & F & D & P & DM & MM). unfold setnfac, grow.
  destruct (Nat.leb_spec n (fs_cnt fs)) as [H|H].
  - rewrite C in H. rewrite Nat.max_l by exact H. destruct s as [k m q]. exact (conj C (conj L (conj F (conj D (conj P (conj DM MM)))))).
  - rewrite C in H. rewrite Nat.max_r by lia. destruct (Nat.leb_spec n (length (fs_list fs))) as [K|K].
    + unfold shows. cbn [fs_cnt fs_list fs_def known mask_of]. repeat apply conj; try assumption; try reflexivity; [|lia].
      intros i Hi. apply D. lia.
    + set (try := (if (n <? 1024)%nat then n + 32 else n)%nat).
      assert (T : (n <= try)%nat) by (unfold try; destruct (n <? 1024)%nat; lia).
      unfold shows. cbn [fs_cnt fs_list fs_def known mask_of].
      assert (Ll : length (firstn (fs_cnt fs) (fs_list fs) ++ map (new_fac (fs_def fs)) (seq (fs_cnt fs) (try - fs_cnt fs))) = try).
      { rewrite app_length, firstn_length, map_length, seq_length, C. lia. }
      rewrite Ll. repeat apply conj; try assumption; try reflexivity; [| |lia].
      * intros i Hi. destruct (Nat.lt_ge_cases i (fs_cnt fs)) as [J|J].
        -- rewrite nth_error_app1 by (rewrite firstn_length, C in *; lia). rewrite nth_error_firstn_lt by exact J. apply F. lia.
        -- rewrite nth_error_app2 by (rewrite firstn_length, C in *; lia).
           replace (length (firstn (fs_cnt fs) (fs_list fs))) with (fs_cnt fs) by (rewrite firstn_length, C; lia).
           rewrite nth_error_map_seq by lia. replace (fs_cnt fs + (i - fs_cnt fs))%nat with i by lia.
           f_equal. symmetry. apply D. lia.
      * intros i Hi. apply D. lia.
Qed.
Lemma open_shows : forall def hint, N.land def PRIMASK = def -> shows (at_first def hint) (facs_open def hint).
Proof.
  intros def hint HM. unfold facs_open.
  replace (if (hint <? 1)%nat then 1%nat else hint) with (Nat.max 1 hint) by (destruct (Nat.ltb_spec hint 1); lia).
  unfold setnfac. cbn [fs_cnt fs_list fs_def length firstn app].
  replace (Nat.max 1 hint <=? 0)%nat with false by (symmetry; apply Nat.leb_gt; lia).
  set (n := Nat.max 1 hint). set (try := (if (n <? 1024)%nat then n + 32 else n)%nat).
  assert (T : (n <= try)%nat) by (unfold try; destruct (n <? 1024)%nat; lia).
  unfold shows. cbn [fs_cnt fs_list fs_def known at_first mask_of]. fold n. rewrite map_length, seq_length.
  repeat apply conj; try assumption; try reflexivity; try lia; try (intros i; exact HM).
  intros i Hi. rewrite nth_error_map_seq by lia. reflexivity.
Qed.

Lemma upd_length : forall i f l, length (upd_fac i f l) = length l.
Proof. intros i f l. revert i. induction l as [|x l IH]; intros [|i]; cbn [upd_fac length]; auto. Qed.
Lemma upd_nth : forall i f l j, nth_error (upd_fac i f l) j = if (j =? i)%nat then option_map f (nth_error l j) else nth_error l j.
Proof.
  intros i f l. revert i. induction l as [|x l IH]; intros i j.
  - destruct i, j; cbn [upd_fac nth_error Nat.eqb option_map]; try reflexivity; destruct (_ =? _)%nat; reflexivity.
  - destruct i as [|i], j as [|j]; cbn [upd_fac nth_error Nat.eqb option_map]; try reflexivity. apply IH.
Qed.

Definition ensure (fs : facs) (i : nat) : facs := if (fs_cnt fs <=? i)%nat then setnfac fs (i + 1) else fs.
Lemma ensure_shows : forall s fs i, shows s fs -> shows (grow s (i + 1)) (ensure fs i).
Proof.
  intros s fs i H. unfold ensure. destruct (Nat.leb_spec (fs_cnt fs) i) as [K|K]; [apply setnfac_shows; exact H|].
  destruct H as (C & R). unfold grow. rewrite Nat.max_l by lia. destruct s. exact (conj C R).
Qed.
Lemma upd_shows : forall s fs i f s', shows s fs -> (i < known s)%nat -> known s' = known s ->
  fac_is s' i = f (fac_is s i) -> (forall j, j <> i -> fac_is s' j = fac_is s j) -> N.land (mask_of s' i) PRIMASK = mask_of s' i ->
  shows s' (mkFacs (upd_fac i f (fs_list fs)) (fs_cnt fs) (fs_def fs)).
Proof.
  intros s fs i f s' (C & L & F & D & P & DM & MM) Hi K Ei Ej Em. unfold shows. cbn [fs_cnt fs_list fs_def]. rewrite upd_length, K.
  repeat apply conj; try assumption.
  - intros j Hj. rewrite upd_nth, (F j Hj). destruct (Nat.eqb_spec j i) as [->|N].
    + cbn [option_map]. rewrite Ei. reflexivity.
    + rewrite (Ej j N). reflexivity.
  - intros j Hj. rewrite Ej by lia. apply D. exact Hj.
  - intros j. destruct (Nat.eq_dec j i) as [->|N]; [exact Em|]. pose proof (f_equal f_mask (Ej j N)) as X. cbn [fac_is f_mask] in X. rewrite X. apply MM.
Qed.

Lemma name_shows : forall s fs i a l, shows s fs -> shows (rename s i a l) (namefac fs i a l).
Proof.
  intros s fs i a l H. apply (ensure_shows _ _ i) in H. unfold namefac. fold (ensure fs i).
  eapply (upd_shows _ _ i _ _ H).
  - cbn [grow known]. lia.
  - reflexivity.
  - unfold fac_is, rename, put_at. cbn [mask_of names_of grow]. rewrite Nat.eqb_refl. reflexivity.
  - intros j N. unfold fac_is, rename, put_at. cbn [mask_of names_of grow]. replace (j =? i)%nat with false by (symmetry; apply Nat.eqb_neq; exact N). reflexivity.
  - destruct H as (_ & _ & _ & _ & _ & _ & MM). exact (MM i).
Qed.
Lemma alloc_shows : forall s fs a l, shows s fs -> shows (rename s (known s) a l) (fst (allocfac fs a l)) /\ snd (allocfac fs a l) = known s.
Proof.
  intros s fs a l H. pose proof (proj1 H) as C. unfold allocfac. cbn [fst snd]. rewrite C. split; [|reflexivity].
  pose proof (name_shows _ _ (known s) a l (setnfac_shows _ _ (known s + 1) H)) as X.
  assert (E : rename (grow s (known s + 1)) (known s) a l = rename s (known s) a l).
  { unfold rename, grow. cbn [known mask_of names_of]. f_equal. lia. }
  rewrite E in X. exact X.
Qed.
Lemma land_idem : forall p, N.land (N.land p PRIMASK) PRIMASK = N.land p PRIMASK.
Proof. intros p. rewrite <- N.land_assoc, N.land_diag. reflexivity. Qed.
Lemma mask_shows : forall s fs i p, shows s fs ->
  shows (mkSources (Nat.max (known s) (i + 1)) (put_at i (N.land p PRIMASK) (mask_of s)) (names_of s)) (setlogmask fs i p).
Proof.
  intros s fs i p H. apply (ensure_shows _ _ i) in H. unfold setlogmask. fold (ensure fs i).
  eapply (upd_shows _ _ i _ _ H).
  - cbn [grow known]. lia.
  - reflexivity.
  - unfold fac_is, put_at. cbn [mask_of names_of grow f_aname f_lname]. rewrite Nat.eqb_refl. reflexivity.
  - intros j N. unfold fac_is, put_at. cbn [mask_of names_of grow]. replace (j =? i)%nat with false by (symmetry; apply Nat.eqb_neq; exact N). reflexivity.
  - unfold put_at. cbn [mask_of]. rewrite Nat.eqb_refl. apply land_idem.
Qed.

(* ---- texts ---- *)
Lemma until_none : forall c s, ~ In c s -> until c s = (s, None).
Proof.
  intros c s. induction s as [|x s IH]; intros H; [reflexivity|]. cbn [until].
  destruct (Ascii.eqb x c) eqn:E; [apply Ascii.eqb_eq in E; exfalso; apply H; left; exact E|].
  rewrite IH by (intros K; apply H; right; exact K). reflexivity.
Qed.
Lemma until_some : forall c s r, ~ In c s -> until c (s ++ c :: r) = (s, Some r).
Proof.
  intros c s r. induction s as [|x s IH]; intros H; cbn [until app].
  - rewrite Ascii.eqb_refl. reflexivity.
  - destruct (Ascii.eqb x c) eqn:E; [apply Ascii.eqb_eq in E; exfalso; apply H; left; exact E|].
    rewrite IH by (intros K; apply H; right; exact K). reflexivity.
Qed.
Lemma cstring_same : forall s, ~ In "000"%char s -> cstring s = s.
Proof. intros s H. unfold cstring. rewrite (until_none _ _ H). reflexivity. Qed.

Definition bad_chars : list byte := ["000"; ","; "="; "009"; "010"]%char.
Lemma small_inj : forall c d, In d (" "%char :: bad_chars) -> small c = d -> c = d.
Proof.
  intros c d H E. assert (X : In (small c) (" "%char :: bad_chars)) by (rewrite E; exact H). rewrite <- E. clear H E d.
  destruct c as [[] [] [] [] [] [] [] []]; vm_compute in X |- *; try reflexivity; exfalso; repeat (destruct X as [X|X]; [discriminate X|]); exact X.
Qed.
Lemma small_bad : forall d, In d (" "%char :: bad_chars) -> small d = d.
Proof. intros d H. repeat (destruct H as [<-|H]; [reflexivity|]). destruct H. Qed.
Lemma alike_in : forall a b c, alike a b -> In c a -> In (small c) (map small b).
Proof. intros a b c H I. unfold alike in H. rewrite <- H. apply in_map. exact I. Qed.
Definition in_b (c : byte) (s : bytes) : bool := existsb (Ascii.eqb c) s.
Lemma in_b_true : forall c s, In c s -> in_b c s = true.
Proof. intros c s H. unfold in_b. apply existsb_exists. exists c. split; [exact H|apply Ascii.eqb_refl]. Qed.

Lemma stands_chars : forall p v, stands_for p v ->
  (forall c, In c bad_chars -> ~ In c p) /\ p <> [] /\ (length p <= 5)%nat /\ (In " "%char p -> alike p (bstr "ERR ")).
Proof.
  intros p v H.
  assert (N : exists n t, In (n, v) (level_names ++ stream_names) /\ alike (p ++ t) n /\ (t = [] \/ In (n, v) stream_names) /\ p <> []).
  { destruct H as [(n & I & A)|(n & r & k & I & E & _ & A)].
    - exists n, []. rewrite app_nil_r. split; [exact I|]. split; [exact A|]. split; [left; reflexivity|]. intros ->.
      pose proof (in_table (fun x => negb (length (fst x) =? 0)%nat) (level_names ++ stream_names) eq_refl _ I) as Y. cbn [fst] in Y.
      apply alike_length in A. rewrite <- A in Y. discriminate Y.
    - exists n, (repeat "-"%char k). split; [apply in_or_app; right; exact I|]. split; [exact A|]. split; [right; exact I|]. intros K. rewrite K in E. discriminate E. }
  destruct N as (n & t & I & A & T & NE). repeat apply conj.
  - intros c B K.
    pose proof (in_table (fun x => forallb (fun d => negb (in_b d (map small (fst x)))) bad_chars) (level_names ++ stream_names) eq_refl _ I) as Y.
    cbn [fst] in Y. pose proof (in_table _ _ Y c B) as Z. cbv beta in Z.
    assert (X : In (small c) (map small n)) by (apply (alike_in (p ++ t)); [exact A|apply in_or_app; left; exact K]).
    rewrite small_bad in X by (right; exact B). rewrite (in_b_true _ _ X) in Z. discriminate Z.
  - exact NE.
  - pose proof (in_table (fun x => (length (fst x) <=? 5)%nat) (level_names ++ stream_names) eq_refl _ I) as Y. cbn [fst] in Y.
    apply Nat.leb_le in Y. apply alike_length in A. rewrite app_length in A. lia.
  - intros K.
    assert (X : In " "%char (map small n)).
    { change " "%char with (small " "%char). apply (alike_in (p ++ t)); [exact A|apply in_or_app; left; exact K]. }
    destruct T as [->|T].
    + rewrite app_nil_r in A.
      pose proof (in_table (fun x => negb (in_b " "%char (map small (fst x))) || beqb (fst x) (bstr "ERR ")) (level_names ++ stream_names) eq_refl _ I) as Y.
      cbn [fst] in Y. rewrite (in_b_true _ _ X) in Y. cbn [negb orb] in Y. apply beqb_true in Y. rewrite Y in A. exact A.
    + pose proof (in_table (fun x => negb (in_b " "%char (map small (fst x)))) stream_names eq_refl _ T) as Y.
      cbn [fst] in Y. rewrite (in_b_true _ _ X) in Y. discriminate Y.
Qed.

Definition ws (c : byte) : bool := is_blank c || Ascii.eqb c NL.
Lemma ws_in : forall c, ws c = true -> c = " "%char \/ In c bad_chars.
Proof.
  intros c H. unfold ws, is_blank in H. apply orb_true_iff in H. destruct H as [H|H]; [apply orb_true_iff in H; destruct H as [H|H]|];
    apply Ascii.eqb_eq in H; subst c; [left; reflexivity|right; vm_compute; tauto|right; vm_compute; tauto].
Qed.
Lemma ws_trail : forall c, blank c \/ c = newline -> ws c = true.
Proof. intros c [[->| ->]| ->]; reflexivity. Qed.
Lemma drop_app : forall f a b, (forall c, In c a -> f c = true) -> drop_while f (a ++ b) = drop_while f b.
Proof.
  intros f a b. induction a as [|x a IH]; intros H; [reflexivity|]. cbn [drop_while app]. rewrite (H x) by (left; reflexivity).
  apply IH. intros c K. apply H. right. exact K.
Qed.
Lemma trim_last : forall s c t, ws c = false -> (forall x, In x t -> ws x = true) -> trim_end (s ++ [c] ++ t) = s ++ [c].
Proof.
  intros s c t H K. unfold trim_end. rewrite !rev_app_distr, <- app_assoc. fold ws.
  change (fun c0 : byte => is_blank c0 || Ascii.eqb c0 NL) with ws.
  rewrite drop_app by (intros x X; apply in_rev in X; apply K; exact X). cbn [rev app drop_while]. rewrite H. cbn [rev]. rewrite rev_involutive. reflexivity.
Qed.

Lemma trim_pri : forall p v trail, stands_for p v -> (forall c, In c trail -> blank c \/ c = newline) ->
  exists q, trim_end (p ++ trail) = q /\ stands_for q v.
Proof.
  intros p v trail H T. destruct (stands_chars _ _ H) as (B & NE & L & E).
  destruct (in_dec Ascii.ascii_dec " "%char p) as [S|S].
  - apply E in S. pose proof (alike_length _ _ S) as Lp. change (length (bstr "ERR ")) with 4%nat in Lp.
    destruct p as [|a [|b [|c [|d [|e p]]]]]; try (cbn [length] in Lp; lia).
    unfold alike in S. cbn [map] in S. injection S as Sa Sb Sc Sd.
    assert (d = " "%char) by (apply small_inj; [left; reflexivity|exact Sd]). subst d.
    exists [a; b; c]. split.
    + apply (trim_last [a; b] c (" "%char :: trail)).
      * destruct (ws c) eqn:W; [|reflexivity]. exfalso. destruct (ws_in _ W) as [->|I]; [discriminate Sc|]. apply (B c I). right. right. left. reflexivity.
      * intros x [<-|X]; [reflexivity|]. apply ws_trail. exact (T x X).
    + assert (V : v = 4194304%N).
      { apply pri_name in H.
        assert (X : alike [a; b; c; " "%char] (bstr "ERR ")) by (unfold alike; cbn [map]; rewrite Sa, Sb, Sc; reflexivity).
        assert (Y : stands_for [a; b; c; " "%char] 4194304) by (left; exists (bstr "ERR "); split; [vm_compute; tauto|exact X]).
        apply pri_name in Y. pose proof (eq_trans (eq_sym Y) H) as Z. injection Z as Z. symmetry. exact Z. }
      rewrite V. left. exists (bstr "ERR"). split; [vm_compute; tauto|]. unfold alike. cbn [map]. rewrite Sa, Sb, Sc. reflexivity.
  - exists p. split; [|exact H]. destruct (@exists_last _ p NE) as (s & c & ->). rewrite <- app_assoc. apply trim_last.
    + destruct (ws c) eqn:W; [|reflexivity]. exfalso. destruct (ws_in _ W) as [->|I].
      * apply S. apply in_or_app. right. left. reflexivity.
      * apply (B c I). apply in_or_app. right. left. reflexivity.
    + intros x X. apply ws_trail. exact (T x X).
Qed.

Definition set_pri (fs : facs) (n : option bytes) (v : N) : facs :=
  match n with
  | Some n => match find_fac n (firstn (fs_cnt fs) (fs_list fs)) 0 with Some i => setlogmask fs i v | None => fs end
  | None => fold_left (fun fs i => setlogmask fs i v) (seq 0 (fs_cnt fs)) fs
  end.
Definition set_entry (fs : facs) (e : entry) : facs := match e with (n, _, v) => set_pri fs n v end.

Lemma set_chunk_eq : forall (fs : facs) (last : bool) (ch : bytes) (n : option bytes) (pr : bytes) (v : N), ch <> [] ->
  match until "="%char ch with (a, Some p') => (Some a, p') | (_, None) => (None, ch) end = (n, pr) ->
  (length (if last then trim_end pr else pr) <= 5)%nat -> str2pri (cstring (if last then trim_end pr else pr)) = Some v ->
  set_chunk fs last ch = set_pri fs n v.
Proof.
  intros fs last [|c ch] n pr v NE U L V; [contradiction|]. unfold set_chunk. rewrite U.
  match goal with |- context [(5 <? ?x)%nat] => destruct (Nat.ltb_spec 5 x) as [Z|Z]; [exfalso; apply (Nat.lt_irrefl 5); eapply Nat.lt_le_trans; [exact Z|exact L]|] end.
  rewrite V.
  unfold set_pri. destruct n; reflexivity.
Qed.
Lemma chunk_entry : forall fs last n p v trail, entry_fine (n, p, v) -> (forall c, In c trail -> blank c \/ c = newline) ->
  (last = false -> trail = []) -> set_chunk fs last (entry_text (n, p, v) ++ trail) = set_pri fs n v.
Proof.
  intros fs last n p v trail (H & Hn) T Tl.
  destruct (stands_chars _ _ H) as (B & NE & L & _).
  assert (Q : exists q, (if last then trim_end (p ++ trail) else p ++ trail) = q /\ stands_for q v).
  { destruct last; [exact (trim_pri _ _ _ H T)|]. rewrite (Tl eq_refl), app_nil_r. exists p. split; [reflexivity|exact H]. }
  destruct Q as (q & Eq & Hq). destruct (stands_chars _ _ Hq) as (Bq & _ & Lq & _).
  assert (Cq : str2pri (cstring q) = Some v).
  { rewrite cstring_same by (apply Bq; vm_compute; tauto). apply pri_name. exact Hq. }
  assert (NT : ~ In "="%char (p ++ trail)).
  { intros K. apply in_app_or in K. destruct K as [K|K]; [apply (B "="%char) in K; [exact K|vm_compute; tauto]|].
    destruct (T _ K) as [[X|X]|X]; discriminate X. }
  assert (E : exists x y, entry_text (n, p, v) ++ trail = x :: y).
  { destruct n as [n|]; cbn [entry_text].
    - destruct n as [|x n]; cbn [app]; eexists; eexists; reflexivity.
    - destruct p as [|x p]; [contradiction|]. cbn [app]. eexists; eexists; reflexivity. }
  assert (U : match until "="%char (entry_text (n, p, v) ++ trail) with (a, Some p') => (Some a, p') | (_, None) => (None, entry_text (n, p, v) ++ trail) end = (n, p ++ trail)).
  { destruct n as [n|]; cbn [entry_text].
    - rewrite <- app_assoc. cbn [app]. rewrite until_some; [reflexivity|]. apply Hn. right. left. reflexivity.
    - rewrite (until_none _ _ NT). reflexivity. }
  rewrite (set_chunk_eq fs last _ n (p ++ trail) v); [reflexivity|destruct E as (x & y & E); rewrite E; intros K; discriminate K|exact U| |].
  - exact (eq_ind_r (fun x : bytes => (length x <= 5)%nat) Lq Eq).
  - exact (eq_ind_r (fun x : bytes => str2pri (cstring x) = Some v) Cq Eq).
Qed.

Lemma entry_no_comma : forall e, entry_fine e -> ~ In ","%char (entry_text e).
Proof.
  intros [[[n|] p] v] (H & Hn) K; destruct (stands_chars _ _ H) as (B & _); cbn [entry_text] in K.
  - apply in_app_or in K. destruct K as [K|[K|K]].
    + apply (Hn ","%char); [left; reflexivity|exact K].
    + discriminate K.
    + apply (B ","%char) in K; [exact K|vm_compute; tauto].
  - apply (B ","%char) in K; [exact K|vm_compute; tauto].
Qed.
Lemma chunks_entries : forall l fuel fs trail, l <> [] -> (forall e, In e l -> entry_fine e) -> (forall c, In c trail -> blank c \/ c = newline) ->
  (length (entries_text l ++ trail) < fuel)%nat -> set_chunks fuel fs (entries_text l ++ trail) = fold_left set_entry l fs.
Proof.
  induction l as [|e l IH]; intros fuel fs trail NE Hf T Hfu; [contradiction|].
  destruct fuel as [|fuel]; [lia|]. pose proof (Hf e (or_introl eq_refl)) as He. destruct e as [[n p] v]. destruct l as [|e' l'].
  - cbn [entries_text fold_left set_entry]. cbn [set_chunks]. rewrite until_none.
    + apply chunk_entry; [exact He|exact T|intros K; discriminate K].
    + intros K. apply in_app_or in K. destruct K as [K|K]; [exact (entry_no_comma _ He K)|]. destruct (T _ K) as [[X|X]|X]; discriminate X.
  - change (entries_text ((n, p, v) :: e' :: l')) with (entry_text (n, p, v) ++ ","%char :: entries_text (e' :: l')) in *.
    rewrite <- app_assoc in Hfu |- *. cbn [app] in Hfu |- *.
    cbn [set_chunks]. rewrite until_some by (apply entry_no_comma; exact He).
    rewrite IH.
    + change (fold_left set_entry ((n, p, v) :: e' :: l') fs) with (fold_left set_entry (e' :: l') (set_pri fs n v)). f_equal.
      pose proof (chunk_entry fs false n p v [] He (fun c K => match K with end) (fun _ => eq_refl)) as X. rewrite app_nil_r in X. exact X.
    + intros K. discriminate K.
    + intros e K. apply Hf. right. exact K.
    + exact T.
    + rewrite app_length in Hfu. cbn [length] in Hfu. lia.
Qed.
Lemma setmasks_eq : forall fs t u, drop_while is_blank t = u -> u <> [] -> setmasks fs t = set_chunks (Datatypes.S (length u)) fs u.
Proof. intros fs t u E N. unfold setmasks. rewrite E. destruct u; [contradiction|reflexivity]. Qed.
Lemma setmasks_entries : forall fs lead l trail, op_fine (OText lead l trail) ->
  setmasks fs (lead ++ entries_text l ++ trail) = fold_left set_entry l fs.
Proof.
  intros fs lead l trail (Hl & T & NE & Hf & Hb). 
  assert (E : exists c r, entries_text l = c :: r).
  { destruct l as [|[[n p] v] l]; [contradiction|]. pose proof (Hf _ (or_introl eq_refl)) as (H & _). destruct (stands_chars _ _ H) as (_ & P & _).
    assert (X : exists c r, entry_text (n, p, v) = c :: r).
    { destruct n as [[|x n]|]; cbn [entry_text app]; try (eexists; eexists; reflexivity). destruct p; [contradiction|]. eexists; eexists; reflexivity. }
    destruct X as (c & r & X). destruct l; cbn [entries_text]; rewrite X; cbn [app]; eexists; eexists; reflexivity. }
  destruct E as (c & r & E).
  assert (D : drop_while is_blank (entries_text l ++ trail) = entries_text l ++ trail).
  { rewrite E. cbn [app drop_while]. assert (K : is_blank c = false).
    { unfold is_blank. destruct (Ascii.eqb c " "%char) eqn:E1; [apply Ascii.eqb_eq in E1; exfalso; apply (Hb c r E); left; exact E1|].
      destruct (Ascii.eqb c "009"%char) eqn:E2; [apply Ascii.eqb_eq in E2; exfalso; apply (Hb c r E); right; exact E2|]. reflexivity. }
    rewrite K. reflexivity. }
  rewrite (setmasks_eq fs _ (entries_text l ++ trail)).
  - apply chunks_entries; [exact NE|exact Hf|exact T|lia].
  - rewrite drop_app by (intros x K; destruct (Hl x K) as [->| ->]; reflexivity). exact D.
  - rewrite E. intros K. discriminate K.
Qed.

(* ---- what an entry does ---- *)
Lemma named_iff : forall s i n, is_named n (fac_is s i) = true <-> named s i n.
Proof.
  intros s i n. unfold is_named, fac_is, named. cbn [f_aname f_lname]. rewrite orb_true_iff. split.
  - intros [H|H].
    + destruct (fst (names_of s i)) as [x|]; [|discriminate H]. exists x. split; [left; reflexivity|apply same_alike; exact H].
    + destruct (snd (names_of s i)) as [x|]; [|discriminate H]. exists x. split; [right; reflexivity|apply same_alike; exact H].
  - intros (x & [E|E] & A); rewrite E; [left|right]; apply same_alike; exact A.
Qed.
Lemma find_fac_is : forall n l i0, match find_fac n l i0 with
  | Some i => exists k f, i = (i0 + k)%nat /\ nth_error l k = Some f /\ is_named n f = true /\ forall j g, (j < k)%nat -> nth_error l j = Some g -> is_named n g = false
  | None => forall j g, nth_error l j = Some g -> is_named n g = false
  end.
Proof.
  intros n l. induction l as [|f l IH]; intros i0; cbn [find_fac].
  - intros [|j] g K; discriminate K.
  - destruct (is_named n f) eqn:E.
    + exists 0%nat, f. split; [lia|]. split; [reflexivity|]. split; [exact E|]. intros j g J. lia.
    + specialize (IH (Datatypes.S i0)). destruct (find_fac n l (Datatypes.S i0)) as [i|].
      * destruct IH as (k & g & -> & A & B & C). exists (Datatypes.S k), g. split; [lia|]. split; [exact A|]. split; [exact B|].
        intros [|j] h J K; [injection K as <-; exact E|]. apply (C j h); [lia|exact K].
      * intros [|j] g K; [injection K as <-; exact E|]. exact (IH j g K).
Qed.

Lemma all_shows : forall v n s fs, shows s fs -> N.land v PRIMASK = v -> (n <= known s)%nat ->
  exists s', shows s' (fold_left (fun fs i => setlogmask fs i v) (seq 0 n) fs) /\ known s' = known s /\ names_of s' = names_of s /\
    (forall i, mask_of s' i = if (i <? n)%nat then v else mask_of s i).
Proof.
  intros v n s fs H V. induction n as [|n IH]; intros K.
  - exists s. split; [exact H|]. split; [reflexivity|]. split; [reflexivity|]. intros i. reflexivity.
  - destruct IH as (s1 & S1 & K1 & N1 & M1); [lia|]. rewrite seq_S, fold_left_app. cbn [fold_left Nat.add].
    eexists. split; [apply (mask_shows s1 _ n v); exact S1|]. cbn [known names_of mask_of]. split; [lia|]. split; [exact N1|].
    intros i. unfold put_at. rewrite M1, V. destruct (Nat.eqb_spec i n) as [->|Ne].
    + replace (n <? Datatypes.S n)%nat with true by (symmetry; apply Nat.ltb_lt; lia). reflexivity.
    + destruct (Nat.ltb_spec i n), (Nat.ltb_spec i (Datatypes.S n)); try reflexivity; lia.
Qed.
Lemma entry_shows : forall s fs e, shows s fs -> entry_fine e -> exists s', did s e s' /\ shows s' (set_entry fs e).
Proof.
  intros s fs [[n p] v] H (P & _). pose proof (a_mask_pri _ (stands_mask _ _ P)) as V. pose proof H as (C & L & F & D & P1 & _).
  unfold set_entry, set_pri. destruct n as [n|].
  - pose proof (find_fac_is n (firstn (fs_cnt fs) (fs_list fs)) 0) as X. destruct (find_fac n _ 0) as [i|].
    + destruct X as (k & f & -> & A & B & Lo). cbn [Nat.add].
      assert (Kk : (k < known s)%nat).
      { assert (Z : nth_error (firstn (fs_cnt fs) (fs_list fs)) k <> None) by (rewrite A; intros Z; discriminate Z).
        apply nth_error_Some in Z. rewrite firstn_length in Z. lia. }
      assert (At : forall j, (j < known s)%nat -> nth_error (firstn (fs_cnt fs) (fs_list fs)) j = Some (fac_is s j)).
      { intros j J. rewrite nth_error_firstn_lt by lia. apply F. lia. }
      eexists. split; [|apply (mask_shows s fs k v H)]. unfold did. cbn [known names_of mask_of]. split; [lia|]. split; [reflexivity|]. split.
      * left. exists k. split; [exact Kk|]. rewrite (At k Kk) in A. injection A as <-. split; [apply named_iff; exact B|]. split.
        -- intros j J Y. apply named_iff in Y. rewrite (Lo j _ J (At j ltac:(lia))) in Y. discriminate Y.
        -- intros j J. unfold put_at. rewrite V. reflexivity.
      * intros j J. unfold put_at. replace (j =? k)%nat with false by (symmetry; apply Nat.eqb_neq; lia). reflexivity.
    + exists s. split; [|exact H]. unfold did. split; [reflexivity|]. split; [reflexivity|]. split; [|intros; reflexivity]. right. split; [|intros; reflexivity].
      intros i I Y. apply named_iff in Y. rewrite (X i (fac_is s i)) in Y; [discriminate Y|]. rewrite nth_error_firstn_lt by lia. apply F. lia.
  - destruct (all_shows v (fs_cnt fs) s fs H V) as (s' & S' & K' & N' & M'); [lia|].
    exists s'. split; [|exact S']. unfold did. split; [exact K'|]. split; [exact N'|]. split.
    + intros i I. rewrite M'. replace (i <? fs_cnt fs)%nat with true by (symmetry; apply Nat.ltb_lt; lia). reflexivity.
    + intros j J. rewrite M'. replace (j <? fs_cnt fs)%nat with false by (symmetry; apply Nat.ltb_ge; lia). reflexivity.
Qed.
Lemma entries_show : forall l s fs, shows s fs -> (forall e, In e l -> entry_fine e) -> exists s', did_all s l s' /\ shows s' (fold_left set_entry l fs).
Proof.
  induction l as [|e l IH]; intros s fs H F; [exists s; split; [reflexivity|exact H]|].
  destruct (entry_shows s fs e H (F e (or_introl eq_refl))) as (s1 & D1 & S1).
  destruct (IH s1 _ S1 (fun e' K => F e' (or_intror K))) as (s' & D' & S'). exists s'. split; [|exact S']. exists s1. split; assumption.
Qed.

Lemma op_shows : forall s fs o, shows s fs -> op_fine o -> exists s', did_op s o s' /\ shows s' (run_op fs o).
Proof.
  intros s fs o H Ho. destruct o as [i a l|a l|i p|lead l trail]; cbn [run_op did_op].
  - eexists. split; [reflexivity|]. apply name_shows. exact H.
  - eexists. split; [reflexivity|]. apply alloc_shows. exact H.
  - eexists. split; [reflexivity|]. rewrite <- pri_parts. apply mask_shows. exact H.
  - rewrite (setmasks_entries _ _ _ _ Ho). apply entries_show; [exact H|]. exact (proj1 (proj2 (proj2 (proj2 Ho)))).
Qed.
Lemma ops_show : forall l s fs, shows s fs -> (forall o, In o l -> op_fine o) -> exists s', did_ops s l s' /\ shows s' (fold_left run_op l fs).
Proof.
  induction l as [|o l IH]; intros s fs H F; [exists s; split; [reflexivity|exact H]|].
  destruct (op_shows s fs o H (F o (or_introl eq_refl))) as (s1 & D1 & S1).
  destruct (IH s1 _ S1 (fun o' K => F o' (or_intror K))) as (s' & D' & S'). exists s'. split; [|exact S']. exists s1. split; assumption.
Qed.
