(* Texts of masks read back; what is written; sessions; a message buffer found in memory *)
From Verif Require Import ModelBytes ModelLog SpecLog SpecLog2 ProofBytes ProofStore ProofLog ProofLog2 ProofLog3.

(* ---- the text of the masks ---- *)
Lemma nth_error_ext : forall {A} (l l' : list A), (forall i, nth_error l i = nth_error l' i) -> l = l'.
Proof.
  intros A l. induction l as [|x l IH]; intros [|y l'] H; [reflexivity|specialize (H 0%nat); discriminate H|specialize (H 0%nat); discriminate H|].
  pose proof (H 0%nat) as H0. injection H0 as ->. f_equal. apply IH. intros i. exact (H (Datatypes.S i)).
Qed.
Lemma facs_list : forall s fs, shows s fs -> firstn (fs_cnt fs) (fs_list fs) = map (fac_is s) (seq 0 (known s)).
Proof.
  intros s fs (C & L & F & _). apply nth_error_ext. intros i. destruct (Nat.lt_ge_cases i (known s)) as [H|H].
  - rewrite nth_error_firstn_lt by lia. rewrite nth_error_map_seq by exact H. apply F. lia.
  - rewrite (proj2 (nth_error_None _ _)) by (rewrite firstn_length; lia). symmetry. apply nth_error_None. rewrite map_length, seq_length. lia.
Qed.
Definition entry_of (s : sources) (i : nat) : entry := (Some (fac_name i (fac_is s i)), short (pristr (mask_of s i)), mask_of s i).
Lemma entry_of_text : forall s i, entry_text (entry_of s i) = fac_name i (fac_is s i) ++ "="%char :: short (pristr (mask_of s i)).
Proof. reflexivity. Qed.
Lemma entries_more : forall s n i, (0 < i)%nat -> mask_entries i (map (fac_is s) (seq i n)) = match n with O => [] | _ => ","%char :: entries_text (map (entry_of s) (seq i n)) end.
Proof.
  intros s n. induction n as [|n IH]; intros i H; [reflexivity|]. cbn [seq map mask_entries]. rewrite IH by lia.
  unfold mask_entry at 1. replace (i =? 0)%nat with false by (symmetry; apply Nat.eqb_neq; lia). cbn [app].
  change (f_mask (fac_is s i)) with (mask_of s i). destruct n as [|n].
  - cbn [seq map entries_text entry_of entry_text]. rewrite !app_nil_r. reflexivity.
  - cbn [seq map]. change (entries_text (entry_of s i :: entry_of s (Datatypes.S i) :: map (entry_of s) (seq (Datatypes.S (Datatypes.S i)) n)))
      with (entry_text (entry_of s i) ++ ","%char :: entries_text (entry_of s (Datatypes.S i) :: map (entry_of s) (seq (Datatypes.S (Datatypes.S i)) n))).
    rewrite entry_of_text, <- !app_assoc. reflexivity.
Qed.
Lemma entries_first : forall s n, (0 < n)%nat -> mask_entries 0 (map (fac_is s) (seq 0 n)) = entries_text (map (entry_of s) (seq 0 n)).
Proof.
  intros s n H. destruct n as [|n]; [lia|]. cbn [seq map mask_entries]. rewrite entries_more by lia.
  unfold mask_entry at 1. cbn [Nat.eqb app]. change (f_mask (fac_is s 0)) with (mask_of s 0). destruct n as [|n].
  - cbn [seq map entries_text entry_of entry_text]. rewrite app_nil_r. reflexivity.
  - cbn [seq map]. change (entries_text (entry_of s 0 :: entry_of s 1 :: map (entry_of s) (seq 2 n)))
      with (entry_text (entry_of s 0) ++ ","%char :: entries_text (entry_of s 1 :: map (entry_of s) (seq 2 n))).
    rewrite entry_of_text, <- !app_assoc. reflexivity.
Qed.
Lemma text_is : forall s fs u, shows s fs -> masks_text fs u = entries_text (map (entry_of s) (seq 0 (known s))) ++ [NL] ++ (if u then [] else ["000"%char]).
Proof.
  intros s fs u H. unfold masks_text. rewrite (facs_list _ _ H). destruct H as (_ & _ & _ & _ & P & _). rewrite entries_first by lia. reflexivity.
Qed.
Lemma name_is : forall s i n, shown_name s i = Some n -> fac_name i (fac_is s i) = n.
Proof.
  intros s i n H. unfold shown_name in H. unfold fac_name, fac_is. cbn [f_aname f_lname]. destruct (names_of s i) as [[a|] [l|]]; cbn [fst snd]; congruence.
Qed.
Lemma tell_fine : forall s, (0 < known s)%nat -> can_tell s -> op_fine (OText [] (map (entry_of s) (seq 0 (known s))) [NL]).
Proof.
  intros s P (A & B). cbn [op_fine]. split; [intros c []|]. split; [intros c [<-|[]]; right; reflexivity|]. split.
  - destruct (known s); [lia|]. cbn [seq map]. intros K. discriminate K.
  - split.
    + intros e He. apply in_map_iff in He. destruct He as (i & <- & Hi). apply in_seq in Hi. destruct (A i ltac:(lia)) as (n & En & W & M & _).
      unfold entry_of, entry_fine. split; [|rewrite (name_is _ _ _ En); exact W]. apply pri_name. apply pri_round. exact M.
    + intros c r E. destruct (A 0%nat P) as (n & En & _). destruct (known s) as [|k]; [lia|]. cbn [seq map] in E.
      assert (X : exists r', entry_text (entry_of s 0) = c :: r').
      { destruct k; cbn [seq map] in E; [exists r; exact E|].
        change (entry_text (entry_of s 0) ++ ","%char :: entries_text (entry_of s 1 :: map (entry_of s) (seq 2 k)) = c :: r) in E.
        destruct (entry_text (entry_of s 0)) as [|c0 r0] eqn:Z.
        - unfold entry_of in Z. cbn [entry_text] in Z. destruct (fac_name 0 (fac_is s 0)); discriminate Z.
        - injection E as -> _. exists r0. reflexivity. }
      destruct X as (r' & X). unfold entry_of in X. cbn [entry_text] in X. rewrite (name_is _ _ _ En) in X. destruct n as [|x n].
      * injection X as <- _. intros [K|K]; discriminate K.
      * injection X as -> _. apply (B _ c n En eq_refl).
Qed.

(* reading it back: entries in order set the facilities in order *)
Lemma back_from : forall s l s0 s1 i,
  (forall j, (j < known s)%nat -> exists n, shown_name s j = Some n /\ forall k, (k < j)%nat -> ~ named s k n) ->
  l = map (entry_of s) (seq i (known s - i)) -> (i <= known s)%nat -> known s0 = known s -> (forall j, (j < known s)%nat -> names_of s0 j = names_of s j) ->
  (forall j, (j < i)%nat -> mask_of s0 j = mask_of s j) -> did_all s0 l s1 ->
  known s1 = known s /\ (forall j, (j < known s)%nat -> mask_of s1 j = mask_of s j) /\ (forall j, (j < known s)%nat -> names_of s1 j = names_of s j).
Proof.
  intros s l. induction l as [|e l IH]; intros s0 s1 i U El Hi K N M D.
  - cbn [did_all] in D. subst s1. assert (known s <= i)%nat.
    { destruct (known s - i)%nat eqn:Z; [lia|]. cbn [seq map] in El. discriminate El. }
    split; [exact K|]. split; [intros j J; apply M; lia|exact N].
  - destruct (known s - i)%nat as [|r] eqn:Z; [cbn [seq map] in El; discriminate El|]. cbn [seq map] in El. injection El as -> El.
    destruct D as (s' & (K' & N' & DE & _) & D). destruct (U i ltac:(lia)) as (n & En & Un). unfold entry_of in DE. rewrite (name_is _ _ _ En) in DE.
    assert (Nm : forall j, (j < known s)%nat -> (named s0 j n <-> named s j n)).
    { intros j J. unfold named. rewrite (N j J). reflexivity. }
    assert (Ni : named s i n).
    { unfold shown_name in En. exists n. split; [|apply alike_refl]. destruct (names_of s i) as [[a|] [b|]]; cbn [fst snd] in *; try discriminate En; auto. }
    assert (Mi : forall j, (j < known s)%nat -> mask_of s' j = if (j =? i)%nat then mask_of s i else mask_of s0 j).
    { destruct DE as [(k & Kk & Nk & Lk & Mk)|(No & _)].
      - assert (k = i).
        { destruct (Nat.lt_trichotomy k i) as [X|[X|X]]; [exfalso|exact X|exfalso].
          - apply (Un k X). apply (Nm k); [lia|exact Nk].
          - apply (Lk i X). apply (Nm i); [lia|exact Ni]. }
        subst k. intros j J. apply Mk. lia.
      - exfalso. apply (No i); [lia|]. apply Nm; [lia|exact Ni]. }
    apply (IH s' s1 (Datatypes.S i)).
    + exact U.
    + rewrite El. replace (known s - Datatypes.S i)%nat with r by lia. reflexivity.
    + lia.
    + rewrite K'. exact K.
    + intros j J. rewrite N'. apply N. exact J.
    + intros j J. rewrite Mi by lia. destruct (Nat.eqb_spec j i) as [->|Ne]; [reflexivity|]. apply M. lia.
    + exact D.
Qed.
Lemma read_back : forall s fs s2 fs2, shows s fs -> can_tell s -> shows s2 fs2 -> known s2 = known s -> (forall i, (i < known s)%nat -> names_of s2 i = names_of s i) ->
  exists s3, shows s3 (setmasks fs2 (masks_text fs true)) /\ known s3 = known s /\
    (forall i, (i < known s)%nat -> mask_of s3 i = mask_of s i) /\ (forall i, (i < known s)%nat -> names_of s3 i = names_of s i).
Proof.
  intros s fs s2 fs2 H T H2 K N. rewrite (text_is _ _ true H). pose proof H as (_ & _ & _ & _ & P & _).
  pose proof (tell_fine s P T) as F.
  pose proof (setmasks_entries fs2 [] (map (entry_of s) (seq 0 (known s))) [NL] F) as E. cbn [app] in E |- *. rewrite E.
  destruct (entries_show (map (entry_of s) (seq 0 (known s))) s2 fs2 H2) as (s3 & D & S3).
  { exact (proj1 (proj2 (proj2 (proj2 F)))). }
  exists s3. split; [exact S3|].
  apply (back_from s (map (entry_of s) (seq 0 (known s))) s2 s3 0).
  - intros j J. destruct (proj1 T j J) as (n & En & _ & _ & U). exists n. split; assumption.
  - rewrite Nat.sub_0_r. reflexivity.
  - lia.
  - exact K.
  - exact N.
  - intros j J. lia.
  - exact D.
Qed.

(* a part of it *)
Lemma bput_is : forall s skip resid out, bput s skip resid out = out ++ firstn resid (skipn skip s).
Proof.
  induction s as [|c s IH]; intros skip resid out; cbn [bput].
  - rewrite skipn_nil, firstn_nil, app_nil_r. reflexivity.
  - destruct (Nat.ltb_spec 0 skip) as [H|H].
    + rewrite IH. destruct skip as [|skip]; [lia|]. cbn [skipn]. replace (Datatypes.S skip - 1)%nat with skip by lia. reflexivity.
    + replace skip with 0%nat by lia. cbn [skipn]. destruct (Nat.ltb_spec 0 resid) as [K|K].
      * rewrite IH. destruct resid as [|resid]; [lia|]. cbn [skipn firstn]. replace (Datatypes.S resid - 1)%nat with resid by lia.
        rewrite <- app_assoc. reflexivity.
      * rewrite IH. replace resid with 0%nat by lia. cbn [skipn firstn]. reflexivity.
Qed.
Lemma slice_is : forall fs discard len u,
  getmasks fs true discard len u = (Z.of_nat (length (firstn (Z.to_nat len) (skipn (Z.to_nat discard) (masks_text fs u)))), firstn (Z.to_nat len) (skipn (Z.to_nat discard) (masks_text fs u))).
Proof. intros fs discard len u. unfold getmasks. rewrite bput_is. reflexivity. Qed.

(* ---- messages in the buffer ---- *)
Lemma mask_at : forall s fs flags, shows s fs -> match nth_error (fs_list fs) (fac_of fs flags) with Some f => f_mask f | None => 0%N end = mask_for s flags.
Proof.
  intros s fs flags (C & L & F & _ & P & _). unfold fac_of, mask_for. cbn zeta.
  assert (E : N.land flags FACMASK = (flags mod 65536)%N) by (change FACMASK with (N.ones 16); apply N.land_ones).
  rewrite E, C. set (i := N.to_nat (flags mod 65536)). destruct (Nat.leb_spec (known s) i) as [H|H].
  - replace (i <? known s)%nat with false by (symmetry; apply Nat.ltb_ge; exact H). rewrite F by lia. reflexivity.
  - replace (i <? known s)%nat with true by (symmetry; apply Nat.ltb_lt; exact H). rewrite F by lia. reflexivity.
Qed.
Lemma mask_for_pri : forall s fs flags, shows s fs -> N.land (mask_for s flags) PRIMASK = mask_for s flags.
Proof. intros s fs flags (_ & _ & _ & _ & _ & _ & M). apply M. Qed.
Lemma test_is : forall s fs em flags, shows s fs -> (fst (vmlog_test fs em flags) = true <-> wanted (mask_for s flags) flags).
Proof.
  intros s fs em flags H. rewrite <- (wanted_iff _ _ (mask_for_pri _ _ flags H)). unfold vmlog_test. rewrite (mask_at _ _ flags H).
  destruct (INFO <=? N.land flags PRIMASK)%N.
  - destruct (N.land flags PRIMASK <? mask_for s flags)%N; reflexivity.
  - destruct (N.land (N.land flags PRIMASK) (mask_for s flags) =? 0)%N; reflexivity.
Qed.
Lemma filter_is : forall fs em flags, filter_msg fs flags = fst (vmlog_test fs em flags).
Proof.
  intros fs em flags. unfold filter_msg, vmlog_test. destruct (nth_error _ _) as [f|]; cbn zeta; destruct (INFO <=? _)%N;
    try destruct (_ <? _)%N; try destruct (_ =? 0)%N; reflexivity.
Qed.
Lemma stderr_is : forall s fs em flags, shows s fs -> N.land em PRIMASK = em -> em <> 0%N ->
  (snd (vmlog_test fs em flags) = true <-> wanted (mask_for s flags) flags /\ wanted em flags).
Proof.
  intros s fs em flags H E Z. rewrite <- (wanted_iff _ _ (mask_for_pri _ _ flags H)), <- (wanted_iff _ _ E).
  unfold vmlog_test. rewrite (mask_at _ _ flags H). destruct (INFO <=? N.land flags PRIMASK)%N.
  - replace (em =? 0)%N with false by (symmetry; apply N.eqb_neq; exact Z). cbn [negb andb].
    destruct (N.land flags PRIMASK <? mask_for s flags)%N; cbn [negb snd].
    + split; [intros K; discriminate K|intros (K & _); discriminate K].
    + rewrite N.leb_antisym. tauto.
  - destruct (N.land (N.land flags PRIMASK) (mask_for s flags) =? 0)%N; cbn [negb snd].
    + split; [intros K; discriminate K|intros (K & _); discriminate K].
    + tauto.
Qed.
Lemma logs_hold : forall s fs n l t m, (0 < n)%nat -> shows s fs -> holds n t m -> (forall f h b, In (f, h, b) l -> h <> []) ->
  exists m' t', mb_logs fs m l = Ok m' /\ kept s l t' /\ holds n (t ++ t') m'.
Proof.
  intros s fs n l. induction l as [|[[f h] b] l IH]; intros t m Hn S H NE.
  - exists m, []. rewrite app_nil_r. split; [reflexivity|]. split; [reflexivity|exact H].
  - cbn [mb_logs]. assert (NE' : forall f h b, In (f, h, b) l -> h <> []) by (intros f' h' b' K; apply (NE f' h' b'); right; exact K).
    pose proof (test_is s fs 0 f S) as W. unfold mb_log. destruct (fst (vmlog_test fs 0 f)) eqn:E.
    + rewrite line_is by (apply (NE f h b); left; reflexivity). cbn [obind]. destruct (Nat.leb_spec 4096 (length h + 1)) as [K|K].
      * cbn [obind]. destruct (IH t m Hn S H NE') as (m' & t' & A & B & C). exists m', t'. split; [exact A|]. split; [|exact C]. right. split; [right; lia|exact B].
      * destruct (put_holds n t m (line (h ++ b)) Hn H) as (m1 & E1 & H1). rewrite E1. cbn [obind].
        destruct (IH _ m1 Hn S H1 NE') as (m' & t' & A & B & C). exists m', (line (h ++ b) ++ t'). split; [exact A|]. split; [|rewrite app_assoc; exact C].
        left. split; [apply W; reflexivity|]. split; [lia|]. exists t'. split; [reflexivity|exact B].
    + cbn [obind]. destruct (IH t m Hn S H NE') as (m' & t' & A & B & C). exists m', t'. split; [exact A|]. split; [|exact C]. right. split; [|exact B]. left.
      intros K. apply W in K. discriminate K.
Qed.

(* ---- sessions ---- *)
Definition hx_state (st : option N) (l : list hx_act) : option N := fold_left (fun st a => fst (hx_step st a)) l st.
Lemma run_app : forall a b st, hx_run st (a ++ b) = hx_run st a ++ hx_run (hx_state st a) b.
Proof.
  induction a as [|x a IH]; intros b st; [reflexivity|]. cbn [app hx_run hx_state fold_left]. destruct (hx_step st x) as [st' r]. cbn [fst app].
  rewrite IH. reflexivity.
Qed.
Lemma quiet_none : forall pre, quiet pre -> hx_state None pre = None.
Proof.
  intros pre. induction pre as [|x pre IH] using rev_ind; intros Q; [reflexivity|]. unfold hx_state. rewrite fold_left_app. cbn [fold_left].
  destruct x as [s lv|s|s f]; cbn [hx_step fst].
  - exfalso. destruct (Q pre s lv [] eq_refl) as (s' & c & d & E). destruct c; discriminate E.
  - reflexivity.
  - apply IH. intros a s0 lv b E. destruct (Q a s0 lv (b ++ [HLog s f])) as (s' & c & d & E').
    { rewrite E, <- app_assoc. reflexivity. }
    destruct (@exists_last _ (HClose s' :: d)) as (d' & z & Ez); [intros K; discriminate K|].
    rewrite Ez, app_assoc in E'. apply app_inj_tail in E'. destruct E' as (E' & <-).
    destruct d' as [|y d']; [cbn [app] in Ez; injection Ez as Ez; discriminate Ez|]. injection Ez as <- _. exists s', c, d'. exact E'.
Qed.
Lemma logs_keep : forall mid st, (forall a, In a mid -> exists s f, a = HLog s f) -> hx_state st mid = st.
Proof.
  induction mid as [|x mid IH]; intros st H; [reflexivity|]. destruct (H x (or_introl eq_refl)) as (s & f & ->). cbn [hx_state fold_left hx_step fst].
  apply IH. intros a K. apply H. right. exact K.
Qed.
Lemma session_is : forall pre s lv mid p, quiet pre -> (forall a, In a mid -> exists s f, a = HLog s f) -> N.land lv PRIMASK = lv -> lv <> 0%N ->
  exists r b, hx_run None (pre ++ HOpen s lv :: mid ++ [HLog s p]) = r ++ [Some b] /\ (b = true <-> wanted lv p).
Proof.
  intros pre s lv mid p Q M E Z.
  change (pre ++ HOpen s lv :: mid ++ [HLog s p]) with (pre ++ ([HOpen s lv] ++ mid ++ [HLog s p])). rewrite !app_assoc, run_app.
  eexists. eexists. split; [cbn [hx_run hx_step]; reflexivity|].
  assert (St : hx_state None ((pre ++ [HOpen s lv]) ++ mid) = Some lv).
  { unfold hx_state. rewrite !fold_left_app. fold (hx_state None pre). rewrite (quiet_none _ Q). cbn [fold_left hx_step fst].
    replace (N.land lv PRIMASK =? lv)%N with true by (symmetry; apply N.eqb_eq; exact E). apply (logs_keep mid (Some lv) M). }
  rewrite St. rewrite (stderr_is (at_first lv 0) _ lv p (open_shows lv 0 E) E Z).
  assert (X : mask_for (at_first lv 0) p = lv) by reflexivity. rewrite X. tauto.
Qed.
