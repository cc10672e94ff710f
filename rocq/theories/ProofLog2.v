From Verif Require Import ModelBytes ModelLog SpecLog ProofBytes ProofStore ProofLog.

(* ---- levels and streams ---- *)
Local Open Scope N_scope.
Lemma pri_bits : forall p i, N.testbit (N.land p PRIMASK) i = N.testbit p i && (16 <=? i) && (i <? 23).
Proof.
  intros p i. rewrite N.land_spec, <- andb_assoc. f_equal.
  change PRIMASK with (N.shiftl (N.ones 7) 16).
  destruct (N.leb_spec 16 i) as [H|H]; cbn [andb].
  - rewrite N.shiftl_spec_high' by exact H. destruct (N.ltb_spec i 23) as [K|K].
    + apply N.ones_spec_low. lia.
    + apply N.ones_spec_high. lia.
  - apply N.shiftl_spec_low. exact H.
Qed.
Lemma level_bits : forall p i, N.testbit (level p) i = N.testbit p (i + 20) && (i <? 3).
Proof.
  intros p i. unfold level. change 1048576 with (2 ^ 20). change 8 with (2 ^ 3). destruct (N.ltb_spec i 3) as [H|H].
  - rewrite N.mod_pow2_bits_low by exact H. rewrite N.div_pow2_bits, andb_true_r. reflexivity.
  - rewrite N.mod_pow2_bits_high by exact H. rewrite andb_false_r. reflexivity.
Qed.
Lemma stream_bits : forall p i, N.testbit (streams p) i = N.testbit p (i + 16) && (i <? 4).
Proof.
  intros p i. unfold streams. change 65536 with (2 ^ 16). change 16 with (2 ^ 4) at 2. destruct (N.ltb_spec i 4) as [H|H].
  - rewrite N.mod_pow2_bits_low by exact H. rewrite N.div_pow2_bits, andb_true_r. reflexivity.
  - rewrite N.mod_pow2_bits_high by exact H. rewrite andb_false_r. reflexivity.
Qed.
Lemma pri_parts : forall p, N.land p PRIMASK = level p * 1048576 + streams p * 65536.
Proof.
  intros p.
  assert (A : N.land p PRIMASK = (p / 65536) mod 128 * 65536).
  { change 65536 with (2 ^ 16) at 2. rewrite <- N.shiftl_mul_pow2. apply N.bits_inj. intros i. rewrite pri_bits.
    destruct (N.leb_spec 16 i) as [H|H].
    - rewrite N.shiftl_spec_high' by exact H. change 65536 with (2 ^ 16). change 128 with (2 ^ 7).
      destruct (N.ltb_spec i 23) as [K|K].
      + rewrite N.mod_pow2_bits_low, N.div_pow2_bits by lia. replace (i - 16 + 16) with i by lia. rewrite !andb_true_r. reflexivity.
      + rewrite N.mod_pow2_bits_high by lia. rewrite andb_false_r. reflexivity.
    - rewrite N.shiftl_spec_low by exact H. rewrite andb_false_r. reflexivity. }
  rewrite A. unfold level, streams. replace 1048576 with (65536 * 16) at 1 by reflexivity. rewrite <- N.div_div by lia.
  remember (p / 65536) as q eqn:E. clear E A. change 128 with (16 * 8). rewrite (N.mod_mul_r q 16 8) by lia. lia.
Qed.
Lemma level_lt : forall p, level p < 8.
Proof. intros p. unfold level. apply N.mod_lt. lia. Qed.
Lemma streams_lt : forall p, streams p < 16.
Proof. intros p. unfold streams. apply N.mod_lt. lia. Qed.

Lemma wanted_iff : forall mask flags, N.land mask PRIMASK = mask ->
  ((if INFO <=? N.land flags PRIMASK then negb (N.land flags PRIMASK <? mask) else negb (N.land (N.land flags PRIMASK) mask =? 0)) = true <-> wanted mask flags).
Proof.
  intros mask flags Hm. unfold wanted, INFO. pose proof (pri_parts flags) as Ef. pose proof (pri_parts mask) as Em. rewrite Hm in Em.
  pose proof (level_lt flags). pose proof (streams_lt flags). pose proof (level_lt mask). pose proof (streams_lt mask).
  destruct (N.eqb_spec (level flags) 0) as [K|K].
  - replace (1048576 <=? N.land flags PRIMASK) with false by (symmetry; apply N.leb_gt; rewrite Ef, K; lia).
    rewrite Bool.negb_true_iff, N.eqb_neq. split.
    + intros NZ.
      assert (B : exists i, N.testbit (N.land (N.land flags PRIMASK) mask) i = true).
      { exists (N.log2 (N.land (N.land flags PRIMASK) mask)). apply N.bit_log2. exact NZ. }
      destruct B as (i & B). rewrite N.land_spec, pri_bits in B. apply andb_true_iff in B. destruct B as (B & Bm).
      apply andb_true_iff in B. destruct B as (B & B23). apply andb_true_iff in B. destruct B as (B & B16).
      apply N.leb_le in B16. apply N.ltb_lt in B23.
      assert (B20 : i < 20).
      { destruct (N.lt_ge_cases i 20) as [L|L]; [exact L|exfalso].
        assert (X : N.testbit (level flags) (i - 20) = true).
        { rewrite level_bits. replace (i - 20 + 20) with i by lia. rewrite B. apply N.ltb_lt. lia. }
        rewrite K, N.bits_0 in X. discriminate X. }
      exists (i - 16). split; [lia|]. rewrite !stream_bits. replace (i - 16 + 16) with i by lia. rewrite B, Bm.
      replace (i - 16 <? 4) with true by (symmetry; apply N.ltb_lt; lia). split; reflexivity.
    + intros (i & I4 & A & B) Z. rewrite stream_bits in A, B. apply andb_true_iff in A, B.
      assert (X : N.testbit (N.land (N.land flags PRIMASK) mask) (i + 16) = true).
      { rewrite N.land_spec, pri_bits, (proj1 A), (proj1 B). cbn [andb]. rewrite andb_true_r. apply andb_true_iff.
        split; [apply N.leb_le|apply N.ltb_lt]; lia. }
      rewrite Z, N.bits_0 in X. discriminate X.
  - replace (1048576 <=? N.land flags PRIMASK) with true by (symmetry; apply N.leb_le; rewrite Ef; lia).
    rewrite Bool.negb_true_iff, N.ltb_ge, Ef. rewrite Em at 1. lia.
Qed.

(* ---- names of priorities ---- *)
Lemma low_small : forall c, low c = small c.
Proof. intros [[] [] [] [] [] [] [] []]; vm_compute; reflexivity. Qed.
Lemma same_alike : forall a b, same_text a b = true <-> alike a b.
Proof.
  intros a b. unfold same_text, alike. rewrite (map_ext _ _ low_small), (map_ext _ _ low_small). apply beqb_true.
Qed.
Lemma same_text_false : forall a b, same_text a b = false <-> ~ alike a b.
Proof. intros a b. rewrite <- same_alike. destruct (same_text a b); split; intros; try reflexivity; try discriminate; try (intros X; discriminate X). exfalso. apply H. reflexivity. Qed.
Lemma alike_refl : forall a, alike a a. Proof. intros a. reflexivity. Qed.
Lemma alike_sym : forall a b, alike a b -> alike b a. Proof. intros a b H. symmetry. exact H. Qed.
Lemma alike_trans : forall a b c, alike a b -> alike b c -> alike a c. Proof. intros a b c H K. unfold alike in *. congruence. Qed.
Lemma alike_length : forall a b, alike a b -> length a = length b.
Proof. intros a b H. rewrite <- (map_length small a), <- (map_length small b). unfold alike in H. rewrite H. reflexivity. Qed.
Lemma same_text_alike : forall a b c, alike a b -> same_text a c = same_text b c.
Proof.
  intros a b c H. destruct (same_text b c) eqn:E.
  - apply same_alike in E. apply same_alike. exact (alike_trans _ _ _ H E).
  - apply same_text_false in E. apply same_text_false. intros K. apply E. exact (alike_trans _ _ _ (alike_sym _ _ H) K).
Qed.
Lemma index_alike : forall l a b i, alike a b -> index_of a l i = index_of b l i.
Proof. induction l as [|x l IH]; intros a b i H; [reflexivity|]. cbn [index_of]. rewrite (same_text_alike a b x H), (IH a b (i + 1) H). reflexivity. Qed.

(* without the dashes *)
Definition find_name (s : bytes) : option N :=
  if (5 <? length s)%nat then None else if same_text s (bstr "ERR") then Some ERR else if same_text s (bstr "DEBUG") then Some DBG
  else match index_of s (tl norm) 1 with Some i => Some (N.shiftl i 20) | None => option_map (fun i => N.shiftl i 16) (index_of s dbg 0) end.
Lemma find_alike : forall a b, alike a b -> find_name a = find_name b.
Proof.
  intros a b H. unfold find_name. rewrite (alike_length _ _ H), !(same_text_alike a b _ H), !(index_alike _ a b _ H). reflexivity.
Qed.
Lemma in_table : forall {A} (f : A -> bool) l, forallb f l = true -> forall x, In x l -> f x = true.
Proof. intros A f l H. apply forallb_forall. exact H. Qed.
Lemma find_table : forall n v, In (n, v) (level_names ++ stream_names) -> find_name n = Some v.
Proof.
  intros n v H.
  pose proof (in_table (fun x => match find_name (fst x) with Some w => w =? snd x | None => false end) (level_names ++ stream_names) eq_refl _ H) as Y.
  cbn [fst snd] in Y. destruct (find_name n) as [w|]; [|discriminate Y]. apply N.eqb_eq in Y. subst w. reflexivity.
Qed.

Lemma index_found : forall l a i j, index_of a l i = Some j -> exists n, nth_error l (N.to_nat (j - i)) = Some n /\ alike a n /\ i <= j.
Proof.
  induction l as [|x l IH]; intros a i j H; cbn [index_of] in H; [discriminate H|].
  destruct (same_text a x) eqn:E.
  - injection H as <-. exists x. rewrite N.sub_diag. split; [reflexivity|]. split; [apply same_alike; exact E|lia].
  - destruct (IH _ _ _ H) as (n & A & B & C). exists n. split; [|split; [exact B|lia]].
    replace (N.to_nat (j - i)) with (Datatypes.S (N.to_nat (j - (i + 1)))) by lia. exact A.
Qed.
Lemma norm_table : forall k n, nth_error (tl norm) k = Some n -> In (n, N.shiftl (N.of_nat k + 1) 20) (level_names ++ stream_names).
Proof.
  intros k n H. do 7 (destruct k as [|k]; [injection H as <-; vm_compute; tauto|]). cbn [tl norm map nth_error] in H.
  destruct k; discriminate H.
Qed.
Lemma dbg_table : forall k n, nth_error dbg k = Some n -> In (n, N.shiftl (N.of_nat k) 16) stream_names.
Proof.
  intros k n H. do 16 (destruct k as [|k]; [injection H as <-; vm_compute; tauto|]). cbn [dbg map nth_error] in H.
  destruct k; discriminate H.
Qed.
Lemma find_sound : forall s v, find_name s = Some v -> exists n, In (n, v) (level_names ++ stream_names) /\ alike s n.
Proof.
  intros s v H. unfold find_name in H. destruct (5 <? length s)%nat; [discriminate H|].
  destruct (same_text s (bstr "ERR")) eqn:E1.
  - injection H as <-. exists (bstr "ERR"). split; [vm_compute; tauto|apply same_alike; exact E1].
  - destruct (same_text s (bstr "DEBUG")) eqn:E2.
    + injection H as <-. exists (bstr "DEBUG"). split; [vm_compute; tauto|apply same_alike; exact E2].
    + destruct (index_of s (tl norm) 1) as [i|] eqn:I1.
      * injection H as <-. destruct (index_found _ _ _ _ I1) as (n & A & B & C). exists n. split; [|exact B].
        apply norm_table in A. replace (N.of_nat (N.to_nat (i - 1)) + 1) with i in A by lia. exact A.
      * destruct (index_of s dbg 0) as [i|] eqn:I2; [|discriminate H]. injection H as <-.
        destruct (index_found _ _ _ _ I2) as (n & A & B & C). exists n. split; [|exact B]. apply in_or_app. right.
        apply dbg_table in A. replace (N.of_nat (N.to_nat (i - 0))) with i in A by lia. exact A.
Qed.

(* a name with an upper case D: the dashes *)
Definition dashed (s : bytes) : bytes := match s with "D"%char :: _ => s ++ repeat "-"%char (4 - length s) | _ => s end.
Lemma dashed_other : forall s, (forall r, s <> "D"%char :: r) -> dashed s = s.
Proof.
  intros [|c s] H; [reflexivity|]. unfold dashed. destruct (Ascii.eqb c "D"%char) eqn:E.
  - apply Ascii.eqb_eq in E. subst c. exfalso. apply (H s). reflexivity.
  - destruct c as [[] [] [] [] [] [] [] []]; try reflexivity. discriminate E.
Qed.
Lemma dashed_D : forall r, dashed ("D"%char :: r) = ("D"%char :: r) ++ repeat "-"%char (4 - length ("D"%char :: r)).
Proof. reflexivity. Qed.
Lemma D_or : forall s : bytes, (exists r, s = "D"%char :: r) \/ (forall r, s <> "D"%char :: r).
Proof.
  intros [|c r]; [right; intros r K; discriminate K|]. destruct (Ascii.eqb c "D"%char) eqn:E.
  - apply Ascii.eqb_eq in E. subst c. left. exists r. reflexivity.
  - right. intros r' K. injection K as -> _. discriminate E.
Qed.
Lemma str2pri_find : forall s, str2pri s = find_name (dashed s).
Proof.
  intros s.
  assert (B : str2pri s = if (5 <? length s)%nat then None else if same_text s (bstr "ERR") then Some ERR else if same_text s (bstr "DEBUG") then Some DBG
    else match index_of (dashed s) (tl norm) 1 with Some i => Some (N.shiftl i 20) | None => option_map (fun i => N.shiftl i 16) (index_of (dashed s) dbg 0) end) by reflexivity.
  rewrite B. clear B. unfold find_name.
  destruct (D_or s) as [D|D].
  - assert (Ed : dashed s = s ++ repeat "-"%char (4 - length s)) by (destruct D as (r & ->); reflexivity).
    assert (Er : same_text s (bstr "ERR") = false).
    { destruct D as (r & ->). apply same_text_false. intros K. unfold alike in K. cbn [map] in K. apply (f_equal (hd "000"%char)) in K. vm_compute in K. discriminate K. }
    rewrite Ed. destruct (Nat.lt_ge_cases (length s) 4) as [L|L].
    + rewrite app_length, repeat_length. replace (5 <? length s)%nat with false by (symmetry; apply Nat.ltb_ge; lia).
      replace (5 <? length s + (4 - length s))%nat with false by (symmetry; apply Nat.ltb_ge; lia).
      assert (F : forall (t u : bytes), length t <> length u -> same_text t u = false).
      { intros t u Hl. apply same_text_false. intros K. apply Hl. exact (alike_length _ _ K). }
      rewrite Er. rewrite (F s (bstr "DEBUG")) by (change (length (bstr "DEBUG")) with 5%nat; lia).
      rewrite (F _ (bstr "ERR")) by (rewrite app_length, repeat_length; change (length (bstr "ERR")) with 3%nat; lia).
      rewrite (F _ (bstr "DEBUG")) by (rewrite app_length, repeat_length; change (length (bstr "DEBUG")) with 5%nat; lia). reflexivity.
    + replace (4 - length s)%nat with 0%nat by lia. cbn [repeat]. rewrite app_nil_r. reflexivity.
  - rewrite (dashed_other s D). reflexivity.
Qed.
Lemma dashed_s : forall s r : bytes, s = "D"%char :: r -> dashed s = s ++ repeat "-"%char (4 - length s).
Proof. intros s r ->. reflexivity. Qed.
Lemma d_stream : forall n v s t r, s = "D"%char :: r -> In (n, v) (level_names ++ stream_names) -> alike (s ++ t) n -> In (n, v) stream_names.
Proof.
  intros n v s t r -> H A. apply in_app_or in H. destruct H as [H|H]; [exfalso|exact H].
  unfold alike in A. cbn [map app] in A. apply (f_equal (hd "000"%char)) in A. cbn [hd] in A.
  pose proof (in_table (fun x => negb (Ascii.eqb (hd "000"%char (map small (fst x))) (small "D"%char))) level_names eq_refl _ H) as Y.
  cbn [fst] in Y. rewrite <- A, Ascii.eqb_refl in Y. discriminate Y.
Qed.
Lemma pri_name : forall s v, str2pri s = Some v <-> stands_for s v.
Proof.
  intros s v. rewrite str2pri_find. unfold stands_for. pose proof (D_or s) as D. split.
  - intros H. apply find_sound in H. destruct H as (n & I & A). destruct D as [(r & Es)|D].
    + rewrite (dashed_s _ _ Es) in A. pose proof (d_stream _ _ _ _ _ Es I A) as I'. destruct (Nat.lt_ge_cases (length s) 4) as [L|L].
      * right. exists n, r, (4 - length s)%nat. split; [exact I'|]. split; [exact Es|]. split; [lia|exact A].
      * left. exists n. split; [exact I|]. replace (4 - length s)%nat with 0%nat in A by lia. cbn [repeat] in A.
        rewrite app_nil_r in A. exact A.
    + rewrite (dashed_other s D) in A. left. exists n. split; assumption.
  - intros [(n & I & A)|(n & r & k & I & Es & L & A)].
    + destruct D as [(r & Es)|D].
      * rewrite (dashed_s _ _ Es). assert (A' : alike (s ++ []) n) by (rewrite app_nil_r; exact A). destruct (Nat.lt_ge_cases (length s) 4) as [L|L].
        -- exfalso. pose proof (d_stream _ _ _ _ _ Es I A') as I'. pose proof (alike_length _ _ A) as EL. rewrite EL in L.
           pose proof (in_table (fun x => (4 <=? length (fst x))%nat) stream_names eq_refl _ I') as Y. cbn [fst] in Y. apply Nat.leb_le in Y. lia.
        -- replace (4 - length s)%nat with 0%nat by lia. cbn [repeat]. rewrite app_nil_r.
           rewrite (find_alike _ _ A). apply find_table. exact I.
      * rewrite (dashed_other s D), (find_alike _ _ A). apply find_table. exact I.
    + rewrite (dashed_s _ _ Es). replace (4 - length s)%nat with k by lia. rewrite (find_alike _ _ A). apply find_table.
      apply in_or_app. right. exact I.
Qed.

(* masks and their names *)
Lemma a_mask_in : forall p, a_mask p -> In p (map (fun l => N.of_nat l * 1048576) (seq 1 7) ++ map (fun s => N.of_nat s * 65536) (seq 0 16)).
Proof.
  intros p [(l & L & ->)|(s & L & ->)]; apply in_or_app; [left|right].
  - apply in_map_iff. exists (N.to_nat l). rewrite N2Nat.id. split; [reflexivity|]. apply in_seq. lia.
  - apply in_map_iff. exists (N.to_nat s). rewrite N2Nat.id. split; [reflexivity|]. apply in_seq. lia.
Qed.
Lemma pri_round : forall p, a_mask p -> str2pri (pristr p) = Some p /\ str2pri (short (pristr p)) = Some p.
Proof.
  intros p H. apply a_mask_in in H.
  pose proof (in_table (fun p => match str2pri (pristr p), str2pri (short (pristr p)) with Some a, Some b => (a =? p) && (b =? p) | _, _ => false end)
    (map (fun l => N.of_nat l * 1048576) (seq 1 7) ++ map (fun s => N.of_nat s * 65536) (seq 0 16)) eq_refl _ H) as Y.
  cbv beta in Y. destruct (str2pri (pristr p)) as [a|]; [|discriminate Y]. destruct (str2pri (short (pristr p))) as [b|]; [|discriminate Y].
  apply andb_true_iff in Y. destruct Y as (Y & Z). apply N.eqb_eq in Y, Z. subst a b. split; reflexivity.
Qed.
Lemma a_mask_pri : forall p, a_mask p -> N.land p PRIMASK = p.
Proof.
  intros p H. rewrite pri_parts. unfold level, streams. destruct H as [(l & L & ->)|(s & L & ->)].
  - rewrite N.div_mul by lia. replace (l * 1048576) with ((l * 16) * 65536) by lia. rewrite N.div_mul, N.mod_mul by lia.
    rewrite N.mod_small by lia. lia.
  - rewrite N.div_mul by lia. rewrite (N.div_small (s * 65536) 1048576) by lia. rewrite (N.mod_small s 16) by lia. rewrite N.mod_small by lia. lia.
Qed.
Lemma stands_mask : forall s v, stands_for s v -> a_mask v.
Proof.
  assert (A : forall n v, In (n, v) stream_names -> a_mask v).
  { intros n v I. right. exists (v / 65536).
    pose proof (in_table (fun x => (snd x / 65536 <? 16) && (snd x =? snd x / 65536 * 65536)) stream_names eq_refl _ I) as Y. cbn [snd] in Y. apply andb_true_iff in Y. destruct Y as (Y & Z).
    apply N.ltb_lt in Y. apply N.eqb_eq in Z. split; assumption. }
  intros s v [(n & I & _)|(n & r & k & I & _)]; [|exact (A _ _ I)].
  apply in_app_or in I. destruct I as [I|I]; [|exact (A _ _ I)].
  left. exists (v / 1048576).
  pose proof (in_table (fun x => (1 <=? snd x / 1048576) && (snd x / 1048576 <=? 7) && (snd x =? snd x / 1048576 * 1048576)) level_names eq_refl _ I) as Y. cbn [snd] in Y. apply andb_true_iff in Y. destruct Y as (Y & Z).
  apply andb_true_iff in Y. destruct Y as (Y & W). apply N.leb_le in Y, W. apply N.eqb_eq in Z. repeat split; assumption.
Qed.
