From Verif Require Import ModelBytes ModelLog SpecLog ProofBytes ProofStore.

Lemma skipn_skipn : forall (k j : nat) (t : bytes), skipn k (skipn j t) = skipn (k + j) t.
Proof.
  intros k j. induction j as [|j IH]; intros t.
  - rewrite Nat.add_0_r. reflexivity.
  - destruct t as [|c t]; [rewrite !skipn_nil; reflexivity|]. rewrite Nat.add_succ_r. cbn [skipn]. apply IH.
Qed.
Lemma lastn_all : forall n t, (length t <= n)%nat -> lastn n t = t.
Proof. intros n t H. unfold lastn. replace (length t - n)%nat with 0%nat by lia. reflexivity. Qed.
Lemma lastn_length : forall n t, length (lastn n t) = Nat.min n (length t).
Proof. intros n t. unfold lastn. rewrite skipn_length. lia. Qed.
Lemma lastn_app_long : forall n a b, (n <= length b)%nat -> lastn n (a ++ b) = lastn n b.
Proof.
  intros n a b H. unfold lastn. rewrite app_length, skipn_app, skipn_all2 by lia. cbn [app]. f_equal. lia.
Qed.
Lemma lastn_app_short : forall n a b, (length b <= n)%nat -> lastn n (a ++ b) = lastn (n - length b) a ++ b.
Proof.
  intros n a b H. unfold lastn. rewrite app_length, skipn_app.
  replace (length a + length b - n - length a)%nat with 0%nat by lia.
  replace (length a + length b - n)%nat with (length a - (n - length b))%nat by lia. reflexivity.
Qed.
Lemma lastn_lastn : forall n k t, (k <= n)%nat -> lastn k (lastn n t) = lastn k t.
Proof.
  intros n k t H. unfold lastn. rewrite skipn_skipn, skipn_length. f_equal. lia.
Qed.
Lemma lastn_lastn_app : forall n a b, lastn n (lastn n a ++ b) = lastn n (a ++ b).
Proof.
  intros n a b. destruct (Nat.le_gt_cases n (length b)) as [H|H].
  - rewrite !lastn_app_long by assumption. reflexivity.
  - rewrite !lastn_app_short by lia. rewrite lastn_lastn by lia. reflexivity.
Qed.

Definition rot (m : mbuf) : bytes := skipn (mb_wp m) (mb_data m) ++ firstn (mb_wp m) (mb_data m).
Lemma rot_length : forall m, length (rot m) = length (mb_data m).
Proof. intros m. unfold rot. rewrite app_length, skipn_length, firstn_length. lia. Qed.

Definition holds (n : nat) (t : bytes) (m : mbuf) : Prop :=
  length (mb_data m) = n /\ (mb_wp m < n)%nat /\ rot m = lastn n (repeat "000"%char n ++ t) /\ mb_cnt m = Nat.min n (length t).

Lemma holds_open : forall n, (0 < n)%nat -> holds n [] (mb_open n).
Proof.
  intros n H. unfold holds, mb_open, rot. cbn [mb_data mb_wp mb_cnt skipn firstn length]. rewrite repeat_length, !app_nil_r.
  repeat apply conj; try lia. rewrite lastn_all by (rewrite repeat_length; lia). reflexivity.
Qed.

Lemma copy_in_at : forall d a b c x, d = a ++ b ++ c -> length x = length b -> copy_in d (length a) x = Ok (a ++ x ++ c).
Proof.
  intros d a b c x -> H. unfold copy_in. rewrite !app_length.
  replace (length a + (length b + length c) <? length a + length x)%nat with false by (symmetry; apply Nat.ltb_ge; lia).
  rewrite firstn_app, firstn_all, Nat.sub_diag, skipn_app, skipn_all2 by lia. cbn [firstn app]. rewrite app_nil_r.
  replace (length a + length x - length a)%nat with (length x) by lia. rewrite skipn_app, skipn_all2 by lia.
  replace (length x - length b)%nat with 0%nat by lia. reflexivity.
Qed.

(* writing at most n bytes *)
Lemma write_ring : forall d wp bp, (wp < length d)%nat -> (length bp <= length d)%nat ->
  let ncpy := if (length d - wp <? length bp)%nat then (length d - wp)%nat else length bp in
  exists d2, (do d1 <- copy_in d wp (firstn ncpy bp); match skipn ncpy bp with [] => Ok d1 | r => copy_in d1 0 r end) = Ok d2 /\
    length d2 = length d /\
    let wp' := if (length d <=? wp + length bp)%nat then (wp + length bp - length d)%nat else (wp + length bp)%nat in
    (wp' < length d)%nat /\
    skipn wp' d2 ++ firstn wp' d2 = skipn (length bp) (skipn wp d ++ firstn wp d) ++ bp.
Proof.
  intros d wp bp Hw Hb ncpy.
  pose (D1 := firstn wp d). pose (D2 := skipn wp d).
  assert (Ed : d = D1 ++ D2) by (symmetry; apply firstn_skipn).
  assert (L1 : length D1 = wp) by (unfold D1; rewrite firstn_length; lia).
  assert (L2 : length D2 = (length d - wp)%nat) by (unfold D2; rewrite skipn_length; lia).
  destruct (Nat.ltb_spec (length d - wp) (length bp)) as [H|H].
  - (* wraps around *)
    unfold ncpy. pose (b1 := firstn (length d - wp) bp). pose (b2 := skipn (length d - wp) bp).
    assert (Eb : bp = b1 ++ b2) by (symmetry; apply firstn_skipn).
    assert (M1 : length b1 = (length d - wp)%nat) by (unfold b1; rewrite firstn_length; lia).
    assert (M2 : length b2 = (wp + length bp - length d)%nat) by (unfold b2; rewrite skipn_length; lia).
    pose (D11 := firstn (length b2) D1). pose (D12 := skipn (length b2) D1).
    assert (ED : D1 = D11 ++ D12) by (symmetry; apply firstn_skipn).
    assert (N1 : length D11 = length b2) by (unfold D11; rewrite firstn_length; lia).
    fold b1 b2.
    assert (C1 : copy_in d wp b1 = Ok (D1 ++ b1 ++ [])).
    { rewrite <- L1. apply (copy_in_at d D1 D2 []); [rewrite app_nil_r; exact Ed|lia]. }
    rewrite C1. cbn [obind]. rewrite app_nil_r.
    assert (C2 : copy_in (D1 ++ b1) 0 b2 = Ok ([] ++ b2 ++ D12 ++ b1)).
    { apply (copy_in_at (D1 ++ b1) [] D11 (D12 ++ b1)); [cbn [app]; rewrite ED, app_assoc; reflexivity|lia]. }
    exists (b2 ++ D12 ++ b1). split.
    { destruct b2 as [|x b2'] eqn:Z; [cbn [length] in M2; lia|]. rewrite C2. reflexivity. }
    assert (LD : length D12 = (wp - length b2)%nat) by (unfold D12; rewrite skipn_length; lia).
    split; [rewrite !app_length; lia|].
    replace (length d <=? wp + length bp)%nat with true by (symmetry; apply Nat.leb_le; lia).
    cbn zeta. rewrite <- M2. split; [lia|].
    rewrite skipn_app, skipn_all2, Nat.sub_diag, firstn_app, firstn_all, Nat.sub_diag by lia. cbn [app skipn firstn]. rewrite app_nil_r.
    fold D1 D2. rewrite skipn_app, (skipn_all2 D2) by lia. cbn [app]. rewrite L2.
    replace (length bp - (length d - wp))%nat with (length b2) by lia. fold D12. rewrite Eb at 1. rewrite <- app_assoc. reflexivity.
  - unfold ncpy. rewrite firstn_all, skipn_all. pose (D21 := firstn (length bp) D2). pose (D22 := skipn (length bp) D2).
    assert (ED : D2 = D21 ++ D22) by (symmetry; apply firstn_skipn).
    assert (N1 : length D21 = length bp) by (unfold D21; rewrite firstn_length; lia).
    assert (N2 : length D22 = (length d - wp - length bp)%nat) by (unfold D22; rewrite skipn_length; lia).
    assert (C1 : copy_in d wp bp = Ok (D1 ++ bp ++ D22)).
    { rewrite <- L1. apply (copy_in_at d D1 D21 D22); [rewrite <- ED; exact Ed|lia]. }
    exists (D1 ++ bp ++ D22). rewrite C1. cbn [obind]. split; [reflexivity|]. split; [rewrite !app_length; lia|].
    cbn zeta. fold D1 D2. rewrite (skipn_app (length bp) D2 D1). fold D22. replace (length bp - length D2)%nat with 0%nat by lia. change (skipn 0 D1) with D1.
    destruct (Nat.leb_spec (length d) (wp + length bp)) as [K|K].
    + replace (wp + length bp - length d)%nat with 0%nat by lia. split; [lia|]. cbn [skipn firstn]. rewrite app_nil_r.
      destruct D22; [|cbn [length] in N2; lia]. rewrite app_nil_r. cbn [app]. reflexivity.
    + split; [lia|]. rewrite !app_assoc, skipn_app, skipn_all2, firstn_app, firstn_all2 by (rewrite app_length; lia).
      rewrite app_length. replace (wp + length bp - (length D1 + length bp))%nat with 0%nat by lia. cbn [skipn firstn app].
      rewrite app_nil_r. rewrite <- app_assoc. reflexivity.
Qed.

Lemma put_holds : forall n t m b, (0 < n)%nat -> holds n t m -> exists m', mb_put m b = Ok m' /\ holds n (t ++ b) m'.
Proof.
  intros n t m b Hn (Hl & Hw & Hr & Hc). unfold mb_put. rewrite Hl.
  pose (bp := lastn n b).
  assert (Eb : (if (n <? length b)%nat then skipn (length b - n) b else b) = bp).
  { unfold bp, lastn. destruct (Nat.ltb_spec n (length b)); [reflexivity|]. replace (length b - n)%nat with 0%nat by lia. reflexivity. }
  assert (Lb : length bp = Nat.min n (length b)) by apply lastn_length.
  rewrite Eb. cbn zeta.
  destruct (write_ring (mb_data m) (mb_wp m) bp) as (d2 & E & L & W & R); [lia|lia|]. rewrite Hl in *. cbn zeta in W, R.
  destruct (copy_in (mb_data m) (mb_wp m) _) as [d1| |] eqn:E1; cbn [obind] in E; try discriminate E. cbn [obind]. rewrite E. cbn [obind].
  eexists. split; [reflexivity|]. unfold holds, rot. cbn [mb_data mb_wp mb_cnt].
  assert (Ew : (if (length b <? n)%nat then if (n <=? mb_wp m + length b)%nat then (mb_wp m + length b - n)%nat else (mb_wp m + length b)%nat else mb_wp m)
               = (if (n <=? mb_wp m + length bp)%nat then (mb_wp m + length bp - n)%nat else (mb_wp m + length bp)%nat)).
  { destruct (Nat.ltb_spec (length b) n) as [K|K].
    - rewrite Lb, Nat.min_r by lia. reflexivity.
    - rewrite Lb, Nat.min_l by lia. replace (n <=? mb_wp m + n)%nat with true by (symmetry; apply Nat.leb_le; lia). lia. }
  rewrite Ew. split; [lia|]. split; [exact W|]. split.
  - rewrite R. fold (rot m). rewrite Hr. rewrite <- (lastn_lastn_app n (repeat _ n ++ t) b) || idtac.
    rewrite app_assoc. rewrite <- (lastn_lastn_app n (repeat _ n ++ t) b). rewrite <- Hr.
    destruct (Nat.le_gt_cases n (length b)) as [K|K].
    + rewrite lastn_app_long by exact K. rewrite skipn_all2 by (rewrite rot_length; lia). reflexivity.
    + rewrite lastn_app_short by lia. assert (Z : bp = b) by (unfold bp; apply lastn_all; lia). rewrite Z.
      assert (Y : lastn (n - length b) (rot m) = skipn (length b) (rot m)) by (unfold lastn; rewrite rot_length, Hl; f_equal; lia).
      rewrite Hr in Y. rewrite Hr. exact (f_equal (fun x : bytes => x ++ b) (eq_sym Y)).
  - rewrite app_length, Hc. destruct (Nat.ltb_spec (Nat.min n (length t)) n) as [K|K].
    + destruct (Nat.ltb_spec n (Nat.min n (length t) + length b)); lia.
    + lia.
Qed.

Lemma copy_out_at : forall d o n, (o + n <= length d)%nat -> copy_out d o n = Ok (firstn n (skipn o d)).
Proof. intros d o n H. unfold copy_out. replace (length d <? o + n)%nat with false by (symmetry; apply Nat.ltb_ge; lia). reflexivity. Qed.

Lemma rot_text : forall n t m, holds n t m -> skipn (n - mb_cnt m) (rot m) = lastn n t.
Proof.
  intros n t m (Hl & Hw & Hr & Hc). rewrite Hr, Hc. destruct (Nat.le_gt_cases n (length t)) as [K|K].
    - rewrite lastn_app_long by exact K. replace (n - Nat.min n (length t))%nat with 0%nat by lia. reflexivity.
    - rewrite lastn_app_short by lia. rewrite (lastn_all n t) by lia. rewrite skipn_app, skipn_all2 by (rewrite lastn_length, repeat_length; lia).
      rewrite lastn_length, repeat_length. replace (n - Nat.min n (length t) - Nat.min (n - length t) n)%nat with 0%nat by lia. reflexivity.
Qed.
(* the two pieces *)
Lemma pieces_are : forall n t m o1 l1 o2 l2, holds n t m -> pieces m = (o1, l1, o2, l2) ->
  (o1 + l1 <= n)%nat /\ (o2 + l2 <= n)%nat /\ (l1 + l2 = Nat.min n (length t))%nat /\
  firstn l1 (skipn o1 (mb_data m)) ++ firstn l2 (skipn o2 (mb_data m)) = lastn n t.
Proof.
  intros n t m o1 l1 o2 l2 (Hl & Hw & Hr & Hc) E.
  pose proof (rot_text n t m (conj Hl (conj Hw (conj Hr Hc)))) as T.
  rewrite <- T. unfold rot, pieces in *. rewrite Hl in E. cbn zeta in E.
  destruct (Nat.leb_spec (n - mb_wp m) (n - mb_cnt m)) as [K|K].
  - injection E as E1 E2 E3 E4. subst o1 l1 o2 l2. cbn [firstn]. rewrite app_nil_r. repeat apply conj; try lia.
    rewrite skipn_app, (skipn_all2 (skipn (mb_wp m) (mb_data m))) by (rewrite skipn_length; lia). cbn [app]. rewrite skipn_length, Hl.
    rewrite skipn_firstn_comm. reflexivity.
  - injection E as E1 E2 E3 E4. subst o1 l1 o2 l2. cbn [skipn]. repeat apply conj; try lia.
    rewrite skipn_app, skipn_length, Hl. replace (n - mb_cnt m - (n - mb_wp m))%nat with 0%nat by lia. cbn [skipn]. f_equal.
    rewrite skipn_skipn. rewrite (Nat.add_comm (n - mb_cnt m)). apply firstn_all2. rewrite skipn_length. lia.
Qed.

Lemma read_holds : forall n t m, holds n t m -> mb_read m = Ok (lastn n t) /\ mb_cnt m = length (lastn n t).
Proof.
  intros n t m H. unfold mb_read. destruct (pieces m) as [[[o1 l1] o2] l2] eqn:E.
  destruct (pieces_are _ _ _ _ _ _ _ H E) as (A & B & C & D). destruct H as (Hl & Hw & Hr & Hc).
  rewrite !copy_out_at by lia. cbn [obind]. rewrite D. split; [reflexivity|]. rewrite lastn_length. exact Hc.
Qed.

Lemma firstn_skipn_sub : forall (d : bytes) o l k j, (k + j <= l)%nat -> firstn j (skipn (o + k) d) = firstn j (skipn k (firstn l (skipn o d))).
Proof.
  intros d o l k j H. rewrite skipn_firstn_comm, firstn_firstn, skipn_skipn. rewrite (Nat.add_comm k o). f_equal. lia.
Qed.

Lemma before_parts : forall (a b : bytes) off len, (0 < len)%nat ->
  before off len (a ++ b) =
    let l2 := (length b - off)%nat in let l1 := (length a - (off - length b))%nat in
    let sk := (l1 + l2 - len)%nat in
    skipn sk (firstn l1 a) ++ skipn (sk - l1) (firstn l2 b).
Proof.
  intros a b off len Hl. unfold before, lastn. cbn zeta. rewrite app_length, firstn_app.
  replace (length a + length b - off - length a)%nat with (length b - off)%nat by lia.
  assert (E : firstn (length a + length b - off) a = firstn (length a - (off - length b)) a).
  { destruct (Nat.le_gt_cases off (length b)).
    - rewrite !firstn_all2 by lia. reflexivity.
    - f_equal. lia. }
  rewrite E, app_length, !firstn_length, skipn_app, firstn_length.
  replace (Nat.min (length a - (off - length b)) (length a)) with (length a - (off - length b))%nat by lia.
  replace (Nat.min (length b - off) (length b)) with (length b - off)%nat by lia. reflexivity.
Qed.

Lemma copy_holds : forall n t m off len, holds n t m ->
  mb_copy m off len = Ok (if (len <? 1)%Z then None else Some (before (Z.to_nat off) (Z.to_nat len) (lastn n t))).
Proof.
  intros n t m off len H. unfold mb_copy. destruct (Z.ltb_spec len 1) as [K|K]; [reflexivity|].
  destruct (pieces m) as [[[o1 l1] o2] l2] eqn:E. destruct (pieces_are _ _ _ _ _ _ _ H E) as (A & B & C & D).
  destruct H as (Hl & Hw & Hr & Hc). rewrite <- D. rewrite before_parts by lia.
  assert (L1 : length (firstn l1 (skipn o1 (mb_data m))) = l1) by (rewrite firstn_length, skipn_length; lia).
  assert (L2 : length (firstn l2 (skipn o2 (mb_data m))) = l2) by (rewrite firstn_length, skipn_length; lia).
  rewrite L1, L2. remember (Z.to_nat off) as f eqn:Ef. remember (Z.to_nat len) as k eqn:Ek. clear E D.
  cbn zeta. rewrite !firstn_firstn.
  assert (E1 : (if (0 <? f)%nat && (0 <? l2)%nat then if (l2 <? f)%nat then (0, f - l2)%nat else (l2 - f, 0)%nat else (l2, f)) = ((l2 - f)%nat, (f - l2)%nat)).
  { destruct (Nat.ltb_spec 0 f), (Nat.ltb_spec 0 l2); cbn [andb]; try (f_equal; lia). destruct (Nat.ltb_spec l2 f); f_equal; lia. }
  rewrite E1.
  assert (E2 : (if (0 <? f - l2)%nat && (0 <? l1)%nat then if (l1 <? f - l2)%nat then 0%nat else (l1 - (f - l2))%nat else l1) = (l1 - (f - l2))%nat).
  { destruct (Nat.ltb_spec 0 (f - l2)), (Nat.ltb_spec 0 l1); cbn [andb]; try lia. destruct (Nat.ltb_spec l1 (f - l2)); lia. }
  rewrite E2. clear E1 E2. set (l2' := (l2 - f)%nat). set (l1' := (l1 - (f - l2))%nat). set (sk := (l1' + l2' - k)%nat).
  set (want := if (Z.of_nat (l1' + l2') <? len)%Z then (l1' + l2')%nat else k).
  assert (E3 : (if (want <? l1' + l2')%nat then (l1' + l2' - want)%nat else 0%nat) = sk).
  { unfold want, sk. destruct (Z.ltb_spec (Z.of_nat (l1' + l2')) len).
    - rewrite Nat.ltb_irrefl. lia.
    - destruct (Nat.ltb_spec k (l1' + l2')); lia. }
  rewrite E3.
  assert (B1 : (l1' <= l1)%nat) by (unfold l1'; lia). assert (B2 : (l2' <= l2)%nat) by (unfold l2'; lia).
  rewrite (Nat.min_l l1') by lia. rewrite (Nat.min_l l2') by lia.
  assert (Hk : (0 < k)%nat) by lia.
  destruct (Nat.ltb_spec 0 sk) as [P|P].
  - destruct (Nat.ltb_spec l1' sk) as [Q|Q].
    + destruct (Nat.ltb_spec l2' (sk - l1')) as [R|R]; [unfold sk in R; lia|].
      rewrite !copy_out_at by lia. cbn [obind firstn app]. do 2 f_equal.
      rewrite skipn_firstn_comm. replace (l1' - sk)%nat with 0%nat by lia. cbn [firstn app].
      rewrite skipn_firstn_comm, skipn_skipn, (Nat.add_comm _ o2). reflexivity.
    + replace (l2' <? 0)%nat with false by (symmetry; apply Nat.ltb_ge; lia).
      rewrite !copy_out_at by lia. cbn [obind]. do 2 f_equal. replace (sk - l1')%nat with 0%nat by lia. cbn [skipn].
      rewrite Nat.add_0_r, Nat.sub_0_r, skipn_firstn_comm, skipn_skipn, (Nat.add_comm _ o1). reflexivity.
  - rewrite !copy_out_at by lia. cbn [obind]. replace sk with 0%nat by lia. cbn [Nat.sub skipn]. reflexivity.
Qed.

(* ---- lines ---- *)
Lemma chomp_end : forall (t : bytes), chomp (t ++ [NL]) = t.
Proof. intros t. unfold chomp. rewrite rev_app_distr. cbn [rev app]. rewrite rev_involutive. reflexivity. Qed.
Lemma chomp_other : forall (t : bytes) (c : byte), Ascii.eqb c NL = false -> chomp (t ++ [c]) = t ++ [c].
Proof. intros t c H. unfold chomp. rewrite rev_app_distr. cbn [rev app]. unfold newline, NL in *. rewrite H. reflexivity. Qed.

Lemma line_is : forall hdr m, hdr <> [] ->
  finish_line hdr m = Ok (if (4096 <=? length hdr + 1)%nat then None else Some (line (hdr ++ m))).
Proof.
  intros hdr m Hh. unfold finish_line, TBSIZ. destruct (Nat.leb_spec 4096 (length hdr + 1)) as [K|K]; [reflexivity|].
  destruct (@exists_last _ (hdr ++ m)) as (t & c & E); [destruct hdr; [contradiction|discriminate]|]. rewrite E. unfold line.
  cbn zeta. rewrite app_length. cbn [length]. replace (length t + 1)%nat with (Datatypes.S (length t)) by lia.
  assert (G : nth (length t) (t ++ [c]) NL = c) by (rewrite app_nth2, Nat.sub_diag by lia; reflexivity).
  destruct (Nat.leb_spec 4096 (Datatypes.S (length t))) as [P|P]; cbn [orb].
  - do 3 f_equal. rewrite firstn_app. replace (4096 - 2 - length t)%nat with 0%nat by lia. change (firstn 0 [c]) with (@nil byte). rewrite app_nil_r. change (4096 - 2)%nat with 4094%nat.
    destruct (Ascii.eqb c NL) eqn:C.
    + apply Ascii.eqb_eq in C. subst c. rewrite chomp_end. reflexivity.
    + rewrite chomp_other by exact C. rewrite firstn_app. assert (Z : forall j (x : bytes), j = 0%nat -> firstn j x = []) by (intros j x ->; reflexivity). rewrite (Z (4094 - _)%nat) by lia. rewrite app_nil_r. reflexivity.
  - change (4096 - 1)%nat with 4095%nat. change (4096 - 2)%nat with 4094%nat. destruct (Nat.eqb_spec (Datatypes.S (length t)) 4095) as [Q|Q]; cbn [andb].
    + assert (Lt : length t = 4094%nat) by lia. rewrite <- Lt, G. destruct (Ascii.eqb c NL) eqn:C; cbn [negb].
      * apply Ascii.eqb_eq in C. subst c. rewrite chomp_end, firstn_all. reflexivity.
      * rewrite chomp_other by exact C. rewrite firstn_app, firstn_all, Nat.sub_diag. cbn [firstn]. rewrite app_nil_r. reflexivity.
    + rewrite G. destruct (Ascii.eqb c NL) eqn:C.
      * apply Ascii.eqb_eq in C. subst c. rewrite chomp_end, firstn_all2 by lia. reflexivity.
      * rewrite chomp_other by exact C. rewrite firstn_all2 by (rewrite app_length; cbn [length]; lia). reflexivity.
Qed.
