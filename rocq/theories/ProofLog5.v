(* A message buffer found in memory *)
From Verif Require SpecOptions.
From Verif Require Import ModelBytes ModelLog SpecLog ProofBytes ProofStore ProofLog.

Lemma word4_length : forall big x, length (word4 big x) = 4%nat.
Proof. intros [] x; unfold word4; [rewrite rev_length|]; apply le_enc_length. Qed.
Lemma at_word : forall (a w c : bytes) p, length a = p -> length w = 4%nat -> firstn 4 (skipn p (a ++ w ++ c)) = w.
Proof.
  intros a w c p H K. rewrite skipn_app, skipn_all2 by lia. replace (p - length a)%nat with 0%nat by lia. cbn [skipn app].
  rewrite firstn_app, firstn_all2 by lia. replace (4 - length w)%nat with 0%nat by lia. cbn [firstn]. apply app_nil_r.
Qed.
Lemma word_read : forall (big : bool) x (a c : bytes) p, length a = p -> (x < 4294967296)%N ->
  (if big then swapped else word) (a ++ word4 big x ++ c) p = x.
Proof.
  intros big x a c p H K. destruct big; unfold swapped, word; rewrite at_word by (try exact H; apply word4_length); unfold word4; try rewrite rev_involutive;
    apply (le_dec_enc 4); exact K.
Qed.
Lemma is_big : forall (big : bool) (a c : bytes) p, length a = p -> (swapped (a ++ word4 big BEEF ++ c) p =? BEEF)%N = big.
Proof.
  intros big a c p H. unfold swapped. rewrite at_word by (try exact H; apply word4_length). destruct big; vm_compute; reflexivity.
Qed.

Lemma found_here : forall n t m (big : bool) (bef aft : bytes), holds n t m -> (N.of_nat n < 4294967296)%N ->
  let b := bef ++ mb_head big m ++ mb_data m ++ aft in
  exists x, found_at b (length bef) = Some x /\ inside b x /\ seen_at b x = lastn n t.
Proof.
  intros n t m big bef aft H Hn b. pose proof (rot_text _ _ _ H) as T. destruct H as (Hl & Hw & Hr & Hc). unfold found_at.
  assert (S0 : starts_with MBH_START (skipn (length bef) b) = true).
  { unfold b. rewrite skipn_app, skipn_all, Nat.sub_diag. cbn [skipn app]. apply starts_with_app. unfold mb_head.
    eexists. rewrite <- !app_assoc. reflexivity. }
  rewrite S0.
  set (p := length bef).
  pose (wb := word4 big BEEF). pose (wl := word4 big (N.of_nat n)). pose (wc := word4 big (N.of_nat (mb_cnt m))). pose (ww := word4 big (N.of_nat (mb_wp m))).
  assert (Eb : b = bef ++ MBH_START ++ wb ++ wl ++ wc ++ ww ++ mb_data m ++ aft).
  { unfold b, mb_head. rewrite Hl. fold wb wl wc ww. rewrite <- !app_assoc. reflexivity. }
  assert (L8 : length MBH_START = 8%nat) by reflexivity.
  assert (Lb : length wb = 4%nat) by apply word4_length. assert (Ll : length wl = 4%nat) by apply word4_length.
  assert (Lc : length wc = 4%nat) by apply word4_length. assert (Lw : length ww = 4%nat) by apply word4_length.
  assert (B8 : (swapped b (p + 8) =? BEEF)%N = big).
  { rewrite Eb. rewrite (app_assoc bef). apply is_big. rewrite app_length. unfold p. lia. }
  rewrite B8.
  assert (R : forall q, (if big then swapped b else word b) q = (if big then swapped else word) b q) by (intros q; destruct big; reflexivity).
  assert (R12 : (if big then swapped b else word b) (p + 12)%nat = N.of_nat n).
  { rewrite R, Eb. rewrite (app_assoc bef), (app_assoc _ wb). apply word_read; [rewrite !app_length; unfold p; lia|exact Hn]. }
  assert (R16 : (if big then swapped b else word b) (p + 16)%nat = N.of_nat (mb_cnt m)).
  { rewrite R, Eb. rewrite (app_assoc bef), (app_assoc _ wb), (app_assoc _ wl). apply word_read; [rewrite !app_length; unfold p; lia|lia]. }
  assert (R20 : (if big then swapped b else word b) (p + 20)%nat = N.of_nat (mb_wp m)).
  { rewrite R, Eb. rewrite (app_assoc bef), (app_assoc _ wb), (app_assoc _ wl), (app_assoc _ wc). apply word_read; [rewrite !app_length; unfold p; lia|lia]. }
  cbv beta zeta. rewrite R12, R16, R20.
  assert (Cn : (mb_cnt m <= n)%nat) by lia.
  replace (N.of_nat n <? N.of_nat (mb_cnt m))%N with false by (symmetry; apply N.ltb_ge; lia).
  replace (N.of_nat n <? N.of_nat (mb_wp m))%N with false by (symmetry; apply N.ltb_ge; lia).
  assert (Bl : length b = (p + 24 + n + length aft)%nat).
  { rewrite Eb, !app_length, Hl. unfold p. lia. }
  assert (BL : blen b = N.of_nat (p + 24 + n + length aft)) by (unfold blen; rewrite <- Bl; reflexivity).
  rewrite BL. replace (N.of_nat (p + 24 + n + length aft) <? N.of_nat p + N.of_nat n)%N with false by (symmetry; apply N.ltb_ge; lia).
  assert (At : forall k j, (k + j <= n)%nat -> firstn j (skipn (p + 24 + k) b) = firstn j (skipn k (mb_data m))).
  { intros k j K.
    assert (Eh : b = (bef ++ mb_head big m) ++ mb_data m ++ aft) by (unfold b; rewrite <- app_assoc; reflexivity).
    assert (Lh : length (bef ++ mb_head big m) = (p + 24)%nat).
    { rewrite app_length. unfold mb_head. rewrite !app_length, !word4_length. unfold p. rewrite L8. lia. }
    rewrite Eh, skipn_app, skipn_all2 by lia. rewrite Lh. replace (p + 24 + k - (p + 24))%nat with k by lia. cbn [app].
    rewrite skipn_app, firstn_app, skipn_length, Hl. replace (j - (n - k))%nat with 0%nat by lia. cbn [firstn]. apply app_nil_r. }
  rewrite <- T. unfold rot.
  destruct (N.ltb_spec (N.of_nat n - N.of_nat (mb_wp m)) (N.of_nat n - N.of_nat (mb_cnt m))) as [K|K].
  - eexists. split; [reflexivity|]. split; [unfold inside; rewrite BL; lia|]. unfold seen_at.
    set (sk := (n - mb_cnt m - (n - mb_wp m))%nat).
    replace (N.to_nat (N.of_nat p + 24 + (N.of_nat n - N.of_nat (mb_cnt m) - (N.of_nat n - N.of_nat (mb_wp m)))))%N with (p + 24 + sk)%nat by (unfold sk; lia).
    replace (N.to_nat (N.of_nat (mb_wp m) - (N.of_nat n - N.of_nat (mb_cnt m) - (N.of_nat n - N.of_nat (mb_wp m)))))%N with (mb_wp m - sk)%nat by (unfold sk; lia).
    rewrite At by (unfold sk; lia). cbn [N.to_nat firstn]. rewrite app_nil_r.
    rewrite skipn_app, (skipn_all2 (skipn (mb_wp m) (mb_data m))) by (rewrite skipn_length; lia). cbn [app]. rewrite skipn_length, Hl.
    fold sk. rewrite skipn_firstn_comm. reflexivity.
  - eexists. split; [reflexivity|]. split; [unfold inside; rewrite BL; lia|]. unfold seen_at.
    replace (N.to_nat (N.of_nat p + 24 + N.of_nat (mb_wp m) + (N.of_nat n - N.of_nat (mb_cnt m))))%N with (p + 24 + (mb_wp m + (n - mb_cnt m)))%nat by lia.
    replace (N.to_nat (N.of_nat n - N.of_nat (mb_wp m) - (N.of_nat n - N.of_nat (mb_cnt m))))%N with (n - mb_wp m - (n - mb_cnt m))%nat by lia.
    replace (N.to_nat (N.of_nat p + 24))%N with (p + 24 + 0)%nat by lia.
    rewrite !At by lia. rewrite Nat2N.id. cbn [skipn].
    rewrite skipn_app, skipn_length, Hl. replace (n - mb_cnt m - (n - mb_wp m))%nat with 0%nat by lia. cbn [skipn]. f_equal.
    rewrite skipn_skipn. rewrite (Nat.add_comm (n - mb_cnt m)). apply firstn_all2. rewrite skipn_length. lia.
Qed.

Lemma find_up_to : forall b x k fuel i, (k < fuel)%nat -> (4 * (k + i) + 24 < length b)%nat ->
  (forall j, (i <= j < k + i)%nat -> starts_with MBH_START (skipn (4 * j) b) = false) -> found_at b (4 * (k + i)) = Some x ->
  find_from fuel b (4 * i) = Some x.
Proof.
  intros b x k. induction k as [|k IH]; intros fuel i Hf Hb N F.
  - destruct fuel as [|fuel]; [lia|]. cbn [find_from Nat.add] in *. replace (4 * i + 24 <? length b)%nat with true by (symmetry; apply Nat.ltb_lt; lia).
    rewrite F. reflexivity.
  - destruct fuel as [|fuel]; [lia|]. cbn [find_from]. replace (4 * i + 24 <? length b)%nat with true by (symmetry; apply Nat.ltb_lt; lia).
    assert (E : found_at b (4 * i) = None) by (unfold found_at; rewrite (N i) by lia; reflexivity). rewrite E.
    replace (4 * i + 4)%nat with (4 * Datatypes.S i)%nat by lia. apply IH.
    + lia.
    + lia.
    + intros j J. apply N. lia.
    + replace (k + Datatypes.S i)%nat with (Datatypes.S k + i)%nat by lia. exact F.
Qed.
Lemma found : forall n t m (big : bool) (bef aft : bytes) k, holds n t m -> (N.of_nat n < 4294967296)%N -> length bef = (4 * k)%nat ->
  let b := bef ++ mb_head big m ++ mb_data m ++ aft in
  (forall j, (j < k)%nat -> starts_with MBH_START (skipn (4 * j) b) = false) ->
  exists x, find_mbuf b = Some x /\ inside b x /\ seen_at b x = lastn n t.
Proof.
  intros n t m big bef aft k H Hn L b N. destruct (found_here n t m big bef aft H Hn) as (x & F & I & E). exists x. split; [|split; assumption].
  unfold find_mbuf. fold b in F. rewrite L in F.
  assert (Lb : (4 * k + 24 < length b)%nat).
  { unfold b. rewrite !app_length, L. unfold mb_head. rewrite !app_length, !word4_length. change (length MBH_START) with 8%nat.
    destruct H as (Hl & Hw & _). lia. }
  apply (find_up_to b x k (length b) 0); try lia; rewrite Nat.add_0_r.
  - intros j J. apply N. lia.
  - exact F.
Qed.

(* ---- the number of a facility without a name ---- *)
Lemma dec_number fuel : forall n, (n < 10 ^ fuel)%nat -> (0 < fuel)%nat -> SpecOptions.number (dec_digits fuel n) (N.of_nat n).
Proof.
  induction fuel as [|f IH]; intros n H P; [lia|]. cbn [dec_digits]. assert (n mod 10 < 10)%nat as M by (apply Nat.mod_upper_bound; lia).
  destruct (Nat.ltb_spec n 10) as [L|L].
  - exists [N.of_nat (n mod 10)]. split; [discriminate|]. split; [constructor; [lia|constructor]|]. split.
    + cbn [app map]. unfold ascii_of_nat. do 2 f_equal. lia.
    + cbn [fold_left]. rewrite Nat.mod_small by exact L. lia.
  - assert (0 < f)%nat as Pf by (destruct f; [cbn in H; lia|lia]).
    destruct (IH (n / 10)%nat) as [ds [NE [F [E V]]]]; [apply Nat.div_lt_upper_bound; [lia|]; cbn [Nat.pow] in H; lia|exact Pf|].
    exists (ds ++ [N.of_nat (n mod 10)]). split; [intro X; apply app_eq_nil in X; destruct X; discriminate|].
    split; [apply Forall_app; split; [exact F|constructor; [lia|constructor]]|]. split.
    + rewrite E, map_app. cbn [map]. unfold ascii_of_nat. do 3 f_equal. lia.
    + rewrite fold_left_app, <- V. cbn [fold_left]. pose proof (Nat.div_mod n 10 ltac:(lia)). lia.
Qed.
Lemma unnamed_number i f : f_lname f = None -> f_aname f = None -> SpecOptions.number (fac_name i f) (N.of_nat i).
Proof.
  intros L A. unfold fac_name. rewrite L, A. apply dec_number; [|lia]. assert (forall k, (k < 10 ^ S k)%nat) as P; [|apply P].
  induction k as [|k IHk]; [cbn; lia|]. rewrite Nat.pow_succ_r'. lia.
Qed.
