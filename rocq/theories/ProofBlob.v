From Verif Require Import ModelBytes ModelBlob SpecBlob ProofBytes ProofStore.

(* ---- what a handle owns ---- *)
Definition own1 (h : option handle) : option nat :=
  match h with Some (mkHandle (PBlock b) _ true) => Some b | _ => None end.
Definition own (l : list (option handle)) (i : nat) : option nat :=
  match nth_error l i with Some h => own1 h | None => None end.
Lemma owns_own s i b : owns s i b <-> own (bs_handles s) i = Some b.
Proof.
  unfold owns, own. split.
  - intros (len & ->). reflexivity.
  - destruct (nth_error (bs_handles s) i) as [[[[|a|n] len c]|]|]; cbn [own1]; try discriminate.
    destruct c; [|discriminate]. intros [= ->]. exists len. reflexivity.
Qed.
Lemma nth_lset {A} (l : list A) i x j : (i < length l)%nat ->
  nth_error (lset l i x) j = if Nat.eqb j i then Some x else nth_error l j.
Proof.
  intros H. unfold lset. destruct (Nat.eqb_spec j i) as [->|Hne].
  - rewrite nth_error_app2 by (rewrite firstn_length; lia). rewrite firstn_length.
    replace (i - Nat.min i (length l))%nat with O by lia. reflexivity.
  - destruct (Nat.lt_ge_cases j i) as [L|L].
    + rewrite nth_error_app1 by (rewrite firstn_length; lia).
      rewrite <- (firstn_skipn i l) at 2. rewrite nth_error_app1 by (rewrite firstn_length; lia). reflexivity.
    + rewrite nth_error_app2 by (rewrite firstn_length; lia). rewrite firstn_length.
      replace (Nat.min i (length l)) with i by lia.
      destruct (j - i)%nat as [|k] eqn:E; [lia|]. cbn [nth_error].
      rewrite <- (firstn_skipn (S i) l) at 2. rewrite nth_error_app2 by (rewrite firstn_length; lia).
      rewrite firstn_length. replace (j - Nat.min (S i) (length l))%nat with k by lia. reflexivity.
Qed.
Lemma own_lset l i x j : (i < length l)%nat -> own (lset l i x) j = if Nat.eqb j i then own1 x else own l j.
Proof. intros H. unfold own. rewrite nth_lset by exact H. destruct (Nat.eqb j i); reflexivity. Qed.
Lemma lset_length {A} (l : list A) i x : (i < length l)%nat -> length (lset l i x) = length l.
Proof. intros H. unfold lset. rewrite app_length, firstn_length. cbn [length]. rewrite skipn_length. lia. Qed.
Lemma own_none l i : (length l <= i)%nat -> own l i = None.
Proof. intros H. unfold own. apply nth_error_None in H. rewrite H. reflexivity. Qed.
Lemma own_app l x j : own (l ++ [x]) j = if Nat.eqb j (length l) then own1 x else own l j.
Proof.
  unfold own. destruct (Nat.eqb_spec j (length l)) as [->|Hne].
  - rewrite nth_error_app2 by apply le_n. rewrite Nat.sub_diag. reflexivity.
  - destruct (Nat.lt_ge_cases j (length l)) as [L|L].
    + rewrite nth_error_app1 by exact L. reflexivity.
    + assert (E1 : nth_error (l ++ [x]) j = None) by (apply nth_error_None; rewrite app_length; cbn [length]; lia).
      assert (E2 : nth_error l j = None) by (apply nth_error_None; lia).
      rewrite E1, E2. reflexivity.
Qed.
Lemma hget_ok s i h : hget s i = Ok h -> nth_error (bs_handles s) i = Some (Some h) /\ (i < length (bs_handles s))%nat.
Proof.
  unfold hget. destruct (nth_error (bs_handles s) i) as [[h'|]|] eqn:E; try discriminate.
  intros H. apply Ok_inj in H. subst h'. split; [reflexivity|]. apply nth_error_Some. congruence.
Qed.
Lemma hget_not_ub s i : hget s i <> UB.
Proof. unfold hget. destruct (nth_error (bs_handles s) i) as [[h'|]|]; discriminate. Qed.

(* ---- the invariant ---- *)
(* no handle is set to release memory of somebody else *)
Definition foreign_free (l : list (option handle)) : Prop :=
  forall i a len, nth_error l i <> Some (Some (mkHandle (POther a) len true)).
Record good (s : bstate) : Prop := mkGood {
  g_live : forall i b, own (bs_handles s) i = Some b -> In b (bs_live s);
  g_one : forall i j b, own (bs_handles s) i = Some b -> own (bs_handles s) j = Some b -> i = j;
  g_some : forall b, In b (bs_live s) -> exists i, own (bs_handles s) i = Some b;
  g_next : forall b, In b (bs_live s) -> (b < bs_next s)%nat;
  g_foreign : foreign_free (bs_handles s) }.
Lemma start_good : good bs_start.
Proof.
  constructor; unfold bs_start; cbn [bs_live bs_next bs_handles].
  - intros i b H. destruct i; discriminate H.
  - intros i j b H. destruct i; discriminate H.
  - intros b [].
  - intros b [].
  - intros i a len H. destruct i; discriminate H.
Qed.

Lemma foreign_lset l i x : (i < length l)%nat -> foreign_free l -> (forall a len, x <> Some (mkHandle (POther a) len true)) ->
  foreign_free (lset l i x).
Proof.
  intros L F X j a len H. rewrite nth_lset in H by exact L. destruct (Nat.eqb j i); [|exact (F j a len H)].
  injection H as H. exact (X a len H).
Qed.
Lemma foreign_app l x : foreign_free l -> (forall a len, x <> Some (mkHandle (POther a) len true)) -> foreign_free (l ++ [x]).
Proof.
  intros F X j a len H. destruct (Nat.lt_ge_cases j (length l)) as [L|L].
  - rewrite nth_error_app1 in H by exact L. exact (F j a len H).
  - rewrite nth_error_app2 in H by exact L. destruct (j - length l)%nat as [|[|?]]; cbn [nth_error] in H; try discriminate H.
    injection H as H. exact (X a len H).
Qed.

(* changing a handle that owns nothing, to one that owns nothing *)
Lemma good_hset s i x : (i < length (bs_handles s))%nat -> good s -> own (bs_handles s) i = None -> own1 x = None ->
  (forall a len, x <> Some (mkHandle (POther a) len true)) -> good (hset s i x).
Proof.
  intros L G E X F. destruct G as [G1 G2 G3 G4 G5].
  assert (O : forall j, own (lset (bs_handles s) i x) j = own (bs_handles s) j).
  { intros j. rewrite own_lset by exact L. destruct (Nat.eqb_spec j i) as [->|]; congruence. }
  constructor; unfold hset; cbn [bs_live bs_next bs_handles].
  - intros j b H. rewrite O in H. exact (G1 j b H).
  - intros j k b H K. rewrite O in H, K. exact (G2 j k b H K).
  - intros b H. destruct (G3 b H) as (j & K). exists j. rewrite O. exact K.
  - exact G4.
  - apply foreign_lset; assumption.
Qed.
Lemma good_hnew s h : good s -> own1 (Some h) = None -> (forall a len, h <> mkHandle (POther a) len true) -> good (hnew s h).
Proof.
  intros G X F. destruct G as [G1 G2 G3 G4 G5].
  assert (O : forall j, own (bs_handles s ++ [Some h]) j = own (bs_handles s) j).
  { intros j. rewrite own_app. destruct (Nat.eqb_spec j (length (bs_handles s))) as [->|]; [|reflexivity].
    rewrite X. symmetry. apply own_none. apply le_n. }
  constructor; unfold hnew; cbn [bs_live bs_next bs_handles].
  - intros j b H. rewrite O in H. exact (G1 j b H).
  - intros j k b H K. rewrite O in H, K. exact (G2 j k b H K).
  - intros b H. destruct (G3 b H) as (j & K). exists j. rewrite O. exact K.
  - exact G4.
  - apply foreign_app; [exact G5|]. intros a len H. injection H as H. exact (F a len H).
Qed.

(* releasing *)
Lemma dealloc_good s i s' : good s -> hdealloc s i = Ok s' -> good s' /\
  length (bs_handles s') = length (bs_handles s) /\ nth_error (bs_handles s') i = Some (Some cleared) /\
  (forall j, j <> i -> nth_error (bs_handles s') j = nth_error (bs_handles s) j) /\
  bs_next s' = bs_next s /\ (forall b, In b (bs_live s') <-> In b (bs_live s) /\ own (bs_handles s) i <> Some b).
Proof.
  intros G H. unfold hdealloc in H.
  destruct (hget s i) as [h| |] eqn:E; cbn [obind] in H; try discriminate H.
  destruct (hget_ok s i h E) as [N L]. destruct h as [p len c]. cbn [hd_clean hd_ptr] in H.
  assert (W : forall s1, bs_handles s1 = bs_handles s -> s' = hset s1 i (Some cleared) ->
    length (bs_handles s') = length (bs_handles s) /\ nth_error (bs_handles s') i = Some (Some cleared) /\
    (forall j, j <> i -> nth_error (bs_handles s') j = nth_error (bs_handles s) j)).
  { intros s1 H1 ->. unfold hset. cbn [bs_handles]. rewrite H1. split; [apply lset_length, L|]. split.
    - rewrite nth_lset by exact L. rewrite Nat.eqb_refl. reflexivity.
    - intros j J. rewrite nth_lset by exact L. destruct (Nat.eqb_spec j i); [contradiction|reflexivity]. }
  assert (NoO : own (bs_handles s) i = None -> s' = hset s i (Some cleared) -> good s' /\
    length (bs_handles s') = length (bs_handles s) /\ nth_error (bs_handles s') i = Some (Some cleared) /\
    (forall j, j <> i -> nth_error (bs_handles s') j = nth_error (bs_handles s) j) /\
    bs_next s' = bs_next s /\ (forall b, In b (bs_live s') <-> In b (bs_live s) /\ own (bs_handles s) i <> Some b)).
  { intros O S'. destruct (W s eq_refl S') as (W1 & W2 & W3). subst s'.
    split; [apply good_hset; [exact L|exact G|exact O|reflexivity|discriminate]|].
    split; [exact W1|]. split; [exact W2|]. split; [exact W3|]. split; [reflexivity|].
    intros b. rewrite O. cbn [hset bs_live]. split; [intros B; split; [exact B|discriminate]|tauto]. }
  destruct c; cbn [obind] in H.
  - destruct p as [|a|n]; cbn [bfree obind] in H.
    + apply Ok_inj in H. apply NoO; [|congruence]. unfold own. rewrite N. reflexivity.
    + discriminate H.
    + destruct (in_dec Nat.eq_dec n (bs_live s)) as [I|I]; cbn [obind] in H; [|discriminate H].
      apply Ok_inj in H.
      assert (O : own (bs_handles s) i = Some n) by (unfold own; rewrite N; reflexivity).
      pose proof (W (mkB (remove Nat.eq_dec n (bs_live s)) (bs_next s) (bs_handles s)) eq_refl (eq_sym H)) as (W1 & W2 & W3).
      assert (B : forall b, In b (bs_live s') <-> In b (bs_live s) /\ own (bs_handles s) i <> Some b).
      { intros b. subst s'. unfold hset. cbn [bs_live]. rewrite O. split.
        - intros K. apply in_remove in K. destruct K as [K1 K2]. split; [exact K1|congruence].
        - intros [K1 K2]. apply in_in_remove; congruence. }
      split; [|split; [exact W1|split; [exact W2|split; [exact W3|split; [subst s'; reflexivity|exact B]]]]].
      destruct G as [G1 G2 G3 G4 G5].
      assert (OO : forall j, own (bs_handles s') j = if Nat.eqb j i then None else own (bs_handles s) j).
      { intros j. subst s'. unfold hset. cbn [bs_handles]. rewrite own_lset by exact L. reflexivity. }
      constructor.
      * intros j b K. rewrite OO in K. destruct (Nat.eqb_spec j i) as [->|J]; [discriminate K|].
        apply B. split; [exact (G1 j b K)|]. intros X. apply J. exact (G2 j i b K X).
      * intros j k b K1 K2. rewrite OO in K1, K2.
        destruct (Nat.eqb j i); [discriminate K1|]. destruct (Nat.eqb k i); [discriminate K2|]. exact (G2 j k b K1 K2).
      * intros b K. apply B in K. destruct K as [K1 K2]. destruct (G3 b K1) as (j & K). exists j. rewrite OO.
        destruct (Nat.eqb_spec j i) as [->|]; [contradiction|exact K].
      * intros b K. apply B in K. subst s'. apply G4, K.
      * subst s'. unfold hset. cbn [bs_handles]. apply foreign_lset; [exact L|exact G5|discriminate].
  - apply Ok_inj in H. apply NoO; [|congruence]. unfold own. rewrite N. destruct p; reflexivity.
Qed.
Lemma dealloc_not_ub s i : good s -> hdealloc s i <> UB.
Proof.
  intros G H. unfold hdealloc in H.
  destruct (hget s i) as [h| |] eqn:E; cbn [obind] in H; try discriminate H; [|exact (hget_not_ub s i E)].
  destruct (hget_ok s i h E) as [N L]. destruct h as [p len c]. cbn [hd_clean hd_ptr] in H.
  destruct c; cbn [obind] in H; [|discriminate H].
  destruct p as [|a|n]; cbn [bfree obind] in H.
  - discriminate H.
  - exact (g_foreign s G i a len N).
  - destruct (in_dec Nat.eq_dec n (bs_live s)) as [I|I]; cbn [obind] in H; [discriminate H|].
    apply I. apply (g_live s G i). unfold own. rewrite N. reflexivity.
Qed.

(* allocating for a handle that owns nothing *)
Lemma alloc_good s len p s1 i h : good s -> balloc len s = (p, s1) -> (forall j, own (bs_handles s) j <> Some (bs_next s)) ->
  h = mkHandle p len true -> bs_handles s1 = bs_handles s /\
  (i = length (bs_handles s) -> good (hnew s1 h)) /\
  ((i < length (bs_handles s))%nat -> own (bs_handles s) i = None -> good (hset s1 i (Some h))) /\
  (forall b, In b (bs_live s) -> In b (bs_live s1)).
Proof.
  intros G A F ->. unfold balloc in A. destruct (len =? 0)%N eqn:Z.
  - injection A as <- <-. split; [reflexivity|]. split; [|split].
    + intros _. apply good_hnew; [exact G|reflexivity|discriminate].
    + intros L O. apply good_hset; [exact L|exact G|exact O|reflexivity|discriminate].
    + intros b B. exact B.
  - injection A as <- <-. split; [reflexivity|]. destruct G as [G1 G2 G3 G4 G5].
    assert (C : forall l', (exists i0, (forall j, own l' j = if Nat.eqb j i0 then Some (bs_next s) else own (bs_handles s) j) /\ own (bs_handles s) i0 = None) ->
              foreign_free l' -> good (mkB (bs_next s :: bs_live s) (S (bs_next s)) l')).
    { intros l' (i0 & O & O0) FF. constructor; cbn [bs_live bs_next bs_handles].
      - intros j b K. rewrite O in K. destruct (Nat.eqb j i0); [injection K as <-; left; reflexivity|right; exact (G1 j b K)].
      - intros j k b K1 K2. rewrite O in K1, K2.
        destruct (Nat.eqb_spec j i0) as [->|J]; destruct (Nat.eqb_spec k i0) as [->|J'].
        + reflexivity.
        + injection K1 as <-. destruct (F k K2).
        + injection K2 as <-. destruct (F j K1).
        + exact (G2 j k b K1 K2).
      - intros b [<-|K].
        + exists i0. rewrite O, Nat.eqb_refl. reflexivity.
        + destruct (G3 b K) as (j & Hj). exists j. rewrite O. destruct (Nat.eqb_spec j i0) as [->|]; [congruence|exact Hj].
      - intros b [<-|K]; [lia|]. specialize (G4 b K). lia.
      - exact FF. }
    split; [|split].
    + intros _. unfold hnew. cbn [bs_live bs_next bs_handles]. apply C.
      * exists (length (bs_handles s)). split; [|apply own_none, le_n]. intros j. rewrite own_app. reflexivity.
      * apply foreign_app; [exact G5|discriminate].
    + intros L O. unfold hset. cbn [bs_live bs_next bs_handles]. apply C.
      * exists i. split; [|exact O]. intros j. rewrite own_lset by exact L. reflexivity.
      * apply foreign_lset; [exact L|exact G5|discriminate].
    + intros b B. right. exact B.
Qed.
Lemma next_fresh s : good s -> forall j, own (bs_handles s) j <> Some (bs_next s).
Proof. intros G j H. apply (g_live s G) in H. apply (g_next s G) in H. lia. Qed.

(* what a handle owns moves to one that owns nothing *)
Lemma transfer_good s l' i j : good s -> (forall k, own l' k = if Nat.eqb k j then None else if Nat.eqb k i then own (bs_handles s) j else own (bs_handles s) k) ->
  i <> j -> own (bs_handles s) i = None -> foreign_free l' -> good (mkB (bs_live s) (bs_next s) l').
Proof.
  intros [G1 G2 G3 G4 G5] O IJ OI FF. constructor; cbn [bs_live bs_next bs_handles].
  - intros k b K. rewrite O in K. destruct (Nat.eqb k j); [discriminate K|]. destruct (Nat.eqb k i); [exact (G1 j b K)|exact (G1 k b K)].
  - intros k m b K M. rewrite O in K, M.
    destruct (Nat.eqb_spec k j); [discriminate K|]. destruct (Nat.eqb_spec m j); [discriminate M|].
    destruct (Nat.eqb_spec k i) as [->|Ki]; destruct (Nat.eqb_spec m i) as [->|Mi].
    + reflexivity.
    + exfalso. apply n0. exact (G2 m j b M K).
    + exfalso. apply n. exact (G2 k j b K M).
    + exact (G2 k m b K M).
  - intros b B. destruct (G3 b B) as (k & K). destruct (Nat.eqb_spec k j) as [->|Kj].
    + exists i. rewrite O. destruct (Nat.eqb_spec i j); [contradiction|]. rewrite Nat.eqb_refl. exact K.
    + exists k. rewrite O. destruct (Nat.eqb_spec k j); [contradiction|]. destruct (Nat.eqb_spec k i) as [->|]; [congruence|exact K].
  - exact G4.
  - exact FF.
Qed.

(* ---- every decent operation keeps the invariant ---- *)
Lemma step_good s o s' : good s -> decent s o -> bstep s o = Ok s' -> good s'.
Proof.
  intros G D H. destruct o as [p len|len|len|j|j|i j|i j|i|i|i src len copy|i p len|i|i b]; cbn [bstep decent] in *.
  - apply Ok_inj in H. subst s'. apply good_hnew; [exact G|destruct p; reflexivity|discriminate].
  - destruct (balloc len s) as [p s1] eqn:A. apply Ok_inj in H. subst s'.
    destruct (alloc_good s len p s1 (length (bs_handles s)) _ G A (next_fresh s G) eq_refl) as (_ & K & _). apply K. reflexivity.
  - destruct (balloc len s) as [p s1] eqn:A. apply Ok_inj in H. subst s'.
    destruct (alloc_good s len p s1 (length (bs_handles s)) _ G A (next_fresh s G) eq_refl) as (_ & K & _). apply K. reflexivity.
  - destruct (hget s j) as [h| |] eqn:E; cbn [obind] in H; try discriminate H. apply Ok_inj in H. subst s'.
    apply good_hnew; [exact G|destruct (hd_ptr h); reflexivity|discriminate].
  - destruct (hget s j) as [h| |] eqn:E; cbn [obind] in H; try discriminate H. apply Ok_inj in H. subst s'.
    destruct (hget_ok s j h E) as [N L]. destruct h as [p len c]. cbn [hd_ptr hd_len hd_clean].
    unfold hnew, hset. cbn [bs_live bs_next bs_handles]. apply (transfer_good s _ (length (bs_handles s)) j).
    + exact G.
    + intros k. rewrite own_app, lset_length by exact L.
      destruct (Nat.eqb_spec k (length (bs_handles s))) as [->|K].
      * destruct (Nat.eqb_spec (length (bs_handles s)) j) as [J|]; [lia|]. unfold own. rewrite N. reflexivity.
      * rewrite own_lset by exact L. destruct (Nat.eqb k j); reflexivity.
    + lia.
    + apply own_none, le_n.
    + apply foreign_app.
      * apply foreign_lset; [exact L|apply G|discriminate].
      * intros a len' X. injection X as -> -> ->. exact (g_foreign s G j a len' N).
  - destruct (hget s i) as [hi| |] eqn:Ei; cbn [obind] in H; try discriminate H.
    destruct (hget s j) as [hj| |] eqn:Ej; cbn [obind] in H; try discriminate H.
    destruct (Nat.eqb_spec i j) as [->|IJ]; [apply Ok_inj in H; subst; exact G|].
    destruct (hdealloc s i) as [s1| |] eqn:F; cbn [obind] in H; try discriminate H.
    destruct (dealloc_good s i s1 G F) as (G1 & L1 & N1 & _).
    destruct (hget s1 j) as [h| |] eqn:E1; cbn [obind] in H; try discriminate H. apply Ok_inj in H. subst s'.
    destruct (hget_ok s i hi Ei) as [_ L].
    apply good_hset; [lia|exact G1|unfold own; rewrite N1; reflexivity|destruct (hd_ptr h); reflexivity|discriminate].
  - destruct (hget s i) as [hi| |] eqn:Ei; cbn [obind] in H; try discriminate H.
    destruct (hget s j) as [hj| |] eqn:Ej; cbn [obind] in H; try discriminate H.
    destruct (Nat.eqb_spec i j) as [->|IJ]; [apply Ok_inj in H; subst; exact G|].
    destruct (hdealloc s i) as [s1| |] eqn:F; cbn [obind] in H; try discriminate H.
    destruct (dealloc_good s i s1 G F) as (G1 & L1 & N1 & _).
    destruct (hget s1 j) as [h| |] eqn:E1; cbn [obind] in H; try discriminate H. apply Ok_inj in H. subst s'.
    destruct (hget_ok s i hi Ei) as [_ L]. destruct (hget_ok s1 j h E1) as [Nj Lj].
    destruct h as [p len c]. cbn [hd_ptr hd_len hd_clean].
    unfold hset. cbn [bs_live bs_next bs_handles].
    assert (L2 : (i < length (bs_handles s1))%nat) by lia.
    apply (transfer_good s1 _ i j).
    + exact G1.
    + intros k. rewrite own_lset by (rewrite lset_length; lia). rewrite own_lset by exact L2.
      destruct (Nat.eqb k j); [reflexivity|]. destruct (Nat.eqb k i); [|reflexivity]. unfold own. rewrite Nj. reflexivity.
    + exact IJ.
    + unfold own. rewrite N1. reflexivity.
    + apply foreign_lset; [rewrite lset_length; lia| |discriminate].
      apply foreign_lset; [exact L2|apply G1|]. intros a len' X. injection X as -> -> ->. exact (g_foreign s1 G1 j a len' Nj).
  - exact (proj1 (dealloc_good s i s' G H)).
  - destruct (hdealloc s i) as [s1| |] eqn:F; cbn [obind] in H; try discriminate H. apply Ok_inj in H. subst s'.
    destruct (dealloc_good s i s1 G F) as (G1 & L1 & N1 & _).
    apply good_hset; [apply nth_error_Some; congruence|exact G1|unfold own; rewrite N1; reflexivity|reflexivity|discriminate].
  - destruct (hget s i) as [h| |] eqn:E; cbn [obind] in H; try discriminate H.
    destruct (hget_ok s i h E) as [N L].
    assert (O : own (bs_handles s) i = None).
    { destruct (own (bs_handles s) i) as [b|] eqn:X; [|reflexivity]. destruct (D b). apply owns_own. exact X. }
    destruct copy.
    + destruct (balloc len s) as [p s1] eqn:A. apply Ok_inj in H. subst s'.
      destruct (alloc_good s len p s1 i _ G A (next_fresh s G) eq_refl) as (_ & _ & K & _). exact (K L O).
    + apply Ok_inj in H. subst s'. apply good_hset; [exact L|exact G|exact O|reflexivity|discriminate].
  - destruct (hget s i) as [h| |] eqn:E; cbn [obind] in H; try discriminate H.
    destruct (hget_ok s i h E) as [N L]. apply Ok_inj in H. subst s'.
    apply good_hset; [exact L|exact G| |destruct p; reflexivity|discriminate].
    destruct (own (bs_handles s) i) as [b|] eqn:X; [|reflexivity]. destruct (D b). apply owns_own. exact X.
  - destruct D.
  - destruct D.
Qed.

Lemma step_not_ub s o : good s -> decent s o -> bstep s o <> UB.
Proof.
  intros G D H. destruct o as [p len|len|len|j|j|i j|i j|i|i|i src len copy|i p len|i|i b]; cbn [bstep decent] in *;
    try (destruct (balloc len s)); try discriminate H; try contradiction;
    try (destruct (hget s j) as [h| |] eqn:Ej; cbn [obind] in H; try discriminate H; exact (hget_not_ub s j Ej));
    try (destruct (hget s i) as [h| |] eqn:Ei; cbn [obind] in H; try discriminate H; [|exact (hget_not_ub s i Ei)]).
  - destruct (hget s j) as [hj| |] eqn:Ej; cbn [obind] in H; try discriminate H; [|exact (hget_not_ub s j Ej)].
    destruct (Nat.eqb i j); [discriminate H|].
    destruct (hdealloc s i) as [s1| |] eqn:F; cbn [obind] in H; try discriminate H; [|exact (dealloc_not_ub s i G F)].
    destruct (hget s1 j) as [hj'| |] eqn:E1; cbn [obind] in H; try discriminate H. exact (hget_not_ub s1 j E1).
  - destruct (hget s j) as [hj| |] eqn:Ej; cbn [obind] in H; try discriminate H; [|exact (hget_not_ub s j Ej)].
    destruct (Nat.eqb i j); [discriminate H|].
    destruct (hdealloc s i) as [s1| |] eqn:F; cbn [obind] in H; try discriminate H; [|exact (dealloc_not_ub s i G F)].
    destruct (hget s1 j) as [hj'| |] eqn:E1; cbn [obind] in H; try discriminate H. exact (hget_not_ub s1 j E1).
  - exact (dealloc_not_ub s i G H).
  - destruct (hdealloc s i) as [s1| |] eqn:F; cbn [obind] in H; try discriminate H. exact (dealloc_not_ub s i G F).
  - destruct copy; discriminate H.
  - destruct (hget s i) as [h| |] eqn:Ei; cbn [obind] in H; try discriminate H. exact (hget_not_ub s i Ei).
Qed.

Lemma run_good l : forall s s', good s -> decent_program s l -> brun s l = Ok s' -> good s'.
Proof.
  induction l as [|o l IH]; intros s s' G D H; cbn [brun decent_program] in *.
  - apply Ok_inj in H. subst. exact G.
  - destruct D as [D1 D2]. destruct (bstep s o) as [s1| |] eqn:E; cbn [obind] in H; try discriminate H.
    exact (IH s1 s' (step_good s o s1 G D1 E) (D2 s1 eq_refl) H).
Qed.
Lemma run_not_ub l : forall s, good s -> decent_program s l -> brun s l <> UB.
Proof.
  induction l as [|o l IH]; intros s G D H; cbn [brun decent_program] in *; [discriminate H|].
  destruct D as [D1 D2]. destruct (bstep s o) as [s1| |] eqn:E; cbn [obind] in H; try discriminate H.
  - exact (IH s1 (step_good s o s1 G D1 E) (D2 s1 eq_refl) H).
  - exact (step_not_ub s o G D1 E).
Qed.

(* ---- what is left alone ---- *)
Lemma step_keeps s o s' i b : good s -> bstep s o = Ok s' -> own (bs_handles s) i = Some b -> ~ acts_on o i ->
  In b (bs_live s') /\ own (bs_handles s') i = Some b.
Proof.
  intros G H O A. pose proof (g_live s G i b O) as B.
  assert (Li : (i < length (bs_handles s))%nat).
  { destruct (Nat.lt_ge_cases i (length (bs_handles s))) as [L|L]; [exact L|]. rewrite own_none in O by exact L. discriminate O. }
  assert (S0 : forall k x, (k < length (bs_handles s))%nat -> i <> k -> own (lset (bs_handles s) k x) i = Some b).
  { intros k x L K. rewrite own_lset by exact L. destruct (Nat.eqb_spec i k); [contradiction|exact O]. }
  assert (A0 : forall l x, (i < length l)%nat -> own l i = Some b -> own (l ++ [x]) i = Some b).
  { intros l x L K. rewrite own_app. destruct (Nat.eqb_spec i (length l)); [lia|exact K]. }
  assert (DD : forall k s1, hdealloc s k = Ok s1 -> i <> k -> In b (bs_live s1) /\ own (bs_handles s1) i = Some b).
  { intros k s1 F K. destruct (dealloc_good s k s1 G F) as (_ & _ & _ & N & _ & BB). split.
    - apply BB. split; [exact B|]. intros X. apply K. exact (g_one s G i k b O X).
    - unfold own. rewrite N by exact K. exact O. }
  destruct o as [p len|len|len|j|j|k j|k j|k|k|k src len copy|k p len|k|k c]; cbn [bstep acts_on] in *.
  - apply Ok_inj in H. subst s'. split; [exact B|]. apply A0; assumption.
  - unfold balloc in H. destruct (len =? 0)%N; apply Ok_inj in H; subst s'; unfold hnew; cbn [bs_live bs_handles].
    + split; [exact B|apply A0; assumption].
    + split; [right; exact B|apply A0; assumption].
  - unfold balloc in H. destruct (len =? 0)%N; apply Ok_inj in H; subst s'; unfold hnew; cbn [bs_live bs_handles].
    + split; [exact B|apply A0; assumption].
    + split; [right; exact B|apply A0; assumption].
  - destruct (hget s j) as [h| |] eqn:E; cbn [obind] in H; try discriminate H. apply Ok_inj in H. subst s'.
    split; [exact B|]. apply A0; assumption.
  - destruct (hget s j) as [h| |] eqn:E; cbn [obind] in H; try discriminate H. apply Ok_inj in H. subst s'.
    destruct (hget_ok s j h E) as [_ L]. split; [exact B|]. unfold hnew, hset. cbn [bs_handles].
    apply A0; [rewrite lset_length by exact L; exact Li|]. apply S0; [exact L|exact A].
  - destruct (hget s k) as [hk| |] eqn:Ek; cbn [obind] in H; try discriminate H.
    destruct (hget s j) as [hj| |] eqn:Ej; cbn [obind] in H; try discriminate H.
    destruct (Nat.eqb k j); [apply Ok_inj in H; subst; split; assumption|].
    destruct (hdealloc s k) as [s1| |] eqn:F; cbn [obind] in H; try discriminate H.
    destruct (hget s1 j) as [h| |] eqn:E1; cbn [obind] in H; try discriminate H. apply Ok_inj in H. subst s'.
    destruct (DD k s1 F A) as [D1 D2]. destruct (dealloc_good s k s1 G F) as (_ & L1 & _).
    destruct (hget_ok s k hk Ek) as [_ L]. unfold hset. cbn [bs_live bs_handles]. split; [exact D1|].
    rewrite own_lset by lia. destruct (Nat.eqb_spec i k); [contradiction|exact D2].
  - destruct (hget s k) as [hk| |] eqn:Ek; cbn [obind] in H; try discriminate H.
    destruct (hget s j) as [hj| |] eqn:Ej; cbn [obind] in H; try discriminate H.
    destruct (Nat.eqb k j); [apply Ok_inj in H; subst; split; assumption|].
    destruct (hdealloc s k) as [s1| |] eqn:F; cbn [obind] in H; try discriminate H.
    destruct (hget s1 j) as [h| |] eqn:E1; cbn [obind] in H; try discriminate H. apply Ok_inj in H. subst s'.
    assert (Ak : i <> k) by tauto. assert (Aj : i <> j) by tauto.
    destruct (DD k s1 F Ak) as [D1 D2]. destruct (dealloc_good s k s1 G F) as (_ & L1 & _).
    destruct (hget_ok s k hk Ek) as [_ L]. destruct (hget_ok s j hj Ej) as [_ Lj].
    unfold hset. cbn [bs_live bs_handles]. split; [exact D1|].
    rewrite own_lset by (rewrite lset_length; lia). destruct (Nat.eqb_spec i j); [contradiction|].
    rewrite own_lset by lia. destruct (Nat.eqb_spec i k); [contradiction|exact D2].
  - exact (DD k s' H A).
  - destruct (hdealloc s k) as [s1| |] eqn:F; cbn [obind] in H; try discriminate H. apply Ok_inj in H. subst s'.
    destruct (DD k s1 F A) as [D1 D2]. destruct (dealloc_good s k s1 G F) as (_ & L1 & N1 & _).
    unfold hset. cbn [bs_live bs_handles]. split; [exact D1|].
    rewrite own_lset by (apply nth_error_Some; congruence). destruct (Nat.eqb_spec i k); [contradiction|exact D2].
  - destruct (hget s k) as [hk| |] eqn:Ek; cbn [obind] in H; try discriminate H. destruct (hget_ok s k hk Ek) as [_ L].
    destruct copy.
    + unfold balloc in H. destruct (len =? 0)%N; apply Ok_inj in H; subst s'; unfold hset; cbn [bs_live bs_handles].
      * split; [exact B|apply S0; assumption].
      * split; [right; exact B|apply S0; assumption].
    + apply Ok_inj in H. subst s'. split; [exact B|]. apply S0; assumption.
  - destruct (hget s k) as [hk| |] eqn:Ek; cbn [obind] in H; try discriminate H. destruct (hget_ok s k hk Ek) as [_ L].
    apply Ok_inj in H. subst s'. split; [exact B|]. apply S0; assumption.
  - destruct (hget s k) as [hk| |] eqn:Ek; cbn [obind] in H; try discriminate H. destruct (hget_ok s k hk Ek) as [_ L].
    apply Ok_inj in H. subst s'. split; [exact B|]. apply S0; assumption.
  - destruct (hget s k) as [hk| |] eqn:Ek; cbn [obind] in H; try discriminate H. destruct (hget_ok s k hk Ek) as [_ L].
    apply Ok_inj in H. subst s'. split; [exact B|]. apply S0; assumption.
Qed.

(* ---- the theorems ---- *)
Lemma blob_safe l : decent_program bs_start l -> brun bs_start l <> UB.
Proof. exact (run_not_ub l bs_start start_good). Qed.
Lemma blob_owned l s b : decent_program bs_start l -> brun bs_start l = Ok s -> is_live s b ->
  exists i, owns s i b /\ forall j, owns s j b -> j = i.
Proof.
  intros D H B. pose proof (run_good l _ _ start_good D H) as G. destruct (g_some s G b B) as (i & O).
  exists i. split; [apply owns_own, O|]. intros j K. apply owns_own in K. exact (g_one s G j i b K O).
Qed.
Lemma blob_no_leak l s : decent_program bs_start l -> brun bs_start l = Ok s -> all_destroyed s -> bs_live s = [].
Proof.
  intros D H A. destruct (bs_live s) as [|b r] eqn:E; [reflexivity|].
  destruct (blob_owned l s b D H) as (i & (len & O) & _); [unfold is_live; rewrite E; left; reflexivity|].
  destruct (A i _ O).
Qed.
Lemma blob_keeps l s o s' i b : decent_program bs_start l -> brun bs_start l = Ok s -> bstep s o = Ok s' ->
  owns s i b -> ~ acts_on o i -> is_live s' b /\ owns s' i b.
Proof.
  intros D H S O A. pose proof (run_good l _ _ start_good D H) as G. apply owns_own in O.
  destruct (step_keeps s o s' i b G S O A) as [B K]. split; [exact B|]. apply owns_own, K.
Qed.

(* a block released only by its owner *)
Lemma step_releases s o s' b : good s -> decent s o -> bstep s o = Ok s' -> In b (bs_live s) -> ~ In b (bs_live s') ->
  exists i, own (bs_handles s) i = Some b /\ acts_on o i.
Proof.
  intros G D H B NB. destruct (g_some s G b B) as (i & O). exists i. split; [exact O|].
  destruct (match o with
            | BRef _ _ | BOwn _ | BCopy _ | BCopyCtor _ => right (fun x => x)
            | BMoveCtor j => Nat.eq_dec i j
            | BAssign k j => Nat.eq_dec i k
            | BMoveAssign k j => match Nat.eq_dec i k with left e => left (or_introl e) | right n =>
                match Nat.eq_dec i j with left e => left (or_intror e) | right m => right (fun x => match x with or_introl a => n a | or_intror a => m a end) end end
            | BDealloc k | BDestroy k | BUnpack k _ _ _ | BUnpackRef k _ _ | BClear k | BSetClean k _ => Nat.eq_dec i k
            end : {acts_on o i} + {~ acts_on o i}) as [Y|Y]; [exact Y|].
  exfalso. apply NB. exact (proj1 (step_keeps s o s' i b G H O Y)).
Qed.
Lemma blob_releases l s o s' b : decent_program bs_start l -> brun bs_start l = Ok s -> decent s o -> bstep s o = Ok s' ->
  is_live s b -> ~ is_live s' b -> exists i, owns s i b /\ acts_on o i.
Proof.
  intros D H DO S B NB. pose proof (run_good l _ _ start_good D H) as G.
  destruct (step_releases s o s' b G DO S B NB) as (i & O & A). exists i. split; [apply owns_own, O|exact A].
Qed.

(* ---- unpacking into an owner leaks ---- *)
Lemma unpack_leaks l s i b o s' : decent_program bs_start l -> brun bs_start l = Ok s -> owns s i b ->
  ((exists src len copy, o = BUnpack i src len copy) \/ (exists a len, o = BUnpackRef i (POther a) len) \/ o = BClear i) ->
  bstep s o = Ok s' -> is_live s' b /\ forall j, ~ owns s' j b.
Proof.
  intros D H O W S. pose proof (run_good l _ _ start_good D H) as G. apply owns_own in O.
  pose proof (g_live s G i b O) as B.
  assert (Li : (i < length (bs_handles s))%nat).
  { destruct (Nat.lt_ge_cases i (length (bs_handles s))) as [L|L]; [exact L|]. rewrite own_none in O by exact L. discriminate O. }
  assert (Q : forall x, own1 x <> Some b -> forall j, own (lset (bs_handles s) i x) j <> Some b).
  { intros x X j K. rewrite own_lset in K by exact Li. destruct (Nat.eqb_spec j i) as [_|J]; [contradiction|].
    apply J. exact (g_one s G j i b K O). }
  destruct W as [(src & len & copy & ->)|[(a & len & ->)| -> ]]; cbn [bstep] in S;
    destruct (hget s i) as [h| |]; cbn [obind] in S; try discriminate S.
  - destruct copy.
    + unfold balloc in S. destruct (len =? 0)%N; apply Ok_inj in S; subst s'; unfold hset, is_live; cbn [bs_live].
      * split; [exact B|]. intros j K. apply owns_own in K. cbn [bs_handles] in K. revert K. apply Q. discriminate.
      * split; [right; exact B|]. intros j K. apply owns_own in K. cbn [bs_handles] in K. revert K. apply Q.
        cbn [own1]. intros [= X]. pose proof (g_next s G b B). lia.
    + apply Ok_inj in S. subst s'. split; [exact B|]. intros j K. apply owns_own in K. cbn [hset bs_handles] in K. revert K. apply Q. discriminate.
  - apply Ok_inj in S. subst s'. split; [exact B|]. intros j K. apply owns_own in K. cbn [hset bs_handles] in K. revert K. apply Q. discriminate.
  - apply Ok_inj in S. subst s'. split; [exact B|]. intros j K. apply owns_own in K. cbn [hset bs_handles] in K. revert K. apply Q. discriminate.
Qed.
Lemma handle_ops_decent l : forall s, Forall handle_op l -> decent_program s l.
Proof.
  induction l as [|o l IH]; intros s H; cbn [decent_program]; [exact I|].
  inversion H as [|? ? H1 H2]; subst. split; [|intros s' _; apply IH, H2].
  destruct o; cbn [handle_op decent] in *; tauto.
Qed.
