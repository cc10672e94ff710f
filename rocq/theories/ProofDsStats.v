(* What a datastore counts *)
From Verif Require Import ModelBytes ProofBytes ModelKey ModelWire ModelHist ModelMsg ModelStore ProofStore ModelGetOp ModelDs ModelElen ModelFloat ModelRoute
  SpecRoute SpecClient ModelClient ModelStats SpecStats ModelDsStats SpecDsStats.
Local Open Scope N_scope.

(* ---- sums ---- *)
Lemma add64_mod a b : add64 (a mod 2 ^ 64) b = (a + b) mod 2 ^ 64.
Proof. unfold add64. rewrite N.add_mod_idemp_l by lia. reflexivity. Qed.
Lemma total_from l : forall a, fold_left add64 l (a mod 2 ^ 64) = (a + sumN l) mod 2 ^ 64.
Proof.
  induction l as [|x l IH]; intros a; cbn [fold_left sumN fold_right]; [rewrite N.add_0_r; reflexivity|].
  rewrite add64_mod, IH. f_equal. change (fold_right N.add 0 l) with (sumN l). lia.
Qed.
Lemma total64_sum l : total64 l = sumN l mod 2 ^ 64.
Proof. exact (total_from l 0). Qed.
Lemma sumN_app a b : sumN (a ++ b) = sumN a + sumN b.
Proof. induction a as [|x a IH]; cbn [sumN fold_right app]; [reflexivity|]. unfold sumN in IH. rewrite IH. unfold sumN. lia. Qed.
Lemma sumN_flat {A B} (f : B -> N) (g : A -> list B) l : sumN (map f (flat_map g l)) = sumN (map (fun x => sumN (map f (g x))) l).
Proof. induction l as [|x l IH]; cbn [flat_map map]; [reflexivity|]. rewrite map_app, sumN_app, IH. reflexivity. Qed.
Lemma lenN_app {A} (a b : list A) : lenN (a ++ b) = lenN a + lenN b.
Proof. unfold lenN. rewrite app_length. lia. Qed.
Lemma lengthN_eq {A} (l : list A) : lengthN l = lenN l. Proof. reflexivity. Qed.

Lemma blen_app' a b : blen (a ++ b) = blen a + blen b.
Proof. unfold blen. rewrite app_length. lia. Qed.
Lemma le_len k n : blen (le_enc k n) = N.of_nat k.
Proof. unfold blen. rewrite le_enc_length. reflexivity. Qed.
Lemma key_len s p : blen (sp_to_key s p) = blen (f_data s) + blen (f_data p) + 19.
Proof.
  unfold sp_to_key. rewrite !blen_app', !le_len. change (blen [key_terminator]) with 1. lia.
Qed.

(* ---- PUT ---- *)
Lemma put_row_bytes c i kv : put_row c i = Ok kv -> match kv with Some r => row_size r = triple_bytes c i | None => triple_bytes c i = 0 end.
Proof.
  unfold put_row, triple_bytes, obind2. intros H.
  destruct (enc_blob c (pi_sub i)) as [[s|]| |] eqn:Es; cbn [obind] in H; try discriminate H; [|apply Ok_inj in H as <-; reflexivity].
  destruct (enc_blob c (pi_pred i)) as [[p|]| |] eqn:Ep; cbn [obind] in H; try discriminate H; [|apply Ok_inj in H as <-; reflexivity].
  destruct (enc_blob c (pi_obj i)) as [[o|]| |] eqn:Eo; cbn [obind] in H; try discriminate H; [|apply Ok_inj in H as <-; reflexivity].
  apply Ok_inj in H as <-. unfold row_size. cbn [fst snd]. rewrite key_len. unfold append_type. rewrite blen_app', le_len. cbn [f_data]. lia.
Qed.
Lemma put_size_sum c : forall l a n, put_size c l (a mod 2 ^ 64) = Ok n -> n = (a + sumN (map (triple_bytes c) l)) mod 2 ^ 64.
Proof.
  induction l as [|i l IH]; intros a n H; cbn [put_size] in H.
  - apply Ok_inj in H. cbn. rewrite N.add_0_r. symmetry. exact H.
  - obind H kv Er. pose proof (put_row_bytes c i kv Er) as B. cbn [map sumN fold_right]. change (fold_right N.add 0) with sumN.
    destruct kv as [r|].
    + rewrite add64_mod in H. apply IH in H. rewrite H, B. f_equal. lia.
    + apply IH in H. rewrite H, B. f_equal.
Qed.

(* ---- GET ---- *)
Lemma key_of_bytes c i key : key_of c (gi_sub i) (gi_pred i) = Ok key -> match key with Some x => blen x = pair_bytes c i | None => pair_bytes c i = 0 end.
Proof.
  unfold key_of, pair_bytes, obind2. intros H.
  destruct (enc_blob c (gi_sub i)) as [[s|]| |] eqn:Es; cbn [obind] in H; try discriminate H; [|apply Ok_inj in H as <-; reflexivity].
  destruct (enc_blob c (gi_pred i)) as [[p|]| |] eqn:Ep; cbn [obind] in H; try discriminate H; [|apply Ok_inj in H as <-; reflexivity].
  apply Ok_inj in H as <-. rewrite key_len. cbn [f_data]. lia.
Qed.
Lemma get_size_sum k c : forall l a n, get_size k c l (a mod 2 ^ 64) = Ok n ->
  n = (a + match k with InMemory => sumN (map (pair_bytes c) l) | LevelDB => 0 end) mod 2 ^ 64.
Proof.
  induction l as [|i l IH]; intros a n H; cbn [get_size] in H.
  - apply Ok_inj in H. rewrite <- H. destruct k; cbn; rewrite N.add_0_r; reflexivity.
  - obind H key Er. pose proof (key_of_bytes c i key Er) as B. cbn [map sumN fold_right]. change (fold_right N.add 0) with sumN.
    destruct key as [r|], k.
    + rewrite add64_mod in H. apply IH in H. rewrite H, B. f_equal. lia.
    + apply IH in H. exact H.
    + apply IH in H. rewrite H, B. f_equal.
    + apply IH in H. exact H.
Qed.

(* ---- GETOP: the sized loops do what those of ModelGetOp do ---- *)
Definition unsized {A} (x : outcome (A * N)) : outcome A := do (a, _) <- x; Ok a.
Lemma copy_unsized c cap r j st : unsized (copy_sized c cap r j st) = copy_response c cap r j (fst st).
Proof. unfold copy_sized, unsized. destruct (copy_response c cap r j (fst st)); reflexivity. Qed.
Lemma walk_unsized c n cond : forall rs j st, unsized (walk_sized c n cond rs j st) = walk c n cond rs j (fst st).
Proof.
  induction rs as [|r rs IH]; intros j st; cbn [walk_sized walk]; [unfold unsized; destruct st; reflexivity|].
  destruct (j <? n); [|unfold unsized; destruct st; reflexivity].
  destruct (cond (fst r)) as [[]| |]; cbn [obind]; try reflexivity; [|unfold unsized; destruct st; reflexivity].
  unfold copy_sized. destruct (copy_response c n r j (fst st)) as [s| |]; cbn [obind]; try reflexivity. rewrite IH. reflexivity.
Qed.
Lemma visit_unsized k c n db op prefix seek : unsized (run_visit c n (visits k db op prefix seek)) = getop_body k c db op n prefix seek.
Proof.
  assert (W : forall cond rs, unsized (run_visit c n (VWalk cond rs)) = walk c n cond rs 0 start) by (intros; apply (walk_unsized c n cond rs 0 (start, 0))).
  assert (O : forall r, unsized (run_visit c n (VOne r)) = copy_response c n r 0 start) by (intros; apply (copy_unsized c n r 0 (start, 0))).
  destruct k; cbn [visits getop_body]; unfold im_visit, im_body, ldb_visit, ldb_body.
  - destruct (op =? GETOP_EQ); [destruct (snd (lower prefix db)); [reflexivity|apply O]|].
    destruct (op =? GETOP_NEXT); [destruct (snd (lower prefix db)); [reflexivity|apply W]|].
    destruct (op =? GETOP_PREV); [destruct (lower prefix db) as [lo [|? ?]]; [reflexivity|apply W]|].
    destruct (op =? GETOP_FIRST); [destruct db; [reflexivity|apply W]|].
    destruct (op =? GETOP_LAST); [destruct db; [reflexivity|apply W]|].
    destruct (op =? GETOP_LOWEST); [destruct (snd (lower seek db)); [reflexivity|apply W]|].
    destruct (op =? GETOP_HIGHEST); [destruct (upper seek db) as [[|? ?] [|? ?]]; try reflexivity; apply W|reflexivity].
  - destruct (op =? GETOP_EQ); [destruct (snd (lower prefix db)); [reflexivity|apply O]|].
    destruct (op =? GETOP_NEXT); [destruct (snd (lower prefix db)); [reflexivity|apply W]|].
    destruct (op =? GETOP_PREV); [destruct (lower prefix db) as [lo [|? ?]]; [reflexivity|apply W]|].
    destruct (op =? GETOP_FIRST); [destruct db; [reflexivity|apply W]|].
    destruct (op =? GETOP_LAST); [destruct db; [reflexivity|apply W]|].
    destruct (op =? GETOP_LOWEST); [destruct (snd (lower seek db)); [reflexivity|apply W]|].
    destruct (op =? GETOP_HIGHEST); [destruct (rev (fst (lower seek db))); [reflexivity|apply W]|reflexivity].
Qed.
Lemma state_unsized k c db i : unsized (getop_sized k c db i) = getop_state k c db i.
Proof.
  unfold getop_sized, getop_state. destruct (op_has_key (oi_op i)); [|apply visit_unsized].
  destruct (enc_blob c (oi_sub i)) as [es| |]; cbn [obind]; try reflexivity.
  destruct (enc_blob c (oi_pred i)) as [ep| |]; cbn [obind]; try reflexivity.
  destruct es; [apply visit_unsized|reflexivity].
Qed.
Lemma event_answer k c db t i e g : getop_event k c db t i = Ok e -> getop1 k c db i = Ok g -> ev_count e = lenN (gp_recs g) /\ ev_time e = t.
Proof.
  unfold getop_event, getop1. rewrite <- state_unsized. unfold unsized. intros H G.
  destruct (getop_sized k c db i) as [[st n]| |]; cbn [obind] in H, G; try discriminate H.
  destruct (g_unset st).
  - apply Ok_inj in H as <-. apply Ok_inj in G as <-. split; reflexivity.
  - destruct (error_response (oi_num i) i (g_recs st)) as [recs| |]; cbn [obind] in H, G; try discriminate H.
    apply Ok_inj in H as <-. apply Ok_inj in G as <-. split; reflexivity.
Qed.
Lemma events_answers k c db ts : forall l j es gs, getop_events k c db ts j l = Ok es -> omap (getop1 k c db) l = Ok gs ->
  map ev_count es = map (fun g => lenN (gp_recs g)) gs /\ map ev_time es = map ts (seq j (length l)) /\ length es = length l.
Proof.
  induction l as [|i l IH]; intros j es gs H G; cbn [getop_events omap] in H, G.
  - apply Ok_inj in H as <-. apply Ok_inj in G as <-. repeat split; reflexivity.
  - obind H e Ee. obind H r Er. apply Ok_inj in H as <-. obind G g Eg. obind G gr Egr. apply Ok_inj in G as <-.
    destruct (event_answer _ _ _ _ _ _ _ Ee Eg) as [A B]. destruct (IH _ _ _ Er Egr) as (C & D & L).
    cbn [map length seq]. rewrite A, B, C, D, L. repeat split; reflexivity.
Qed.
