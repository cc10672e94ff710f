From Verif Require Import ModelBytes ModelElen ModelConf ModelOptions ModelMsg ModelClient ModelFloat ModelCli SpecConf SpecOptions SpecCli ProofBytes ProofStore ProofElen ProofConf ProofOptions ProofOptions4.
Local Open Scope N_scope.

(* ---- words ---- *)
Definition stops (r : bytes) : Prop := r = [] \/ exists c t, r = c :: t /\ white c.
Lemma white_digit (c : byte) : white c -> ~ digit_char c.
Proof. unfold white, digit_char. cbn [In]. intros H D. lia. Qed.
Lemma stops_digit r : stops r -> forall c t, r = c :: t -> ~ digit_char c.
Proof. intros [->|[c [t [-> W]]]] c' t' E; [discriminate|]. injection E as <- <-. exact (white_digit c W). Qed.
Lemma stops_take r : stops r -> take_digits r = [].
Proof. intros [->|[c [t [-> W]]]]; [reflexivity|]. cbn [take_digits]. rewrite (not_digit c (white_digit c W)). reflexivity. Qed.
Lemma word_skip (w : bytes) r : word w -> skip_space (w ++ r) = w ++ r.
Proof. intros [N F]. destruct w as [|c w]; [congruence|]. inversion F; subst. cbn [app]. apply skip_space_stop. assumption. Qed.
Lemma read_spelled w ws line : spelled (w :: ws) line -> exists r, read_word line = Some (w, r) /\ spelled ws r.
Proof.
  intros [gap [rest [-> [G [[N F] [R S]]]]]]. exists rest. split; [|exact S]. unfold read_word. rewrite skip_space_white by exact G.
  rewrite word_skip by (split; assumption). destruct w as [|c w]; [congruence|]. cbn [app]. f_equal. exact (take_word_word (c :: w) rest F R).
Qed.
Lemma read_nothing line : spelled [] line -> read_word line = None.
Proof. intro H. cbn [spelled] in H. unfold read_word. rewrite white_nil by exact H. reflexivity. Qed.

(* ---- integers ---- *)
Lemma text_eq ds : digits_text ds = text_of ds.
Proof. reflexivity. Qed.
Lemma skipn_text ds r : skipn (length (text_of ds)) (text_of ds ++ r) = r.
Proof. rewrite skipn_app, skipn_all, Nat.sub_diag. reflexivity. Qed.
(* the sign in front of something that is no sign *)
Lemma sign_skip s minus t : is_sign s minus -> (forall c u, t = c :: u -> c <> "+"%char /\ c <> "-"%char /\ ~ white c) -> s ++ t <> [] ->
  take_sign (skip_space (s ++ t)) = (minus, t).
Proof.
  intros [[-> ->]|[[-> ->]|[-> ->]]] H NE.
  - cbn [app]. destruct t as [|c u]; [exfalso; exact (NE eq_refl)|]. destruct (H c u eq_refl) as [P [M W]]. rewrite skip_space_stop by exact W.
    cbn [take_sign]. rewrite (eqb_no c "-"%char M), (eqb_no c "+"%char P). reflexivity.
  - cbn [app]. rewrite skip_space_stop by (intro X; unfold white in X; cbn in X; intuition discriminate). reflexivity.
  - cbn [app]. rewrite skip_space_stop by (intro X; unfold white in X; cbn in X; intuition discriminate). reflexivity.
Qed.
Lemma digit_plain d : d < 10 -> let c := ascii_of_N (48 + d) in c <> "+"%char /\ c <> "-"%char /\ ~ white c.
Proof.
  intro H. cbv zeta. split; [|split; [|apply digit_not_white; exact H]].
  - intro X. apply (f_equal N_of_ascii) in X. rewrite digit_code in X by exact H. change (N_of_ascii "+"%char) with 43 in X. lia.
  - intro X. apply (f_equal N_of_ascii) in X. rewrite digit_code in X by exact H. change (N_of_ascii "-"%char) with 45 in X. lia.
Qed.
Lemma text_plain ds r : ds <> [] -> Forall (fun d => d < 10) ds -> forall c u, text_of ds ++ r = c :: u -> c <> "+"%char /\ c <> "-"%char /\ ~ white c.
Proof. intros N F c u E. destruct ds as [|d ds]; [congruence|]. inversion F; subst. injection E as <- _. apply digit_plain. assumption. Qed.
Lemma whole_reads w z gap rest : whole w z -> Forall white gap -> stops rest ->
  exists minus ds, take_sign (skip_space (gap ++ w ++ rest)) = (minus, text_of ds ++ rest) /\ take_digits (text_of ds ++ rest) = text_of ds /\ text_of ds <> [] /\
    z = signed_by minus (Z.of_N (num_prefix 0 (text_of ds))).
Proof.
  intros [s [minus [d [n [-> [S [[ds [N [F [-> ->]]]] ->]]]]]]] G R. fold (text_of ds). exists minus, ds. split; [|split; [|split]].
  - rewrite skip_space_white by exact G. rewrite <- app_assoc. apply sign_skip; [exact S| |].
    + apply text_plain; assumption.
    + intro X. apply app_eq_nil in X. destruct X as [_ X]. apply app_eq_nil in X. destruct X as [X _]. destruct ds; [congruence|discriminate].
  - apply take_text; [exact F|exact (stops_digit rest R)].
  - destruct ds; [congruence|discriminate].
  - rewrite num_prefix_text by exact F. reflexivity.
Qed.
Lemma unsigned_spelled bits w n ws line : whole w (Z.of_N n) -> n < 2 ^ bits -> spelled (w :: ws) line -> exists r, rd_unsigned bits line = Some (n, r) /\ spelled ws r.
Proof.
  intros W L [gap [rest [-> [G [_ [R S]]]]]]. exists rest. split; [|exact S]. unfold rd_unsigned.
  destruct (whole_reads w _ gap rest W G R) as [minus [ds [E [T [N V]]]]]. rewrite E, T. destruct (text_of ds) as [|x t] eqn:X; [congruence|]. rewrite <- X in *. clear X.
  cbv zeta. assert (num_prefix 0 (text_of ds) = n) as Y by (unfold signed_by in V; destruct minus; lia). rewrite Y.
  assert ((2 ^ bits <=? n) = false) as Q by (apply N.leb_gt; exact L). rewrite Q, skipn_text. f_equal. f_equal.
  destruct minus; [|reflexivity]. unfold signed_by in V. rewrite Y in V. assert (n = 0) as -> by lia. rewrite N.sub_0_r. apply N.mod_same. apply N.pow_nonzero. discriminate.
Qed.
Lemma signed_spelled bits w z ws line : whole w z -> (- 2 ^ (Z.of_N bits - 1) <= z < 2 ^ (Z.of_N bits - 1))%Z -> spelled (w :: ws) line -> exists r, rd_signed bits line = Some (z, r) /\ spelled ws r.
Proof.
  intros W L [gap [rest [-> [G [_ [R S]]]]]]. exists rest. split; [|exact S]. unfold rd_signed.
  destruct (whole_reads w _ gap rest W G R) as [minus [ds [E [T [N V]]]]]. rewrite E, T. destruct (text_of ds) as [|x t] eqn:X; [congruence|]. rewrite <- X in *. clear X.
  cbv zeta. change (if minus then (- Z.of_N (num_prefix 0 (text_of ds)))%Z else Z.of_N (num_prefix 0 (text_of ds))) with (signed_by minus (Z.of_N (num_prefix 0 (text_of ds)))).
  rewrite <- V.
  assert (((z <? - 2 ^ (Z.of_N bits - 1))%Z || (2 ^ (Z.of_N bits - 1) - 1 <? z)%Z) = false) as Q by (apply orb_false_iff; split; apply Z.ltb_ge; lia).
  rewrite Q, skipn_text. reflexivity.
Qed.
(* the bytes *)
Lemma signed_holds n z : (0 < n)%nat -> holds_int n (signed_bytes n z) z.
Proof.
  intro H. unfold holds_int, signed_bytes. split; [apply le_enc_length|].
  pose proof (Z.mod_pos_bound z (2 ^ (8 * Z.of_nat n)) ltac:(apply Z.pow_pos_nonneg; lia)) as B.
  rewrite le_dec_enc; [apply Z2N.id; lia|]. apply N2Z.inj_lt. rewrite Z2N.id by lia. rewrite N2Z.inj_pow. replace (Z.of_N 256) with (2 ^ 8)%Z by reflexivity.
  rewrite <- Z.pow_mul_r by lia. rewrite nat_N_Z. lia.
Qed.
Lemma unsigned_holds k n v : k = 8 * N.of_nat n -> v < 2 ^ k -> holds_int n (le_enc n v) (Z.of_N v).
Proof.
  intros -> H. unfold holds_int. split; [apply le_enc_length|]. rewrite le_dec_enc.
  - symmetry. apply Z.mod_small. split; [lia|]. apply N2Z.inj_lt in H. rewrite N2Z.inj_pow in H. replace (Z.of_N (8 * N.of_nat n)) with (8 * Z.of_nat n)%Z in H by lia. exact H.
  - replace 256 with (2 ^ 8) by reflexivity. rewrite <- N.pow_mul_r. exact H.
Qed.
