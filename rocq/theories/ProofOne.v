(* BPUTs of one type among other calls and flushes *)
From Verif Require Import ModelBytes ProofBytes ModelKey ModelWire ModelHist ModelMsg SpecMsg ModelStore ModelGetOp ModelDs
  SpecStore ProofStore ProofDs ProofDs2 ModelElen ModelRoute SpecRoute ProofRoute ProofRoute2 ModelClient SpecClient SpecCluster
  ProofClient ProofClient2 ProofClient3 ProofClient4 ProofClient5 ProofClient6 ProofClient7 ProofCluster ProofCluster2 SpecGetOp SpecScan
  SpecTyped ProofTyped ProofTyped2 SpecMixed ProofMixed SpecMixed3 ProofMixed3 SpecOne SpecStore SpecTyped.
Local Open Scope N_scope.

(* ---- a BPUT of one type is the BPUT, and at the limit what FlushPuts does ---- *)
Definition keeping (s : session) (xs : list result) : session := mkSession (s_up s) (s_qs s) (s_count s) (s_kept s ++ xs).
Lemma put_one_is e s cl ty l : do_call e s cl (CBPutOne true ty (Some l)) =
  (do (a, ok) <- do_call e s cl (CBPut (Some (map (retype ty) l)));
   if ok && (e_max_queued e <=? s_count (fst a)) then do (b, xs) <- flush_puts e (fst a) (snd a); Ok (keeping (fst b) xs, snd b, ok) else Ok (a, ok)).
Proof.
  unfold do_call. destruct (negb (s_up s)); [reflexivity|]. cbn [negb andb]. change (fun '(x, y, z, m) => (x, y, {| a_addr := a_addr z; a_data := a_data z; a_type := ty |}, m)) with (retype ty).
  destruct (bput_loop e (map (retype ty) l) (q_puts (s_qs s)) 0) as [[q n]| |]; [|reflexivity|reflexivity]. cbn [obind fst snd andb]. unfold serial_puts, flush_puts.
  cbn [with_puts s_count s_qs q_puts]. destruct (e_max_queued e <=? s_count s + n); [|reflexivity].
  destruct (process e QPut q cl) as [[cl' xs]| |]; reflexivity.
Qed.

(* ---- the number of PUTs that wait ---- *)
Lemma call_count e s cl x s' cl' ok : plain x -> s_up s = true -> do_call e s cl x = Ok (s', cl', ok) -> s_count s' = s_count s + N.of_nat (length (call_puts e x)).
Proof.
  intros Hp Hu H. unfold do_call in H. rewrite Hu in H. cbn [negb] in H.
  assert (Z0 : forall n : N, n + N.of_nat (@length (arg * arg * arg) []) = n) by (intro n; cbn [length]; lia).
  destruct x as [x y z m|x y ty|x y ty n op|x y|id nm|[l|]|[l|]|[l|]|[l|]|[l|]|ty t [l|]|ty t [l|]|ty o t [l|]]; cbn [call_puts]; cbn [plain] in Hp; try contradiction.
  - destruct (given x && given y && given z); [|rewrite Z0; congruence]. obind H a Ea. destruct a as [[q k] o]. apply Ok_inj in H. injection H as <- _ _.
    apply put_impl_added in Ea as (_ & -> & _). reflexivity.
  - destruct (given x && given y); [|rewrite Z0; congruence]. obind H a Ea. destruct a as [q o]. apply Ok_inj in H. injection H as <- _ _. rewrite Z0. reflexivity.
  - destruct (given x); [|rewrite Z0; congruence]. obind H a Ea. destruct a as [q o]. apply Ok_inj in H. injection H as <- _ _. rewrite Z0. reflexivity.
  - destruct (given x && given y); [|rewrite Z0; congruence]. obind H a Ea. destruct a as [q o]. apply Ok_inj in H. injection H as <- _ _. rewrite Z0. reflexivity.
  - destruct (accepts e id); [|rewrite Z0; congruence]. obind H a Ea. apply Ok_inj in H. injection H as <- _ _. rewrite Z0. reflexivity.
  - obind H a Ea. destruct a as [q k]. apply Ok_inj in H. injection H as <- _ _. apply bput_loop_added in Ea as (_ & ->). reflexivity.
  - rewrite Z0. congruence.
  - obind H a Ea. apply Ok_inj in H. injection H as <- _ _. rewrite Z0. reflexivity.
  - rewrite Z0. congruence.
  - obind H a Ea. apply Ok_inj in H. injection H as <- _ _. rewrite Z0. reflexivity.
  - rewrite Z0. congruence.
  - obind H a Ea. apply Ok_inj in H. injection H as <- _ _. rewrite Z0. reflexivity.
  - rewrite Z0. congruence.
  - rewrite Z0. destruct (forallb _ l); [|congruence]. obind H a Ea. apply Ok_inj in H. injection H as <- _ _. reflexivity.
  - rewrite Z0. congruence.
  - rewrite Z0. destruct (negb ty && _); [congruence|]. obind H a Ea. apply Ok_inj in H. injection H as <- _ _. reflexivity.
  - rewrite Z0. congruence.
  - rewrite Z0. destruct o; [congruence|]. destruct (negb _); congruence.
  - rewrite Z0. congruence.
Qed.
Definition counts_left (p : option piece) (n : N) : N := match p with None | Some Puts => 0 | _ => n end.
Lemma send_count e s cl p s' cl' xs : send e s cl p = Ok (s', cl', xs) -> s_count s' = counts_left p (s_count s).
Proof.
  destruct p as [[| | |]|]; cbn [send counts_left]; intro H; [| | | |unfold flush in H; obind H a Ea; destruct a as [[a1 a2] a3]; obind H b Eb; destruct b as [[b1 b2] b3];
    obind H d Ed; destruct d as [[d1 d2] d3]; obind H f Ef; destruct f as [[f1 f2] f3]; cbn [fst snd] in *; obind H g Eg; destruct g as [[g1 g2] g3]; apply Ok_inj in H; injection H as <- _ _;
    unfold flush_puts in Ea; obind Ea y Ey; destruct y as [y1 y2]; apply Ok_inj in Ea; injection Ea as <- _ _;
    unfold flush_gets in Eb; obind Eb z Ez; destruct z as [z1 z2]; apply Ok_inj in Eb; injection Eb as <- _ _;
    unfold flush_getops in Ed; obind Ed u Eu; destruct u as [u1 u2]; apply Ok_inj in Ed; injection Ed as <- _ _;
    unfold flush_dels in Ef; obind Ef v Ev; destruct v as [v1 v2]; apply Ok_inj in Ef; injection Ef as <- _ _;
    unfold flush_hists in Eg; obind Eg r Er; destruct r as [r1 r2]; apply Ok_inj in Eg; injection Eg as <- _ _; reflexivity].
  - unfold flush_puts in H. obind H a Ea. destruct a as [a1 a2]. apply Ok_inj in H. injection H as <- _ _. reflexivity.
  - unfold flush_gets in H. obind H a Ea. destruct a as [a1 a2]. apply Ok_inj in H. injection H as <- _ _. reflexivity.
  - unfold flush_getops in H. obind H a Ea. destruct a as [a1 a2]. apply Ok_inj in H. injection H as <- _ _. reflexivity.
  - unfold flush_dels in H. obind H a Ea. destruct a as [a1 a2]. apply Ok_inj in H. injection H as <- _ _. reflexivity.
Qed.
Lemma pieces_count p w n : n = N.of_nat (length (w_puts w)) -> counts_left p n = N.of_nat (length (w_puts (fold_left without (pieces p) w))).
Proof. intros ->. destruct p as [[| | |]|]; reflexivity. Qed.

(* ---- calls ---- *)
Lemma spelled_same x : one_type x = false -> spelled x = x.
Proof. destruct x; try reflexivity. discriminate. Qed.
Lemma one_type_cases c x : obj_call c (spelled x) -> one_type x = false \/ exists ty l, x = CBPutOne true ty (Some l).
Proof. destruct x as [| | | | | | | | | |[|] ty [l|]| |]; cbn [spelled one_type obj_call]; try (left; reflexivity); try contradiction. right. eauto. Qed.
Lemma kept_spelled c x : obj_call c (spelled x) -> spelled (kept_one c x) = kept c (spelled x) /\ one_type (kept_one c x) = one_type x.
Proof.
  intros H. destruct (one_type_cases c x H) as [E|(ty & l & ->)].
  - rewrite (spelled_same x E). assert (K : kept_one c x = kept c x) by (destruct x; try reflexivity; discriminate). rewrite K.
    assert (E' : one_type (kept c x) = false) by (destruct x as [| | | | |[l|]| | | | | | |]; try reflexivity; discriminate). rewrite (spelled_same _ E'). split; [reflexivity|congruence].
  - cbn [kept_one spelled one_type kept]. split; [|reflexivity]. f_equal. f_equal. rewrite !map_map. apply map_ext. intros [[[s p] o] m]. reflexivity.
Qed.
Lemma keep_length c w : length (w_puts (keep_wait c w)) = length (w_puts w).
Proof. apply map_length. Qed.

(* the queues without what is kept *)
Lemma queues_keeping e s w xs : queues e s w -> queues e (keeping s xs) w.
Proof. intros [U P G O D H]. constructor; assumption. Qed.
Lemma call_step1 e k c s cl w M x : good_client e -> queues e s w -> obj_good c w -> stores2 e k c cl M -> s_count s = N.of_nat (length (w_puts w)) -> obj_call c (spelled x) ->
  let w' := wait e w (spelled x) in (at_limit e x w' = true -> one_per_rank e (used e w' Puts)) ->
  exists s' cl' ok, do_call e s cl x = Ok (s', cl', ok) /\
    let w2 := if at_limit e x w' then without w' Puts else w' in
    queues e s' w2 /\ obj_good c w2 /\ s_count s' = N.of_nat (length (w_puts w2)) /\
    stores2 e k c cl' (if at_limit e x w' then put_all M (w_puts (keep_wait c w')) else M).
Proof.
  intros G Q A HS Hn Hx w' Ho.
  destruct (call_queues2 e c s cl w (spelled x) G Q Hx) as (s' & ok & Ec & Q'). pose proof (call_good2 e c w (spelled x) Hx A) as A'. fold w' in Q', A'.
  assert (Hc : s_count s' = N.of_nat (length (w_puts w'))).
  { rewrite (call_count e s cl (spelled x) s' cl ok (obj_plain c _ Hx) (ltac:(apply Q)) Ec), Hn. unfold w', wait. cbn [w_puts]. rewrite app_length. lia. }
  destruct (one_type_cases c x Hx) as [E|(ty & l & ->)].
  - assert (El : at_limit e x w' = false) by (unfold at_limit; rewrite E; reflexivity). rewrite El. rewrite (spelled_same x E) in Ec. exists s', cl, ok. auto.
  - rewrite put_one_is. cbn [spelled] in Ec. change (fun '(x, y, z, m) => (x, y, {| a_addr := a_addr z; a_data := a_data z; a_type := ty |}, m)) with (retype ty) in Ec. rewrite Ec.
    assert (ok = true) as ->. { unfold do_call in Ec. assert (s_up s = true) as U by apply Q. rewrite U in Ec. cbn [negb] in Ec. obind Ec a Ea. congruence. }
    cbn [obind fst snd andb]. rewrite Hc. unfold at_limit in Ho |- *. cbn [one_type andb] in Ho |- *.
    destruct (e_max_queued e <=? N.of_nat (length (w_puts w'))) eqn:El; [|exists s', cl, true; auto].
    destruct (piece_step2 e k c G s' cl w' M Puts Q' A' HS (Ho eq_refl)) as (s2 & cl2 & xs & ys & E2 & Q2 & A2 & HS2 & _). cbn [send] in E2. rewrite E2. cbn [obind fst snd].
    exists (keeping s2 xs), cl2, true. split; [reflexivity|]. split; [apply queues_keeping, Q2|]. split; [exact A2|]. split; [|exact HS2].
    exact (send_count e s' cl (Some Puts) s2 cl2 xs E2).
Qed.

Lemma all_step E k c e0 : forall l S cl M W W',
  (forall i, In i (map fst l) -> good_client (E i) /\ same_cluster e0 (E i) /\ queues (E i) (S i) (W i) /\ obj_good c (W i) /\ s_count (S i) = N.of_nat (length (w_puts (W i)))) ->
  stores2 e0 k c cl M -> (forall i, W' i = keep_wait c (W i)) -> Forall (any_move c) l -> all_apart E W l ->
  exists cl' rs, moves E S cl l = Ok (cl', rs) /\ all_seen E k c M W' (map (kept_any c) l) rs.
Proof.
  induction l as [|[i [x|p]] l IH]; intros S cl M W W' HE HS EW HF HA; [exists cl, []; split; reflexivity| |];
    apply Forall_cons_iff in HF as [Hx HF]; destruct (HE i (or_introl eq_refl)) as (G & Same & Q & A & Hn);
    cbn [moves all_seen map kept_any fst snd all_apart] in *; cbn [any_move snd] in Hx.
  - destruct (call_step1 (E i) k c (S i) cl (W i) M x G Q A (stores2_same _ _ _ _ _ _ Same HS) Hn Hx) as (s' & cl1 & ok & Ec & Q' & A' & Hn' & HS').
    { intros El. rewrite El in HA. apply HA. }
    rewrite Ec. cbn [obind fst snd]. destruct (kept_spelled c x Hx) as [K1 K2]. rewrite K1, EW, <- (keep_call (E i) c (W i) (spelled x) Hx).
    assert (El : at_limit (E i) (kept_one c x) (keep_wait c (wait (E i) (W i) (spelled x))) = at_limit (E i) x (wait (E i) (W i) (spelled x))).
    { unfold at_limit. rewrite K2, keep_length. reflexivity. }
    rewrite El. apply (stores2_same _ _ _ _ _ _ (same_sym _ _ Same)) in HS'.
    assert (HN : forall w2, queues (E i) s' w2 -> obj_good c w2 -> s_count s' = N.of_nat (length (w_puts w2)) ->
      forall j, In j (map fst l) -> good_client (E j) /\ same_cluster e0 (E j) /\ queues (E j) (next S i s' j) (waits W i w2 j) /\ obj_good c (waits W i w2 j) /\
        s_count (next S i s' j) = N.of_nat (length (w_puts (waits W i w2 j)))).
    { intros w2 B1 B2 B3 j Hj. destruct (HE j (or_intror Hj)) as (G' & Same' & Qj & Aj & Hj'). split; [exact G'|]. split; [exact Same'|].
      unfold next, waits. destruct (Z.eqb_spec j i) as [->|]; auto. }
    destruct (at_limit (E i) x (wait (E i) (W i) (spelled x))).
    + eapply IH; [apply (HN _ Q' A' Hn')|exact HS'| |exact HF|apply HA].
      intro j. unfold waits. destruct (Z.eqb_spec j i) as [->|]; [|apply EW]. symmetry. apply (keep_without c _ Puts).
    + eapply IH; [apply (HN _ Q' A' Hn')|exact HS'| |exact HF|exact HA].
      intro j. unfold waits. destruct (Z.eqb_spec j i) as [->|]; [|apply EW]. reflexivity.
  - destruct HA as (Hp & HA).
    destruct (send_step2 (E i) k c G (S i) cl (W i) M p Q A (stores2_same _ _ _ _ _ _ Same HS) Hp) as (s' & cl1 & xs & ys & Es & Q' & A' & HS' & Y & Pm).
    rewrite Es. cbn [obind fst snd]. rewrite <- EW in HS', Y.
    destruct (IH (next S i s') cl1 (left_all (E i) k M (W' i) (pieces p)) (waits W i (fold_left without (pieces p) (W i))) (waits W' i (fold_left without (pieces p) (W' i)))) as (cl' & rs & Em & R).
    + intros j Hj. destruct (HE j (or_intror Hj)) as (G' & Same' & Qj & Aj & Hj'). split; [exact G'|]. split; [exact Same'|].
      unfold next, waits. destruct (Z.eqb_spec j i) as [->|]; [|auto]. split; [exact Q'|]. split; [exact A'|]. rewrite (send_count _ _ _ _ _ _ _ Es). apply pieces_count, Hn.
    + eapply stores2_same; [apply same_sym, Same|exact HS'].
    + intro j. unfold waits. destruct (Z.eqb_spec j i) as [->|]; [|apply EW]. rewrite EW. symmetry. apply keep_pieces.
    + exact HF.
    + exact HA.
    + rewrite Em. cbn [obind]. exists cl', (xs :: rs). split; [reflexivity|]. exists xs, ys, rs. auto.
Qed.
Lemma cluster_all E k c e0 S cl l :
  (forall i, In i (map fst l) -> good_client (E i) /\ same_cluster e0 (E i) /\ fresh (E i) (S i) /\ s_count (S i) = 0) ->
  holds e0 cl (fun _ => opened k c) -> Forall (any_move c) l -> all_apart E (fun _ => idle) l ->
  exists cl' rs, moves E S cl l = Ok (cl', rs) /\ all_seen E k c no_triples (fun _ => idle) (map (kept_any c) l) rs.
Proof.
  intros HE H HF HA. eapply all_step; [| | |exact HF|exact HA].
  - intros i Hi. destruct (HE i Hi) as (G & Same & F & Hn). split; [exact G|]. split; [exact Same|]. split; [apply fresh_queues, F|]. split; [repeat split; constructor|]. rewrite Hn. reflexivity.
  - intros id Hid. exists (opened k c), no_triples. split; [apply H, Hid|]. split.
    + exists [], no_triples. split; [reflexivity|]. split; [apply agrees2_empty|]. reflexivity.
    + intros s p. destruct (goesf e0 id s p); reflexivity.
  - reflexivity.
Qed.
Lemma all_apart_one E l : (forall i, In i (map fst l) -> setting (E i) /\ l_per (e_layout (E i)) = 1%Z) -> forall W, all_apart E W l.
Proof.
  induction l as [|[i [x|p]] l IH]; intros H W; [exact Logic.I| |]; cbn [all_apart]; destruct (H i (or_introl eq_refl)) as [B1 B2];
    [destruct (at_limit _ _ _); [split; [exact (proj1 (pieces_apart_one (E i) [Puts] B1 B2 (wait (E i) (W i) (spelled x))))|]|]|split; [apply pieces_apart_one; assumption|]];
    apply IH; intros j Hj; apply H; right; exact Hj.
Qed.
Lemma seen_others E k c : forall l M W rs, (forall i x, In (i, Say x) l -> one_type x = false) -> (all_seen E k c M W l rs <-> moves_seen E k c M W l rs).
Proof.
  induction l as [|[i [x|p]] l IH]; intros M W rs H; [reflexivity| |]; cbn [all_seen moves_seen]; assert (H' : forall j y, In (j, Say y) l -> one_type y = false) by (intros j y Hj; apply (H j); right; exact Hj).
  - assert (N : one_type x = false) by (apply (H i); left; reflexivity). unfold at_limit. rewrite N, (spelled_same x N). cbn [andb]. apply IH, H'.
  - split; intros (xs & ys & rs' & A & B & C & D); exists xs, ys, rs'; (split; [exact A|]; split; [exact B|]; split; [exact C|]; apply IH; [exact H'|exact D]).
Qed.
