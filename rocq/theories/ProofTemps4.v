(* lowest.c: all ranks store their cells, the rank of datastore 0 asks *)
From Verif Require Import ModelBytes ProofBytes ModelKey ModelWire ModelHist ModelMsg SpecMsg ModelStore ModelGetOp ModelDs
  ProofStore ProofDs ProofDs2 ModelElen ModelRoute SpecRoute ModelClient SpecClient SpecCluster
  ProofCluster ProofCluster2 SpecGetOp SpecLossy ProofLossy ModelFloat ModelTransform SpecElen ProofElen SpecTransform ProofTransform ProofFloat SpecLowest ModelLowest SpecTemps ProofTemps ProofTemps2 ProofTemps3.
From Verif Require Import SpecFp ProofFpBits SpecStore.
From Coq Require Import Reals.
Local Open Scope N_scope.

Lemma ds_run_app l l' : forall d d1 d2 rs rs', ds_run d l = Ok (d1, rs) -> ds_run d1 l' = Ok (d2, rs') -> ds_run d (l ++ l') = Ok (d2, rs ++ rs').
Proof.
  induction l as [|x l IH]; intros d d1 d2 rs rs' H H'.
  - cbn [ds_run] in H. apply Ok_inj in H. injection H as <- <-. exact H'.
  - cbn [ds_run app] in *. destruct (ds_step d x) as [[d0 r]| |]; cbn [obind] in *; try discriminate H. obind H a Ea. destruct a as [d3 rs3]. apply Ok_inj in H. injection H as <- <-.
    rewrite (IH _ _ _ _ _ Ea H'). reflexivity.
Qed.
Lemma holds_same e e' cl D : same_cluster e e' -> holds e cl D -> holds e' cl D.
Proof. intros (Ll & Tt & _) H id Hid. unfold an_id in Hid. rewrite <- Tt in Hid. specialize (H id Hid). unfold rank_of in *. rewrite <- Ll. exact H. Qed.
Lemma put_reqs_app l l' : put_reqs (l ++ l') = put_reqs l ++ put_reqs l'.
Proof. unfold put_reqs. rewrite !map_app. reflexivity. Qed.
Lemma put_changes l : flat_map changes (put_reqs l) = map Put (map put_req l).
Proof. unfold put_reqs. induction (map put_req l) as [|i r IH]; [reflexivity|]. cbn [map flat_map changes app]. rewrite IH. reflexivity. Qed.

Section Play.
Context (E : Z -> env) (k : backend) (c : codec) (e0 : env) (J : Z -> Prop).
Context (HJ : forall j, J j -> good_client (E j) /\ same_cluster e0 (E j) /\ always_0 (E j)).
Lemma puts_play : forall l S cl rws, (forall j, J j -> fresh (E j) (S j)) -> (forall j, In j (map fst l) -> J j) -> Forall (fun x => Forall (fit_put c) (snd x)) l ->
  holds e0 cl (only0 k c (mkDs k c true rws [])) ->
  exists S' cl' rws' xs rs, (forall j, J j -> fresh (E j) (S' j)) /\ holds e0 cl' (only0 k c (mkDs k c true rws' [])) /\ List.length xs = List.length l /\
    ds_run (mkDs k c true rws []) (map CallReq (put_reqs (flat_map (fun x => flat_map all_triples (snd x)) l))) = Ok (mkDs k c true rws' [], rs) /\
    forall rest, play E S cl (l ++ rest) = do (cl2, r) <- play E S' cl' rest; Ok (cl2, xs ++ r).
Proof.
  induction l as [|[i cs] l IH]; intros S cl rws HF Hl Hc H.
  - exists S, cl, rws, [], []. split; [exact HF|]. split; [exact H|]. split; [reflexivity|]. split; [reflexivity|]. intros rest. cbn [app]. destruct (play E S cl rest) as [[a b]| |]; reflexivity.
  - inversion Hc as [|? ? Hx Hc']; subst. cbn [snd] in Hx. assert (Ji : J i) by (apply Hl; left; reflexivity). destruct (HJ i Ji) as (G & Same & Z0).
    destruct (put_turn (E i) k c G Z0 (S i) cl cs rws (HF i Ji) (holds_same _ _ _ _ Same H) Hx) as (s1 & oks & s2 & cl2 & xs & rws1 & rs1 & Ec & Ef & F2 & H2 & R1).
    destruct (IH (next S i s2) cl2 rws1) as (S' & cl' & rws' & xss & rs & F' & H' & Len & R2 & P).
    + intros j Jj. unfold next. destruct (Z.eqb_spec j i) as [->|]; [exact F2|apply HF, Jj].
    + intros j Hj. apply Hl. right. exact Hj.
    + exact Hc'.
    + exact (holds_same _ _ _ _ (same_sym _ _ Same) H2).
    + exists S', cl', rws', (xs :: xss), (rs1 ++ rs). split; [exact F'|]. split; [exact H'|]. split; [cbn [List.length]; congruence|]. split.
      * cbn [flat_map snd]. rewrite put_reqs_app, map_app. exact (ds_run_app _ _ _ _ _ _ _ R1 R2).
      * intros rest. cbn [app play]. rewrite Ec. cbn [obind fst snd]. rewrite Ef. cbn [obind fst snd]. rewrite P.
        destruct (play E S' cl' rest) as [[a b]| |]; reflexivity.
Qed.
End Play.

Lemma omap_all {A B} (f : A -> outcome B) (g : A -> B) l : (forall a, In a l -> f a = Ok (g a)) -> omap f l = Ok (map g l).
Proof. induction l as [|a l IH]; intros H; [reflexivity|]. cbn [omap map]. rewrite (H a (or_introl eq_refl)). cbn [obind]. rewrite IH by (intros; apply H; right; assumption). reflexivity. Qed.

Section Program.
Context (L : libm) (u : callbacks) (GL : good_libm L) (SY : sym_ord (ne_neg (cb_num u)) (ne_pos (cb_num u))) (PC : N_of_ascii (ne_pos (cb_num u)) < 67).
Context (base temp_at : Z -> N) (nx ny : N) (temps : Z -> N -> N -> spec_float) (order : list Z).
Context (Rm : room nx ny) (Rk : forall r, In r order -> (0 <= r < 2 ^ 31)%Z) (Ad : forall r, In r order -> good_addresses (base r) (temp_at r) nx ny).
Context (Gt : forall p, places order nx ny p -> good_temp L u (temp_of temps p)).
Definition all_places : list place := flat_map (fun r => map (fun p => (r, fst p, snd p)) (grid nx ny)) order.
Lemma all_In p : In p all_places <-> places order nx ny p.
Proof.
  unfold all_places. rewrite in_flat_map. destruct p as [[r x] y]. cbn [places]. split.
  - intros (r' & Hr & Hp). apply in_map_iff in Hp as ([x' y'] & Eq & Hp). injection Eq as -> <- <-. apply grid_In in Hp. auto.
  - intros (Hr & Hx & Hy). exists r. split; [exact Hr|]. apply in_map_iff. exists (x, y). split; [reflexivity|]. apply grid_In. auto.
Qed.
Definition Na (p : place) : arg := let '(r, x, y) := p in mkArg (base r + 112 * index nx (x, y)) (cell_name r x y) T_BYTE.
Definition Ta (p : place) : arg := let '(r, x, y) := p in mkArg (temp_at r) TEMP T_BYTE.
Definition Va (p : place) : arg := let '(r, x, y) := p in mkArg (base r + 112 * index nx (x, y) + 104) (store_fp DBL (temps r x y)) T_DOUBLE.
Definition nm (p : place) : bytes := let '(r, x, y) := p in tl (cell_name r x y).
Lemma same_triples : flat_map (fun x => flat_map all_triples (snd x)) (map (fun r => (r, map (cell_call (base r) (temp_at r) r nx (temps r)) (grid nx ny))) order) = triples place Na Ta Va all_places.
Proof.
  unfold triples, all_places. clear. induction order as [|r l IH]; [reflexivity|]. cbn [map flat_map snd]. rewrite flat_map_app. f_equal; [clear IH|exact IH].
  induction (grid nx ny) as [|[x y] g IHg]; [reflexivity|]. cbn [map flat_map]. rewrite IHg. reflexivity.
Qed.
Lemma addr_nonzero a d t : a <> 0 -> ref_blob (mkArg a d t) = mkBlob false d t.
Proof. intros H. unfold ref_blob. cbn [a_addr a_data a_type]. apply N.eqb_neq in H. rewrite H. reflexivity. Qed.
Lemma args_ok p : places order nx ny p -> ref_blob (Na p) = byte_blob ("C"%char :: nm p) /\ ref_blob (Ta p) = byte_blob TEMP /\ ref_blob (Va p) = dbl_blob (temp_of temps p) /\ blen (nm p) < 2 ^ 32 /\
  fit (session L u) (Na p) /\ fit (session L u) (Ta p) /\ fit (session L u) (Va p).
Proof.
  destruct p as [[r x] y]. intros H. pose proof (Gt _ H) as (V & Fi & t & a & Sa & _). destruct H as (Hr & Hx & Hy). destruct (Ad r Hr) as (B0 & B1 & T0 & T1). destruct (index_small nx ny x y Rm Hx Hy) as [Ei Bi].
  assert (Bi' : index nx (x, y) < nx * ny) by (rewrite Ei; exact Bi).
  pose proof (name_short r x y (Rk r Hr)) as Sn. destruct Rm as (_ & _ & Nx & Ny). specialize (Sn ltac:(lia) ltac:(lia)).
  assert (RN : ref_blob (Na (r, x, y)) = byte_blob ("C"%char :: nm (r, x, y))) by (unfold Na; rewrite addr_nonzero by lia; reflexivity).
  assert (RT : ref_blob (Ta (r, x, y)) = byte_blob TEMP) by (unfold Ta; rewrite addr_nonzero by lia; reflexivity).
  assert (RV : ref_blob (Va (r, x, y)) = dbl_blob (temps r x y)) by (unfold Va; rewrite addr_nonzero by lia; reflexivity).
  split; [exact RN|]. split; [exact RT|]. split; [exact RV|]. split.
  { cbn [nm]. unfold blen in *. unfold cell_name in *. cbn [bstr list_ascii_of_string app tl List.length] in *. lia. }
  assert (gv : forall a d t, a <> 0 -> d <> [] -> given (mkArg a d t) = true).
  { intros a' d t' Ha Hd. unfold given. cbn [a_addr a_data]. apply N.eqb_neq in Ha. rewrite Ha. destruct d; [congruence|reflexivity]. }
  assert (l8 : List.length (store_fp DBL (temps r x y)) = 8%nat) by (unfold store_fp; apply le_enc_length).
  split; [|split]; split; (try (apply gv; [lia|])).
  - unfold cell_name. cbn. congruence.
  - rewrite RN, byte_code. split; [congruence|]. unfold Na. cbn [a_addr a_data a_type]. split; [unfold u64; lia|]. split; [|reflexivity]. assert (100 < 2 ^ 32) by reflexivity. lia.
  - unfold TEMP. cbn. congruence.
  - rewrite RT, byte_code. split; [congruence|]. unfold Ta. cbn [a_addr a_data a_type]. split; [exact T1|]. split; reflexivity.
  - intros E0. rewrite E0 in l8. discriminate l8.
  - cbn [temp_of] in Sa. rewrite RV, (dbl_code L u _ _ Sa). split; [congruence|]. unfold Va. cbn [a_addr a_data a_type]. split; [unfold u64; lia|]. split; [|reflexivity]. unfold blen. rewrite l8. reflexivity.
Qed.

Lemma lowest_runs E S cl e0 k i n : order <> [] -> 1 <= nx -> 1 <= ny -> 1 <= n -> temp_at i <> 0 ->
  (forall j, j = i \/ In j order -> good_client (E j) /\ same_cluster e0 (E j) /\ always_0 (E j) /\ fresh (E j) (S j)) ->
  holds e0 cl (fun _ => opened k (session L u)) -> far (E i) 0 = false ->
  exists cl' rs xs, lowest_program E S cl base temp_at nx ny temps order i n GETOP_LOWEST = Ok (cl', rs ++ [xs]) /\ List.length rs = List.length order /\
    shows_lowest L u temps order nx ny n xs.
Proof.
  intros No Nx Ny Hn Ti HE H Fa. unfold lowest_program.
  rewrite (omap_all _ (fun r => (r, map (cell_call (base r) (temp_at r) r nx (temps r)) (grid nx ny)))).
  2: { intros r Hr. rewrite cell_puts_ok by (try exact Rm; apply Rk, Hr). reflexivity. }
  cbn [obind]. set (l := map _ order).
  destruct (puts_play E k (session L u) e0 (fun j => j = i \/ In j order)) with (l := l) (S := S) (cl := cl) (rws := @nil (bytes * bytes)) as (S' & cl' & rws' & xss & rs & F' & H' & Len & R & P).
  - intros j Hj. destruct (HE j Hj) as (A & B & C & _). auto.
  - intros j Hj. apply HE, Hj.
  - intros j Hj. unfold l in Hj. rewrite map_map in Hj. cbn [fst] in Hj. rewrite map_id in Hj. right. exact Hj.
  - unfold l. apply Forall_forall. intros x Hx. apply in_map_iff in Hx as (r & <- & Hr). cbn [snd]. apply Forall_forall. intros y Hy. apply in_map_iff in Hy as ([a b] & <- & Hp).
    apply grid_In in Hp as [Ha Hb]. destruct (args_ok (r, a, b)) as (_ & _ & _ & _ & F1 & F2 & F3); [cbn [places]; auto|]. split; [exact F1|]. split; [exact F2|exact F3].
  - intros id Hid. rewrite (H id Hid). unfold only0, opened. destruct (id =? 0)%Z; reflexivity.
  - unfold l in R. rewrite same_triples in R.
    destruct (cells_lowest L u GL SY PC place (temp_of temps) nm Na Ta Va all_places) with (k := k) (h := put_reqs (triples place Na Ta Va all_places)) (d := mkDs k (session L u) true rws' []) (rs := rs) (n := n) (ot := T_BYTE)
      as (g & cs & ys & zs & Ha & St & Er & NE & F1 & Inc & So & Le & Re & Cov).
    + intros p Hp. apply all_In in Hp. apply args_ok, Hp.
    + intros p Hp. apply all_In in Hp. apply args_ok, Hp.
    + intros p Hp. apply all_In in Hp. apply args_ok, Hp.
    + intros p Hp. apply all_In in Hp. apply Gt, Hp.
    + intros p Hp. apply all_In in Hp. apply args_ok, Hp.
    + apply put_changes.
    + exact R.
    + destruct order as [|r0 o0] eqn:Eo; [congruence|]. intros E0. assert (X : In (r0, 0, 0) all_places) by (apply all_In; cbn [places]; split; [rewrite Eo; left; reflexivity|lia]). rewrite E0 in X. destruct X.
    + exact Hn.
    + destruct (HE i (or_introl eq_refl)) as (G & Same & Z0 & _).
      assert (EG : getop_results 0 g = Ok (map (fun r => XGetOp 0 true (rc_sub r) (rc_pred r) (rc_obj r)) (ys ++ zs))).
      { unfold getop_results. rewrite St. rewrite <- Er. destruct (gp_recs g) as [|r0 rr]; [congruence|]. reflexivity. }
      assert (EQ : getop_req (mkArg (temp_at i) TEMP T_BYTE, mkArg 0 [] T_DOUBLE, T_BYTE, n, GETOP_LOWEST) = ask_lowest (byte_blob TEMP) T_DOUBLE T_BYTE n).
      { unfold getop_req, ask_lowest. rewrite addr_nonzero by exact Ti. reflexivity. }
      rewrite <- EQ in Ha.
      destruct (ask_turn (E i) k (session L u) G Z0 (S' i) cl' (mkDs k (session L u) true rws' []) (mkArg (temp_at i) TEMP T_BYTE) (mkArg 0 [] T_DOUBLE) T_BYTE n GETOP_LOWEST g (map (fun r => XGetOp 0 true (rc_sub r) (rc_pred r) (rc_obj r)) (ys ++ zs)) (F' i (or_introl eq_refl))
        (holds_same _ _ _ _ Same H') Fa) as (s1 & oks & s2 & cl2 & Ec & Ef).
      * unfold given. cbn [a_addr a_data]. apply N.eqb_neq in Ti. rewrite Ti. reflexivity.
      * split; [intros E0; cbn [a_addr] in E0; congruence|reflexivity].
      * split; reflexivity.
      * exact Ha.
      * exact EG.
      * apply Forall_forall. intros r Hr. apply in_map_iff in Hr as (z & <- & _). reflexivity.
      * exists cl2, xss. eexists. split; [|split; [rewrite Len; unfold l; apply map_length|]].
        -- rewrite P. cbn [play]. unfold ask_call. rewrite Ec. cbn [obind fst snd]. rewrite Ef. cbn [obind fst snd]. reflexivity.
        -- rewrite map_app. exists cs, (map (fun r => XGetOp 0 true (rc_sub r) (rc_pred r) (rc_obj r)) ys), (map (fun r => XGetOp 0 true (rc_sub r) (rc_pred r) (rc_obj r)) zs).
           split; [reflexivity|]. split.
           { clear - F1. induction F1 as [|p r cs ys (t & Sv & ->) _ IH]; constructor; [|exact IH]. destruct p as [[r x] y]. exists t. split; [exact Sv|]. reflexivity. }
           split; [apply Forall_forall; intros p Hp; apply all_In, Inc, Hp|]. split; [exact So|]. split; [exact Le|]. split; [intros Q; rewrite (Re Q); reflexivity|].
           intros d Hd. apply Cov, all_In, Hd.
Qed.
End Program.
