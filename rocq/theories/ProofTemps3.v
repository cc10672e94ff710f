(* the rows that lowest.c leaves, and the lowest of them *)
From Verif Require Import ModelBytes ProofBytes ModelKey ModelElen ModelHist ModelMsg ModelStore ModelGetOp ModelDs ModelTransform ModelFloat SpecElen ProofElen SpecStore
  ProofStore ProofDs SpecGetOp SpecTransform ProofTransform SpecFp ProofFpBase ProofFpBits ProofFpOrder ProofFloat SpecLossy ProofLossy ProofLossy2 SpecLowest ProofLossy3
  ModelRoute ModelClient SpecClient SpecCluster ModelLowest SpecTemps ProofTemps ProofTemps2.
From Verif Require Import SpecFp SpecStore.
From Coq Require Import Reals Psatz.
Local Open Scope N_scope.

Lemma byte_enc L u d : c_enc (session L u) T_BYTE false d = Ok (Some d).
Proof. unfold session. rewrite (proj1 (session_known (libm_codec L) u T_BYTE ltac:(cbn [known_types In]; tauto))). reflexivity. Qed.
Lemma byte_dec L u d : c_dec (session L u) T_BYTE d = Ok (Some d).
Proof. unfold session. rewrite (proj2 (session_known (libm_codec L) u T_BYTE ltac:(cbn [known_types In]; tauto))). reflexivity. Qed.
Definition byte_blob (d : bytes) : blob := mkBlob false d T_BYTE.
Definition dbl_blob (x : spec_float) : blob := mkBlob false (store_fp DBL x) T_DOUBLE.
Lemma byte_code L u d : code (session L u) (byte_blob d) = Some (mkField d T_BYTE).
Proof. unfold code, byte_blob. cbn [b_type b_null b_data]. rewrite byte_enc. reflexivity. Qed.
Lemma dbl_code L u x a : stored L u T_DOUBLE DBL x a -> code (session L u) (dbl_blob x) = Some (mkField a T_DOUBLE).
Proof. unfold stored, code, dbl_blob. cbn [b_type b_null b_data]. intros ->. reflexivity. Qed.
Lemma byte_back L u d r : d <> [] -> (back (session L u) (byte_blob d) r <-> r = byte_blob d).
Proof.
  intros N. assert (Z : (blen d =? 0) = false) by (destruct d; [congruence|reflexivity]). split.
  - intros (f & e & Ef & Ed & ->). rewrite byte_code in Ef. injection Ef as <-. cbn [f_type f_data] in Ed. rewrite byte_dec in Ed. apply Ok_inj in Ed. injection Ed as <-. unfold byte_blob. cbn [b_type]. rewrite Z. reflexivity.
  - intros ->. exists (mkField d T_BYTE), d. split; [apply byte_code|]. split; [apply byte_dec|]. unfold byte_blob. cbn [b_type]. rewrite Z. reflexivity.
Qed.

Lemma item_dec (i j : put_item) : {i = j} + {i <> j}.
Proof. repeat decide equality. Qed.

Section Rows.
Context (L : libm) (u : callbacks) (GL : good_libm L) (SY : sym_ord (ne_neg (cb_num u)) (ne_pos (cb_num u))) (PC : N_of_ascii (ne_pos (cb_num u)) < 67).
Context (A : Type) (temp : A -> spec_float) (name : A -> bytes) (Na Ta Va : A -> arg) (cells : list A).
Context (HN : forall c, In c cells -> ref_blob (Na c) = byte_blob ("C"%char :: name c)).
Context (HT : forall c, In c cells -> ref_blob (Ta c) = byte_blob TEMP).
Context (HV : forall c, In c cells -> ref_blob (Va c) = dbl_blob (temp c)).
Context (GT : forall c, In c cells -> good_temp L u (temp c)).
Context (LN : forall c, In c cells -> blen (name c) < 2 ^ 32).
Notation cd := (session L u).
Definition triples : list (arg * arg * arg) := flat_map (fun c => put_triples (Na c) (Ta c) (Va c) 63) cells.
Definition items : list put_item := map put_req triples.
Definition row (c : A) : put_item := put_req (Ta c, Va c, Na c).

Lemma temp_number c : In c cells -> number_of T_DOUBLE (store_fp DBL (temp c)) (val (temp c)).
Proof. intros I. destruct (GT c I) as (V & F & _). right. exists DBL, (temp c). split; [right; split; reflexivity|]. auto. Qed.
Lemma temp_stored c : In c cells -> exists x r, stored L u T_DOUBLE DBL (temp c) (x :: r) /\ blen (x :: r) < 2 ^ 64 /\ N_of_ascii x < 67.
Proof.
  intros I. destruct (number_enc L u _ _ _ GL SY (temp_number c I)) as (x & r & E & B). exists x, r. split; [exact E|].
  destruct (GT c I) as (_ & _ & y & a & Sa & Ba & _). unfold stored in Sa. rewrite E in Sa. apply Ok_inj in Sa. injection Sa as <-. split; [exact Ba|lia].
Qed.
(* the six rows of a cell *)
Lemma item_cases i : In i items -> exists c, In c cells /\ In i (map put_req [(Na c, Ta c, Va c); (Na c, Va c, Ta c); (Ta c, Na c, Va c); (Ta c, Va c, Na c); (Va c, Na c, Ta c); (Va c, Ta c, Na c)]).
Proof. unfold items, triples. intros H. apply in_map_iff in H as (t & <- & H). apply in_flat_map in H as (c & I & H). exists c. split; [exact I|]. apply in_map. exact H. Qed.
Lemma row_in c : In c cells -> In (row c) items.
Proof. intros I. unfold row, items. apply in_map. unfold triples. apply in_flat_map. exists c. split; [exact I|]. cbn. tauto. Qed.
Lemma codes3 c : In c cells -> code cd (ref_blob (Na c)) = Some (mkField ("C"%char :: name c) T_BYTE) /\ code cd (ref_blob (Ta c)) = Some (mkField TEMP T_BYTE) /\
  exists x r, code cd (ref_blob (Va c)) = Some (mkField (x :: r) T_DOUBLE) /\ stored L u T_DOUBLE DBL (temp c) (x :: r) /\ blen (x :: r) < 2 ^ 64 /\ N_of_ascii x < 67.
Proof.
  intros I. rewrite (HN c I), (HT c I), (HV c I), !byte_code. split; [reflexivity|]. split; [reflexivity|].
  destruct (temp_stored c I) as (x & r & S & B & Bx). exists x, r. rewrite (dbl_code L u _ _ S). auto.
Qed.
Lemma row_pair c a : In c cells -> stored L u T_DOUBLE DBL (temp c) a -> pair_of cd (Put (row c)) = Some (mkField TEMP T_BYTE, mkField a T_DOUBLE).
Proof.
  intros I S. destruct (codes3 c I) as (CN & CT & _). unfold pair_of, row, put_req. cbn [pi_sub pi_pred pi_obj]. rewrite CN. unfold codes. rewrite CT, (HV c I), (dbl_code L u _ _ S). reflexivity.
Qed.
Lemma item_known i : In i items -> pair_of cd (Put i) <> None /\ small_change cd (Put i) /\ exists r, back3 cd i r.
Proof.
  intros H. destruct (item_cases i H) as (c & I & K). destruct (codes3 c I) as (CN & CT & x & r & CV & S & B & _). destruct (GT c I) as (_ & _ & y & a & Sa & Ba & D).
  assert (a = x :: r) as -> by (unfold stored in *; congruence).
  assert (SN : small cd (ref_blob (Na c))). { intros f E. rewrite CN in E. injection E as <-. cbn [f_data f_type]. split; [|reflexivity]. unfold blen. cbn [List.length]. specialize (LN c I). unfold blen in LN. lia. }
  assert (ST : small cd (ref_blob (Ta c))) by (intros f E; rewrite CT in E; injection E as <-; split; reflexivity).
  assert (SV : small cd (ref_blob (Va c))) by (intros f E; rewrite CV in E; injection E as <-; split; [exact B|reflexivity]).
  assert (BN : exists r, back cd (ref_blob (Na c)) r) by (exists (byte_blob ("C"%char :: name c)); rewrite (HN c I); apply byte_back; [congruence|reflexivity]).
  assert (BT : exists r, back cd (ref_blob (Ta c)) r) by (exists (byte_blob TEMP); rewrite (HT c I); apply byte_back; [unfold TEMP; cbn; congruence|reflexivity]).
  assert (BV : exists r, back cd (ref_blob (Va c)) r).
  { exists (dbl_blob y). rewrite (HV c I). unfold dbl_blob. eapply back_fp; [exists (x :: r); split; eassumption|right; split; reflexivity|reflexivity]. }
  destruct BN as [bn BN], BT as [bt BT], BV as [bv BV].
  assert (Q : forall s p o fs fp fo, code cd (ref_blob s) = Some fs -> code cd (ref_blob p) = Some fp -> code cd (ref_blob o) = Some fo -> pair_of cd (Put (put_req (s, p, o))) <> None).
  { intros s p o fs fp fo Es Ep Eo. unfold pair_of, put_req. cbn [pi_sub pi_pred pi_obj]. rewrite Eo. unfold codes. rewrite Es, Ep. discriminate. }
  cbn [map In] in K.
  destruct K as [<-|[<-|[<-|[<-|[<-|[<-|[]]]]]]]; (split; [eapply Q; eassumption|]); (split; [cbn [small_change put_req pi_sub pi_pred pi_obj]; auto|]);
    eexists (mkRec _ _ _); (split; [|split]); cbn [put_req pi_sub pi_pred pi_obj rc_sub rc_pred rc_obj]; eassumption.
Qed.
Lemma row_reading c : In c cells -> reading cd (byte_blob TEMP) T_DOUBLE (row c) (val (temp c)).
Proof.
  intros I. destruct (codes3 c I) as (CN & CT & _). unfold reading, row, put_req. cbn [pi_sub pi_pred pi_obj]. rewrite CN, CT, (HV c I), byte_code. split; [reflexivity|]. split; [discriminate|].
  split; [reflexivity|]. split; [reflexivity|]. cbn [dbl_blob b_data]. apply temp_number, I.
Qed.
Lemma reading_row i v : In i items -> reading cd (byte_blob TEMP) T_DOUBLE i v -> exists c, In c cells /\ i = row c.
Proof.
  intros H (R1 & _ & _ & R4 & _). destruct (item_cases i H) as (c & I & K). exists c. split; [exact I|]. destruct (codes3 c I) as (CN & CT & x & r & CV & _). rewrite byte_code in R1.
  cbn [map In] in K. destruct K as [<-|[<-|[<-|[<-|[<-|[<-|[]]]]]]]; unfold put_req in R1, R4; cbn [pi_sub pi_pred pi_obj] in R1, R4.
  - rewrite CN in R1. discriminate R1.
  - rewrite CN in R1. discriminate R1.
  - rewrite (HN c I) in R4. discriminate R4.
  - reflexivity.
  - rewrite CV in R1. discriminate R1.
  - rewrite CV in R1. discriminate R1.
Qed.
Lemma rows_fine i : In i items -> starts_with (coded_data cd (byte_blob TEMP)) (item_key cd i) = true ->
  (exists v, reading cd (byte_blob TEMP) T_DOUBLE i v) \/ above cd (byte_blob TEMP) (ne_pos (cb_num u)) i.
Proof.
  intros H P. destruct (item_cases i H) as (c & I & K). destruct (codes3 c I) as (CN & CT & x & r & CV & _ & _ & Bx).
  assert (ET : coded_data cd (byte_blob TEMP) = TEMP) by (unfold coded_data; rewrite byte_code; reflexivity). rewrite ET in P.
  assert (key : forall s p o fs fp fo, code cd (ref_blob s) = Some fs -> code cd (ref_blob p) = Some fp -> code cd (ref_blob o) = Some fo -> item_key cd (put_req (s, p, o)) = sp_to_key fs fp).
  { intros s p o fs fp fo Es Ep Eo. unfold item_key, pair_of, put_req. cbn [pi_sub pi_pred pi_obj]. rewrite Eo. unfold codes. rewrite Es, Ep. reflexivity. }
  assert (X : forall l, starts_with TEMP (x :: l) = true -> False).
  { intros l Q. unfold TEMP in Q. cbn [bstr starts_with list_ascii_of_string] in Q. apply andb_true_iff in Q as [W _]. apply Ascii.eqb_eq in W. subst x. vm_compute in Bx. discriminate Bx. }
  cbn [map In] in K. destruct K as [<-|[<-|[<-|[<-|[<-|[<-|[]]]]]]].
  - rewrite (key _ _ _ _ _ _ CN CT CV) in P. discriminate P.
  - rewrite (key _ _ _ _ _ _ CN CV CT) in P. discriminate P.
  - right. unfold above. rewrite ET, (key _ _ _ _ _ _ CT CN CV). unfold sp_to_key. cbn [f_data]. eexists "C"%char, _. split; [reflexivity|exact PC].
  - left. exists (val (temp c)). exact (row_reading c I).
  - rewrite (key _ _ _ _ _ _ CV CN CT) in P. unfold sp_to_key in P. cbn [f_data app] in P. destruct (X _ P).
  - rewrite (key _ _ _ _ _ _ CV CT CN) in P. unfold sp_to_key in P. cbn [f_data app] in P. destruct (X _ P).
Qed.
(* something of every pair is kept *)
Lemma kept_pair l i : In i l -> (forall j, In j l -> pair_of cd (Put j) <> None) -> exists j, kept cd (map Put l) j /\ In j l /\ pair_of cd (Put j) = pair_of cd (Put i).
Proof.
  induction l as [|j l IH] using rev_ind; intros I N; [destruct I|].
  assert (Nj : pair_of cd (Put j) <> None) by (apply N, in_or_app; right; left; reflexivity).
  rewrite map_app. cbn [map].
  assert (D : pair_of cd (Put j) = pair_of cd (Put i) \/ pair_of cd (Put j) <> pair_of cd (Put i)).
  { destruct (pair_of cd (Put j)) as [[s p]|], (pair_of cd (Put i)) as [[s' p']|]; try (right; discriminate); [|left; reflexivity].
    destruct s as [d t], p as [e w], s' as [d' t'], p' as [e' w'].
    destruct (list_eq_dec Ascii.ascii_dec d d') as [->|]; [|right; congruence]. destruct (list_eq_dec Ascii.ascii_dec e e') as [->|]; [|right; congruence].
    destruct (N.eq_dec t t') as [->|]; [|right; congruence]. destruct (N.eq_dec w w') as [->|]; [left; reflexivity|right; congruence]. }
  destruct D as [D|D].
  - exists j. split; [apply kept_snoc; left; auto|]. split; [apply in_or_app; right; left; reflexivity|exact D].
  - apply in_app_or in I as [I|[->|[]]]; [|congruence]. destruct (IH I) as (j' & K & Ij & E); [intros; apply N, in_or_app; auto|].
    exists j'. split; [apply kept_snoc; right; split; [exact K|congruence]|]. split; [apply in_or_app; auto|exact E].
Qed.
Lemma pair_row j c : In j items -> In c cells -> pair_of cd (Put j) = pair_of cd (Put (row c)) -> exists c', In c' cells /\ j = row c' /\ alike L u (temp c') (temp c).
Proof.
  intros H Ic P. destruct (temp_stored c Ic) as (y & l & Sc & _). rewrite (row_pair c _ Ic Sc) in P. destruct (item_cases j H) as (c' & I & K). exists c'. split; [exact I|].
  destruct (codes3 c' I) as (CN & CT & x & r & CV & S & _ & Bx). unfold pair_of in P.
  cbn [map In] in K. destruct K as [<-|[<-|[<-|[<-|[<-|[<-|[]]]]]]]; unfold put_req in P; cbn [pi_sub pi_pred pi_obj] in P; unfold codes in P; rewrite CN, CT, CV in P; try discriminate P.
  injection P as -> ->. split; [reflexivity|]. exists (y :: l). auto.
Qed.
Lemma slt_asym a b : slt a b -> slt b a -> False.
Proof. intros H1 H2. apply slt_blt_nil in H1. apply slt_blt_nil in H2. unfold blt in *. rewrite bcmp_antisym, H1 in H2. discriminate H2. Qed.
Lemma same_pair c i d : In c cells -> In i cells -> In d cells -> alike L u (temp c) (temp d) -> (val (temp i) <= val (temp c))%R -> ~ (val (temp i) <= val (temp d))%R ->
  pair_of cd (Put (row i)) = pair_of cd (Put (row c)).
Proof.
  intros Ic Ii Id (a & Sc & Sd) H1 H2. destruct (temp_stored i Ii) as (x & r & Si & _). assert (H3 : (val (temp d) <= val (temp i))%R) by lra.
  destruct (number_order L u _ _ _ _ _ _ _ GL SY (temp_number i Ii) (temp_number c Ic) H1 Si Sc) as [E|A1].
  - rewrite (row_pair c a Ic Sc), (row_pair i _ Ii Si), E. reflexivity.
  - destruct (number_order L u _ _ _ _ _ _ _ GL SY (temp_number d Id) (temp_number i Ii) H3 Sd Si) as [E|A2]; [|destruct (slt_asym _ _ A1 A2)].
    rewrite (row_pair c a Ic Sc), (row_pair i _ Ii Si), E. reflexivity.
Qed.
Lemma choose (us : list put_item) : Forall (fun i => exists c, In c cells /\ i = row c) us -> exists cs, us = map row cs /\ incl cs cells.
Proof.
  induction 1 as [|i us (c & I & ->) _ (cs & -> & J)]; [exists []; split; [reflexivity|intros x []]|].
  exists (c :: cs). split; [reflexivity|]. intros x [<-|Hx]; [exact I|exact (J x Hx)].
Qed.
Definition row_rec (c : A) (r : rec3) : Prop := exists t, survives L u (temp c) t /\ r = mkRec (byte_blob TEMP) (dbl_blob t) (byte_blob ("C"%char :: name c)).
Lemma row_back c r : In c cells -> back3 cd (row c) r -> row_rec c r.
Proof.
  intros I (B1 & B2 & B3). unfold row, put_req in *. cbn [pi_sub pi_pred pi_obj] in *. rewrite (HT c I) in B1. rewrite (HV c I) in B2. rewrite (HN c I) in B3.
  apply byte_back in B1; [|unfold TEMP; cbn; congruence]. apply byte_back in B3; [|congruence]. destruct (GT c I) as (_ & _ & t & a & Sa & Ba & D).
  unfold dbl_blob in B2. eapply back_fp in B2; [|exists a; split; eassumption|right; split; reflexivity].
  exists t. split; [exists a; auto|]. destruct r as [r1 r2 r3]. cbn in *. subst. reflexivity.
Qed.
Lemma sorted_map {X Y} (f : X -> Y) (R : Y -> Y -> Prop) (Q : X -> X -> Prop) l : StronglySorted R (map f l) -> (forall a b, In a l -> In b l -> R (f a) (f b) -> Q a b) -> StronglySorted Q l.
Proof.
  induction l as [|a l IH]; intros H K; [constructor|]. cbn [map] in H. inversion H as [|? ? H1 H2]; subst. constructor.
  - apply IH; [exact H1|]. intros; apply K; auto; right; assumption.
  - apply Forall_forall. intros b Hb. rewrite Forall_forall in H2. apply K; [left; reflexivity|right; exact Hb|]. apply H2, in_map, Hb.
Qed.
Lemma cells_lowest k h d rs n ot : flat_map changes h = map Put items -> ds_run (opened k cd) (map CallReq h) = Ok (d, rs) -> cells <> [] -> 1 <= n ->
  exists g cs ys zs, asks d (ask_lowest (byte_blob TEMP) T_DOUBLE ot n) g /\ gp_status g = Z.of_N DATASTORE_SUCCESS /\ gp_recs g = ys ++ zs /\ gp_recs g <> [] /\
    Forall2 row_rec cs ys /\ incl cs cells /\ StronglySorted (fun c d => (val (temp c) <= val (temp d))%R) cs /\ N.of_nat (List.length cs) <= n /\
    (N.of_nat (List.length cs) = n -> zs = []) /\
    forall d, In d cells -> (exists c, In c cs /\ alike L u (temp c) (temp d)) \/
      (N.of_nat (List.length cs) = n /\ forall c, In c cs -> (val (temp c) <= val (temp d))%R).
Proof.
  intros Hh Hr NE Hn. assert (c0' : exists c0, In c0 cells) by (clear - NE; destruct cells as [|c0 l]; [congruence|exists c0; left; reflexivity]). destruct c0' as (c0 & I0).
  assert (Sm : Forall (small_change cd) (flat_map changes h)).
  { rewrite Hh. apply Forall_forall. intros x Hx. apply in_map_iff in Hx as (i & <- & Hi). apply item_known, Hi. }
  destruct (lossy_left k cd h d rs Sm Hr) as (ts & Hl).
  assert (KI : forall i, In i ts -> In i items).
  { intros i Hi. apply (proj2 Hl) in Hi. destruct Hi as (_ & b & a & E & _). rewrite Hh in E. assert (In (Put i) (map Put items)) as J by (rewrite E; apply in_or_app; right; left; reflexivity).
    apply in_map_iff in J as (i' & E' & J). injection E' as ->. exact J. }
  assert (NP : forall j, In j items -> pair_of cd (Put j) <> None) by (intros j Hj; apply item_known, Hj).
  assert (KP : forall c, In c cells -> exists c', In c' cells /\ In (row c') ts /\ alike L u (temp c') (temp c)).
  { intros c I. destruct (kept_pair items (row c) (row_in c I) NP) as (j & K & Ij & E). destruct (pair_row j c Ij I E) as (c' & I' & -> & Al). exists c'. split; [exact I'|].
    split; [|exact Al]. apply (proj2 Hl). rewrite Hh. exact K. }
  destruct (lowest_found L u k h d rs ts (byte_blob TEMP) T_DOUBLE ot n GL SY Sm Hr Hl) as (g & us & rest & Ha & St & F & Lo & _ & Re).
  - apply Forall_forall. intros i Hi. apply item_known, KI, Hi.
  - rewrite byte_code. discriminate.
  - intros f E. rewrite byte_code in E. injection E as <-. split; reflexivity.
  - reflexivity.
  - exact Hn.
  - intros i Hi P. apply rows_fine; [apply KI, Hi|exact P].
  - destruct (KP c0 I0) as (c' & I' & J & _). exists (row c'), (val (temp c')). split; [exact J|]. apply row_reading, I'.
  - destruct Lo as (_ & In1 & Rd & So & Le & Co).
    destruct (choose us) as (cs & -> & Inc).
    { apply Forall_forall. intros i Hi. rewrite Forall_forall in Rd. destruct (Rd i Hi) as (v & R). apply (reading_row i v); [apply KI, In1, Hi|exact R]. }
    apply Forall2_app_inv_l in F as (ys & zs & F1 & F2 & Er). rewrite map_length in *.
    assert (Cov : forall d, In d cells -> (exists c, In c cs /\ alike L u (temp c) (temp d)) \/ (N.of_nat (List.length cs) = n /\ forall c, In c cs -> (val (temp c) <= val (temp d))%R)).
    { intros e Ie. destruct (KP e Ie) as (c' & I' & J & Al).
      assert (Dec : In (row c') (map row cs) \/ ~ In (row c') (map row cs)).
      { destruct (in_dec item_dec (row c') (map row cs)); auto. }
      destruct Dec as [Y|N].
      - left. apply in_map_iff in Y as (c2 & E2 & I2). exists c2. split; [exact I2|].
        assert (P2 : pair_of cd (Put (row c2)) = pair_of cd (Put (row e))).
        { destruct Al as (a & S1 & S2). rewrite E2, (row_pair c' a I' S1), (row_pair e a Ie S2). reflexivity. }
        destruct (pair_row (row c2) e) as (c3 & I3 & E3 & Al3); [apply row_in, Inc, I2|exact Ie|exact P2|].
        destruct Al as (a & S1 & S2). exists a. split; [|exact S2]. destruct (temp_stored c2 (Inc _ I2)) as (x & r & S5 & _).
        rewrite (row_pair c2 _ (Inc _ I2) S5), (row_pair e a Ie S2) in P2. injection P2 as <-. exact S5.
      - right. destruct (Co (row c') (val (temp c')) J (row_reading c' I') N) as [El V]. split; [exact El|]. intros c Ic.
        assert (V1 : (val (temp c) <= val (temp c'))%R) by (apply (V (row c) (val (temp c))); [apply in_map, Ic|apply row_reading, Inc, Ic]).
        destruct (Rle_dec (val (temp c)) (val (temp e))) as [|Nv]; [assumption|]. exfalso. apply N.
        rewrite <- (kept_unique cd (flat_map changes h) (row c) (row c')); [apply in_map, Ic| | |].
        + apply (proj2 Hl). apply In1, in_map, Ic.
        + apply (proj2 Hl), J.
        + apply (same_pair c' c e); auto. }
    exists g, cs, ys, zs. split; [exact Ha|]. split; [exact St|]. split; [exact Er|]. split.
    { intros E0. rewrite E0 in Er. symmetry in Er. apply app_eq_nil in Er as [-> ->]. inversion F1 as [Em|]. symmetry in Em. apply map_eq_nil in Em. subst cs.
      destruct (Cov c0 I0) as [(c & [] & _)|[El _]]. cbn in El. lia. }
    split.
    { clear - F1 Inc HN HT HV GT. revert ys F1. induction cs as [|c cs IH]; intros ys F; inversion F; subst; constructor.
      - apply row_back; [apply Inc; left; reflexivity|assumption].
      - apply IH; [intros x Hx; apply Inc; right; exact Hx|assumption]. }
    split; [exact Inc|]. split.
    { eapply sorted_map; [exact So|]. intros a b Ia Ib H. apply H; apply row_reading, Inc; assumption. }
    split; [exact Le|]. split; [|exact Cov]. intros El. specialize (Re El). subst rest. inversion F2. reflexivity.
Qed.
End Rows.
