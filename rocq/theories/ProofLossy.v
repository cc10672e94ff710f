(* Datastores with callbacks that lose something: what they hold *)
From Verif Require Import ModelBytes ProofBytes ModelKey ProofKey ModelWire ModelHist ModelMsg SpecMsg ModelStore ModelGetOp ModelDs
  ProofStore ProofDs ProofDs2 ModelElen ModelRoute ModelClient SpecClient SpecGetOp ProofGetOp ProofGetOp2 SpecCluster SpecScan ProofScan SpecStore SpecLossy.
Local Open Scope N_scope.

(* callbacks that keep what they are given *)
Definition raw (c : codec) : codec := mkCodec (fun _ _ d => Ok (Some d)) (fun _ d => Ok (Some d)) (c_neg c).
Lemma raw_enc c f : enc (raw c) f = f_data f.
Proof. reflexivity. Qed.
Lemma raw_key c s p : key (raw c) s p = sp_to_key s p.
Proof. unfold key. rewrite !raw_enc. destruct s, p. reflexivity. Qed.
Lemma raw_lossless c f : blen (f_data f) < 2 ^ 64 -> f_type f < 256 -> lossless (raw c) f.
Proof. intros A B. exists (f_data f). split; [reflexivity|]. split; [reflexivity|]. split; assumption. Qed.
Lemma small_lossless c b f : small c b -> code c b = Some f -> lossless (raw c) f.
Proof. intros H E. destruct (H f E). apply raw_lossless; assumption. Qed.

(* the map of encoded values *)
Definition estep (c : codec) (m : tmap) (x : change) : tmap :=
  match pair_of c x with
  | None => m
  | Some (s, p) => tset m s p (match x with Put i => code c (pi_obj i) | Del _ => None end)
  end.
Definition emap (c : codec) (xs : list change) : tmap := fold_left (estep c) xs no_triples.
Lemma emap_snoc c xs x : emap c (xs ++ [x]) = estep c (emap c xs) x.
Proof. unfold emap. rewrite fold_left_app. reflexivity. Qed.

Lemma kept_snoc c xs x i : kept c (xs ++ [x]) i <-> (x = Put i /\ pair_of c (Put i) <> None) \/ (kept c xs i /\ pair_of c x <> pair_of c (Put i)).
Proof.
  split.
  - intros [P (a & b & E & K)]. destruct b as [|y b] using rev_ind.
    + apply app_inj_tail in E as [_ E]. left. split; assumption.
    + clear IHb. right. rewrite app_comm_cons, app_assoc in E. apply app_inj_tail in E as [E E']. subst y. split.
      * split; [exact P|]. exists a, b. split; [exact E|]. intros z Hz. apply K, in_or_app. left. exact Hz.
      * apply K, in_or_app. right. left. reflexivity.
  - intros [[-> P]|[[P (a & b & -> & K)] N]].
    + split; [exact P|]. exists xs, []. split; [reflexivity|]. intros x [].
    + split; [exact P|]. exists a, (b ++ [x]). split; [rewrite <- app_assoc; reflexivity|]. intros y Hy. apply in_app_or in Hy as [Hy|[<-|[]]]; [apply K, Hy|exact N].
Qed.

Definition coded (c : codec) (i : put_item) (t : triple) : Prop :=
  code c (pi_sub i) = Some (t_sub t) /\ code c (pi_pred i) = Some (t_pred t) /\ code c (pi_obj i) = Some (t_obj t).
Lemma coded_pair c i t : coded c i t -> pair_of c (Put i) = Some (t_sub t, t_pred t).
Proof. intros (A & B & C). cbn [pair_of]. rewrite C. unfold codes. rewrite A, B. reflexivity. Qed.
Lemma pair_coded c i s p : pair_of c (Put i) = Some (s, p) -> exists o, coded c i (mkTriple s p o).
Proof.
  cbn [pair_of]. destruct (code c (pi_obj i)) as [o|] eqn:O; [|discriminate]. unfold codes.
  destruct (code c (pi_sub i)) as [s'|] eqn:S'; [|discriminate]. destruct (code c (pi_pred i)) as [p'|] eqn:P'; [|discriminate].
  intros H. injection H as <- <-. exists o. split; [exact S'|]. split; [exact P'|exact O].
Qed.
Lemma coded_fun c i t u : coded c i t -> coded c i u -> t = u.
Proof. intros (A & B & C) (D & E & F). destruct t, u. cbn in *. congruence. Qed.
Lemma emap_kept c xs : forall s p o, emap c xs s p = Some o <-> exists i, kept c xs i /\ coded c i (mkTriple s p o).
Proof.
  induction xs as [|x xs IH] using rev_ind; intros s p o.
  - split; [discriminate|]. intros (i & [_ (a & b & E & _)] & _). destruct a; discriminate E.
  - rewrite emap_snoc. unfold estep. destruct (pair_of c x) as [[s' p']|] eqn:P.
    + destruct (tset_cases (emap c xs) s' p' (match x with Put i => code c (pi_obj i) | Del _ => None end) s p) as [(<- & <- & E)|(N & E)]; rewrite E.
      * destruct x as [j|j].
        -- destruct (pair_coded _ _ _ _ P) as (o' & C). split.
           ++ intros H. exists j. split; [apply kept_snoc; left; split; [reflexivity|congruence]|]. destruct C as (C1 & C2 & C3). cbn in *. split; [exact C1|]. split; [exact C2|exact H].
           ++ intros (i & K & Ci). apply kept_snoc in K as [[X _]|[_ X]]; [injection X as ->; apply (proj2 (proj2 Ci))|].
              exfalso. apply X. rewrite P. symmetry. exact (coded_pair _ _ _ Ci).
        -- split; [discriminate|]. intros (i & K & Ci). apply kept_snoc in K as [[X _]|[_ X]]; [discriminate X|]. exfalso. apply X. rewrite P. symmetry. exact (coded_pair _ _ _ Ci).
      * rewrite IH. split; intros (i & K & Ci); exists i; (split; [|exact Ci]).
        -- apply kept_snoc. right. split; [exact K|]. rewrite P, (coded_pair _ _ _ Ci). cbn. congruence.
        -- apply kept_snoc in K as [[-> _]|[K _]]; [|exact K]. exfalso. rewrite (coded_pair _ _ _ Ci) in P. injection P as <- <-. apply N. reflexivity.
    + rewrite IH. split; intros (i & K & Ci); exists i; (split; [|exact Ci]).
      * apply kept_snoc. right. split; [exact K|]. rewrite P, (coded_pair _ _ _ Ci). discriminate.
      * apply kept_snoc in K as [[-> X]|[K _]]; [congruence|exact K].
Qed.

(* ---- rows ---- *)
Lemma enc_blob_code c b e : enc_blob c b = Ok (Some e) <-> code c b = Some (mkField e (b_type b)).
Proof.
  unfold enc_blob, code. destruct (c_enc c (b_type b) (b_null b) (b_data b)) as [[e'|]| |]; split; intros H; try discriminate H.
  - apply Ok_inj in H. congruence.
  - congruence.
Qed.
Lemma enc_blob_none c b : enc_blob c b = Ok None -> code c b = None.
Proof. unfold enc_blob, code. intros ->. reflexivity. Qed.
Lemma put_row_code c i r : put_row c i = Ok r ->
  match r with
  | Some (k, v) => exists t, coded c i t /\ k = key (raw c) (t_sub t) (t_pred t) /\ v = value (raw c) (t_obj t)
  | None => pair_of c (Put i) = None
  end.
Proof.
  unfold put_row, obind2. intros H. destruct (enc_blob c (pi_sub i)) as [[es|]| |] eqn:Es; cbn [obind] in H; try discriminate H.
  - destruct (enc_blob c (pi_pred i)) as [[ep|]| |] eqn:Ep; cbn [obind] in H; try discriminate H.
    + destruct (enc_blob c (pi_obj i)) as [[eo|]| |] eqn:Eo; cbn [obind] in H; try discriminate H; apply Ok_inj in H; subst r.
      * exists (mkTriple (mkField es (b_type (pi_sub i))) (mkField ep (b_type (pi_pred i))) (mkField eo (b_type (pi_obj i)))).
        split; [split; [apply enc_blob_code, Es|split; [apply enc_blob_code, Ep|apply enc_blob_code, Eo]]|]. split; [symmetry; apply raw_key|reflexivity].
      * cbn [pair_of]. rewrite (enc_blob_none _ _ Eo). reflexivity.
    + apply Ok_inj in H; subst r. cbn [pair_of]. unfold codes. rewrite (enc_blob_none _ _ Ep). destruct (code c (pi_obj i)), (code c (pi_sub i)); reflexivity.
  - apply Ok_inj in H; subst r. cbn [pair_of]. unfold codes. rewrite (enc_blob_none _ _ Es). destruct (code c (pi_obj i)); reflexivity.
Qed.
Lemma key_of_code c s p r : key_of c s p = Ok r ->
  match r with
  | Some k => exists s' p', codes c s p = Some (s', p') /\ k = key (raw c) s' p' /\ code c s = Some s' /\ code c p = Some p'
  | None => codes c s p = None
  end.
Proof.
  unfold key_of, obind2, codes. intros H. destruct (enc_blob c s) as [[es|]| |] eqn:Es; cbn [obind] in H; try discriminate H.
  - destruct (enc_blob c p) as [[ep|]| |] eqn:Ep; cbn [obind] in H; try discriminate H; apply Ok_inj in H; subst r.
    + apply enc_blob_code in Es, Ep. rewrite Es, Ep. eexists _, _. split; [reflexivity|]. split; [symmetry; apply raw_key|]. split; reflexivity.
    + rewrite (enc_blob_none _ _ Ep). destruct (code c s); reflexivity.
  - apply Ok_inj in H; subst r. rewrite (enc_blob_none _ _ Es). reflexivity.
Qed.

Lemma im_bput_coded c l : forall db m db' r, agrees (raw c) db m -> Forall (small_change c) (map Put l) -> im_bput c db l = Ok (db', r) ->
  agrees (raw c) db' (fold_left (estep c) (map Put l) m).
Proof.
  induction l as [|i l IH]; intros db m db' r Ha Hs H; [cbn in H; injection H as <- <-; exact Ha|].
  cbn [map] in Hs. inversion Hs as [|? ? S1 S2]; subst. cbn [im_bput] in H. obind H kv Ekv. pose proof (put_row_code _ _ _ Ekv) as X.
  cbn [map fold_left]. destruct kv as [[k v]|].
  - destruct X as (t & C & -> & ->). obind H y Ey. destruct y as [db2 r2]. apply Ok_inj in H. injection H as <- <-.
    eapply IH; [|exact S2|exact Ey]. unfold estep. rewrite (coded_pair _ _ _ C). cbn [small_change] in S1. destruct S1 as (A1 & A2 & A3). destruct C as (C1 & C2 & C3). rewrite C3.
    apply agrees_put; [exact Ha|exact (small_lossless _ _ _ A1 C1)|exact (small_lossless _ _ _ A2 C2)|exact (small_lossless _ _ _ A3 C3)].
  - obind H y Ey. destruct y as [db2 r2]. apply Ok_inj in H. injection H as <- <-. eapply IH; [|exact S2|exact Ey]. unfold estep. rewrite X. exact Ha.
Qed.
Lemma tset_none_same m s p : m s p = None -> forall s' p', tset m s p None s' p' = m s' p'.
Proof. intros E s' p'. destruct (tset_cases m s p None s' p') as [(<- & <- & X)|(_ & X)]; rewrite X; [symmetry; exact E|reflexivity]. Qed.
Lemma agrees_ext c db m m' : (forall s p, m s p = m' s p) -> agrees c db m -> agrees c db m'.
Proof.
  intros E [A B C]. constructor; [exact A| |].
  - intros s p o H. rewrite <- E in H. apply (B s p o H).
  - intros k v. rewrite C. split; intros (s & p & o & H & X); exists s, p, o; (split; [congruence|exact X]).
Qed.
Lemma im_bdel_coded c l : forall db m db' r, agrees (raw c) db m -> Forall (small_change c) (map Del l) -> im_bdel c db l = Ok (db', r) ->
  agrees (raw c) db' (fold_left (estep c) (map Del l) m).
Proof.
  induction l as [|i l IH]; intros db m db' r Ha Hs H; [cbn in H; injection H as <- <-; exact Ha|].
  cbn [map] in Hs. inversion Hs as [|? ? S1 S2]; subst. cbn [im_bdel] in H. obind H kv Ekv. pose proof (key_of_code _ _ _ _ Ekv) as X.
  cbn [map fold_left]. destruct kv as [k|].
  - destruct X as (s' & p' & E & -> & C1 & C2). cbn [small_change] in S1. destruct S1 as (A1 & A2).
    pose proof (small_lossless _ _ _ A1 C1) as L1. pose proof (small_lossless _ _ _ A2 C2) as L2.
    pose proof (agrees_get _ _ _ _ _ Ha L1 L2) as G. destruct (db_get (key (raw c) s' p') db) eqn:Eg.
    + obind H y Ey. destruct y as [db2 r2]. apply Ok_inj in H. injection H as <- <-. eapply IH; [|exact S2|exact Ey]. unfold estep. cbn [pair_of]. rewrite E.
      apply agrees_del; assumption.
    + obind H y Ey. destruct y as [db2 r2]. apply Ok_inj in H. injection H as <- <-. eapply IH; [|exact S2|exact Ey]. unfold estep. cbn [pair_of]. rewrite E.
      apply (agrees_ext _ _ m); [|exact Ha]. intros s p. symmetry. apply tset_none_same. destruct (m s' p'); [discriminate G|reflexivity].
  - obind H y Ey. destruct y as [db2 r2]. apply Ok_inj in H. injection H as <- <-. eapply IH; [|exact S2|exact Ey]. unfold estep. cbn [pair_of]. rewrite X. exact Ha.
Qed.

Lemma operate_coded k c q rws m d' r : agrees (raw c) rws m -> Forall (small_change c) (changes q) ->
  operate (mkDs k c true rws []) q = Ok (d', r) -> exists rws', d' = mkDs k c true rws' [] /\ agrees (raw c) rws' (fold_left (estep c) (changes q) m).
Proof.
  intros Ha Hs H. destruct q as [l|l|l|l|l|l|l|l|l|l]; cbn [changes] in *.
  - rewrite operate_put in H by reflexivity. cbn [d_kind d_codec d_rows d_hists] in H. obind H y Ey. destruct y as [rw sts].
    rewrite track_nil in H. cbn [obind] in H. apply Ok_inj in H. injection H as <- <-. exists rw. split; [reflexivity|].
    destruct k; cbn [bput] in Ey; [exact (im_bput_coded _ _ _ _ _ _ Ha Hs Ey)|].
    destruct (ldb_bput_im c rws l) as [(e & E1 & [E2|E2] & _)|(db' & st & E1 & E2)]; try congruence.
    rewrite E2 in Ey. apply Ok_inj in Ey. injection Ey as <- _. exact (im_bput_coded _ _ _ _ _ _ Ha Hs E1).
  - cbn [operate d_open negb] in H. obind H y Ey. apply Ok_inj in H. injection H as <- <-. exists rws. split; [reflexivity|exact Ha].
  - cbn [operate d_open negb] in H. obind H y Ey. apply Ok_inj in H. injection H as <- <-. exists rws. split; [reflexivity|exact Ha].
  - cbn [operate d_open negb d_kind d_codec d_rows] in H. obind H y Ey. destruct y as [rw sts]. apply Ok_inj in H. injection H as <- <-. exists rw. split; [reflexivity|].
    destruct k; cbn [bdel] in Ey; [exact (im_bdel_coded _ _ _ _ _ _ Ha Hs Ey)|].
    destruct (ldb_bdel_im c rws l) as [(e & E1 & [E2|E2] & _)|(db' & st & E1 & E2)]; try congruence.
    rewrite E2 in Ey. apply Ok_inj in Ey. injection Ey as <- _. exact (im_bdel_coded _ _ _ _ _ _ Ha Hs E1).
  - cbn [operate d_open negb] in H. apply Ok_inj in H. injection H as <- <-. exists rws. split; [reflexivity|exact Ha].
  - cbn [operate d_open negb] in H. apply Ok_inj in H. injection H as <- <-. exists rws. split; [reflexivity|exact Ha].
  - cbn [operate d_open negb] in H. apply Ok_inj in H. injection H as <- <-. exists rws. split; [reflexivity|exact Ha].
  - cbn [operate d_open negb] in H. apply Ok_inj in H. injection H as <- <-. exists rws. split; [reflexivity|exact Ha].
  - cbn [operate d_open negb] in H. apply Ok_inj in H. injection H as <- <-. exists rws. split; [reflexivity|exact Ha].
  - cbn [operate d_open negb] in H. apply Ok_inj in H. injection H as <- <-. exists rws. split; [reflexivity|exact Ha].
Qed.
Lemma run_coded k c h : forall rws m d rs, agrees (raw c) rws m -> Forall (small_change c) (flat_map changes h) ->
  ds_run (mkDs k c true rws []) (map CallReq h) = Ok (d, rs) ->
  exists rws', d = mkDs k c true rws' [] /\ agrees (raw c) rws' (fold_left (estep c) (flat_map changes h) m).
Proof.
  induction h as [|q h IH]; intros rws m d rs Ha Hs H; [cbn in H; injection H as <- <-; exists rws; split; [reflexivity|exact Ha]|].
  cbn [flat_map] in *. apply Forall_app in Hs as [S1 S2]. cbn [map ds_run ds_step] in H. obind H y Ey. destruct y as [d1 r1].
  obind H z Ez. destruct z as [d2 r2]. apply Ok_inj in H. injection H as <- <-.
  destruct (operate_coded _ _ _ _ _ _ _ Ha S1 Ey) as (rws1 & -> & Ha1). rewrite fold_left_app. exact (IH _ _ _ _ Ha1 S2 Ez).
Qed.
Lemma history_coded k c h d rs : Forall (small_change c) (flat_map changes h) -> ds_run (opened k c) (map CallReq h) = Ok (d, rs) ->
  exists rws, d = mkDs k c true rws [] /\ agrees (raw c) rws (emap c (flat_map changes h)).
Proof. intros Hs H. exact (run_coded _ _ _ _ _ _ _ (agrees_empty _) Hs H). Qed.

(* ---- what is left, in order ---- *)
Lemma item_key_coded c i t : coded c i t -> item_key c i = tkey (raw c) t.
Proof. intros C. unfold item_key. rewrite (coded_pair _ _ _ C). unfold tkey. rewrite raw_key. reflexivity. Qed.
Lemma kept_unique c xs i j : kept c xs i -> kept c xs j -> pair_of c (Put i) = pair_of c (Put j) -> i = j.
Proof.
  revert i j. induction xs as [|x xs IH] using rev_ind; intros i j Ki Kj E.
  - destruct Ki as [_ (a & b & X & _)]. destruct a; discriminate X.
  - apply kept_snoc in Ki as [[-> _]|[Ki Ni]]; apply kept_snoc in Kj as [[X _]|[Kj Nj]].
    + injection X as ->. reflexivity.
    + congruence.
    + subst x. congruence.
    + exact (IH _ _ Ki Kj E).
Qed.
Lemma left_contents c xs rws : agrees (raw c) rws (emap c xs) -> exists ts us, left_by c xs ts /\ contents (raw c) (emap c xs) us /\ Forall2 (coded c) ts us.
Proof.
  intros Ha. destruct (rows_contents _ _ _ Ha) as (us & Hc & _). destruct Hc as [Hs Hi].
  assert (X : exists ts, Forall2 (coded c) ts us /\ Forall (kept c xs) ts).
  { assert (H : forall u, In u us -> exists i, kept c xs i /\ coded c i u).
    { intros u Hu. apply Hi in Hu. apply emap_kept in Hu as (i & K & C). exists i. split; [exact K|]. destruct u. exact C. }
    clear Hs Hi. induction us as [|u us IH]; [exists []; split; constructor|].
    destruct IH as (ts & F & K); [intros x Hx; apply H; right; exact Hx|]. destruct (H u (or_introl eq_refl)) as (i & Ki & Ci).
    exists (i :: ts). split; constructor; assumption. }
  destruct X as (ts & F & K). exists ts, us. split; [|split; [split; assumption|exact F]]. split.
  - clear Hi K. induction F as [|i u ts us C F IH]; [constructor|]. inversion Hs as [|? ? H1 H2]; subst. constructor; [apply IH, H1|].
    rewrite (item_key_coded _ _ _ C). clear - F H2. induction F as [|j v ts us Cj F IH]; [constructor|]. inversion H2; subst. constructor; [rewrite (item_key_coded _ _ _ Cj); assumption|auto].
  - intros i. split; [rewrite Forall_forall in K; apply K|]. intros Ki.
    destruct (pair_of c (Put i)) as [[s p]|] eqn:P; [|destruct (proj1 Ki P)]. destruct (pair_coded _ _ _ _ P) as (o & C).
    assert (Hu : In (mkTriple s p o) us) by (apply Hi; apply emap_kept; exists i; split; assumption).
    assert (exists j, In j ts /\ coded c j (mkTriple s p o)) as (j & Hj & Cj).
    { clear - F Hu. induction F as [|j v ts us Cj F IH]; [destruct Hu|]. destruct Hu as [->|Hu]; [exists j; split; [left; reflexivity|exact Cj]|].
      destruct (IH Hu) as (j' & A & B). exists j'. split; [right; exact A|exact B]. }
    rewrite Forall_forall in K. rewrite (kept_unique c xs i j Ki (K _ Hj)); [exact Hj|]. rewrite P. symmetry. exact (coded_pair _ _ _ Cj).
Qed.
Lemma left_unique c xs ts ts' : left_by c xs ts -> left_by c xs ts' -> ts = ts'.
Proof.
  intros [A B] [A' B']. apply (sorted_same (fun i j => bltb (item_key c i) (item_key c j) = true)).
  - intros x H. apply bltb_true in H. exact (blt_irrefl _ H).
  - intros x y z H1 H2. apply bltb_true in H1, H2. apply bltb_true. exact (blt_trans _ _ _ H1 H2).
  - exact A.
  - exact A'.
  - intros i. rewrite B, B'. reflexivity.
Qed.
