(* Executing a packet is executing its operations one by one *)
From Verif Require Import ModelBytes ProofBytes ModelKey ModelWire ModelHist ModelMsg SpecMsg ProofMsg ModelStore ModelGetOp ModelDs
  SpecStore ProofStore ProofDs ProofDs2 ModelElen ModelRoute SpecRoute ProofRoute ModelClient SpecClient.
Local Open Scope N_scope.

Lemma operate_getop d l : d_open d = true ->
  operate d (QGetOp l) = do r <- omap (getop1 (d_kind d) (d_codec d) (d_rows d)) l; Ok (d, Some (RGetOp r)).
Proof. intros H. unfold operate. rewrite H. reflexivity. Qed.
Lemma operate_closed d q : d_open d = false -> (match q with QHist _ => False | _ => True end) -> operate d q = Ok (d, None).
Proof. intros H Hq. unfold operate. rewrite H. destruct q; cbn [negb]; try reflexivity. destruct Hq. Qed.

Lemma Forall2_len {A B} (R : A -> B -> Prop) l r : Forall2 R l r -> length l = length r.
Proof. induction 1; cbn [length]; congruence. Qed.

(* ---- responses ---- *)
Definition resp (q : body) (r : option body) : body := match r with Some r => r | None => no_response q end.
Definition join (a b : body) : body :=
  match a, b with
  | RPut x, RPut y => RPut (x ++ y) | RGet x, RGet y => RGet (x ++ y) | RGetOp x, RGetOp y => RGetOp (x ++ y)
  | RDel x, RDel y => RDel (x ++ y) | RHist x, RHist y => RHist (x ++ y) | _, _ => a
  end.
(* a response to an operation of this kind *)
Definition res_of_kind (n : N) (b : body) : Prop := body_dir b = 2 /\ body_op b = n.

Lemma omap_app {A B} (f : A -> outcome B) l1 l2 :
  omap f (l1 ++ l2) = do a <- omap f l1; do b <- omap f l2; Ok (a ++ b).
Proof.
  induction l1 as [|x l1 IH]; cbn [omap app obind].
  - destruct (omap f l2); reflexivity.
  - destruct (f x) as [y| |]; cbn [obind]; try reflexivity. rewrite IH.
    destruct (omap f l1); cbn [obind]; try reflexivity. destruct (omap f l2); reflexivity.
Qed.

Lemma join_count n a b : res_of_kind n a -> res_of_kind n b -> body_count (join a b) = body_count a + body_count b.
Proof.
  intros [Da Oa] [Db Ob]. subst n. destruct a; try discriminate; destruct b; try discriminate; cbn [join body_count];
  rewrite app_length; lia.
Qed.
Lemma join_kind n a b : res_of_kind n a -> res_of_kind n b -> res_of_kind n (join a b).
Proof. intros [Da Oa] [Db Ob]. subst n. destruct a; try discriminate; destruct b; try discriminate; split; reflexivity. Qed.
Lemma join_seen n a b : res_of_kind n a -> res_of_kind n b -> seen_body (join a b) = join (seen_body a) (seen_body b).
Proof.
  intros [Da Oa] [Db Ob]. subst n. destruct a; try discriminate; destruct b; try discriminate; cbn [join seen_body];
  rewrite ?map_app; reflexivity.
Qed.
Lemma seen_kind n b : res_of_kind n b -> res_of_kind n (seen_body b).
Proof. intros [D O]. destruct b; try discriminate; split; try reflexivity; exact O. Qed.
Lemma seen_count b : body_count (seen_body b) = body_count b.
Proof. destruct b; cbn [seen_body body_count]; rewrite ?map_length; reflexivity. Qed.
Lemma join_ok n a b : res_of_kind n a -> res_of_kind n b -> body_ok a -> body_ok b -> u64 (body_count a + body_count b) ->
  body_ok (join a b).
Proof.
  intros Ka Kb [_ Ha] [_ Hb] Hc. split; [rewrite (join_count n a b Ka Kb); exact Hc|].
  destruct Ka as [Da Oa], Kb as [Db Ob]. subst n. destruct a; try discriminate; destruct b; try discriminate; cbn [join];
  apply Forall_app; split; assumption.
Qed.
Lemma join_results n id s a b xa xb : res_of_kind n a -> res_of_kind n b ->
  results_of (mkMsg id s a) = Ok xa -> results_of (mkMsg id s b) = Ok xb -> results_of (mkMsg id s (join a b)) = Ok (xa ++ xb).
Proof.
  intros [Da Oa] [Db Ob]. subst n.
  destruct a; try discriminate; destruct b; try discriminate; unfold results_of; cbn [m_src m_body join]; intros Ha Hb.
  1,2,4,5: injection Ha as <-; injection Hb as <-; rewrite map_app; reflexivity.
  rewrite omap_app. apply obind_ok in Ha as (ra & -> & Ha). apply obind_ok in Hb as (rb & -> & Hb). cbn [obind].
  injection Ha as <-. injection Hb as <-. rewrite concat_app. reflexivity.
Qed.

(* ---- the five kinds of requests ---- *)
Record kind {A} (n : N) (wrap : list A -> body) : Prop := {
  k_seen : exists f, forall l, seen_body (wrap l) = wrap (map f l);
  k_op : forall l, body_dir (wrap l) = 1 /\ body_op (wrap l) = n /\ body_count (wrap l) = N.of_nat (length l);
  k_none : forall l, no_response (wrap l) = no_response (wrap []);
  k_ok : forall l, body_ok (wrap l) <-> u64 (N.of_nat (length l)) /\ Forall (fun i => body_ok (wrap [i])) l;
  k_resp : forall d l d' r, operate d (wrap l) = Ok (d', r) ->
     res_of_kind n (resp (wrap l) r) /\ body_count (resp (wrap l) r) <= N.of_nat (length l);
  k_split : forall d i l d1 r1 d2 r2, operate d (wrap [i]) = Ok (d1, r1) -> operate d1 (wrap l) = Ok (d2, r2) ->
     exists r, operate d (wrap (i :: l)) = Ok (d2, r) /\ resp (wrap (i :: l)) r = join (resp (wrap [i]) r1) (resp (wrap l) r2)
}.

Lemma Forall_single {A} (P : A -> Prop) (l : list A) : Forall P l <-> Forall (fun i => Forall P [i]) l.
Proof.
  rewrite !Forall_forall. split; intros H x Hx; specialize (H x Hx).
  - constructor; [exact H|constructor].
  - inversion H; assumption.
Qed.
Lemma single_ok {A} (P : A -> Prop) (wrap : list A -> body) (l : list A) :
  (forall l, body_count (wrap l) = N.of_nat (length l)) ->
  (forall l, body_ok (wrap l) <-> u64 (body_count (wrap l)) /\ Forall P l) ->
  (body_ok (wrap l) <-> u64 (N.of_nat (length l)) /\ Forall (fun i => body_ok (wrap [i])) l).
Proof.
  intros Hc Hb. rewrite (Hb l), Hc, (Forall_single P l).
  assert (E : forall i, body_ok (wrap [i]) <-> Forall P [i]).
  { intros i. rewrite Hb, Hc. cbn [length]. split; [intros [_ H]; exact H|intros H; split; [unfold u64; reflexivity|exact H]]. }
  split; intros [H1 H2]; (split; [exact H1|]); revert H2; apply Forall_impl; intros i; apply E.
Qed.

Lemma kind_put : kind 0 QPut.
Proof.
  constructor.
  - exists seen_put. reflexivity.
  - intros l. repeat split.
  - reflexivity.
  - intros l. apply (single_ok put_ok); [reflexivity|]. intros l'. reflexivity.
  - intros d l d' r H. destruct (d_open d) eqn:Ho.
    + rewrite operate_put in H by exact Ho. obind H x E. destruct x as [db sts]. obind H h Eh. injection H as <- <-.
      cbn [resp]. split; [split; reflexivity|]. cbn [body_count].
      pose proof (Forall2_len _ _ _ (bput_answers _ _ _ _ _ _ E)). lia.
    + rewrite operate_closed in H by (exact Ho || exact I). injection H as <- <-. split; [split; reflexivity|]. cbn [resp no_response body_count length]. lia.
  - intros d i l d1 r1 d2 r2 H1 H2. destruct (d_open d) eqn:Ho.
    + destruct (operate_put_one d i d1 r1 Ho H1) as (db1 & st & hs & E1 & E2 & -> & ->).
      set (d1 := with_hists (with_rows d db1) hs) in *. assert (Ho1 : d_open d1 = true) by exact Ho.
      pose proof H2 as H2'. rewrite operate_put in H2' by exact Ho1. obind H2' x E. destruct x as [db sts]. obind H2' h Eh. injection H2' as <- <-.
      exists (Some (RPut (st :: sts))). split; [|reflexivity].
      apply (bulk_put d (i :: l) Ho). cbn [map ds_run ds_step]. rewrite H1. cbn [obind].
      apply (bulk_put d1 l Ho1) in H2. rewrite H2. reflexivity.
    + rewrite operate_closed in H1 by (exact Ho || exact I). injection H1 as <- <-.
      rewrite operate_closed in H2 by (exact Ho || exact I). injection H2 as <- <-.
      exists None. rewrite operate_closed by (exact Ho || exact I). split; reflexivity.
Qed.

Lemma kind_get : kind 1 QGet.
Proof.
  constructor.
  - exists seen_get. reflexivity.
  - intros l. repeat split.
  - reflexivity.
  - intros l. apply (single_ok get_ok); [reflexivity|]. intros l'. reflexivity.
  - intros d l d' r H. destruct (d_open d) eqn:Ho.
    + rewrite operate_get in H by exact Ho. obind H x E. injection H as <- <-.
      cbn [resp]. split; [split; reflexivity|]. cbn [body_count].
      pose proof (Forall2_len _ _ _ (bget_answers _ _ _ _ E)). lia.
    + rewrite operate_closed in H by (exact Ho || exact I). injection H as <- <-. split; [split; reflexivity|]. cbn [resp no_response body_count length]. lia.
  - intros d i l d1 r1 d2 r2 H1 H2. destruct (d_open d) eqn:Ho.
    + rewrite operate_get in H1 by exact Ho. obind H1 x E1. injection H1 as <- <-.
      rewrite operate_get in H2 by exact Ho. obind H2 y E2. injection H2 as <- <-.
      exists (Some (RGet (x ++ y))). split; [|reflexivity]. rewrite operate_get by exact Ho.
      change (i :: l) with ([i] ++ l). rewrite omap_app, E1, E2. reflexivity.
    + rewrite operate_closed in H1 by (exact Ho || exact I). injection H1 as <- <-.
      rewrite operate_closed in H2 by (exact Ho || exact I). injection H2 as <- <-.
      exists None. rewrite operate_closed by (exact Ho || exact I). split; reflexivity.
Qed.

Lemma omap_length {A B} (f : A -> outcome B) l r : omap f l = Ok r -> length r = length l.
Proof.
  revert r; induction l as [|a l IH]; intros r H.
  - injection H as <-. reflexivity.
  - apply omap_cons in H as (y & r' & _ & H & ->). cbn [length]. f_equal. apply IH, H.
Qed.

Lemma kind_getop : kind 2 QGetOp.
Proof.
  constructor.
  - exists seen_getop. reflexivity.
  - intros l. repeat split.
  - reflexivity.
  - intros l. apply (single_ok getop_ok); [reflexivity|]. intros l'. reflexivity.
  - intros d l d' r H. destruct (d_open d) eqn:Ho.
    + rewrite operate_getop in H by exact Ho. obind H x E. injection H as <- <-.
      cbn [resp]. split; [split; reflexivity|]. cbn [body_count].
      pose proof (omap_length _ _ _ E). lia.
    + rewrite operate_closed in H by (exact Ho || exact I). injection H as <- <-. split; [split; reflexivity|]. cbn [resp no_response body_count length]. lia.
  - intros d i l d1 r1 d2 r2 H1 H2. destruct (d_open d) eqn:Ho.
    + rewrite operate_getop in H1 by exact Ho. obind H1 x E1. injection H1 as <- <-.
      rewrite operate_getop in H2 by exact Ho. obind H2 y E2. injection H2 as <- <-.
      exists (Some (RGetOp (x ++ y))). split; [|reflexivity]. rewrite operate_getop by exact Ho.
      change (i :: l) with ([i] ++ l). rewrite omap_app, E1, E2. reflexivity.
    + rewrite operate_closed in H1 by (exact Ho || exact I). injection H1 as <- <-.
      rewrite operate_closed in H2 by (exact Ho || exact I). injection H2 as <- <-.
      exists None. rewrite operate_closed by (exact Ho || exact I). split; reflexivity.
Qed.

Lemma kind_del : kind 3 QDel.
Proof.
  constructor.
  - exists seen_del. reflexivity.
  - intros l. repeat split.
  - reflexivity.
  - intros l. apply (single_ok del_ok); [reflexivity|]. intros l'. reflexivity.
  - intros d l d' r H. destruct (d_open d) eqn:Ho.
    + rewrite operate_del in H by exact Ho. obind H x E. destruct x as [db sts]. injection H as <- <-.
      cbn [resp]. split; [split; reflexivity|]. cbn [body_count].
      pose proof (Forall2_len _ _ _ (bdel_answers _ _ _ _ _ _ E)). lia.
    + rewrite operate_closed in H by (exact Ho || exact I). injection H as <- <-. split; [split; reflexivity|]. cbn [resp no_response body_count length]. lia.
  - intros d i l d1 r1 d2 r2 H1 H2. destruct (d_open d) eqn:Ho.
    + rewrite operate_del in H1 by exact Ho. obind H1 x E1. destruct x as [db1 st1]. injection H1 as <- <-.
      assert (Ho1 : d_open (with_rows d db1) = true) by exact Ho.
      rewrite operate_del in H2 by exact Ho1. obind H2 x E2. destruct x as [db2 st2]. injection H2 as <- <-.
      pose proof E1 as E1'. apply bdel_cons in E1' as (dbx & st & r & _ & En & ->). rewrite bdel_nil in En. injection En as <- <-.
      exists (Some (RDel (st :: st2))). split; [|reflexivity]. rewrite operate_del by exact Ho.
      assert (X : bdel (d_kind d) (d_codec d) (d_rows d) (i :: l) = Ok (db2, st :: st2)).
      { apply bdel_cons. exists dbx, st, st2. split; [exact E1|]. split; [exact E2|reflexivity]. }
      rewrite X. reflexivity.
    + rewrite operate_closed in H1 by (exact Ho || exact I). injection H1 as <- <-.
      rewrite operate_closed in H2 by (exact Ho || exact I). injection H2 as <- <-.
      exists None. rewrite operate_closed by (exact Ho || exact I). split; reflexivity.
Qed.

Lemma kind_hist : kind 5 QHist.
Proof.
  constructor.
  - exists seen_name. reflexivity.
  - intros l. repeat split.
  - reflexivity.
  - intros l. apply (single_ok (fun b => b_null b = false /\ u64 (blen (b_data b)))); [reflexivity|]. intros l'. reflexivity.
  - intros d l d' r H. cbn [operate] in H. injection H as <- <-. cbn [resp]. split; [split; reflexivity|].
    cbn [body_count]. rewrite map_length. lia.
  - intros d i l d1 r1 d2 r2 H1 H2. cbn [operate] in H1, H2. injection H1 as <- <-. injection H2 as <- <-.
    eexists. split; [reflexivity|]. reflexivity.
Qed.

Lemma run_cons d q d1 r1 l d2 rs : operate d q = Ok (d1, r1) -> ds_run d1 l = Ok (d2, rs) -> ds_run d (CallReq q :: l) = Ok (d2, r1 :: rs).
Proof. intros H1 H2. cbn [ds_run ds_step]. rewrite H1. cbn [obind]. rewrite H2. reflexivity. Qed.

(* ---- joining ---- *)
Section Join.
Context {A : Type} (n : N) (wrap : list A -> body) (K : kind n wrap).

Lemma serve_one_spec f id d q : serve_one f id d q =
  do (d', r) <- operate d (if f then seen_body q else q);
  do xs <- results_of (mkMsg id 0 (if f then seen_body (resp q r) else resp q r)); Ok (d', xs).
Proof. unfold serve_one. destruct (operate d _) as [[d' r]| |]; reflexivity. Qed.

Lemma carried (f : bool) : exists g : A -> A, forall l, (if f then seen_body (wrap l) else wrap l) = wrap (map g l).
Proof. destruct f; [apply (k_seen _ _ K)|exists (fun x => x); intros l; rewrite map_id; reflexivity]. Qed.
Lemma resp_wrap l l' r : resp (wrap l) r = resp (wrap l') r.
Proof. destruct r; [reflexivity|]. cbn [resp]. rewrite (k_none _ _ K l), (k_none _ _ K l'). reflexivity. Qed.

Lemma join_one f id d i l d1 x d2 y : l <> [] ->
  serve_one f id d (wrap [i]) = Ok (d1, x) -> serve_one f id d1 (wrap l) = Ok (d2, y) ->
  serve_one f id d (wrap (i :: l)) = Ok (d2, x ++ y).
Proof.
  intros Hl H1 H2. rewrite serve_one_spec in H1, H2 |- *. destruct (carried f) as [g Hg]. rewrite Hg in H1, H2 |- *.
  obind H1 a Ea. destruct a as [da ra]. obind H1 xa Exa. obind H2 b Eb. destruct b as [db rb]. obind H2 xb Exb.
  injection H1 as <- <-. injection H2 as <- <-. cbn [map] in Ea |- *.
  destruct (k_resp _ _ K _ _ _ _ Ea) as [Ka _]. destruct (k_resp _ _ K _ _ _ _ Eb) as [Kb _].
  destruct (k_split _ _ K _ _ _ _ _ _ _ Ea Eb) as (r & Er & Hj). rewrite Er. cbn [obind].
  rewrite (resp_wrap (i :: l) (g i :: map g l)), Hj.
  rewrite (resp_wrap [i] [g i]) in Exa. rewrite (resp_wrap l (map g l)) in Exb.
  assert (X : (if f then seen_body (join (resp (wrap [g i]) ra) (resp (wrap (map g l)) rb)) else join (resp (wrap [g i]) ra) (resp (wrap (map g l)) rb))
     = join (if f then seen_body (resp (wrap [g i]) ra) else resp (wrap [g i]) ra) (if f then seen_body (resp (wrap (map g l)) rb) else resp (wrap (map g l)) rb)).
  { destruct f; [apply (join_seen n); assumption|reflexivity]. }
  rewrite X. rewrite (join_results n id 0 _ _ xa xb).
  - reflexivity.
  - destruct f; [apply seen_kind|]; exact Ka.
  - destruct f; [apply seen_kind|]; exact Kb.
  - exact Exa.
  - exact Exb.
Qed.

Lemma join_packet f id p : p <> [] -> forall d d' xs,
  serve_all f id d (map (fun i => wrap [i]) p) = Ok (d', xs) -> serve_one f id d (wrap p) = Ok (d', xs).
Proof.
  induction p as [|i p IH]; intros Hp d d' xs H; [congruence|]. cbn [map serve_all] in H.
  obind H a E1. destruct a as [d1 x]. obind H b E2. destruct b as [d2 y]. injection H as <- <-.
  destruct p as [|j p].
  - cbn [map serve_all] in E2. injection E2 as <- <-. rewrite app_nil_r. exact E1.
  - apply (join_one f id d i (j :: p) d1 x); [congruence|exact E1|]. apply IH; [congruence|exact E2].
Qed.

Lemma serve_all_app f id l1 l2 : forall d d' xs,
  serve_all f id d (l1 ++ l2) = Ok (d', xs) <->
  exists d1 x y, serve_all f id d l1 = Ok (d1, x) /\ serve_all f id d1 l2 = Ok (d', y) /\ xs = x ++ y.
Proof.
  induction l1 as [|q l1 IH]; intros d d' xs; cbn [app serve_all].
  - split; [intros H; exists d, [], xs; auto|intros (d1 & x & y & H1 & H2 & ->)]. injection H1 as <- <-. exact H2.
  - destruct (serve_one f id d q) as [[d1 x]| |]; cbn [obind].
    2,3: split; [discriminate|intros (? & ? & ? & ? & _); discriminate].
    split.
    + intros H. obind H b E. destruct b as [d2 y]. injection H as <- <-. apply IH in E as (d3 & x2 & y2 & E1 & E2 & ->).
      exists d3, (x ++ x2), y2. rewrite E1. cbn [obind]. rewrite app_assoc. auto.
    + intros (d3 & x3 & y3 & H1 & H2 & ->). obind H1 b E. destruct b as [d4 x4]. injection H1 as <- <-.
      assert (G : serve_all f id d1 (l1 ++ l2) = Ok (d', x4 ++ y3)) by (apply IH; eauto 8). rewrite G. cbn [obind].
      rewrite app_assoc. reflexivity.
Qed.

Lemma join_packets f id ps : Forall (fun p => p <> []) ps -> forall d d' xs,
  serve_all f id d (map (fun i => wrap [i]) (concat ps)) = Ok (d', xs) -> serve_all f id d (map wrap ps) = Ok (d', xs).
Proof.
  induction ps as [|p ps IH]; intros Hp d d' xs H; [exact H|]. cbn [concat map serve_all] in H |- *.
  rewrite map_app in H. apply serve_all_app in H as (d1 & x & y & H1 & H2 & ->). inversion Hp; subst.
  rewrite (join_packet f id p) with (d' := d1) (xs := x) by assumption. cbn [obind].
  rewrite (IH H4 d1 d' y H2). reflexivity.
Qed.

(* the wire *)
Lemma fits_app l1 l2 : forall d, fits_wire d (l1 ++ l2) <->
  fits_wire d l1 /\ forall d1, (exists rs, ds_run d (map (fun q => CallReq (seen_body q)) l1) = Ok (d1, rs)) -> fits_wire d1 l2.
Proof.
  induction l1 as [|q l1 IH]; intros d; cbn [app fits_wire].
  - split; [intros H; split; [exact I|]; intros d1 (rs & E); injection E as <- <-; exact H|].
    intros [_ H]. apply H. exists []. reflexivity.
  - split.
    + intros (Hq & d' & r & E & Hr & H). apply IH in H as [H1 H2]. split; [eauto 8|].
      intros d1 (rs & Ers). cbn [map ds_run ds_step] in Ers. rewrite E in Ers. cbn [obind] in Ers. obind Ers a Ea. destruct a as [da ra].
      injection Ers as <- <-. apply H2. eauto.
    + intros [(Hq & d' & r & E & Hr & H1) H2]. split; [exact Hq|]. exists d', r. split; [exact E|]. split; [exact Hr|].
      apply IH. split; [exact H1|]. intros d1 (rs & Ers). apply H2. exists (r :: rs). cbn [map ds_run ds_step]. rewrite E. cbn [obind].
      rewrite Ers. reflexivity.
Qed.

Lemma fits_packet p : p <> [] -> u64 (N.of_nat (length p)) -> forall d,
  fits_wire d (map (fun i => wrap [i]) p) ->
  exists d' r, operate d (seen_body (wrap p)) = Ok (d', r) /\ body_ok (wrap p) /\ body_ok (resp (wrap p) r) /\
    exists rs, ds_run d (map (fun q => CallReq (seen_body q)) (map (fun i => wrap [i]) p)) = Ok (d', rs).
Proof.
  destruct (k_seen _ _ K) as [g Hg].
  induction p as [|i p IH]; intros Hp Hl d H; [congruence|]. cbn [map fits_wire] in H.
  destruct H as (Hi & d1 & r1 & E1 & Hr1 & H).
  destruct p as [|j p].
  - exists d1, r1. split; [exact E1|]. split; [exact Hi|]. split; [exact Hr1|]. exists [r1]. cbn [map ds_run ds_step]. rewrite E1. reflexivity.
  - destruct (IH ltac:(congruence) ltac:(unfold u64 in *; cbn [length] in *; lia) d1 H) as (d2 & r2 & E2 & Hok & Hr2 & rs & Ers).
    rewrite Hg in E1, E2 |- *. cbn [map] in E1.
    destruct (k_split _ _ K _ _ _ _ _ _ _ E1 E2) as (r & Er & Hj).
    exists d2, r. split; [exact Er|]. split.
    { apply (k_ok _ _ K). split; [exact Hl|]. apply (k_ok _ _ K) in Hok as [_ Hok]. constructor; [exact Hi|exact Hok]. }
    split.
    { rewrite (resp_wrap (i :: j :: p) (g i :: map g (j :: p))), Hj.
      destruct (k_resp _ _ K _ _ _ _ E1) as [Ka Ca]. destruct (k_resp _ _ K _ _ _ _ E2) as [Kb Cb].
      apply (join_ok n); [exact Ka|exact Kb| | |].
      - rewrite (resp_wrap [g i] [i]). exact Hr1.
      - rewrite (resp_wrap (map g (j :: p)) (j :: p)). exact Hr2.
      - unfold u64 in *. rewrite map_length in Cb. cbn [length] in *. lia. }
    exists (r1 :: rs). rewrite !(map_cons _ i). apply (run_cons d _ d1 r1); [|exact Ers]. rewrite Hg. exact E1.
Qed.

Lemma fits_packets ps : Forall (fun p => p <> [] /\ u64 (N.of_nat (length p))) ps -> forall d,
  fits_wire d (map (fun i => wrap [i]) (concat ps)) -> fits_wire d (map wrap ps).
Proof.
  induction ps as [|p ps IH]; intros Hp d H; [exact I|]. cbn [concat map fits_wire] in H |- *. inversion Hp as [|? ? [Hne Hl] Hp']; subst.
  rewrite map_app in H. apply fits_app in H as [H1 H2].
  destruct (fits_packet p Hne Hl d H1) as (d' & r & E & Hok & Hr & rs & Ers).
  split; [exact Hok|]. exists d', r. split; [exact E|]. split; [exact Hr|]. apply IH; [exact Hp'|]. apply H2. eauto.
Qed.
End Join.
