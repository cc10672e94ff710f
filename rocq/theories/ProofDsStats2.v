(* Runs of a datastore and what they count *)
From Verif Require Import ModelBytes ProofBytes ModelKey ModelWire ModelHist ModelMsg ModelStore ProofStore ModelGetOp ModelDs ModelElen ModelFloat ModelRoute
  SpecRoute SpecClient ModelClient ModelStats SpecStats ModelDsStats SpecDsStats ProofDsStats.
Local Open Scope N_scope.

Lemma step_same d x d' r : ds_step d x = Ok (d', r) -> d_codec d' = d_codec d /\ d_kind d' = d_kind d.
Proof.
  destruct x as [ns|w|q|n h| |ns|w]; cbn [ds_step]; intros H.
  - unfold ds_open in H. destruct ns as [ns|]; [|apply Ok_inj in H as [= <- <-]; split; reflexivity].
    unfold read_histograms in H. cbn [open_impl d_open] in H. obind H d2 E. apply Ok_inj in H as [= <- <-].
    obind E y Ey. destruct y as [y n]. apply Ok_inj in E as <-. obind Ey z Ez. destruct z. apply Ok_inj in Ey as [= <- <-]. split; reflexivity.
  - obind H d2 E. apply Ok_inj in H as [= <- <-]. unfold ds_close in E. obind E y Ey. destruct y as [y z]. apply Ok_inj in E as <-.
    unfold ds_sync in Ey. obind Ey d3 E3. apply Ok_inj in Ey as [= <- <-]. cbn [d_codec d_kind].
    destruct w; [|apply Ok_inj in E3 as <-; split; reflexivity]. unfold write_histograms in E3.
    destruct (d_open d); [|apply Ok_inj in E3 as <-; split; reflexivity]. obind E3 rr Er. apply Ok_inj in E3 as <-. split; reflexivity.
  - unfold operate in H. destruct q; try (apply Ok_inj in H as [= <- <-]; split; reflexivity);
      destruct (d_open d); cbn [negb] in H; try (apply Ok_inj in H as [= <- <-]; split; reflexivity).
    + obind H y Ey. destruct y as [y z]. obind H hs Eh. apply Ok_inj in H as [= <- <-]. split; reflexivity.
    + obind H y Ey. apply Ok_inj in H as [= <- <-]. split; reflexivity.
    + obind H y Ey. apply Ok_inj in H as [= <- <-]. split; reflexivity.
    + obind H y Ey. destruct y as [y z]. apply Ok_inj in H as [= <- <-]. split; reflexivity.
  - apply Ok_inj in H as [= <- <-]. split; reflexivity.
  - obind H d2 E. apply Ok_inj in H as [= <- <-]. unfold write_histograms in E.
    destruct (d_open d); [|apply Ok_inj in E as <-; split; reflexivity]. obind E rr Er. apply Ok_inj in E as <-. split; reflexivity.
  - obind H y Ey. destruct y as [y z]. apply Ok_inj in H as [= <- <-]. unfold read_histograms in Ey.
    destruct (d_open d); [|apply Ok_inj in Ey as [= <- <-]; split; reflexivity]. obind Ey y2 Er. destruct y2. apply Ok_inj in Ey as [= <- <-]. split; reflexivity.
  - obind H y Ey. destruct y as [y z]. apply Ok_inj in H as [= <- <-]. unfold ds_sync in Ey. obind Ey d3 E3. apply Ok_inj in Ey as [= <- <-].
    destruct w; [|apply Ok_inj in E3 as <-; split; reflexivity]. unfold write_histograms in E3.
    destruct (d_open d); [|apply Ok_inj in E3 as <-; split; reflexivity]. obind E3 rr Er. apply Ok_inj in E3 as <-. split; reflexivity.
Qed.

(* what one call adds *)
Record adds (k : backend) (c : codec) (log : list (body * body * (nat -> stamp))) (pe ge : list event) : Prop := {
  ad_puts : lenN pe = lenN (filter is_put log);
  ad_put_count : sumN (map ev_count pe) = lenN (flat_map put_items log);
  ad_put_size : sumN (map ev_size pe) mod 2 ^ 64 = bytes_put c log mod 2 ^ 64;
  ad_gets : lenN ge = sumN (map got_events log);
  ad_get_count : sumN (map ev_count ge) = sumN (map got_count log);
  ad_put_times : map ev_time pe = flat_map stamps (filter is_put log);
  ad_get_times : map ev_time ge = flat_map stamps (filter (fun x => negb (is_put x)) log);
  ad_get_size : Forall no_getop log -> sumN (map ev_size ge) mod 2 ^ 64 = get_bytes k c log mod 2 ^ 64
}.
Lemma adds_none k c : adds k c [] [] [].
Proof. constructor; try reflexivity. intros _. destruct k; reflexivity. Qed.
Lemma sumZ_app a b : sumZ (a ++ b) = (sumZ a + sumZ b)%Z.
Proof. unfold sumZ. induction a as [|x a IH]; cbn [app fold_right]; [reflexivity|]. rewrite IH. lia. Qed.
Lemma adds_app k c log log' pe ge pe' ge' : adds k c log pe ge -> adds k c log' pe' ge' -> adds k c (log ++ log') (pe ++ pe') (ge ++ ge').
Proof.
  intros [A1 A2 A3 A4 A5 A6 A7 A8] [B1 B2 B3 B4 B5 B6 B7 B8]. constructor.
  - rewrite filter_app, !lenN_app, A1, B1. reflexivity.
  - rewrite map_app, sumN_app, flat_map_app, lenN_app, A2, B2. reflexivity.
  - unfold bytes_put in *. rewrite map_app, sumN_app, flat_map_app, map_app, sumN_app.
    rewrite N.add_mod, A3, B3, <- N.add_mod by lia. reflexivity.
  - rewrite map_app, sumN_app, lenN_app, A4, B4. reflexivity.
  - rewrite !map_app, !sumN_app, A5, B5. reflexivity.
  - rewrite map_app, filter_app, flat_map_app, A6, B6. reflexivity.
  - rewrite map_app, filter_app, flat_map_app, A7, B7. reflexivity.
  - intros F. apply Forall_app in F as [F1 F2]. rewrite map_app, sumN_app, N.add_mod, (A8 F1), (B8 F2), <- N.add_mod by lia. f_equal.
    unfold get_bytes. destruct k; [|reflexivity]. rewrite flat_map_app, map_app, sumN_app. reflexivity.
Qed.

Lemma mod_self a b : a = b mod 2 ^ 64 -> a mod 2 ^ 64 = b mod 2 ^ 64.
Proof. intros ->. apply N.mod_mod. lia. Qed.

Lemma step_adds d st x ts d' r st' : tstep d st (x, ts) = Ok (d', r, st') ->
  exists pe ge, st_puts st' = st_puts st ++ pe /\ st_gets st' = st_gets st ++ ge /\
    adds (d_kind d) (d_codec d) (answered [(x, ts)] [r]) pe ge.
Proof.
  unfold tstep. cbn [fst snd]. intros H. obind H y Ey. obind H z Ez. apply Ok_inj in H as [= -> ->].
  assert (N : st' = st -> answered [(x, ts)] [r] = [] -> exists pe ge, st_puts st' = st_puts st ++ pe /\ st_gets st' = st_gets st ++ ge /\
    adds (d_kind d) (d_codec d) (answered [(x, ts)] [r]) pe ge).
  { intros -> E. exists [], []. rewrite !app_nil_r, E. split; [reflexivity|]. split; [reflexivity|apply adds_none]. }
  destruct x as [ns|w|q|n h| |ns|w]; try (apply Ok_inj in Ez; apply N; [symmetry; exact Ez|reflexivity]).
  cbn [ds_step] in Ey. unfold operate in Ey. unfold count_events in Ez.
  assert (C : forall l : list unit, (sumZ [] = 0)%Z) by reflexivity.
  destruct q as [l|l|l|l|l|l|l|l|l|l]; try (apply Ok_inj in Ez; apply Ok_inj in Ey as [= <- <-]; apply N; [symmetry; exact Ez|reflexivity]).
  - (* PUT *) destruct (d_open d); cbn [negb] in Ey, Ez; [|apply Ok_inj in Ez; apply Ok_inj in Ey as [= <- <-]; apply N; [symmetry; exact Ez|reflexivity]].
    obind Ey y2 E2. destruct y2 as [y2 sts]. obind Ey hs Eh. apply Ok_inj in Ey as [= <- <-]. obind Ez n En. apply Ok_inj in Ez as <-.
    exists [mkEvent (ts O) (lengthN l) n], []. cbn [st_puts st_gets]. rewrite app_nil_r. split; [reflexivity|]. split; [reflexivity|].
    unfold answered. cbn [combine flat_map app]. constructor; cbn [map filter is_put flat_map put_items app ev_count ev_size ev_time got_events got_count stamps].
    + reflexivity.
    + rewrite app_nil_r. cbn. rewrite N.add_0_r. reflexivity.
    + unfold bytes_put. cbn [flat_map put_items]. rewrite app_nil_r. change (sumN [n]) with (n + 0). rewrite N.add_0_r.
      apply (put_size_sum (d_codec d) l 0) in En. apply mod_self. exact En.
    + reflexivity.
    + reflexivity.
    + reflexivity.
    + reflexivity.
    + intros _. destruct (d_kind d); reflexivity.
  - (* GET *) destruct (d_open d); cbn [negb] in Ey, Ez; [|apply Ok_inj in Ez; apply Ok_inj in Ey as [= <- <-]; apply N; [symmetry; exact Ez|reflexivity]].
    obind Ey y2 E2. apply Ok_inj in Ey as [= <- <-]. obind Ez n En. apply Ok_inj in Ez as <-.
    exists [], [mkEvent (ts O) (lengthN l) n]. cbn [st_puts st_gets]. rewrite app_nil_r. split; [reflexivity|]. split; [reflexivity|].
    unfold answered. cbn [combine flat_map app]. constructor; try reflexivity. intros _. cbn [map ev_size]. change (sumN [n]) with (n + 0). rewrite N.add_0_r.
    apply (get_size_sum (d_kind d) (d_codec d) l 0) in En. unfold get_bytes. cbn [flat_map get_items]. rewrite app_nil_r.
    apply mod_self. rewrite En. reflexivity.
  - (* GETOP *) destruct (d_open d); cbn [negb] in Ey, Ez; [|apply Ok_inj in Ez; apply Ok_inj in Ey as [= <- <-]; apply N; [symmetry; exact Ez|reflexivity]].
    obind Ey gs E2. apply Ok_inj in Ey as [= <- <-]. obind Ez es En. apply Ok_inj in Ez as <-.
    destruct (events_answers _ _ _ _ _ _ _ _ En E2) as (A & B & L).
    exists [], es. cbn [st_puts st_gets]. rewrite app_nil_r. split; [reflexivity|]. split; [reflexivity|].
    unfold answered. cbn [combine flat_map app]. constructor; cbn [map filter is_put flat_map put_items app got_events got_count stamps]; try reflexivity.
    + unfold lenN. rewrite L. cbn. rewrite N.add_0_r. reflexivity.
    + rewrite A. cbn. rewrite N.add_0_r. reflexivity.
    + rewrite B. cbn [negb flat_map]. rewrite app_nil_r. reflexivity.
    + intros F. inversion F as [|? ? F1 F2]. destruct F1.
  - (* DELETE *) destruct (d_open d); cbn [negb] in Ey, Ez; [|apply Ok_inj in Ez; apply Ok_inj in Ey as [= <- <-]; apply N; [symmetry; exact Ez|reflexivity]].
    obind Ey y2 E2. destruct y2 as [y2 sts]. apply Ok_inj in Ey as [= <- <-]. obind Ez n En. apply Ok_inj in Ez as <-.
    exists [], []. cbn [st_puts st_gets]. rewrite !app_nil_r. split; [reflexivity|]. split; [reflexivity|].
    unfold answered. cbn [combine flat_map app]. constructor; try reflexivity. intros _. destruct (d_kind d); reflexivity.
  - (* HISTOGRAM *) apply Ok_inj in Ey as [= <- <-]. apply Ok_inj in Ez as <-.
    exists [], [mkEvent (ts O) (lengthN l) (hist_sizes (d_hists d) l 0)]. cbn [st_puts st_gets]. rewrite app_nil_r. split; [reflexivity|]. split; [reflexivity|].
    unfold answered. cbn [combine flat_map app]. constructor; try reflexivity. intros F. inversion F as [|? ? F1 F2]. destruct F1.
Qed.

Lemma answered_cons x l r rs : answered (x :: l) (r :: rs) = answered [x] [r] ++ answered l rs.
Proof. unfold answered. cbn [combine flat_map]. rewrite app_nil_r. reflexivity. Qed.

Lemma run_adds : forall l d st d' rs st', truns d st l = Ok (d', rs, st') ->
  exists pe ge, st_puts st' = st_puts st ++ pe /\ st_gets st' = st_gets st ++ ge /\ adds (d_kind d) (d_codec d) (answered l rs) pe ge.
Proof.
  induction l as [|[x ts] l IH]; intros d st d' rs st' H; cbn [truns] in H.
  - apply Ok_inj in H as [= <- <- <-]. exists [], []. rewrite !app_nil_r. split; [reflexivity|]. split; [reflexivity|apply adds_none].
  - obind H y Ey. destruct y as [[d1 r] st1]. obind H z Ez. destruct z as [[d2 rs2] st2]. cbn [fst snd] in *. apply Ok_inj in H as [= <- <- <-].
    destruct (step_adds _ _ _ _ _ _ _ Ey) as (pe & ge & P & G & A).
    assert (S : d_codec d1 = d_codec d /\ d_kind d1 = d_kind d).
    { unfold tstep in Ey. cbn [fst snd] in Ey. obind Ey q Q1. obind Ey q2 Q2. apply Ok_inj in Ey as [= -> ->]. exact (step_same _ _ _ _ Q1). }
    destruct (IH _ _ _ _ _ Ez) as (pe' & ge' & P' & G' & A'). destruct S as [S1 S2]. rewrite S1, S2 in A'.
    exists (pe ++ pe'), (ge ++ ge'). rewrite P', P, G', G, !app_assoc. split; [reflexivity|]. split; [reflexivity|].
    rewrite answered_cons. apply adds_app; assumption.
Qed.
