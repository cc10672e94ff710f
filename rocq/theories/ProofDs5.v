(* Closing and opening again *)
From Verif Require Import ModelBytes ProofBytes ModelKey ProofKey ModelElen ModelWire ModelHist ModelMsg ModelStore ModelGetOp ModelDs
  SpecStore ProofStore ProofDs ProofDs2 ProofDs3 ProofDs4.
Local Open Scope N_scope.

Lemma read_same d d2 q r : d_open d = true -> d_open d2 = true -> d_kind d2 = d_kind d -> d_codec d2 = d_codec d -> d_rows d2 = d_rows d ->
  reads q -> operate d q = Ok (d, r) -> operate d2 q = Ok (d2, r).
Proof.
  intros O1 O2 K C R Hq H. destruct q; try destruct Hq; unfold operate in *; rewrite O1 in H; rewrite O2, ?K, C, R; cbn [negb] in *;
    apply obind_ok in H as (x & E & H); rewrite E; injection H as <-; reflexivity.
Qed.
Lemma reopen c l d rs : copies_bytes c -> ds_run (ds_new LevelDB c) l = Ok (d, rs) -> d_open d = true ->
  Forall (fun x => blen (fst x) < 2 ^ 64) (d_hists d) ->
  (exists d1 d2, ds_close d false = Ok d1 /\ ds_open d1 None = Ok d2 /\ (d_hists d = [] -> d2 = d) /\
     forall q r, reads q -> operate d q = Ok (d, r) -> operate d2 q = Ok (d2, r)) /\
  (forall d1 ns d2, ds_close d true = Ok d1 -> ds_open d1 (Some ns) = Ok d2 ->
     (forall s sa p pa ty r, storable c s -> storable c p -> (forall n, ~ reserved n s p) ->
        operate d (QGet [mkGet s sa p pa ty]) = Ok (d, r) -> operate d2 (QGet [mkGet s sa p pa ty]) = Ok (d2, r)) /\
     (forall n h0 b h', In n ns -> hist_find n (d_hists d) = Some h0 ->
        hist_pack h0 = Ok b -> hist_unpack (hist_new [] 0 None) (blen b) b = Ok (Some h', []) ->
        hist_find n (d_hists d2) = Some h')).
Proof.
  intros Hc Hrun Ho Hlen.
  destruct (lifecycle LevelDB c l (ds_new LevelDB c) d rs eq_refl eq_refl Hrun) as (Hk & Hcd & _).
  split.
  - unfold ds_close, ds_sync. cbn [obind]. rewrite Hk. eexists. eexists. split; [reflexivity|].
    unfold ds_open, open_impl. cbn [d_kind d_codec d_rows d_hists]. split; [reflexivity|]. split.
    + intros E. destruct d as [k0 c0 o0 r0 h0]. cbn in Hk, Ho, E |- *. subst. reflexivity.
    + intros q r. apply read_same; cbn [d_open d_kind d_codec d_rows]; auto.
  - intros d1 ns d2 H1 H2. unfold ds_close, ds_sync in H1. apply obind_ok in H1 as ([dw st] & E1 & H1). injection H1 as <-.
    apply obind_ok in E1 as (dw' & Ew & E1). injection E1 as -> _.
    destruct (histograms_apart LevelDB c l d rs dw Hc Hrun Ho Hlen Ew) as [A _].
    pose proof (write_keeps _ _ Ew) as (Ko & Kk & Kc & Kh).
    unfold ds_open, open_impl in H2. cbn [d_kind d_codec d_rows d_hists] in H2. rewrite Kk, Hk in H2. cbn [d_rows] in H2.
    apply obind_ok in H2 as ([d' k] & E2 & H2). injection H2 as <-. unfold read_histograms in E2. cbn [d_open d_rows d_hists] in E2.
    apply obind_ok in E2 as ([hs k2] & Er & E2). injection E2 as <- _. split.
    + intros s sa p pa ty r Hs Hp Hn H. specialize (A s sa p pa ty r Hs Hp Hn H).
      revert A. apply read_same; cbn [with_hists d_open d_kind d_codec d_rows]; first [reflexivity|congruence|exact I].
    + intros n h0 b h' Hin Hf Hpk Hu. cbn [with_hists d_hists]. apply hist_find_in in Hf.
      unfold write_histograms in Ew. rewrite Ho in Ew. apply obind_ok in Ew as (rws & Ew & E). injection E as <-.
      assert (Hnd : NoDup (map fst (d_hists d))) by (eapply run_nodup; [|exact Hrun]; constructor).
      pose proof (write_hists_same n h0 b _ _ _ Ew Hnd Hlen Hf Hpk) as Hg.
      eapply read_hists_found; eauto.
Qed.
