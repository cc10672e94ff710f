(* Calls and flushes in any order: turns, and the command line interface *)
From Verif Require Import ModelBytes ProofBytes ModelKey ModelWire ModelHist ModelMsg SpecMsg ModelStore ModelGetOp ModelDs
  SpecStore ProofStore ProofDs ProofDs2 ModelElen ModelConf ModelFloat ModelRoute SpecRoute ModelClient SpecClient SpecCluster
  ProofCluster ProofCluster2 SpecGetOp SpecScan ProofScan ProofScan2 SpecMixed ProofMixed ModelCli SpecConf SpecOptions SpecFp SpecCli ProofCli ProofCli3 ProofCli4 ProofCli6 ProofCli8 SpecMixed2 SpecStore.
Local Open Scope N_scope.

(* ---- a turn of SpecCluster.v and SpecScan.v ---- *)
Lemma wait_calls e cs : forall w, fold_left (wait e) cs w =
  mkWaiting (w_puts w ++ flat_map (call_puts e) cs) (w_gets w ++ flat_map call_gets cs) (w_getops w ++ flat_map call_getops cs) (w_dels w ++ flat_map call_dels cs).
Proof.
  induction cs as [|x cs IH]; intro w; cbn [fold_left flat_map]; [rewrite !app_nil_r; destruct w; reflexivity|].
  rewrite IH. unfold wait. cbn [w_puts w_gets w_getops w_dels]. rewrite <- !app_assoc. reflexivity.
Qed.
Lemma turn_is_batch e k c M cs ys : let w := fold_left (wait e) cs idle in
  fold_left without (pieces None) w = idle /\ left_all e k M w (pieces None) = fst (batch e k M cs) /\
  (give e k c M w (pieces None) ys -> exists gs, Forall2 (scan_result e c (seen_by_scans e M cs)) (flat_map call_getops cs) gs /\ Permutation ys (snd (batch e k M cs) ++ concat gs)).
Proof.
  cbv zeta. rewrite wait_calls. cbn [idle w_puts w_gets w_getops w_dels app pieces fold_left without left_all left_].
  split; [reflexivity|]. split; [rewrite batch_map; reflexivity|].
  cbn [give gives left_ without w_puts w_gets w_getops w_dels].
  intros (y1 & z1 & -> & (y2 & z2 & -> & (y3 & z3 & (gs & H2 & ->) & (y4 & z4 & -> & -> & ->) & ->) & ->) & ->).
  exists gs. split; [exact H2|]. rewrite app_nil_r. exact (all_batch e k M cs gs).
Qed.

(* ---- commands ---- *)
Lemma run_moves e at_ l : forall i S s cl cl' xss, S 0%Z = s -> moves (fun _ => e) S cl (moves_of at_ i l) = Ok (cl', xss) ->
  exists s' rs, run_commands e at_ i s cl l = Ok (s', cl', rs) /\ List.length rs = List.length l /\ flat_map fst rs = concat xss.
Proof.
  induction l as [|c l IH]; intros i S s cl cl' xss Es P.
  - cbn [moves_of moves] in P. apply Ok_inj in P. injection P as -> <-. exists s, []. repeat split.
  - cbn [moves_of] in P. cbn [run_commands].
    assert (exists a ys yss, (match call_of (at_ i) c with
        | Some x => do (a, ok) <- do_call e s cl x; Ok (a, ([], ok))
        | None => do (a, xs) <- match c with MFlushPuts => flush_puts e s cl | MFlushGets => flush_gets e s cl | MFlushDels => flush_dels e s cl | _ => flush e s cl end; Ok (a, (xs, true))
        end) = Ok (a, ys) /\ moves (fun _ => e) (next S 0 (fst a)) (snd a) (moves_of at_ (Datatypes.S i) l) = Ok (cl', yss) /\ concat xss = fst ys ++ concat yss) as (a & ys & yss & E & P' & X).
    { unfold move_of in P. destruct (call_of (at_ i) c) as [x|] eqn:C.
      - cbn [moves] in P. rewrite Es in P. obind P a Ea. destruct a as [a ok]. exists a, ([], ok), xss. rewrite Ea. cbn [obind]. split; [reflexivity|]. split; [exact P|reflexivity].
      - destruct (at_ i) as [[? ?] ?]. destruct c; cbn [call_of] in C; try discriminate C; cbn [moves send] in P; rewrite Es in P;
          (obind P a Ea; destruct a as [a xs]; obind P b Eb; destruct b as [cl2 r]; apply Ok_inj in P; injection P as -> <-;
           exists a, (xs, true), r; rewrite Ea; cbn [obind]; split; [reflexivity|]; split; [exact Eb|reflexivity]). }
    rewrite E. cbn [obind]. destruct (IH (Datatypes.S i) (next S 0 (fst a)) (fst a) (snd a) cl' yss eq_refl P') as (s' & rs & R & L & Y).
    rewrite R. cbn [obind]. exists s', (ys :: rs). split; [reflexivity|]. cbn [List.length flat_map]. split; [congruence|]. rewrite Y, X. reflexivity.
Qed.
Lemma commands_moves e k c s cl at_ l : good_client e -> fresh e s -> holds e cl (fun _ => opened k c) ->
  moves_fine (fun _ => e) k c no_triples (fun _ => idle) (moves_of at_ 0 l) ->
  exists s' cl' rs xss, run_commands e at_ 0 s cl l = Ok (s', cl', rs) /\ List.length rs = List.length l /\
    flat_map fst rs = concat xss /\ moves_seen (fun _ => e) k c no_triples (fun _ => idle) (moves_of at_ 0 l) xss.
Proof.
  intros G F H HF.
  destruct (cluster_moves (fun _ => e) k c e (fun _ => s) cl (moves_of at_ 0 l)) as (cl' & xss & P & R).
  - intros i _. split; [exact G|]. split; [|exact F]. split; [reflexivity|]. split; reflexivity.
  - exact H.
  - exact HF.
  - destruct (run_moves e at_ l 0 (fun _ => s) s cl cl' xss eq_refl P) as (s' & rs & E & L & X). exists s', cl', rs, xss. auto.
Qed.

(* ---- what is printed ---- *)
Definition wait_held mem (w : waiting) : Prop :=
  Forall (held3 mem) (w_puts w) /\ Forall (fun t => held mem (fst (fst t)) /\ held mem (snd (fst t))) (w_gets w) /\
  Forall (fun t => held mem (fst t) /\ held mem (snd t)) (w_dels w).
Lemma without_held mem w p : wait_held mem w -> wait_held mem (without w p).
Proof. intros (A & B & C). destruct p; (split; [|split]); try assumption; constructor. Qed.
Lemma pieces_held mem ps : forall w, wait_held mem w -> wait_held mem (fold_left without ps w).
Proof. induction ps as [|p ps IH]; intros w H; [exact H|]. apply IH, without_held, H. Qed.
Lemma without_good c w p : Forall (good_scan c) (w_getops w) -> Forall (good_scan c) (w_getops (without w p)).
Proof. intro H. destruct p; try exact H. constructor. Qed.
Lemma pieces_good c ps : forall w, Forall (good_scan c) (w_getops w) -> Forall (good_scan c) (w_getops (fold_left without ps w)).
Proof. induction ps as [|p ps IH]; intros w H; [exact H|]. apply IH, without_good, H. Qed.
Lemma left_ok mem e k w p M : wait_held mem w -> stored_ok M -> stored_ok (left_ e k M w p).
Proof. intros (A & B & C) SM. destruct p; cbn [left_]; try exact SM; [eapply put_all_ok; eassumption|apply (del_all_ok mem e k _ C M SM)]. Qed.
Lemma gives_show mem e k c w p M ys : wait_held mem w -> Forall (good_scan c) (w_getops w) -> stored_ok M -> gives e k c M w p ys -> Forall (result_showable mem) ys.
Proof.
  intros (A & B & C) GO SM. destruct p; cbn [gives].
  - intros ->. apply Forall_map. eapply Forall_impl; [|exact A]. intros [[a b] o] [Ha [Hb _]]. split; apply held_ref; assumption.
  - intros ->. apply Forall_map. eapply Forall_impl; [|exact B]. intros [[a b] ty] [Ha Hb]. cbn [fst snd] in *. cbn [get_result].
    destruct (M (fa a) (fa b)) as [o|] eqn:E; cbn [result_showable]; [|discriminate].
    intros _. split; [apply held_ref, Ha|]. split; [apply held_ref, Hb|]. split; [reflexivity|exact (proj2 (proj2 (SM _ _ _ E)))].
  - intros (gs & H2 & ->). revert GO. induction H2 as [|t xs ts gs R _ IH]; intro GO; [constructor|]. inversion GO as [|? ? G1 G2]; subst. cbn [concat]. apply Forall_app.
    split; [exact (scan_shows mem e c _ t xs SM G1 R)|exact (IH G2)].
  - intros ->. apply (del_all_ok mem e k _ C M SM).
Qed.
Lemma give_show mem e k c ps : forall w M ys, wait_held mem w -> Forall (good_scan c) (w_getops w) -> stored_ok M -> give e k c M w ps ys ->
  Forall (result_showable mem) ys /\ stored_ok (left_all e k M w ps).
Proof.
  induction ps as [|p ps IH]; intros w M ys H G SM; cbn [give left_all]; [intros ->; split; [constructor|exact SM]|].
  intros (y & z & Y & Z & ->). destruct (IH _ _ _ (without_held mem w p H) (without_good c w p G) (left_ok mem e k w p M H SM) Z) as [A B].
  split; [|exact B]. apply Forall_app. split; [exact (gives_show mem e k c w p M y H G SM Y)|exact A].
Qed.
Lemma wait_held_call mem e w x : call_held mem x -> wait_held mem w -> wait_held mem (wait e w x).
Proof.
  intros Hx (A & B & C). assert (Forall (call_held mem) [x]) as F by (constructor; [exact Hx|constructor]).
  pose proof (puts_held mem e [x] F) as P. pose proof (gets_held mem [x] F) as Q. pose proof (dels_held mem [x] F) as R. cbn [flat_map] in P, Q, R. rewrite app_nil_r in P, Q, R.
  cbn [wait w_puts w_gets w_dels]. split; [apply Forall_app; auto|]. split; apply Forall_app; auto.
Qed.
Definition move_held mem (m : Z * move) : Prop := match snd m with Say x => call_held mem x | Send _ => True end.
Lemma moves_show mem e k c l : Forall (move_held mem) l -> Forall (fun m => fst m = 0%Z) l -> forall M W rs, wait_held mem (W 0%Z) -> Forall (good_scan c) (w_getops (W 0%Z)) -> stored_ok M ->
  moves_fine (fun _ => e) k c M W l -> moves_seen (fun _ => e) k c M W l rs -> Forall (result_showable mem) (concat rs).
Proof.
  induction 1 as [|[i [x|p]] l Hm _ IH]; intros Z M W rs H G SM HF HS; [cbn in HS; subst rs; constructor| |]; inversion Z as [|? ? Z1 Z2]; subst; cbn [fst] in Z1; subst i; cbn [moves_fine moves_seen] in *.
  - destruct HF as [Hx HF]. refine (IH Z2 M _ rs _ _ SM HF HS); unfold waits; cbn [Z.eqb].
    + apply wait_held_call; assumption.
    + cbn [wait w_getops]. apply Forall_app. split; [exact G|]. destruct (scan_parts e c x Hx) as (_ & _ & _ & D & _). exact D.
  - destruct HF as [_ HF]. destruct HS as (xs & ys & rs' & -> & P & Y & HS). destruct (give_show mem e k c _ _ _ _ H G SM Y) as [R SM'].
    cbn [concat]. apply Forall_app. split; [eapply Permutation_Forall; [apply Permutation_sym, P|exact R]|].
    refine (IH Z2 _ _ rs' _ _ SM' HF HS); unfold waits; cbn [Z.eqb]; [apply pieces_held, H|apply pieces_good, G].
Qed.
Lemma kept_moves mem at_ l : forall i, kept_cmds mem at_ i l -> Forall (move_held mem) (moves_of at_ i l) /\ Forall (fun m => fst m = 0%Z) (moves_of at_ i l).
Proof.
  induction l as [|c l IH]; intros i K; [split; constructor|]. destruct K as [K1 K2]. destruct (IH _ K2) as [A B]. cbn [moves_of]. split; (constructor; [|assumption]); [|reflexivity].
  unfold kept_cmd in K1. unfold move_of, move_held. destruct (at_ i) as [[x y] z]. destruct c; cbn [call_of snd call_held]; try exact Logic.I; exact K1.
Qed.
Lemma commands_print e k c s cl at_ l mem : good_client e -> fresh e s -> holds e cl (fun _ => opened k c) ->
  moves_fine (fun _ => e) k c no_triples (fun _ => idle) (moves_of at_ 0 l) -> kept_cmds mem at_ 0 l ->
  exists s' cl' rs xss out, run_commands e at_ 0 s cl l = Ok (s', cl', rs) /\ flat_map fst rs = concat xss /\
    moves_seen (fun _ => e) k c no_triples (fun _ => idle) (moves_of at_ 0 l) xss /\
    print_results mem (flat_map fst rs) = Ok (concat out) /\ Forall2 (result_line mem) (flat_map fst rs) out.
Proof.
  intros G F H HF K. destruct (commands_moves e k c s cl at_ l G F H HF) as (s' & cl' & rs & xss & E & _ & X & P).
  destruct (kept_moves mem at_ l 0 K) as [KM KZ].
  assert (Forall (result_showable mem) (flat_map fst rs)) as SH.
  { rewrite X. refine (moves_show mem e k c _ KM KZ no_triples _ _ _ _ _ HF P); [repeat split; constructor|constructor|intros ? ? ? Y; discriminate Y]. }
  destruct (lines_print mem _ SH) as [out [E1 E2]]. exists s', cl', rs, xss, out. auto.
Qed.
Lemma text_moves t ls e k c s cl at_ mem : lines t ls -> Forall (fun l => correct l \/ foreign l) ls ->
  good_client e -> fresh e s -> holds e cl (fun _ => opened k c) ->
  exists us, Forall2 understood ls us /\ (moves_fine (fun _ => e) k c no_triples (fun _ => idle) (moves_of at_ 0 (flat_map fst us)) -> kept_cmds mem at_ 0 (flat_map fst us) ->
    exists s' cl' rs xss out, run_commands e at_ 0 s cl (fst (parse_commands t)) = Ok (s', cl', rs) /\ flat_map fst rs = concat xss /\
      moves_seen (fun _ => e) k c no_triples (fun _ => idle) (moves_of at_ 0 (flat_map fst us)) xss /\
      print_results mem (flat_map fst rs) = Ok (concat out) /\ Forall2 (result_line mem) (flat_map fst rs) out).
Proof.
  intros L F G Fr H. destruct (commands_read t ls L F) as [us [U P]]. exists us. split; [exact U|]. intros C K. rewrite P. cbn [fst].
  exact (commands_print e k c s cl at_ _ mem G Fr H C K).
Qed.
