(* The Thallium transport: steps keep the invariant *)
From Verif Require Import ModelBytes ProofBytes ModelRoute ModelThal SpecThal ProofThal.
From Coq Require Import Permutation.
Local Open Scope nat_scope.

Section Steps.
Context {store : Type} (handle : Z -> store -> bytes -> outcome (store * bytes)) (accept : bytes -> bool) (eps : Z -> list (Z * Z)) (debug : bool).
Context (threads : list (Z * bool * list (Z * bytes))) (ranks : list Z) (s0 : store).
Notation inv := (inv handle accept eps threads ranks s0).
Notation tok := (tok eps).
Notation prog := (prog accept eps).

(* what a fault means *)
Definition why (st : @net store) : Prop :=
  match n_fault st with
  | None => True
  | Some UseAfterFree | Some DoubleFree => False
  | Some Null => debug = true /\ exists i t, nth_error (n_thr st) i = Some t /\
      ((h_at t = TIdle /\ exists dst b todo, h_todo t = (dst, b) :: todo /\ lookup dst (eps (h_rank t)) = None) \/
       exists r d b, h_at t = TClean r d b /\ accept b = false)
  | Some Failed => exists i t r a c b, nth_error (n_thr st) i = Some t /\ h_at t = HGot r a c /\ peek (n_heap st) (r, c) = Some b /\
      forall x, handle r (n_store st) b <> Ok x
  | Some Gone => exists i t r, nth_error (n_thr st) i = Some t /\ target (h_at t) = Some r /\ In (r, RDown) (n_ranks st)
  | Some Late => exists r d, In (r, d) (n_clean st) /\ In (r, RDown) (n_ranks st)
  end.

Lemma inv_fault st f : inv st -> inv (mkNet (n_thr st) (n_heap st) (n_clean st) (n_ranks st) (n_store st) f (n_hist st)).
Proof. intros [M T LN CA RK MA PA DO]. constructor; assumption. Qed.
Lemma down_in st r : @down store st r = true -> In (r, RDown) (n_ranks st).
Proof.
  unfold down. intros E. apply existsb_exists in E as ([r' x] & I & E). apply Bool.andb_true_iff in E as [E X]. cbn [fst snd] in *.
  apply Z.eqb_eq in E. subst r'. destruct x; try discriminate X. exact I.
Qed.

(* a step of one thread that sends no cleanup *)
Lemma inv_upd0 st i t p h' s' f' hist' : inv st -> nth_error (n_thr st) i = Some t -> idle t = false ->
  (forall R, mem (n_heap st) (own t ++ R) -> mem h' (own (at_phase t p) ++ R)) ->
  (forall k, ~ In k (own t) -> peek (n_heap st) k <> None -> peek h' k = peek (n_heap st) k) ->
  (forall j, j <> i -> carried_for j hist' = carried_for j (n_hist st)) ->
  (tok (n_heap st) (carried_for i (n_hist st)) t -> tok h' (carried_for i hist') (at_phase t p)) ->
  carried handle s0 hist' s' ->
  inv (mkNet (firstn i (n_thr st) ++ at_phase t p :: skipn (S i) (n_thr st)) h' (n_clean st) (n_ranks st) s' f' hist').
Proof.
  intros H E ID MM PP HH TK CA. rewrite <- (app_nil_r (n_clean st)).
  eapply (inv_upd handle accept eps threads ranks s0 st i t (at_phase t p) h' []); try eassumption; try reflexivity. exact (fun q P => P).
Qed.

Lemma own_live st i t k : inv st -> nth_error (n_thr st) i = Some t -> In k (own t) -> exists b, peek (n_heap st) k = Some b.
Proof.
  intros H E I. eapply mem_in; [exact (i_mem _ _ _ _ _ _ _ H)|]. apply in_or_app. left. apply in_flat_map. exists t. split; [eapply nth_error_In; exact E|exact I].
Qed.
Lemma own_nodup st i t : inv st -> nth_error (n_thr st) i = Some t -> NoDup (own t).
Proof.
  intros H E. pose proof (mem_nodup _ _ (i_mem _ _ _ _ _ _ _ H)) as N. eapply (Permutation_NoDup (l' := (own t ++ flat_map own (firstn i (n_thr st) ++ skipn (S i) (n_thr st))) ++ n_clean st)) in N.
  - rewrite <- app_assoc in N. clear -N. induction (own t) as [|x l IH]; [constructor|]. inversion N as [|? ? NI N']; subst. constructor; [|exact (IH N')].
    intros I. apply NI. apply in_or_app. left. exact I.
  - apply Permutation_app_tail. exact (owns_upd _ _ _ E).
Qed.

Definition done_ (st' : @net store) : Prop := inv st' /\ why st'.
Lemma done_fails st f st' : inv st -> (inv st -> why (mkNet (n_thr st) (n_heap st) (n_clean st) (n_ranks st) (n_store st) (Some f) (n_hist st))) ->
  fails st f = Some st' -> done_ st'.
Proof. intros H W E. injection E as <-. split; [apply inv_fault; exact H|exact (W H)]. Qed.
Lemma there_ok st i t r go st' : inv st -> nth_error (n_thr st) i = Some t -> target (h_at t) = Some r -> there st r go = Some st' ->
  (go = Some st' -> done_ st') -> done_ st'.
Proof.
  intros H E T S K. unfold there in S. destruct (down st r) eqn:D; [|exact (K S)].
  eapply done_fails; [exact H| |exact S]. intros _. exists i, t, r. split; [exact E|]. split; [exact T|]. exact (down_in _ _ D).
Qed.
Lemma nofault_why st : n_fault st = None -> why st.
Proof. intros E. unfold why. rewrite E. exact Logic.I. Qed.

Lemma thr_ok st i x st' : inv st -> n_fault st = None -> thr_step handle accept eps debug st i x = Some st' -> done_ st'.
Proof.
  intros H NF S. unfold thr_step in S. destruct (nth_error (n_thr st) i) as [t|] eqn:E; [|discriminate S].
  destruct (i_thr _ _ _ _ _ _ _ H i t E) as (q & Q & P & K). pose proof (own_live st i t) as OL. pose proof (own_nodup st i t H E) as ND.
  assert (CA : carried handle s0 (n_hist st) (n_store st)) by exact (i_carried _ _ _ _ _ _ _ H).
  assert (ID : h_at t <> TIdle -> idle t = false) by (unfold idle; destruct (h_todo t), (h_at t); try reflexivity; intros NN; destruct (NN eq_refl)).
  unfold ProofThal.tok in K. unfold own in OL, ND.
  destruct (h_at t) as [|r a|r a len|r a len|r a len c|r a c|r a m|r a d len|r a d len|r d len|r d len e|r d e|r d m] eqn:A.
  - (* TIdle *)
    destruct (h_todo t) as [|[dst b] todo] eqn:TD; [discriminate S|]. destruct (lookup dst (eps (h_rank t))) as [r|] eqn:LK.
    + unfold alloc in S. destruct (peek (n_heap st) (h_rank t, x)) eqn:PX; [discriminate S|]. injection S as <-. split; [|apply nofault_why; exact NF].
      apply (inv_upd0 st i t (TPacked r x)); try assumption; try reflexivity.
      * unfold idle. rewrite TD. reflexivity.
      * intros R M. unfold own in *. rewrite A in M. cbn [at_phase h_at h_rank app] in *. apply mem_alloc; assumption.
      * intros k _ NK. apply peek_cons. intros <-. exact (NK PX).
      * intros _. unfold ProofThal.tok. cbn [at_phase h_at h_rank h_todo h_log]. exists dst, b, todo. split; [exact TD|]. split; [exact LK|]. split; [exact K|].
        cbn [n_heap with_heap peek]. rewrite key_eqb_refl. reflexivity.
    + destruct debug eqn:DB.
      * eapply done_fails; [exact H| |exact S]. intros _. split; [exact DB|]. exists i, t. split; [exact E|]. left. split; [exact A|]. exists dst, b, todo. split; assumption.
      * injection S as <-. split; [|apply nofault_why; exact NF]. unfold with_thr. rewrite <- (app_nil_r (n_clean st)).
        apply (inv_upd handle accept eps threads ranks s0 st i t (mkTh (h_rank t) (h_main t) todo TIdle (h_log t ++ [(b, Nowhere)])) (n_heap st) []);
          try assumption; try reflexivity.
        -- unfold idle. rewrite TD. reflexivity.
        -- intros R M. unfold own in *. rewrite A in M. exact M.
        -- intros q0 (done & Q0 & AN). exists (done ++ [(dst, b)]). cbn [h_todo h_rank h_log]. split; [rewrite Q0, TD, <- app_assoc; reflexivity|].
           apply Forall2_app; [exact AN|]. constructor; [|constructor]. split; [reflexivity|exact LK].
        -- intros _. unfold ProofThal.tok. cbn [h_at h_log]. unfold reached. rewrite flat_map_app. cbn [flat_map]. rewrite !app_nil_r. exact K.
  - (* TPacked *)
    destruct K as (dst & b & todo & TD & LK & K1 & K2). unfold read in S. rewrite K2 in S. injection S as <-. split; [|apply nofault_why; exact NF].
    apply (inv_upd0 st i t (TSent r a (blen b))); try assumption; try reflexivity.
    + apply ID. discriminate.
    + intros R M. unfold own in *. rewrite A in M. exact M.
    + intros _. unfold ProofThal.tok. cbn [at_phase h_at h_rank h_todo h_log target]. exists dst, b, todo. split; [exact TD|]. split; [exact LK|].
      split; [exact K1|]. split; [exact K2|reflexivity].
  - (* TSent *)
    eapply there_ok; [exact H|exact E|rewrite A; reflexivity|exact S|]. intros G. injection G as <-. split; [|apply nofault_why; exact NF].
    apply (inv_upd0 st i t (HStart r a len)); try assumption; try reflexivity.
    + apply ID. discriminate.
    + intros R M. unfold own in *. rewrite A in M. exact M.
    + intros _. unfold ProofThal.tok. cbn [at_phase h_at h_rank h_todo h_log target]. exact K.
  - (* HStart *)
    destruct K as (dst & b & todo & TD & LK & K1 & K2 & K3).
    eapply there_ok; [exact H|exact E|rewrite A; reflexivity|exact S|]. intros G. unfold alloc in G. destruct (peek (n_heap st) (r, x)) eqn:PX; [discriminate G|].
    injection G as <-. split; [|apply nofault_why; exact NF].
    apply (inv_upd0 st i t (HRecv r a len x)); try assumption; try reflexivity.
    + apply ID. discriminate.
    + intros R M. unfold own in *. rewrite A in M. cbn [at_phase h_at h_rank app] in *. apply mem_alloc; assumption.
    + intros k _ NK. apply peek_cons. intros <-. exact (NK PX).
    + intros _. unfold ProofThal.tok. cbn [at_phase h_at h_rank h_todo h_log target]. exists dst, b, todo. split; [exact TD|]. split; [exact LK|].
      split; [exact K1|]. split; [|exact K3]. cbn [n_heap with_heap]. rewrite peek_cons; [exact K2|]. intros EQ. rewrite EQ in PX. rewrite K2 in PX. discriminate PX.
  - (* HRecv *)
    destruct K as (dst & b & todo & TD & LK & K1 & K2 & K3).
    eapply there_ok; [exact H|exact E|rewrite A; reflexivity|exact S|]. intros G. unfold pull in G. rewrite K2 in G. subst len. rewrite N.ltb_irrefl in G.
    destruct (OL (r, c) H E) as [b0 B0]; [left; reflexivity|]. rewrite B0 in G. injection G as <-. split; [|apply nofault_why; exact NF].
    apply (inv_upd0 st i t (HGot r a c)); try assumption; try reflexivity.
    + apply ID. discriminate.
    + intros R M. unfold own in *. rewrite A in M. cbn [at_phase h_at h_rank app] in *. apply mem_store; [exact M|left; reflexivity].
    + intros k NI _. unfold own in NI. rewrite A in NI. cbn [n_heap with_heap]. rewrite peek_cons, peek_release; [reflexivity| |]; intros <-; apply NI; left; reflexivity.
    + intros _. unfold ProofThal.tok. cbn [at_phase h_at h_rank h_todo h_log target]. exists dst, b, todo. split; [exact TD|]. split; [exact LK|].
      split; [exact K1|]. cbn [n_heap with_heap peek]. rewrite key_eqb_refl. f_equal. unfold blen. rewrite Nnat.Nat2N.id. apply firstn_all.
  - (* HGot *)
    destruct K as (dst & b & todo & TD & LK & K1 & K2).
    eapply there_ok; [exact H|exact E|rewrite A; reflexivity|exact S|]. intros G. unfold read in G. rewrite K2 in G.
    destruct (handle r (n_store st) b) as [[s m]| |] eqn:HD.
    2,3: (eapply done_fails; [exact H| |exact G]; intros _; exists i, t, r, a, c, b; split; [exact E|]; split; [exact A|]; split; [exact K2|]; cbn [n_store]; congruence).
    unfold dealloc in G. rewrite K2 in G. injection G as <-. split; [|apply nofault_why; exact NF].
    apply (inv_upd0 st i t (HDone r a m)); try assumption; try reflexivity.
    + apply ID. discriminate.
    + intros R M. unfold own in *. rewrite A in M. cbn [at_phase h_at h_rank app] in *. apply mem_free. exact M.
    + intros k NI _. unfold own in NI. rewrite A in NI. apply peek_release. intros <-. apply NI. left. reflexivity.
    + intros j NJ. unfold carried_for, served. cbn [n_hist with_heap]. rewrite flat_map_app. cbn [flat_map]. rewrite (proj2 (Nat.eqb_neq i j)) by congruence. rewrite !app_nil_r. reflexivity.
    + intros _. unfold ProofThal.tok. cbn [at_phase h_at h_rank h_todo h_log target]. exists dst, b, todo. split; [exact TD|]. split; [exact LK|].
      rewrite <- K1. unfold carried_for, served. cbn [n_hist with_heap]. rewrite flat_map_app. cbn [flat_map]. rewrite Nat.eqb_refl. rewrite app_nil_r. reflexivity.
    + cbn [n_hist n_store served with_heap]. econstructor; eassumption.
  - (* HDone *)
    destruct K as (dst & b & todo & TD & LK & K1).
    eapply there_ok; [exact H|exact E|rewrite A; reflexivity|exact S|]. intros G. unfold alloc in G. destruct (peek (n_heap st) (r, x)) eqn:PX; [discriminate G|].
    injection G as <-. split; [|apply nofault_why; exact NF].
    apply (inv_upd0 st i t (HSend r a x (blen m))); try assumption; try reflexivity.
    + apply ID. discriminate.
    + intros R M. unfold own in *. rewrite A in M. cbn [at_phase h_at h_rank app] in *. apply mem_alloc; assumption.
    + intros k _ NK. apply peek_cons. intros <-. exact (NK PX).
    + intros _. unfold ProofThal.tok. cbn [at_phase h_at h_rank h_todo h_log target]. exists dst, b, todo. split; [exact TD|]. split; [exact LK|].
      exists m. split; [exact K1|]. cbn [n_heap with_heap peek]. rewrite key_eqb_refl. split; reflexivity.
  - (* HSend *)
    eapply there_ok; [exact H|exact E|rewrite A; reflexivity|exact S|]. intros G. injection G as <-. split; [|apply nofault_why; exact NF].
    apply (inv_upd0 st i t (TResp r a d len)); try assumption; try reflexivity.
    + apply ID. discriminate.
    + intros R M. unfold own in *. rewrite A in M. exact M.
    + intros _. unfold ProofThal.tok. cbn [at_phase h_at h_rank h_todo h_log target]. exact K.
  - (* TResp *)
    destruct K as (dst & b & todo & TD & LK & m & K1 & K2 & K3). unfold dealloc in S.
    destruct (OL (h_rank t, a) H E) as [b0 B0]; [right; left; reflexivity|]. rewrite B0 in S. injection S as <-. split; [|apply nofault_why; exact NF].
    assert (NE : (h_rank t, a) <> (r, d)) by (intros EQ; inversion ND as [|? ? NI _]; apply NI; left; exact EQ).
    apply (inv_upd0 st i t (TFreed r d len)); try assumption; try reflexivity.
    + apply ID. discriminate.
    + intros R M. unfold own in *. rewrite A in M. cbn [at_phase h_at h_rank app] in *. apply mem_free. eapply mem_perm; [apply perm_swap|exact M].
    + intros k NI _. unfold own in NI. rewrite A in NI. apply peek_release. intros <-. apply NI. right. left. reflexivity.
    + intros _. unfold ProofThal.tok. cbn [at_phase h_at h_rank h_todo h_log target]. exists dst, b, todo. split; [exact TD|]. split; [exact LK|].
      exists m. split; [exact K1|]. split; [|exact K3]. cbn [n_heap with_heap]. rewrite peek_release by exact NE. exact K2.
  - (* TFreed *)
    destruct K as (dst & b & todo & TD & LK & m & K1 & K2 & K3). unfold alloc in S. destruct (peek (n_heap st) (h_rank t, x)) eqn:PX; [discriminate S|].
    injection S as <-. split; [|apply nofault_why; exact NF].
    apply (inv_upd0 st i t (TRecv r d len x)); try assumption; try reflexivity.
    + apply ID. discriminate.
    + intros R M. unfold own in *. rewrite A in M. cbn [at_phase h_at h_rank app] in *. apply mem_alloc; assumption.
    + intros k _ NK. apply peek_cons. intros <-. exact (NK PX).
    + intros _. unfold ProofThal.tok. cbn [at_phase h_at h_rank h_todo h_log target]. exists dst, b, todo. split; [exact TD|]. split; [exact LK|].
      exists m. split; [exact K1|]. split; [|exact K3]. cbn [n_heap with_heap]. rewrite peek_cons; [exact K2|]. intros EQ. rewrite EQ in PX. rewrite K2 in PX. discriminate PX.
  - (* TRecv *)
    destruct K as (dst & b & todo & TD & LK & m & K1 & K2 & K3).
    eapply there_ok; [exact H|exact E|rewrite A; reflexivity|exact S|]. intros G. unfold pull in G. rewrite K2 in G. subst len. rewrite N.ltb_irrefl in G.
    destruct (OL (h_rank t, e) H E) as [b0 B0]; [left; reflexivity|]. rewrite B0 in G. injection G as <-. split; [|apply nofault_why; exact NF].
    apply (inv_upd0 st i t (TGot r d e)); try assumption; try reflexivity.
    + apply ID. discriminate.
    + intros R M. unfold own in *. rewrite A in M. cbn [at_phase h_at h_rank app] in *. apply mem_store; [exact M|left; reflexivity].
    + intros k NI _. unfold own in NI. rewrite A in NI. cbn [n_heap with_heap]. rewrite peek_cons, peek_release; [reflexivity| |]; intros <-; apply NI; left; reflexivity.
    + intros _. unfold ProofThal.tok. cbn [at_phase h_at h_rank h_todo h_log target]. exists dst, b, todo. split; [exact TD|]. split; [exact LK|].
      exists m. split; [exact K1|]. cbn [n_heap with_heap peek]. rewrite key_eqb_refl. f_equal. unfold blen. rewrite Nnat.Nat2N.id. apply firstn_all.
  - (* TGot *)
    destruct K as (dst & b & todo & TD & LK & m & K1 & K2). unfold read in S. rewrite K2 in S. unfold dealloc in S. rewrite K2 in S.
    injection S as <-. split; [|apply nofault_why; exact NF].
    apply (inv_upd0 st i t (TClean r d m)); try assumption; try reflexivity.
    + apply ID. discriminate.
    + intros R M. unfold own in *. rewrite A in M. cbn [at_phase h_at h_rank app] in *. apply mem_free. exact M.
    + intros k NI _. unfold own in NI. rewrite A in NI. apply peek_release. intros <-. apply NI. left. reflexivity.
    + intros _. unfold ProofThal.tok. cbn [at_phase h_at h_rank h_todo h_log target]. exists dst, b, todo. split; [exact TD|]. split; [exact LK|exact K1].
  - (* TClean *)
    destruct K as (dst & b & todo & TD & LK & K1). destruct (negb (accept m) && debug)%bool eqn:AC.
    + apply Bool.andb_true_iff in AC as [AC DB]. apply Bool.negb_true_iff in AC.
      eapply done_fails; [exact H| |exact S]. intros _. split; [exact DB|]. exists i, t. split; [exact E|]. right. exists r, d, m. split; assumption.
    + rewrite TD in S. injection S as <-. split; [|apply nofault_why; exact NF].
      apply (inv_upd handle accept eps threads ranks s0 st i t (mkTh (h_rank t) (h_main t) todo TIdle (h_log t ++ [(b, if accept m then Got r m else Unread r m)])) (n_heap st) [(r, d)]);
        try assumption; try reflexivity.
      * apply ID. discriminate.
      * intros R M. unfold own in *. rewrite A in M. exact M.
      * intros q0 (done & Q0 & AN). exists (done ++ [(dst, b)]). cbn [h_todo h_rank h_log]. split; [rewrite Q0, TD, <- app_assoc; reflexivity|].
        apply Forall2_app; [exact AN|]. constructor; [|constructor]. split; [reflexivity|]. destruct (accept m) eqn:AM; (split; [exact LK|exact AM]).
      * intros _. unfold ProofThal.tok. cbn [h_at h_log]. unfold reached. rewrite flat_map_app. cbn [flat_map]. rewrite app_nil_r. cbn [n_hist with_clean].
        rewrite K1. destruct (accept m); reflexivity.
Qed.
End Steps.
