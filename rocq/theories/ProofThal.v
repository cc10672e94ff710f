(* The Thallium transport: the invariant *)
From Verif Require Import ModelBytes ProofBytes ModelRoute ModelThal SpecThal.
From Coq Require Import Permutation.
Local Open Scope nat_scope.

(* ---- buffers ---- *)
Lemma key_eqb_eq a b : key_eqb a b = true <-> a = b.
Proof.
  unfold key_eqb. destruct a as [r x], b as [s y]. cbn [fst snd]. rewrite Bool.andb_true_iff, Z.eqb_eq, Nat.eqb_eq. split.
  - intros [-> ->]. reflexivity.
  - intros E. injection E as -> ->. split; reflexivity.
Qed.
Lemma key_eqb_refl a : key_eqb a a = true.
Proof. apply key_eqb_eq. reflexivity. Qed.
Lemma key_neqb a b : a <> b -> key_eqb a b = false.
Proof. intros N. destruct (key_eqb a b) eqn:E; [|reflexivity]. apply key_eqb_eq in E. destruct (N E). Qed.
Lemma peek_in h k : peek h k <> None <-> In k (map fst h).
Proof.
  induction h as [|[x b] h IH]; cbn [peek map fst In]; [split; [intros N; destruct (N eq_refl)|intros []]|].
  destruct (key_eqb x k) eqn:E.
  - apply key_eqb_eq in E. split; [left; exact E|discriminate].
  - rewrite IH. split; [right; assumption|]. intros [->|I]; [rewrite key_eqb_refl in E; discriminate E|exact I].
Qed.
Lemma peek_none h k : peek h k = None <-> ~ In k (map fst h).
Proof. rewrite <- peek_in. destruct (peek h k); split; try congruence. intros N. destruct N. discriminate. Qed.
Lemma release_keys h k b : peek h k = Some b -> Permutation (map fst h) (k :: map fst (release h k)).
Proof.
  induction h as [|[x c] h IH]; cbn [peek release map fst]; [discriminate|]. destruct (key_eqb x k) eqn:E; intros P.
  - apply key_eqb_eq in E. subst x. reflexivity.
  - cbn [map fst]. rewrite (IH P). apply perm_swap.
Qed.
Lemma peek_release h k k' : k <> k' -> peek (release h k) k' = peek h k'.
Proof.
  intros N. induction h as [|[x c] h IH]; cbn [peek release]; [reflexivity|]. destruct (key_eqb x k) eqn:E.
  - apply key_eqb_eq in E. subst x. rewrite (key_neqb _ _ N). reflexivity.
  - cbn [peek]. rewrite IH. reflexivity.
Qed.
Lemma peek_cons h k b k' : k <> k' -> peek ((k, b) :: h) k' = peek h k'.
Proof. intros N. cbn [peek]. rewrite (key_neqb _ _ N). reflexivity. Qed.

(* the buffers in use are those of a list *)
Definition mem (h : heap) (l : list key) : Prop := NoDup (map fst h) /\ Permutation (map fst h) l.
Lemma mem_perm h l l' : Permutation l l' -> mem h l -> mem h l'.
Proof. intros P [N M]. split; [exact N|]. rewrite M. exact P. Qed.
Lemma mem_nodup h l : mem h l -> NoDup l.
Proof. intros [N M]. eapply Permutation_NoDup; eassumption. Qed.
Lemma mem_in h l k : mem h l -> In k l -> exists b, peek h k = Some b.
Proof. intros [_ M] I. destruct (peek h k) as [b|] eqn:P; [exists b; reflexivity|]. apply peek_none in P. destruct P. rewrite M. exact I. Qed.
Lemma mem_alloc h l k b : mem h l -> peek h k = None -> mem ((k, b) :: h) (k :: l).
Proof. intros [N M] P. apply peek_none in P. split; cbn [map fst]; [constructor; assumption|constructor; exact M]. Qed.
Lemma mem_free h l k : mem h (k :: l) -> mem (release h k) l.
Proof.
  intros H. destruct (mem_in _ _ k H (or_introl eq_refl)) as [b P]. destruct H as [N M]. pose proof (release_keys _ _ _ P) as Q.
  split.
  - rewrite Q in N. inversion N; assumption.
  - rewrite Q in M. exact (Permutation_cons_inv M).
Qed.
Lemma mem_store h l k b : mem h l -> In k l -> mem ((k, b) :: release h k) l.
Proof.
  intros H I. destruct (mem_in _ _ _ H I) as [b0 P]. destruct H as [N M]. pose proof (release_keys _ _ _ P) as Q.
  split; cbn [map fst]; rewrite <- Q; assumption.
Qed.

(* ---- threads ---- *)
(* the buffers of a thread *)
Definition own (t : thread) : list key :=
  let me := h_rank t in
  match h_at t with
  | TIdle => []
  | TPacked r a | TSent r a _ | HStart r a _ | HDone r a _ => [(me, a)]
  | HRecv r a _ c | HGot r a c => [(r, c); (me, a)]
  | HSend r a d _ | TResp r a d _ => [(r, d); (me, a)]
  | TFreed r d _ | TClean r d _ => [(r, d)]
  | TRecv r d _ e | TGot r d e => [(me, e); (r, d)]
  end.
(* the rank a thread has to do with *)
Definition target (p : phase) : option Z :=
  match p with
  | TIdle => None
  | TPacked r _ | TSent r _ _ | HStart r _ _ | HDone r _ _ | HRecv r _ _ _ | HGot r _ _ | HSend r _ _ _ | TResp r _ _ _ | TFreed r _ _
  | TClean r _ _ | TRecv r _ _ _ | TGot r _ _ => Some r
  end.
Section Inv.
Context {store : Type} (handle : Z -> store -> bytes -> outcome (store * bytes)) (accept : bytes -> bool) (eps : Z -> list (Z * Z)).

(* the request of a thread, what the heap holds and what was carried out *)
Definition tok (h : heap) (hist : list (Z * bytes * bytes)) (t : thread) : Prop :=
  let me := h_rank t in
  match h_at t with
  | TIdle => hist = reached (h_log t)
  | p => exists dst b todo, h_todo t = (dst, b) :: todo /\ match target p with Some r => lookup dst (eps me) = Some r | None => True end /\
      match p with
      | TIdle => True
      | TPacked r a => hist = reached (h_log t) /\ peek h (me, a) = Some b
      | TSent r a len | HStart r a len | HRecv r a len _ => hist = reached (h_log t) /\ peek h (me, a) = Some b /\ len = blen b
      | HGot r a c => hist = reached (h_log t) /\ peek h (r, c) = Some b
      | HDone r a m => hist = reached (h_log t) ++ [(r, b, m)]
      | HSend r _ d len | TResp r _ d len | TFreed r d len | TRecv r d len _ =>
          exists m, hist = reached (h_log t) ++ [(r, b, m)] /\ peek h (r, d) = Some m /\ len = blen m
      | TGot r d e => exists m, hist = reached (h_log t) ++ [(r, b, m)] /\ peek h (me, e) = Some m
      | TClean r d m => hist = reached (h_log t) ++ [(r, b, m)]
      end
  end.
(* the requests that are done and those that are not *)
Definition prog (q : list (Z * bytes)) (t : thread) : Prop := exists done, q = done ++ h_todo t /\ answered accept (eps (h_rank t)) done (h_log t).
Definition past (x : rstate) : Prop := x = RPast \/ x = RDown.

Record inv (threads : list (Z * bool * list (Z * bytes))) (ranks : list Z) (s0 : store) (st : @net store) : Prop := mkInv {
  i_mem : mem (n_heap st) (flat_map own (n_thr st) ++ n_clean st);
  i_thr : forall i t, nth_error (n_thr st) i = Some t -> exists q, nth_error threads i = Some (h_rank t, h_main t, q) /\ prog q t /\
            tok (n_heap st) (carried_for i (n_hist st)) t;
  i_len : length (n_thr st) = length threads;
  i_carried : carried handle s0 (n_hist st) (n_store st);
  i_ranks : map fst (n_ranks st) = ranks;
  i_main : forall r x t, In (r, x) (n_ranks st) -> x <> RUp -> In t (n_thr st) -> h_rank t = r -> h_main t = true -> idle t = true;
  i_past : forall r x r' x', In (r, x) (n_ranks st) -> past x -> In (r', x') (n_ranks st) -> x' <> RUp;
  i_down : forall r t, In (r, RDown) (n_ranks st) -> In t (n_thr st) -> h_rank t = r -> idle t = true }.

Lemma tok_ext h h' hist t : (forall k, In k (own t) -> peek h' k = peek h k) -> tok h hist t -> tok h' hist t.
Proof.
  unfold tok, own. intros E. destruct (h_at t); try exact (fun H => H); cbn [In] in E;
    intros (dst & b & todo & T & L & H); exists dst, b, todo; (split; [exact T|]; split; [exact L|]);
    try (rewrite !E by (first [left; reflexivity|right; left; reflexivity]); exact H); try exact H.
  all: destruct H as (m & H); exists m; rewrite !E by (first [left; reflexivity|right; left; reflexivity]); exact H.
Qed.

Lemma nth_split {A} (l : list A) i x : nth_error l i = Some x -> l = firstn i l ++ x :: skipn (S i) l.
Proof.
  revert i. induction l as [|y l IH]; intros [|i] E; try discriminate E.
  - injection E as ->. reflexivity.
  - cbn [nth_error] in E. change (y :: l = y :: (firstn i l ++ x :: skipn (S i) l)). f_equal. exact (IH _ E).
Qed.
Lemma nth_upd {A} (l : list A) i x y j : nth_error l i = Some x ->
  nth_error (firstn i l ++ y :: skipn (S i) l) j = if Nat.eqb j i then Some y else nth_error l j.
Proof.
  intros E. assert (L : length (firstn i l) = i) by (apply firstn_length_le; assert (i < length l) by (apply nth_error_Some; congruence); lia).
  destruct (Nat.eqb_spec j i) as [->|N].
  - rewrite nth_error_app2 by lia. rewrite L, Nat.sub_diag. reflexivity.
  - transitivity (nth_error (firstn i l ++ x :: skipn (S i) l) j); [|rewrite <- (nth_split _ _ _ E); reflexivity]. destruct (Nat.lt_ge_cases j i) as [J|J].
    + rewrite !nth_error_app1 by lia. reflexivity.
    + rewrite !nth_error_app2 by lia. rewrite L. destruct (j - i) as [|n] eqn:D; [lia|]. reflexivity.
Qed.
Lemma upd_length {A} (l : list A) i x y : nth_error l i = Some x -> length (firstn i l ++ y :: skipn (S i) l) = length l.
Proof. intros E. transitivity (length (firstn i l ++ x :: skipn (S i) l)); [rewrite !app_length; reflexivity|rewrite <- (nth_split _ _ _ E); reflexivity]. Qed.
Lemma owns_upd (l : list thread) i t : nth_error l i = Some t ->
  Permutation (flat_map own l) (own t ++ flat_map own (firstn i l ++ skipn (S i) l)).
Proof.
  intros E. rewrite (nth_split _ _ _ E) at 1. rewrite !flat_map_app. cbn [flat_map]. rewrite Permutation_app_swap_app. reflexivity.
Qed.
Lemma owns_upd2 (l : list thread) i t t' : nth_error l i = Some t ->
  Permutation (flat_map own (firstn i l ++ t' :: skipn (S i) l)) (own t' ++ flat_map own (firstn i l ++ skipn (S i) l)).
Proof. intros E. rewrite !flat_map_app. cbn [flat_map]. rewrite Permutation_app_swap_app. reflexivity. Qed.

Lemma nodup_app_disj {A} (l l' : list A) x : NoDup (l ++ l') -> In x l -> In x l' -> False.
Proof.
  induction l as [|y l IH]; cbn [app]; intros N I J; [destruct I|]. inversion N as [|? ? NI N']; subst. destruct I as [->|I].
  - apply NI. apply in_or_app. right. exact J.
  - exact (IH N' I J).
Qed.

(* a step of one thread *)
Lemma inv_upd threads ranks s0 st i t t' h' ex s' f' hist' : inv threads ranks s0 st -> nth_error (n_thr st) i = Some t ->
  idle t = false -> h_rank t' = h_rank t -> h_main t' = h_main t ->
  (forall R, mem (n_heap st) (own t ++ R) -> mem h' (own t' ++ ex ++ R)) ->
  (forall k, ~ In k (own t) -> peek (n_heap st) k <> None -> peek h' k = peek (n_heap st) k) ->
  (forall j, j <> i -> carried_for j hist' = carried_for j (n_hist st)) ->
  (forall q, prog q t -> prog q t') ->
  (tok (n_heap st) (carried_for i (n_hist st)) t -> tok h' (carried_for i hist') t') ->
  carried handle s0 hist' s' ->
  inv threads ranks s0 (mkNet (firstn i (n_thr st) ++ t' :: skipn (S i) (n_thr st)) h' (n_clean st ++ ex) (n_ranks st) s' f' hist').
Proof.
  intros [M T LN CA RK MA PA DO] E ID HR HM MM PP HH PR TK CA'.
  set (R := flat_map own (firstn i (n_thr st) ++ skipn (S i) (n_thr st)) ++ n_clean st).
  assert (M0 : mem (n_heap st) (own t ++ R)) by (eapply mem_perm; [|exact M]; unfold R; rewrite (owns_upd _ _ _ E), app_assoc; reflexivity).
  constructor; cbn [n_heap n_thr n_clean n_ranks n_store n_hist].
  - eapply mem_perm; [|exact (MM _ M0)]. unfold R. rewrite (owns_upd2 _ _ _ t' E), <- !app_assoc. apply Permutation_app_head.
    rewrite Permutation_app_comm, <- app_assoc. reflexivity.
  - intros j u N. rewrite (nth_upd _ _ _ _ _ E) in N. destruct (Nat.eqb_spec j i) as [->|NJ].
    + injection N as <-. destruct (T _ _ E) as (q & Q & P & K). exists q. rewrite HR, HM. split; [exact Q|]. split; [exact (PR _ P)|exact (TK K)].
    + destruct (T _ _ N) as (q & Q & P & K). exists q. split; [exact Q|]. split; [exact P|]. rewrite (HH _ NJ).
      eapply tok_ext; [|exact K]. intros k IK.
      assert (IR : In k R).
      { unfold R. apply in_or_app. left. apply in_flat_map. exists u. split; [|exact IK].
        assert (L : length (firstn i (n_thr st)) = i) by (apply firstn_length_le; assert (i < length (n_thr st)) by (apply nth_error_Some; congruence); lia).
        rewrite (nth_split _ _ _ E) in N.
        apply in_or_app. destruct (Nat.lt_ge_cases j i) as [J|J].
        - left. rewrite nth_error_app1 in N by lia. eapply nth_error_In; exact N.
        - right. rewrite nth_error_app2 in N by lia. rewrite L in N. destruct (j - i) as [|n] eqn:D; [lia|]. eapply nth_error_In; exact N. }
      apply PP.
      * intros IO. exact (nodup_app_disj _ _ _ (mem_nodup _ _ M0) IO IR).
      * destruct (mem_in _ _ k M0) as [b B]; [apply in_or_app; right; exact IR|]. rewrite B. discriminate.
  - rewrite (upd_length _ _ _ _ E). exact LN.
  - exact CA'.
  - exact RK.
  - intros r x u I NX J HU HMU. apply in_app_or in J. cbn [In] in J.
    assert (D : u = t' \/ In u (n_thr st)).
    { destruct J as [J|[J|J]]; [right; rewrite (nth_split _ _ _ E); apply in_or_app; left; exact J|left; symmetry; exact J|
        right; rewrite (nth_split _ _ _ E); apply in_or_app; right; right; exact J]. }
    destruct D as [->|D]; [|exact (MA _ _ _ I NX D HU HMU)].
    assert (B : idle t = true) by (eapply MA; [exact I|exact NX|eapply nth_error_In; exact E|congruence|congruence]). congruence.
  - exact PA.
  - intros r u I J HU. apply in_app_or in J. cbn [In] in J.
    assert (D : u = t' \/ In u (n_thr st)).
    { destruct J as [J|[J|J]]; [right; rewrite (nth_split _ _ _ E); apply in_or_app; left; exact J|left; symmetry; exact J|
        right; rewrite (nth_split _ _ _ E); apply in_or_app; right; right; exact J]. }
    destruct D as [->|D]; [|exact (DO _ _ I D HU)].
    assert (B : idle t = true) by (eapply DO; [exact I|eapply nth_error_In; exact E|congruence]). congruence.
Qed.
End Inv.
