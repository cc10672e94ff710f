(* The MPI transport: the invariant *)
From Verif Require Import ModelBytes ModelRoute ModelMpi SpecMpi.
From Coq Require Import Permutation.
Local Open Scope N_scope.

(* ---- packets ---- *)
Definition chan (f t : Z) (g : tag) (l : list packet) : list payload := map k_load (filter (on f t g) l).
Lemma tag_eqb_eq a b : tag_eqb a b = true <-> a = b.
Proof. split; [destruct a, b; cbn; congruence|intros ->; destruct b; reflexivity]. Qed.
Lemma on_spec f t g k : on f t g k = true <-> k_from k = f /\ k_to k = t /\ k_tag k = g.
Proof.
  unfold on. rewrite !Bool.andb_true_iff, !Z.eqb_eq, tag_eqb_eq. tauto.
Qed.
Definition same3 (f t : Z) (g : tag) (f' t' : Z) (g' : tag) : bool := ((f =? f')%Z && (t =? t')%Z && tag_eqb g g')%bool.
Lemma same3_spec f t g f' t' g' : same3 f t g f' t' g' = true <-> f = f' /\ t = t' /\ g = g'.
Proof. unfold same3. rewrite !Bool.andb_true_iff, !Z.eqb_eq, tag_eqb_eq. tauto. Qed.
Lemma chan_take f t g l k r : take f t g l = Some (k, r) ->
  (k_from k = f /\ k_to k = t /\ k_tag k = g) /\ chan f t g l = k_load k :: chan f t g r /\
  (forall f' t' g', same3 f t g f' t' g' = false -> chan f' t' g' r = chan f' t' g' l).
Proof.
  revert k r. induction l as [|x l IH]; cbn [take]; intros k r E; [discriminate E|].
  destruct (on f t g x) eqn:O.
  - injection E as <- <-. split; [now apply on_spec|]. unfold chan. cbn [filter]. rewrite O. split; [reflexivity|].
    intros f' t' g' N. destruct (on f' t' g' x) eqn:O'; [|reflexivity]. exfalso.
    apply on_spec in O. apply on_spec in O'. destruct O as (<- & <- & <-), O' as (<- & <- & <-).
    assert (same3 (k_from x) (k_to x) (k_tag x) (k_from x) (k_to x) (k_tag x) = true) by now apply same3_spec. congruence.
  - destruct (take f t g l) as [[y s]|]; [|discriminate E]. injection E as <- <-. destruct (IH y s eq_refl) as (A & B & C).
    split; [exact A|]. unfold chan in *. cbn [filter]. rewrite O. split; [exact B|].
    intros f' t' g' N. cbn [filter]. destruct (on f' t' g' x); cbn [map]; rewrite (C f' t' g' N); reflexivity.
Qed.
Lemma chan_take_none f t g l : take f t g l = None -> chan f t g l = [].
Proof.
  induction l as [|x l IH]; cbn [take]; intros E; [reflexivity|]. unfold chan in *. cbn [filter].
  destruct (on f t g x); [discriminate E|]. destruct (take f t g l) as [[y s]|]; [discriminate E|]. apply IH. reflexivity.
Qed.
Lemma chan_app f t g l l' : chan f t g (l ++ l') = chan f t g l ++ chan f t g l'.
Proof. unfold chan. rewrite filter_app, map_app. reflexivity. Qed.
Lemma chan_one f t g f' t' g' k p : chan f t g [mkPk f' t' g' k p] = if same3 f' t' g' f t g then [p] else [].
Proof. unfold chan, on, same3. cbn. destruct ((f' =? f)%Z && (t' =? t)%Z && tag_eqb g' g)%bool; reflexivity. Qed.

(* ---- listeners ---- *)
(* a listener that has something to do with c: not one that only waits until its last packet is sent *)
Definition engaged (c : Z) (x : lstate) : bool :=
  match x with
  | LTop => false
  | LData d _ | LGot d _ => (d =? c)%Z
  | LSend d l | LWait _ _ d l => match l with [] => false | _ => (d =? c)%Z end
  end.
Definition eng (c s : Z) (l : list (Z * lstate)) : list lstate :=
  flat_map (fun '(r, x) => if ((r =? s)%Z && engaged c x)%bool then [x] else []) l.
Lemma eng_app c s l l' : eng c s (l ++ l') = eng c s l ++ eng c s l'.
Proof. apply flat_map_app. Qed.
Lemma eng_one c s r x : eng c s [(r, x)] = if ((r =? s)%Z && engaged c x)%bool then [x] else [].
Proof. cbn. apply app_nil_r. Qed.
Lemma nth_split3 {A} (l : list A) i x : nth_error l i = Some x -> l = firstn i l ++ x :: skipn (S i) l.
Proof.
  revert i. induction l as [|y l IH]; intros [|i] E; try discriminate E.
  - injection E as ->. reflexivity.
  - cbn [nth_error] in E. cbn [firstn skipn app]. f_equal. exact (IH i E).
Qed.
(* listener i of rank me changes from x to y *)
Lemma eng_change l i me x y : nth_error l i = Some (me, x) -> forall c s,
  (me <> s \/ (engaged c x = false /\ engaged c y = false) ->
    eng c s (firstn i l ++ (me, y) :: skipn (S i) l) = eng c s l) /\
  (me = s -> engaged c x = true -> forall z, eng c s l = [z] ->
    z = x /\ eng c s (firstn i l ++ (me, y) :: skipn (S i) l) = if engaged c y then [y] else []) /\
  (me = s -> engaged c x = false -> eng c s l = [] ->
    eng c s (firstn i l ++ (me, y) :: skipn (S i) l) = if engaged c y then [y] else []) /\
  (me = s -> engaged c x = true -> eng c s l <> []).
Proof.
  intros E c s. pose proof (nth_split3 _ _ _ E) as S. set (a := firstn i l) in *. set (b := skipn (Datatypes.S i) l) in *.
  rewrite S. change ((me, y) :: b) with ([(me, y)] ++ b). change ((me, x) :: b) with ([(me, x)] ++ b).
  rewrite !eng_app, !eng_one. split; [|split; [|split]].
  - intros [N | [-> ->] ]; [|rewrite !Bool.andb_false_r; reflexivity]. apply Z.eqb_neq in N. rewrite N. reflexivity.
  - intros -> X z. rewrite X, Z.eqb_refl. cbn [andb]. intros W.
    destruct (eng c s a) as [|u [|v w]]; cbn [app] in W.
    + destruct (eng c s b) as [|u w]; [|discriminate W]. injection W as <-. split; [reflexivity|]. destruct (engaged c y); reflexivity.
    + destruct (eng c s b); discriminate W.
    + destruct w; discriminate W.
  - intros -> X. rewrite X, Z.eqb_refl. cbn [andb app]. intros W. apply app_eq_nil in W. destruct W as [-> ->].
    destruct (engaged c y); reflexivity.
  - intros -> X. rewrite X, Z.eqb_refl. cbn [andb]. intros W. apply app_eq_nil in W. destruct W as [_ W]. discriminate W.
Qed.

(* ---- clients ---- *)
(* how far the exchange of a call with one server has come *)
Inductive tstate := TAll | TData | TWait | TLen (n : N) | TDone (a : bytes).
Fixpoint locate (s : Z) (i : nat) (c : call) : option (nat * bytes) :=
  match c with [] => None | (r, b) :: c' => if (r =? s)%Z then Some (i, b) else locate s (S i) c' end.
Definition is_send (s : Z) (t : tag) (x : Z * tag * payload) : bool := ((fst (fst x) =? s)%Z && tag_eqb (snd (fst x)) t)%bool.
Definition tview (x : cstate) (s : Z) : option (bytes * tstate) :=
  let sent := match x with CIdle => [] | CSend _ _ c | CWait _ c | CSizes _ _ c | CDatas _ _ c => c end in
  match locate s 0 sent with
  | None => None
  | Some (i, b) =>
      Some (b, match x with
               | CIdle => TAll
               | CSend l _ _ => if existsb (is_send s RqSize) l then TAll else if existsb (is_send s RqData) l then TData else TWait
               | CWait _ _ => TWait
               | CSizes w lens _ => if existsb (fun y => (snd y =? s)%Z) w then TWait else TLen (len_of i lens)
               | CDatas w got _ => match find (fun y => (snd (fst y) =? s)%Z) w with
                                   | Some (_, _, n) => TLen n
                                   | None => match got_from s got with a :: _ => TDone a | [] => TWait end
                                   end
               end)
  end.
Lemma locate_none s i c : locate s i c = None <-> ~ In s (map fst c).
Proof.
  revert i. induction c as [|[r b] c IH]; intros i; cbn [locate map fst In]; [tauto|].
  destruct (Z.eqb_spec r s) as [->|N]; [split; [discriminate|tauto]|]. rewrite IH. tauto.
Qed.
Lemma locate_some s i c n b : locate s i c = Some (n, b) -> (i <= n)%nat /\ nth_error c (n - i) = Some (s, b).
Proof.
  revert i. induction c as [|[r x] c IH]; intros i; cbn [locate]; [discriminate|].
  destruct (Z.eqb_spec r s) as [->|N].
  - intros E. injection E as <- <-. rewrite Nat.sub_diag. split; [lia|reflexivity].
  - intros E. destruct (IH _ E) as [L M]. split; [lia|]. replace (n - i)%nat with (S (n - S i)) by lia. exact M.
Qed.
Lemma locate_at s c n b : NoDup (map fst c) -> nth_error c n = Some (s, b) -> forall i, locate s i c = Some ((i + n)%nat, b).
Proof.
  revert n. induction c as [|[r x] c IH]; intros [|n] D E i; try discriminate E; cbn [locate].
  - injection E as -> ->. rewrite Z.eqb_refl, Nat.add_0_r. reflexivity.
  - cbn [nth_error] in E. inversion D as [|? ? N D']; subst. destruct (Z.eqb_spec r s) as [->|_].
    + exfalso. apply N. apply in_map_iff. exists (s, b). split; [reflexivity|]. eapply nth_error_In. exact E.
    + rewrite (IH n D' E). f_equal. f_equal. lia.
Qed.
Lemma locate_eq s c b : NoDup (map fst c) -> In (s, b) c -> exists i, locate s 0 c = Some (i, b) /\ nth_error c i = Some (s, b).
Proof. intros D I. apply In_nth_error in I. destruct I as [n E]. exists n. split; [exact (locate_at s c n b D E 0%nat)|exact E]. Qed.

Section Inv.
Context {store : Type} (handle : Z -> store -> bytes -> outcome (store * (Z * bytes))).
Context (eps : Z -> list (Z * Z)).
Notation net := (@net store).

Definition known (me : Z) (sent : call) : Prop :=
  NoDup (map fst sent) /\ Forall (fun x => lookup (fst x) (eps me) = Some (fst x)) sent /\
  Forall (fun x => answers_sender handle me (snd x)) sent.
Definition wf (me : Z) (x : cstate) : Prop :=
  match x with
  | CIdle => True
  | CSend l _ sent => known me sent /\ exists pre rest,
      (l = to_send rest /\ sent = pre ++ rest) \/ (exists r b, l = (r, RqData, PData b) :: to_send rest /\ sent = pre ++ (r, b) :: rest)
  | CWait _ sent => known me sent
  | CSizes w lens sent => known me sent /\ NoDup (map snd w) /\ forall i r, In (i, r) w -> exists b, nth_error sent i = Some (r, b)
  | CDatas w got sent => known me sent /\
      Permutation (map (fun y => snd (fst y)) w ++ map (fun y => snd (fst y)) got) (map fst sent)
  end.
Definition cur (x : cstate) : list call :=
  match x with CIdle => [] | CSend _ _ c | CWait _ c | CSizes _ _ c | CDatas _ _ c => [c] end.

Lemma known_found me sent s i b : known me sent -> locate s 0 sent = Some (i, b) ->
  nth_error sent i = Some (s, b) /\ lookup s (eps me) = Some s /\ answers_sender handle me b.
Proof.
  intros (D & F & A) E. destruct (locate_some _ _ _ _ _ E) as [_ N]. rewrite Nat.sub_0_r in N. split; [exact N|].
  apply nth_error_In in N. rewrite Forall_forall in F, A. split; [exact (F _ N)|exact (A _ N)].
Qed.

Lemma send_in s t c : existsb (is_send s t) (to_send c) = (existsb (fun x => (fst x =? s)%Z) c && (tag_eqb RqSize t || tag_eqb RqData t))%bool.
Proof.
  induction c as [|[r b] c IH]; [reflexivity|]. cbn [to_send flat_map app existsb fst]. fold (to_send c). rewrite IH. unfold is_send. cbn [fst snd].
  destruct (r =? s)%Z, t, (existsb (fun x => (fst x =? s)%Z) c); reflexivity.
Qed.
Lemma has_fst s (c : call) : existsb (fun x => (fst x =? s)%Z) c = true <-> In s (map fst c).
Proof.
  rewrite existsb_exists, in_map_iff. split; intros (x & A & B); exists x; [apply Z.eqb_eq in B|subst; split; [exact B|apply Z.eqb_refl]].
  split; assumption.
Qed.

(* the steps of a client, seen by one server *)
Lemma view_start s t : tview (CSend (to_send t) [] t) s = None \/ exists b, tview (CSend (to_send t) [] t) s = Some (b, TAll).
Proof.
  unfold tview. cbn zeta. destruct (locate s 0 t) as [[i b]|] eqn:E; [right|left; reflexivity]. exists b. rewrite send_in.
  assert (existsb (fun x => (fst x =? s)%Z) t = true) as ->; [|reflexivity].
  apply has_fst. destruct (in_dec Z.eq_dec s (map fst t)) as [I|N]; [exact I|]. apply (locate_none s 0%nat) in N. congruence.
Qed.
Lemma view_sent s ks sent : tview (CWait ks sent) s = tview (CSend [] ks sent) s.
Proof. reflexivity. Qed.
Lemma nodup_mid (pre : call) r b rest : NoDup (map fst (pre ++ (r, b) :: rest)) ->
  existsb (fun x => (fst x =? r)%Z) rest = false /\ ~ In r (map fst pre).
Proof.
  rewrite map_app. cbn [map fst]. intros D. apply NoDup_remove_2 in D. split.
  - apply Bool.not_true_iff_false. rewrite has_fst. intros I. apply D. apply in_or_app. right. exact I.
  - intros I. apply D. apply in_or_app. left. exact I.
Qed.
Lemma locate_mid pre r b rest : NoDup (map fst (pre ++ (r, b) :: rest)) -> locate r 0 (pre ++ (r, b) :: rest) = Some (length pre, b).
Proof. intros D. apply (locate_at r _ (length pre) b D). rewrite nth_error_app2, Nat.sub_diag; [reflexivity|lia]. Qed.
Lemma view_size s pre r b rest ks ks' : NoDup (map fst (pre ++ (r, b) :: rest)) ->
  let a := tview (CSend (to_send ((r, b) :: rest)) ks (pre ++ (r, b) :: rest)) s in
  let a' := tview (CSend ((r, RqData, PData b) :: to_send rest) ks' (pre ++ (r, b) :: rest)) s in
  if (s =? r)%Z then a = Some (b, TAll) /\ a' = Some (b, TData) else a' = a.
Proof.
  intros D. cbn zeta. destruct (Z.eqb_spec s r) as [->|N].
  - unfold tview. cbn zeta. rewrite (locate_mid pre r b rest D). cbn [to_send flat_map app existsb]. fold (to_send rest). rewrite !send_in.
    destruct (nodup_mid _ _ _ _ D) as [-> _]. unfold is_send. cbn [fst snd tag_eqb]. rewrite Z.eqb_refl. split; reflexivity.
  - unfold tview. cbn zeta. cbn [to_send flat_map app existsb]. fold (to_send rest). unfold is_send. cbn [fst snd].
    apply Z.eqb_neq in N. rewrite Z.eqb_sym in N. rewrite N. reflexivity.
Qed.
Lemma view_data s pre r b rest ks ks' : NoDup (map fst (pre ++ (r, b) :: rest)) ->
  let a := tview (CSend ((r, RqData, PData b) :: to_send rest) ks (pre ++ (r, b) :: rest)) s in
  let a' := tview (CSend (to_send rest) ks' (pre ++ (r, b) :: rest)) s in
  if (s =? r)%Z then a = Some (b, TData) /\ a' = Some (b, TWait) else a' = a.
Proof.
  intros D. cbn zeta. destruct (Z.eqb_spec s r) as [->|N].
  - unfold tview. cbn zeta. rewrite (locate_mid pre r b rest D). cbn [existsb]. rewrite !send_in.
    destruct (nodup_mid _ _ _ _ D) as [-> _]. unfold is_send. cbn [fst snd tag_eqb]. rewrite Z.eqb_refl. split; reflexivity.
  - unfold tview. cbn zeta. cbn [existsb]. unfold is_send. cbn [fst snd].
    apply Z.eqb_neq in N. rewrite Z.eqb_sym in N. rewrite N. reflexivity.
Qed.
Lemma post_all me (srcs : list Z) : Forall (fun s => lookup s (eps me) = Some s) srcs -> post_sizes eps me srcs = combine (seq 0 (length srcs)) srcs.
Proof.
  unfold post_sizes. generalize 0%nat. induction srcs as [|s l IH]; intros n F; [reflexivity|]. inversion F as [|? ? A B]; subst.
  cbn [length seq combine flat_map]. rewrite A. cbn [app]. f_equal. apply IH. exact B.
Qed.
Lemma known_srcs me sent : known me sent -> Forall (fun s => lookup s (eps me) = Some s) (map fst sent).
Proof. intros (_ & F & _). apply Forall_map. exact F. Qed.
Lemma combine_nth i r (l : list Z) : In (i, r) (combine (seq 0 (length l)) l) -> nth_error l i = Some r.
Proof.
  enough (G : forall n, In (i, r) (combine (seq n (length l)) l) -> (n <= i)%nat /\ nth_error l (i - n) = Some r).
  { intros I. destruct (G _ I) as [_ E]. rewrite Nat.sub_0_r in E. exact E. }
  induction l as [|x l IH]; intros n I; [destruct I|]. cbn [length seq combine] in I. destruct I as [E|I].
  - injection E as -> ->. rewrite Nat.sub_diag. split; [lia|reflexivity].
  - destruct (IH _ I) as [L E]. split; [lia|]. replace (i - n)%nat with (S (i - S n)) by lia. exact E.
Qed.
Lemma combine_snd n (l : list Z) : map snd (combine (seq n (length l)) l) = l.
Proof. revert n. induction l as [|x l IH]; intros n; [reflexivity|]. cbn. f_equal. apply IH. Qed.
Lemma has_snd s (w : list (nat * Z)) : existsb (fun y => (snd y =? s)%Z) w = true <-> In s (map snd w).
Proof.
  rewrite existsb_exists, in_map_iff. split; intros (x & A & B); exists x; [apply Z.eqb_eq in B|subst; split; [exact B|apply Z.eqb_refl]].
  split; assumption.
Qed.
Lemma view_wait me s ks sent : known me sent -> tview (CSizes (post_sizes eps me (map fst sent)) [] sent) s = tview (CWait ks sent) s.
Proof.
  intros K. unfold tview. cbn zeta. destruct (locate s 0 sent) as [[i b]|] eqn:E; [|reflexivity].
  rewrite (post_all me _ (known_srcs _ _ K)). assert (existsb (fun y => (snd y =? s)%Z) (combine (seq 0 (length (map fst sent))) (map fst sent)) = true) as ->; [|reflexivity].
  apply has_snd. rewrite combine_snd. destruct (in_dec Z.eq_dec s (map fst sent)) as [I|N]; [exact I|]. apply (locate_none s 0%nat) in N. congruence.
Qed.
Lemma wf_wait me sent : known me sent -> wf me (CSizes (post_sizes eps me (map fst sent)) [] sent).
Proof.
  intros K. cbn [wf]. split; [exact K|]. rewrite (post_all me _ (known_srcs _ _ K)), combine_snd. split; [exact (proj1 K)|].
  intros i r I. apply combine_nth in I. rewrite nth_error_map in I. destruct (nth_error sent i) as [[x b]|]; [|discriminate I]. injection I as ->. exists b. reflexivity.
Qed.
Lemma drop_split {A} j (w : list A) x : nth_error w j = Some x -> Permutation w (x :: (firstn j w ++ skipn (S j) w)).
Proof. intros E. rewrite (nth_split3 _ _ _ E) at 1. symmetry. apply Permutation_middle. Qed.
Lemma perm_has {A} (f : A -> bool) l l' : Permutation l l' -> existsb f l = existsb f l'.
Proof.
  intros P. apply Bool.eq_iff_eq_true. rewrite !existsb_exists. split; intros (x & I & H); exists x; (split; [|exact H]);
    [exact (Permutation_in _ P I)|exact (Permutation_in _ (Permutation_sym P) I)].
Qed.
(* a size arrives *)
Lemma view_len me s j w lens sent n r z : wf me (CSizes w lens sent) -> nth_error w j = Some (n, r) ->
  let a := tview (CSizes w lens sent) s in
  let x' := CSizes (firstn j w ++ skipn (S j) w) ((n, z) :: lens) sent in
  wf me x' /\ (exists b, nth_error sent n = Some (r, b)) /\
  if (s =? r)%Z then exists b, a = Some (b, TWait) /\ tview x' s = Some (b, TLen z) else tview x' s = a.
Proof.
  cbn zeta. intros (K & D & F) E. set (w' := firstn j w ++ skipn (S j) w). pose proof (drop_split _ _ _ E) as P. fold w' in P.
  pose proof (nth_error_In _ _ E) as I. destruct (F _ _ I) as [b Hb]. assert (D' : NoDup (map snd w') /\ ~ In r (map snd w')).
  { pose proof (Permutation_NoDup (Permutation_map snd P) D) as Q. cbn [map snd] in Q. inversion Q; subst. split; assumption. }
  split; [|split; [exists b; exact Hb|]].
  { cbn [wf]. split; [exact K|]. split; [exact (proj1 D')|]. intros i q J. apply F. apply (Permutation_in _ (Permutation_sym P)). right. exact J. }
  destruct (Z.eqb_spec s r) as [->|N].
  - exists b. unfold tview. cbn zeta. rewrite (locate_at r sent n b (proj1 K) Hb 0%nat). cbn [plus]. split.
    + rewrite (perm_has _ _ _ P). cbn [existsb snd]. rewrite Z.eqb_refl. reflexivity.
    + assert (existsb (fun y => (snd y =? r)%Z) w' = false) as ->. { apply Bool.not_true_iff_false. rewrite has_snd. exact (proj2 D'). }
      unfold len_of. cbn [find fst]. rewrite Nat.eqb_refl. reflexivity.
  - unfold tview. cbn zeta. destruct (locate s 0 sent) as [[i b']|] eqn:L; [|reflexivity].
    destruct (known_found _ _ _ _ _ K L) as (G & _). assert (i <> n) by (intros ->; congruence).
    rewrite (perm_has _ _ _ P). cbn [existsb snd]. rewrite (proj2 (Z.eqb_neq r s)) by congruence. cbn [orb].
    unfold len_of. cbn [find fst]. rewrite (proj2 (Nat.eqb_neq n i)) by congruence. reflexivity.
Qed.
Lemma post_datas_all me sent lens : known me sent ->
  post_datas eps me (map fst sent) (length (post_sizes eps me (map fst sent))) lens =
  map (fun '(i, r) => (i, r, len_of i lens)) (combine (seq 0 (length (map fst sent))) (map fst sent)).
Proof.
  intros K. unfold post_datas. rewrite (post_all me _ (known_srcs _ _ K)). rewrite combine_length, seq_length, Nat.min_id, firstn_all.
  rewrite (post_all me _ (known_srcs _ _ K)). reflexivity.
Qed.
Lemma find_pos s lens (l : call) n : find (fun y : nat * Z * N => (snd (fst y) =? s)%Z) (map (fun '(i, r) => (i, r, len_of i lens)) (combine (seq n (length (map fst l))) (map fst l))) =
  match locate s n l with Some (i, _) => Some (i, s, len_of i lens) | None => None end.
Proof.
  revert n. induction l as [|[r b] l IH]; intros n; [reflexivity|]. cbn [map length seq combine find fst snd locate].
  destruct (Z.eqb_spec r s) as [->|_]; [reflexivity|]. apply IH.
Qed.
Lemma view_sizes me s lens sent : wf me (CSizes [] lens sent) ->
  let x' := CDatas (post_datas eps me (map fst sent) (length (post_sizes eps me (map fst sent))) lens) [] sent in
  wf me x' /\ tview x' s = tview (CSizes [] lens sent) s.
Proof.
  cbn zeta. intros (K & _). rewrite (post_datas_all me sent lens K). split.
  - cbn [wf]. split; [exact K|]. rewrite app_nil_r, map_map. rewrite (map_ext _ snd) by (intros [? ?]; reflexivity). rewrite combine_snd. reflexivity.
  - unfold tview. cbn zeta. rewrite find_pos. destruct (locate s 0 sent) as [[i b]|]; reflexivity.
Qed.
Lemma find_none_rank {T} s (w : list (nat * Z * T)) : find (fun y => (snd (fst y) =? s)%Z) w = None <-> ~ In s (map (fun y => snd (fst y)) w).
Proof.
  induction w as [|[[i r] n] w IH]; cbn [find map In fst snd]; [tauto|]. destruct (Z.eqb_spec r s) as [->|N]; [split; [discriminate|tauto]|].
  rewrite IH. tauto.
Qed.
Lemma got_none s (l : list (nat * Z * bytes)) : ~ In s (map (fun y => snd (fst y)) l) -> got_from s l = [].
Proof.
  unfold got_from. induction l as [|[[i r] b] l IH]; [reflexivity|]. cbn [map In fst snd filter]. intros N.
  destruct (Z.eqb_spec r s) as [->|M]; [tauto|]. apply IH. tauto.
Qed.
Lemma find_drop {T} s j (w : list (nat * Z * T)) n r z : nth_error w j = Some (n, r, z) -> r <> s ->
  find (fun y => (snd (fst y) =? s)%Z) (firstn j w ++ skipn (S j) w) = find (fun y => (snd (fst y) =? s)%Z) w.
Proof.
  revert j. induction w as [|[[i q] y] w IH]; intros [|j] E N; try discriminate E.
  - injection E as -> -> ->. cbn [firstn skipn app find fst snd]. rewrite (proj2 (Z.eqb_neq _ _) N). reflexivity.
  - cbn [nth_error] in E. change (skipn (S (S j)) ((i, q, y) :: w)) with (skipn (S j) w). cbn [firstn app find fst snd]. rewrite (IH j E N). reflexivity.
Qed.
(* the data arrives *)
Lemma find_here {T} s j (w : list (nat * Z * T)) n z : nth_error w j = Some (n, s, z) -> NoDup (map (fun y => snd (fst y)) w) ->
  find (fun y => (snd (fst y) =? s)%Z) w = Some (n, s, z).
Proof.
  revert j. induction w as [|[[i q] y] w IH]; intros [|j] E D; try discriminate E.
  - injection E as -> -> ->. cbn [find fst snd]. rewrite Z.eqb_refl. reflexivity.
  - cbn [nth_error] in E. cbn [map fst snd] in D. inversion D as [|? ? N D']; subst. cbn [find fst snd].
    destruct (Z.eqb_spec q s) as [->|_]; [|exact (IH j E D')]. exfalso. apply N. apply in_map_iff. exists (n, s, z). split; [reflexivity|].
    eapply nth_error_In. exact E.
Qed.
Lemma nodup_left {A} (l l' : list A) : NoDup (l ++ l') -> NoDup l.
Proof.
  induction l as [|x l IH]; intros D; [constructor|]. cbn [app] in D. inversion D as [|? ? N D']; subst. constructor; [|exact (IH D')].
  intros I. apply N. apply in_or_app. left. exact I.
Qed.
Lemma view_got me s j w got sent n r z a : wf me (CDatas w got sent) -> nth_error w j = Some (n, r, z) ->
  let x' := CDatas (firstn j w ++ skipn (S j) w) ((n, r, a) :: got) sent in
  wf me x' /\
  if (s =? r)%Z then exists b, tview (CDatas w got sent) s = Some (b, TLen z) /\ tview x' s = Some (b, TDone a)
  else tview x' s = tview (CDatas w got sent) s.
Proof.
  cbn zeta. intros (K & P) E. set (w' := firstn j w ++ skipn (S j) w). pose proof (drop_split _ _ _ E) as Q. fold w' in Q.
  pose proof (Permutation_map (fun y => snd (fst y)) Q) as Q'. cbn [map fst snd] in Q'.
  assert (D : NoDup (map (fun y => snd (fst y)) w ++ map (fun y => snd (fst y)) got)) by (eapply Permutation_NoDup; [symmetry; exact P|exact (proj1 K)]).
  assert (Dw : NoDup (map (fun y => snd (fst y)) w)) by (apply nodup_left in D; exact D).
  assert (D' : ~ In r (map (fun y => snd (fst y)) w')). { pose proof (Permutation_NoDup Q' Dw) as N. inversion N; subst. assumption. }
  split.
  { cbn [wf map fst snd]. split; [exact K|]. rewrite <- P. rewrite Q'. symmetry. apply (Permutation_middle (map (fun y => snd (fst y)) w')). }
  destruct (Z.eqb_spec s r) as [->|N].
  - unfold tview. cbn zeta.
    assert (In r (map fst sent)) as I. { apply (Permutation_in _ P). apply in_or_app. left. apply in_map_iff. exists (n, r, z). split; [reflexivity|]. eapply nth_error_In. exact E. }
    destruct (locate r 0 sent) as [[i b]|] eqn:L; [|exfalso; apply locate_none in L; tauto]. exists b.
    rewrite (find_here r j w n z E Dw). split; [reflexivity|].
    rewrite (proj2 (find_none_rank r w') D'). unfold got_from. cbn [filter fst snd]. rewrite Z.eqb_refl. reflexivity.
  - unfold tview. cbn zeta. destruct (locate s 0 sent) as [[i b]|]; [|reflexivity]. unfold w'. rewrite (find_drop s j w n r z E) by congruence.
    unfold got_from. cbn [filter fst snd]. rewrite (proj2 (Z.eqb_neq r s)) by congruence. reflexivity.
Qed.
(* the call returns *)
Lemma sent_to_at s c i b : NoDup (map fst c) -> locate s i c = Some b -> sent_to s c = [snd b].
Proof.
  revert i. induction c as [|[r x] c IH]; intros i D; cbn [locate]; [discriminate|]. cbn [map fst] in D. inversion D as [|? ? N D']; subst.
  unfold sent_to. cbn [filter fst]. destruct (Z.eqb_spec r s) as [->|M].
  - intros E. injection E as <-. cbn [map snd]. f_equal. fold (sent_to s c).
    enough (G : forall l : call, ~ In s (map fst l) -> sent_to s l = []) by exact (G c N).
    intros l. unfold sent_to. induction l as [|[q y] l IHl]; [reflexivity|]. cbn [map fst In filter]. intros W.
    destruct (Z.eqb_spec q s) as [->|_]; [tauto|]. apply IHl. tauto.
  - intros E. fold (sent_to s c). exact (IH _ D' E).
Qed.
Lemma sent_to_none s c : ~ In s (map fst c) -> sent_to s c = [].
Proof.
  unfold sent_to. induction c as [|[q y] l IHl]; [reflexivity|]. cbn [map fst In filter]. intros W.
  destruct (Z.eqb_spec q s) as [->|_]; [tauto|]. apply IHl. tauto.
Qed.
Lemma got_from_one s (l : list (nat * Z * bytes)) : NoDup (map (fun y => snd (fst y)) l) -> (length (got_from s l) <= 1)%nat.
Proof.
  unfold got_from. induction l as [|[[i r] b] l IH]; cbn [map fst snd filter length]; intros D; [lia|]. inversion D as [|? ? N D']; subst.
  destruct (Z.eqb_spec r s) as [->|_]; [|exact (IH D')]. cbn [map length]. fold (got_from s l). rewrite (got_none s l N). cbn. lia.
Qed.
Lemma view_end me s got sent : wf me (CDatas [] got sent) ->
  Permutation (map fst sent) (map (fun y => snd (fst y)) got) /\
  match tview (CDatas [] got sent) s with
  | None => combine (sent_to s sent) (got_from s got) = []
  | Some (b, TDone a) => combine (sent_to s sent) (got_from s got) = [(b, a)]
  | _ => False
  end.
Proof.
  intros (K & P). cbn [map app] in P. split; [symmetry; exact P|]. unfold tview. cbn zeta. cbn [find].
  destruct (locate s 0 sent) as [[i b]|] eqn:L.
  - rewrite (sent_to_at s sent 0%nat (i, b) (proj1 K) L). cbn [snd].
    assert (D : NoDup (map (fun y => snd (fst y)) got)) by (eapply Permutation_NoDup; [symmetry; exact P|exact (proj1 K)]).
    pose proof (got_from_one s got D) as O. destruct (got_from s got) as [|a [|? ?]] eqn:G; [exfalso| |cbn in O; lia].
    + destruct (known_found _ _ _ _ _ K L) as (E & _). apply nth_error_In in E. assert (I : In s (map fst sent)) by (apply in_map_iff; exists (s, b); split; [reflexivity|exact E]).
      apply (Permutation_in _ (Permutation_sym P)) in I. apply in_map_iff in I. destruct I as ([[u q] y] & Eq & I). cbn in Eq. subst q.
      assert (In y (got_from s got)) as J by (unfold got_from; apply in_map_iff; exists (u, s, y); split; [reflexivity|]; apply filter_In; split; [exact I|apply Z.eqb_refl]).
      rewrite G in J. destruct J.
    + reflexivity.
  - apply locate_none in L. rewrite (sent_to_none s sent L). reflexivity.
Qed.
End Inv.
