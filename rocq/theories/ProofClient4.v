(* What calls put into the queues *)
From Verif Require Import ModelBytes ProofBytes ModelKey ModelWire ModelHist ModelMsg SpecMsg ModelStore ModelGetOp ModelDs
  SpecStore ProofStore ProofDs ProofDs2 ModelElen ModelRoute SpecRoute ProofRoute ProofRoute2 ModelClient SpecClient ProofClient ProofClient2 ProofClient3.
Local Open Scope Z_scope.

(* packets are not empty and within the limit *)
Definition packet_ok {A} (e : env) (p : list A) : Prop := p <> [] /\ (N.of_nat (length p) <= e_max_ops e)%N.
Definition tidy {A} (e : env) (qs : list (list (list A))) : Prop := Forall (Forall (packet_ok e)) qs.
(* the items L id were added at the end of queue id *)
Definition added {A} (e : env) (L : Z -> list A) (qs qs' : list (list (list A))) : Prop :=
  length qs' = length qs /\ (tidy e qs -> tidy e qs') /\
  (forall id, 0 <= id -> concat (queue_of qs' id) = concat (queue_of qs id) ++ L id) /\
  (forall id, (length qs <= Z.to_nat id)%nat -> L id = []).

Lemma added_refl {A} e (qs : list (list (list A))) L : (forall id, L id = []) -> added e L qs qs.
Proof. intros H. split; [reflexivity|]. split; [auto|]. split; [intros id _; rewrite H, app_nil_r; reflexivity|auto]. Qed.
Lemma added_trans {A} e (L1 L2 L3 : Z -> list A) a b c : added e L1 a b -> added e L2 b c -> (forall id, L3 id = L1 id ++ L2 id) -> added e L3 a c.
Proof.
  intros (A1 & A2 & A3 & A4) (B1 & B2 & B3 & B4) H. split; [congruence|]. split; [auto|]. split.
  - intros id Hid. rewrite B3, A3, H, app_assoc by exact Hid. reflexivity.
  - intros id Hid. rewrite H, A4, B4; [reflexivity|congruence|exact Hid].
Qed.

Lemma put_last_concat {A} ok (q : list (list A)) a : concat (put_last ok q a) = concat q ++ [a].
Proof.
  induction q as [|p q IH]; [reflexivity|]. destruct q as [|p' q]; cbn [put_last].
  - destruct (ok p); cbn [concat app]; rewrite ?app_nil_r; reflexivity.
  - change (concat (p :: put_last ok (p' :: q) a) = concat (p :: p' :: q) ++ [a]). cbn [concat] in IH |- *. rewrite IH, !app_assoc. reflexivity.
Qed.
Lemma put_last_tidy {A} e sz additional (q : list (list A)) a : (e_max_ops e <> 0)%N -> Forall (packet_ok e) q ->
  Forall (packet_ok e) (put_last (fits e sz additional) q a).
Proof.
  intros He. assert (H1 : packet_ok e [a]) by (split; [discriminate|cbn [length]; lia]).
  induction q as [|p q IH]; intros H; [constructor; [exact H1|constructor]|]. inversion H as [|? ? Hp Hq]; subst.
  destruct q as [|p' q]; cbn [put_last].
  - destruct (fits e sz additional p) eqn:Ef.
    + constructor; [|constructor]. split; [destruct p; discriminate|]. unfold fits in Ef. apply andb_true_iff in Ef as [Ef _].
      apply N.ltb_lt in Ef. rewrite app_length. cbn [length]. lia.
    + constructor; [exact Hp|]. constructor; [exact H1|constructor].
  - constructor; [exact Hp|]. exact (IH Hq).
Qed.

Lemma set_nth_length {A} n (x : A) l : (n < length l)%nat -> length (set_nth n x l) = length l.
Proof. intros H. unfold set_nth. rewrite app_length, firstn_length. cbn [length]. rewrite skipn_length. lia. Qed.
Lemma set_nth_nth {A} n m (x d : A) l : (n < length l)%nat -> nth m (set_nth n x l) d = if Nat.eqb m n then x else nth m l d.
Proof.
  intros H. unfold set_nth. destruct (Nat.eqb_spec m n) as [->|Hne].
  - rewrite app_nth2 by (rewrite firstn_length; lia). rewrite firstn_length. replace (n - min n (length l))%nat with O by lia. reflexivity.
  - destruct (Nat.lt_ge_cases m n).
    + rewrite app_nth1 by (rewrite firstn_length; lia). rewrite <- (firstn_skipn n l) at 2. rewrite app_nth1 by (rewrite firstn_length; lia). reflexivity.
    + rewrite app_nth2 by (rewrite firstn_length; lia). rewrite firstn_length.
      replace (m - min n (length l))%nat with (S (m - S n)) by lia. cbn [nth].
      rewrite <- (firstn_skipn (S n) l) at 2. rewrite app_nth2 by (rewrite firstn_length; lia). rewrite firstn_length. f_equal. lia.
Qed.
Lemma Forall_set_nth {A} (P : A -> Prop) n x l : P x -> Forall P l -> Forall P (set_nth n x l).
Proof.
  intros Hx H. unfold set_nth. apply Forall_app. split.
  - rewrite <- (firstn_skipn n l) in H. apply Forall_app in H. apply H.
  - constructor; [exact Hx|]. rewrite <- (firstn_skipn (S n) l) in H. apply Forall_app in H. apply H.
Qed.

Definition only {A} (id : Z) (a : A) (j : Z) : list A := if j =? id then [a] else [].
Lemma enqueue_added {A} e sz additional (qs qs' : list (list (list A))) id a : 0 <= id ->
  enqueue e sz additional qs id a = Ok qs' -> added e (only id a) qs qs'.
Proof.
  intros Hid H. unfold enqueue in H. destruct (nth_error qs (Z.to_nat id)) as [q|] eqn:Eq; [|discriminate].
  destruct (N.eqb_spec (e_max_ops e) 0) as [|Hm]; [discriminate|].
  assert (Hlen : (Z.to_nat id < length qs)%nat) by (apply nth_error_Some; congruence).
  apply Ok_inj in H. subst qs'. split; [apply set_nth_length, Hlen|]. split; [|split].
  - intros Ht. apply Forall_set_nth; [|exact Ht]. apply put_last_tidy; [exact Hm|]. unfold tidy in Ht. rewrite Forall_forall in Ht.
    apply Ht. apply nth_error_In with (n := Z.to_nat id). exact Eq.
  - intros j Hj. unfold queue_of, only. rewrite set_nth_nth by exact Hlen. destruct (Z.eqb_spec j id) as [->|Hne].
    + rewrite Nat.eqb_refl, put_last_concat. f_equal. f_equal. symmetry. apply nth_error_nth. exact Eq.
    + destruct (Nat.eqb_spec (Z.to_nat j) (Z.to_nat id)); [lia|]. rewrite app_nil_r. reflexivity.
  - intros j Hj. unfold only. destruct (Z.eqb_spec j id) as [->|]; [lia|reflexivity].
Qed.

Lemma hash_target e s p id : hash_of e s p = Ok id -> target e s p = Some id.
Proof. unfold hash_of, target. destruct (_ || _); [discriminate|]. intros ->. reflexivity. Qed.

(* ---- PUT ---- *)
Definition triple (mask : N) (s p o : arg) (k : N) : list (arg * arg * arg) :=
  if N.testbit mask k then [permuted (N.shiftl 1 k) s p o] else [].
Lemma put_triples_spec s p o mask : put_triples s p o mask = flat_map (triple mask s p o) [0; 1; 2; 3; 4; 5]%N.
Proof. reflexivity. Qed.
Lemma land_bit mask k : (N.land mask (N.shiftl 1 k) =? 0)%N = negb (N.testbit mask k).
Proof.
  destruct (N.testbit mask k) eqn:E; cbn [negb].
  - apply N.eqb_neq. intros H. assert (X : N.testbit (N.land mask (N.shiftl 1 k)) k = false) by (rewrite H; apply N.bits_0).
    rewrite N.land_spec, E, N.shiftl_spec_high', N.sub_diag in X by apply N.le_refl. discriminate.
  - apply N.eqb_eq. apply N.bits_inj. intros n. rewrite N.land_spec, N.bits_0. destruct (N.eq_dec n k) as [->|Hne]; [rewrite E; reflexivity|].
    rewrite N.shiftl_1_l, N.pow2_bits_false by congruence. apply andb_false_r.
Qed.
Definition goes3 (e : env) (id : Z) (t : arg * arg * arg) : bool := let '(s, p, _) := t in goes e id s p.
Definition placed3 (e : env) (t : arg * arg * arg) : bool := let '(s, p, _) := t in placed e s p.

Lemma put_loop_added e mask s p o : forall ks qs n qs' n' ok,
  put_loop e (map (N.shiftl 1) ks) mask s p o qs n = Ok (qs', n', ok) ->
  let ts := flat_map (triple mask s p o) ks in
  added e (fun id => map put_req (filter (goes3 e id) (while (placed3 e) ts))) qs qs' /\
  (n' = n + N.of_nat (length (while (placed3 e) ts)))%N /\ (ok = forallb (placed3 e) ts).
Proof.
  induction ks as [|k ks IH]; intros qs n qs' n' ok H; cbn [map put_loop] in H.
  - assert (qs = qs') by congruence. assert (n = n') by congruence. assert (true = ok) by congruence. subst.
    cbn [flat_map while filter map length forallb]. split; [apply added_refl; reflexivity|]. split; [lia|reflexivity].
  - rewrite land_bit in H. cbn [flat_map]. unfold triple at 1 3 5. destruct (N.testbit mask k); cbn [negb] in H.
    2: exact (IH qs n qs' n' ok H).
    destruct (permuted (N.shiftl 1 k) s p o) as [[a b] c] eqn:Ep. apply obind_ok in H as (id & Eid & H). apply hash_target in Eid.
    cbn [app while forallb]. assert (Epl : placed3 e (a, b, c) = (0 <=? id)) by (unfold placed3, placed; rewrite Eid; reflexivity). rewrite Epl.
    destruct (Z.ltb_spec id 0) as [Hneg|Hpos].
    + assert (qs = qs') by congruence. assert (n = n') by congruence. assert (false = ok) by congruence. subst.
      assert (X : (0 <=? id) = false) by (apply Z.leb_gt; exact Hneg). rewrite X. cbn [filter map length andb].
      split; [apply added_refl; reflexivity|]. split; [lia|reflexivity].
    + assert (X : (0 <=? id) = true) by (apply Z.leb_le; exact Hpos). rewrite X. obind H q1 Eqq. apply (IH q1) in H as (H1 & H2 & H3).
      cbn [andb length]. split; [|split; [lia|exact H3]].
      apply (added_trans e (only id (mkPut (ref_blob a) (a_addr a) (ref_blob b) (a_addr b) (ref_blob c))) _ _ _ _ _ (enqueue_added _ _ _ _ _ _ _ Hpos Eqq) H1).
      intros j. unfold only. cbn [filter]. assert (G : goes3 e j (a, b, c) = (j =? id)) by (unfold goes3, goes; rewrite Eid; apply Z.eqb_sym).
      rewrite G. destruct (j =? id); reflexivity.
Qed.
Lemma put_impl_added e s p o mask qs qs' n ok : put_impl e s p o mask qs = Ok (qs', n, ok) ->
  added e (fun id => map put_req (filter (goes3 e id) (one_put e s p o mask))) qs qs' /\
  n = N.of_nat (length (one_put e s p o mask)) /\ ok = forallb (placed3 e) (put_triples s p o mask).
Proof. exact (put_loop_added e mask s p o [0; 1; 2; 3; 4; 5]%N qs 0 qs' n ok). Qed.
Lemma bput_loop_added e : forall l qs n qs' n', bput_loop e l qs n = Ok (qs', n') ->
  added e (fun id => map put_req (filter (goes3 e id) (flat_map (fun '(s, p, o, m) => one_put e s p o m) l))) qs qs' /\
  (n' = n + N.of_nat (length (flat_map (fun '(s, p, o, m) => one_put e s p o m) l)))%N.
Proof.
  induction l as [|[[[s p] o] m] l IH]; intros qs n qs' n' H; cbn [bput_loop] in H.
  - assert (qs = qs') by congruence. assert (n = n') by congruence. subst. cbn [flat_map filter map length]. split; [apply added_refl; reflexivity|lia].
  - obind H a Ea. destruct a as [[q1 k] ok]. cbn [fst snd] in H. apply put_impl_added in Ea as (E1 & -> & _). apply IH in H as (H1 & ->).
    cbn [flat_map]. split; [|rewrite app_length; lia]. apply (added_trans _ _ _ _ _ _ _ E1 H1). intros id. rewrite filter_app, map_app. reflexivity.
Qed.

(* ---- the others ---- *)
Lemma key_impl_added {A} e sz (a : A) s p qs qs' ok : key_impl e sz a s p qs = Ok (qs', ok) ->
  added e (fun id => if goes e id s p && (0 <=? id) then [a] else []) qs qs' /\ ok = placed e s p.
Proof.
  unfold key_impl. intros H. apply obind_ok in H as (id & Eid & H). apply hash_target in Eid.
  assert (Epl : placed e s p = (0 <=? id)) by (unfold placed; rewrite Eid; reflexivity). rewrite Epl.
  destruct (Z.ltb_spec id 0) as [Hneg|Hpos].
  - assert (qs = qs') by congruence. assert (false = ok) by congruence. subst. split; [|symmetry; apply Z.leb_gt; exact Hneg].
    apply added_refl. intros j. unfold goes. rewrite Eid. destruct (Z.eqb_spec id j) as [->|]; [|reflexivity].
    assert (X : (0 <=? j) = false) by (apply Z.leb_gt; exact Hneg). rewrite X. reflexivity.
  - obind H q1 Eqq. assert (q1 = qs') by congruence. assert (true = ok) by congruence. subst. split; [|symmetry; apply Z.leb_le; exact Hpos].
    pose proof (enqueue_added _ _ _ _ _ _ _ Hpos Eqq) as (A1 & A2 & A3 & A4).
    assert (G : forall j, (if goes e j s p && (0 <=? j) then [a] else []) = only id a j).
    { intros j. unfold goes, only. rewrite Eid, (Z.eqb_sym id j). destruct (Z.eqb_spec j id) as [->|]; [|reflexivity].
      assert (X : (0 <=? id) = true) by (apply Z.leb_le; exact Hpos). rewrite X. reflexivity. }
    split; [exact A1|]. split; [exact A2|]. split; intros j Hj; rewrite G; auto.
Qed.
(* without the test for negative ids, for the ids that matter *)
Lemma added_ext {A} e (L L' : Z -> list A) qs qs' : (forall id, 0 <= id -> L id = L' id) -> (forall id, id < 0 -> L' id = []) ->
  added e L qs qs' -> added e L' qs qs'.
Proof.
  intros H H0 (A1 & A2 & A3 & A4). split; [exact A1|]. split; [exact A2|]. split; intros id Hid.
  - rewrite <- H by exact Hid. apply A3, Hid.
  - destruct (Z.lt_ge_cases id 0); [apply H0; assumption|]. rewrite <- H by assumption. apply A4, Hid.
Qed.
Definition nn {A} (L : Z -> list A) (id : Z) : list A := if 0 <=? id then L id else [].
Lemma each_added {I A} e (f : I -> list (list (list A)) -> outcome (list (list (list A)) * bool)) (g : Z -> I -> bool) (req : I -> A) :
  (forall i qs qs' ok, f i qs = Ok (qs', ok) -> added e (fun id => if g id i && (0 <=? id) then [req i] else []) qs qs') ->
  forall l qs qs', each f l qs = Ok qs' -> added e (nn (fun id => map req (filter (g id) l))) qs qs'.
Proof.
  intros Hf. induction l as [|i l IH]; intros qs qs' H; cbn [each] in H.
  - apply Ok_inj in H. subst. apply added_refl. intros id. unfold nn. destruct (0 <=? id); reflexivity.
  - obind H a Ea. destruct a as [q1 ok]. apply Hf in Ea. apply IH in H. apply (added_trans _ _ _ _ _ _ _ Ea H).
    intros id. unfold nn. destruct (0 <=? id); cbn [filter]; [|rewrite andb_false_r; reflexivity].
    rewrite andb_true_r. destruct (g id i); reflexivity.
Qed.
Lemma accepts_id e id : accepts e id = true -> 0 <= id.
Proof. unfold accepts, histogram_accepts. intros H. destruct (Z.ltb_spec id 0); [|assumption]. try discriminate. cbn in H. try discriminate. lia. Qed.
Lemma hist_impl_added e id n qs qs' : 0 <= id -> hist_impl e id n qs = Ok qs' -> added e (only id (hist_req (id, n))) qs qs'.
Proof. intros Hid H. exact (enqueue_added _ _ _ _ _ _ _ Hid H). Qed.
Lemma bhist_loop_added e : forall l qs qs', forallb (fun x => accepts e (fst x)) l = true -> bhist_loop e l qs = Ok qs' ->
  added e (fun id => map hist_req (filter (fun x => fst x =? id) l)) qs qs'.
Proof.
  induction l as [|[id n] l IH]; intros qs qs' Ha H; cbn [bhist_loop] in H.
  - apply Ok_inj in H. subst. apply added_refl. reflexivity.
  - cbn [forallb fst] in Ha. apply andb_true_iff in Ha as [Ha1 Ha2]. obind H q1 Eqq.
    apply hist_impl_added in Eqq; [|apply (accepts_id e), Ha1]. apply (IH _ _ Ha2) in H. apply (added_trans _ _ _ _ _ _ _ Eqq H).
    intros j. unfold only. cbn [filter fst]. rewrite (Z.eqb_sym id j). destruct (j =? id); reflexivity.
Qed.

(* ---- calls ---- *)
Definition puts_at e (id : Z) (l : list (arg * arg * arg)) := map put_req (filter (goes3 e id) l).
Record grown (e : env) (s s' : session) (P : Z -> list put_item) (G : Z -> list get_item) (O : Z -> list getop_item)
  (Dl : Z -> list del_item) (H : Z -> list blob) : Prop := {
  gr_up : s_up s' = s_up s; gr_kept : s_kept s' = s_kept s;
  gr_puts : added e P (q_puts (s_qs s)) (q_puts (s_qs s')); gr_gets : added e G (q_gets (s_qs s)) (q_gets (s_qs s'));
  gr_getops : added e O (q_getops (s_qs s)) (q_getops (s_qs s')); gr_dels : added e Dl (q_dels (s_qs s)) (q_dels (s_qs s'));
  gr_hists : added e H (q_hists (s_qs s)) (q_hists (s_qs s'))
}.
Definition none {A} (_ : Z) : list A := [].
Lemma none_added {A} e (qs : list (list (list A))) : added e none qs qs.
Proof. apply added_refl. reflexivity. Qed.

Lemma call_grown e s cl c s' cl' ok : plain c -> s_up s = true -> do_call e s cl c = Ok (s', cl', ok) ->
  cl' = cl /\ grown e s s' (nn (fun id => puts_to e id [c])) (nn (fun id => gets_to e id [c])) (nn (fun id => getops_to e id [c]))
                   (nn (fun id => dels_to e id [c])) (nn (fun id => hists_to e id [c])).
Proof.
  intros Hp Hup H. unfold do_call in H. rewrite Hup in H. cbn [negb] in H.
  assert (Z0 : forall A (id : Z), nn (fun _ => @nil A) id = []) by (intros A id; unfold nn; destruct (0 <=? id); reflexivity).
  assert (N0 : forall A (qs : list (list (list A))), added e (nn (fun _ => [])) qs qs) by (intros; apply added_refl, Z0).
  assert (ERR : forall k : call, (forall id, puts_to e id [k] = []) -> (forall id, gets_to e id [k] = []) -> (forall id, getops_to e id [k] = []) ->
      (forall id, dels_to e id [k] = []) -> (forall id, hists_to e id [k] = []) -> Ok (s, cl, false) = Ok (s', cl', ok) ->
      cl' = cl /\ grown e s s' (nn (fun id => puts_to e id [k])) (nn (fun id => gets_to e id [k])) (nn (fun id => getops_to e id [k]))
                   (nn (fun id => dels_to e id [k])) (nn (fun id => hists_to e id [k]))).
  { intros k K1 K2 K3 K4 K5 E. assert (s' = s) by congruence. assert (cl' = cl) by congruence. subst. split; [reflexivity|].
    constructor; try reflexivity; apply added_refl; intros id; unfold nn; rewrite ?K1, ?K2, ?K3, ?K4, ?K5; destruct (0 <=? id); reflexivity. }
  destruct c as [x y z m|x y ty|x y ty n op|x y|id nm|l|l|l|l|l|t ty l|t ty l|t ops ty l].
  - destruct (given x && given y && given z) eqn:Eg.
    2: { apply ERR; try exact H; intros id; unfold puts_to; cbn [flat_map call_puts]; rewrite ?Eg; reflexivity. }
    obind H a Ea. destruct a as [[q n] o]. cbn [fst snd] in H. assert (cl' = cl) by congruence. assert (s' = with_puts s q (s_count s + n)) by congruence. subst.
    apply put_impl_added in Ea as (Ea & _ & _). split; [reflexivity|]. constructor; try reflexivity; cbn [with_puts s_qs q_puts q_gets q_getops q_dels q_hists]; try apply N0.
    apply (added_ext _ _ _ _ _) with (3 := Ea); [intros id Hid|intros id Hid]; unfold nn.
    + assert (X : (0 <=? id) = true) by (apply Z.leb_le; exact Hid). rewrite X. unfold puts_to. cbn [flat_map call_puts]. rewrite Eg, app_nil_r. reflexivity.
    + assert (X : (0 <=? id) = false) by (apply Z.leb_gt; exact Hid). rewrite X. reflexivity.
  - destruct (given x && given y) eqn:Eg.
    2: { apply ERR; try exact H; intros id; unfold gets_to; cbn [flat_map call_gets]; rewrite ?Eg; reflexivity. }
    obind H a Ea. destruct a as [q o]. assert (cl' = cl) by congruence. assert (s' = with_gets s q) by congruence. subst.
    apply key_impl_added in Ea as (Ea & _). split; [reflexivity|]. constructor; try reflexivity; cbn [with_gets s_qs q_puts q_gets q_getops q_dels q_hists]; try apply N0.
    apply (added_ext _ _ _ _ _) with (3 := Ea); intros id Hid; unfold nn.
    + assert (X : (0 <=? id) = true) by (apply Z.leb_le; exact Hid). rewrite X. unfold gets_to. cbn [flat_map call_gets]. rewrite Eg, andb_true_r. cbn [app filter]. destruct (goes e id x y); reflexivity.
    + assert (X : (0 <=? id) = false) by (apply Z.leb_gt; exact Hid). rewrite X. reflexivity.
  - destruct (given x) eqn:Eg.
    2: { apply ERR; try exact H; intros id; unfold getops_to; cbn [flat_map call_getops]; rewrite ?Eg; reflexivity. }
    obind H a Ea. destruct a as [q o]. assert (cl' = cl) by congruence. assert (s' = with_getops s q) by congruence. subst.
    apply key_impl_added in Ea as (Ea & _). split; [reflexivity|]. constructor; try reflexivity; cbn [with_getops s_qs q_puts q_gets q_getops q_dels q_hists]; try apply N0.
    apply (added_ext _ _ _ _ _) with (3 := Ea); intros id Hid; unfold nn.
    + assert (X : (0 <=? id) = true) by (apply Z.leb_le; exact Hid). rewrite X. unfold getops_to. cbn [flat_map call_getops]. rewrite Eg, andb_true_r. cbn [app filter]. destruct (goes e id x y); reflexivity.
    + assert (X : (0 <=? id) = false) by (apply Z.leb_gt; exact Hid). rewrite X. reflexivity.
  - destruct (given x && given y) eqn:Eg.
    2: { apply ERR; try exact H; intros id; unfold dels_to; cbn [flat_map call_dels]; rewrite ?Eg; reflexivity. }
    obind H a Ea. destruct a as [q o]. assert (cl' = cl) by congruence. assert (s' = with_dels s q) by congruence. subst.
    apply key_impl_added in Ea as (Ea & _). split; [reflexivity|]. constructor; try reflexivity; cbn [with_dels s_qs q_puts q_gets q_getops q_dels q_hists]; try apply N0.
    apply (added_ext _ _ _ _ _) with (3 := Ea); intros id Hid; unfold nn.
    + assert (X : (0 <=? id) = true) by (apply Z.leb_le; exact Hid). rewrite X. unfold dels_to. cbn [flat_map call_dels]. rewrite Eg, andb_true_r. cbn [app filter]. destruct (goes e id x y); reflexivity.
    + assert (X : (0 <=? id) = false) by (apply Z.leb_gt; exact Hid). rewrite X. reflexivity.
  - destruct (accepts e id) eqn:Eg.
    2: { apply ERR; try exact H; intros j; unfold hists_to; cbn [flat_map call_hists]; rewrite ?Eg; reflexivity. }
    obind H q Ea. assert (cl' = cl) by congruence. assert (s' = with_histq s q) by congruence. subst.
    apply hist_impl_added in Ea; [|apply (accepts_id e), Eg]. split; [reflexivity|]. constructor; try reflexivity; cbn [with_histq s_qs q_puts q_gets q_getops q_dels q_hists]; try apply N0.
    apply (added_ext _ _ _ _ _) with (3 := Ea); intros j Hj; unfold nn.
    + assert (X : (0 <=? j) = true) by (apply Z.leb_le; exact Hj). rewrite X. unfold hists_to. cbn [flat_map call_hists]. rewrite Eg. cbn [app filter fst].
      unfold only. rewrite (Z.eqb_sym id j). destruct (j =? id); reflexivity.
    + assert (X : (0 <=? j) = false) by (apply Z.leb_gt; exact Hj). rewrite X. reflexivity.
  - destruct l as [l|]; [|apply ERR; try exact H; reflexivity].
    obind H a Ea. destruct a as [q n]. cbn [fst snd] in H. assert (cl' = cl) by congruence. assert (s' = with_puts s q (s_count s + n)) by congruence. subst.
    apply bput_loop_added in Ea as (Ea & _). split; [reflexivity|]. constructor; try reflexivity; cbn [with_puts s_qs q_puts q_gets q_getops q_dels q_hists]; try apply N0.
    apply (added_ext _ _ _ _ _) with (3 := Ea); intros id Hid; unfold nn.
    + assert (X : (0 <=? id) = true) by (apply Z.leb_le; exact Hid). rewrite X. unfold puts_to. cbn [flat_map call_puts]. rewrite app_nil_r. reflexivity.
    + assert (X : (0 <=? id) = false) by (apply Z.leb_gt; exact Hid). rewrite X. reflexivity.
  - destruct l as [l|]; [|apply ERR; try exact H; reflexivity].
    obind H q Ea. assert (cl' = cl) by congruence. assert (s' = with_gets s q) by congruence. subst.
    apply (each_added e _ (fun id '(x, y, ty) => goes e id x y) get_req) in Ea.
    2: { intros [[x y] ty] a b o' Hf. apply key_impl_added in Hf as [Hf _]. exact Hf. }
    split; [reflexivity|]. constructor; try reflexivity; cbn [with_gets s_qs q_puts q_gets q_getops q_dels q_hists]; try apply N0.
    apply (added_ext _ _ _ _ _) with (3 := Ea); intros id Hid; unfold nn; destruct (Z.leb_spec 0 id); try lia; try reflexivity.
    unfold gets_to. cbn [flat_map call_gets]. rewrite app_nil_r. reflexivity.
  - destruct l as [l|]; [|apply ERR; try exact H; reflexivity].
    obind H q Ea. assert (cl' = cl) by congruence. assert (s' = with_getops s q) by congruence. subst.
    apply (each_added e _ (fun id '(x, y, ty, n, op) => goes e id x y) getop_req) in Ea.
    2: { intros [[[[x y] ty] n] op] a b o' Hf. apply key_impl_added in Hf as [Hf _]. exact Hf. }
    split; [reflexivity|]. constructor; try reflexivity; cbn [with_getops s_qs q_puts q_gets q_getops q_dels q_hists]; try apply N0.
    apply (added_ext _ _ _ _ _) with (3 := Ea); intros id Hid; unfold nn; destruct (Z.leb_spec 0 id); try lia; try reflexivity.
    unfold getops_to. cbn [flat_map call_getops]. rewrite app_nil_r. reflexivity.
  - destruct l as [l|]; [|apply ERR; try exact H; reflexivity].
    obind H q Ea. assert (cl' = cl) by congruence. assert (s' = with_dels s q) by congruence. subst.
    apply (each_added e _ (fun id '(x, y) => goes e id x y) del_req) in Ea.
    2: { intros [x y] a b o' Hf. apply key_impl_added in Hf as [Hf _]. exact Hf. }
    split; [reflexivity|]. constructor; try reflexivity; cbn [with_dels s_qs q_puts q_gets q_getops q_dels q_hists]; try apply N0.
    apply (added_ext _ _ _ _ _) with (3 := Ea); intros id Hid; unfold nn; destruct (Z.leb_spec 0 id); try lia; try reflexivity.
    unfold dels_to. cbn [flat_map call_dels]. rewrite app_nil_r. reflexivity.
  - destruct l as [l|]; [|apply ERR; try exact H; reflexivity].
    destruct (forallb (fun x => accepts e (fst x)) l) eqn:Eg.
    2: { apply ERR; try exact H; intros j; unfold hists_to; cbn [flat_map call_hists]; rewrite ?Eg; reflexivity. }
    obind H q Ea. assert (cl' = cl) by congruence. assert (s' = with_histq s q) by congruence. subst.
    apply bhist_loop_added in Ea; [|exact Eg]. split; [reflexivity|]. constructor; try reflexivity; cbn [with_histq s_qs q_puts q_gets q_getops q_dels q_hists]; try apply N0.
    apply (added_ext _ _ _ _ _) with (3 := Ea); intros j Hj; unfold nn; destruct (Z.leb_spec 0 j); try lia; try reflexivity.
    unfold hists_to. cbn [flat_map call_hists]. rewrite Eg, app_nil_r. reflexivity.
  - destruct Hp.
  - destruct l as [l|]; [|apply ERR; try exact H; reflexivity].
    destruct (negb t && negb (N.of_nat (length l) =? 0)%N); [discriminate|].
    obind H q Ea. assert (cl' = cl) by congruence. assert (s' = with_gets s q) by congruence. subst.
    apply (each_added e _ (fun id '(x, y) => goes e id x y) (fun '(x, y) => get_req (x, y, ty))) in Ea.
    2: { intros [x y] a b o' Hf. apply key_impl_added in Hf as [Hf _]. exact Hf. }
    split; [reflexivity|]. constructor; try reflexivity; cbn [with_gets s_qs q_puts q_gets q_getops q_dels q_hists]; try apply N0.
    apply (added_ext _ _ _ _ _) with (3 := Ea); intros id Hid; unfold nn; destruct (Z.leb_spec 0 id); try lia; try reflexivity.
    unfold gets_to. cbn [flat_map call_gets]. rewrite app_nil_r. clear. induction l as [|[x y] l IH]; [reflexivity|]. cbn [map filter].
    destruct (goes e id x y); cbn [map]; rewrite IH; reflexivity.
  - destruct l as [l|]; [|apply ERR; try exact H; reflexivity].
    destruct ops; [apply ERR; try exact H; reflexivity|].
    destruct (negb (N.of_nat (length l) =? 0)%N); [discriminate|].
    assert (s' = s) by congruence. assert (cl' = cl) by congruence. subst. split; [reflexivity|].
    constructor; try reflexivity; apply N0.
Qed.

Lemma grown_trans e s1 s2 s3 P1 G1 O1 D1 H1 P2 G2 O2 D2 H2 P3 G3 O3 D3 H3 :
  grown e s1 s2 P1 G1 O1 D1 H1 -> grown e s2 s3 P2 G2 O2 D2 H2 ->
  (forall id, P3 id = P1 id ++ P2 id) -> (forall id, G3 id = G1 id ++ G2 id) -> (forall id, O3 id = O1 id ++ O2 id) ->
  (forall id, D3 id = D1 id ++ D2 id) -> (forall id, H3 id = H1 id ++ H2 id) -> grown e s1 s3 P3 G3 O3 D3 H3.
Proof.
  intros [u1 k1 p1 g1 o1 d1 h1] [u2 k2 p2 g2 o2 d2 h2] EP EG EO ED EH.
  constructor; [congruence|congruence|eapply added_trans; eassumption..].
Qed.
Lemma nn_app {A} (L1 L2 L3 : Z -> list A) : (forall id, L3 id = L1 id ++ L2 id) -> forall id, nn L3 id = nn L1 id ++ nn L2 id.
Proof. intros H id. unfold nn. destruct (0 <=? id); [apply H|reflexivity]. Qed.

Lemma calls_grown e : forall cs s cl s' cl' oks, Forall plain cs -> s_up s = true -> do_calls e s cl cs = Ok (s', cl', oks) ->
  cl' = cl /\ grown e s s' (nn (fun id => puts_to e id cs)) (nn (fun id => gets_to e id cs)) (nn (fun id => getops_to e id cs))
                   (nn (fun id => dels_to e id cs)) (nn (fun id => hists_to e id cs)).
Proof.
  induction cs as [|c cs IH]; intros s cl s' cl' oks Hp Hup H; cbn [do_calls] in H.
  - assert (s' = s) by congruence. assert (cl' = cl) by congruence. subst. split; [reflexivity|].
    constructor; try reflexivity; apply added_refl; intros id; unfold nn; destruct (0 <=? id); reflexivity.
  - obind H a Ea. destruct a as [[s1 cl1] ok]. cbn [fst snd] in H. obind H b Eb. destruct b as [[s2 cl2] oks2].
    assert (s2 = s') by congruence. assert (cl2 = cl') by congruence. subst. inversion Hp; subst.
    apply call_grown in Ea as [-> Ga]; [|assumption|exact Hup].
    apply IH in Eb as [-> Gb]; [|assumption|rewrite (gr_up _ _ _ _ _ _ _ _ Ga); exact Hup]. split; [reflexivity|].
    assert (F : forall A B (f : call -> list A) (p : A -> bool) (r : A -> B), map r (filter p (flat_map f (c :: cs))) = map r (filter p (flat_map f [c])) ++ map r (filter p (flat_map f cs))).
    { intros. cbn [flat_map]. rewrite app_nil_r, filter_app, map_app. reflexivity. }
    apply (grown_trans _ _ _ _ _ _ _ _ _ _ _ _ _ _ _ _ _ _ _ Ga Gb); apply nn_app; intros id; apply F.
Qed.

(* ---- the queues of a session that was just opened ---- *)
Lemma empty_queue_of {A} n id : @queue_of A (empty_queues n) id = [].
Proof. unfold queue_of, empty_queues. generalize (Z.to_nat id). induction (Z.to_nat n) as [|k IH]; intros [|i]; try reflexivity. apply IH. Qed.
Lemma empty_length {A} n : length (@empty_queues A n) = Z.to_nat n.
Proof. apply repeat_length. Qed.
Lemma empty_tidy {A} e n : @tidy A e (empty_queues n).
Proof. apply Forall_forall. intros q Hq. apply repeat_spec in Hq. subst. constructor. Qed.
