(* LOWEST of numbers *)
From Verif Require Import ModelBytes ProofBytes ModelKey ModelElen ModelHist ModelMsg ModelStore ModelGetOp ModelDs ModelTransform ModelFloat SpecElen ProofElen SpecStore
  ProofStore ProofDs SpecGetOp SpecTransform ProofTransform SpecFp ProofFpBase ProofFpBits ProofFpOrder ProofFloat SpecLossy ProofLossy ProofLossy2 SpecLowest ProofScan.
From Coq Require Import Reals Psatz.
Local Open Scope R_scope.

(* ---- encoded numbers ---- *)
Lemma int_width t T : int_of t = Some T -> (1 <= it_bytes T <= 8)%nat.
Proof. unfold int_of. intros Ht. repeat (match goal with H : context [if ?b then _ else _] |- _ => destruct b end; [injection Ht as <-; cbn; lia|]). discriminate Ht. Qed.
Lemma int_enc L u t T d : int_of t = Some T -> c_enc (session L u) t false d = tr_enc_int T (ne_neg (cb_num u)) (ne_pos (cb_num u)) d.
Proof.
  intros Ht. unfold session. unfold int_of in Ht.
  destruct (N.eqb_spec t T_INT32) as [->|]; [injection Ht as <-; rewrite (proj1 (session_known (libm_codec L) u T_INT32 ltac:(cbn [known_types In]; tauto))); reflexivity|].
  destruct (N.eqb_spec t T_INT64) as [->|]; [injection Ht as <-; rewrite (proj1 (session_known (libm_codec L) u T_INT64 ltac:(cbn [known_types In]; tauto))); reflexivity|].
  destruct (N.eqb_spec t T_UINT32) as [->|]; [injection Ht as <-; rewrite (proj1 (session_known (libm_codec L) u T_UINT32 ltac:(cbn [known_types In]; tauto))); reflexivity|].
  destruct (N.eqb_spec t T_UINT64) as [->|]; [injection Ht as <-; rewrite (proj1 (session_known (libm_codec L) u T_UINT64 ltac:(cbn [known_types In]; tauto))); reflexivity|discriminate].
Qed.
Lemma null_enc L u t d : ModelGetOp.numeric t = true -> c_enc (session L u) t true d = Ok None.
Proof.
  intros Ht. unfold session. unfold ModelGetOp.numeric in Ht.
  destruct (N.eqb_spec t T_INT32) as [->|]; [rewrite (proj1 (session_known (libm_codec L) u T_INT32 ltac:(cbn [known_types In]; tauto))); reflexivity|].
  destruct (N.eqb_spec t T_INT64) as [->|]; [rewrite (proj1 (session_known (libm_codec L) u T_INT64 ltac:(cbn [known_types In]; tauto))); reflexivity|].
  destruct (N.eqb_spec t T_UINT32) as [->|]; [rewrite (proj1 (session_known (libm_codec L) u T_UINT32 ltac:(cbn [known_types In]; tauto))); reflexivity|].
  destruct (N.eqb_spec t T_UINT64) as [->|]; [rewrite (proj1 (session_known (libm_codec L) u T_UINT64 ltac:(cbn [known_types In]; tauto))); reflexivity|].
  destruct (N.eqb_spec t T_FLOAT) as [->|]; [rewrite (proj1 (session_known (libm_codec L) u T_FLOAT ltac:(cbn [known_types In]; tauto))); reflexivity|].
  destruct (N.eqb_spec t T_DOUBLE) as [->|]; [rewrite (proj1 (session_known (libm_codec L) u T_DOUBLE ltac:(cbn [known_types In]; tauto))); reflexivity|discriminate].
Qed.
Lemma int_enc_ok L u t T z a : int_of t = Some T -> encodable T z ->
  (c_enc (session L u) t false (store T z) = Ok (Some a) <-> enc_int T z (ne_neg (cb_num u)) (ne_pos (cb_num u)) = Ok a).
Proof.
  intros Ht He. rewrite (int_enc L u t T) by exact Ht. unfold tr_enc_int.
  rewrite ProofElen.load_store; [cbn [obind]|exact (int_width t T Ht)|exact (proj1 He)].
  destruct (enc_int T z _ _) as [b| |]; cbn [obind]; split; intros H; try discriminate H; apply Ok_inj in H; [injection H as ->|subst b]; reflexivity.
Qed.
Lemma fp_enc_ok L u t F x a : fp_type t F -> valid F x -> finite_fp x ->
  (c_enc (session L u) t false (store_fp F x) = Ok (Some a) <->
   enc_fp L F (int_precision (precision F u)) (ne_neg (cb_num u)) (ne_pos (cb_num u)) x = Ok a).
Proof.
  intros Ht V Fi. rewrite session_enc; [|exact Ht|exact V|apply finite_not_nan, Fi].
  destruct (enc_fp L F _ _ _ x) as [b| |]; cbn [obind]; split; intros H; try discriminate H; apply Ok_inj in H; [injection H as ->|subst b]; reflexivity.
Qed.

Definition num_sym (u : callbacks) : Prop := sym_ord (ne_neg (cb_num u)) (ne_pos (cb_num u)).
Lemma number_enc L u t d v : good_libm L -> num_sym u -> number_of t d v ->
  exists x r, c_enc (session L u) t false d = Ok (Some (x :: r)) /\
    (N_of_ascii (ne_neg (cb_num u)) <= N_of_ascii x <= N_of_ascii (ne_pos (cb_num u)))%N.
Proof.
  intros G [S1 S2] [(T & z & Ht & He & -> & _)|(F & x & Ht & V & Fi & -> & _)].
  - set (neg := ne_neg (cb_num u)) in *. set (pos := ne_pos (cb_num u)) in *.
    destruct (enc_int_shape T z neg pos (int_width t T Ht) He) as [[_ E]|[(H & _ & s & Hu & E)|(H & _ & _ & _ & s & Hu & E)]].
    + exists (digit 0), []. split; [apply int_enc_ok; assumption|]. change (N_of_ascii (digit 0)) with 48%N. lia.
    + destruct (unique_unfold 3 (Z.to_N z) _ _ _ ltac:(lia) Hu) as (l & _ & ->). eexists _, _. split; [apply int_enc_ok; eassumption|]. lia.
    + destruct (unique_unfold 3 (Z.to_N (- z)) _ _ _ ltac:(lia) Hu) as (l & _ & ->). eexists _, _. split; [apply int_enc_ok; eassumption|]. lia.
  - set (neg := ne_neg (cb_num u)) in *. set (pos := ne_pos (cb_num u)) in *. destruct (zero_cases x Fi) as [Z|N].
    + exists (digit 0), []. split; [apply fp_enc_ok; [assumption..|apply enc_zero, Z]|]. change (N_of_ascii (digit 0)) with 48%N. lia.
    + destruct (enc_shape L F (int_precision (precision F u)) neg pos x G (fp_fmt t F Ht) V N) as (es & _ & E).
      eexists _, _. split; [apply fp_enc_ok; eassumption|]. destruct (is_neg x); lia.
Qed.
Lemma int_not_fp t T F : int_of t = Some T -> fp_type t F -> False.
Proof. intros H [[-> _]|[-> _]]; discriminate H. Qed.
Lemma number_order L u t d e v w a b : good_libm L -> num_sym u -> number_of t d v -> number_of t e w -> v <= w ->
  c_enc (session L u) t false d = Ok (Some a) -> c_enc (session L u) t false e = Ok (Some b) -> a = b \/ slt a b.
Proof.
  intros G S [(T & z & Ht & He & -> & ->)|(F & x & Ht & V & Fi & -> & ->)] [(T' & z' & Ht' & He' & -> & ->)|(F' & x' & Ht' & V' & Fi' & -> & ->)] Hle Ha Hb.
  - assert (T' = T) by congruence. subst T'. apply int_enc_ok in Ha, Hb; try assumption. apply le_IZR in Hle.
    destruct (Z.eq_dec z z') as [->|Hz]; [left; congruence|]. right. pose proof (int_width t T Ht).
    apply (int_order T T z z' (ne_neg (cb_num u)) (ne_pos (cb_num u))); try assumption. lia.
  - destruct (int_not_fp _ _ _ Ht Ht').
  - destruct (int_not_fp _ _ _ Ht' Ht).
  - assert (F' = F) by (destruct Ht as [[-> ->]|[-> ->]], Ht' as [[E1 ->]|[E1 ->]]; try reflexivity; discriminate E1). subst F'.
    apply fp_enc_ok in Ha, Hb; try assumption. exact (fp_order L F _ _ _ x x' a b G (fp_fmt t F Ht) S V V' Fi Fi' Hle Ha Hb).
Qed.
Lemma number_numeric t d v : number_of t d v -> ModelGetOp.numeric t = true.
Proof.
  intros [(T & z & Ht & _)|(F & x & [[-> _]|[-> _]] & _)]; try reflexivity. unfold int_of in Ht. unfold ModelGetOp.numeric.
  destruct (t =? T_INT32)%N, (t =? T_INT64)%N, (t =? T_UINT32)%N, (t =? T_UINT64)%N; try reflexivity. discriminate Ht.
Qed.

(* ---- their keys ---- *)
Lemma reading_key L u s t i v f : good_libm L -> num_sym u -> code (session L u) s = Some f -> reading (session L u) s t i v ->
  exists x r, c_enc (session L u) t false (b_data (pi_pred i)) = Ok (Some (x :: r)) /\
    item_key (session L u) i = sp_to_key f (mkField (x :: r) t) /\
    (N_of_ascii (ne_neg (cb_num u)) <= N_of_ascii x <= N_of_ascii (ne_pos (cb_num u)))%N.
Proof.
  intros G S Ef (R1 & R2 & R3 & R4 & R5). destruct (number_enc L u t _ v G S R5) as (x & r & E & B). exists x, r. split; [exact E|]. split; [|exact B].
  unfold item_key, pair_of, codes. destruct (code (session L u) (pi_obj i)); [|congruence]. rewrite R1, Ef. unfold code. rewrite R3, R4, E. reflexivity.
Qed.
Lemma reading_order L u s t i j v w f : good_libm L -> num_sym u -> code (session L u) s = Some f -> reading (session L u) s t i v -> reading (session L u) s t j w ->
  bltb (item_key (session L u) i) (item_key (session L u) j) = true -> v <= w.
Proof.
  intros G S Ef Ri Rj H. destruct (Rle_or_lt v w) as [|Hlt]; [assumption|exfalso].
  destruct (reading_key L u s t i v f G S Ef Ri) as (x & r & E & K & _). destruct (reading_key L u s t j w f G S Ef Rj) as (x' & r' & E' & K' & _).
  rewrite K, K' in H. destruct Ri as (_ & _ & _ & _ & Ri), Rj as (_ & _ & _ & _ & Rj).
  destruct (number_order L u t _ _ w v _ _ G S Rj Ri ltac:(lra) E' E) as [Q|Q].
  - rewrite Q in H. apply bltb_true in H. exact (blt_irrefl _ H).
  - assert (bltb (sp_to_key f (mkField (x' :: r') t)) (sp_to_key f (mkField (x :: r) t)) = true) as H'.
    { unfold sp_to_key. cbn [f_data f_type]. rewrite !(app_assoc (f_data f)). apply bltb_true, slt_blt, slt_prefix, Q. }
    apply bltb_true in H, H'. exact (blt_irrefl _ (blt_trans _ _ _ H H')).
Qed.

(* ---- lists ---- *)
Lemma split_sorted {A} (R : A -> A -> Prop) (p : A -> bool) l : StronglySorted R l -> (forall a b, R a b -> In a l -> In b l -> p b = true -> p a = true) ->
  l = filter p l ++ filter (fun a => negb (p a)) l.
Proof.
  induction 1 as [|a l SS IH F]; intros H; [reflexivity|]. cbn [filter]. destruct (p a) eqn:E; cbn [negb].
  - cbn [app]. f_equal. apply IH. intros x y ? ? ?. apply H; [assumption|right; assumption..].
  - assert (N : forall b, In b l -> p b = false).
    { intros b Hb. destruct (p b) eqn:Eb; [|reflexivity]. rewrite Forall_forall in F. rewrite (H a b (F b Hb) (or_introl eq_refl) (or_intror Hb) Eb) in E. discriminate E. }
    clear -N. assert (filter p l = []) as ->.
    { induction l as [|b l IHl]; [reflexivity|]. cbn [filter]. rewrite (N b (or_introl eq_refl)). apply IHl. intros x Hx. apply N. right. exact Hx. }
    cbn [app]. f_equal. induction l as [|b l IHl]; [reflexivity|]. cbn [filter]. rewrite (N b (or_introl eq_refl)). cbn [negb]. f_equal. apply IHl. intros x Hx. apply N. right. exact Hx.
Qed.
Lemma sorted_filter {A} (R : A -> A -> Prop) (p : A -> bool) l : StronglySorted R l -> StronglySorted R (filter p l).
Proof.
  induction 1 as [|a l SS IH F]; [constructor|]. cbn [filter]. destruct (p a); [|exact IH]. constructor; [exact IH|].
  rewrite Forall_forall in *. intros x Hx. apply filter_In in Hx. apply F, Hx.
Qed.
Lemma sorted_app {A} (R : A -> A -> Prop) l l' : StronglySorted R (l ++ l') -> StronglySorted R l /\ forall a b, In a l -> In b l' -> R a b.
Proof.
  induction l as [|a l IH]; intros H; [split; [constructor|intros a b []]|]. cbn [app] in H. inversion H as [|? ? H1 H2]; subst. destruct (IH H1) as [A1 A2].
  rewrite Forall_forall in H2. split.
  - constructor; [exact A1|]. apply Forall_forall. intros x Hx. apply H2, in_or_app. left. exact Hx.
  - intros x y [<-|Hx] Hy; [apply H2, in_or_app; right; exact Hy|exact (A2 x y Hx Hy)].
Qed.
Lemma sorted_weak {A} (R Q : A -> A -> Prop) l : StronglySorted R l -> (forall a b, In a l -> In b l -> R a b -> Q a b) -> StronglySorted Q l.
Proof.
  induction 1 as [|a l SS IH F]; intros H; constructor.
  - apply IH. intros x y Hx Hy. apply H; right; assumption.
  - rewrite Forall_forall in *. intros x Hx. apply H; [left; reflexivity|right; exact Hx|exact (F x Hx)].
Qed.
Lemma filter_all {A} (p : A -> bool) l : (forall a, In a l -> p a = true) -> filter p l = l.
Proof. induction l as [|a l IH]; intros H; [reflexivity|]. cbn [filter]. rewrite (H a (or_introl eq_refl)). f_equal. apply IH. intros x Hx. apply H. right. exact Hx. Qed.
Lemma filter_swap {A} (p q : A -> bool) l : (forall a, In a l -> p a = true -> q a = true) -> filter p (filter q l) = filter p l.
Proof.
  induction l as [|a l IH]; intros H; [reflexivity|]. cbn [filter]. assert (I : filter p (filter q l) = filter p l) by (apply IH; intros x Hx; apply H; right; exact Hx).
  destruct (q a) eqn:Eq; cbn [filter].
  - rewrite I. reflexivity.
  - destruct (p a) eqn:Ep; [rewrite (H a (or_introl eq_refl) Ep) in Eq; discriminate Eq|exact I].
Qed.

(* the byte after the prefix is above b *)
Definition aboveb (P : bytes) (b : byte) (k : bytes) : bool :=
  match skipn (List.length P) k with x :: _ => (N_of_ascii b <? N_of_ascii x)%N | [] => false end.
Lemma aboveb_app P b x r : aboveb P b (P ++ x :: r) = (N_of_ascii b <? N_of_ascii x)%N.
Proof. unfold aboveb. rewrite skipn_app, skipn_all, Nat.sub_diag. reflexivity. Qed.
Lemma least_below (P : bytes) (n x y : byte) r : (N_of_ascii n <= N_of_ascii x)%N -> bleb (P ++ [n; zero]) (P ++ x :: y :: r) = true.
Proof.
  intros H. unfold bleb. rewrite bcmp_app_same. cbn [bcmp]. destruct (N.compare_spec (N_of_ascii n) (N_of_ascii x)) as [_|_|X]; [|reflexivity|lia].
  change (N_of_ascii zero) with 0%N. destruct (N.compare_spec 0 (N_of_ascii y)) as [_|_|X]; [|reflexivity|lia]. destruct r; reflexivity.
Qed.
Lemma least_below' (P : bytes) (n x : byte) r : (N_of_ascii n < N_of_ascii x)%N -> bleb (P ++ [n; zero]) (P ++ x :: r) = true.
Proof.
  intros H. unfold bleb. rewrite bcmp_app_same. cbn [bcmp]. destruct (N.compare_spec (N_of_ascii n) (N_of_ascii x)) as [X|_|X]; [lia|reflexivity|lia].
Qed.

Lemma lowest_found L u k h d rs ts s t ot n :
  good_libm L -> num_sym u -> Forall (small_change (session L u)) (flat_map changes h) ->
  ds_run (opened k (session L u)) (map CallReq h) = Ok (d, rs) -> left_by (session L u) (flat_map changes h) ts ->
  Forall (fun i => exists r, back3 (session L u) i r) ts ->
  code (session L u) s <> None -> small (session L u) s -> ModelGetOp.numeric t = true -> (1 <= n)%N ->
  (forall i, In i ts -> starts_with (coded_data (session L u) s) (item_key (session L u) i) = true ->
     (exists v, reading (session L u) s t i v) \/ above (session L u) s (ne_pos (cb_num u)) i) ->
  (exists i v, In i ts /\ reading (session L u) s t i v) ->
  exists g us rest, asks d (ask_lowest s t ot n) g /\ gp_status g = Z.of_N DATASTORE_SUCCESS /\
    Forall2 (back3 (session L u)) (us ++ rest) (gp_recs g) /\ lowest (session L u) s t n ts us /\
    Forall (fun i => In i ts /\ above (session L u) s (ne_pos (cb_num u)) i) rest /\
    (N.of_nat (List.length us) = n -> rest = []).
Proof.
  set (c := session L u). intros G S Hs Hr Hl Hb Hc Hsm Ht Hn Hrows (i0 & v0 & Hi0 & R0).
  assert (NE : c_enc c t true [] = Ok None) by apply null_enc, Ht.
  destruct (code c s) as [f|] eqn:Ef; [clear Hc|congruence].
  destruct (lossy_getop k c h d rs ts (ask_lowest s t ot n) Hs Hr Hl Hb) as (g & Hg & Hrep).
  { split; [exact Hn|]. split; [intros _; split; discriminate|]. intros _. cbn [ask_lowest oi_sub oi_pred b_type b_null b_data].
    split; [congruence|]. split; [exact Hsm|]. split; [intros x Hx; unfold code in Hx; cbn [b_type b_null b_data] in Hx; rewrite NE in Hx; discriminate Hx|].
    split; [|exists None; exact NE]. unfold ModelGetOp.numeric in Ht.
    repeat (apply orb_true_iff in Ht as [Ht|Ht]); apply N.eqb_eq in Ht; subst t; reflexivity. }
  assert (CN : coded_data c (mkBlob true [] t) = []) by (unfold coded_data, code; cbn [b_type b_null b_data]; rewrite NE; reflexivity).
  assert (CS : coded_data c s = f_data f) by (unfold coded_data; rewrite Ef; reflexivity).
  unfold replies, reply_of, reply_by in Hrep. cbn [ask_lowest oi_op oi_num] in Hrep.
  change ((GETOP_LOWEST =? GETOP_EQ)%N) with false in Hrep. change ((GETOP_LOWEST =? GETOP_NEXT)%N) with false in Hrep. change ((GETOP_LOWEST =? GETOP_PREV)%N) with false in Hrep.
  change ((GETOP_LOWEST =? GETOP_FIRST)%N) with false in Hrep. change ((GETOP_LOWEST =? GETOP_LAST)%N) with false in Hrep. change ((GETOP_LOWEST =? GETOP_LOWEST)%N) with true in Hrep.
  cbv beta iota zeta in Hrep. unfold req_least, req_prefix in Hrep. cbn [ask_lowest oi_sub oi_pred b_type] in Hrep. rewrite CN, app_nil_r, Ht, CS in Hrep.
  change ((blen [] =? 0)%N && true) with true in Hrep. cbv iota in Hrep. change (c_neg c) with (ne_neg (cb_num u)) in Hrep.
  set (P := f_data f) in *. set (neg := ne_neg (cb_num u)) in *. set (pos := ne_pos (cb_num u)) in *. rewrite CS in Hrows. fold P in Hrows.
  assert (Hle : (N_of_ascii neg < N_of_ascii pos)%N) by (destruct S; unfold neg, pos; lia).
  (* keys of readings *)
  assert (RK : forall i v, reading c s t i v -> exists x y r, item_key c i = P ++ x :: y :: r /\ (N_of_ascii neg <= N_of_ascii x <= N_of_ascii pos)%N).
  { intros i v Ri. destruct (reading_key L u s t i v f G S Ef Ri) as (x & r & _ & K & B). unfold sp_to_key in K. cbn [f_data f_type] in K.
    destruct r as [|y r]; eexists x, _, _; (split; [exact K|exact B]). }
  assert (LE : forall i, In i ts -> starts_with P (item_key c i) = true -> bleb (P ++ [neg; zero]) (item_key c i) = true).
  { intros i Hi Hp. destruct (Hrows i Hi Hp) as [[v Rv]|(x & r & K & B)].
    - destruct (RK i v Rv) as (x & y & r & -> & B). apply least_below. lia.
    - rewrite K. rewrite CS. apply least_below'. fold pos in B. lia. }
  set (W := filter (fun i => starts_with P (item_key c i)) ts) in *.
  rewrite (filter_swap (fun i => starts_with P (item_key c i)) (fun i => bleb (P ++ [neg; zero]) (item_key c i)) ts LE) in Hrep. fold W in Hrep.
  assert (PS : forall i v, reading c s t i v -> starts_with P (item_key c i) = true).
  { intros i v Rv. destruct (RK i v Rv) as (x & y & r & -> & _). apply starts_with_app. eexists. reflexivity. }
  assert (Hfrom : In i0 (filter (fun i => bleb (P ++ [neg; zero]) (item_key c i)) ts)).
  { apply filter_In. split; [exact Hi0|]. apply LE; [exact Hi0|]. exact (PS _ _ R0). }
  destruct (filter (fun i => bleb (P ++ [neg; zero]) (item_key c i)) ts) as [|a0 l0]; [destruct Hfrom|]. clear Hfrom. cbn [some_if] in Hrep. destruct Hrep as [Hst Hrec].
  (* numbers first *)
  destruct Hl as [Hsort Hin]. assert (WS : StronglySorted (fun i j => bltb (item_key c i) (item_key c j) = true) W) by (apply sorted_filter, Hsort).
  set (low := fun i => negb (aboveb P pos (item_key c i))).
  assert (WI : forall i, In i W -> In i ts /\ starts_with P (item_key c i) = true) by (intros i Hi; apply filter_In in Hi; exact Hi).
  assert (LO : forall i v, reading c s t i v -> low i = true).
  { intros i v Rv. destruct (RK i v Rv) as (x & y & r & K & B). unfold low. rewrite K, aboveb_app. apply negb_true_iff, N.ltb_ge. lia. }
  assert (HI : forall i, above c s pos i -> low i = false).
  { intros i (x & r & K & B). unfold low. rewrite K, CS. fold P. rewrite aboveb_app. apply negb_false_iff, N.ltb_lt. exact B. }
  assert (SP : W = filter low W ++ filter (fun i => negb (low i)) W).
  { apply (split_sorted _ low W WS). intros a b Hab Ha Hb' Lb. destruct (WI a Ha) as [Ta Pa]. destruct (WI b Hb') as [Tb Pb].
    destruct (Hrows a Ta Pa) as [[v Rv]|Aa]; [exact (LO a v Rv)|exfalso]. destruct (Hrows b Tb Pb) as [[w Rw]|Ab]; [|rewrite (HI b Ab) in Lb; discriminate Lb].
    destruct Aa as (x & r & K & B). destruct (RK b w Rw) as (x' & y' & r' & K' & B'). rewrite K, K', CS in Hab. fold P in Hab. apply bltb_true in Hab. unfold blt in Hab.
    rewrite bcmp_app_same in Hab. cbn [bcmp] in Hab. fold pos in B. destruct (N.compare_spec (N_of_ascii x) (N_of_ascii x')) as [X|X|X]; [lia|lia|discriminate Hab]. }
  set (nums := filter low W) in *. set (high := filter (fun i => negb (low i)) W) in *.
  assert (NI : forall i, In i nums -> In i ts /\ exists v, reading c s t i v).
  { intros i Hi. apply filter_In in Hi as [Hi Li]. destruct (WI i Hi) as [Ti Pi]. split; [exact Ti|]. destruct (Hrows i Ti Pi) as [Rv|Ai]; [exact Rv|rewrite (HI i Ai) in Li; discriminate Li]. }
  assert (NJ : forall j w, In j ts -> reading c s t j w -> In j nums).
  { intros j w Tj Rj. apply filter_In. split; [apply filter_In; split; [exact Tj|exact (PS j w Rj)]|exact (LO j w Rj)]. }
  assert (HI' : forall i, In i high -> In i ts /\ above c s pos i).
  { intros i Hi. apply filter_In in Hi as [Hi Li]. destruct (WI i Hi) as [Ti Pi]. split; [exact Ti|]. destruct (Hrows i Ti Pi) as [[v Rv]|Ai]; [rewrite (LO i v Rv) in Li; discriminate Li|exact Ai]. }
  assert (NS : StronglySorted (fun i j => bltb (item_key c i) (item_key c j) = true) nums) by (apply sorted_filter, WS).
  rewrite SP, firstn_app in Hrec.
  exists g, (firstn (N.to_nat n) nums), (firstn (N.to_nat n - List.length nums) high).
  split; [exact Hg|]. split; [exact Hst|]. split; [exact Hrec|].
  assert (FS := firstn_skipn (N.to_nat n) nums). rewrite <- FS in NS. destruct (sorted_app _ _ _ NS) as [N1 N2].
  assert (FI : forall i, In i (firstn (N.to_nat n) nums) -> In i nums) by (intros i; apply firstn_In).
  split; [|split].
  - split; [|split; [|split; [|split; [|split]]]].
    + clear -N1. induction N1 as [|a l SS IH F]; constructor; [|exact IH]. intros Ha. rewrite Forall_forall in F. specialize (F a Ha). apply bltb_true in F. exact (blt_irrefl _ F).
    + intros i Hi. exact (proj1 (NI i (FI i Hi))).
    + apply Forall_forall. intros i Hi. exact (proj2 (NI i (FI i Hi))).
    + apply (sorted_weak _ _ _ N1). intros i j _ _ Hij v w Ri Rj. exact (reading_order L u s t i j v w f G S Ef Ri Rj Hij).
    + rewrite firstn_length. lia.
    + intros j w Tj Rj Nj. pose proof (NJ j w Tj Rj) as Ij. rewrite <- FS in Ij. apply in_app_or in Ij as [Ij|Ij]; [contradiction|]. split.
      * rewrite firstn_length. assert (N.to_nat n < List.length nums)%nat; [|lia]. destruct (le_lt_dec (List.length nums) (N.to_nat n)) as [X|X]; [|exact X].
        rewrite skipn_all2 in Ij by exact X. destruct Ij.
      * intros i v Ii Ri. exact (reading_order L u s t i j v w f G S Ef Ri Rj (N2 i j Ii Ij)).
  - apply Forall_forall. intros i Hi. apply HI'. revert Hi. apply firstn_In.
  - rewrite firstn_length. intros E. replace (N.to_nat n - List.length nums)%nat with 0%nat by lia. reflexivity.
Qed.

(* HIGHEST starts below all of them *)
Lemma highest_misses L u h d rs ts s t ot n :
  good_libm L -> num_sym u -> Forall (small_change (session L u)) (flat_map changes h) ->
  ds_run (opened LevelDB (session L u)) (map CallReq h) = Ok (d, rs) -> left_by (session L u) (flat_map changes h) ts ->
  Forall (fun i => exists r, back3 (session L u) i r) ts ->
  code (session L u) s <> None -> small (session L u) s -> ModelGetOp.numeric t = true -> (1 <= n)%N ->
  exists g, asks d (ask_highest s t ot n) g /\
    (g = nothing (ask_highest s t ot n) \/
     exists us, gp_status g = Z.of_N DATASTORE_SUCCESS /\ Forall2 (back3 (session L u)) us (gp_recs g) /\
       Forall (fun i => forall v, ~ reading (session L u) s t i v) us).
Proof.
  set (c := session L u). intros G S Hs Hr Hl Hb Hc Hsm Ht Hn.
  assert (NE : c_enc c t true [] = Ok None) by apply null_enc, Ht.
  destruct (code c s) as [f|] eqn:Ef; [clear Hc|congruence].
  destruct (lossy_getop LevelDB c h d rs ts (ask_highest s t ot n) Hs Hr Hl Hb) as (g & Hg & Hrep).
  { split; [exact Hn|]. split; [intros X; discriminate X|]. intros _. cbn [ask_highest oi_sub oi_pred b_type b_null b_data].
    split; [congruence|]. split; [exact Hsm|]. split; [intros x Hx; unfold code in Hx; cbn [b_type b_null b_data] in Hx; rewrite NE in Hx; discriminate Hx|].
    split; [|exists None; exact NE]. unfold ModelGetOp.numeric in Ht.
    repeat (apply orb_true_iff in Ht as [Ht|Ht]); apply N.eqb_eq in Ht; subst t; reflexivity. }
  exists g. split; [exact Hg|].
  assert (CN : coded_data c (mkBlob true [] t) = []) by (unfold coded_data, code; cbn [b_type b_null b_data]; rewrite NE; reflexivity).
  assert (CS : coded_data c s = f_data f) by (unfold coded_data; rewrite Ef; reflexivity).
  unfold replies in Hrep. destruct (reply_of c ts (ask_highest s t ot n)) as [us|] eqn:Eu; [|left; exact Hrep]. right. exists us. destruct Hrep as [H1 H2].
  split; [exact H1|]. split; [exact H2|]. unfold reply_of, reply_by in Eu. cbn [ask_highest oi_op oi_num] in Eu.
  change ((GETOP_HIGHEST =? GETOP_EQ)%N) with false in Eu. change ((GETOP_HIGHEST =? GETOP_NEXT)%N) with false in Eu. change ((GETOP_HIGHEST =? GETOP_PREV)%N) with false in Eu.
  change ((GETOP_HIGHEST =? GETOP_FIRST)%N) with false in Eu. change ((GETOP_HIGHEST =? GETOP_LAST)%N) with false in Eu. change ((GETOP_HIGHEST =? GETOP_LOWEST)%N) with false in Eu.
  change ((GETOP_HIGHEST =? GETOP_HIGHEST)%N) with true in Eu.
  cbv beta iota zeta in Eu. unfold req_least, req_prefix in Eu. cbn [ask_highest oi_sub oi_pred b_type] in Eu. rewrite CN, app_nil_r, Ht, CS in Eu.
  change ((blen [] =? 0)%N && true) with true in Eu. cbv iota in Eu. change (c_neg c) with (ne_neg (cb_num u)) in Eu.
  assert (Hu : us = firstn (N.to_nat n) (rev (filter (fun i => starts_with (f_data f) (item_key c i)) (filter (fun i => bltb (item_key c i) (f_data f ++ [ne_neg (cb_num u); zero])) ts)))).
  { revert Eu. destruct (filter (fun i => bltb (item_key c i) (f_data f ++ [ne_neg (cb_num u); zero])) ts); [discriminate|]. cbn [some_if]. congruence. }
  apply Forall_forall. intros i Hi v Rv. rewrite Hu in Hi. apply firstn_In, in_rev, filter_In in Hi as [Hi _]. apply filter_In in Hi as [_ Hi].
  destruct (reading_key L u s t i v f G S Ef Rv) as (x & r & _ & K & B). fold c in K. unfold sp_to_key in K. cbn [f_data f_type] in K.
  assert (X : bleb (f_data f ++ [ne_neg (cb_num u); zero]) (item_key c i) = true).
  { rewrite K. destruct r as [|y r]; apply least_below; lia. }
  apply bltb_true in Hi. apply bleb_true in X. unfold ble, blt in *. rewrite bcmp_antisym in X. rewrite Hi in X. exact (X eq_refl).
Qed.

(* ---- what the records hold ---- *)
Lemma ord_sym neg pos : sym_ord neg pos -> sym_ok neg pos.
Proof.
  intros [A B]. unfold sym_ok. split; [|split].
  - unfold is_digit. destruct (N.leb_spec 48 (N_of_ascii neg)); [lia|reflexivity].
  - unfold is_digit. destruct (N.leb_spec (N_of_ascii pos) 57); [lia|]. apply andb_false_r.
  - intros ->. lia.
Qed.
Lemma int_dec L u t T d : int_of t = Some T -> c_dec (session L u) t d = tr_dec_int T (ne_neg (cb_num u)) (ne_pos (cb_num u)) d.
Proof.
  intros Ht. unfold session. unfold int_of in Ht.
  destruct (N.eqb_spec t T_INT32) as [->|]; [injection Ht as <-; rewrite (proj2 (session_known (libm_codec L) u T_INT32 ltac:(cbn [known_types In]; tauto))); reflexivity|].
  destruct (N.eqb_spec t T_INT64) as [->|]; [injection Ht as <-; rewrite (proj2 (session_known (libm_codec L) u T_INT64 ltac:(cbn [known_types In]; tauto))); reflexivity|].
  destruct (N.eqb_spec t T_UINT32) as [->|]; [injection Ht as <-; rewrite (proj2 (session_known (libm_codec L) u T_UINT32 ltac:(cbn [known_types In]; tauto))); reflexivity|].
  destruct (N.eqb_spec t T_UINT64) as [->|]; [injection Ht as <-; rewrite (proj2 (session_known (libm_codec L) u T_UINT64 ltac:(cbn [known_types In]; tauto))); reflexivity|discriminate].
Qed.
Lemma back_int L u t T z r : num_sym u -> int_of t = Some T -> encodable T z ->
  (back (session L u) (mkBlob false (store T z) t) r <-> r = mkBlob false (store T z) t).
Proof.
  intros S Ht He. pose proof (int_width t T Ht) as HT. pose proof (ord_sym _ _ S) as SO.
  assert (Ld : load T (store T z) = Ok z) by (apply ProofElen.load_store; [exact HT|exact (proj1 He)]).
  assert (Bl : blen (store T z) = N.of_nat (it_bytes T)) by (unfold store, blen; rewrite le_enc_length; reflexivity).
  assert (Hm : it_signed T = true -> store T z <> store T (it_min T)).
  { intros Sg E. apply (proj2 He Sg). rewrite E in Ld. destruct (ity_bounds T ltac:(lia) ltac:(lia)) as [[B0 B1] B2]. rewrite ProofElen.load_store in Ld; [|exact HT|].
    - apply Ok_inj in Ld. symmetry. exact Ld.
    - destruct (proj1 He) as [M1 M2]. lia. }
  destruct (field_round_trip T (store T z) (ne_neg (cb_num u)) (ne_pos (cb_num u)) HT SO Bl Hm) as (s & R1 & R2).
  assert (Z0 : (blen (store T z) =? 0)%N = false) by (rewrite Bl; apply N.eqb_neq; lia).
  assert (C : code (session L u) (mkBlob false (store T z) t) = Some (mkField s t)) by (unfold code; cbn [b_type b_null b_data]; rewrite (int_enc L u t T) by exact Ht; rewrite R1; reflexivity).
  split.
  - intros (f & d & Ef & Ed & ->). rewrite C in Ef. injection Ef as <-. cbn [f_type f_data] in Ed. rewrite (int_dec L u t T), R2 in Ed by exact Ht. apply Ok_inj in Ed. injection Ed as <-.
    cbn [b_type]. rewrite Z0. reflexivity.
  - intros ->. exists (mkField s t), (store T z). split; [exact C|]. cbn [f_type f_data b_type]. split; [rewrite (int_dec L u t T), R2 by exact Ht; reflexivity|]. rewrite Z0. reflexivity.
Qed.
Lemma back_fp L u t F x y r : comes_back L u t F x y -> fp_type t F ->
  (back (session L u) (mkBlob false (store_fp F x) t) r <-> r = mkBlob false (store_fp F y) t).
Proof.
  intros (a & E & D) Ht. assert (Bl : (blen (store_fp F y) =? 0)%N = false).
  { unfold store_fp, blen. rewrite le_enc_length. destruct Ht as [[_ ->]|[_ ->]]; reflexivity. }
  assert (C : code (session L u) (mkBlob false (store_fp F x) t) = Some (mkField a t)) by (unfold code; cbn [b_type b_null b_data]; rewrite E; reflexivity).
  split.
  - intros (f & d & Ef & Ed & ->). rewrite C in Ef. injection Ef as <-. cbn [f_type f_data] in Ed. rewrite D in Ed. apply Ok_inj in Ed. injection Ed as <-. cbn [b_type]. rewrite Bl. reflexivity.
  - intros ->. exists (mkField a t), (store_fp F y). split; [exact C|]. split; [exact D|]. cbn [b_type]. rewrite Bl. reflexivity.
Qed.
