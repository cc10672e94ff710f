(* Numbers stored by one client and read by another *)
From Verif Require Import ModelBytes ProofBytes ModelKey ModelWire ModelHist ModelMsg SpecMsg ModelStore ModelGetOp ModelDs
  SpecStore ProofDs ModelElen ModelTransform ModelFloat ModelRoute SpecRoute ModelClient SpecClient SpecCluster
  ProofClient7 ModelTyped SpecTyped ProofTyped ProofTyped2 SpecElen SpecFp ProofFpLibm ProofFloat.
From Coq Require Import Reals.
Local Open Scope N_scope.

Lemma store_len F x : fmt_ok F -> blen (store_fp F x) = 4 \/ blen (store_fp F x) = 8.
Proof. unfold blen, store_fp. rewrite le_enc_length. intros [-> | ->]; [left|right]; reflexivity. Qed.
Lemma comes_back_codable L u t F x r : fp_type t F -> comes_back L u t F x r ->
  codable (session L u) (mkField (store_fp F x) t) /\ back (session L u) (mkField (store_fp F x) t) = mkField (store_fp F r) t.
Proof.
  intros Ht (a & E & D). unfold stored in E. assert (Fk : fmt_ok F) by (destruct Ht as [[_ ->]|[_ ->]]; [left|right]; reflexivity).
  assert (N : forall y, store_fp F y <> []) by (intros y H; pose proof (store_len F y Fk) as X; rewrite H in X; destruct X; discriminate).
  split.
  - split; [apply N|]. split; [destruct Ht as [[-> _]|[-> _]]; reflexivity|]. exists a, (store_fp F r). cbn [f_type f_data].
    split; [exact E|]. split; [exact D|]. split; [apply N|]. unfold u64. destruct (store_len F r Fk) as [-> | ->]; reflexivity.
  - unfold back. cbn [f_type f_data]. rewrite E, D. reflexivity.
Qed.

(* a pointer to a number *)
Lemma fp_arg_good L u t F x r q : fp_type t F -> comes_back L u t F x r -> fp_addr q <> 0 -> u64 (fp_addr q) ->
  firstn (fp_size t) (fp_mem q) = store_fp F x -> good_obj (session L u) (fp_arg t q) /\ fa (fp_arg t q) = mkField (store_fp F x) t.
Proof.
  intros Ht C Ha Hu Hm. assert (Ef : fa (fp_arg t q) = mkField (store_fp F x) t) by (unfold fa, fp_arg; cbn [a_data a_type]; rewrite Hm; reflexivity).
  split; [|exact Ef]. assert (Fk : fmt_ok F) by (destruct Ht as [[_ ->]|[_ ->]]; [left|right]; reflexivity).
  pose proof (store_len F x Fk) as Hl. split; [|split; [|split; [exact Hu|]]].
  - unfold given, fp_arg. cbn [a_addr a_data]. rewrite Hm. destruct (N.eqb_spec (fp_addr q) 0); [congruence|]. destruct (N.eqb_spec (blen (store_fp F x)) 0); [|reflexivity].
    destruct Hl; congruence.
  - rewrite Ef. eapply comes_back_codable; eassumption.
  - unfold fp_arg. cbn [a_data]. rewrite Hm. destruct Hl as [-> | ->]; reflexivity.
Qed.

Lemma story_calls L u E k e0 S cl l1 i t s p q l2 j ty F x r : fp_type t F -> comes_back L u t F x r ->
  firstn (fp_size t) (fp_mem q) = store_fp F x -> story_ok (session L u) E S e0 k cl l1 i t s p q l2 j ty ->
  Forall (fun ic => Forall (obj_call (session L u)) (snd ic) /\ spread (E (fst ic)) (snd ic)) (story l1 i t s p q l2 j ty).
Proof.
  intros Ht C Hm [HE Hh Hsp Hc Hl [Gs Gp] Hty [Ha Hu]]. destruct (fp_arg_good L u t F x r q Ht C Ha Hu Hm) as [Go _].
  set (c := session L u) in *.
  apply Forall_app in Hc as [Hc1 Hc2]. unfold story in Hsp. apply Forall_app in Hsp as [Hs1 Hs2]. inversion Hs2 as [|? ? Hs3 Hs4]; subst. apply Forall_app in Hs4 as [Hs4 Hs5].
  inversion Hs5 as [|? ? Hs6 _]; subst.
  assert (Z : forall l, Forall (fun ic => spread (E (fst ic)) (snd ic)) l -> Forall (fun ic => Forall (obj_call c) (snd ic)) l ->
     Forall (fun ic => Forall (obj_call c) (snd ic) /\ spread (E (fst ic)) (snd ic)) l).
  { intros l A B. rewrite Forall_forall in *. auto. }
  apply Forall_app. split; [apply Z; assumption|]. constructor.
  - split; [|exact Hs3]. constructor; [|constructor]. split; [exact Gs|]. split; [exact Gp|]. split; [exact Go|]. left. reflexivity.
  - apply Forall_app. split; [apply Z; assumption|]. constructor; [|constructor]. split; [|exact Hs6]. constructor; [|constructor]. cbn [get_fp obj_call]. auto.
Qed.
Lemma number_read L u E k e0 S cl l1 i t s p q l2 j ty F x r : fp_type t F -> comes_back L u t F x r ->
  firstn (fp_size t) (fp_mem q) = store_fp F x -> story_ok (session L u) E S e0 k cl l1 i t s p q l2 j ty ->
  exists cl' rs, play E S cl (story l1 i t s p q l2 j ty) = Ok (cl', rs ++ [[XGet (at_ (E j) s p) true (rf s) (rf p) (mkBlob false (store_fp F r) t)]]).
Proof.
  intros Ht C Hm H. pose proof (story_calls L u E k e0 S cl l1 i t s p q l2 j ty F x r Ht C Hm H) as HF. destruct H as [HE Hh Hsp Hc Hl [Gs Gp] Hty [Ha Hu]].
  destruct (fp_arg_good L u t F x r q Ht C Ha Hu Hm) as [_ Ef].
  destruct (put_then_get E k (session L u) e0 S cl l1 i s p (fp_arg t q) l2 j ty HE Hh HF Hl) as (cl' & rs & Ep).
  exists cl', rs. unfold story, put_fp, get_fp. rewrite Ep, Ef. rewrite (proj2 (comes_back_codable L u t F x r Ht C)). reflexivity.
Qed.
Lemma double_read L u E k e0 S cl l1 i s p q l2 j ty x :
  good_libm L -> sym_ok (ne_neg (cb_num u)) (ne_pos (cb_num u)) -> ne_double (cb_num u) = DOUBLE_PRECISION ->
  valid DBL x -> finite_fp x -> (ten (-300) <= Rabs (val x) <= ten 300)%R ->
  (~ (-4 * ten 8 <= val x <= -25 * ten 6) -> ~ (25 * ten (-12) <= val x <= 4 * ten (-10)) ->
  firstn 8 (fp_mem q) = store_fp DBL x -> story_ok (session L u) E S e0 k cl l1 i T_DOUBLE s p q l2 j ty ->
  exists cl' rs r, play E S cl (story l1 i T_DOUBLE s p q l2 j ty) = Ok (cl', (rs ++ [[XGet (at_ (E j) s p) true (rf s) (rf p) (mkBlob false (store_fp DBL r) T_DOUBLE)]])%list) /\
    finite_fp r /\ Rabs (val r - val x) <= Rabs (val x) * ten (-14))%R.
Proof.
  intros HL Hs Hp Hv Hf Hr N1 N2 Hm Hst. destruct (back_default_dbl L u x HL Hs Hp Hv Hf Hr N1 N2) as (r & C & Fr & B).
  destruct (number_read L u E k e0 S cl l1 i T_DOUBLE s p q l2 j ty DBL x r) as (cl' & rs & Ep); [right; split; reflexivity|exact C|exact Hm|exact Hst|].
  exists cl', rs, r. auto.
Qed.
Lemma float_read L u E k e0 S cl l1 i s p q l2 j ty x :
  good_libm L -> sym_ok (ne_neg (cb_num u)) (ne_pos (cb_num u)) -> ne_float (cb_num u) = FLOAT_PRECISION ->
  valid FLT x -> finite_fp x -> (ten (-37) <= Rabs (val x) <= ten 38 * 3 * (1 - ten (-5)))%R ->
  (~ (-4 * ten 8 <= val x <= -25 * ten 6) -> ~ (25 * ten (-12) <= val x <= 4 * ten (-10)) ->
  firstn 4 (fp_mem q) = store_fp FLT x -> story_ok (session L u) E S e0 k cl l1 i T_FLOAT s p q l2 j ty ->
  exists cl' rs r, play E S cl (story l1 i T_FLOAT s p q l2 j ty) = Ok (cl', (rs ++ [[XGet (at_ (E j) s p) true (rf s) (rf p) (mkBlob false (store_fp FLT r) T_FLOAT)]])%list) /\
    finite_fp r /\ Rabs (val r - val x) <= Rabs (val x) * ten (-5))%R.
Proof.
  intros HL Hs Hp Hv Hf Hr N1 N2 Hm Hst. destruct (back_default_flt L u x HL Hs Hp Hv Hf Hr N1 N2) as (r & C & Fr & B).
  destruct (number_read L u E k e0 S cl l1 i T_FLOAT s p q l2 j ty FLT x r) as (cl' & rs & Ep); [left; split; reflexivity|exact C|exact Hm|exact Hst|].
  exists cl', rs, r. auto.
Qed.

(* ---- the bulk functions ---- *)
Definition given_objects (t : N) (l : list (arg * arg * fp_ptr * N)) : list (arg * arg * arg * N) :=
  map (fun '(s, p, x, m) => (s, p, fp_arg t x, m)) l.
Lemma bput_fp_is_bput e s cl t l s' cl' ok : l <> [] -> do_call e s cl (CBPut (Some (given_objects t l))) = Ok (s', cl', ok) -> s_count s' < e_max_queued e ->
  do_call e s cl (bput_fp true t (Some l)) = Ok (s', cl', ok).
Proof.
  intros Hn H Hc. unfold bput_fp. destruct l as [|y l]; [congruence|]. apply bput_one; [|exact Hc].
  replace (map (retype t) _) with (given_objects t (y :: l)); [exact H|]. unfold given_objects. rewrite map_map. apply map_ext. intros [[[a b] x] m]. reflexivity.
Qed.
Lemma bput_fp_none e s cl t types : s_up s = true -> do_call e s cl (bput_fp types t (Some [])) = Ok (s, cl, false) /\
  exists s', do_call e s cl (CBPut (Some [])) = Ok (s', cl, true).
Proof. intros H. unfold do_call, bput_fp. rewrite H. cbn [negb bput_loop obind]. split; [reflexivity|]. eauto. Qed.
Lemma bget_fp_is_bget e s cl t l : do_call e s cl (bget_fp true t (Some l)) = do_call e s cl (CBGet (Some (map (fun '(x, y) => (x, y, t)) l))).
Proof. apply bget_one. Qed.
Lemma bgetop_fp_fails e s cl t types l : s_up s = true -> do_call e s cl (bgetop_fp types true t (Some l)) = Ok (s, cl, false).
Proof. apply bgetop_one. Qed.
