(* A session with the background PUT thread: the two threads and their requests together *)
From Verif Require Import ModelBytes ProofBytes ModelKey ModelWire ModelHist ModelMsg SpecMsg ModelStore ModelGetOp ModelDs
  ProofStore ProofDs ModelElen ModelRoute SpecRoute ModelClient SpecClient SpecCluster ProofClient SpecScan ModelPar SpecPar ProofPar3 ProofPar4 ProofPar6
  ModelAsync SpecAsync ProofAsync ProofAsync2 ProofAsync4 ModelBack SpecStore SpecBack ProofBack ProofBack2 ProofBack3.
Local Open Scope N_scope.

(* ---- one step of the requests ---- *)
Lemma pstep_shape E st l st' h : ModelPar.step E st l = Ok (st', h) ->
  (forall j, j <> ModelPar.who l -> fst st' j = fst st j) /\
  match l with
  | LCall i cs => match c_mode (fst st i) with Idle => h = [Called i cs] /\ is_idle st' i = false | _ => st' = st /\ h = [] end
  | LReturn i => if ready st i then (exists xs, h = [Returned i xs]) /\ is_idle st' i = true else st' = st /\ h = []
  | l => h = [] /\ is_idle st' (ModelPar.who l) = is_idle st (ModelPar.who l)
  end.
Proof.
  destruct st as [C cl]. intros H. unfold ModelPar.step in H. unfold is_idle, ready. cbn [fst].
  destruct l as [i cs|i j|i|i|i]; cbn [ModelPar.who] in H |- *; destruct (c_mode (C i)) as [|ts xs] eqn:Em.
  - apply obind_ok in H as ([[s1 cl1] oks] & _ & H). injection H as <- <-. cbn [fst]. split; [intros j Hj; apply set_other, Hj|]. rewrite set_same. cbn [c_mode]. auto.
  - injection H as <- <-. cbn [fst]. rewrite ?Em. auto.
  - injection H as <- <-. cbn [fst]. rewrite ?Em. auto.
  - destruct ts as [|t0 ts]; [injection H as <- <-; cbn [fst]; rewrite Em; auto|]. destruct (nth_error (t_far t0) j) as [[r ms]|]; [|injection H as <- <-; cbn [fst]; rewrite Em; auto].
    destruct (e_transport (E i)); [|discriminate]. apply obind_ok in H as ([cl' a] & _ & H). apply obind_ok in H as (ys & _ & H). injection H as <- <-.
    cbn [fst]. split; [intros n Hn; apply set_other, Hn|]. rewrite set_same. cbn [c_mode]. auto.
  - injection H as <- <-. cbn [fst]. rewrite ?Em. auto.
  - destruct ts as [|[[|f fs] [|n0 ns]] ts]; try (injection H as <- <-; cbn [fst]; rewrite Em; auto; fail).
    apply obind_ok in H as ([cl' a] & _ & H). apply obind_ok in H as (ys & _ & H). injection H as <- <-.
    cbn [fst]. split; [intros n Hn; apply set_other, Hn|]. rewrite set_same. cbn [c_mode]. auto.
  - injection H as <- <-. cbn [fst]. rewrite ?Em. auto.
  - destruct ts as [|[[|f fs] [|n0 ns]] ts]; try (injection H as <- <-; cbn [fst]; rewrite Em; auto; fail).
    injection H as <- <-. cbn [fst]. split; [intros n Hn; apply set_other, Hn|]. rewrite set_same. cbn [c_mode]. auto.
  - injection H as <- <-. cbn [fst]. rewrite ?Em. auto.
  - destruct ts as [|t0 ts]; [|injection H as <- <-; auto]. injection H as <- <-. cbn [fst]. split; [intros n Hn; apply set_other, Hn|]. rewrite set_same. cbn [c_mode]. split; [exists xs; reflexivity|reflexivity].
Qed.

Section Whole.
Context (g : cfg) (E : Z -> env) (k : backend) (c : codec) (e0 : env) (S : Z -> session) (cl : cluster) (p : list cmd) (m t : Z) (W : Z -> Prop).
Hypothesis Or : order_ok g.
Hypothesis HW : forall i, W i -> good_client (E i) /\ same_cluster e0 (E i) /\ fresh (E i) (S i).
Hypothesis Wm : W m.
Hypothesis Wt : W t.
Hypothesis Hmt : m <> t.
Hypothesis Hcl : holds e0 cl (fun _ => opened k c).
Hypothesis Hp : good_program c (E t) p.

(* what can be said when the session is running and nothing undefined has happened *)
Definition coupled (w : both) (h : list shown) : Prop :=
  (is_idle (b_s w) t = true <-> v_t (b_a w) <> TRun) /\
  (if is_idle (b_s w) t then open_call t None h = None else exists q, open_call t None h = Some (map call_of q) /\ v_local (b_a w) = g_order g q) /\
  exists T, v_acc (b_a w) = T ++ v_queue (b_a w) /\ calls_of E t h = opers (E t) (map call_of T) /\ incl T (all_puts p).
Definition known (w : both) (h : list shown) : Prop :=
  (exists ls, ModelPar.run E (starting S cl) ls = Ok (b_s w, h) /\ Forall (fun l => W (ModelPar.who l) /\ label_ok E k c l) ls) /\
  reach g p (b_a w) /\ owns (all_puts p) (b_a w) /\
  (v_bad (b_a w) = false -> v_running (b_a w) = true -> coupled w h).

Lemma opers_app a b : opers (E t) (map call_of (a ++ b)) = opers (E t) (map call_of a) ++ opers (E t) (map call_of b).
Proof.
  unfold opers. destruct (calls_only (E t) a) as (A1 & A2 & A3 & _), (calls_only (E t) b) as (B1 & B2 & B3 & _), (calls_only (E t) (a ++ b)) as (C1 & C2 & C3 & _).
  rewrite A1, A2, A3, B1, B2, B3, C1, C2, C3. cbn [map app]. rewrite !app_nil_r, map_app, flat_map_app, map_app. reflexivity.
Qed.
Lemma open_app : forall h o h', open_call t o (h ++ h') = open_call t (open_call t o h) h'.
Proof. induction h as [|[i cs|i xs] h IH]; intros o h'; [reflexivity|cbn [app open_call]; apply IH|cbn [app open_call]; apply IH]. Qed.
Lemma calls_app h h' : calls_of E t (h ++ h') = calls_of E t h ++ calls_of E t h'.
Proof. apply flat_map_app. Qed.

(* the requests never fail *)
Lemma pstep_ok w h l : known w h -> W (ModelPar.who l) -> label_ok E k c l ->
  exists s' h', ModelPar.step E (b_s w) l = Ok (s', h') /\
    exists ls, ModelPar.run E (starting S cl) ls = Ok (s', h ++ h') /\ Forall (fun l => W (ModelPar.who l) /\ label_ok E k c l) ls.
Proof.
  intros ((ls & R & F) & _) Wl Hl.
  assert (F' : Forall (fun l => W (ModelPar.who l) /\ label_ok E k c l) (ls ++ [l])) by (apply Forall_app; split; [exact F|constructor; [auto|constructor]]).
  destruct (parallel_explained E k c e0 S cl (ls ++ [l])) as (st & h0 & R' & _).
  - intros i Hi. apply in_map_iff in Hi as (x & <- & Hx). rewrite Forall_forall in F'. apply HW, F', Hx.
  - exact Hcl.
  - revert F'. apply Forall_impl. tauto.
  - pose proof R' as R2. rewrite prun_app, R in R2. cbn [obind] in R2. rewrite prun_one in R2. apply obind_ok in R2 as ([s' h'] & Es & R2). injection R2 as <- <-.
    exists s', h'. split; [exact Es|]. exists (ls ++ [l]). auto.
Qed.
Lemma idle_other s s' j : fst s' j = fst s j -> is_idle s' j = is_idle s j.
Proof. unfold is_idle. intros ->. reflexivity. Qed.
Lemma known_inv w h : known w h -> v_bad (b_a w) = false -> inv g (b_a w).
Proof. intros (_ & R & _) Hb. eapply reach_inv; eassumption. Qed.
Lemma inv_running s : inv g s -> v_running s = negb (closing (v_c s)).
Proof. intros (_ & (H & _) & _). exact H. Qed.
Lemma frun_empty s : inv g s -> v_c s = FRun -> v_queue s = [].
Proof. intros I Hc. pose proof (inv_running s I) as R. rewrite Hc in R. destruct I as (_ & _ & Ro & _). unfold inv_round in Ro. rewrite Hc in Ro. apply Ro. exact R. Qed.

(* a step of the session together with one of the requests that does not concern the thread *)
Lemma calm_step w h x a : known w h -> v_bad (b_a w) = false -> calm (b_a w) x -> turn g (b_a w) x = Some a ->
  v_bad a = false -> v_running a = true ->
  forall s' h', is_idle s' t = is_idle (b_s w) t -> open_call t (open_call t None h) h' = open_call t None h -> calls_of E t h' = [] ->
  coupled (mkBoth a s') (h ++ h').
Proof.
  intros K Hb Ca Ht Hb' Hr s' h' Hi Ho Hc. pose proof K as (_ & R & _ & Co).
  pose proof (running_turn _ _ _ _ Ht Hr) as Hr0. destruct (Co Hb Hr0) as (C1 & C2 & T & C3 & C4 & C5).
  assert (I' : inv g a) by (eapply reach_inv; [exact Or|eapply reach_turn; eassumption|exact Hb']).
  destruct (calm_turn g _ x a Or Ca Ht (inv_running _ I') (inv_running _ (known_inv _ _ K Hb)) Hr) as (D1 & D2 & l & D3 & D4).
  unfold coupled. cbn [b_a b_s]. rewrite Hi, open_app, Ho, calls_app, Hc, app_nil_r. split; [rewrite C1; tauto|]. split; [rewrite D2; exact C2|].
  exists T. split; [rewrite D3, D4, C3, app_assoc; reflexivity|]. auto.
Qed.
Lemma same_step w h : known w h -> v_bad (b_a w) = false -> v_running (b_a w) = true ->
  forall s' h', is_idle s' t = is_idle (b_s w) t -> open_call t (open_call t None h) h' = open_call t None h -> calls_of E t h' = [] ->
  coupled (mkBoth (b_a w) s') (h ++ h').
Proof.
  intros (_ & _ & _ & Co) Hb Hr s' h' Hi Ho Hc. destruct (Co Hb Hr) as (C1 & C2 & C3). unfold coupled. cbn [b_a b_s]. rewrite Hi, open_app, Ho, calls_app, Hc, app_nil_r. auto.
Qed.
(* labels of others, and those of the thread that neither call nor return *)
Lemma foreign l s s' h' : ModelPar.step E s l = Ok (s', h') -> (ModelPar.who l <> t \/ match l with LCall _ _ | LReturn _ => False | _ => True end) ->
  is_idle s' t = is_idle s t /\ (forall o, open_call t o h' = o) /\ calls_of E t h' = [].
Proof.
  intros Es Hl. destruct (pstep_shape _ _ _ _ _ Es) as (A & B). destruct Hl as [Hl|Hl].
  - split; [apply idle_other, A; congruence|]. assert (Q : h' = [] \/ exists i, i <> t /\ ((exists cs, h' = [Called i cs]) \/ exists xs, h' = [Returned i xs])).
    { destruct l as [i cs|i j|i|i|i]; cbn [ModelPar.who] in Hl.
      - destruct (c_mode (fst s i)); [right; exists i; split; [exact Hl|]; left; exists cs; tauto|left; tauto].
      - left; tauto.
      - left; tauto.
      - left; tauto.
      - destruct (ready s i); [right; exists i; split; [exact Hl|]; right; tauto|left; tauto]. }
    destruct Q as [->|(i & Hi & [[cs ->]|[xs ->]])]; [auto| |]; cbn [open_call calls_of flat_map]; destruct (Z.eqb_spec i t); try contradiction; auto.
  - destruct l as [i cs|i j|i|i|i]; try contradiction; cbn [ModelPar.who] in *; destruct B as [-> B]; (split; [destruct (Z.eq_dec t i) as [->|Hn]; [exact B|apply idle_other, A; exact Hn]|auto]).
Qed.

Lemma bstep_known w h x : known w h -> bmove_ok E k c m W x -> exists w' h', bstep g E m t w x = Ok (w', h') /\ known w' (h ++ h').
Proof.
  intros K Hx. pose proof K as (KL & KR & KO & KC). unfold bstep. destruct (v_bad (b_a w)) eqn:Hb.
  { exists w, []. rewrite app_nil_r. auto. }
  assert (Stay : exists w' h', Ok (w, []) = Ok (w', h') /\ known w' (h ++ h')) by (exists w, []; rewrite app_nil_r; auto).
  assert (Plain : forall y, calm (b_a w) y -> exists w' h', plain g w y = Ok (w', h') /\ known w' (h ++ h')).
  { intros y Hy. unfold plain. destruct (turn g (b_a w) y) as [a|] eqn:Ht; [|exact Stay]. exists (mkBoth a (b_s w)), []. split; [reflexivity|].
    split; [rewrite app_nil_r; exact KL|]. split; [eapply reach_turn; eassumption|]. split; [eapply owns_turn; eassumption|]. cbn [b_a]. intros Hb' Hr.
    eapply calm_step; try eassumption; reflexivity. }
  assert (Par : forall l, W (ModelPar.who l) -> label_ok E k c l -> (ModelPar.who l <> t \/ match l with LCall _ _ | LReturn _ => False | _ => True end) ->
    exists w' h', par E w l (b_a w) = Ok (w', h') /\ known w' (h ++ h')).
  { intros l Wl Hl Hf. destruct (pstep_ok w h l K Wl Hl) as (s' & h' & Es & Ls). unfold par. rewrite Es. cbn [obind]. exists (mkBoth (b_a w) s'), h'. split; [reflexivity|].
    destruct (foreign _ _ _ _ Es Hf) as (F1 & F2 & F3). split; [exact Ls|]. split; [exact KR|]. split; [exact KO|]. cbn [b_a]. intros _ Hr.
    apply same_step; try assumption. apply F2. }
  destruct x as [y|l].
  - destruct y.
    + (* the client *)
      destruct (is_idle (b_s w) m) eqn:Im; [|exact Stay].
      destruct (v_c (b_a w)) eqn:Hc; try (apply Plain; cbn [calm]; congruence). rewrite (frun_empty _ (known_inv _ _ K Hb) Hc). apply Plain. intros _. apply frun_empty; [eapply known_inv; eassumption|exact Hc].
    + (* the thread *)
      destruct (v_t (b_a w)) eqn:Ht; try (apply Plain; cbn [calm]; rewrite Ht; split; discriminate); [|exact Stay].
      assert (St : step_t g (b_a w) = Some (set_t (set_pm (set_local (set_queue (b_a w) (g_rs g) [] 0 false) (g_order g (v_queue (b_a w))) []) None) TRun)) by (unfold step_t; rewrite Hb, Ht; reflexivity).
      rewrite St. set (a' := set_t _ _) in *.
      assert (Hl : label_ok E k c (LCall t (map call_of (v_queue (b_a w))))) by (eapply batch_ok; [exact Hp|apply KO]).
      destruct (pstep_ok w h (LCall t (map call_of (v_queue (b_a w)))) K Wt Hl) as (s' & h' & Es & Ls). unfold par. rewrite Es. cbn [obind]. exists (mkBoth a' s'), h'. split; [reflexivity|].
      split; [exact Ls|]. split; [eapply (reach_turn _ _ _ MThread); [exact KR|exact St]|]. split; [eapply (owns_turn g _ _ MThread); [exact KO|exact St]|]. cbn [b_a b_s]. intros _ Hr.
      assert (Hr0 : v_running (b_a w) = true) by (eapply (running_turn g _ MThread); [exact St|exact Hr]).
      destruct (KC eq_refl Hr0) as (C1 & C2 & T & C3 & C4 & C5).
      assert (Id : is_idle (b_s w) t = true) by (apply C1; rewrite Ht; discriminate).
      destruct (pstep_shape _ _ _ _ _ Es) as (_ & B). unfold is_idle in Id. destruct (c_mode (fst (b_s w) t)); [|discriminate]. destruct B as [-> B].
      unfold coupled. cbn [b_a b_s]. rewrite B, open_app, calls_app, C4. cbn [open_call calls_of flat_map]. rewrite Z.eqb_refl, app_nil_r.
      split; [split; [discriminate|intros X; exfalso; apply X; reflexivity]|]. split; [exists (v_queue (b_a w)); split; reflexivity|].
      exists (T ++ v_queue (b_a w)). split; [unfold a'; fields; rewrite app_nil_r; exact C3|]. split; [rewrite opers_app; reflexivity|]. apply incl_app; [exact C5|apply KO].
    + apply Plain. exact Logic.I.
    + apply Plain. exact Logic.I.
  - destruct Hx as (Wl & Hl & Hm). destruct l as [i cs|i j|i|i|i]; cbn [ModelPar.who] in Wl.
    + destruct (Z.eqb_spec i t) as [->|Hit]; [exact Stay|]. destruct (Z.eqb_spec i m) as [->|Him].
      * destruct (v_c (b_a w)); try exact Stay. apply Par; [exact Wl|exact Hl|left; exact Hit].
      * apply Par; [exact Wl|exact Hl|left; exact Hit].
    + apply Par; [exact Wl|exact Hl|right; exact Logic.I].
    + apply Par; [exact Wl|exact Hl|right; exact Logic.I].
    + apply Par; [exact Wl|exact Hl|right; exact Logic.I].
    + destruct (Z.eqb_spec i t) as [->|Hit].
      * destruct (ready (b_s w) t) eqn:Rd; [|exact Stay]. destruct (pstep_ok w h (LReturn t) K Wt Hl) as (s' & h' & Es & Ls). unfold par. rewrite Es. cbn [obind]. exists (mkBoth (finish g (b_a w)) s'), h'. split; [reflexivity|].
        assert (OF : forall l a, owns (all_puts p) a -> owns (all_puts p) (ModelAsync.run g a l)).
        { induction l as [|y l IH]; intros a Ha; [exact Ha|]. cbn [ModelAsync.run]. apply IH. destruct (turn g a y) eqn:Et; [eapply owns_turn; eassumption|exact Ha]. }
        assert (RF : forall l a, v_running (ModelAsync.run g a l) = true -> v_running a = true).
        { induction l as [|y l IH]; intros a Ha; [exact Ha|]. cbn [ModelAsync.run] in Ha. apply IH in Ha. destruct (turn g a y) eqn:Et; [eapply running_turn; eassumption|exact Ha]. }
        split; [exact Ls|]. split; [apply reach_run, KR|]. split; [apply OF, KO|]. cbn [b_a b_s]. intros _ Hr. apply RF in Hr.
        destruct (KC eq_refl Hr) as (C1 & C2 & T & C3 & C4 & C5).
        assert (Id : is_idle (b_s w) t = false) by (unfold ready in Rd; unfold is_idle; destruct (c_mode (fst (b_s w) t)) as [|[|]]; congruence).
        assert (Ht : v_t (b_a w) = TRun) by (destruct (v_t (b_a w)); try reflexivity; exfalso; rewrite (proj2 C1) in Id; discriminate).
        destruct (finish_fields g _ (b_a w) Hb Ht eq_refl) as (F1 & F2 & F3 & F4 & F5 & F6).
        destruct (pstep_shape _ _ _ _ _ Es) as (_ & B). rewrite Rd in B. destruct B as [[xs ->] B].
        unfold coupled. cbn [b_a b_s]. rewrite B, open_app, calls_app. cbn [open_call calls_of flat_map]. rewrite Z.eqb_refl, app_nil_r. unfold finish. rewrite F1, F2, F3.
        split; [split; [discriminate|reflexivity]|]. split; [reflexivity|]. exists T. auto.
      * destruct (Z.eqb_spec i m) as [->|Him]; [|apply Par; [exact Wl|exact Hl|left; exact Hit]].
        assert (P0 := Par (LReturn m) Wl Hl (or_introl Hit)).
        destruct (v_c (b_a w)) eqn:Hc; try exact P0. destruct (ready (b_s w) m) eqn:Rd; [|exact P0]. destruct (step_c g (b_a w)) as [a'|] eqn:St; [|exact Stay].
        destruct (pstep_ok w h (LReturn m) K Wl Hl) as (s' & h' & Es & Ls). unfold par. rewrite Es. cbn [obind]. exists (mkBoth a' s'), h'. split; [reflexivity|].
        destruct (foreign _ _ _ _ Es (or_introl Hit)) as (F1 & F2 & F3).
        split; [exact Ls|]. split; [eapply (reach_turn _ _ _ MClient); [exact KR|exact St]|]. split; [eapply (owns_turn g _ _ MClient); [exact KO|exact St]|]. cbn [b_a]. intros Hb' Hr.
        apply (calm_step w h MClient); try assumption; [|apply F2]. intros _. apply frun_empty; [eapply known_inv; eassumption|exact Hc].
Qed.
Lemma brun_known xs : forall w h, known w h -> Forall (bmove_ok E k c m W) xs -> exists w' h', brun g E m t w xs = Ok (w', h') /\ known w' (h ++ h').
Proof.
  induction xs as [|x xs IH]; intros w h K F; [exists w, []; rewrite app_nil_r; auto|]. inversion F as [|? ? F1 F2]; subst. cbn [brun].
  destruct (bstep_known w h x K F1) as (w1 & h1 & -> & K1). cbn [obind]. destruct (IH w1 _ K1 F2) as (w2 & h2 & -> & K2). cbn [obind]. exists w2, (h1 ++ h2). rewrite app_assoc. auto.
Qed.
Lemma bstart_known : known (bstart g p S cl) [].
Proof.
  split; [exists []; split; [reflexivity|constructor]|]. split; [exists []; reflexivity|]. split; [split; [apply incl_nil_|split; [apply incl_refl|exact Logic.I]]|].
  intros _ _. unfold coupled, bstart. cbn [b_a b_s]. split; [split; [discriminate|reflexivity]|]. split; [reflexivity|]. exists []. split; [reflexivity|]. split; [reflexivity|apply incl_nil_].
Qed.
Lemma known_explained w h : known w h -> explained E k c h.
Proof.
  intros ((ls & R & F) & _). destruct (parallel_explained E k c e0 S cl ls) as (st & h0 & R' & X & _).
  - intros i Hi. apply in_map_iff in Hi as (x & <- & Hx). rewrite Forall_forall in F. apply HW, F, Hx.
  - exact Hcl.
  - revert F. apply Forall_impl. tauto.
  - rewrite R in R'. injection R' as <- <-. exact X.
Qed.

(* ---- the values ---- *)
Definition oper_of (o : op) : oper := let 'mkPut s sa q qa x := o_put o in OPut (arg_of s sa) (arg_of q qa) (arg_of x 1).
Lemma opers_ops T : incl T (all_puts p) -> opers (E t) (map call_of T) = map oper_of T.
Proof.
  induction T as [|o T IH]; intros I; [reflexivity|]. change (o :: T) with ([o] ++ T) at 1. rewrite opers_app, IH by (intros x Hx; apply I; right; exact Hx). cbn [map]. 
  assert (G : good_op c o) by (destruct Hp as [G _]; rewrite Forall_forall in G; apply G, I; left; reflexivity).
  destruct o as [i [s sa q qa x]]. unfold good_op, call_of, oper_of in *. cbn [o_put] in *. destruct G as (G1 & G2 & G3 & G4). rewrite G4.
  destruct (HW t Wt) as ((_ & Th & _) & _). rewrite (one_oper (E t) c) by first [exact Th|exact (conj G1 (conj G2 G3))]. reflexivity.
Qed.
Lemma vsets_last s q : forall T v, vsets s q v (map oper_of T) = match last_put s q T with Some x => Some x | None => v end.
Proof.
  induction T as [|o T IH]; intros v; [reflexivity|]. cbn [map last_put]. unfold vsets in *. cbn [fold_left]. rewrite IH. destruct (last_put s q T); [reflexivity|].
  destruct o as [i [a sa b qa x]]. unfold oper_of. cbn [o_put vset]. unfold arg_of, fa, fld. cbn [a_data a_type]. destruct (_ && _); reflexivity.
Qed.
Lemma flushed_seen w h ys w' j cs h3 h4 rs h5 s q :
  known w h -> Forall (bmove_ok E k c m W) ys -> v_bad (b_a w) = false -> v_c (b_a w) = FDone ->
  brun g E m t w ys = Ok (w', h3 ++ Called j cs :: h4 ++ Returned j rs :: h5) ->
  only E t s q h -> untouched E s q (h3 ++ Called j cs :: h4) -> still j h4 ->
  forall x y ty, In (OGet x y ty) (opers (E j) cs) -> fa x = s -> fa y = q -> In (get_gives (E j) x y (last_put s q (v_acc (b_a w)))) rs.
Proof.
  intros K F Hb Hc R U1 U Sj x y ty Hg Ex Ey. destruct (brun_known ys w h K F) as (w2 & h2 & R2 & K2). rewrite R in R2. injection R2 as <- <-.
  pose proof (known_inv _ _ K Hb) as Iv. pose proof (inv_running _ Iv) as Ru. rewrite Hc in Ru. cbn [closing negb] in Ru.
  destruct K as (_ & _ & _ & Co). destruct (Co Hb Ru) as (C1 & C2 & T & C3 & C4 & C5).
  assert (Qe : v_queue (b_a w) = [] /\ v_local (b_a w) = []).
  { destruct Iv as (_ & _ & Ro & _). unfold inv_round in Ro. rewrite Hc in Ro. specialize (Ro Ru). tauto. }
  destruct Qe as [Qe Le]. rewrite Qe, app_nil_r in C3.
  rewrite C3. rewrite (opers_ops T C5) in C4. replace (last_put s q T) with (vsets s q None (calls_of E t h)) by (rewrite C4, vsets_last; destruct (last_put s q T); reflexivity).
  eapply (sole_seen E k c s q t h h3 j cs h4 rs h5); try eassumption; [apply (known_explained _ _ K2)|].
  intros cs' Ho a Ha. destruct (is_idle (b_s w) t); [congruence|]. destruct C2 as (b & Ob & Lb). rewrite Le in Lb.
  assert (b = []) as -> by (destruct (Or b) as [P _]; rewrite <- Lb in P; apply Permutation_nil in P; exact P). rewrite Ob in Ho. injection Ho as <-. destruct Ha.
Qed.
End Whole.
