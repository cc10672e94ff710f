(* Temperatures of cells, as examples/hxhim/lowest.c stores them *)
From Verif Require Import ModelBytes ProofBytes ModelKey ModelElen ModelHist ModelMsg ModelStore ModelGetOp ModelDs ModelTransform ModelFloat SpecElen SpecStore
  ProofStore ProofDs SpecGetOp SpecFp ProofFpBase ProofFpLibm ProofFloat ExampleFloat SpecLossy ProofLossy ProofLossy2 SpecLowest ProofLossy3.
From Coq Require Import Reals Psatz.
Local Open Scope N_scope.

(* ---- finding out what is left ---- *)
Definition feqb (a b : field) : bool := beqb (f_data a) (f_data b) && (f_type a =? f_type b).
Definition peqb (a b : option (field * field)) : bool :=
  match a, b with Some (s, p), Some (s', p') => feqb s s' && feqb p p' | None, None => true | _, _ => false end.
Lemma feqb_true a b : feqb a b = true <-> a = b.
Proof.
  unfold feqb. destruct a as [d t], b as [d' t']. cbn [f_data f_type]. rewrite andb_true_iff, beqb_true, N.eqb_eq. split; [intros [-> ->]; reflexivity|intros H; injection H; auto].
Qed.
Lemma peqb_true a b : peqb a b = true <-> a = b.
Proof.
  destruct a as [[s p]|], b as [[s' p']|]; cbn [peqb]; try (split; [discriminate|discriminate]); [|split; reflexivity].
  rewrite andb_true_iff, !feqb_true. split; [intros [-> ->]; reflexivity|intros H; injection H; auto].
Qed.
Fixpoint survivors (c : codec) (xs : list change) : list put_item :=
  match xs with
  | [] => []
  | Put i :: r => if negb (peqb (pair_of c (Put i)) None) && forallb (fun x => negb (peqb (pair_of c x) (pair_of c (Put i)))) r then i :: survivors c r else survivors c r
  | Del _ :: r => survivors c r
  end.
Lemma survivors_kept c xs i : In i (survivors c xs) <-> kept c xs i.
Proof.
  induction xs as [|x xs IH]; [split; [intros []|intros [_ (a & b & E & _)]; destruct a; discriminate E]|].
  assert (S : kept c (x :: xs) i <-> (x = Put i /\ pair_of c (Put i) <> None /\ forall y, In y xs -> pair_of c y <> pair_of c (Put i)) \/ kept c xs i).
  { split.
    - intros [P (a & b & E & K)]. destruct a as [|y a]; cbn [app] in E; injection E as -> E; [left; subst b; auto|right]. split; [exact P|]. exists a, b. auto.
    - intros [(-> & P & K)|[P (a & b & -> & K)]]; split; try exact P; [exists [], xs; auto|exists (x :: a), b; auto]. }
  rewrite S, <- IH. cbn [survivors]. destruct x as [j|j].
  - destruct (negb (peqb (pair_of c (Put j)) None) && forallb (fun x => negb (peqb (pair_of c x) (pair_of c (Put j)))) xs) eqn:E.
    + apply andb_true_iff in E as [E1 E2]. rewrite forallb_forall in E2. apply negb_true_iff in E1. split.
      * intros [<-|H]; [left|right; exact H]. split; [reflexivity|]. split.
        { intros X. apply peqb_true in X. congruence. }
        { intros y Hy X. specialize (E2 y Hy). apply peqb_true in X. rewrite X in E2. discriminate E2. }
      * intros [(X & _)|H]; [left; congruence|right; exact H].
    + split; [intros H; right; exact H|]. intros [(X & P & K)|H]; [|exact H]. injection X as ->. exfalso.
      apply andb_false_iff in E as [E|E]; [apply negb_false_iff, peqb_true in E; contradiction|].
      assert (forallb (fun x => negb (peqb (pair_of c x) (pair_of c (Put i)))) xs = true) as F; [|congruence].
      apply forallb_forall. intros y Hy. apply negb_true_iff. destruct (peqb (pair_of c y) (pair_of c (Put i))) eqn:Q; [|reflexivity]. apply peqb_true in Q. destruct (K y Hy Q).
  - split; [intros H; right; exact H|]. intros [(X & _)|H]; [discriminate X|exact H].
Qed.
Fixpoint ascending (c : codec) (ts : list put_item) : bool :=
  match ts with [] => true | i :: r => forallb (fun j => bltb (item_key c i) (item_key c j)) r && ascending c r end.
Lemma ascending_sorted c ts : ascending c ts = true -> StronglySorted (fun i j => bltb (item_key c i) (item_key c j) = true) ts.
Proof.
  induction ts as [|i ts IH]; intros H; [constructor|]. cbn [ascending] in H. apply andb_true_iff in H as [A B]. constructor; [exact (IH B)|].
  rewrite forallb_forall in A. apply Forall_forall. exact A.
Qed.
Lemma left_is c xs ts : ascending c ts = true -> (forall i, In i ts <-> In i (survivors c xs)) -> left_by c xs ts.
Proof. intros A B. split; [exact (ascending_sorted c ts A)|]. intros i. rewrite B. apply survivors_kept. Qed.
Definition smallb (c : codec) (b : blob) : bool := match code c b with Some f => (blen (f_data f) <? 2 ^ 64) && (f_type f <? 256) | None => true end.
Lemma smallb_true c b : smallb c b = true -> small c b.
Proof. unfold smallb. intros H f E. rewrite E in H. apply andb_true_iff in H as [A B]. apply N.ltb_lt in A, B. split; assumption. Qed.
Definition small_changeb (c : codec) (x : change) : bool :=
  match x with Put i => smallb c (pi_sub i) && smallb c (pi_pred i) && smallb c (pi_obj i) | Del i => smallb c (di_sub i) && smallb c (di_pred i) end.
Lemma small_changes c xs : forallb (small_changeb c) xs = true -> Forall (small_change c) xs.
Proof.
  intros H. rewrite forallb_forall in H. apply Forall_forall. intros x Hx. specialize (H x Hx). destruct x as [i|i]; cbn [small_changeb small_change] in *.
  - apply andb_true_iff in H as [H C]. apply andb_true_iff in H as [A B]. apply smallb_true in A, B, C. auto.
  - apply andb_true_iff in H as [A B]. apply smallb_true in A, B. auto.
Qed.
Definition readable (c : codec) (b : blob) : bool :=
  match code c b with Some f => match c_dec c (f_type f) (f_data f) with Ok (Some _) => true | _ => false end | None => false end.
Lemma readable_back c b : readable c b = true -> exists r, back c b r.
Proof.
  unfold readable. destruct (code c b) as [f|] eqn:E; [|discriminate]. destruct (c_dec c (f_type f) (f_data f)) as [[d|]| |] eqn:D; try discriminate.
  intros _. eexists. exists f, d. split; [exact E|]. split; [exact D|reflexivity].
Qed.
Lemma readables c ts : forallb (fun i => readable c (pi_sub i) && readable c (pi_pred i) && readable c (pi_obj i)) ts = true -> Forall (fun i => exists r, back3 c i r) ts.
Proof.
  intros H. rewrite forallb_forall in H. apply Forall_forall. intros i Hi. specialize (H i Hi). apply andb_true_iff in H as [H C]. apply andb_true_iff in H as [A B].
  apply readable_back in A as [a A]. apply readable_back in B as [b B]. apply readable_back in C as [d C]. exists (mkRec a b d). split; [exact A|]. split; [exact B|exact C].
Qed.

(* ---- the cells ---- *)
Definition cc : codec := session exact_libm u_d.
Definition txt (s : string) : blob := mkBlob false (bstr s) T_BYTE.
Definition temp (x : spec_float) : blob := mkBlob false (store_fp DBL x) T_DOUBLE.
Definition put3 (s p o : blob) : put_item := mkPut s 0 p 0 o.
Definition by_temp (x : spec_float) (name : string) : put_item := put3 (txt "Temp") (temp x) (txt name).
Definition by_name (x : spec_float) (name : string) : put_item := put3 (txt "Temp") (txt name) (temp x).
Definition of_cell (x : spec_float) (name : string) : put_item := put3 (txt name) (txt "Temp") (temp x).
Definition cells : list body :=
  [ QPut [of_cell third "Cell-(0, 0, 0)"; by_name third "Cell-(0, 0, 0)"; by_temp third "Cell-(0, 0, 0)"];
    QPut [of_cell m1e8 "Cell-(0, 0, 1)"; by_name m1e8 "Cell-(0, 0, 1)"; by_temp m1e8 "Cell-(0, 0, 1)"];
    QPut [of_cell five "Cell-(0, 1, 0)"; by_name five "Cell-(0, 1, 0)"; by_temp five "Cell-(0, 1, 0)"];
    QPut [by_temp third "Cell-(0, 1, 1)"] ].
Definition cells_left : list put_item :=
  [ of_cell third "Cell-(0, 0, 0)"; of_cell m1e8 "Cell-(0, 0, 1)"; of_cell five "Cell-(0, 1, 0)";
    by_temp m1e8 "Cell-(0, 0, 1)"; by_temp third "Cell-(0, 1, 1)"; by_temp five "Cell-(0, 1, 0)";
    by_name third "Cell-(0, 0, 0)"; by_name m1e8 "Cell-(0, 0, 1)"; by_name five "Cell-(0, 1, 0)" ].
Lemma cells_small : Forall (small_change cc) (flat_map changes cells).
Proof. apply small_changes. vm_compute. reflexivity. Qed.
Lemma cells_run k : exists d rs, ds_run (opened k cc) (map CallReq cells) = Ok (d, rs).
Proof.
  assert (E : match ds_run (opened k cc) (map CallReq cells) with Ok _ => true | _ => false end = true) by (destruct k; vm_compute; reflexivity).
  destruct (ds_run (opened k cc) (map CallReq cells)) as [[d rs]| |]; try discriminate E. exists d, rs. reflexivity.
Qed.
Lemma cells_kept : left_by cc (flat_map changes cells) cells_left.
Proof.
  apply left_is; [vm_compute; reflexivity|].
  assert (E : survivors cc (flat_map changes cells) = [of_cell third "Cell-(0, 0, 0)"; by_name third "Cell-(0, 0, 0)";
    of_cell m1e8 "Cell-(0, 0, 1)"; by_name m1e8 "Cell-(0, 0, 1)"; by_temp m1e8 "Cell-(0, 0, 1)"; of_cell five "Cell-(0, 1, 0)"; by_name five "Cell-(0, 1, 0)"; by_temp five "Cell-(0, 1, 0)";
    by_temp third "Cell-(0, 1, 1)"]) by (vm_compute; reflexivity).
  intros i. rewrite E. unfold cells_left. cbn [In]. tauto.
Qed.
Lemma cells_readable : Forall (fun i => exists r, back3 cc i r) cells_left.
Proof. apply readables. vm_compute. reflexivity. Qed.
Lemma temp_reading x name : valid DBL x -> finite_fp x -> reading cc (txt "Temp") T_DOUBLE (by_temp x name) (val x).
Proof.
  intros V F. split; [reflexivity|]. split; [vm_compute; discriminate|]. split; [reflexivity|]. split; [reflexivity|]. right. exists DBL, x.
  split; [right; split; reflexivity|]. split; [exact V|]. split; [exact F|]. split; reflexivity.
Qed.
Lemma above_if c s b i : starts_with (coded_data c s) (item_key c i) = true -> aboveb (coded_data c s) b (item_key c i) = true -> above c s b i.
Proof.
  intros P A. apply starts_with_app in P as (r & E). rewrite E in A. destruct r as [|x r].
  - unfold aboveb in A. rewrite app_nil_r, skipn_all in A. discriminate A.
  - rewrite aboveb_app in A. exists x, r. split; [exact E|apply N.ltb_lt, A].
Qed.
Lemma cells_rows i : In i cells_left -> starts_with (coded_data cc (txt "Temp")) (item_key cc i) = true ->
  (exists v, reading cc (txt "Temp") T_DOUBLE i v) \/ above cc (txt "Temp") (ne_pos (cb_num u_d)) i.
Proof.
  unfold cells_left. cbn [In]. intros H P.
  destruct H as [<-|[<-|[<-|[<-|[<-|[<-|[<-|[<-|[<-|[]]]]]]]]]].
  1-3: (exfalso; revert P; vm_compute; congruence).
  1: (left; exists (val m1e8); apply temp_reading; [vm_compute; reflexivity|exact Logic.I]).
  1: (left; exists (val third); apply temp_reading; [vm_compute; reflexivity|exact Logic.I]).
  1: (left; exists (val five); apply temp_reading; [vm_compute; reflexivity|exact Logic.I]).
  all: right; apply above_if; [exact P|vm_compute; reflexivity].
Qed.

Definition answer (k : backend) (h : list body) (q : getop_item) : option gotop_item :=
  match ds_run (opened k cc) (map CallReq h) with
  | Ok (d, _) => match operate d (QGetOp [q]) with Ok (_, Some (RGetOp [g])) => Some g | _ => None end
  | _ => None
  end.
Lemma answer_asks k h q g : answer k h q = Some g -> exists d rs, ds_run (opened k cc) (map CallReq h) = Ok (d, rs) /\ asks d q g.
Proof.
  unfold answer. destruct (ds_run (opened k cc) (map CallReq h)) as [[d rs]| |]; try discriminate. intros H. exists d, rs. split; [reflexivity|].
  unfold asks. unfold operate in *. destruct (negb (d_open d)); [discriminate H|].
  destruct (bgetop (d_kind d) (d_codec d) (d_rows d) [q]) as [r| |]; try discriminate H. cbn [obind] in *. destruct r as [|g' [|]]; try discriminate H. injection H as ->. reflexivity.
Qed.
Lemma cells_answer k n : (n = 4)%N ->
  answer k cells (ask_lowest (txt "Temp") T_DOUBLE T_BYTE n) =
  Some (mkGotOp ST_OK [mkRec (txt "Temp") (temp m01) (txt "Cell-(0, 0, 1)"); mkRec (txt "Temp") (temp third') (txt "Cell-(0, 1, 1)");
                       mkRec (txt "Temp") (temp five) (txt "Cell-(0, 1, 0)"); mkRec (txt "Temp") (txt "Cell-(0, 0, 0)") (temp third')]).
Proof. intros ->. destruct k; vm_compute; reflexivity. Qed.

(* another subject that starts like it *)
Definition two_subjects : list body :=
  [ QPut [by_temp third "Cell-(0, 0, 0)"; put3 (txt "Temp2") (txt "x") (txt "y"); by_temp m1e8 "Cell-(0, 0, 1)"] ].
Lemma between_answer k :
  answer k two_subjects (ask_lowest (txt "Temp") T_DOUBLE T_BYTE 2) =
  Some (mkGotOp ST_OK [mkRec (txt "Temp") (temp m01) (txt "Cell-(0, 0, 1)"); mkRec (txt "Temp2") (txt "x") (txt "y")]).
Proof. destruct k; vm_compute; reflexivity. Qed.
Lemma highest_answer :
  answer LevelDB cells (ask_highest (txt "Temp") T_DOUBLE T_BYTE 2) = Some (mkGotOp ST_OK []).
Proof. vm_compute. reflexivity. Qed.
Lemma sym_default : num_sym u_d.
Proof. split; reflexivity. Qed.
