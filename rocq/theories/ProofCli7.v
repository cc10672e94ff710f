(* What the flushes of a script count for; infinities *)
From Verif Require Import ModelBytes ModelKey ModelWire ModelHist ModelMsg ModelStore ModelGetOp ModelDs ModelElen ModelRoute SpecStore ModelClient ModelFloat SpecFp ModelCli ProofBytes ProofStore.
Local Open Scope N_scope.

Definition flushing (c : cmd) : Prop := match c with MFlushPuts | MFlushGets | MFlushDels | MFlush => True | _ => False end.
Lemma run_flushes e at_ : forall l i s cl s' cl' rs, run_commands e at_ i s cl l = Ok (s', cl', rs) ->
  Forall2 (fun c r => (flushing c -> snd r = true) /\ (~ flushing c -> fst r = [])) l rs.
Proof.
  induction l as [|c l IH]; intros i s cl s' cl' rs H; cbn [run_commands] in H.
  - apply Ok_inj in H. injection H as _ _ <-. constructor.
  - obind H ar Ea. destruct ar as [a r]. obind H br Eb. destruct br as [[s2 cl2] rs2]. apply Ok_inj in H. injection H as -> -> <-.
    constructor; [|exact (IH _ _ _ _ _ _ Eb)].
    destruct (at_ i) as [[x y] z]. destruct c; cbn [call_of flushing] in *; obind Ea ao Eo; destruct ao as [a' oo]; apply Ok_inj in Ea; injection Ea as _ <-; cbn [fst snd];
      (split; [intros X; try contradiction X; reflexivity|intros X; try reflexivity; destruct (X Logic.I)]).
Qed.

Lemma infinite_prints b : forall t F, fp_type t F ->
  print_by_type false (store_fp F (S754_infinity b)) t = Ok (if b then bstr "-inf" else bstr "inf") /\
  forall r, rd_data t ((if b then bstr "-inf" else bstr "inf") ++ r) = None.
Proof. intros t F [[-> ->]|[-> ->]]; destruct b; (split; [vm_compute; reflexivity|intros r; reflexivity]). Qed.
