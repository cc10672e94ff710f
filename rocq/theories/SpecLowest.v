(* LOWEST of numbers: the rows of a subject whose predicates are numbers of one type, by value *)
From Verif Require Import ModelBytes ModelKey ModelElen ModelHist ModelMsg ModelStore ModelGetOp ModelDs ModelFloat SpecElen SpecStore SpecGetOp SpecFp SpecLossy.
From Coq Require Import Reals.
Local Open Scope R_scope.

(* d is the bytes of the number v of type t, and not the least integer of the type, which cannot be encoded *)
Definition number_of (t : N) (d : bytes) (v : R) : Prop :=
  (exists T z, int_of t = Some T /\ encodable T z /\ d = store T z /\ v = IZR z) \/
  (exists F x, fp_type t F /\ valid F x /\ finite_fp x /\ d = store_fp F x /\ v = val x).
(* i is a row of the subject s, and its predicate is the number v of type t *)
Definition reading (c : codec) (s : blob) (t : N) (i : put_item) (v : R) : Prop :=
  code c (pi_sub i) = code c s /\ code c (pi_obj i) <> None /\
  b_null (pi_pred i) = false /\ b_type (pi_pred i) = t /\ number_of t (b_data (pi_pred i)) v.
(* the key of i is that of s followed by a byte above b: no encoded number of s, but a row that LOWEST finds after them *)
Definition above (c : codec) (s : blob) (b : byte) (i : put_item) : Prop :=
  exists x r, item_key c i = coded_data c s ++ x :: r /\ (N_of_ascii b < N_of_ascii x)%N.

(* us are n readings, or all that there are, lowest first *)
Definition lowest (c : codec) (s : blob) (t : N) (n : N) (ts us : list put_item) : Prop :=
  NoDup us /\ incl us ts /\ Forall (fun i => exists v, reading c s t i v) us /\
  StronglySorted (fun i j => forall v w, reading c s t i v -> reading c s t j w -> v <= w) us /\
  (N.of_nat (List.length us) <= n)%N /\
  (forall j w, In j ts -> reading c s t j w -> ~ In j us ->
     N.of_nat (List.length us) = n /\ forall i v, In i us -> reading c s t i v -> v <= w).
(* what a GETOP for the n lowest numbers asks *)
Definition ask_lowest (s : blob) (t : N) (ot : N) (n : N) : getop_item := mkGetOp GETOP_LOWEST s (mkBlob true [] t) ot n.
Definition ask_highest (s : blob) (t : N) (ot : N) (n : N) : getop_item := mkGetOp GETOP_HIGHEST s (mkBlob true [] t) ot n.
