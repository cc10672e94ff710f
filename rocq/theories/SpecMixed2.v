(* the commands of the command line interface as moves of one client *)
From Verif Require Import ModelBytes ModelKey ModelWire ModelHist ModelMsg ModelStore ModelGetOp ModelDs ModelElen ModelRoute ModelClient SpecClient SpecCluster SpecScan SpecMixed ModelCli.

Definition move_of (a : N * N * N) (c : cmd) : move :=
  match call_of a c with
  | Some x => Say x
  | None => Send (match c with MFlushPuts => Some Puts | MFlushGets => Some Gets | MFlushDels => Some Dels | _ => None end)
  end.
Fixpoint moves_of (at_ : addresses) (i : nat) (l : list cmd) : list (Z * move) :=
  match l with [] => [] | c :: l' => (0%Z, move_of (at_ i) c) :: moves_of at_ (S i) l' end.
