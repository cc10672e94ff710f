(* The calls that the operations of SpecLog stand for, and calls after which the log is closed *)
From Verif Require Import ModelBytes ModelLog SpecLog.

Definition run_op (fs : facs) (o : log_op) : facs :=
  match o with
  | OName i a l => namefac fs i a l
  | OMore a l => fst (allocfac fs a l)
  | OMask i p => setlogmask fs i p
  | OText lead l trail => setmasks fs (lead ++ entries_text l ++ trail)
  end.
(* every Open was followed by a Close *)
Definition quiet (pre : list hx_act) : Prop := forall a s lv b, pre = a ++ HOpen s lv :: b -> exists s' c d, b = c ++ HClose s' :: d.
