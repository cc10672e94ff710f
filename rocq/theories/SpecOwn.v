(* Memory of messages: everything in use belongs to exactly one message *)
From Verif Require Import ModelBytes ModelOwn.
From Coq Require Export Permutation.
Local Open Scope nat_scope.

Definition every_member : list member := [Reqs; Subjects; Predicates; OrigS; OrigP; Objects; Types; NumRecs; Ops; Names; Statuses; Hists].
Definition pointer (p : option N) : list N := match p with Some b => [b] | None => [] end.
(* what a message points to: its arrays, and those of its records *)
Definition record_owns (r : record) : list N := pointer (r_s r) ++ pointer (r_p r) ++ pointer (r_o r).
Definition owns (m : message) : list N := flat_map (fun a => pointer (g_at m a)) every_member ++ flat_map record_owns (g_recs m).
Definition owned (l : list (option message)) : list N := flat_map (fun x => match x with Some m => owns m | None => [] end) l.
Definition in_use (h : heap) : list N := map fst (h_live h).
(* each block in use is pointed to by one message, in one place; no message points to anything else *)
Definition accounted (w : world) : Prop := NoDup (in_use (w_heap w)) /\ Permutation (owned (w_all w)) (in_use (w_heap w)).

(* calls that stay within the room of messages: messages exist, add and steal find room, stolen items exist and belong to a message of
   the same kind, and the count is only forgotten when no record is left *)
Definition exists_at (w : world) (i : nat) (P : message -> Prop) : Prop := exists m, nth_error (w_all w) i = Some (Some m) /\ P m.
Definition has_room (m : message) : Prop := g_count m < g_max m.
Definition careful (w : world) (a : action) : Prop :=
  match a with
  | ANew _ _ => True
  | AAlloc i _ | ADestroy i => exists_at w i (fun _ => True)
  | AAdd i _ _ => exists_at w i (fun m => g_kind m <> Response GetOp /\ has_room m)
  | AAddRecord i room num _ => exists_at w i (fun m => g_kind m = Response GetOp /\ has_room m) /\ num <= room
  | ASteal i j n _ _ => i <> j /\ exists o, exists_at w i (fun m => g_kind m = Response o /\ has_room m) /\ exists_at w j (fun m => g_kind m = Response o /\ n < g_count m)
  | ATimes i j _ => i <> j /\ exists_at w i (fun _ => True) /\ exists_at w j (fun _ => True)
  | AZero i => exists_at w i (fun m => flat_map record_owns (g_recs m) = [])
  end.
Fixpoint all_careful (w : world) (l : list action) : Prop :=
  match l with [] => True | a :: l' => careful w a /\ forall w', act w a = Ok w' -> all_careful w' l' end.
(* a datastore makes room for at least the records that it finds *)
Definition item_fits (x : item) : Prop := i_num x <= i_room x.
