(* Ownership of memory, independent of how handles change hands *)
From Verif Require Import ModelBytes ModelBlob.

(* handle i exists and owns block b *)
Definition owns (s : bstate) (i b : nat) : Prop :=
  exists len, nth_error (bs_handles s) i = Some (Some (mkHandle (PBlock b) len true)).
Definition is_live (s : bstate) (b : nat) : Prop := In b (bs_live s).
(* allocated at some time *)
Definition allocated (s : bstate) (b : nat) : Prop := (b < bs_next s)%nat.
Definition all_destroyed (s : bstate) : Prop := forall i h, nth_error (bs_handles s) i <> Some (Some h).

(* operations that leave ownership alone (clear and set_clean do not), and that do not overwrite an owning
   handle by unpacking into it *)
Definition decent (s : bstate) (o : bop) : Prop :=
  match o with
  | BClear _ | BSetClean _ _ => False
  | BUnpack i _ _ _ | BUnpackRef i _ _ => forall b, ~ owns s i b
  | _ => True
  end.
Fixpoint decent_program (s : bstate) (l : list bop) : Prop :=
  match l with [] => True | o :: l' => decent s o /\ forall s', bstep s o = Ok s' -> decent_program s' l' end.

(* handles an operation changes *)
Definition acts_on (o : bop) (i : nat) : Prop :=
  match o with
  | BRef _ _ | BOwn _ | BCopy _ | BCopyCtor _ => False
  | BMoveCtor j => i = j
  | BAssign k j => i = k
  | BMoveAssign k j => i = k \/ i = j
  | BDealloc k | BDestroy k | BUnpack k _ _ _ | BUnpackRef k _ _ | BClear k | BSetClean k _ => i = k
  end.

(* creating, copying, moving, assigning, releasing and destroying *)
Definition handle_op (o : bop) : Prop :=
  match o with BUnpack _ _ _ _ | BUnpackRef _ _ _ | BClear _ | BSetClean _ _ => False | _ => True end.
