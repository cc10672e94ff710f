(* What registering transformations should do: the functions registered last for a type are used,
   types without registration use the built-in ones *)
From Verif Require Import ModelBytes ModelKey ModelElen ModelHist ModelMsg ModelStore ModelTransform.
Local Open Scope N_scope.

Fixpoint regs_of (t : N) (l : list reg) : list (option efun * option dfun) :=
  match l with
  | [] => []
  | RFun t' e d :: r => if t =? t' then (e, d) :: regs_of t r else regs_of t r
  | RNum _ :: r => regs_of t r
  end.
Fixpoint nums_of (l : list reg) : list numeric :=
  match l with [] => [] | RNum n :: r => n :: nums_of r | RFun _ _ _ :: r => nums_of r end.

Definition last_of {A} (l : list A) (d : A) : A := last l d.

(* a null function copies *)
Definition run_enc (e : option efun) : efun := match e with Some f => f | None => copy_enc end.
Definition run_dec (d : option dfun) : dfun := match d with Some f => f | None => fun x => Ok (Some x) end.

(* the types hxhim knows *)
Definition known_types : list N := [T_INT32; T_INT64; T_UINT32; T_UINT64; T_FLOAT; T_DOUBLE; T_BYTE; T_POINTER].
Definition builtin (f : float_codec) (n : numeric) : codec :=
  default_codec (ne_neg n) (ne_pos n)
    (fun size d => fl_enc f (ne_neg n) (ne_pos n) (if size =? 4 then ne_float n else ne_double n) size d)
    (fun size d => fl_dec f (ne_neg n) (ne_pos n) size d).

(* codecs agree on a type *)
Definition uses (c : codec) (t : N) (e : efun) (d : dfun) : Prop :=
  (forall null x, c_enc c t null x = e null x) /\ (forall x, c_dec c t x = d x).

(* the property: the codec uses, for every type, what was registered last *)
Definition registered (c : codec) (l : list reg) : Prop :=
  forall t e d, last_of (map Some (regs_of t l)) None = Some (e, d) -> uses c t (run_enc e) (run_dec d).
