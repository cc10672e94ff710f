(* Creating the directories of a path: mkdir_p, src/utils/mkdir_p.cpp:8-39, on a file system that other processes use too.
   Used for the prefix of the datastores of a rank, src/datastore/datastores.cpp:58,80 (its result is not looked at there).
   Simplifications: no symbolic links; nodes are not removed; mkdir(2) fails with the errors below. *)
From Verif Require Import ModelBytes.
Local Open Scope nat_scope.

(* ---- file system ---- *)
Inductive kind := Dir | File.
(* names from the inside out: /a/b is [b; a] *)
Definition place := list bytes.
Definition fs := place -> option kind.
Definition place_eqb (a b : place) : bool := if list_eq_dec (list_eq_dec ascii_dec) a b then true else false.
Definition make (f : fs) (p : place) : fs := fun q => if place_eqb q p then Some Dir else f q.

Definition ENOENT : Z := 2.
Definition EACCES : Z := 13.
Definition EEXIST : Z := 17.
Definition ENOTDIR : Z := 20.

Definition slash : ascii := "/"%char.
Definition bytes_eqb (a b : bytes) : bool := if list_eq_dec ascii_dec a b then true else false.
Fixpoint split_on (b : bytes) : list bytes :=
  match b with
  | [] => [[]]
  | x :: b' => if ascii_dec x slash then [] :: split_on b' else match split_on b' with [] => [[x]] | c :: cs => (x :: c) :: cs end
  end.
(* names between slashes, without those after the last name *)
Fixpoint strip (cs : list bytes) : list bytes :=
  match cs with [] => [] | c :: cs' => match strip cs' with [] => match c with [] => [] | _ => [c] end | s => c :: s end end.
Definition dot : bytes := bstr ".".
Definition dotdot : bytes := bstr "..".

(* what a process may do: look into a directory; add a node (None) or not (the error) *)
Record rights := mkRights { may_search : place -> bool; may_add : place -> option Z }.

(* from a node along names *)
Fixpoint walk (f : fs) (r : rights) (d : place) (cs : list bytes) : place + Z :=
  match cs with
  | [] => inl d
  | c :: cs' =>
      match f d with
      | Some Dir =>
          if may_search r d then
            if bytes_eqb c [] || bytes_eqb c dot then walk f r d cs'
            else if bytes_eqb c dotdot then walk f r (tl d) cs'
            else match f (c :: d) with None => inr ENOENT | Some _ => walk f r (c :: d) cs' end
          else inr EACCES
      | Some File => inr ENOTDIR
      | None => inr ENOENT
      end
  end.
Definition start (cwd : place) (b : bytes) : place := match b with x :: _ => if ascii_dec x slash then [] else cwd | [] => cwd end.
(* mkdir(2) of a C string: 0 or the error *)
Definition mkdir (f : fs) (r : rights) (cwd : place) (b : bytes) : fs * Z :=
  match b with
  | [] => (f, ENOENT)
  | _ =>
      match rev (strip (split_on b)) with
      | [] => (f, EEXIST)
      | c :: front =>
          match walk f r (start cwd b) (rev front ++ [dot]) with
          | inr e => (f, e)
          | inl d => if bytes_eqb c dot || bytes_eqb c dotdot then (f, EEXIST)
                     else match f (c :: d) with
                          | Some _ => (f, EEXIST)
                          | None => match may_add r (c :: d) with Some e => (f, e) | None => (make f (c :: d), 0%Z) end
                          end
          end
      end
  end.

(* ---- the function ---- *)
Definition NUL : ascii := "000"%char.
(* the C string at the start of an array; none: undefined behaviour *)
Fixpoint c_string (a : list ascii) : option bytes :=
  match a with [] => None | x :: a' => if ascii_dec x NUL then Some [] else option_map (cons x) (c_string a') end.
(* copy[i] = x *)
Definition put_at (a : list ascii) (i : nat) (x : ascii) : outcome (list ascii) :=
  if i <? length a then Ok (firstn i a ++ x :: skipn (S i) a) else UB.
Definition get_at (a : list ascii) (i : nat) : outcome ascii := match nth_error a i with Some x => Ok x | None => UB end.
(* lines 15-18; fuel: the loop ends, see ProofDir.scan_end *)
Fixpoint scan (fuel : nat) (a : list ascii) (n : nat) (sep : ascii) (i : nat) : outcome nat :=
  match fuel with
  | O => Ok i
  | S fuel' => if i <? n then do x <- get_at a i; if ascii_dec x sep then Ok i else scan fuel' a n sep (S i) else Ok i
  end.
(* lines 14-34; others k: what other processes do before the k-th call of mkdir *)
Fixpoint loop (fuel : nat) (others : nat -> fs -> fs) (r : rights) (cwd : place) (n : nat) (sep : ascii) (k : nat) (a : list ascii) (i : nat) (f : fs)
  : outcome (fs * Z) :=
  match fuel with
  | O => Ok (f, 0%Z)
  | S fuel' =>
      if i <? n then
        do i <- scan n a n sep i;
        do a <- put_at a i NUL;
        match c_string a with
        | None => UB
        | Some b =>
            let '(f, e) := mkdir (others k f) r cwd b in
            if ((e =? 0) || (e =? EEXIST))%Z then do a <- put_at a i sep; loop fuel' others r cwd n sep (S k) a (S i) f
            else Ok (f, e)
        end
      else Ok (f, 0%Z)
  end.
Definition mkdir_p (others : nat -> fs -> fs) (r : rights) (cwd : place) (path : bytes) (sep : ascii) (f : fs) : outcome (fs * Z) :=
  loop (S (length path)) others r cwd (length path) sep 0 (path ++ [NUL]) 1 f.
