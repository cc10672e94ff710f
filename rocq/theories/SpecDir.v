(* Creating the directories of a path: what is expected *)
From Verif Require Import ModelBytes ModelDir.

(* names lead from a node to a node, through directories *)
Inductive leads (f : fs) : place -> list bytes -> place -> Prop :=
| leads_nil d : leads f d [] d
| leads_stay d c cs d' : f d = Some Dir -> c = [] \/ c = bstr "." -> leads f d cs d' -> leads f d (c :: cs) d'
| leads_up d cs d' : f d = Some Dir -> leads f (tl d) cs d' -> leads f d (bstr ".." :: cs) d'
| leads_in d c cs d' : f d = Some Dir -> c <> [] -> c <> bstr "." -> c <> bstr ".." -> f (c :: d) <> None -> leads f (c :: d) cs d' -> leads f d (c :: cs) d'.
(* there is a node at this path *)
Definition exists_at (f : fs) (cwd : place) (b : bytes) (d : place) : Prop := leads f (start cwd b) (strip (split_on b)) d /\ f d <> None.

(* every node is in a directory *)
Definition tree (f : fs) : Prop := f [] = Some Dir /\ forall c d, f (c :: d) <> None -> f d = Some Dir.
(* nodes stay *)
Definition grows (f f' : fs) : Prop := forall p n, f p = Some n -> f' p = Some n.
Definition quiet : nat -> fs -> fs := fun _ f => f.
(* other processes only add nodes, and only directories *)
Definition friendly (others : nat -> fs -> fs) : Prop :=
  forall k f, tree f -> tree (others k f) /\ grows f (others k f) /\ forall p, others k f p = Some File -> f p = Some File.
(* an error is neither success nor "exists" *)
Definition errors (r : rights) : Prop := forall p e, may_add r p = Some e -> e <> 0%Z /\ e <> EEXIST.
Definition all_rights : rights := mkRights (fun _ => true) (fun _ => None).
(* the nodes on the way, whether they exist or not *)
Definition next (d : place) (c : bytes) : place :=
  if bytes_eqb c [] || bytes_eqb c (bstr ".") then d else if bytes_eqb c (bstr "..") then tl d else c :: d.
Fixpoint along (d : place) (cs : list bytes) : list place := match cs with [] => [] | c :: cs' => next d c :: along (next d c) cs' end.
(* the new nodes are directories among ps *)
Definition adds (f f' : fs) (ps : list place) : Prop := forall p, f' p = f p \/ (f p = None /\ f' p = Some Dir /\ In p ps).
(* up to the first NUL *)
Fixpoint cut (b : bytes) : bytes := match b with [] => [] | x :: b' => if ascii_dec x NUL then [] else x :: cut b' end.
