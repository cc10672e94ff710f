(* C68: mkdir_p *)
From Verif Require Import ModelBytes ModelDir SpecDir ProofDir2 ProofDir3 ProofDir4.
Local Open Scope nat_scope.

(* whatever the path, the rights and what other processes add meanwhile: it does nothing undefined, nodes stay, and if it reports success there is
   a node at the path, which is a directory unless a file was there *)
(* missing: paths shorter than two characters, and that the node is not a file, both false: see below *)
Theorem C68_exists_partial others r cwd path f : friendly others -> errors r -> tree f ->
  exists f' e, mkdir_p others r cwd path slash f = Ok (f', e) /\ tree f' /\ grows f f' /\
    (2 <= length path -> e = 0%Z -> exists d, exists_at f' cwd (cut path) d /\ (f' d = Some Dir \/ f d = Some File)).
Proof.
  intros HO HR T. destruct (mkdir_p_done others r cwd path f (fun k g TG => let '(conj A (conj B _)) := HO k g TG in conj A B) HR T) as (f' & e & E & T' & G & X).
  exists f', e. split; [exact E|]. split; [exact T'|]. split; [exact G|]. intros L E0. destruct (X L E0) as (d & D). exists d. split; [exact D|].
  destruct (f' d) as [[]|] eqn:K; [left; reflexivity| |destruct (proj2 D K)]. right.
  eapply (keeps_files others r cwd path slash f); [|exact T|exact HR|exact E|exact K]. intros k g TG. destruct (HO k g TG) as (A & _ & B). split; assumption.
Qed.
Print Assumptions C68_exists_partial.
(* it succeeds, and the whole path is directories, if no file is in the way *)
Theorem C68_succeeds others cwd path f : friendly others -> ~ In NUL path -> tree f -> f cwd = Some Dir ->
  Forall (fun p => f p <> Some File) (along (start cwd path) (split_on path)) ->
  exists f', mkdir_p others all_rights cwd path slash f = Ok (f', 0%Z) /\
    (2 <= length path -> Forall (fun p => f' p = Some Dir) (along (start cwd path) (split_on path))).
Proof. intros HO NN. exact (mkdir_p_enough others cwd path HO NN f). Qed.
Print Assumptions C68_succeeds.
(* nothing but the directories of the path is added *)
Theorem C68_adds r cwd path f f' e : ~ In NUL path -> mkdir_p quiet r cwd path slash f = Ok (f', e) -> adds f f' (along (start cwd path) (split_on path)).
Proof. intros NN. exact (mkdir_p_adds r cwd path NN f f' e). Qed.
Print Assumptions C68_adds.

(* ---- an example: /home exists; another process makes /home/a before the second call ---- *)
Definition bs (s : string) : bytes := bstr s.
Definition f0 : fs := fun p => if place_eqb p [] || place_eqb p [bs "home"] then Some Dir else if place_eqb p [bs "f"; bs "home"] then Some File else None.
Lemma f0_tree : tree f0.
Proof.
  split; [reflexivity|]. intros c d N. unfold f0 in N. destruct (ProofDir.peqb_spec (c :: d) []) as [E|_]; [discriminate E|]. cbn [orb] in N.
  destruct (ProofDir.peqb_spec (c :: d) [bs "home"]) as [E|_]; [injection E as _ ->; reflexivity|].
  destruct (ProofDir.peqb_spec (c :: d) [bs "f"; bs "home"]) as [E|_]; [injection E as _ ->; reflexivity|destruct (N eq_refl)].
Qed.
Definition busy : nat -> fs -> fs := fun k f => if Nat.eqb k 1 then match f [bs "home"], f [bs "a"; bs "home"] with Some Dir, None => make f [bs "a"; bs "home"] | _, _ => f end else f.
Lemma busy_friendly : friendly busy.
Proof.
  intros k f T. unfold busy. assert (S : tree f /\ grows f f /\ forall p, f p = Some File -> f p = Some File) by (split; [exact T|]; split; [intros p n E; exact E|auto]).
  destruct (Nat.eqb k 1); [|exact S]. destruct (f [bs "home"]) as [[]|] eqn:H; [|exact S|exact S]. destruct (f [bs "a"; bs "home"]) eqn:A; [exact S|].
  split; [apply ProofDir.make_tree; assumption|]. split; [apply ProofDir.make_grows; exact A|]. intros p E. unfold make in E. destruct (place_eqb p _); [discriminate E|exact E].
Qed.
Example C68_example : friendly busy /\ tree f0 /\ f0 [bs "home"] = Some Dir /\
  Forall (fun p => f0 p <> Some File) (along (start [bs "home"] (bs "a//../b/c/")) (split_on (bs "a//../b/c/"))) /\
  match mkdir_p busy all_rights [bs "home"] (bs "a//../b/c/") slash f0 with
  | Ok (f, e) => (f [bs "a"; bs "home"], f [bs "b"; bs "home"], f [bs "c"; bs "b"; bs "home"], f [bs "d"], e) = (Some Dir, Some Dir, Some Dir, None, 0%Z)
  | _ => False
  end.
Proof.
  split; [exact busy_friendly|]. split; [exact f0_tree|]. split; [reflexivity|]. split; [|vm_compute; reflexivity].
  apply Forall_forall. intros p J. vm_compute in J. repeat destruct J as [<-|J]; try (vm_compute; discriminate). destruct J.
Qed.
(* a file in the way: an error *)
Example C68_file_example : match mkdir_p quiet all_rights [] (bs "/home/f/x") slash f0 with Ok (_, e) => e = ENOTDIR | _ => False end.
Proof. vm_compute. reflexivity. Qed.

(* a path of one character is not created *)
Theorem C68_short_refuted : ~ forall cwd path f, tree f -> f cwd = Some Dir -> path <> [] -> ~ In NUL path ->
  exists f', mkdir_p quiet all_rights cwd path slash f = Ok (f', 0%Z) /\ exists d, exists_at f' cwd path d.
Proof.
  intros H. destruct (H [bs "home"] (bs "d") f0 f0_tree eq_refl) as (f' & E & d & L & N); [discriminate|intros [J|[]]; discriminate J|].
  vm_compute in E. injection E as <-. vm_compute in L. inversion L as [|? ? ? ? _ [C|C]|? ? ? _ L' C|? ? ? ? _ _ _ _ M L']; subst; [discriminate C|discriminate C|]. apply M. reflexivity.
Qed.
Print Assumptions C68_short_refuted.
(* success although the path is a file *)
Theorem C68_file_refuted : ~ forall cwd path f f', tree f -> f cwd = Some Dir -> 2 <= length path -> ~ In NUL path ->
  mkdir_p quiet all_rights cwd path slash f = Ok (f', 0%Z) -> forall d, exists_at f' cwd path d -> f' d = Some Dir.
Proof.
  intros H. specialize (H [] (bs "/home/f") f0 f0 f0_tree eq_refl). specialize (H ltac:(vm_compute; lia)).
  assert (N : ~ In NUL (bs "/home/f")) by (intros J; vm_compute in J; repeat destruct J as [J|J]; try discriminate J; destruct J).
  assert (E : mkdir_p quiet all_rights [] (bs "/home/f") slash f0 = Ok (f0, 0%Z)) by reflexivity.
  specialize (H N E [bs "f"; bs "home"]).
  assert (X : f0 [bs "f"; bs "home"] = Some Dir); [|discriminate X].
  apply H. split; [|discriminate]. change (leads f0 [] [[]; bs "home"; bs "f"] [bs "f"; bs "home"]).
  apply leads_stay; [reflexivity|left; reflexivity|]. apply leads_in; [reflexivity|discriminate|discriminate|discriminate|discriminate|].
  apply leads_in; [reflexivity|discriminate|discriminate|discriminate|discriminate|]. constructor.
Qed.
Print Assumptions C68_file_refuted.
