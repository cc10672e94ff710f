(* Creating the directories of a path: proofs *)
From Verif Require Import ModelBytes ProofBytes ModelDir SpecDir.
Local Open Scope nat_scope.

Lemma beqb_spec a b : reflect (a = b) (bytes_eqb a b).
Proof. unfold bytes_eqb. destruct (list_eq_dec ascii_dec a b); constructor; assumption. Qed.
Lemma peqb_spec a b : reflect (a = b) (place_eqb a b).
Proof. unfold place_eqb. destruct (list_eq_dec (list_eq_dec ascii_dec) a b); constructor; assumption. Qed.

(* ---- names ---- *)
Lemma split_cons b : exists c cs, split_on b = c :: cs.
Proof. destruct b as [|x b]; cbn [split_on]; [eauto|]. destruct (ascii_dec x slash); [eauto|]. destruct (split_on b); eauto. Qed.
Lemma split_snoc b x : x <> slash -> exists front c, split_on b = front ++ [c] /\ split_on (b ++ [x]) = front ++ [c ++ [x]].
Proof.
  intros NX. induction b as [|y b (front & c & E1 & E2)]; cbn [split_on app].
  - exists [], []. cbn [app]. destruct (ascii_dec x slash); [contradiction|]. split; reflexivity.
  - destruct (ascii_dec y slash).
    + exists ([] :: front), c. rewrite E1, E2. split; reflexivity.
    + rewrite E1, E2. destruct front as [|z front]; cbn [app]; [exists [], (y :: c)|exists ((y :: z) :: front), c]; split; reflexivity.
Qed.
Lemma split_slash b : split_on (b ++ [slash]) = split_on b ++ [[]].
Proof.
  induction b as [|y b IH]; cbn [split_on app]; [destruct (ascii_dec slash slash) as [_|N]; [reflexivity|destruct (N eq_refl)]|].
  rewrite IH. destruct (ascii_dec y slash); [reflexivity|]. destruct (split_cons b) as (c & cs & ->). reflexivity.
Qed.
(* more bytes without a slash only change the last name *)
Lemma split_more b s : Forall (fun x => x <> slash) s -> exists front c, split_on b = front ++ [c] /\ split_on (b ++ s) = front ++ [c ++ s].
Proof.
  intros F. revert b. induction F as [|x s NX F IH]; intros b.
  - rewrite app_nil_r. destruct (split_cons b) as (c & cs & E). destruct (exists_last (l := split_on b)) as (front & c' & E'); [congruence|].
    exists front, c'. rewrite app_nil_r. auto.
  - destruct (split_snoc b x NX) as (front & c & E1 & E2). destruct (IH (b ++ [x])) as (front' & c' & E3 & E4). rewrite E2 in E3.
    apply app_inj_tail in E3 as [-> <-]. exists front', c. split; [exact E1|]. rewrite <- !app_assoc in E4. exact E4.
Qed.
Lemma strip_empty cs : strip (cs ++ [[]]) = strip cs.
Proof. induction cs as [|c cs IH]; [reflexivity|]. cbn [app strip]. rewrite IH. reflexivity. Qed.
Lemma strip_snoc cs c : c <> [] -> strip (cs ++ [c]) = cs ++ [c].
Proof.
  intros N. induction cs as [|x cs IH]; cbn [app strip]; [destruct c; [contradiction|reflexivity]|]. rewrite IH. destruct cs; reflexivity.
Qed.
Lemma strip_front cs : exists m, cs = strip cs ++ repeat [] m.
Proof.
  induction cs as [|c cs (m & E)]; [exists 0; reflexivity|]. cbn [strip]. destruct (strip cs) as [|s ss].
  - cbn [app] in E. destruct c as [|x c]; [exists (S m); cbn [repeat app]; rewrite E at 1; reflexivity|exists m; cbn [app]; rewrite E at 1; reflexivity].
  - exists m. cbn [app] in *. rewrite <- E. reflexivity.
Qed.
Lemma strip_last cs c front : rev (strip cs) = c :: front -> c <> [].
Proof.
  revert c front. induction cs as [|x cs IH]; intros c front E; [discriminate E|]. cbn [strip] in E. destruct (strip cs) as [|s ss].
  - destruct x as [|y x]; [discriminate E|]. cbn [rev app] in E. injection E as <- _. discriminate.
  - cbn [rev] in *. destruct (rev ss ++ [s]) as [|z zs] eqn:R; [destruct (rev ss); discriminate R|]. cbn [app] in E. injection E as <- _. exact (IH z zs eq_refl).
Qed.
Lemma strip_none b : strip (split_on b) = [] -> Forall (eq slash) b.
Proof.
  induction b as [|x b IH]; intros E; [constructor|]. cbn [split_on] in E. destruct (ascii_dec x slash) as [->|N].
  - constructor; [reflexivity|]. apply IH. cbn [strip] in E. destruct (strip (split_on b)); [reflexivity|discriminate E].
  - destruct (split_on b) as [|c cs]; cbn [strip] in E; [discriminate E|]. destruct (strip cs); discriminate E.
Qed.

(* ---- file system ---- *)
Lemma grows_refl f : grows f f.
Proof. intros p n E. exact E. Qed.
Lemma grows_trans f g h : grows f g -> grows g h -> grows f h.
Proof. intros A B p n E. exact (B _ _ (A _ _ E)). Qed.
Lemma make_grows f p : f p = None -> grows f (make f p).
Proof. intros N q n E. unfold make. destruct (peqb_spec q p) as [->|]; [congruence|exact E]. Qed.
Lemma make_tree f c d : tree f -> f d = Some Dir -> tree (make f (c :: d)).
Proof.
  intros [R T] D. split.
  - unfold make. destruct (peqb_spec [] (c :: d)) as [E|_]; [discriminate E|exact R].
  - intros x y E. unfold make in *. destruct (peqb_spec y (c :: d)); [reflexivity|]. destruct (peqb_spec (x :: y) (c :: d)) as [E'|N].
    + injection E' as -> ->. exact D.
    + exact (T _ _ E).
Qed.
Lemma leads_grows f f' d cs d' : grows f f' -> leads f d cs d' -> leads f' d cs d'.
Proof.
  intros G. induction 1 as [d|d c cs d' D C L IH|d cs d' D L IH|d c cs d' D C1 C2 C3 N L IH].
  - constructor.
  - apply leads_stay; auto.
  - apply leads_up; auto.
  - apply leads_in; auto. destruct (f (c :: d)) as [n|] eqn:E; [|contradiction]. rewrite (G _ _ E). discriminate.
Qed.
Lemma leads_app f d cs d' cs' d'' : leads f d cs d' -> leads f d' cs' d'' -> leads f d (cs ++ cs') d''.
Proof.
  induction 1 as [d|d c cs d' D C L IH|d cs d' D L IH|d c cs d' D C1 C2 C3 N L IH]; intros L'; cbn [app]; [exact L'|..].
  - apply leads_stay; auto.
  - apply leads_up; auto.
  - apply leads_in; auto.
Qed.
Lemma walk_leads f r cs : forall d d', walk f r d cs = inl d' -> leads f d cs d'.
Proof.
  induction cs as [|c cs IH]; intros d d' W; cbn [walk] in W; [injection W as <-; constructor|].
  destruct (f d) as [[]|] eqn:D; [|discriminate W|discriminate W]. destruct (may_search r d); [|discriminate W].
  destruct (beqb_spec c []) as [->|C1]; cbn [orb] in W; [apply leads_stay; auto|].
  destruct (beqb_spec c dot) as [->|C2]; [apply leads_stay; auto|].
  destruct (beqb_spec c dotdot) as [->|C3]; [apply leads_up; auto|].
  destruct (f (c :: d)) eqn:N; [|discriminate W]. apply leads_in; [exact D|exact C1|exact C2|exact C3|intros N0; discriminate (eq_trans (eq_sym N) N0)|apply IH; exact W].
Qed.
Lemma walk_app f r cs cs' : forall d, walk f r d (cs ++ cs') = match walk f r d cs with inl d' => walk f r d' cs' | inr e => inr e end.
Proof.
  induction cs as [|c cs IH]; intros d; [reflexivity|]. cbn [app walk]. destruct (f d) as [[]|]; [|reflexivity|reflexivity].
  destruct (may_search r d); [|reflexivity]. destruct (_ || _)%bool; [apply IH|]. destruct (bytes_eqb c dotdot); [apply IH|].
  destruct (f (c :: d)); [apply IH|reflexivity].
Qed.
Lemma walk_dot f r d cs d' : walk f r d (cs ++ [dot]) = inl d' -> walk f r d cs = inl d' /\ f d' = Some Dir /\ may_search r d' = true.
Proof.
  rewrite walk_app. destruct (walk f r d cs) as [x|]; [|discriminate]. cbn [walk]. destruct (f x) as [[]|] eqn:D; [|discriminate|discriminate].
  destruct (may_search r x) eqn:M; [|discriminate]. change (bytes_eqb dot [] || bytes_eqb dot dot)%bool with true. intros E. injection E as <-. auto.
Qed.

(* success of mkdir, or failure because there is a node *)
Definition fine (e : Z) : Prop := e = 0%Z \/ e = EEXIST.
Lemma mkdir_done f r cwd b f' e : errors r -> tree f -> mkdir f r cwd b = (f', e) ->
  tree f' /\ grows f f' /\ (f' = f \/ exists p, f p = None /\ f' = make f p) /\ (fine e -> exists d, exists_at f' cwd b d).
Proof.
  intros ER T M. unfold mkdir in M. destruct b as [|x b].
  { injection M as <- <-. split; [exact T|]. split; [apply grows_refl|]. split; [left; reflexivity|]. intros [E|E]; discriminate E. }
  destruct (rev (strip (split_on (x :: b)))) as [|c front] eqn:R.
  - injection M as <- <-. split; [exact T|]. split; [apply grows_refl|]. split; [left; reflexivity|]. intros _. exists (start cwd (x :: b)).
    assert (E : strip (split_on (x :: b)) = []) by (rewrite <- (rev_involutive (strip _)), R; reflexivity).
    split; [rewrite E; constructor|]. apply strip_none in E. inversion E as [|? ? <- _]; subst. cbn [start].
    destruct (ascii_dec slash slash) as [_|N]; [|destruct (N eq_refl)]. rewrite (proj1 T). discriminate.
  - pose proof (strip_last _ _ _ R) as CN. assert (E : strip (split_on (x :: b)) = rev front ++ [c]) by (rewrite <- (rev_involutive (strip _)), R; reflexivity).
    destruct (walk f r (start cwd (x :: b)) (rev front ++ [dot])) as [d|e'] eqn:W.
    2: { injection M as <- <-. split; [exact T|]. split; [apply grows_refl|]. split; [left; reflexivity|]. intros F. exfalso. clear - W F.
         assert (G : forall cs d e, walk f r d cs = inr e -> ~ fine e).
         { induction cs as [|c cs IH]; intros d e H; cbn [walk] in H; [discriminate H|].
           destruct (f d) as [[]|]; try (injection H as <-; intros [E|E]; discriminate E). destruct (may_search r d); [|injection H as <-; intros [E|E]; discriminate E].
           destruct (_ || _)%bool; [exact (IH _ _ H)|]. destruct (bytes_eqb c dotdot); [exact (IH _ _ H)|]. destruct (f (c :: d)); [exact (IH _ _ H)|].
           injection H as <-. intros [E|E]; discriminate E. }
         exact (G _ _ _ W F). }
    apply walk_dot in W as (W & D & _). pose proof (walk_leads _ _ _ _ _ W) as L.
    destruct (beqb_spec c dot) as [->|C2]; cbn [orb] in M.
    { injection M as <- <-. split; [exact T|]. split; [apply grows_refl|]. split; [left; reflexivity|]. intros _. exists d. split; [|rewrite D; discriminate]. rewrite E.
      eapply leads_app; [exact L|]. apply leads_stay; [exact D|right; reflexivity|constructor]. }
    destruct (beqb_spec c dotdot) as [->|C3]; cbn [orb] in M.
    { injection M as <- <-. split; [exact T|]. split; [apply grows_refl|]. split; [left; reflexivity|]. intros _. exists (tl d). split.
      - rewrite E. eapply leads_app; [exact L|]. apply leads_up; [exact D|constructor].
      - destruct d as [|c d]; cbn [tl]; [rewrite D; discriminate|]. rewrite (proj2 T c d); [discriminate|congruence]. }
    assert (X : forall g, grows f g -> g (c :: d) <> None -> exists d0, exists_at g cwd (x :: b) d0).
    { intros g G N. exists (c :: d). split; [|exact N]. rewrite E. eapply leads_app; [exact (leads_grows _ _ _ _ _ G L)|].
      apply leads_in; [exact (G _ _ D)|exact CN|exact C2|exact C3|exact N|constructor]. }
    destruct (f (c :: d)) as [n|] eqn:N.
    + injection M as <- <-. split; [exact T|]. split; [apply grows_refl|]. split; [left; reflexivity|]. intros _. apply X; [apply grows_refl|congruence].
    + destruct (may_add r (c :: d)) as [e'|] eqn:MA.
      * injection M as <- <-. split; [exact T|]. split; [apply grows_refl|]. split; [left; reflexivity|]. destruct (ER _ _ MA) as [A B]. intros [F|F]; contradiction.
      * injection M as <- <-. split; [exact (make_tree _ _ _ T D)|]. split; [exact (make_grows _ _ N)|]. split; [right; exists (c :: d); split; [exact N|reflexivity]|].
        intros _. apply X; [exact (make_grows _ _ N)|]. unfold make. destruct (peqb_spec (c :: d) (c :: d)) as [_|NE]; [discriminate|destruct (NE eq_refl)].
Qed.
