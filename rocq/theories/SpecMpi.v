(* The MPI transport: what is expected *)
From Verif Require Import ModelBytes ModelRoute ModelMpi.
From Coq Require Import Permutation.
Local Open Scope N_scope.

(* what was sent to a rank and what was received from it in one call *)
Definition sent_to (s : Z) (c : call) : list bytes := map snd (filter (fun x => (fst x =? s)%Z) c).
Definition got_from (s : Z) (l : list (nat * Z * bytes)) : list bytes := map snd (filter (fun x => (snd (fst x) =? s)%Z) l).
(* the requests and answers of the calls that have returned *)
Definition completed (s : Z) (log : list (call * list (nat * Z * bytes))) : list (bytes * bytes) :=
  flat_map (fun '(sent, got) => combine (sent_to s sent) (got_from s got)) log.
(* the requests of c that s carried out and its answers *)
Definition exchanged (c s : Z) (h : list (Z * Z * bytes * bytes)) : list (bytes * bytes) :=
  flat_map (fun '(x, y, b, a) => if ((x =? c) && (y =? s))%Z then [(b, a)] else []) h.

Section Spec.
Context {store : Type} (handle : Z -> store -> bytes -> outcome (store * (Z * bytes))).
(* requests carried out one after the other *)
Inductive carried : store -> list (Z * Z * bytes * bytes) -> store -> Prop :=
| carried_nil s : carried s [] s
| carried_snoc s h s1 c me b d a s2 : carried s h s1 -> handle me s1 b = Ok (s2, (d, a)) -> carried s (h ++ [(c, me, b, a)]) s2.
(* a request is answered to the rank that sent it *)
Definition answers_sender (c : Z) (b : bytes) : Prop := forall me s s' d a, handle me s b = Ok (s', (d, a)) -> d = c.
End Spec.

(* range servers are numbered like ranks *)
Definition ids_are_ranks (eps : Z -> list (Z * Z)) : Prop := forall me id r, lookup id (eps me) = Some r -> id = r.
(* the requests of a call are in a map by rank, so go to different servers *)
Definition call_ok {store} (handle : Z -> store -> bytes -> outcome (store * (Z * bytes))) (me : Z) (c : call) : Prop :=
  NoDup (map fst c) /\ Forall (fun x => answers_sender handle me (snd x)) c.

(* every client thread has made all its calls *)
Definition finished {store} (st : @net store) : Prop := Forall (fun x => h_todo (snd x) = [] /\ h_at (snd x) = CIdle) (n_cli st).
(* there are at least this many listeners at every range server *)
Definition listening (eps : Z -> list (Z * Z)) (n : nat) (listeners : list Z) : Prop :=
  forall me id r, lookup id (eps me) = Some r -> (n <= count_occ Z.eq_dec listeners r)%nat.
