(* The Thallium transport: what is expected *)
From Verif Require Import ModelBytes ModelRoute ModelThal.
Local Open Scope nat_scope.

(* the requests of thread i that were carried out: server, request, response *)
Definition carried_for (i : nat) (h : list (nat * Z * bytes * bytes)) : list (Z * bytes * bytes) :=
  flat_map (fun '(j, r, b, m) => if Nat.eqb j i then [(r, b, m)] else []) h.
(* requests carried out one after the other *)
Inductive carried {store} (handle : Z -> store -> bytes -> outcome (store * bytes)) : store -> list (nat * Z * bytes * bytes) -> store -> Prop :=
| carried_nil s : carried handle s [] s
| carried_snoc s h s1 i r b m s2 : carried handle s h s1 -> handle r s1 b = Ok (s2, m) -> carried handle s (h ++ [(i, r, b, m)]) s2.
(* requests and what became of them *)
Definition answered (accept : bytes -> bool) (eps : list (Z * Z)) : list (Z * bytes) -> list (bytes * fate) -> Prop :=
  Forall2 (fun '(dst, b) '(b', f) => b' = b /\
    match f with
    | Nowhere => lookup dst eps = None
    | Unread r m => lookup dst eps = Some r /\ accept m = false
    | Got r m => lookup dst eps = Some r /\ accept m = true
    end).
(* those that a server carried out *)
Definition reached (l : list (bytes * fate)) : list (Z * bytes * bytes) :=
  flat_map (fun '(b, f) => match f with Nowhere => [] | Unread r m | Got r m => [(r, b, m)] end) l.

(* every thread has made all its requests *)
Definition finished {store} (st : @net store) : Prop := Forall (fun t => h_todo t = [] /\ h_at t = TIdle) (n_thr st).
(* every request has an endpoint and, on a store of the kind I, is carried out, leaves such a store and gives a response that can be unpacked *)
Definition sound {store} (handle : Z -> store -> bytes -> outcome (store * bytes)) (accept : bytes -> bool) (eps : Z -> list (Z * Z))
  (threads : list (Z * bool * list (Z * bytes))) (I : store -> Prop) : Prop :=
  forall me m q dst b, In (me, m, q) threads -> In (dst, b) q ->
  exists r, lookup dst (eps me) = Some r /\ forall s, I s -> exists s' a, handle r s b = Ok (s', a) /\ accept a = true /\ I s'.
