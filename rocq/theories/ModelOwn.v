(* Who owns the memory of messages: src/message/*.cpp, include/utils/memory.hpp. A message has arrays for its items; a response to GETOPs has, in three of
   them, pointers to further arrays, one for each record. Simplifications: arrays are blocks with a number of elements; what the elements of
   the arrays of Blobs own is C24's; the status of an item is an argument of the calls that depend on it; allocation succeeds. Addresses are
   not used again (what is released twice or used afterwards is found out). *)
From Verif Require Import ModelBytes.
Local Open Scope nat_scope.

(* blocks in use, with their numbers of elements *)
Record heap := mkHeap { h_next : N; h_live : list (N * nat) }.
Definition size_of (h : heap) (b : N) : option nat := option_map snd (find (fun x => N.eqb (fst x) b) (h_live h)).
(* alloc_array, memory.hpp:28-40 *)
Definition alloc_array (n : nat) (h : heap) : option N * heap :=
  match n with O => (None, h) | _ => (Some (h_next h), mkHeap (h_next h + 1)%N ((h_next h, n) :: h_live h)) end.
(* dealloc_array, memory.hpp:42-51. destroys: the elements have destructors (those of numbers and pointers do nothing) *)
Definition dealloc_array (destroys : bool) (p : option N) (n : nat) (h : heap) : outcome heap :=
  match p with
  | None => Ok h
  | Some b =>
      match size_of h b with
      | None => UB
      | Some s => if destroys && (s <? n) then UB else Ok (mkHeap (h_next h) (filter (fun x => negb (N.eqb (fst x) b)) (h_live h)))
      end
  end.

Inductive operation := Put | Get | GetOp | Delete | Histogram.
Inductive kind := Request (o : operation) | Response (o : operation).
(* the members of all messages that point to arrays; Reqs: timestamps.reqs, OrigS, OrigP: orig.subjects, orig.predicates, Types: object_types *)
Inductive member := Reqs | Subjects | Predicates | OrigS | OrigP | Objects | Types | NumRecs | Ops | Names | Statuses | Hists.
Definition member_eq (a b : member) : {a = b} + {a <> b}. Proof. decide equality. Defined.
(* arrays of Blob and of std::shared_ptr; include/message/SubjectPredicate.hpp, BPut.hpp, BGet.hpp, BGetOp.hpp, BHistogram.hpp *)
Definition destroys (k : kind) (a : member) : bool :=
  match k, a with
  | Request _, (Subjects | Predicates | Objects | Names) => true
  | Response GetOp, _ => false
  | Response _, (OrigS | OrigP | Objects | Hists) => true
  | _, _ => false
  end.
(* the arrays that alloc makes, in this order: Message.cpp:35-44, Response.cpp:12-17, SubjectPredicate.cpp:12-20, 72-78, BPut.cpp:14-21, 46-52,
   BGet.cpp:14-21, 47-54, BGetOp.cpp:16-25, 85-95, BDelete.cpp:13-19, 39-45, BHistogram.cpp:14-21, 46-53 *)
Definition made (k : kind) : list member :=
  match k with
  | Request Put => [Reqs; Subjects; Predicates; OrigS; OrigP; Objects]
  | Request Get => [Reqs; Subjects; Predicates; OrigS; OrigP; Types]
  | Request GetOp => [Reqs; Subjects; Predicates; OrigS; OrigP; Types; NumRecs; Ops]
  | Request Delete => [Reqs; Subjects; Predicates; OrigS; OrigP]
  | Request Histogram => [Reqs; Names]
  | Response Put | Response Delete => [Reqs; Statuses; OrigS; OrigP]
  | Response Get => [Reqs; Statuses; OrigS; OrigP; Objects]
  | Response GetOp => [Reqs; Statuses; NumRecs; Subjects; Predicates; Objects]
  | Response Histogram => [Reqs; Statuses; Hists]
  end.
(* the members that cleanup releases, in this order: Message.cpp:91-99, Response.cpp:34-39, SubjectPredicate.cpp:49-63, 94-102, BPut.cpp:29-34, 67-69,
   BGet.cpp:29-34, 77-82, BGetOp.cpp:52-69, 146-166, BDelete.cpp:25-27, 62-64, BHistogram.cpp:28-33, 72-77 *)
Definition released (k : kind) : list member :=
  match k with
  | Request Put => [Objects; Subjects; Predicates; OrigS; OrigP; Reqs]
  | Request Get => [Types; Subjects; Predicates; OrigS; OrigP; Reqs]
  | Request GetOp => [Subjects; Predicates; Types; NumRecs; Ops; Subjects; Predicates; OrigS; OrigP; Reqs]
  | Request Delete => [Subjects; Predicates; OrigS; OrigP; Reqs]
  | Request Histogram => [Names; Reqs]
  | Response Put | Response Delete => [OrigS; OrigP; Statuses; Reqs]
  | Response Get => [Objects; OrigS; OrigP; Statuses; Reqs]
  | Response GetOp => [NumRecs; Subjects; Predicates; Objects; Statuses; Reqs]
  | Response Histogram => [Hists; Statuses; Reqs]
  end.
(* the arrays whose element number count is written by add: BPut.cpp:23-27, 54-56, BGet.cpp:23-27, 56-64, BGetOp.cpp:27-50, 97-117, BDelete.cpp:21-23, 47-51,
   BHistogram.cpp:23-26, 55-63, SubjectPredicate.cpp:22-30, 80-87, Response.cpp:19-22; ok: the status is DATASTORE_SUCCESS *)
Definition written (k : kind) (ok : bool) : list member :=
  match k with
  | Request Put => [Objects; Subjects; Predicates; OrigS; OrigP]
  | Request Get => [Types; Subjects; Predicates; OrigS; OrigP]
  | Request GetOp => [Subjects; Predicates; Types; NumRecs; Ops]
  | Request Delete => [Subjects; Predicates; OrigS; OrigP]
  | Request Histogram => [Names]
  | Response Put | Response Delete => [OrigS; OrigP; Statuses]
  | Response Get => if ok then [Objects; OrigS; OrigP; Statuses] else [OrigS; OrigP; Statuses]
  | Response GetOp => [Subjects; Predicates; Objects; NumRecs; Statuses]
  | Response Histogram => if ok then [Hists; Statuses] else [Statuses]
  end.
(* the arrays whose element number i is read and cleared by steal: BPut.cpp:58-65, BGet.cpp:66-75, BGetOp.cpp:132-144, BDelete.cpp:53-60, BHistogram.cpp:65-70 *)
Definition stolen (o : operation) : list member :=
  match o with
  | Put | Delete => [OrigS; OrigP; Statuses]
  | Get => [OrigS; OrigP; Objects; Statuses]
  | GetOp => [Subjects; Predicates; Objects; NumRecs; Statuses]
  | Histogram => [Hists; Statuses]
  end.

Definition members := member -> option N.
Definition set (f : members) (a : member) (p : option N) : members := fun a' => if member_eq a a' then p else f a'.
(* subjects[i], predicates[i], objects[i] and num_recs[i] of a response to GETOPs *)
Record record := mkRecord { r_s : option N; r_p : option N; r_o : option N; r_num : nat }.
Definition no_record : record := mkRecord None None None 0.
(* g_recs: the elements of these arrays; those that are missing are null. g_size: serialized_size *)
Record message := mkMessage { g_kind : kind; g_at : members; g_recs : list record; g_max : nat; g_count : nat; g_size : N }.

(* element i can be read or written *)
Definition reach (h : heap) (f : members) (i : nat) (a : member) : bool :=
  match f a with None => false | Some b => match size_of h b with None => false | Some s => i <? s end end.
Fixpoint release (k : kind) (l : list member) (max : nat) (f : members) (h : heap) : outcome (members * heap) :=
  match l with [] => Ok (f, h) | a :: l' => do h' <- dealloc_array (destroys k a) (f a) max h; release k l' max (set f a None) h' end.
(* BGetOp.cpp:147-151 *)
Fixpoint release_records (l : list record) (h : heap) : outcome heap :=
  match l with
  | [] => Ok h
  | r :: l' => do h1 <- dealloc_array true (r_s r) (r_num r) h; do h2 <- dealloc_array true (r_p r) (r_num r) h1;
               do h3 <- dealloc_array true (r_o r) (r_num r) h2; release_records l' h3
  end.
(* cleanup *)
Definition cleanup (m : message) (h : heap) : outcome (message * heap) :=
  do h1 <- (match g_kind m, g_count m with
            | Response GetOp, S i => if forallb (reach h (g_at m) i) [Subjects; Predicates; Objects; NumRecs] then release_records (firstn (S i) (g_recs m)) h else UB
            | _, _ => Ok h
            end);
  do (f, h2) <- release (g_kind m) (released (g_kind m)) (g_max m) (g_at m) h1;
  Ok (mkMessage (g_kind m) f [] 0 0 (g_size m), h2).
Fixpoint acquire (l : list member) (max : nat) (f : members) (h : heap) : members * heap :=
  match l with [] => (f, h) | a :: l' => let (p, h') := alloc_array max h in acquire l' max (set f a p) h' end.
(* alloc; serialized_size stays as it is *)
Definition alloc (max : nat) (m : message) (h : heap) : outcome (message * heap) :=
  do (m1, h1) <- cleanup m h;
  match max with
  | O => Ok (m1, h1)
  | _ => let (f, h2) := acquire (made (g_kind m1)) max (g_at m1) h1 in Ok (mkMessage (g_kind m1) f [] max 0 (g_size m1), h2)
  end.
(* the constructors; the header has 24 bytes, Message.cpp:3-14 *)
Definition construct (k : kind) (max : nat) (h : heap) : outcome (message * heap) := alloc max (mkMessage k (fun _ => None) [] 0 0 24%N) h.
(* the destructors: cleanup of the message, and once more of its base, Message.cpp:16-18 *)
Definition destroy (m : message) (h : heap) : outcome heap :=
  do (m1, h1) <- cleanup m h; do (f, h2) <- release (g_kind m1) [Reqs] (g_max m1) (g_at m1) h1; Ok h2.
(* add of all but responses to GETOPs; ds: the number of bytes added to the size *)
Definition add (ok : bool) (ds : N) (m : message) (h : heap) : outcome message :=
  if forallb (reach h (g_at m) (g_count m)) (written (g_kind m) ok)
  then Ok (mkMessage (g_kind m) (g_at m) (g_recs m) (g_max m) (S (g_count m)) (g_size m + ds)%N) else UB.
(* add of responses to GETOPs, BGetOp.cpp:97-117 *)
Definition add_record (r : record) (ds : N) (m : message) (h : heap) : outcome message :=
  do m1 <- add true ds m h; Ok (mkMessage (g_kind m) (g_at m) (firstn (g_count m) (g_recs m) ++ [r]) (g_max m) (S (g_count m)) (g_size m + ds)%N).
Definition clear_record (i : nat) (l : list record) : list record :=
  match nth_error l i with None => l | Some r => firstn i l ++ mkRecord None None None (r_num r) :: skipn (S i) l end.
(* steal of responses: no check of the room for another item *)
Definition steal (to from : message) (i : nat) (ok : bool) (ds : N) (h : heap) : outcome (message * message) :=
  match g_kind from with
  | Request _ => UB
  | Response o =>
      if forallb (reach h (g_at from) i) (stolen o) then
        match o with
        | GetOp => do to' <- add_record (nth i (g_recs from) no_record) ds to h;
                   Ok (to', mkMessage (g_kind from) (g_at from) (clear_record i (g_recs from)) (g_max from) (g_count from) (g_size from))
        | _ => do to' <- add ok ds to h; Ok (to', from)
        end
      else UB
  end.
Definition with_at (m : message) (f : members) : message := mkMessage (g_kind m) f (g_recs m) (g_max m) (g_count m) (g_size m).
(* steal_timestamps, Message.cpp:73-89, as far as the array is concerned *)
Definition steal_timestamps (to from : message) (individuals : bool) (h : heap) : outcome (message * message * heap) :=
  if individuals then
    do h1 <- dealloc_array false (g_at to Reqs) (g_max to) h;
    Ok (with_at to (set (g_at to) Reqs (g_at from Reqs)), with_at from (set (g_at from) Reqs None), h1)
  else Ok (to, from, h).
Definition zero_count (m : message) : message := mkMessage (g_kind m) (g_at m) (g_recs m) (g_max m) 0 (g_size m).

(* ---- a program that handles messages ---- *)
Inductive action :=
| ANew (k : kind) (max : nat)
| AAlloc (i max : nat)
| AAdd (i : nat) (ok : bool) (ds : N)
| AAddRecord (i room num : nat) (ds : N)              (* the caller has made three arrays with room for as many Blobs and filled num of them: LevelDB.cpp, RocksDB.cpp, InMemory.cpp BGetOp *)
| ASteal (to from item : nat) (ok : bool) (ds : N)
| ATimes (to from : nat) (individuals : bool)
| AZero (i : nat)                                     (* response->count = 0, include/transport/backend/local/RangeServer.hpp:66 *)
| ADestroy (i : nat).
Record world := mkWorld { w_all : list (option message); w_heap : heap }.
Definition start : world := mkWorld [] (mkHeap 0 []).
Definition message_at (w : world) (i : nat) : outcome message := match nth_error (w_all w) i with Some (Some m) => Ok m | _ => UB end.
Definition put_at {A} (i : nat) (x : A) (l : list A) : list A := firstn i l ++ x :: skipn (S i) l.
Definition act (w : world) (a : action) : outcome world :=
  match a with
  | ANew k max => do (m, h) <- construct k max (w_heap w); Ok (mkWorld (w_all w ++ [Some m]) h)
  | AAlloc i max => do m <- message_at w i; do (m', h) <- alloc max m (w_heap w); Ok (mkWorld (put_at i (Some m') (w_all w)) h)
  | AAdd i ok ds => do m <- message_at w i; do m' <- add ok ds m (w_heap w); Ok (mkWorld (put_at i (Some m') (w_all w)) (w_heap w))
  | AAddRecord i room num ds =>
      do m <- message_at w i;
      let (s, h1) := alloc_array room (w_heap w) in let (p, h2) := alloc_array room h1 in let (o, h3) := alloc_array room h2 in
      do m' <- add_record (mkRecord s p o num) ds m h3; Ok (mkWorld (put_at i (Some m') (w_all w)) h3)
  | ASteal i j n ok ds =>
      do t <- message_at w i; do f <- message_at w j; do (t', f') <- steal t f n ok ds (w_heap w);
      Ok (mkWorld (put_at j (Some f') (put_at i (Some t') (w_all w))) (w_heap w))
  | ATimes i j b =>
      do t <- message_at w i; do f <- message_at w j; do (p, h) <- steal_timestamps t f b (w_heap w); let '(t', f') := p in
      Ok (mkWorld (put_at j (Some f') (put_at i (Some t') (w_all w))) h)
  | AZero i => do m <- message_at w i; Ok (mkWorld (put_at i (Some (zero_count m)) (w_all w)) (w_heap w))
  | ADestroy i => do m <- message_at w i; do h <- destroy m (w_heap w); Ok (mkWorld (put_at i None (w_all w)) h)
  end.
Fixpoint acts (w : world) (l : list action) : outcome world :=
  match l with [] => Ok w | a :: l' => do w' <- act w a; acts w' l' end.

(* what the datastore adds to its response for one item: the status, the size, and for a GETOP the records found and the room made for them *)
Record item := mkItem { i_ok : bool; i_ds : N; i_room : nat; i_num : nat }.
Definition answer (o : operation) (i : nat) (x : item) : action :=
  match o with GetOp => AAddRecord i (i_room x) (i_num x) (i_ds x) | _ => AAdd i (i_ok x) (i_ds x) end.
Fixpoint steals (to from n : nat) (l : list item) : list action :=
  match l with [] => [] | x :: l' => ASteal to from n (i_ok x) (i_ds x) :: steals to from (S n) l' end.
(* local::range_server, include/transport/backend/local/RangeServer.hpp:32-88: q is the place of the request, which has c items, here of the
   final response; the datastore's response, Datastore::operate, is at the place after it *)
Definition local_serve (o : operation) (q c here : nat) (l : list item) : list action :=
  [ANew (Response o) c; ATimes here q false; ANew (Response o) c] ++ map (answer o (S here)) l ++ steals here (S here) 0 l ++ [AZero (S here); ADestroy (S here)].
