(* What a log is for: which messages are shown, what a line is, and what a circular buffer holds *)
From Verif Require Import ModelBytes.

(* the last n bytes of a text *)
Definition lastn (n : nat) (t : bytes) : bytes := skipn (length t - n) t.
(* the n bytes before the newest k *)
Definition before (k n : nat) (t : bytes) : bytes := lastn n (firstn (length t - k) t).

(* a line is the text without a newline at its end, not more than 4094 bytes of it, and a newline *)
Definition newline : byte := "010"%char.
Definition chomp (t : bytes) : bytes := match rev t with c :: r => if Ascii.eqb c newline then rev r else t | [] => [] end.
Definition line (t : bytes) : bytes := firstn 4094 (chomp t) ++ [newline].

(* bits 20 to 22 of a priority are a level, bits 16 to 19 are streams of debugging, for messages without a level *)
Definition level (p : N) : N := ((p / 1048576) mod 8)%N.
Definition streams (p : N) : N := ((p / 65536) mod 16)%N.
(* a mask asks for a level and all above it, or for streams (and every level) *)
Definition wanted (mask p : N) : Prop :=
  if (level p =? 0)%N then exists i, (i < 4)%N /\ N.testbit (streams mask) i = true /\ N.testbit (streams p) i = true
  else (level mask < level p \/ level mask = level p /\ streams mask <= streams p)%N.
(* what a mask may be: a level, or streams *)
Definition a_mask (p : N) : Prop := (exists l, 1 <= l <= 7 /\ p = l * 1048576)%N \/ (exists s, s < 16 /\ p = s * 65536)%N.

(* ---- names of priorities ---- *)
Definition small (c : byte) : byte := let n := nat_of_ascii c in if (65 <=? n)%nat && (n <=? 90)%nat then ascii_of_nat (n + 32) else c.
Definition alike (a b : bytes) : Prop := map small a = map small b.
Definition level_names : list (bytes * N) :=
  map (fun '(s, l) => (bstr s, (l * 1048576)%N))
    [("INFO", 1); ("NOTE", 2); ("WARN", 3); ("ERR ", 4); ("ERR", 4); ("CRIT", 5); ("ALRT", 6); ("EMRG", 7)]%string%N.
(* bit 3 is stream 0, bit 0 is stream 3 *)
Definition stream_names : list (bytes * N) :=
  map (fun '(s, l) => (bstr s, (l * 65536)%N))
    [("D---", 0); ("D3--", 1); ("D2--", 2); ("D23-", 3); ("D1--", 4); ("D13-", 5); ("D12-", 6); ("D123", 7);
     ("D0--", 8); ("D03-", 9); ("D02-", 10); ("D023", 11); ("D01-", 12); ("D013", 13); ("D012", 14); ("DBUG", 15); ("DEBUG", 15)]%string%N.
(* in either case; the dashes may be left out after a capital D *)
Definition stands_for (s : bytes) (v : N) : Prop :=
  (exists n, In (n, v) (level_names ++ stream_names) /\ alike s n) \/
  (exists n r k, In (n, v) stream_names /\ s = "D"%char :: r /\ (length s + k = 4)%nat /\ alike (s ++ repeat "-"%char k) n).

(* ---- facilities ---- *)
(* how many there are, and for each its mask and its names *)
Record sources := mkSources { known : nat; mask_of : nat -> N; names_of : nat -> option bytes * option bytes }.
Definition at_first (def : N) (hint : nat) : sources :=
  mkSources (Nat.max 1 hint) (fun _ => def) (fun i => (if (i =? 0)%nat then Some (bstr "MLOG") else None, None)).
Definition put_at {A} (i : nat) (x : A) (f : nat -> A) : nat -> A := fun j => if (j =? i)%nat then x else f j.
(* an entry of a text of masks: a name, or everything; the name of a priority, and its meaning *)
Definition entry : Type := option bytes * bytes * N.
Inductive log_op :=
  | OName (i : nat) (short long : option bytes)          (* name one; a long name needs a short one *)
  | OMore (short long : option bytes)                    (* one more *)
  | OMask (i : nat) (p : N)                              (* the bits of p that are a priority *)
  | OText (lead : bytes) (l : list entry) (trail : bytes).
Definition named (s : sources) (i : nat) (n : bytes) : Prop :=
  exists x, (fst (names_of s i) = Some x \/ snd (names_of s i) = Some x) /\ alike x n.
Definition rename (s : sources) (i : nat) (short long : option bytes) : sources :=
  mkSources (Nat.max (known s) (i + 1)) (mask_of s) (put_at i (short, match short with Some _ => long | None => None end) (names_of s)).
(* what an entry does: to the first facility with the name, to no facility if there is none, or to all *)
Definition did (s : sources) (e : entry) (s' : sources) : Prop :=
  known s' = known s /\ names_of s' = names_of s /\
  match e with
  | (None, _, v) => forall i, (i < known s)%nat -> mask_of s' i = v
  | (Some n, _, v) =>
      (exists i, (i < known s)%nat /\ named s i n /\ (forall j, (j < i)%nat -> ~ named s j n) /\
                 forall j, (j < known s)%nat -> mask_of s' j = if (j =? i)%nat then v else mask_of s j) \/
      (forall i, (i < known s)%nat -> ~ named s i n) /\ forall j, (j < known s)%nat -> mask_of s' j = mask_of s j
  end /\ (forall j, (known s <= j)%nat -> mask_of s' j = mask_of s j).
Fixpoint did_all (s : sources) (l : list entry) (s' : sources) : Prop :=
  match l with [] => s' = s | e :: l' => exists s1, did s e s1 /\ did_all s1 l' s' end.
Definition did_op (s : sources) (o : log_op) (s' : sources) : Prop :=
  match o with
  | OName i a l => s' = rename s i a l
  | OMore a l => s' = rename s (known s) a l
  | OMask i p => s' = mkSources (Nat.max (known s) (i + 1)) (put_at i (level p * 1048576 + streams p * 65536)%N (mask_of s)) (names_of s)
  | OText _ l _ => did_all s l s'
  end.
Fixpoint did_ops (s : sources) (l : list log_op) (s' : sources) : Prop :=
  match l with [] => s' = s | o :: l' => exists s1, did_op s o s1 /\ did_ops s1 l' s' end.

(* the text: entries with commas between them; names have no commas and no equals signs, and the first does not begin with a blank *)
Definition blank (c : byte) : Prop := c = " "%char \/ c = "009"%char.
Definition without (s : bytes) (l : list byte) : Prop := forall c, In c l -> ~ In c s.
Definition entry_text (e : entry) : bytes := match e with (Some n, p, _) => n ++ "="%char :: p | (None, p, _) => p end.
Fixpoint entries_text (l : list entry) : bytes :=
  match l with [] => [] | [e] => entry_text e | e :: l' => entry_text e ++ ","%char :: entries_text l' end.
Definition entry_fine (e : entry) : Prop :=
  match e with (n, p, v) => stands_for p v /\ match n with Some n => without n [","; "="]%char | None => True end end.
Definition op_fine (o : log_op) : Prop :=
  match o with
  | OText lead l trail =>
      (forall c, In c lead -> blank c) /\ (forall c, In c trail -> blank c \/ c = newline) /\ l <> [] /\ (forall e, In e l -> entry_fine e) /\
      (forall c r, entries_text l = c :: r -> ~ blank c)
  | _ => True
  end.

(* ---- what is written ---- *)
(* the mask for a message: bits 0 to 15 are its facility; one that is not known counts as the first *)
Definition mask_for (s : sources) (flags : N) : N :=
  let i := N.to_nat (flags mod 65536) in mask_of s (if (i <? known s)%nat then i else 0%nat).
(* the text of all messages: priority and facility, header, message. A header that does not fit into a line is not written *)
Fixpoint kept (s : sources) (l : list (N * bytes * bytes)) (t : bytes) : Prop :=
  match l with
  | [] => t = []
  | (flags, hdr, msg) :: l' =>
      wanted (mask_for s flags) flags /\ (length hdr < 4095)%nat /\ (exists t', t = line (hdr ++ msg) ++ t' /\ kept s l' t') \/
      (~ wanted (mask_for s flags) flags \/ (4095 <= length hdr)%nat) /\ kept s l' t
  end.
(* the name of a facility in a text of masks *)
Definition shown_name (s : sources) (i : nat) : option bytes := match names_of s i with (_, Some n) => Some n | (Some n, None) => Some n | (None, None) => None end.
(* every facility has a name that leads back to it, and a mask that has a name *)
Definition can_tell (s : sources) : Prop :=
  (forall i, (i < known s)%nat -> exists n, shown_name s i = Some n /\ without n [","; "="]%char /\ a_mask (mask_of s i) /\ forall j, (j < i)%nat -> ~ named s j n) /\ (forall n c r, shown_name s 0 = Some n -> n = c :: r -> ~ blank c).

(* two pieces of a piece of memory, as offsets and lengths: they lie inside it; their bytes *)
Definition inside (b : bytes) (x : N * N * N * N) : Prop :=
  let '(o1, l1, o2, l2) := x in (o1 + l1 <= blen b /\ o2 + l2 <= blen b)%N.
Definition seen_at (b : bytes) (x : N * N * N * N) : bytes :=
  let '(o1, l1, o2, l2) := x in firstn (N.to_nat l1) (skipn (N.to_nat o1) b) ++ firstn (N.to_nat l2) (skipn (N.to_nat o2) b).
