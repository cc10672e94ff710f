(* The logger: src/utils/mlog2.c and include/utils/mlog2.h, and how hxhim uses it (src/hxhim/hxhim.cpp).
   Not modelled: the UDP console, the log file and syslog, which get the same bytes as stderr without a terminal; the date in a line;
   memory that cannot be allocated; two threads (everything below holds the mutex; mlog_filter and the test of the mask in vmlog do not). *)
From Verif Require Import ModelBytes.

(* ---- the message buffer ---- *)
(* struct mlog_mbhead, mlog2.c:80-87, and what follows it. mbh_len is the length of the data. int and uint32_t: all numbers are below
   2^31 (the length is an int, mlog_open) plus 4095 (a line) *)
Record mbuf := mkMbuf { mb_data : bytes; mb_cnt : nat; mb_wp : nat }.
(* mlog_open, mlog2.c:802, 853-864: none, or at least 16 bytes, from calloc *)
Definition mb_open (n : nat) : mbuf := mkMbuf (repeat "000"%char n) 0 0.
(* memcpy into a buffer at an offset, and from one *)
Definition copy_in (d : bytes) (off : nat) (b : bytes) : outcome bytes :=
  if (length d <? off + length b)%nat then UB else Ok (firstn off d ++ b ++ skipn (off + length b) d).
Definition copy_out (d : bytes) (off n : nat) : outcome bytes :=
  if (length d <? off + n)%nat then UB else Ok (firstn n (skipn off d)).
(* vmlog, mlog2.c:638-671; mlog_getmbptrs 176-184: from the write pointer to the end, then from the start *)
Definition mb_put (m : mbuf) (b : bytes) : outcome mbuf :=
  let len := length (mb_data m) in
  let tlen := length b in
  let bp := if (len <? tlen)%nat then skipn (tlen - len) b else b in
  let m1len := (len - mb_wp m)%nat in
  let ncpy := if (m1len <? length bp)%nat then m1len else length bp in
  do d1 <- copy_in (mb_data m) (mb_wp m) (firstn ncpy bp);
  do d2 <- match skipn ncpy bp with [] => Ok d1 | r => copy_in d1 0 r end;
  let wp := if (tlen <? len)%nat
            then if (len <=? mb_wp m + tlen)%nat then (mb_wp m + tlen - len)%nat else (mb_wp m + tlen)%nat
            else mb_wp m in
  let cnt := if (mb_cnt m <? len)%nat
             then if (len <? mb_cnt m + tlen)%nat then len else (mb_cnt m + tlen)%nat
             else mb_cnt m in
  Ok (mkMbuf d2 cnt wp).
(* mlog_dmesg_mbuf, mlog2.c:197-217: offset and length of the two pieces *)
Definition pieces (m : mbuf) : nat * nat * nat * nat :=
  let len := length (mb_data m) in
  let b1len := (len - mb_wp m)%nat in
  let skip := (len - mb_cnt m)%nat in
  if (b1len <=? skip)%nat
  then let skip := (skip - b1len)%nat in (skip, (mb_wp m - skip)%nat, 0, 0)%nat
  else ((mb_wp m + skip)%nat, (b1len - skip)%nat, 0, mb_wp m)%nat.
(* mlog_dmesg, mlog2.c:1297-1307, and reading what it points to; mlog_mbcount 1312-1328 is mb_cnt *)
Definition mb_read (m : mbuf) : outcome bytes :=
  let '(o1, l1, o2, l2) := pieces m in
  do a <- copy_out (mb_data m) o1 l1; do b <- copy_out (mb_data m) o2 l2; Ok (a ++ b).
(* mlog_mbcopy, mlog2.c:1335-1393. None: -1. A negative offset has no effect, like 0 *)
Definition mb_copy (m : mbuf) (offset len : Z) : outcome (option bytes) :=
  if (len <? 1)%Z then Ok None else
  let '(o1, l1, o2, l2) := pieces m in
  let off := Z.to_nat offset in
  let '(l2, off) := if (0 <? off)%nat && (0 <? l2)%nat
                    then if (l2 <? off)%nat then (0, off - l2)%nat else (l2 - off, 0)%nat else (l2, off) in
  let l1 := if (0 <? off)%nat && (0 <? l1)%nat then if (l1 <? off)%nat then 0%nat else (l1 - off)%nat else l1 in
  let got := (l1 + l2)%nat in
  let want := if (Z.of_nat got <? len)%Z then got else Z.to_nat len in
  let skip := (if (want <? got)%nat then got - want else 0)%nat in
  let '(o1, l1, o2, l2) :=
    if (0 <? skip)%nat then
      let '(o1, l1, skip) := if (l1 <? skip)%nat then (o1, 0, skip - l1)%nat else (o1 + skip, l1 - skip, 0)%nat in
      if (l2 <? skip)%nat then (o1, l1, o2, 0)%nat else (o1, l1, o2 + skip, l2 - skip)%nat
    else (o1, l1, o2, l2) in
  do a <- copy_out (mb_data m) o1 l1; do b <- copy_out (mb_data m) o2 l2; Ok (Some (a ++ b)).

(* mlog_findmesgbuf, mlog2.c:1457-1515: a message buffer in a piece of memory (a core file), every fourth byte; the pieces as offsets
   into it. Pointers do not wrap around. swap: wswap, of a word that is read *)
Definition MBH_START : bytes := bstr ">CpMdUl<".
Definition BEEF : N := 3735928559.                                                  (* 0xdeadbeef *)
Definition word (b : bytes) (off : nat) : N := le_dec (firstn 4 (skipn off b)).
Definition swapped (b : bytes) (off : nat) : N := le_dec (rev (firstn 4 (skipn off b))).
(* mlog_open, 858-863: the header as it is in memory, on a machine of either byte order *)
Definition word4 (big : bool) (x : N) : bytes := if big then rev (le_enc 4 x) else le_enc 4 x.
Definition mb_head (big : bool) (m : mbuf) : bytes :=
  MBH_START ++ word4 big BEEF ++ word4 big (N.of_nat (length (mb_data m))) ++ word4 big (N.of_nat (mb_cnt m)) ++ word4 big (N.of_nat (mb_wp m)).
Definition found_at (b : bytes) (p : nat) : option (N * N * N * N) :=
  if starts_with MBH_START (skipn p b) then
    let rd := if (swapped b (p + 8) =? BEEF)%N then swapped b else word b in
    let len := rd (p + 12)%nat in let cnt := rd (p + 16)%nat in let wp := rd (p + 20)%nat in
    if (len <? cnt)%N then None else if (len <? wp)%N then None
    else if (blen b <? N.of_nat p + len)%N then None                                (* 1485: without the header *)
    else
      let base := (N.of_nat p + 24)%N in
      let b1l := (len - wp)%N in
      let skip := (len - cnt)%N in
      if (b1l <? skip)%N then Some (base + (skip - b1l), wp - (skip - b1l), 0, 0)%N
      else Some (base + wp + skip, b1l - skip, base, wp)%N
  else None.
Fixpoint find_from (fuel : nat) (b : bytes) (p : nat) : option (N * N * N * N) :=
  match fuel with
  | O => None
  | S f => if (p + 24 <? length b)%nat then match found_at b p with Some r => Some r | None => find_from f b (p + 4) end else None
  end.
Definition find_mbuf (b : bytes) : option (N * N * N * N) := find_from (length b) b 0.

(* ---- lines ---- *)
(* vmlog, mlog2.c:583-630: pt1 is the first part of the header (date, host, tag), then facility and priority; m is the formatted
   message. None: the header does not fit. b[tlen-1] of an empty line would be b[-1] *)
Definition TBSIZ : nat := 4096.
Definition NL : byte := "010"%char.
Definition finish_line (hdr m : bytes) : outcome (option bytes) :=
  if (TBSIZ <=? length hdr + 1)%nat then Ok None else
  let t := hdr ++ m in
  let tlen := length t in
  if (TBSIZ <=? tlen)%nat || ((tlen =? TBSIZ - 1)%nat && negb (Ascii.eqb (nth (TBSIZ - 2) t NL) NL))
  then Ok (Some (firstn (TBSIZ - 2) t ++ [NL]))
  else match tlen with
       | O => UB
       | S n => Ok (Some (if Ascii.eqb (nth n t NL) NL then t else t ++ [NL]))
       end.

(* ---- priorities ---- *)
Local Open Scope N_scope.
Definition PRIMASK : N := 8323072.       (* 0x007f0000 *)
Definition FACMASK : N := 65535.
Definition INFO : N := 1048576.          (* 1 << 20, MLOG_PRISHIFT *)
Definition ERR : N := 4194304.
Definition DBG : N := 983040.            (* 15 << 16, MLOG_DPRISHIFT *)
(* mlog2.c:265-272 *)
Definition norm : list bytes := map bstr ["DBUG"; "INFO"; "NOTE"; "WARN"; "ERR "; "CRIT"; "ALRT"; "EMRG"]%string.
Definition dbg : list bytes := map bstr ["D---"; "D3--"; "D2--"; "D23-"; "D1--"; "D13-"; "D12-"; "D123"; "D0--"; "D03-"; "D02-"; "D023"; "D01-"; "D013"; "D012"; "DBUG"]%string.
(* mlog_pristr, 280-290 *)
Definition pristr (pri : N) : bytes :=
  let pri := N.land pri PRIMASK in
  let s := N.land (N.shiftr pri 20) 7 in
  if s =? 0 then nth (N.to_nat (N.land (N.shiftr pri 16) 15)) dbg [] else nth (N.to_nat s) norm [].
(* strcasecmp(a, b) == 0 in the C locale *)
Definition low (c : byte) : byte := let n := N_of_ascii c in if (65 <=? n) && (n <=? 90) then ascii_of_N (n + 32) else c.
Definition same_text (a b : bytes) : bool := beqb (map low a) (map low b).
Fixpoint index_of (a : bytes) (l : list bytes) (i : N) : option N :=
  match l with [] => None | b :: l' => if same_text a b then Some i else index_of a l' (i + 1) end.
(* mlog_str2pri, 742-780; the string has no null characters *)
Definition str2pri (s : bytes) : option N :=
  if (5 <? length s)%nat then None
  else if same_text s (bstr "ERR") then Some ERR
  else if same_text s (bstr "DEBUG") then Some DBG
  else
    let s := match s with "D"%char :: _ => s ++ repeat "-"%char (4 - length s) | _ => s end in
    match index_of s (tl norm) 1 with
    | Some i => Some (N.shiftl i 20)
    | None => option_map (fun i => N.shiftl i 16) (index_of s dbg 0)
    end.

(* ---- facilities ---- *)
(* struct mlog_fac, mlog2.h; the first fac_cnt of fac_alloc *)
Record fac := mkFac { f_mask : N; f_aname : option bytes; f_lname : option bytes }.
Record facs := mkFacs { fs_list : list fac; fs_cnt : nat; fs_def : N }.
Definition new_fac (def : N) (i : nat) : fac := mkFac def (if (i =? 0)%nat then Some (bstr "MLOG") else None) None.
(* mlog_setnfac, 335-380 *)
Definition setnfac (fs : facs) (n : nat) : facs :=
  if (n <=? fs_cnt fs)%nat then fs
  else if (n <=? length (fs_list fs))%nat then mkFacs (fs_list fs) n (fs_def fs)
  else let try := (if n <? 1024 then n + 32 else n)%nat in
       mkFacs (firstn (fs_cnt fs) (fs_list fs) ++ map (new_fac (fs_def fs)) (seq (fs_cnt fs) (try - fs_cnt fs))) n (fs_def fs).
(* mlog_open, 829, 850 *)
Definition facs_open (def : N) (hint : nat) : facs := setnfac (mkFacs [] 0 def) (if (hint <? 1)%nat then 1%nat else hint).
Fixpoint upd_fac (i : nat) (f : fac -> fac) (l : list fac) : list fac :=
  match l, i with
  | [], _ => []
  | x :: l', O => f x :: l'
  | x :: l', S i' => x :: upd_fac i' f l'
  end.
(* mlog_namefacility, 1015-1056; a name without an abbreviation is dropped *)
Definition namefac (fs : facs) (i : nat) (aname lname : option bytes) : facs :=
  let fs := if (fs_cnt fs <=? i)%nat then setnfac fs (i + 1) else fs in
  mkFacs (upd_fac i (fun f => mkFac (f_mask f) aname (match aname with Some _ => lname | None => None end)) (fs_list fs)) (fs_cnt fs) (fs_def fs).
(* mlog_allocfacility, 1062-1079 *)
Definition allocfac (fs : facs) (aname lname : option bytes) : facs * nat :=
  (namefac (setnfac fs (fs_cnt fs + 1)) (fs_cnt fs) aname lname, fs_cnt fs).
(* mlog_setlogmask, 1087-1105, of a facility that is not negative *)
Definition setlogmask (fs : facs) (i : nat) (mask : N) : facs :=
  let fs := if (fs_cnt fs <=? i)%nat then setnfac fs (i + 1) else fs in
  mkFacs (upd_fac i (fun f => mkFac (N.land mask PRIMASK) (f_aname f) (f_lname f)) (fs_list fs)) (fs_cnt fs) (fs_def fs).

(* mlog_setmasks, 1113-1220. The string is given with its length. What it logs about errors is left out *)
Definition is_blank (c : byte) : bool := Ascii.eqb c " "%char || Ascii.eqb c "009"%char.
Fixpoint drop_while (f : byte -> bool) (s : bytes) : bytes := match s with c :: s' => if f c then drop_while f s' else s | [] => [] end.
(* up to the first c, and what follows it if there is one *)
Fixpoint until (c : byte) (s : bytes) : bytes * option bytes :=
  match s with
  | [] => ([], None)
  | x :: s' => if Ascii.eqb x c then ([], Some s') else let '(a, r) := until c s' in (x :: a, r)
  end.
Definition trim_end (s : bytes) : bytes := rev (drop_while (fun c => is_blank c || Ascii.eqb c NL) (rev s)).
(* strncpy into a buffer of zeroes *)
Definition cstring (s : bytes) : bytes := fst (until "000"%char s).
Definition is_named (name : bytes) (f : fac) : bool :=
  match f_aname f with Some a => same_text a name | None => false end || match f_lname f with Some a => same_text a name | None => false end.
Fixpoint find_fac (name : bytes) (l : list fac) (i : nat) : option nat :=
  match l with [] => None | f :: l' => if is_named name f then Some i else find_fac name l' (S i) end.
Definition set_chunk (fs : facs) (last : bool) (chunk : bytes) : facs :=
  match chunk with
  | [] => fs
  | _ =>
      let '(name, pri) := match until "="%char chunk with (a, Some p) => (Some a, p) | (_, None) => (None, chunk) end in
      let pri := if last then trim_end pri else pri in
      if (5 <? length pri)%nat then fs
      else match str2pri (cstring pri), name with
           | None, _ => fs
           | Some p, Some n => match find_fac n (firstn (fs_cnt fs) (fs_list fs)) 0 with Some i => setlogmask fs i p | None => fs end
           | Some p, None => fold_left (fun fs i => setlogmask fs i p) (seq 0 (fs_cnt fs)) fs
           end
  end.
Fixpoint set_chunks (fuel : nat) (fs : facs) (m : bytes) : facs :=
  match fuel with
  | O => fs
  | S f => match until ","%char m with
           | (c, Some m') => set_chunks f (set_chunk fs false c) m'
           | (c, None) => set_chunk fs true c
           end
  end.
Definition setmasks (fs : facs) (m : bytes) : facs :=
  match drop_while is_blank m with [] => fs | m => set_chunks (S (length m)) fs m end.

(* mlog_getmasks, 1225-1272; mlog_bput 391-417: a part of the text, and how much. buf: whether a buffer is given *)
Definition short (s : bytes) : bytes := fst (until "-"%char (fst (until " "%char s))).
Fixpoint dec_digits (fuel : nat) (n : nat) : bytes :=
  match fuel with
  | O => []
  | S f => (if (n <? 10)%nat then [] else dec_digits f (n / 10)%nat) ++ [ascii_of_nat (48 + n mod 10)]
  end.
Definition fac_name (i : nat) (f : fac) : bytes :=
  match f_lname f, f_aname f with Some n, _ => n | None, Some n => n | None, None => dec_digits (S i) i end.
Definition mask_entry (i : nat) (f : fac) : bytes := (if (i =? 0)%nat then [] else [","%char]) ++ fac_name i f ++ ["="%char] ++ short (pristr (f_mask f)).
Fixpoint mask_entries (i : nat) (l : list fac) : bytes := match l with [] => [] | f :: l' => mask_entry i f ++ mask_entries (S i) l' end.
Definition masks_text (fs : facs) (unterm : bool) : bytes :=
  mask_entries 0 (firstn (fs_cnt fs) (fs_list fs)) ++ [NL] ++ (if unterm then [] else ["000"%char]).
Fixpoint bput (s : bytes) (skip resid : nat) (out : bytes) : bytes :=
  match s with
  | [] => out
  | c :: s' => if (0 <? skip)%nat then bput s' (skip - 1) resid out
               else if (0 <? resid)%nat then bput s' skip (resid - 1) (out ++ [c]) else bput s' skip resid out
  end.
Definition getmasks (fs : facs) (buf : bool) (discard len : Z) (unterm : bool) : Z * bytes :=
  let t := masks_text fs unterm in
  if buf then let r := bput t (Z.to_nat discard) (Z.to_nat len) [] in (Z.of_nat (length r), r) else (Z.of_nat (length t), []).

(* ---- what is logged ---- *)
(* mlog_filter, mlog2.h:113-143 *)
Definition fac_of (fs : facs) (flags : N) : nat :=
  let i := N.to_nat (N.land flags FACMASK) in if (fs_cnt fs <=? i)%nat then 0%nat else i.
Definition filter_msg (fs : facs) (flags : N) : bool :=
  let lvl := N.land flags PRIMASK in
  let mask := match nth_error (fs_list fs) (fac_of fs flags) with Some f => f_mask f | None => 0 end in
  if INFO <=? lvl then negb (lvl <? mask) else negb (N.land lvl mask =? 0).
(* vmlog, 537-566: whether it is logged, and whether to stderr because of stderr_mask *)
Definition vmlog_test (fs : facs) (stderr_mask flags : N) : bool * bool :=
  let lvl := N.land flags PRIMASK in
  let mask := match nth_error (fs_list fs) (fac_of fs flags) with Some f => f_mask f | None => 0 end in
  if INFO <=? lvl then if lvl <? mask then (false, false) else (true, negb (stderr_mask =? 0) && (stderr_mask <=? lvl))
  else if N.land lvl mask =? 0 then (false, false) else (true, negb (N.land lvl stderr_mask =? 0)).
(* 703-717: what goes to stderr and stdout; MLOG_STDERR is the top bit, MLOG_STDOUT bit 25. pt1: the first part of the header.
   stdout, too, looks at whether stderr is a terminal (711) *)
Record shown_on := mkShown { on_stderr : option bytes; on_stdout : option bytes }.
Definition dispatch (fs : facs) (stderr_mask oflags flags : N) (stderr_tty stdout_tty : bool) (pt1 rest : bytes) : shown_on :=
  let '(yes, err) := vmlog_test fs stderr_mask flags in
  if yes then
    let all := N.lor oflags flags in
    mkShown (if err || N.testbit all 31 then Some (if stderr_tty then rest else pt1 ++ rest) else None)
            (if N.testbit all 25 then Some (if stderr_tty then rest else pt1 ++ rest) else None)
  else mkShown None None.

(* ---- sessions ---- *)
(* hxhim.cpp:110, 192, 274: Open opens the log with the level of the session, unless it is open; Close closes it. Levels are
   masks. None: the log is closed. HXHIM uses only facility 0, because no others are allocated (hint 0) *)
Inductive hx_act := HOpen (session : nat) (level : N) | HClose (session : nat) | HLog (session : nat) (flags : N).
Definition hx_step (st : option N) (a : hx_act) : option N * option bool :=
  match a with
  | HOpen _ level => (match st with Some l => Some l | None => if N.land level PRIMASK =? level then Some level else None end, None)
  | HClose _ => (None, None)
  | HLog _ flags => (st, Some (match st with Some l => snd (vmlog_test (facs_open l 0) l flags) | None => false end))
  end.
Fixpoint hx_run (st : option N) (l : list hx_act) : list (option bool) :=
  match l with [] => [] | a :: l' => let '(st', r) := hx_step st a in r :: hx_run st' l' end.
(* vmlog, 537-671, for the message buffer: header and message as for finish_line *)
Definition mb_log (fs : facs) (m : mbuf) (e : N * bytes * bytes) : outcome mbuf :=
  let '(flags, hdr, msg) := e in
  if fst (vmlog_test fs 0 flags) then do l <- finish_line hdr msg; match l with None => Ok m | Some b => mb_put m b end else Ok m.
Fixpoint mb_logs (fs : facs) (m : mbuf) (l : list (N * bytes * bytes)) : outcome mbuf :=
  match l with [] => Ok m | e :: l' => do m' <- mb_log fs m e; mb_logs fs m' l' end.
