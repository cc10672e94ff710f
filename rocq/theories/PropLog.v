(* C80, C81: the logger *)
From Verif Require SpecOptions.
From Verif Require Import ModelBytes ModelLog SpecLog SpecLog2 ProofBytes ProofStore ProofLog ProofLog2 ProofLog3 ProofLog4 ProofLog5 ExampleLog.

(* C80: a message buffer of n bytes holds the last n bytes of the lines of all messages that its masks want, in order; mlog_mbcount is
   their number; mlog_mbcopy gives the len bytes before the newest offset. The header is never empty (it begins with the date) *)
Theorem C80_buffer_partial : forall def hint ops n l,
  N.land def PRIMASK = def -> (forall o, In o ops -> op_fine o) -> (0 < n)%nat -> (forall f h b, In (f, h, b) l -> h <> []) ->
  exists m s t, mb_logs (fold_left run_op ops (facs_open def hint)) (mb_open n) l = Ok m /\ did_ops (at_first def hint) ops s /\ kept s l t /\
    mb_read m = Ok (lastn n t) /\ mb_cnt m = length (lastn n t) /\
    forall offset len, mb_copy m offset len = Ok (if (len <? 1)%Z then None else Some (before (Z.to_nat offset) (Z.to_nat len) (lastn n t))).
Proof.
  intros def hint ops n l D F Hn NE. destruct (ops_show ops _ _ (open_shows def hint D) F) as (s & O & S).
  destruct (logs_hold s _ n l [] _ Hn S (holds_open n Hn) NE) as (m & t & E & K & H). exists m, s, t. cbn [app] in H.
  destruct (read_holds n t m H) as (R & C).
  repeat (apply conj); [exact E|exact O|exact K|exact R|exact C|]. intros offset len. exact (copy_holds n t m offset len H).
Qed.
Print Assumptions C80_buffer_partial.
Example C80_buffer_ex : exists m, mb_logs (facs_open 4194304 0) (mb_open 16) some_lines = Ok m /\ mb_copy m 7 4 = Ok (Some (bstr "our
")).
Proof. exact some_copy. Qed.

(* one line, of any header and message *)
Theorem C80_line : forall hdr m, hdr <> [] -> finish_line hdr m = Ok (if (4096 <=? length hdr + 1)%nat then None else Some (line (hdr ++ m))).
Proof. exact line_is. Qed.
Print Assumptions C80_line.
Example C80_line_ex : finish_line (bstr "h ") (bstr "text") = Ok (Some (bstr "h text
")).
Proof. vm_compute; reflexivity. Qed.

(* a message buffer of either byte order in a piece of memory that holds all of it is found, if nothing before it looks like one;
   the two pieces are inside and hold its text *)
Theorem C80_found_partial : forall def hint ops n l m (big : bool) (bef aft : bytes) k,
  N.land def PRIMASK = def -> (forall o, In o ops -> op_fine o) -> (0 < n)%nat -> (N.of_nat n < 4294967296)%N -> (forall f h b, In (f, h, b) l -> h <> []) ->
  mb_logs (fold_left run_op ops (facs_open def hint)) (mb_open n) l = Ok m -> length bef = (4 * k)%nat ->
  let b := bef ++ mb_head big m ++ mb_data m ++ aft in
  (forall j, (j < k)%nat -> starts_with MBH_START (skipn (4 * j) b) = false) ->
  exists x, find_mbuf b = Some x /\ inside b x /\ mb_read m = Ok (seen_at b x).
Proof.
  intros def hint ops n l m big bef aft k D F Hn L NE E Lb b N. destruct (ops_show ops _ _ (open_shows def hint D) F) as (s & O & S).
  destruct (logs_hold s _ n l [] _ Hn S (holds_open n Hn) NE) as (m' & t & E' & K & H). rewrite E in E'. apply Ok_inj in E'. subst m'. cbn [app] in H.
  destruct (found n t m big bef aft k H L Lb N) as (x & X & I & Y). exists x. split; [exact X|]. split; [exact I|]. fold b in Y. rewrite Y.
  exact (proj1 (read_holds n t m H)).
Qed.
Print Assumptions C80_found_partial.
Example C80_found_ex : exists m x, mb_logs (facs_open 4194304 0) (mb_open 16) some_lines = Ok m /\
  find_mbuf (bstr "core>CpM" ++ mb_head true m ++ mb_data m ++ bstr "end") = Some x /\ seen_at (bstr "core>CpM" ++ mb_head true m ++ mb_data m ++ bstr "end") x = bstr "o
h four
h five
".
Proof. exact some_found. Qed.
(* memory that ends within the buffer: the check leaves out the header, and the pieces may lie beyond the end *)
Theorem C80_found_refuted : ~ (forall m b x, mb_put (mb_open 16) (bstr "0123456789") = Ok m -> b = mb_head false m ++ firstn 4 (mb_data m) -> find_mbuf b = Some x -> inside b x).
Proof. intros K. destruct cut_found as (m & x & A & B & C). apply C. exact (K m _ x A eq_refl B). Qed.
Print Assumptions C80_found_refuted.

(* C81: a message is logged exactly if the mask of its facility wants it; the inline filter of the macros and the function agree; it goes
   to stderr if the mask for stderr wants it, too *)
Theorem C81_levels_partial : forall def hint ops, N.land def PRIMASK = def -> (forall o, In o ops -> op_fine o) ->
  let fs := fold_left run_op ops (facs_open def hint) in
  exists s, did_ops (at_first def hint) ops s /\
    forall em flags, (fst (vmlog_test fs em flags) = true <-> wanted (mask_for s flags) flags) /\ filter_msg fs flags = fst (vmlog_test fs em flags) /\
      (N.land em PRIMASK = em -> em <> 0%N -> (snd (vmlog_test fs em flags) = true <-> wanted (mask_for s flags) flags /\ wanted em flags)).
Proof.
  intros def hint ops D F fs. destruct (ops_show ops _ _ (open_shows def hint D) F) as (s & O & S). exists s. split; [exact O|].
  intros em flags. split; [exact (test_is s fs em flags S)|]. split; [exact (filter_is fs em flags)|]. exact (stderr_is s fs em flags S).
Qed.
Print Assumptions C81_levels_partial.
Example C81_levels_ex : map (fun p => vmlog_test some_facs 5242880 p) [4194304; 5242880; 4194305; 524289; 524288]%N
  = [(true, false); (true, true); (true, false); (true, false); (false, false)].
Proof. vm_compute. reflexivity. Qed.

(* the names of priorities are read as they should be, and the name that is printed is read as the same priority *)
Theorem C81_names : forall s v, str2pri s = Some v <-> stands_for s v.
Proof. exact pri_name. Qed.
Print Assumptions C81_names.
Theorem C81_printed : forall p, a_mask p -> stands_for (pristr p) p.
Proof. intros p H. apply pri_name. exact (proj1 (pri_round p H)). Qed.
Print Assumptions C81_printed.
Example C81_names_ex : str2pri (bstr "err") = Some 4194304%N /\ str2pri (bstr "D12") = Some 393216%N /\ str2pri (bstr "d12") = None /\ pristr 393216 = bstr "D12-".
Proof. repeat split; vm_compute; reflexivity. Qed.

(* facilities: every sequence of mlog_namefacility, mlog_allocfacility, mlog_setlogmask and mlog_setmasks does what SpecLog says *)
Theorem C81_facilities_partial : forall def hint ops, N.land def PRIMASK = def -> (forall o, In o ops -> op_fine o) ->
  let fs := fold_left run_op ops (facs_open def hint) in
  exists s, did_ops (at_first def hint) ops s /\ fs_cnt fs = known s /\
    forall i, (i < known s)%nat -> nth_error (fs_list fs) i = Some (mkFac (mask_of s i) (fst (names_of s i)) (snd (names_of s i))).
Proof.
  intros def hint ops D F fs. destruct (ops_show ops _ _ (open_shows def hint D) F) as (s & O & S). exists s. split; [exact O|].
  destruct S as (C & L & A & _). split; [exact C|]. intros i H. apply A. lia.
Qed.
Print Assumptions C81_facilities_partial.
Example C81_facilities_ex : (forall o, In o some_ops -> op_fine o) /\
  map f_mask (firstn 3 (fs_list (fold_left run_op some_ops (facs_open 4194304 0)))) = [3145728; 393216; 3145728]%N.
Proof. exact (conj some_ops_fine (proj1 some_masks)). Qed.

(* the text of the masks, read by a log with the same facilities, gives it the same masks *)
Theorem C81_text_partial : forall def hint ops def2 hint2 ops2,
  N.land def PRIMASK = def -> (forall o, In o ops -> op_fine o) -> N.land def2 PRIMASK = def2 -> (forall o, In o ops2 -> op_fine o) ->
  let fs := fold_left run_op ops (facs_open def hint) in
  let fs2 := fold_left run_op ops2 (facs_open def2 hint2) in
  exists s s2, did_ops (at_first def hint) ops s /\ did_ops (at_first def2 hint2) ops2 s2 /\
    (can_tell s -> known s2 = known s -> (forall i, (i < known s)%nat -> names_of s2 i = names_of s i) ->
     exists text, getmasks fs true 0 (fst (getmasks fs false 0 0 true)) true = (fst (getmasks fs false 0 0 true), text) /\
       forall i, (i < known s)%nat -> nth_error (fs_list (setmasks fs2 text)) i = nth_error (fs_list fs) i).
Proof.
  intros def hint ops def2 hint2 ops2 D F D2 F2 fs fs2. destruct (ops_show ops _ _ (open_shows def hint D) F) as (s & O & S).
  destruct (ops_show ops2 _ _ (open_shows def2 hint2 D2) F2) as (s2 & O2 & S2). exists s, s2. split; [exact O|]. split; [exact O2|].
  intros T K N. exists (masks_text fs true). split.
  - rewrite slice_is. cbn [getmasks fst]. rewrite Nat2Z.id. change (skipn (Z.to_nat 0) (masks_text fs true)) with (masks_text fs true).
    rewrite firstn_all. reflexivity.
  - destruct (read_back s fs s2 fs2 S T S2 K N) as (s3 & (C3 & L3 & A3 & _) & K3 & M3 & N3). intros i H.
    destruct S as (C & L & A & _). rewrite A3 by lia. rewrite A by lia. unfold fac_is. rewrite (M3 i H), (N3 i H). reflexivity.
Qed.
Print Assumptions C81_text_partial.
Example C81_text_ex : masks_text (fold_left run_op some_ops (facs_open 4194304 0)) true = bstr "MLOG=WARN,network=D12,db=WARN
".
Proof. exact (proj2 some_masks). Qed.
(* a facility without a name is written as its number, which is not read *)
Theorem C81_text_refuted : ~ (forall fs fs2 i, fs = setlogmask (setlogmask (facs_open 4194304 0) 1 983040) 2 1048576 -> fs2 = setnfac (facs_open 4194304 0) 3 -> (i < 3)%nat ->
  option_map f_mask (nth_error (fs_list (setmasks fs2 (masks_text fs true))) i) = option_map f_mask (nth_error (fs_list fs) i)).
Proof. intros K. specialize (K _ _ 1%nat eq_refl eq_refl ltac:(lia)). vm_compute in K. discriminate K. Qed.
Print Assumptions C81_text_refuted.
(* that number in decimal *)
Theorem C81_number : forall i f, f_lname f = None -> f_aname f = None -> SpecOptions.number (fac_name i f) (N.of_nat i).
Proof. exact unnamed_number. Qed.
Print Assumptions C81_number.
Example C81_number_ex : fac_name 210 (mkFac 0 None None) = bstr "210".
Proof. reflexivity. Qed.
(* any part of the text *)
Theorem C81_part : forall fs discard len unterm, let t := snd (getmasks fs true 0 (fst (getmasks fs false 0 0 unterm)) unterm) in
  getmasks fs true discard len unterm = (Z.of_nat (length (firstn (Z.to_nat len) (skipn (Z.to_nat discard) t))), firstn (Z.to_nat len) (skipn (Z.to_nat discard) t)).
Proof.
  intros fs discard len u t. assert (E : t = masks_text fs u).
  { unfold t. rewrite slice_is. cbn [getmasks fst snd]. rewrite Nat2Z.id. change (skipn (Z.to_nat 0) (masks_text fs u)) with (masks_text fs u). apply firstn_all. }
  rewrite E. apply slice_is.
Qed.
Print Assumptions C81_part.
Example C81_part_ex : getmasks (facs_open 4194304 0) true 5 3 true = (3%Z, bstr "ERR").
Proof. vm_compute. reflexivity. Qed.

(* a session that is opened when no other is open writes exactly the messages that its level wants *)
Theorem C81_session_partial : forall pre s lv mid p, quiet pre -> (forall a, In a mid -> exists s f, a = HLog s f) -> N.land lv PRIMASK = lv -> lv <> 0%N ->
  exists r b, hx_run None (pre ++ HOpen s lv :: mid ++ [HLog s p]) = r ++ [Some b] /\ (b = true <-> wanted lv p).
Proof. exact session_is. Qed.
Print Assumptions C81_session_partial.
Example C81_session_ex : hx_run None ([HOpen 0 4194304; HLog 0 3145730; HClose 0] ++ HOpen 1 1048576 :: [HLog 1 5242881] ++ [HLog 1 3145730]%N)
  = [None; Some false; None; None; Some true; Some true].
Proof. vm_compute. reflexivity. Qed.
(* of two sessions in one process the first sets the level, and closing either closes the log of both *)
Theorem C81_session_refuted : ~ (forall l s lv mid p r b, l = [HOpen 0 4194304%N] -> s = 1%nat -> (mid = [] \/ mid = [HClose 0]) ->
  hx_run None (l ++ HOpen s lv :: mid ++ [HLog s p]) = r ++ [Some b] -> N.land lv PRIMASK = lv -> lv <> 0%N -> wanted lv p -> b = true).
Proof.
  intros K. assert (X : false = true); [|discriminate X].
  apply (K [HOpen 0 4194304%N] 1%nat 1048576%N [] 3145728%N [None; None] false eq_refl eq_refl (or_introl eq_refl) (proj1 overlap)); [reflexivity|intros Z; discriminate Z|].
  unfold wanted. left. reflexivity.
Qed.
Print Assumptions C81_session_refuted.
(* stdout gets lines without the date if stderr is a terminal, whatever stdout is *)
Theorem C81_stdout_refuted : ~ (forall fs em o f etty otty pt1 rest x, on_stdout (dispatch fs em o f etty otty pt1 rest) = Some x -> x = if otty then rest else pt1 ++ rest).
Proof.
  intros K. specialize (K (facs_open 0 0) 0%N 0%N 34603008%N true false (bstr "d "%string) (bstr "t"%string) (bstr "t"%string)).
  specialize (K ltac:(vm_compute; reflexivity)). vm_compute in K. discriminate K.
Qed.
Print Assumptions C81_stdout_refuted.
