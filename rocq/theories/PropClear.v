(* C92 Clearing and printing histograms *)
From Verif Require Import ModelBytes ModelElen ModelHist ModelGen SpecHist SpecMsg ProofHist ProofHist2 ExampleHist ModelClear ProofClear.
Local Open Scope N_scope.

(* Histograms that are not cleared are those of C43 to C45 *)
Theorem C92_same : forall name f g vals, use_all (hist_new name f (Some g)) (map UAdd vals) = hist_adds (hist_new name f (Some g)) vals.
Proof. intros name f g vals. exact (same_adds name f g vals [] _ (hinv_new _ _ _)). Qed.
Print Assumptions C92_same.
Example C92_same_ex : exists h, use_all (hist_new (bstr "h") 2 (Some gen_min)) (map UAdd [d5; d1; d3]) = Ok h /\ h_count h = 3.
Proof. eexists. split; vm_compute; reflexivity. Qed.

(* get_cache gives the limit and the first values *)
Theorem C92_cache : forall name f g vals h, use_all (hist_new name f (Some g)) (map UAdd vals) = Ok h ->
  get_cache h = (f, N.min f (N.of_nat (length vals))) /\ firstn (N.to_nat (snd (get_cache h))) (cells h) = firstn (N.to_nat f) vals.
Proof. exact cached. Qed.
Print Assumptions C92_cache.
Example C92_cache_ex : exists h, use_all (hist_new (bstr "h") 2 (Some gen_min)) (map UAdd [d5; d1; d3]) = Ok h /\ get_cache h = (2, 2) /\ cells h = [d5; d1].
Proof. eexists. split; [ vm_compute; reflexivity |]. split; reflexivity. Qed.

(* After clear, whatever happened before, there are no buckets and no values, and what is sent to others is an empty histogram of the same name that is read back as it is *)
Theorem C92_cleared : forall h, u64 (blen (h_name h)) ->
  hist_get (hist_clear h) = Some (None, 0, None, 0) /\ get_cache (hist_clear h) = (0, 0) /\
  exists b h', hist_pack (hist_clear h) = Ok b /\ blen b = blen (h_name h) + 32 /\ hist_unpack (hist_new [] 0 None) (blen b) b = Ok (Some h', []) /\
    h_name h' = h_name h /\ h_first_n h' = 0 /\ h_count h' = 0 /\ h_buckets h' = None /\ h_counts h' = None.
Proof.
  intros h U. split; [ reflexivity |]. split; [ reflexivity |]. exact (cleared_wire h U).
Qed.
Print Assumptions C92_cleared.
Example C92_cleared_ex : exists h, use_all (hist_new (bstr "h") 2 (Some gen_min)) (map UAdd [d5; d1; d3]) = Ok h /\ u64 (blen (h_name h)) /\ h_buckets h <> None.
Proof. eexists. split; [ vm_compute; reflexivity |]. split; [ reflexivity | discriminate ]. Qed.

(* Without a limit a cleared histogram is a new one, however it was used; *)
Theorem C92_zero : forall name g l h, use_all (hist_new name 0 g) l = Ok h -> hist_clear h = hist_new name 0 g.
Proof. exact clear_zero. Qed.
Print Assumptions C92_zero.
Example C92_zero_ex : exists h, use_all (hist_new (bstr "h") 0 (Some gen_min)) [UAdd d5; UClear; UAdd d1] = Ok h /\ h_count h = 1.
Proof. eexists. split; vm_compute; reflexivity. Qed.

(* with one it is not: clear sets the limit to 0 and leaves the cache. The next value makes the buckets, and they are made of the first value
   from before clear (0 if there was none), not of the values that are added now; those below the first boundary are not counted. *)
Theorem C92_stale_refuted : forall name f g vals0 v vals, f <> 0 -> f < 2 ^ 64 -> good_generator g -> Forall is_finite (firstn (N.to_nat f) vals0) ->
  exists bs up cs h, g (Some [hd 0 vals0]) = Ok (Some bs) /\ use_all (hist_new name f (Some g)) (map UAdd vals0 ++ UClear :: map UAdd (v :: vals)) = Ok h /\
    hist_get h = Some (Some bs, up, Some cs, N.of_nat (length bs)) /\ h_count h = N.of_nat (length (v :: vals)) /\ total cs = in_some_bucket bs (v :: vals) /\
    forall i, (i < length bs)%nat -> nth_error cs i = Some (in_count bs i (v :: vals)).
Proof. exact refills. Qed.
Print Assumptions C92_stale_refuted.
Example C92_stale_ex : 2 <> 0 /\ 2 < 2 ^ 64 /\ good_generator gen_min /\ Forall is_finite (firstn (N.to_nat 2) [d5; d1]) /\
  (exists up h, use_all (hist_new (bstr "h") 2 (Some gen_min)) (map UAdd [d5; d1] ++ UClear :: map UAdd [d1; d3]) = Ok h /\
     hist_get h = Some (Some [d5], up, Some [0], 1) /\ h_count h = 2).
Proof.
  split; [ discriminate |]. split; [ reflexivity |]. split; [ exact gen_min_good |]. split; [ fin |].
  eexists. eexists. split; [ vm_compute; reflexivity |]. split; reflexivity.
Qed.

(* So after one value a cleared histogram with a limit of two or more has buckets, and a new one has none. *)
Theorem C92_reset_refuted : forall name f g vals0 v, 1 < f -> f < 2 ^ 64 -> good_generator g -> Forall is_finite (firstn (N.to_nat f) vals0) ->
  exists h h' r, use_all (hist_new name f (Some g)) [UAdd v] = Ok h /\ hist_get h = None /\
    use_all (hist_new name f (Some g)) (map UAdd vals0 ++ [UClear; UAdd v]) = Ok h' /\ hist_get h' = Some r.
Proof. exact differs. Qed.
Print Assumptions C92_reset_refuted.
Example C92_reset_ex : 1 < 2 /\ 2 < 2 ^ 64 /\ good_generator gen_min /\ Forall is_finite (firstn (N.to_nat 2) [d5; d1]).
Proof. split; [ reflexivity |]. split; [ reflexivity |]. split; [ exact gen_min_good | fin ]. Qed.

(* Printing, which the destructor does, is always possible: a line with the number of values, and if there are buckets one for each of them and one for the end *)
Theorem C92_print : forall name f g l h show indent, use_all (hist_new name f g) l = Ok h ->
  exists t, print_lines show indent h = Ok t /\ length t = (if h_size h =? 0 then 1%nat else (N.to_nat (h_size h) + 2)%nat) /\
    hd [] t = indent ++ bstr "Histogram has " ++ to_string (h_count h) ++ bstr " values" /\
    forall bs cs, h_size h <> 0 -> h_buckets h = Some bs -> h_counts h = Some cs ->
      nth_error t (S (N.to_nat (h_size h))) = Some (indent ++ indent ++ show (h_upper h)) /\
      forall i b c, nth_error bs i = Some b -> nth_error cs i = Some c -> nth_error t (S i) = Some (indent ++ indent ++ show b ++ bstr ": " ++ to_string c).
Proof.
  intros name f g l h show indent E. destruct (prints show indent h) as (t & A & B & C); [| exists t; repeat (split; [ assumption |]); intros bs cs; exact (printed show indent h t bs cs A) ].
  apply (use_whole l (hist_new name f g) h); [ left; split; reflexivity | reflexivity | exact E ].
Qed.
Print Assumptions C92_print.
Example C92_print_ex : exists h, use_all (hist_new (bstr "h") 2 (Some gen_ex)) [UAdd d1; UClear; UAdd d3; UAdd d1] = Ok h /\
  print_lines (fun n => to_string (n / 2 ^ 51)) (bstr " ") h = Ok (map (fun s => bstr s) [" Histogram has 2 values"; "  2046: 1"; "  2049: 1"; "  2049"]%string).
Proof. eexists. split; vm_compute; reflexivity. Qed.
