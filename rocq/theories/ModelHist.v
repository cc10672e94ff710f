(* Histograms: src/utils/Histogram.cpp. A double is its 64-bit pattern. *)
From Verif Require Import ModelBytes ModelWire.
Local Open Scope N_scope.

(* IEEE binary64 comparison on bit patterns *)
Definition d_sign (d : N) : bool := 2 ^ 63 <=? d.
Definition d_mag (d : N) : N := d mod 2 ^ 63.
Definition d_nan (d : N) : bool := 0x7ff0000000000000 <? d_mag d.
(* monotone integer key of a non-NaN double; both zeros map to 0 *)
Definition d_key (d : N) : Z := if d_sign d then (- Z.of_N (d_mag d))%Z else Z.of_N (d_mag d).
(* a < b *)
Definition d_lt (a b : N) : bool := negb (d_nan a) && negb (d_nan b) && (d_key a <? d_key b)%Z.

(* std::numeric_limits<double>::min(): the smallest positive normal *)
Definition DBL_MIN : N := 0x0010000000000000.

(* HistogramBucketGenerator_t (include/utils/Histogram.h) with its extra argument already applied (ModelGen.v has the ones of hxhim).
   Input: None = null first_n pointer, Some l = the n values.
   Output: None = HISTOGRAM_ERROR, buckets and size untouched (as all built-in generators do);
   Some l = HISTOGRAM_SUCCESS, *size = |l|, *buckets = l plus one more slot. *)
Definition generator := option (list N) -> outcome (option (list N)).

(* class Histogram, include/utils/Histogram.hpp:59-71.
   h_cache holds the values written to cache_ so far, h_cap is the allocated length (0 = null pointer).
   buckets_ has size_+1 slots: h_buckets are the first size_, h_upper is the last. *)
Record hist := mkHist {
  h_name : bytes;
  h_first_n : N;
  h_gen : option generator;
  h_cap : N;
  h_cache : list N;
  h_count : N;
  h_buckets : option (list N);
  h_upper : N;
  h_counts : option (list N);
  h_size : N }.

(* Histogram(config, name), src/utils/Histogram.cpp:166-176 *)
Definition hist_new (name : bytes) (first_n : N) (g : option generator) : hist :=
  mkHist name first_n g first_n [] 0 None 0 None 0.

(* std::upper_bound(buckets_, buckets_ + size_, value) - buckets_, Histogram.cpp:587.
   The standard requires the range to be partitioned with respect to value; otherwise UB. *)
Fixpoint upper_bound (l : list N) (v : N) : outcome nat :=
  match l with
  | [] => Ok O
  | b :: l' =>
      if d_lt v b
      then (if forallb (fun b' => d_lt v b') l' then Ok O else UB)
      else do n <- upper_bound l' v; Ok (S n)
  end.

(* counts_[i]++ *)
Fixpoint incr (l : list N) (i : nat) : outcome (list N) :=
  match l, i with
  | [], _ => UB
  | c :: l', O => Ok (c + 1 :: l')
  | c :: l', S i' => do l'' <- incr l' i'; Ok (c :: l'')
  end.

(* insert, Histogram.cpp:582-600; the return value is ignored by every caller *)
Definition hist_insert (h : hist) (v : N) : outcome hist :=
  match h_buckets h, h_counts h with
  | Some bs, Some cs =>
      if h_size h =? 0 then Ok h else                                  (* 583 *)
      do i <- upper_bound bs v;                                        (* 587 *)
      match i with
      | O => Ok h                                                      (* 588-590 *)
      | S i' =>
          do cs' <- incr cs i';                                        (* 592 *)
          let up := if d_lt (h_upper h) v then v else h_upper h in     (* 595-597 *)
          Ok (mkHist (h_name h) (h_first_n h) (h_gen h) (h_cap h) (h_cache h) (h_count h)
                     (Some bs) up (Some cs') (h_size h))
      end
  | _, _ => Ok h
  end.

Fixpoint hist_insert_all (h : hist) (l : list N) : outcome hist :=
  match l with
  | [] => Ok h
  | v :: l' => do h' <- hist_insert h v; hist_insert_all h' l'
  end.

(* gen_counts, Histogram.cpp:562-572: counts_ zeroed, error when the size is 0 *)
Definition hist_gen_counts (h : hist) : hist * bool :=
  if h_count h <? h_first_n h then (h, false)
  else
    let cs := if h_size h =? 0 then h_counts h else Some (repeat 0 (N.to_nat (h_size h))) in
    (mkHist (h_name h) (h_first_n h) (h_gen h) (h_cap h) (h_cache h) (h_count h)
            (h_buckets h) (h_upper h) cs (h_size h),
     match cs with Some _ => true | None => false end).

(* what the generator gets to see: gen_(cache_, count_, ...), Histogram.cpp:215.
   count_ beyond the allocation of a non-null cache_ is an out-of-bounds read. *)
Definition gen_input (h : hist) : outcome (option (list N)) :=
  if h_cap h =? 0 then Ok None
  else if h_count h <=? h_cap h then Ok (Some (h_cache h)) else UB.

(* add, Histogram.cpp:203-237; true = HISTOGRAM_SUCCESS *)
Definition hist_add (h : hist) (v : N) : outcome (hist * bool) :=
  do h1 <- (if h_count h <? h_first_n h                                  (* 205-207 *)
            then if h_count h <? h_cap h
                 then Ok (mkHist (h_name h) (h_first_n h) (h_gen h) (h_cap h) (h_cache h ++ [v]) (h_count h)
                                 (h_buckets h) (h_upper h) (h_counts h) (h_size h))
                 else UB
            else Ok h);
  let h2 := mkHist (h_name h1) (h_first_n h1) (h_gen h1) (h_cap h1) (h_cache h1) (h_count h1 + 1)
                   (h_buckets h1) (h_upper h1) (h_counts h1) (h_size h1) in   (* 209 *)
  if h_first_n h2 <=? h_count h2 then                                    (* 212 *)
    match h_buckets h2 with
    | Some _ =>
        if h_first_n h2 <? h_count h2                                    (* 231-233 *)
        then do h3 <- hist_insert h2 v; Ok (h3, true) else Ok (h2, true)
    | None =>
        match h_gen h2 with
        | None => UB                                                     (* call through a null pointer *)
        | Some g =>
            do inp <- gen_input h2;
            do made <- g inp;
            match made with
            | None => Ok (h2, false)                                     (* 215-218 *)
            | Some bs =>
                let h3 := mkHist (h_name h2) (h_first_n h2) (h_gen h2) (h_cap h2) (h_cache h2) (h_count h2)
                                 (Some bs) 0 (h_counts h2) (N.of_nat (length bs)) in
                let '(h4, okc) := hist_gen_counts h3 in
                if okc then
                  let h5 := mkHist (h_name h4) (h_first_n h4) (h_gen h4) (h_cap h4) (h_cache h4) (h_count h4)
                                   (h_buckets h4) DBL_MIN (h_counts h4) (h_size h4) in  (* 221 *)
                  (* 224-226: cache_[i] for i < first_n_ *)
                  do h6 <- (if h_first_n h5 =? N.of_nat (length (h_cache h5))
                            then hist_insert_all h5 (h_cache h5) else UB);
                  if h_first_n h6 <? h_count h6                          (* 231-233 *)
                  then do h7 <- hist_insert h6 v; Ok (h7, true) else Ok (h6, true)
                else Ok (h4, false)
            end
        end
    end
  else Ok (h2, true).

(* a sequence of additions *)
Fixpoint hist_adds (h : hist) (l : list N) : outcome hist :=
  match l with
  | [] => Ok h
  | v :: l' => do (h', _) <- hist_add h v; hist_adds h' l'
  end.

(* get, Histogram.cpp:310-328: None = HISTOGRAM_ERROR *)
Definition hist_get (h : hist) : option (option (list N) * N * option (list N) * N) :=
  if h_count h <? h_first_n h then None
  else Some (h_buckets h, h_upper h, h_counts h, h_size h).

Fixpoint interleave (bs cs : list N) : bytes :=
  match bs, cs with
  | b :: bs', c :: cs' => le_enc 8 b ++ le_enc 8 c ++ interleave bs' cs'
  | _, _ => []
  end.

(* pack_size, Histogram.cpp:338-354 *)
Definition hist_pack_size (h : hist) : N :=
  8 + blen (h_name h) + 8 + 8 + 8
  + (if h_count h <? h_first_n h then 8 * h_count h else 0)
  + (if h_size h =? 0 then 0 else h_size h * (8 + 8) + 8).

(* pack, Histogram.cpp:392-443, without the avail check (see hist_pack_into) *)
Definition hist_pack (h : hist) : outcome bytes :=
  do c <- (if h_count h <? h_first_n h
           then if h_count h <=? N.of_nat (length (h_cache h))
                then Ok (flat_map (le_enc 8) (firstn (N.to_nat (h_count h)) (h_cache h))) else UB
           else Ok []);
  do b <- (if h_size h =? 0 then Ok []
           else match h_buckets h, h_counts h with
                | Some bs, Some cs =>
                    if (N.of_nat (length bs) =? h_size h) && (N.of_nat (length cs) =? h_size h)
                    then Ok (interleave bs cs ++ le_enc 8 (h_upper h)) else UB
                | _, _ => UB
                end);
  Ok (le_enc 8 (blen (h_name h)) ++ h_name h ++ le_enc 8 (h_count h) ++ le_enc 8 (h_first_n h)
      ++ c ++ le_enc 8 (h_size h) ++ b).

Definition rd_pair : parser (N * N) := rd b <- rd_u 8; rd c <- rd_u 8; pret (b, c).

(* unpack, Histogram.cpp:463-525; the result None is `return false` (size < 32) with the pointer unmoved.
   [avail] is the size argument; [h] the object being overwritten. clear() is 532-543. *)
Definition hist_unpack (h : hist) (avail : N) : parser (option hist) := fun s =>
  if avail <? 32 then Ok (None, s)
  else
    (rd nl <- rd_u 8; rd name <- take nl;
     rd count <- rd_u 8; rd first_n <- rd_u 8;
     rd (cap, cache) <- (if count <? first_n
                         then rd l <- rd_list (N.to_nat count) (rd_u 8); pret (first_n, l)
                         else pret (h_cap h, h_cache h));
     rd size <- rd_u 8;
     if size =? 0
     then pret (Some (mkHist name first_n (h_gen h) cap cache count None 0 None 0))
     else if count <? first_n
     then (fun _ => UB)       (* gen_counts fails, counts_[i] is a write through a null pointer *)
     else rd l <- rd_list (N.to_nat size) rd_pair; rd up <- rd_u 8;
          pret (Some (mkHist name first_n (h_gen h) cap cache count
                             (Some (map fst l)) up (Some (map snd l)) size))) s.
