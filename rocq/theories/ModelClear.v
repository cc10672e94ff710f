(* Clearing and printing histograms: src/utils/Histogram.cpp:532-553. ModelHist.v has histograms that are never cleared; here the cache is an
   array whose contents outlive clear. Doubles are 64-bit patterns; how std::ostream writes a double is a parameter. *)
From Verif Require Import ModelBytes ModelElen ModelHist.
Local Open Scope N_scope.

(* cache_: alloc_array<double>(first_n_), Histogram.cpp:171, makes zeros, memory.hpp:29-41; h_cache are the elements up to the last one written *)
Definition cells (h : hist) : list N := h_cache h ++ repeat 0 (N.to_nat (h_cap h) - length (h_cache h)).

(* clear, 532-543: the cache stays, with its contents; first_n_ becomes 0 *)
Definition hist_clear (h : hist) : hist := mkHist (h_name h) 0 (h_gen h) (h_cap h) (h_cache h) 0 None 0 None 0.

(* what the generator gets to see, 215: count_ elements of cache_ *)
Definition seen_values (h : hist) : outcome (option (list N)) :=
  if h_cap h =? 0 then Ok None
  else if h_count h <=? h_cap h then Ok (Some (firstn (N.to_nat (h_count h)) (cells h))) else UB.
Definition with_cache (h : hist) (c : list N) (n : N) : hist :=
  mkHist (h_name h) (h_first_n h) (h_gen h) (h_cap h) c n (h_buckets h) (h_upper h) (h_counts h) (h_size h).
(* the end of add, 231-233 *)
Definition insert_new (h : hist) (v : N) : outcome (hist * bool) :=
  if h_first_n h <? h_count h then do h' <- hist_insert h v; Ok (h', true) else Ok (h, true).
(* add, 203-237; true = HISTOGRAM_SUCCESS *)
Definition add_value (h : hist) (v : N) : outcome (hist * bool) :=
  do h1 <- (if h_count h <? h_first_n h                                                                        (* 205-207 *)
            then if h_count h <? h_cap h
                 then Ok (with_cache h (firstn (N.to_nat (h_count h)) (cells h) ++ v :: skipn (S (N.to_nat (h_count h))) (h_cache h)) (h_count h + 1))
                 else UB
            else Ok (with_cache h (h_cache h) (h_count h + 1)));                                              (* 209 *)
  if h_count h1 <? h_first_n h1 then Ok (h1, true) else                                                        (* 212 *)
  match h_buckets h1 with
  | Some _ => insert_new h1 v
  | None =>
      match h_gen h1 with
      | None => UB                                                                                             (* a null pointer is called *)
      | Some g =>
          do inp <- seen_values h1;
          do made <- g inp;
          match made with
          | None => Ok (h1, false)                                                                             (* 215-218 *)
          | Some bs =>
              let '(h2, counted) := hist_gen_counts (mkHist (h_name h1) (h_first_n h1) (h_gen h1) (h_cap h1) (h_cache h1) (h_count h1)
                                                            (Some bs) 0 (h_counts h1) (N.of_nat (length bs))) in
              if counted then
                let h3 := mkHist (h_name h2) (h_first_n h2) (h_gen h2) (h_cap h2) (h_cache h2) (h_count h2)
                                 (h_buckets h2) DBL_MIN (h_counts h2) (h_size h2) in                           (* 221 *)
                if h_first_n h3 <=? h_cap h3 then                                                              (* 224-226 *)
                  do h4 <- hist_insert_all h3 (firstn (N.to_nat (h_first_n h3)) (cells h3));
                  insert_new h4 v
                else UB
              else Ok (h2, false)
          end
      end
  end.

Inductive use := UAdd (v : N) | UClear.
Definition use_one (h : hist) (u : use) : outcome hist :=
  match u with UAdd v => do (h', r) <- add_value h v; Ok h' | UClear => Ok (hist_clear h) end.
Fixpoint use_all (h : hist) (l : list use) : outcome hist :=
  match l with [] => Ok h | u :: l' => do h' <- use_one h u; use_all h' l' end.

(* get_cache, 280-296: first_n and the number of values; the array itself is cells *)
Definition get_cache (h : hist) : N * N := (h_first_n h, N.min (h_first_n h) (h_count h)).

(* print, 545-553, which the destructor calls (181-189); the lines *)
Fixpoint bucket_lines (show : N -> bytes) (indent : bytes) (bs cs : list N) : list bytes :=
  match bs, cs with
  | b :: bs', c :: cs' => (indent ++ indent ++ show b ++ bstr ": " ++ to_string c) :: bucket_lines show indent bs' cs'
  | _, _ => []
  end.
Definition print_lines (show : N -> bytes) (indent : bytes) (h : hist) : outcome (list bytes) :=
  do rest <- (if h_size h =? 0 then Ok []
              else match h_buckets h, h_counts h with
                   | Some bs, Some cs => if (N.of_nat (length bs) =? h_size h) && (N.of_nat (length cs) =? h_size h)
                                         then Ok (bucket_lines show indent bs cs ++ [indent ++ indent ++ show (h_upper h)]) else UB
                   | _, _ => UB
                   end);
  Ok ((indent ++ bstr "Histogram has " ++ to_string (h_count h) ++ bstr " values") :: rest).
