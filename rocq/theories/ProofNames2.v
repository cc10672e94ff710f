(* Blobs that print alike are alike *)
From Verif Require Import ModelBytes ProofBytes ModelElen ProofElen ProofRoute2 ModelKey ModelHist ModelMsg ModelStore ModelGetOp ModelDs ModelNames SpecNames ProofNames.
Local Open Scope N_scope.

Definition unhex (c : byte) : N := let x := N_of_ascii c in if x <? 58 then x - 48 else x - 87.
Definition hex_val (s : bytes) : N := fold_left (fun a c => a * 16 + unhex c) s 0.
Lemma hexdigit_code d : d < 16 -> N_of_ascii (hexdigit d) = (if d <? 10 then 48 + d else 87 + d).
Proof. intros H. unfold hexdigit. apply N_ascii_embedding. destruct (d <? 10); lia. Qed.
Lemma unhex_digit d : d < 16 -> unhex (hexdigit d) = d.
Proof.
  intros H. unfold unhex. rewrite hexdigit_code by exact H. destruct (N.ltb_spec d 10).
  - destruct (N.ltb_spec (48 + d) 58); lia.
  - destruct (N.ltb_spec (87 + d) 58); lia.
Qed.
Lemma hex_fuel_val : forall f n, n < 16 * 2 ^ N.of_nat f -> hex_val (hex_fuel f n) = n.
Proof.
  induction f as [|f IH]; intros n H; cbn [hex_fuel].
  - change (2 ^ N.of_nat 0) with 1 in H. unfold hex_val. cbn [fold_left]. rewrite unhex_digit; [|apply N.mod_lt; lia]. rewrite N.mod_small; lia.
  - destruct (N.ltb_spec n 16).
    + unfold hex_val. cbn [fold_left]. rewrite unhex_digit; lia.
    + unfold hex_val. rewrite fold_left_app. cbn [fold_left]. fold (hex_val (hex_fuel f (n / 16))). rewrite IH.
      * rewrite unhex_digit; [|apply N.mod_lt; lia]. pose proof (N.div_mod n 16). lia.
      * rewrite Nat2N.inj_succ, N.pow_succ_r' in H. apply N.div_lt_upper_bound; lia.
Qed.
Lemma hex_fuel_plain : forall f n c, In c (hex_fuel f n) -> c <> ","%char.
Proof.
  assert (D : forall d, d < 16 -> hexdigit d <> ","%char).
  { intros d H E. apply (f_equal N_of_ascii) in E. rewrite hexdigit_code in E by exact H. change (N_of_ascii ",") with 44 in E. destruct (d <? 10); lia. }
  induction f as [|f IH]; intros n c H; cbn [hex_fuel] in H.
  - destruct H as [<-|[]]. apply D, N.mod_lt. lia.
  - destruct (N.ltb_spec n 16).
    + destruct H as [<-|[]]. apply D. assumption.
    + apply in_app_or in H as [H|[<-|[]]]; [eapply IH; exact H|]. apply D, N.mod_lt. lia.
Qed.
Lemma size_hex n : n < 16 * 2 ^ N.of_nat (N.size_nat n).
Proof.
  assert (H : n < 2 ^ N.of_nat (N.size_nat n)); [|lia].
  destruct n as [|p]; [reflexivity|]. pose proof (N.size_gt (N.pos p)) as H. cbn [N.size N.size_nat] in *.
  replace (N.of_nat (Pos.size_nat p)) with (N.pos (Pos.size p)); [exact H|].
  clear H. induction p as [p IH|p IH|]; cbn [Pos.size Pos.size_nat]; [| |reflexivity]; rewrite Nat2N.inj_succ, <- IH; reflexivity.
Qed.
Lemma show_ptr_inj a b : show_ptr a = show_ptr b -> a = b.
Proof.
  unfold show_ptr. destruct (N.eqb_spec a 0) as [->|], (N.eqb_spec b 0) as [->|]; intros H; try reflexivity; try discriminate H.
  apply app_inv_head in H. rewrite <- (hex_fuel_val _ a (size_hex a)), <- (hex_fuel_val _ b (size_hex b)), H. reflexivity.
Qed.
Lemma show_ptr_plain a : ~ In ","%char (show_ptr a).
Proof.
  unfold show_ptr. destruct (a =? 0); [intros [H|[]]; discriminate H|]. intros H. apply in_app_or in H as [H|H].
  - destruct H as [H|[H|[]]]; discriminate H.
  - exact (hex_fuel_plain _ _ _ H eq_refl).
Qed.
Lemma to_string_no_comma n : ~ In ","%char (to_string n).
Proof. intros H. destruct (to_string_spec n) as [A _]. unfold all_digits in A. rewrite Forall_forall in A. specialize (A _ H). discriminate A. Qed.
Lemma comma_cut : forall a b x y, ~ In ","%char a -> ~ In ","%char b -> a ++ ","%char :: x = b ++ ","%char :: y -> a = b /\ x = y.
Proof.
  induction a as [|c a IH]; intros [|d b] x y A B H; cbn [app] in H.
  - injection H as H. auto.
  - injection H as H _. exfalso. apply B. left. symmetry. exact H.
  - injection H as H _. exfalso. apply A. left. exact H.
  - injection H as -> H. destruct (IH b x y) as [-> ->]; auto; intros C; [apply A|apply B]; right; exact C.
Qed.
Definition type_text (t : N) : bytes := if t <=? 9 then bstr (name t) else bstr "Unknown Type (" ++ to_string t ++ bstr ")".
Lemma small10 t : t <= 9 -> t = 0 \/ t = 1 \/ t = 2 \/ t = 3 \/ t = 4 \/ t = 5 \/ t = 6 \/ t = 7 \/ t = 8 \/ t = 9.
Proof. lia. Qed.
Lemma type_text_inj a b : type_text a = type_text b -> a = b.
Proof.
  unfold type_text. destruct (N.leb_spec a 9) as [A|A], (N.leb_spec b 9) as [B|B]; intros H.
  - apply small10 in A, B. destruct A as [->|[->|[->|[->|[->|[->|[->|[->|[->| ->]]]]]]]]], B as [->|[->|[->|[->|[->|[->|[->|[->|[->| ->]]]]]]]]]; first [reflexivity|discriminate H].
  - apply small10 in A. destruct A as [->|[->|[->|[->|[->|[->|[->|[->|[->| ->]]]]]]]]]; discriminate H.
  - apply small10 in B. destruct B as [->|[->|[->|[->|[->|[->|[->|[->|[->| ->]]]]]]]]]; discriminate H.
  - apply app_inv_head, app_inv_tail, to_string_inj in H. exact H.
Qed.
Lemma type_text_plain t : ~ In ","%char (type_text t).
Proof.
  unfold type_text. destruct (N.leb_spec t 9) as [A|A]; intros H.
  - apply small10 in A. destruct A as [->|[->|[->|[->|[->|[->|[->|[->|[->| ->]]]]]]]]]; cbn in H; repeat (destruct H as [H|H]; [discriminate H|]); exact H.
  - apply in_app_or in H as [H|H]; [cbn in H; repeat (destruct H as [H|H]; [discriminate H|]); exact H|].
    apply in_app_or in H as [H|H]; [exact (to_string_no_comma _ H)|cbn in H; repeat (destruct H as [H|H]; [discriminate H|]); exact H].
Qed.
Lemma show_blob_text p l t c : show_blob p l t c =
  Ok (bstr "[" ++ show_ptr p ++ ","%char :: " "%char :: to_string l ++ ","%char :: " "%char :: type_text t ++ ","%char :: " "%char :: bstr (if c then "true]" else "false]")).
Proof.
  unfold show_blob, type_text. destruct (N.leb_spec t 9) as [H|H].
  - rewrite (name_known t H). cbn [obind]. f_equal. destruct c; reflexivity.
  - cbn [obind]. f_equal. destruct c; reflexivity.
Qed.
Lemma show_blob_inj p l t c p' l' t' c' : show_blob p l t c = show_blob p' l' t' c' -> (p, l, t, c) = (p', l', t', c').
Proof.
  rewrite !show_blob_text. intros H. apply Ok_inj in H. apply app_inv_head in H.
  apply comma_cut in H as [H1 H]; [|apply show_ptr_plain..]. injection H as H. apply comma_cut in H as [H2 H]; [|apply to_string_no_comma..].
  injection H as H. apply comma_cut in H as [H3 H]; [|apply type_text_plain..].
  apply show_ptr_inj in H1. apply to_string_inj in H2. apply type_text_inj in H3. subst. destruct c, c'; (reflexivity || discriminate H).
Qed.
