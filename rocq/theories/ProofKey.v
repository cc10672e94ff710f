From Verif Require Import ModelBytes ProofBytes ModelKey.
Local Open Scope N_scope.

Lemma bsub_app a b c : bsub (a ++ b ++ c) (blen a) (blen b) = Ok b.
Proof.
  unfold bsub, blen. rewrite !app_length.
  destruct (N.leb_spec (N.of_nat (length a) + N.of_nat (length b))
                       (N.of_nat (length a + (length b + length c)))); [|lia].
  rewrite !Nat2N.id, skipn_app_exact, firstn_app_exact. reflexivity.
Qed.

Lemma bsub_at a b c off n : off = blen a -> n = blen b -> bsub (a ++ b ++ c) off n = Ok b.
Proof. intros -> ->. apply bsub_app. Qed.

Lemma bsub_0 b c : bsub (b ++ c) 0 (blen b) = Ok b.
Proof. exact (bsub_app [] b c). Qed.

Lemma bback_ok o n m : o = m + n -> bback o n = Ok m.
Proof. intros ->. unfold bback. destruct (N.leb_spec n (m + n)); [|lia]. f_equal. lia. Qed.

Definition field_ok (f : field) : Prop := blen (f_data f) < 2 ^ 64 /\ f_type f < 256.

Lemma key_to_sp_of_key s p : field_ok s -> field_ok p -> key_to_sp (sp_to_key s p) = Ok (s, p).
Proof.
  intros [Hs Hts] [Hp Htp]. destruct s as [s ts], p as [p tp]. cbn [f_data f_type] in *.
  unfold sp_to_key. cbn [f_data f_type].
  set (ls := le_enc 8 (blen s)). set (lp := le_enc 8 (blen p)).
  set (bts := le_enc 1 ts). set (btp := le_enc 1 tp).
  assert (Lls : blen ls = 8) by reflexivity. assert (Llp : blen lp = 8) by reflexivity.
  assert (Lts : blen bts = 1) by reflexivity. assert (Ltp : blen btp = 1) by reflexivity.
  assert (Lt : blen [key_terminator] = 1) by reflexivity.
  unfold key_to_sp.
  set (key := s ++ p ++ [key_terminator] ++ ls ++ lp ++ bts ++ btp).
  assert (Lk : blen key = blen s + blen p + 19).
  { unfold key. rewrite !blen_app, Lls, Llp, Lts, Ltp, Lt. lia. }
  rewrite Lk.
  rewrite (bback_ok _ 1 (blen s + blen p + 18)) by lia. cbn [obind].
  replace key with ((s ++ p ++ [key_terminator] ++ ls ++ lp ++ bts) ++ btp ++ [])
    by (unfold key; rewrite app_nil_r, <- !app_assoc; reflexivity).
  rewrite bsub_at by (rewrite ?blen_app; lia). cbn [obind].
  rewrite (bback_ok _ 1 (blen s + blen p + 17)) by lia. cbn [obind].
  replace ((s ++ p ++ [key_terminator] ++ ls ++ lp ++ bts) ++ btp ++ [])
    with ((s ++ p ++ [key_terminator] ++ ls ++ lp) ++ bts ++ btp)
    by (rewrite app_nil_r, <- !app_assoc; reflexivity).
  rewrite bsub_at by (rewrite ?blen_app; lia). cbn [obind].
  rewrite (bback_ok _ 8 (blen s + blen p + 9)) by lia. cbn [obind].
  replace ((s ++ p ++ [key_terminator] ++ ls ++ lp) ++ bts ++ btp)
    with ((s ++ p ++ [key_terminator] ++ ls) ++ lp ++ bts ++ btp)
    by (rewrite <- !app_assoc; reflexivity).
  rewrite bsub_at by (rewrite ?blen_app; lia). cbn [obind].
  rewrite (bback_ok _ 8 (blen s + blen p + 1)) by lia. cbn [obind].
  replace ((s ++ p ++ [key_terminator] ++ ls) ++ lp ++ bts ++ btp)
    with ((s ++ p ++ [key_terminator]) ++ ls ++ lp ++ bts ++ btp)
    by (rewrite <- !app_assoc; reflexivity).
  rewrite bsub_at by (rewrite ?blen_app; lia). cbn [obind].
  rewrite (bback_ok _ 1 (blen s + blen p)) by lia. cbn [obind].
  unfold lp, ls at 1 2 3, bts, btp.
  rewrite (le_dec_enc 8 (blen p)) by exact Hp.
  rewrite (bback_ok _ (blen p) (blen s)) by lia. cbn [obind].
  rewrite <- !app_assoc.
  rewrite bsub_at by lia. cbn [obind].
  rewrite (le_dec_enc 8 (blen s)) by exact Hs.
  unfold ls.
  rewrite bsub_0. cbn [obind].
  rewrite !le_dec_enc by assumption. reflexivity.
Qed.

Lemma sp_to_key_inj s p s' p' :
  field_ok s -> field_ok p -> field_ok s' -> field_ok p' ->
  sp_to_key s p = sp_to_key s' p' -> s = s' /\ p = p'.
Proof.
  intros Hs Hp Hs' Hp' H.
  pose proof (key_to_sp_of_key s p Hs Hp) as E. rewrite H, (key_to_sp_of_key s' p' Hs' Hp') in E.
  injection E as -> ->. auto.
Qed.
