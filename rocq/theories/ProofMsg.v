From Verif Require Import ModelBytes ProofBytes ModelWire ModelHist ModelMsg SpecMsg.
Local Open Scope N_scope.

Lemma take_app a s n : n = blen a -> take n (a ++ s) = Ok (a, s).
Proof.
  intros ->. unfold take. rewrite blen_app.
  destruct (N.leb_spec (blen a) (blen a + blen s)); [|lia].
  unfold blen. rewrite Nat2N.id, firstn_app_exact, skipn_app_exact. reflexivity.
Qed.

Lemma rd_u_app k kn n s : kn = N.of_nat k -> n < 256 ^ kn -> rd_u kn (le_enc k n ++ s) = Ok (n, s).
Proof.
  intros -> H. unfold rd_u, pbind. rewrite take_app by (unfold blen; rewrite le_enc_length; reflexivity).
  cbn [obind]. unfold pret. rewrite le_dec_enc by exact H. reflexivity.
Qed.

Lemma rd_u8 n s : u64 n -> rd_u 8 (le_enc 8 n ++ s) = Ok (n, s).
Proof. intros H. apply rd_u_app; [reflexivity|exact H]. Qed.
Lemma rd_u4 n s : u32 n -> rd_u 4 (le_enc 4 n ++ s) = Ok (n, s).
Proof. intros H. apply rd_u_app; [reflexivity|exact H]. Qed.

Lemma i32_dec_enc z : int32 z -> i32_dec (Z.to_N (z mod 2 ^ 32)) = z.
Proof.
  unfold int32, i32_dec. intros H.
  destruct (Z.leb_spec 0 z) as [Hz|Hz].
  - rewrite Z.mod_small by lia. destruct (N.ltb_spec (Z.to_N z) (2 ^ 31)); lia.
  - replace (z mod 2 ^ 32)%Z with (z + 2 ^ 32)%Z.
    2:{ symmetry. rewrite <- (Z_mod_plus_full z 1). rewrite Z.mul_1_l. apply Z.mod_small. lia. }
    destruct (N.ltb_spec (Z.to_N (z + 2 ^ 32)) (2 ^ 31)); lia.
Qed.

Lemma rd_i32_app z s : int32 z -> rd_i32 (i32_enc z ++ s) = Ok (z, s).
Proof.
  intros H. unfold rd_i32, pbind, i32_enc. rewrite rd_u4.
  - cbn [obind]. unfold pret. rewrite i32_dec_enc by exact H. reflexivity.
  - unfold u32. pose proof (Z.mod_pos_bound z (2 ^ 32) ltac:(lia)). lia.
Qed.

Lemma rd_list_app {A B} (p : parser B) (w : A -> bytes) (f : A -> B) (l : list A) s n :
  n = length l ->
  (forall x s', In x l -> p (w x ++ s') = Ok (f x, s')) ->
  rd_list n p (wr_list w l ++ s) = Ok (map f l, s).
Proof.
  intros ->. induction l as [|x l IH]; intros H; cbn [rd_list length wr_list flat_map map]; [reflexivity|].
  unfold pbind. rewrite <- app_assoc. rewrite H by (left; reflexivity). cbn [obind].
  fold (wr_list w l). rewrite IH by (intros y s' Hy; apply H; right; exact Hy). reflexivity.
Qed.

Lemma rd_list_Forall {A B} (P : A -> Prop) (p : parser B) (w : A -> bytes) (f : A -> B) (l : list A) s :
  (forall x s', P x -> p (w x ++ s') = Ok (f x, s')) -> Forall P l ->
  rd_list (N.to_nat (N.of_nat (length l))) p (wr_list w l ++ s) = Ok (map f l, s).
Proof.
  intros H HF. apply rd_list_app; [apply Nat2N.id|].
  intros x s' Hx. apply H. rewrite Forall_forall in HF. apply HF, Hx.
Qed.

Lemma N_eqb_blen (d : bytes) : (blen d =? 0) = match d with [] => true | _ => false end.
Proof. destruct d; reflexivity. Qed.

Lemma rd_blob_true b s : blob_ok b -> rd_blob true (blob_pack true b ++ s) = Ok (seen b, s).
Proof.
  intros (Hn & Hl & Ht). unfold blob_pack, rd_blob, pbind. rewrite Hn, <- !app_assoc.
  rewrite rd_u8 by exact Hl. cbn [obind]. rewrite take_app by reflexivity. cbn [obind].
  rewrite rd_u4 by exact Ht. cbn [obind]. unfold pret, seen. rewrite N_eqb_blen. reflexivity.
Qed.

Lemma rd_blob_false b s : b_null b = false -> u64 (blen (b_data b)) ->
  rd_name (wr_name b ++ s) = Ok (seen_name b, s).
Proof.
  intros Hn Hl. unfold wr_name, rd_name, blob_pack, rd_blob, pbind. rewrite Hn, app_nil_r, <- !app_assoc.
  rewrite rd_u8 by exact Hl. cbn [obind]. rewrite take_app by reflexivity. cbn [obind].
  unfold pret, seen_name, seen. cbn [obind b_null b_data b_type]. rewrite N_eqb_blen. reflexivity.
Qed.

Lemma rd_ref_app r s : ref_ok r -> rd_ref (ref_pack r ++ s) = Ok (r, s).
Proof.
  intros (Ha & Hl & Ht). unfold ref_pack, rd_ref, pbind. rewrite <- !app_assoc.
  rewrite rd_u8 by exact Ha. cbn [obind]. rewrite rd_u8 by exact Hl. cbn [obind].
  rewrite rd_u4 by exact Ht. cbn [obind]. destruct r; reflexivity.
Qed.

Ltac wire_step :=
  first [ rewrite rd_blob_true by assumption | rewrite rd_u8 by assumption | rewrite rd_u4 by assumption
        | rewrite rd_ref_app by assumption | rewrite rd_i32_app by assumption | progress unfold pret ]; cbn [obind].
Ltac wire := unfold pbind; cbn beta iota; rewrite <- ?app_assoc; repeat (wire_step; rewrite <- ?app_assoc); try reflexivity.

Lemma rd_put_app i s : put_ok i -> rd_put (wr_put i ++ s) = Ok (seen_put i, s).
Proof. intros (? & ? & ? & ? & ?). unfold rd_put, wr_put. wire. Qed.
Lemma rd_get_app i s : get_ok i -> rd_get (wr_get i ++ s) = Ok (seen_get i, s).
Proof. intros (? & ? & ? & ? & ?). unfold rd_get, wr_get. wire. Qed.
Lemma rd_del_app i s : del_ok i -> rd_del (wr_del i ++ s) = Ok (seen_del i, s).
Proof. intros (? & ? & ? & ?). unfold rd_del, wr_del. wire. Qed.
Lemma rd_st_app i s : st_ok i -> rd_st (wr_st i ++ s) = Ok (i, s).
Proof. intros (? & ? & ?). unfold rd_st, wr_st. wire. destruct i; reflexivity. Qed.

Lemma rd_getop_app i s : getop_ok i -> rd_getop (wr_getop i ++ s) = Ok (seen_getop i, s).
Proof.
  intros (Hk & Ho & Ht & Hn). unfold rd_getop, wr_getop, seen_getop. wire.
  destruct (op_has_key (oi_op i)) eqn:E; unfold op_has_key in E.
  - destruct (N.eqb_spec (oi_op i) GETOP_FIRST); [discriminate|].
    destruct (N.eqb_spec (oi_op i) GETOP_LAST); [discriminate|].
    destruct Hk as [Hs Hp]; [assumption..|]. cbn [orb]. wire.
  - replace ((oi_op i =? GETOP_FIRST) || (oi_op i =? GETOP_LAST)) with true.
    + cbn [pret obind app]. wire.
    + destruct (oi_op i =? GETOP_FIRST), (oi_op i =? GETOP_LAST); cbn in *; congruence.
Qed.

Lemma status_ok_true z : status_ok z = true <-> z = 1%Z.
Proof. unfold status_ok. change (Z.of_N DATASTORE_SUCCESS) with 1%Z. apply Z.eqb_eq. Qed.

Lemma rd_got_app i s : got_ok i -> rd_got (wr_got i ++ s) = Ok (seen_got i, s).
Proof.
  intros (Hz & Hs & Hp & Ho). unfold rd_got, wr_got, seen_got. wire.
  unfold status_ok. change (Z.of_N DATASTORE_SUCCESS) with 1%Z.
  destruct (Z.eqb_spec (go_status i) 1) as [E|E].
  - specialize (Ho E). wire.
  - reflexivity.
Qed.

Lemma rd_rec_app z r s : rec_ok (z = 1%Z) r -> rd_rec (status_ok z) (wr_rec (status_ok z) r ++ s) = Ok (seen_rec z r, s).
Proof.
  intros (Hs & Hp & Ho). unfold rd_rec, wr_rec, seen_rec. wire.
  unfold status_ok. change (Z.of_N DATASTORE_SUCCESS) with 1%Z.
  destruct (Z.eqb_spec z 1) as [E|E].
  - specialize (Ho E). wire.
  - reflexivity.
Qed.

Lemma rd_gotop_app i s : gotop_ok i -> rd_gotop (wr_gotop i ++ s) = Ok (seen_gotop i, s).
Proof.
  intros (Hz & Hl & Hr). unfold rd_gotop, wr_gotop. wire.
  rewrite (rd_list_Forall (rec_ok (gp_status i = 1%Z)) (rd_rec (status_ok (gp_status i)))
             (wr_rec (status_ok (gp_status i))) (seen_rec (gp_status i))).
  - reflexivity.
  - intros r s' H. apply rd_rec_app, H.
  - exact Hr.
Qed.

(* ---- histograms ---- *)
Lemma interleave_rd bs cs s :
  length bs = length cs -> Forall u64 bs -> Forall u64 cs ->
  rd_list (length bs) rd_pair (interleave bs cs ++ s) = Ok (combine bs cs, s).
Proof.
  revert cs; induction bs as [|b bs IH]; intros [|c cs] HL Hb Hc; try discriminate; [reflexivity|].
  inversion Hb as [|? ? Hb1 Hb2]; inversion Hc as [|? ? Hc1 Hc2]; subst.
  cbn [interleave length rd_list combine]. unfold pbind at 1. unfold rd_pair at 1. unfold pbind.
  rewrite <- !app_assoc. rewrite rd_u8 by assumption. cbn [obind]. rewrite rd_u8 by assumption. cbn [obind pret].
  rewrite IH by (try assumption; injection HL; auto). reflexivity.
Qed.

Lemma map_fst_combine {A B} (a : list A) (b : list B) : length a = length b -> map fst (combine a b) = a.
Proof. revert b; induction a as [|x a IH]; intros [|y b] H; try discriminate; cbn; [reflexivity|]. f_equal. apply IH. injection H; auto. Qed.
Lemma map_snd_combine {A B} (a : list A) (b : list B) : length a = length b -> map snd (combine a b) = b.
Proof. revert b; induction a as [|x a IH]; intros [|y b] H; try discriminate; cbn; [reflexivity|]. f_equal. apply IH. injection H; auto. Qed.

Lemma interleave_length bs cs : length bs = length cs -> length (interleave bs cs) = (16 * length bs)%nat.
Proof.
  revert cs; induction bs as [|b bs IH]; intros [|c cs] H; try discriminate; [reflexivity|].
  cbn [interleave length]. rewrite !app_length, !le_enc_length, IH by (injection H; auto). lia.
Qed.

Lemma flat_le_length k l : length (flat_map (le_enc k) l) = (k * length l)%nat.
Proof. induction l as [|x l IH]; cbn [flat_map length]; [lia|]. rewrite app_length, le_enc_length, IH. lia. Qed.

(* the packed form exists, has exactly the announced size, and unpacks *)
Lemma hist_pack_spec h h0 avail s :
  hist_ok h -> h_gen h0 = None -> h_cap h0 = 0 -> h_cache h0 = [] -> 32 <= avail ->
  exists b, hist_pack h = Ok b /\ blen b = hist_pack_size h
       /\ hist_unpack h0 avail (b ++ s) = Ok (Some (seen_hist h), s).
Proof.
  intros (Hn & Hc & Hf & Hcache & Hpre & Hpost) G0 C0 K0 Hav.
  assert (Havail : (avail <? 32) = false) by (apply N.ltb_ge; exact Hav).
  unfold hist_pack.
  destruct (N.ltb_spec (h_count h) (h_first_n h)) as [Hlt|Hge].
  - destruct (Hpre Hlt) as [Hlen Hsz].
    destruct (N.leb_spec (h_count h) (N.of_nat (length (h_cache h)))); [|lia].
    rewrite Hsz. cbn [N.eqb obind].
    eexists. split; [reflexivity|]. split.
    + unfold hist_pack_size. rewrite Hsz. destruct (N.ltb_spec (h_count h) (h_first_n h)); [|lia].
      rewrite !blen_app. unfold blen. rewrite !le_enc_length, flat_le_length, firstn_length, Nat.min_l by lia.
      change (N.eqb 0 0) with true. cbv iota. cbn [length]. lia.
    + unfold hist_unpack, pbind. rewrite Havail, <- !app_assoc.
      rewrite rd_u8 by exact Hn. cbn [obind]. rewrite take_app by reflexivity. cbn [obind].
      rewrite rd_u8 by exact Hc. cbn [obind]. rewrite rd_u8 by exact Hf. cbn [obind].
      destruct (N.ltb_spec (h_count h) (h_first_n h)) as [_|?]; [|lia].
      replace (firstn (N.to_nat (h_count h)) (h_cache h)) with (h_cache h)
        by (rewrite firstn_all2; [reflexivity|lia]).
      change (flat_map (le_enc 8) (h_cache h)) with (wr_list (le_enc 8) (h_cache h)).
      rewrite (rd_list_app (rd_u 8) (le_enc 8) (fun x => x) (h_cache h)).
      2:{ lia. }
      2:{ intros x s' Hx. apply rd_u8. rewrite Forall_forall in Hcache. apply Hcache, Hx. }
      cbn [obind pret]. rewrite rd_u8 by reflexivity. cbn [obind N.eqb pret].
      rewrite map_id. unfold seen_hist. rewrite Hsz. cbn [N.eqb].
      destruct (N.ltb_spec (h_count h) (h_first_n h)); [|lia]. rewrite G0. reflexivity.
  - cbn [obind].
    destruct (N.eqb_spec (h_size h) 0) as [Hsz|Hsz].
    + cbn [obind app]. eexists. split; [reflexivity|]. split.
      * unfold hist_pack_size. rewrite Hsz. destruct (N.ltb_spec (h_count h) (h_first_n h)); [lia|].
        rewrite !blen_app. unfold blen. rewrite !le_enc_length. cbn [length N.eqb]. lia.
      * unfold hist_unpack, pbind. rewrite Havail, <- !app_assoc.
        rewrite rd_u8 by exact Hn. cbn [obind]. rewrite take_app by reflexivity. cbn [obind].
        rewrite rd_u8 by exact Hc. cbn [obind]. rewrite rd_u8 by exact Hf. cbn [obind].
        destruct (N.ltb_spec (h_count h) (h_first_n h)) as [?|_]; [lia|]. cbn [pret obind].
        rewrite rd_u8 by (rewrite Hsz; reflexivity). cbn [obind pret app]. rewrite Hsz. cbn [N.eqb pret].
        unfold seen_hist. rewrite Hsz. cbn [N.eqb].
        destruct (N.ltb_spec (h_count h) (h_first_n h)); [lia|]. rewrite G0, C0, K0. reflexivity.
    + destruct (Hpost Hsz) as (bs & cs & Ebs & Ecs & Lbs & Lcs & Hus & Hbs & Hcs & Hup).
      rewrite Ebs, Ecs, Lbs, Lcs, N.eqb_refl. cbn [andb obind app].
      assert (HL : length bs = length cs) by lia.
      eexists. split; [reflexivity|]. split.
      * unfold hist_pack_size. destruct (N.ltb_spec (h_count h) (h_first_n h)); [lia|].
        destruct (N.eqb_spec (h_size h) 0); [lia|].
        rewrite !blen_app. unfold blen. rewrite !le_enc_length, interleave_length by exact HL. lia.
      * unfold hist_unpack, pbind. rewrite Havail, <- !app_assoc.
        rewrite rd_u8 by exact Hn. cbn [obind]. rewrite take_app by reflexivity. cbn [obind].
        rewrite rd_u8 by exact Hc. cbn [obind]. rewrite rd_u8 by exact Hf. cbn [obind].
        destruct (N.ltb_spec (h_count h) (h_first_n h)) as [?|_]; [lia|]. cbn [pret obind].
        rewrite rd_u8 by exact Hus. cbn [obind].
        destruct (N.eqb_spec (h_size h) 0) as [?|_]; [lia|].
        replace (N.to_nat (h_size h)) with (length bs) by lia.
        rewrite interleave_rd by assumption. cbn [obind].
        rewrite rd_u8 by exact Hup. cbn [obind pret].
        rewrite map_fst_combine, map_snd_combine by exact HL.
        unfold seen_hist. destruct (N.eqb_spec (h_size h) 0); [lia|].
        rewrite Ebs, Ecs, G0, C0, K0. reflexivity.
Qed.

Lemma hist_pack_size_ge h : 32 <= hist_pack_size h.
Proof. unfold hist_pack_size. lia. Qed.

Lemma sumN_cons x l : sumN (x :: l) = x + sumN l. Proof. reflexivity. Qed.

Lemma wr_hists_spec l avail rem s :
  Forall hitem_ok l ->
  sumN (map sz_hist l) <= avail + 4 * N.of_nat (length l) ->
  (Exists (fun i => hi_status i = 1%Z) l -> 32 <= rem) ->
  exists b, wr_hists avail l = Ok b /\ blen b = sumN (map sz_hist l)
       /\ rd_list (length l) (rd_hist rem) (b ++ s) = Ok (map seen_hitem l, s).
Proof.
  revert avail s. induction l as [|i l IH]; intros avail s HF Hav Hrem; cbn [wr_hists map].
  - exists []. repeat split; reflexivity.
  - inversion HF as [|? ? Hi HF']; subst. destruct Hi as [Hz Hh].
    cbn [map length] in Hav. rewrite sumN_cons in Hav.
    destruct (status_ok (hi_status i)) eqn:E.
    + apply status_ok_true in E. destruct (Hh E) as (h & Eh & Hok). rewrite Eh.
      assert (Es : sz_hist i = 4 + hist_pack_size h).
      { unfold sz_hist. rewrite (proj2 (status_ok_true _) E), Eh. reflexivity. }
      rewrite Es in Hav.
      destruct (N.ltb_spec avail (hist_pack_size h)) as [Hbad|Hgood].
      * exfalso. clear IH.
        (* the remaining items account for at least their statuses *)
        assert (4 * N.of_nat (length l) <= sumN (map sz_hist l)).
        { clear. induction l as [|x l IHl]; [cbn; lia|]. cbn [map length]. rewrite sumN_cons.
          unfold sz_hist at 1. lia. }
        lia.
      * assert (Hrem32 : 32 <= rem) by (apply Hrem; left; exact E).
        destruct (IH (avail - hist_pack_size h) s HF') as (b' & Eb' & Lb' & Rb'); [lia|intros _; exact Hrem32|].
        destruct (hist_pack_spec h (hist_new [] 0 None) rem (b' ++ s) Hok eq_refl eq_refl eq_refl Hrem32)
          as (b & Eb & Lb & Rb).
        rewrite Eb. cbn [obind]. rewrite Lb, Eb'. cbn [obind]. eexists. split; [reflexivity|]. split.
        -- rewrite sumN_cons, !blen_app, Lb, Lb', Es.
           unfold blen, i32_enc. rewrite le_enc_length. lia.
        -- cbn [length rd_list]. unfold pbind at 1. unfold rd_hist at 1. unfold pbind at 1.
           rewrite <- !app_assoc. rewrite rd_i32_app by exact Hz. cbn [obind].
           rewrite (proj2 (status_ok_true _) E). unfold pbind at 1. rewrite Rb. cbn [obind pret].
           unfold pbind. rewrite Rb'. cbn [obind pret].
           unfold seen_hitem at 2. rewrite E, Eh. reflexivity.
    + assert (Es : sz_hist i = 4) by (unfold sz_hist; rewrite E; reflexivity).
      destruct (IH avail s HF') as (b' & Eb' & Lb' & Rb'); [lia|intros X; apply Hrem; right; exact X|].
      rewrite Eb'. cbn [obind]. eexists. split; [reflexivity|]. split.
      * rewrite sumN_cons, blen_app, Lb', Es. unfold blen, i32_enc. rewrite le_enc_length. lia.
      * cbn [length rd_list]. unfold pbind at 1. unfold rd_hist at 1. unfold pbind at 1.
        rewrite <- !app_assoc. rewrite rd_i32_app by exact Hz. cbn [obind]. rewrite E. cbn [pret obind].
        unfold pbind. rewrite Rb'. cbn [obind pret].
        unfold seen_hitem at 2. unfold status_ok in E. change (Z.of_N DATASTORE_SUCCESS) with 1%Z in E. rewrite E.
        reflexivity.
Qed.

(* ---- sizes ---- *)
Lemma le_enc_blen k n : blen (le_enc k n) = N.of_nat k.
Proof. unfold blen. rewrite le_enc_length. reflexivity. Qed.
Lemma i32_blen z : blen (i32_enc z) = 4.
Proof. unfold i32_enc. rewrite le_enc_blen. reflexivity. Qed.
Lemma ref_blen r : blen (ref_pack r) = ref_pack_size.
Proof. unfold ref_pack. rewrite !blen_app, !le_enc_blen. reflexivity. Qed.
Lemma blob_pack_le t b : blen (blob_pack t b) <= blob_pack_size t b.
Proof.
  unfold blob_pack, blob_pack_size. destruct (b_null b); [cbn; lia|].
  rewrite !blen_app, le_enc_blen. destruct t; rewrite ?le_enc_blen; cbn [blen length N.of_nat]; lia.
Qed.

Lemma wr_list_le {A} (w : A -> bytes) (sz : A -> N) (l : list A) :
  (forall x, blen (w x) <= sz x) -> blen (wr_list w l) <= sumN (map sz l).
Proof.
  intros H. induction l as [|x l IH]; [cbn; lia|].
  cbn [wr_list flat_map map]. rewrite sumN_cons, blen_app. fold (wr_list w l). specialize (H x). lia.
Qed.

Ltac szs := rewrite ?blen_app, ?le_enc_blen, ?i32_blen, ?ref_blen;
  repeat match goal with |- context [blen (blob_pack ?t ?b)] =>
           let H := fresh in pose proof (blob_pack_le t b) as H; generalize dependent (blen (blob_pack t b)); intros end.

Lemma wr_put_le i : blen (wr_put i) <= sz_put i.
Proof. unfold wr_put, sz_put, sz_sp. szs. lia. Qed.
Lemma wr_get_le i : blen (wr_get i) <= sz_get i.
Proof. unfold wr_get, sz_get, sz_sp. szs. lia. Qed.
Lemma wr_getop_le i : blen (wr_getop i) <= sz_getop i.
Proof. unfold wr_getop, sz_getop. destruct (op_has_key (oi_op i)); szs; change (blen []) with 0; lia. Qed.
Lemma wr_del_le i : blen (wr_del i) <= sz_del i.
Proof. unfold wr_del, sz_del, sz_sp. szs. lia. Qed.
Lemma wr_name_le i : blen (wr_name i) <= sz_name i.
Proof. apply blob_pack_le. Qed.
Lemma wr_st_le i : blen (wr_st i) <= sz_st i.
Proof. unfold wr_st, sz_st. szs. lia. Qed.
Lemma wr_got_le i : blen (wr_got i) <= sz_got i.
Proof. unfold wr_got, sz_got. destruct (status_ok _); szs; change (blen []) with 0; lia. Qed.
Lemma wr_rec_le ok i : blen (wr_rec ok i) <= sz_rec ok i.
Proof. unfold wr_rec, sz_rec. destruct ok; szs; change (blen []) with 0; lia. Qed.
Lemma wr_gotop_le i : blen (wr_gotop i) <= sz_gotop i.
Proof.
  unfold wr_gotop, sz_gotop.
  pose proof (wr_list_le (wr_rec (status_ok (gp_status i))) _ (gp_recs i) (wr_rec_le _)). szs. lia.
Qed.

Lemma header_blen m : blen (wr_header m) = header_size.
Proof. unfold wr_header. rewrite !blen_app, !le_enc_blen, !i32_blen. reflexivity. Qed.

(* histogram responses: whatever is in them, packing either is UB inside a histogram or fits *)
Lemma hist_pack_blen h b : hist_pack h = Ok b -> blen b = hist_pack_size h.
Proof.
  unfold hist_pack, hist_pack_size.
  destruct (N.ltb_spec (h_count h) (h_first_n h)) as [H|H].
  - destruct (N.leb_spec (h_count h) (N.of_nat (length (h_cache h)))) as [H1|H1]; [|discriminate].
    cbn [obind]. destruct (N.eqb_spec (h_size h) 0) as [H2|H2].
    + cbn [obind]. intros E. apply Ok_inj in E; subst. rewrite !blen_app, !le_enc_blen.
      unfold blen. rewrite flat_le_length, firstn_length. cbn [length]. lia.
    + destruct (h_buckets h) as [bs|]; [|discriminate]. destruct (h_counts h) as [cs|]; [|discriminate].
      destruct ((N.of_nat (length bs) =? h_size h) && (N.of_nat (length cs) =? h_size h)) eqn:E1; [|discriminate].
      apply andb_true_iff in E1 as [Eb Ec]. apply N.eqb_eq in Eb, Ec.
      cbn [obind]. intros E. apply Ok_inj in E; subst. rewrite !blen_app, !le_enc_blen.
      unfold blen. rewrite flat_le_length, firstn_length, interleave_length by lia. lia.
  - cbn [obind]. destruct (N.eqb_spec (h_size h) 0) as [H2|H2].
    + cbn [obind]. intros E. apply Ok_inj in E; subst. rewrite !blen_app, !le_enc_blen. change (blen []) with 0. lia.
    + destruct (h_buckets h) as [bs|]; [|discriminate]. destruct (h_counts h) as [cs|]; [|discriminate].
      destruct ((N.of_nat (length bs) =? h_size h) && (N.of_nat (length cs) =? h_size h)) eqn:E1; [|discriminate].
      apply andb_true_iff in E1 as [Eb Ec]. apply N.eqb_eq in Eb, Ec.
      cbn [obind]. intros E. apply Ok_inj in E; subst. rewrite !blen_app, !le_enc_blen.
      unfold blen. rewrite interleave_length by lia. cbn [length]. lia.
Qed.

Lemma wr_hists_le l avail b : wr_hists avail l = Ok b -> blen b <= sumN (map sz_hist l).
Proof.
  revert avail b; induction l as [|i l IH]; intros avail b; cbn [wr_hists map].
  - intros E. apply Ok_inj in E; subst. cbn. lia.
  - rewrite sumN_cons. unfold sz_hist at 1. destruct (status_ok (hi_status i)).
    + destruct (hi_hist i) as [h|]; [|discriminate]. destruct (avail <? hist_pack_size h).
      * destruct (wr_hists avail l) as [r| |] eqn:E; try discriminate. cbn [obind]. intros X; apply Ok_inj in X; subst b.
        rewrite blen_app, i32_blen. specialize (IH _ _ E). lia.
      * destruct (hist_pack h) as [hb| |] eqn:Eh; try discriminate. cbn [obind].
        destruct (wr_hists (avail - blen hb) l) as [r| |] eqn:E; try discriminate. cbn [obind].
        intros X; apply Ok_inj in X; subst b. rewrite !blen_app, i32_blen. specialize (IH _ _ E).
        apply hist_pack_blen in Eh. lia.
    + destruct (wr_hists avail l) as [r| |] eqn:E; try discriminate. cbn [obind]. intros X; apply Ok_inj in X; subst b.
      rewrite blen_app, i32_blen. specialize (IH _ _ E). lia.
Qed.

(* C23: nothing is ever written past the announced size *)
Lemma msg_bytes_fit m b : msg_bytes m = Ok b -> blen b <= msg_size m.
Proof.
  unfold msg_bytes, msg_size. destruct (m_body m) as [l|l|l|l|l|l|l|l|l|l]; cbn [obind];
  try (intros E; apply Ok_inj in E; subst; rewrite blen_app, header_blen).
  - pose proof (wr_list_le _ _ l wr_put_le). lia.
  - pose proof (wr_list_le _ _ l wr_get_le). lia.
  - pose proof (wr_list_le _ _ l wr_getop_le). lia.
  - pose proof (wr_list_le _ _ l wr_del_le). lia.
  - pose proof (wr_list_le _ _ l wr_name_le). lia.
  - pose proof (wr_list_le _ _ l wr_st_le). lia.
  - pose proof (wr_list_le _ _ l wr_got_le). lia.
  - pose proof (wr_list_le _ _ l wr_gotop_le). lia.
  - pose proof (wr_list_le _ _ l wr_st_le). lia.
  - destruct (wr_hists _ l) as [r| |] eqn:E; try discriminate. cbn [obind]. intros X; apply Ok_inj in X; subst b.
    rewrite blen_app, header_blen. apply wr_hists_le in E. lia.
Qed.

(* the bytes on the wire of a well-formed message, and what the receiver decodes *)
Lemma body_dir_cases b : body_dir b = 1 \/ body_dir b = 2.
Proof. destruct b; auto. Qed.

Ltac header_rt m :=
  unfold msg_unpack_dir; unfold wr_header; rewrite <- ?app_assoc; unfold pbind at 1;
  rewrite rd_u4 by (destruct (m_body m); reflexivity); cbn [obind]; unfold pbind at 1;
  rewrite rd_u4 by (destruct (m_body m); reflexivity); cbn [obind]; unfold pbind at 1.

Lemma msg_round_trip m : msg_ok m ->
  exists b, msg_pack m = Ok b /\
    forall t, msg_unpack_dir (body_dir (m_body m)) (b ++ t) = Ok (Some (seen_msg m)).
Proof.
  intros (Hs & Hd & Hc & Hb). unfold msg_pack.
  destruct m as [src dst body]. cbn [m_src m_dst m_body] in *.
  assert (Hpre : forall body_bytes,
     (forall k, (rd dir <- rd_u 4; rd op <- rd_u 4; rd s <- rd_i32; rd d <- rd_i32; rd count <- rd_u 8; k dir op s d count)
                  (wr_header (mkMsg src dst body) ++ body_bytes)
                = (k (body_dir body) (body_op body) src dst (body_count body) body_bytes : outcome (option msg * bytes)))).
  { intros bb k. unfold wr_header, pbind. cbn [m_src m_dst m_body]. rewrite <- !app_assoc.
    rewrite rd_u4 by (destruct body; reflexivity). cbn [obind].
    rewrite rd_u4 by (destruct body; reflexivity). cbn [obind].
    rewrite rd_i32_app by exact Hs. cbn [obind]. rewrite rd_i32_app by exact Hd. cbn [obind].
    rewrite rd_u8 by exact Hc. reflexivity. }
  destruct body as [l|l|l|l|l|l|l|l|l|l]; cbn [body_dir body_op body_count] in *.
  Ltac one Hpre l lem Hb :=
    match goal with |- context [msg_bytes ?mm] =>
      let E := fresh "E" in
      destruct (msg_bytes mm) as [bb| |] eqn:E; [|discriminate E|discriminate E];
      pose proof (msg_bytes_fit _ _ E) as Hfit; cbn [obind];
      destruct (N.leb_spec (blen bb) (msg_size mm)); [|lia];
      exists bb; split; [reflexivity|]; intros t;
      unfold msg_bytes in E; cbn [m_body obind] in E; apply Ok_inj in E; subst;
      unfold msg_unpack_dir; rewrite <- app_assoc, Hpre; cbn [N.eqb Pos.eqb negb];
      unfold pbind;
      rewrite (rd_list_Forall _ _ _ _ l t lem Hb); cbn [obind pret fst]; rewrite ?map_id; reflexivity
    end.
  - one Hpre l rd_put_app Hb.
  - one Hpre l rd_get_app Hb.
  - one Hpre l rd_getop_app Hb.
  - one Hpre l rd_del_app Hb.
  - one Hpre l (fun x s' (H : b_null x = false /\ u64 (blen (b_data x))) => rd_blob_false x s' (proj1 H) (proj2 H)) Hb.
  - one Hpre l (fun x s' (H : st_ok x) => rd_st_app x s' H : _ = Ok ((fun i => i) x, s')) Hb.
  - one Hpre l rd_got_app Hb.
  - one Hpre l rd_gotop_app Hb.
  - one Hpre l (fun x s' (H : st_ok x) => rd_st_app x s' H : _ = Ok ((fun i => i) x, s')) Hb.
  - set (mm := mkMsg src dst (RHist l)) in *.
    assert (Hsz : msg_size mm - header_size = sumN (map sz_hist l)).
    { unfold msg_size, mm. cbn [m_body]. lia. }
    assert (Hrem : forall t, Exists (fun i => hi_status i = 1%Z) l -> 32 <= sumN (map sz_hist l) + blen t).
    { intros t HE. clear -HE Hb.
      induction HE as [i l Hi|i l HE IH].
      - inversion Hb as [|? ? [_ Hi'] ?]; subst. destruct (Hi' Hi) as (h & Eh & _).
        cbn [map]. rewrite sumN_cons. unfold sz_hist at 1. rewrite (proj2 (status_ok_true _) Hi), Eh.
        pose proof (hist_pack_size_ge h). lia.
      - inversion Hb; subst. cbn [map]. rewrite sumN_cons. specialize (IH H2). lia. }
    assert (Hex : forall t, exists bb, wr_hists (sumN (map sz_hist l)) l = Ok bb /\ blen bb = sumN (map sz_hist l)
              /\ rd_list (length l) (rd_hist (sumN (map sz_hist l) + blen t)) (bb ++ t) = Ok (map seen_hitem l, t)).
    { intros t. apply wr_hists_spec; [exact Hb|lia|apply Hrem]. }
    destruct (Hex []) as (bb & Ebb & Lbb & _).
    assert (E : msg_bytes mm = Ok (wr_header mm ++ bb)).
    { unfold msg_bytes. cbn [m_body mm]. fold mm. rewrite Hsz, Ebb. reflexivity. }
    rewrite E. cbn [obind]. pose proof (msg_bytes_fit _ _ E) as Hfit.
    destruct (N.leb_spec (blen (wr_header mm ++ bb)) (msg_size mm)); [|lia].
    eexists. split; [reflexivity|]. intros t.
    unfold msg_unpack_dir. rewrite <- app_assoc, Hpre. cbn [N.eqb Pos.eqb negb].
    rewrite !blen_app, header_blen.
    replace (header_size + (blen bb + blen t) - header_size) with (sumN (map sz_hist l) + blen t) by lia.
    unfold pbind. rewrite Nat2N.id.
    destruct (Hex t) as (bb' & Ebb' & _ & Rbb). rewrite Ebb in Ebb'. apply Ok_inj in Ebb'. subst bb'.
    rewrite Rbb. reflexivity.
Qed.

(* a message of the other direction is refused *)
Lemma msg_wrong_direction m b d : msg_pack m = Ok b -> d <> body_dir (m_body m) -> (d = 1 \/ d = 2) ->
  int32 (m_src m) -> int32 (m_dst m) -> u64 (body_count (m_body m)) ->
  forall t, msg_unpack_dir d (b ++ t) = Ok None.
Proof.
  intros Hp Hne Hd Hs Hdst Hc t. unfold msg_pack in Hp.
  destruct (msg_bytes m) as [bb| |] eqn:E; cbn [obind] in Hp; try discriminate.
  destruct (blen bb <=? msg_size m); [|discriminate]. apply Ok_inj in Hp. subst bb.
  unfold msg_bytes in E.
  destruct (match m_body m with QPut l => _ | _ => _ end) as [r| |]; cbn [obind] in E; try discriminate.
  apply Ok_inj in E. subst b. unfold msg_unpack_dir, wr_header, pbind. rewrite <- !app_assoc.
  rewrite rd_u4 by (destruct (m_body m); reflexivity). cbn [obind].
  rewrite rd_u4 by (destruct (m_body m); reflexivity). cbn [obind].
  rewrite rd_i32_app by exact Hs. cbn [obind]. rewrite rd_i32_app by exact Hdst. cbn [obind].
  rewrite rd_u8 by exact Hc. cbn [obind].
  destruct (N.eqb_spec (body_dir (m_body m)) d) as [X|X]; [congruence|]. reflexivity.
Qed.

Lemma seen_id b : b_null b = false -> b_data b <> [] -> seen b = b.
Proof. destruct b as [n d t]; cbn. intros -> H. unfold seen; cbn. destruct d; [congruence|reflexivity]. Qed.

Lemma seen_full b : full b -> seen b = b.
Proof. intros [H1 H2]. apply seen_id; assumption. Qed.

Lemma map_id_Forall {A} (f : A -> A) (P : A -> Prop) l : (forall x, P x -> f x = x) -> Forall P l -> map f l = l.
Proof. intros Hf. induction 1 as [|x l Hx _ IH]; cbn; [reflexivity|]. rewrite Hf, IH by exact Hx. reflexivity. Qed.

Lemma seen_exact m : exact_body (m_body m) -> seen_msg m = m.
Proof.
  destruct m as [src dst b]. unfold seen_msg. cbn [m_src m_dst m_body]. intros H. f_equal.
  destruct b as [l|l|l|l|l|l|l|l|l|l]; cbn [exact_body seen_body] in *; try reflexivity; try contradiction; f_equal;
    (eapply map_id_Forall; [|exact H]); cbn beta.
  - intros [a b c d e] (H1 & H2 & H3). unfold seen_put. cbn in *. rewrite !seen_full by assumption. reflexivity.
  - intros [a b c d e] (H1 & H2). unfold seen_get. cbn in *. rewrite !seen_full by assumption. reflexivity.
  - intros [op s p t n] Hi. unfold seen_getop. cbn [oi_op oi_sub oi_pred oi_type oi_num] in *.
    destruct Hi as [([->| ->] & -> & ->)|([H1 H2] & H3 & H4)]; try reflexivity.
    destruct (N.eqb_spec op GETOP_FIRST); [congruence|]. destruct (N.eqb_spec op GETOP_LAST); [congruence|].
    cbn [orb]. rewrite !seen_full by assumption. reflexivity.
  - intros [a b c d] (H1 & H2). unfold seen_del. cbn in *. rewrite !seen_full by assumption. reflexivity.
  - intros b ([H1 H2] & H3). unfold seen_name. rewrite (seen_full b) by (split; assumption).
    destruct b as [n d t]. cbn in *. subst. reflexivity.
  - intros [z s p o] Hi. unfold seen_got. cbn [go_status go_sub go_pred go_obj] in *.
    destruct Hi as [[-> Hi]|[Hz ->]].
    + cbn. rewrite seen_full by assumption. reflexivity.
    + destruct (Z.eqb_spec z 1); [congruence|reflexivity].
  - intros [z rs] Hi. unfold seen_gotop. cbn [gp_status gp_recs] in *. f_equal.
    eapply map_id_Forall; [|exact Hi]. intros [s p o] (H1 & H2 & H3). unfold seen_rec. cbn [rc_sub rc_pred rc_obj] in *.
    rewrite (seen_full s), (seen_full p) by assumption.
    destruct H3 as [[-> H3]|[Hz ->]].
    + cbn. rewrite seen_full by assumption. reflexivity.
    + destruct (Z.eqb_spec z 1); [congruence|reflexivity].
Qed.

Lemma request_wire m : is_request m -> msg_ok m ->
  exists b, msg_pack m = Ok b /\
    (forall t, unpack_request (b ++ t) = Ok (Some (seen_msg m))) /\
    (forall t, unpack_response (b ++ t) = Ok None) /\
    (exact_body (m_body m) -> seen_msg m = m).
Proof.
  intros Hr Hm. destruct (msg_round_trip m Hm) as (b & Hp & Hu). exists b. split; [exact Hp|].
  unfold is_request in Hr. rewrite Hr in Hu. split; [exact Hu|]. split; [|apply seen_exact].
  destruct Hm as (H1 & H2 & H3 & _). eapply msg_wrong_direction; eauto. rewrite Hr. discriminate.
Qed.

Lemma response_wire m : is_response m -> msg_ok m ->
  exists b, msg_pack m = Ok b /\
    (forall t, unpack_response (b ++ t) = Ok (Some (seen_msg m))) /\
    (forall t, unpack_request (b ++ t) = Ok None) /\
    (exact_body (m_body m) -> seen_msg m = m).
Proof.
  intros Hr Hm. destruct (msg_round_trip m Hm) as (b & Hp & Hu). exists b. split; [exact Hp|].
  unfold is_response in Hr. rewrite Hr in Hu. split; [exact Hu|]. split; [|apply seen_exact].
  destruct Hm as (H1 & H2 & H3 & _). eapply msg_wrong_direction; eauto. rewrite Hr. discriminate.
Qed.

(* C23: nothing is written past the announced size, nothing is read past what was written *)
Lemma wire_buffers m : msg_ok m ->
  exists b, msg_bytes m = Ok b /\ blen b <= msg_size m /\ msg_pack m = Ok b /\
    msg_unpack_dir (body_dir (m_body m)) b = Ok (Some (seen_msg m)).
Proof.
  intros Hm. destruct (msg_round_trip m Hm) as (b & Hp & Hu).
  specialize (Hu []). rewrite app_nil_r in Hu.
  unfold msg_pack in Hp. destruct (msg_bytes m) as [bb| |] eqn:E; cbn [obind] in Hp; try discriminate.
  pose proof (msg_bytes_fit _ _ E). destruct (N.leb_spec (blen bb) (msg_size m)); [|discriminate].
  apply Ok_inj in Hp. subst bb. exists b. unfold msg_pack. rewrite E. cbn [obind].
  destruct (N.leb_spec (blen b) (msg_size m)); [|lia]. auto.
Qed.
