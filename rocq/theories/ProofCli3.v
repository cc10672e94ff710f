From Verif Require Import ModelBytes ModelElen ModelConf ModelOptions ModelMsg ModelClient ModelFloat ModelCli SpecConf SpecOptions SpecFp SpecCli ProofBytes ProofStore ProofElen ProofConf ProofOptions ProofOptions4 ProofFpBase ProofFpError ProofCli ProofCli2.
From Coq Require Import Reals.
Local Open Scope N_scope.

(* ---- data ---- *)
Lemma name_spelled table w t ws line : assoc table w = Some t -> spelled (w :: ws) line -> exists r, rd_name table line = Some (t, r) /\ spelled ws r.
Proof. intros A S. destruct (read_spelled w ws line S) as [r [E S']]. exists r. unfold rd_name. rewrite E, A. split; [reflexivity|exact S']. Qed.
Lemma type_assoc w t : type_says w t -> assoc USER2OT w = Some t.
Proof.
  unfold type_says, In. intro H. repeat (destruct H as [H|H]; [injection H as <- <-; reflexivity|]). contradiction.
Qed.
Lemma op_assoc w t : op_says w t -> assoc USER2GETOP w = Some t.
Proof.
  unfold op_says, In. intro H. repeat (destruct H as [H|H]; [injection H as <- <-; reflexivity|]). contradiction.
Qed.
Lemma float_reads F w d ws line : fmt_ok F -> float_datum F w d -> spelled (w :: ws) line ->
  exists x r, rd_float F line = Some (x, r) /\ float_datum F w (store_fp F x) /\ spelled ws r.
Proof.
  intros HF [minus [m [e [x [D [H [N ->]]]]]]] S. destruct (float_spelled F w minus m e ws line HF D H S) as [y [r [E [NR S']]]].
  exists y, r. split; [exact E|]. split; [|exact S']. exists minus, m, e, y. repeat split; try assumption; apply NR.
Qed.
Lemma datum_reads tn w t d ws line : datum tn w t d -> spelled (w :: ws) line ->
  assoc USER2OT tn = Some t /\ exists d' r, rd_data t line = Some (d', r) /\ datum tn w t d' /\ spelled ws r.
Proof.
  intros D S. destruct D as [w z d W B H|w z d W B H|w z d W B H|w z d W B H|w d H|w d H|w W]; (split; [reflexivity|]).
  - destruct (signed_spelled 32 w z ws line W B S) as [r [E S']]. exists (signed_bytes 4 z), r.
    split; [change (match rd_signed 32 line with Some (v, r) => Some (signed_bytes 4 v, r) | None => None end = Some (signed_bytes 4 z, r)); rewrite E; reflexivity|].
    split; [|exact S']. apply (int32 w z); [exact W|exact B|]. apply signed_holds. lia.
  - destruct (signed_spelled 64 w z ws line W B S) as [r [E S']]. exists (signed_bytes 8 z), r.
    split; [change (match rd_signed 64 line with Some (v, r) => Some (signed_bytes 8 v, r) | None => None end = Some (signed_bytes 8 z, r)); rewrite E; reflexivity|].
    split; [|exact S']. apply (int64 w z); [exact W|exact B|]. apply signed_holds. lia.
  - rewrite <- (Z2N.id z) in W by lia. assert (Z.to_N z < 2 ^ 32) as L by (change 4294967296%Z with (Z.of_N (2 ^ 32)) in B; lia).
    destruct (unsigned_spelled 32 w (Z.to_N z) ws line W L S) as [r [E S']]. exists (le_enc 4 (Z.to_N z)), r.
    split; [change (match rd_unsigned 32 line with Some (v, r) => Some (le_enc 4 v, r) | None => None end = Some (le_enc 4 (Z.to_N z), r)); rewrite E; reflexivity|].
    split; [|exact S']. apply (uint32 w z); [rewrite Z2N.id in W by lia; exact W|exact B|]. rewrite <- (Z2N.id z) at 2 by lia. apply (unsigned_holds 32); [reflexivity|exact L].
  - rewrite <- (Z2N.id z) in W by lia. assert (Z.to_N z < 2 ^ 64) as L by (change 18446744073709551616%Z with (Z.of_N (2 ^ 64)) in B; lia).
    destruct (unsigned_spelled 64 w (Z.to_N z) ws line W L S) as [r [E S']]. exists (le_enc 8 (Z.to_N z)), r.
    split; [change (match rd_unsigned 64 line with Some (v, r) => Some (le_enc 8 v, r) | None => None end = Some (le_enc 8 (Z.to_N z), r)); rewrite E; reflexivity|].
    split; [|exact S']. apply (uint64 w z); [rewrite Z2N.id in W by lia; exact W|exact B|]. rewrite <- (Z2N.id z) at 2 by lia. apply (unsigned_holds 64); [reflexivity|exact L].
  - destruct (float_reads FLT w d ws line flt_ok H S) as [x [r [E [D S']]]]. exists (store_fp FLT x), r.
    split; [change (match rd_float FLT line with Some (v, r) => Some (store_fp FLT v, r) | None => None end = Some (store_fp FLT x, r)); rewrite E; reflexivity|].
    split; [|exact S']. apply float32. exact D.
  - destruct (float_reads DBL w d ws line dbl_ok H S) as [x [r [E [D S']]]]. exists (store_fp DBL x), r.
    split; [change (match rd_float DBL line with Some (v, r) => Some (store_fp DBL v, r) | None => None end = Some (store_fp DBL x, r)); rewrite E; reflexivity|].
    split; [|exact S']. apply float64. exact D.
  - destruct (read_spelled w ws line S) as [r [E S']]. exists w, r. split; [exact E|]. split; [|exact S']. apply text, W.
Qed.
Lemma blob_spelled x b ws line : blob_says x b -> spelled (x ++ ws) line -> exists b' r, rd_blob line = Some (b', r) /\ blob_says x b' /\ spelled ws r.
Proof.
  intros [t [w [-> [_ D]]]] S. cbn [app] in S. destruct (read_spelled t (w :: ws) line S) as [r [E S1]].
  destruct (datum_reads t w (b_type b) (b_data b) ws r D S1) as [A [d [r' [E' [D' S']]]]].
  exists (mkBlob false d (b_type b)), r'. split; [|split; [|exact S']].
  - unfold rd_blob, rd_name. rewrite E, A, E'. reflexivity.
  - exists t, w. split; [reflexivity|]. split; [reflexivity|exact D'].
Qed.

(* ---- operations ---- *)
Lemma item_spelled name ws c k more line : operation name ws c -> assoc USER2OP name = Some k -> spelled (ws ++ more) line ->
  exists c' r, rd_item k line = Some (c', r) /\ operation name ws c' /\ spelled more r.
Proof.
  intros O K S. destruct O as [x y z s p o X Y Z0|x y t s p ty X Y T|x y t n g s p ty m op X Y T W M G|x y s p X Y]; injection K as <-; rewrite <- !app_assoc in S;
    destruct (blob_spelled x s _ line X S) as [s' [r1 [E1 [X' S1]]]]; destruct (blob_spelled y p _ r1 Y S1) as [p' [r2 [E2 [Y' S2]]]]; cbn [rd_item]; rewrite E1; cbn [then_read]; rewrite E2; cbn [then_read].
  - destruct (blob_spelled z o _ r2 Z0 S2) as [o' [r3 [E3 [Z' S3]]]]. rewrite E3. cbn [then_read]. exists (MPut s' p' o'), r3. split; [reflexivity|]. split; [constructor; assumption|exact S3].
  - destruct (name_spelled USER2OT t ty more r2 (type_assoc t ty T) S2) as [r3 [E3 S3]]. rewrite E3. cbn [then_read]. exists (MGet s' p' ty), r3. split; [reflexivity|]. split; [constructor; assumption|exact S3].
  - cbn [app] in S2. destruct (name_spelled USER2OT t ty _ r2 (type_assoc t ty T) S2) as [r3 [E3 S3]]. rewrite E3. cbn [then_read].
    destruct (unsigned_spelled 64 n m _ r3 W M S3) as [r4 [E4 S4]]. rewrite E4. cbn [then_read].
    destruct (name_spelled USER2GETOP g op _ r4 (op_assoc g op G) S4) as [r5 [E5 S5]]. rewrite E5. cbn [then_read].
    exists (MGetOp s' p' ty m op), r5. split; [reflexivity|]. split; [constructor; assumption|exact S5].
  - exists (MDel s' p'), r2. split; [reflexivity|]. split; [constructor; assumption|exact S2].
Qed.
Lemma items_spelled name k wss : assoc USER2OP name = Some k -> forall cs more line, Forall2 (operation name) wss cs -> spelled (concat wss ++ more) line ->
  exists cs', rd_items k (List.length wss) line = (cs', true) /\ Forall2 (operation name) wss cs'.
Proof.
  intro K. induction wss as [|ws wss IH]; intros cs more line F S.
  - exists []. split; [reflexivity|constructor].
  - inversion F as [|? c ? cs' O F' E1 E2]; subst. cbn [concat] in S. rewrite <- app_assoc in S.
    destruct (item_spelled name ws c k _ line O K S) as [c' [r [E [O' S']]]]. destruct (IH cs' more r F' S') as [l [El Fl]].
    exists (c' :: l). cbn [List.length rd_items]. rewrite E, El. split; [reflexivity|]. constructor; assumption.
Qed.
Lemma operation_kind name ws c : operation name ws c -> exists k, assoc USER2OP name = Some k /\ assoc USER2OP ("B"%char :: name) = Some k /\ Ascii.eqb (hd "000"%char name) "B"%char = false.
Proof.
  intro O. destruct O; [exists KPut|exists KGet|exists KGetOp|exists KDel]; (split; [reflexivity|]); (split; [reflexivity|reflexivity]).
Qed.
Lemma Forall2_len {A B} (P : A -> B -> Prop) l l' : Forall2 P l l' -> List.length l = List.length l'.
Proof. induction 1; cbn; congruence. Qed.
(* a bulk command of no operations names an operation *)
Lemma line_reads ws cs line : spelled ws line -> command ws cs -> exists cs', rd_line line = (cs', true) /\ command ws cs'.
Proof.
  intros S C. destruct C as [|name ws c O|name n wss cs K F W L|t c H].
  - exists []. unfold rd_line. rewrite (read_nothing line S). split; [reflexivity|constructor].
  - destruct (read_spelled name ws line S) as [r [E S']]. destruct (operation_kind name ws c O) as [k [K [_ B]]].
    rewrite <- (app_nil_r ws) in S'. destruct (item_spelled name ws c k [] r O K S') as [c' [r' [E' [O' _]]]].
    exists [c']. unfold rd_line. rewrite E, K, B. cbn [rd_items]. rewrite E'. split; [reflexivity|]. constructor. exact O'.
  - destruct (read_spelled _ _ line S) as [r [E S']].
    assert (exists k, assoc USER2OP name = Some k /\ assoc USER2OP ("B"%char :: name) = Some k) as [k [K1 K2]].
    { destruct K as [<-|[<-|[<-|[<-|[]]]]]; eexists; split; reflexivity. }
    assert (N.of_nat (List.length cs) < 2 ^ 64) as L' by (change 18446744073709551616%Z with (Z.of_N (2 ^ 64)) in L; lia).
    rewrite <- nat_N_Z in W. destruct (unsigned_spelled 64 n _ _ r W L' S') as [r' [E' S2]]. rewrite <- (app_nil_r (concat wss)) in S2.
    destruct (items_spelled name k wss K1 cs [] r' F S2) as [cs' [E2 F2]].
    exists cs'. unfold rd_line. rewrite E, K2. cbn [hd]. change (Ascii.eqb "B"%char "B"%char) with true. cbv iota. rewrite E'.
    rewrite Nat2N.id, <- (Forall2_len _ _ _ F), E2. split; [reflexivity|].
    rewrite nat_N_Z, <- (Forall2_len _ _ _ F), (Forall2_len _ _ _ F2) in W. rewrite <- (Forall2_len _ _ _ F), (Forall2_len _ _ _ F2) in L.
    apply bulk; assumption.
  - destruct (read_spelled t [] line S) as [r [E _]].
    unfold In in H. exists [c]. unfold rd_line. rewrite E.
    repeat (destruct H as [H|H]; [injection H as <- <-; split; [reflexivity|apply flushing; cbn [In]; tauto]|]). contradiction.
Qed.

(* ---- a text ---- *)
Lemma foreign_reads line : foreign line -> rd_line line = ([], false).
Proof.
  intros [w [ws [S N]]]. destruct (read_spelled w ws line S) as [r [E _]]. unfold rd_line. rewrite E.
  assert (assoc USER2OP w = None) as A; [|rewrite A; reflexivity].
  cbn [map In] in N. unfold USER2OP. cbn [assoc].
  repeat match goal with |- context[beqb w ?x] => let Q := fresh in destruct (beqb w x) eqn:Q; [exfalso; apply N; apply beqb_true in Q; rewrite Q; tauto|] end. reflexivity.
Qed.
Lemma text_reads ls : Forall (fun l => correct l \/ foreign l) ls -> exists rs, Forall2 understood ls rs /\ map rd_line ls = rs.
Proof.
  induction 1 as [|l ls H _ IH]; [exists []; split; [constructor|reflexivity]|]. destruct IH as [rs [F E]].
  destruct H as [[ws [cs [S C]]]|H].
  - destruct (line_reads ws cs l S C) as [cs' [E' C']]. exists ((cs', true) :: rs). split; [|cbn [map]; rewrite E, E'; reflexivity].
    constructor; [left; split; [exists ws; split; assumption|reflexivity]|exact F].
  - exists (([], false) :: rs). split; [|cbn [map]; rewrite E, (foreign_reads l H); reflexivity]. constructor; [right; split; [exact H|reflexivity]|exact F].
Qed.
Lemma commands_read t ls : lines t ls -> Forall (fun l => correct l \/ foreign l) ls ->
  exists rs, Forall2 understood ls rs /\ parse_commands t = (flat_map fst rs, map snd rs).
Proof.
  intros L F. destruct (text_reads ls F) as [rs [M E]]. exists rs. split; [exact M|].
  unfold parse_commands. rewrite <- (lines_unique t ls L). rewrite E. reflexivity.
Qed.
