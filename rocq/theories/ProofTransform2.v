(* Registrations without effect; functions that copy *)
From Verif Require Import ModelBytes ModelKey ModelElen ModelHist ModelMsg ModelStore ModelTransform SpecTransform ProofTransform.
Local Open Scope N_scope.

Lemma emplace_twice {A} (t : N) (a b : A) m : emplace (emplace m t a) t b = emplace m t a.
Proof. unfold emplace at 1. unfold emplace. destruct (tfind t m) eqn:E; [rewrite E; reflexivity|]. rewrite tfind_app, E. cbn [tfind]. rewrite N.eqb_refl. reflexivity. Qed.
Lemma silent c t e d e' d' :
  set_transform_function false t e' d' (fst (set_transform_function false t e d c)) = (fst (set_transform_function false t e d c), true).
Proof. cbn [set_transform_function fst cb_num cb_enc cb_dec]. rewrite !emplace_twice. reflexivity. Qed.
Lemma copies f n0 l t : t = T_BYTE \/ t = T_POINTER ->
  (forall x, c_enc (session_codec (init_transform f (configure n0 l))) t false x = Ok (Some x)) /\
  c_enc (session_codec (init_transform f (configure n0 l))) t true [] = Ok (Some []) /\
  (forall x, x <> [] -> c_enc (session_codec (init_transform f (configure n0 l))) t true x = UB) /\
  (forall x, c_dec (session_codec (init_transform f (configure n0 l))) t x = Ok (Some x)).
Proof.
  intros Ht. destruct (known_ignored f n0 l t) as [A B]; [destruct Ht as [-> | ->]; cbn [known_types In]; tauto|].
  split; [|split; [|split]]; intros; rewrite ?A, ?B; destruct Ht as [-> | ->]; try reflexivity; (destruct x; [contradiction|reflexivity]).
Qed.
