(* What a sequence of configuration sources says, in terms of the texts only. *)
From Verif Require Import ModelBytes ModelConf.
Local Open Scope N_scope.

Definition code (c : byte) : N := N_of_ascii c.
Definition white (c : byte) : Prop := In (code c) [9; 10; 11; 12; 13; 32].
Definition ascii_text (s : bytes) : Prop := Forall (fun c => code c < 128) s.
Definition nl : byte := ascii_of_N 10.

(* the lines of a text: the last one may lack its newline *)
Definition ended (ls : list bytes) : bytes := flat_map (fun l => l ++ [nl]) ls.
Definition lines (text : bytes) (ls : list bytes) : Prop :=
  Forall (fun l => ~ In nl l) ls /\
  (text = ended ls \/ exists ls' l, ls = ls' ++ [l] /\ l <> [] /\ text = ended ls' ++ l).

(* no whitespace at either end *)
Definition trimmed (v : bytes) : Prop := forall c t, v = c :: t \/ v = t ++ [c] -> ~ white c.
(* a line: a word that does not start with #, and a value *)
Definition line_says (line k v : bytes) : Prop :=
  exists before between after,
    line = before ++ k ++ between ++ v ++ after /\
    Forall white before /\ Forall white between /\ Forall white after /\
    k <> [] /\ Forall (fun c => ~ white c) k /\ (forall t, k <> "#"%char :: t) /\
    trimmed v /\ (v = [] \/ between <> []).
(* a text says what its last line about a key says *)
Definition text_says (text k v : bytes) : Prop :=
  exists l1 line l2, lines text (l1 ++ line :: l2) /\ line_says line k v /\ forall l v', In l l2 -> ~ line_says l k v'.
Definition source_says (w : world) (r : reader) (k v : bytes) : Prop :=
  match r with
  | RFile f => exists s, w_files w f = Some s /\ text_says s k v
  | REnvFile e => exists f s, w_env w e = Some f /\ w_files w f = Some s /\ text_says s k v
  | REnvVar e k' => k = k' /\ w_env w e = Some v
  end.
(* the last source that mentions the key *)
Definition sources_say (w : world) (rs : list reader) (k v : bytes) : Prop :=
  exists rs1 r rs2, rs = rs1 ++ r :: rs2 /\ source_says w r k v /\ forall r' v', In r' rs2 -> ~ source_says w r' k v'.
(* the texts that are read are ASCII *)
Definition ascii_world (w : world) : Prop := forall f s, w_files w f = Some s -> ascii_text s.
