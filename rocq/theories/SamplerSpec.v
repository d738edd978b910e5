(** What text generation should do. *)
From Coq Require Import QArith Qcanon.
From Verif Require Import Base Strings Dict TextSpec VocabModel.
Local Open Scope nat_scope.

(** The network is given words (and their classes) one time step after another:
    the distributions after each of them, and the last state. *)
Section Run.
Context {P X : Type}.
Variable step : list nat -> list nat -> X -> result (list (list P) * X).
Inductive runs : list (list nat * list nat) -> X -> list (list (list P)) -> X -> Prop :=
| runs_nil st : runs [] st [] st
| runs_cons w c r st p st1 ps st2 :
    step w c st = Ok (p, st1) -> runs r st1 ps st2 -> runs ((w, c) :: r) st (p :: ps) st2.
End Run.

(** [id] is the ID of [word] and [class_id] is its class. *)
Definition has_ids (v : vocabulary) (word : pystr) (id class_id : nat) : Prop :=
  word_to_id v word = Some id /\ nth_error (v_w2c v) id = Some class_id.

Section Generated.
Context {P X : Type}.
Variable step : list nat -> list nat -> X -> result (list (list P) * X).
Variable initial : X.
Variable draw_class : nat -> nat -> list P -> nat.
Variable draw_word : nat -> nat -> list Qc -> nat.
Variable v : vocabulary.

(** The word IDs and class IDs at each time step (rows) for each of the sequences
    (columns). At the first time step there is the sentence start symbol, then come
    the seed words. At the time steps after those, each class is drawn from the
    distribution that the network gives after the words and classes at all the
    earlier time steps, and each word is drawn from the words of the class. *)
Record generated (n : nat) (seed : list pystr) (words classes : list (list nat)) : Prop := {
  g_same_length : length classes = length words;
  g_rows : forall t w, nth_error words t = Some w -> length w = n;
  g_given : forall t token w c, nth_error (SOS :: seed) t = Some token ->
      nth_error words t = Some w -> nth_error classes t = Some c ->
      exists id class_id, has_ids v token id class_id /\ w = repeat id n /\ c = repeat class_id n;
  g_drawn : forall t w c, length seed < t -> nth_error words t = Some w -> nth_error classes t = Some c ->
      exists probs p st, runs step (combine (firstn t words) (firstn t classes)) initial (probs ++ [p]) st /\
        length p = n /\
        forall j distribution, nth_error p j = Some distribution ->
          exists class_id wc id,
            class_id = draw_class t j distribution /\ nth_error c j = Some class_id /\
            nth_error (v_classes v) class_id = Some wc /\
            nth_error (map fst (wc_probs wc)) (draw_word t j (map snd (wc_probs wc))) = Some id /\
            nth_error w j = Some id }.
End Generated.

(** The text of sequence [j] *)
Definition text_of (v : vocabulary) (words : list (list nat)) (j : nat) (text : list pystr) : Prop :=
  Forall2 (fun w token => exists id, nth_error w j = Some id /\ nth_error (v_id_to_word v) id = Some token) words text.

(** [kept] is the sequence up to and including the first sentence end symbol. *)
Definition up_to_eos (sequence kept : list pystr) : Prop :=
  (~ In EOS sequence /\ kept = sequence) \/
  (exists before_eos after_eos, sequence = before_eos ++ EOS :: after_eos /\ ~ In EOS before_eos /\ kept = before_eos ++ [EOS]).
