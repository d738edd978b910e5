(** The scores that lattice decoding and text scoring give to the same words. *)
From Coq Require Import QArith Qcanon.
From Verif Require Import Base QcLib Strings VocabModel ScoreModel ScoreSpec DecoderModel DecoderSpec.
Local Open Scope nat_scope.

(** [same_network v initial f F]: the network that processes one word at a time ([f],
    used by the decoder: from input word, input class, target class and state, the
    probability of the target class and the next state) and the one that processes
    a whole sequence ([F], used by text scoring: the probability of the target class at
    time step [t]) are the same, on words of the shortlist and their classes: there is a
    state after each word that does not depend on the target. *)
Definition same_network {state} (v : vocabulary) (initial : state)
  (f : nat * nat * nat * state -> Qc * state) (F : list (nat * nat) -> nat -> nat -> Qc) : Prop :=
  exists next : state -> nat * nat -> state,
    (forall w c target st,
       nth_error (v_w2c v) w = Some c -> (exists x, nth_error (v_w2c v) x = Some target) ->
       snd (f (w, c, target, st)) = next st (w, c)) /\
    forall inputs t w c target,
      Forall (fun x => nth_error (v_w2c v) (fst x) = Some (snd x)) inputs ->
      nth_error inputs t = Some (w, c) -> (exists x, nth_error (v_w2c v) x = Some target) ->
      fst (f (w, c, target, fold_left next (firstn t inputs) initial)) = F inputs t target.

(** The ID of a word of a hypothesis in a text: words that are not in the vocabulary are
    read as <unk>. *)
Definition text_id (v : vocabulary) (w : hword) (id : nat) : Prop :=
  match w with inl i => id = i | inr _ => word_to_id v UNK = Some id end.

(** A word that both score with the network: text scoring does not exclude it, and the
    decoder does not replace its score. *)
Definition scored_by_both (v : vocabulary) (use_shortlist exclude_unk : bool) (x : hword * option Qc) : Prop :=
  (forall id, text_id v (fst x) id -> ~ excluded v use_shortlist exclude_unk id) /\
  match fst x with
  | inl i => i < num_shortlist_words v \/ shares v use_shortlist \/ snd x = None
  | inr _ => snd x = None
  end.

(** The log probability of a word in its class *)
Definition membership (ln : Qc -> Qc) (v : vocabulary) (id : nat) (b : lp) : Prop :=
  exists shown class_id prob, seen_as v id shown class_id prob /\ log_of ln prob b.
