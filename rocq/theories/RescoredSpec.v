(** Independent specification of rescored lattices. *)
From Coq Require Import QArith Qcanon.
From Verif Require Import Base QcLib Strings VocabModel LatticeModel LatticeSpec DecoderModel DecoderSpec.
Local Open Scope nat_scope.

(** The words on a path *)
Definition words_of (p : list link) : list pystr :=
  concat (map (fun l => match k_word l with Some w => [w] | None => [] end) p).

(** [leads a i w q]: from node [i], the path [q] of null links and a link with word [w] *)
Inductive leads (a : lattice) (w : pystr) : nat -> list link -> Prop :=
| leads_word l : In l (a_links a) -> k_word l = Some w -> leads a w (k_start l) [l]
| leads_null l q : In l (a_links a) -> k_word l = None -> leads a w (k_end l) q ->
                   leads a w (k_start l) (l :: q).
(** From a node there is only one way to each next word. *)
Definition determinized (a : lattice) : Prop :=
  forall i w q q', leads a w i q -> leads a w i q' -> q = q'.
(** No link is without a word. *)
Definition null_free (a : lattice) : Prop := forall l, In l (a_links a) -> k_word l <> None.

(** The link that replaces a path of null links and a word. The transitions are
    concatenated backwards. *)
Definition merged (q : list link) (l : link) : Prop :=
  (exists q0 x, q = q0 ++ [x] /\ k_word l = k_word x) /\
  k_ac l = Some (qsum (map (fun x => score_or_zero (k_ac x)) q)) /\
  k_lm l = Some (qsum (map (fun x => score_or_zero (k_lm x)) q)) /\
  k_transitions l = concat (rev (map k_transitions q)).

(** The words of a token after <s>, followed by </s> *)
Definition word_is (v : vocabulary) (w : hword) (s : pystr) : Prop :=
  match w with inl i => nth_error (v_id_to_word v) i = Some s | inr u => u = s end.
Definition speaks {state} (v : vocabulary) (t : token state) (ws : list pystr) : Prop :=
  exists first hs, tk_history _ t = first :: hs /\ Forall2 (word_is v) hs (ws ++ [EOS]).

(** The hash tells apart the parts of histories that decide about recombination. *)
Definition no_recent_collisions {state} (initial_state : state) f ln lin v o (hash : list hword -> Z) (a : lattice) : Prop :=
  forall h h' r r', lattice_history state initial_state f ln lin v o a h -> lattice_history state initial_state f ln lin v o a h' ->
    recent o h r -> recent o h' r' -> hash r = hash r' -> r = r'.

(** Total scores on a path *)
Definition path_ac (p : list link) : Qc := qsum (map (fun x => score_or_zero (k_ac x)) p).
Definition path_lm (p : list link) : Qc := qsum (map (fun x => score_or_zero (k_lm x)) p).
