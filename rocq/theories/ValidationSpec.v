(** Specification of the perplexity of a validation set. *)
From Coq Require Import QArith Qcanon.
From Verif Require Import Base Strings TextSpec VocabModel IterSpec ScoreModel ScoreSpec.
Local Open Scope nat_scope.

(** No sentence is longer than the maximum length, when <s> and </s> are counted. *)
Definition fits (max_len : option nat) (lines : list (pystr * nat)) : Prop :=
  match max_len with
  | None => True
  | Some m => forall line file_id words, In (line, file_id) lines -> utterance_of line words -> length words <= m
  end.

Section Scores.
Variable ln : Qc -> Qc.
Variable f : list (nat * nat) -> nat -> nat -> Qc.
Variable v : vocabulary.
Variable use_shortlist exclude_unk : bool.

(** The scores of the words of a sentence after the first *)
Definition sentence_scores (words : list pystr) (scores : list (option lp)) : Prop :=
  exists ids, ids_of v words ids /\ sequence_scores ln f v use_shortlist exclude_unk ids scores.
(** Those that enter the total: known scores of words that have a membership probability
    other than zero *)
Definition sentence_included (words : list pystr) (l : list lp) : Prop :=
  exists ids scores, ids_of v words ids /\ sequence_scores ln f v use_shortlist exclude_unk ids scores /\
    included v (tl ids) scores l.
(** Every word of a sentence after the first either is excluded, or has membership
    probability zero, or has a probability between zero and one. *)
Definition sentence_possible (words : list pystr) : Prop :=
  exists ids scores, ids_of v words ids /\ sequence_scores ln f v use_shortlist exclude_unk ids scores /\
    Forall2 (fun id x => x = None \/ zero_member v id \/ exists y, x = Some y /\ finite_nonpos y) (tl ids) scores.
End Scores.

(** The score is a number. *)
Definition not_nan (x : option lp) : Prop := x <> Some NaN.
Definition finite (x : lp) : Prop := exists q, x = Fin q.
