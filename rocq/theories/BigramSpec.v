(** Word classes: what the counts and the likelihood are, from first principles. *)
From Coq Require Import Reals.
From Verif Require Import Base BigramModel.
Local Open Scope Z_scope.

(** Sum over the words that satisfy a condition *)
Definition total (l : list nat) (f : nat -> Z) : Z := fold_right Z.add 0 (map f l).
Definition members (p : problem) (a : list nat) (c : nat) : list nat :=
  filter (fun w => class_of a w =? c)%nat (seq 0 (num_words p)).
Definition all_words (p : problem) : list nat := seq 0 (num_words p).

(** Counts of an assignment [a] of words to classes, counted from scratch *)
Definition class_count (p : problem) (a : list nat) (c : nat) : Z := total (members p a c) (word_counts p).
Definition class_class_count (p : problem) (a : list nat) (c d : nat) : Z :=
  total (members p a c) (fun u => total (members p a d) (ww_counts p u)).
Definition class_word_count (p : problem) (a : list nat) (c v : nat) : Z := total (members p a c) (fun u => ww_counts p u v).
Definition word_class_count (p : problem) (a : list nat) (u d : nat) : Z := total (members p a d) (ww_counts p u).

(** The optimizer's tables are those of its assignment *)
Definition exact (p : problem) (st : state) : Prop :=
  let a := word_to_class st in
  (forall c, (c < num_classes p)%nat -> class_counts st c = class_count p a c) /\
  (forall c d, (c < num_classes p)%nat -> (d < num_classes p)%nat -> cc_counts st c d = class_class_count p a c d) /\
  (forall c v, (c < num_classes p)%nat -> (v < num_words p)%nat -> cw_counts st c v = class_word_count p a c v) /\
  (forall u d, (u < num_words p)%nat -> (d < num_classes p)%nat -> wc_counts st u d = word_class_count p a u d).

(** Every word has a class *)
Definition assignment (p : problem) (a : list nat) : Prop :=
  length a = num_words p /\ Forall (fun c => (c < num_classes p)%nat) a.

(** Log likelihood of the corpus under the class bigram model: x log x is zero at zero *)
Local Open Scope R_scope.
Definition xlogx (x : Z) : R := if (x =? 0)%Z then 0 else IZR x * ln (IZR x).
Definition sumR (l : list nat) (f : nat -> R) : R := fold_right Rplus 0 (map f l).
Definition likelihood (p : problem) (a : list nat) : R :=
  let classes := seq 0 (num_classes p) in
  sumR classes (fun c => sumR classes (fun d => xlogx (class_class_count p a c d)))
  + sumR (all_words p) (fun w => xlogx (word_counts p w))
  - 2 * sumR classes (fun c => xlogx (class_count p a c)).

(** Counts are counts, and there are some *)
Definition proper (p : problem) : Prop :=
  (forall w, (0 <= word_counts p w)%Z) /\ (forall u v, (0 <= ww_counts p u v)%Z) /\
  (exists w, (w < num_words p)%nat /\ word_counts p w <> 0%Z) /\
  (exists u v, (u < num_words p)%nat /\ (v < num_words p)%nat /\ ww_counts p u v <> 0%Z) /\
  (num_normal_classes p <= num_classes p)%nat.

(** One move after another *)
Inductive moves (b : backend) (p : problem) : state -> list (nat * nat) -> state -> Prop :=
| moves_nil : forall st, moves b p st [] st
| moves_cons : forall st w c st1 l st2,
    (w < num_words p)%nat -> (c < num_classes p)%nat ->
    move b p st w c = Ok st1 -> moves b p st1 l st2 -> moves b p st ((w, c) :: l) st2.
