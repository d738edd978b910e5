(** Vocabulary for the properties of recurrent states. *)
From Verif Require Import Base StateModel.

Section Spec.
Context {X : Type}.

(** The elements of an array are those that its shape tells. *)
Definition consistent (a : array X) : Prop :=
  length (a_data a) = shape0 a /\
  Forall (fun m => length m = shape1 a /\ Forall (fun v => length v = shape2 a) m) (a_data a).
(** A state of the given layers and number of sequences *)
Definition state_of (sizes : list nat) (sequences : nat) (st : state X) : Prop :=
  r_sizes st = sizes /\ r_sequences st = sequences /\
  Forall2 (fun v size => a_shape v = (1, sequences, size) /\ consistent v) (r_variables st) sizes.

(** The vectors of the sequences in a variable: one for each sequence *)
Definition vectors (a : array X) : list (list X) := concat (a_data a).
Definition state_vectors (st : state X) : list (list (list X)) := map vectors (r_variables st).
End Spec.
