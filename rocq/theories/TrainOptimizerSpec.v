(** Specification of training with the optimizers. *)
From Coq Require Import Reals QArith Qcanon Qreals.
From Verif Require Import Base Strings NetModel NetReal SavedSpec IterModel IterSpec OptimizerModel OptimizerSpec TrainCommandModel TrainOptimizerModel.
Local Open Scope nat_scope.

(** A method uses variables of a kind. *)
Definition uses (m : method) (k : kind) : Prop := exists x, In (k, x) (kinds m).

(** The state of an optimizer fits a network: of every kind that there is, there is a
    variable for each parameter of the network, of the same size. *)
Definition fits (n : rnetwork) (x : opt_state) : Prop :=
  forall k d, os_aux x k = Some d -> same_shape (tensors n) d.
(** The variables of a method are in the state. *)
Definition complete (m : method) (x : opt_state) : Prop :=
  (forall k, uses m k -> os_aux x k <> None) /\ (m = Adam -> os_timestep x <> None).

(** A network that can be trained *)
Definition distinct_parameters (n : rnetwork) : Prop := NoDup (parameter_paths n).

(** The sequences of a mini-batch, read from [num_files] files *)
Definition from_files (num_files : nat) (b : list sequence) : Prop :=
  b <> [] /\ forall s w f, In s b -> In (w, f) s -> f < num_files.

(** The arrays of a mini-batch: a column for each sequence. Words that are not in the
    vocabulary or in the shortlist are <unk>. A file is given by its number, which has been
    stored in eight bits: from 128 files on it may be that of another file, counted from the
    last one if it is negative. *)
Definition batch_arrays (view : vocab_view) (class_of : nat -> nat) (num_files : nat) (b : list sequence) (mb : minibatch) : Prop :=
  exists rows, longest rows b /\
  is_matrix rows (length b) (b_words mb) /\ is_matrix rows (length b) (b_classes mb) /\
  is_matrix rows (length b) (b_files mb) /\ is_matrix rows (length b) (b_mask mb) /\
  (forall j s t word file, nth_error b j = Some s -> nth_error s t = Some (word, file) ->
     cell (b_mask mb) t j = Some true /\
     (exists code, word_code (vv_word_to_id view) (vv_in_shortlist view) (vv_unk_id view) true word code /\
        cell (b_words mb) t j = Some code /\ cell (b_classes mb) t j = Some (class_of code)) /\
     (exists i, cell (b_files mb) t j = Some i /\ (file < 128 -> i = file) /\
        (128 <= file < 256 -> file < num_files -> i + 256 = num_files + file))) /\
  (forall j s t, nth_error b j = Some s -> length s <= t < rows -> cell (b_mask mb) t j = Some false).

(** The values of the variables of an optimizer in a state *)
Definition holds (m : method) (x : opt_state) (s : OptimizerModel.store) : Prop :=
  (forall k, uses m k -> os_aux x k = Some (aux s k)) /\ (m = Adam -> os_timestep x = Some (timestep s)).
