(** The training data as the trainer reads it: theanolm/training/trainer.py with
    theanolm/parsing/shufflingbatchiterator.py as its iterator. A mini-batch is the
    list of its sequences; the matrices are made of them by [prepare_batch]
    (IterModel.v), which is a part of what the optimizer does with the mini-batch. *)
From Coq Require Import QArith.
From Verif Require Import Base Strings TextModel IterModel.
Local Open Scope nat_scope.

(** A bound on the number of times __next__() calls _read_sequence(): enough for all
    the words of the buffer and of the next [n] lines *)
Fixpoint read_bound (n : nat) (s : shuffling) : nat :=
  match n with
  | 0 => 1
  | S n' =>
    match shuffling_readline s with
    | Ok (Some (line, _), s') =>
      match utterance_from_line line with Ok u => S (length u) | Err _ => 1 end + read_bound n' s'
    | _ => 1
    end
  end.
Definition read_fuel (st : bstate shuffling) : nat :=
  length (b_buffer st) + read_bound (length (s_order (b_src st)) - s_next_line (b_src st)) (b_src st).

(** shufflingbatchiterator.py 171-189 *)
Definition data_save (st : bstate shuffling) : iter_state := shuffling_iter_get_state st.
Definition data_restore (st : bstate shuffling) (s : iter_state) : result (bstate shuffling) :=
  shuffling_iter_set_state (Some s) st.

Section Data.
(** numpy's random generator, as in IterModel.v *)
Variable choice : nat -> nat -> list nat -> nat -> bool -> list nat.
Variable shuffle10 : nat -> list nat -> list nat.
Variable batch_size : nat.
Variable max_len : option nat.

(** batchiterator.py 55-98, __next__() of the training iterator. The errors are those
    of a position outside of the files; they would be raised. *)
Definition data_next (st : bstate shuffling) : option (list sequence) * bstate shuffling :=
  match next_sequences shuffling shuffling_readline (shuffling_reset choice shuffle10) batch_size max_len (read_fuel st) st with
  | Ok (r, st') => (r, st')
  | Err _ => (None, st)
  end.

(** The order that is drawn at the given draw, shufflingbatchiterator.py 204-216 *)
Definition drawn (s : shuffling) (draw : nat) : list nat :=
  shuffle10 draw (concat (draw_samples choice draw 0 (sp_ranges (s_pointers s)) (s_sizes s))).

(** trainer.py 49-79, the constructor: counts the mini-batches of the whole data in
    file order, and creates the iterator. [fuel] is for the counting loop. *)
Definition trainer_data (fuel : nat) (files : list pystr) (sampling : list Q) : result (nat * bstate shuffling) :=
  do l <- linear_init files;                                                       (* 49-54 *)
  do '(batches, _) <- epoch linear linear_readline linear_reset batch_size max_len fuel (batch_init l);  (* 56-58 *)
  if length batches <? 1 then Err ValueError else                                  (* 59-60 *)
  do s <- shuffling_init choice shuffle10 files sampling;                          (* 71-77 *)
  Ok (length batches, batch_init s).
End Data.
