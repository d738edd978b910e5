(** Model of theanolm/network/recurrentstate.py, and how lattice decoding uses it. No
    proofs.

    An array is its shape (time steps, sequences, features) and its elements; [X] is the
    type of the elements. Objects are values: an exception leaves the object as it
    was. *)
From Verif Require Import Base.

Section State.
Context {X : Type}.
Variable zero : X.

Record array := mkArray { a_shape : nat * nat * nat; a_data : list (list (list X)) }.
Record state := mkState { r_sizes : list nat; r_sequences : nat; r_variables : list array }.

Definition shape0 (a : array) : nat := fst (fst (a_shape a)).
Definition shape1 (a : array) : nat := snd (fst (a_shape a)).
Definition shape2 (a : array) : nat := snd (a_shape a).

(** 97-111, reset: numpy.zeros *)
Definition zero_array (sequences size : nat) : array :=
  mkArray (1, sequences, size) [repeat (repeat zero size) sequences].

(** 113-136, set. The loop is over the pairs that zip gives. *)
Definition set (st : state) (variables : list array) : result state :=
  if negb (length variables =? length (r_sizes st)) then Err ValueError else
  do _ <- foldM (fun (_ : unit) '(v, size) =>
            if negb (shape0 v =? 1) then Err ValueError else
            if negb (shape1 v =? r_sequences st) then Err ValueError else
            if negb (shape2 v =? size) then Err ValueError else Ok tt)
          (combine variables (r_sizes st)) tt;
  Ok (mkState (r_sizes st) (r_sequences st) variables).

(** 25-48, __init__ *)
Definition construct (sizes : list nat) (sequences : nat) (variables : option (list array)) : result state :=
  match variables with
  | None => Ok (mkState sizes sequences (map (zero_array sequences) sizes))
  | Some vs => set (mkState sizes sequences []) vs
  end.

(** 138-155, get *)
Definition get_all (st : state) : list array := r_variables st.
Definition get (st : state) (index : nat) : result array := py_index (r_variables st) index.

(** numpy.concatenate(…, axis=1) *)
Fixpoint zip_app (a b : list (list (list X))) : list (list (list X)) :=
  match a, b with
  | x :: a', y :: b' => (x ++ y) :: zip_app a' b'
  | _, _ => []
  end.
Definition concatenate (l : list array) : result array :=
  match l with
  | [] => Err ValueError
  | a :: r =>
    foldM (fun acc b =>
      if (shape0 acc =? shape0 b) && (shape2 acc =? shape2 b)
      then Ok (mkArray (shape0 acc, shape1 acc + shape1 b, shape2 acc) (zip_app (a_data acc) (a_data b)))
      else Err ValueError) r a
  end.

(** 50-95, combine_sequences *)
Definition combine_sequences (states : list state) : result state :=
  match states with
  | [] => Err ValueError
  | first :: _ =>
    let num_sequences := fold_left (fun n st => n + r_sequences st) states 0 in
    do '(sizes, variables) <-
      foldM (fun '(sizes, variables) index =>
        do vs <- mapM (fun st => get st index) states;
        do v <- concatenate vs;
        do size <- py_index (r_sizes first) index;
        if negb (shape0 v =? 1) then Err AssertionError else
        if negb (shape1 v =? num_sequences) then Err AssertionError else
        if negb (shape2 v =? size) then Err AssertionError else
        Ok (sizes ++ [shape2 v], variables ++ [v]))
      (seq 0 (length (r_sizes first))) ([], []);
    construct sizes num_sequences (Some variables)
  end.

(** array[:, index:index + 1] *)
Definition slice_sequence (index : nat) (a : array) : array :=
  mkArray (shape0 a, Nat.min (index + 1) (shape1 a) - Nat.min index (shape1 a), shape2 a)
          (map (fun m => firstn 1 (skipn index m)) (a_data a)).

(** latticedecoder.py 650-653: the state of one token after a step *)
Definition token_state (sizes : list nat) (output_state : list array) (index : nat) : result state :=
  do st <- construct sizes 1 None;
  set st (map (slice_sequence index) output_state).
End State.
Arguments array : clear implicits.
Arguments state : clear implicits.
