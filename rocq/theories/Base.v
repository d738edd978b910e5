(** Shared conventions of the model: Python exceptions as values, characters,
    and list operations that correspond to Python's slicing. No proofs. *)
From Coq Require Export List Arith NArith ZArith Bool Lia.
Export ListNotations.

(** Exceptions that the modelled code raises (only the class is kept, the
    message is dropped).  [OutOfFuel] is not a Python exception: a model function
    returns it when its fuel is used up, and theorems show that it does not
    happen.  [NotTerminating] likewise marks a Python loop that never ends. *)
Inductive exn :=
| InputError
| ValueError
| KeyError
| IndexError
| AssertionError
| RuntimeError
| IncompatibleStateError
| ZeroDivisionError
| TypeError
| NumberError
| AttributeError
| OutOfFuel.

Inductive result (A : Type) :=
| Ok (a : A)
| Err (e : exn).
Arguments Ok {A} a.
Arguments Err {A} e.

Definition bind {A B} (r : result A) (f : A -> result B) : result B :=
  match r with
  | Ok a => f a
  | Err e => Err e
  end.

Declare Scope result_scope.
Delimit Scope result_scope with result.
Notation "'do' x <- r ; k" := (bind r (fun x => k))
  (at level 60, x name, r at level 55, k at level 60, right associativity) : result_scope.
Notation "'do' ' p <- r ; k" := (bind r (fun p => k))
  (at level 60, p pattern, r at level 55, k at level 60, right associativity) : result_scope.
Open Scope result_scope.

(** Left-to-right loop whose body may raise. *)
Fixpoint foldM {S A} (f : S -> A -> result S) (l : list A) (s : S) : result S :=
  match l with
  | [] => Ok s
  | a :: l' => do s' <- f s a; foldM f l' s'
  end.

Fixpoint mapM {A B} (f : A -> result B) (l : list A) : result (list B) :=
  match l with
  | [] => Ok []
  | a :: l' => do b <- f a; do bs <- mapM f l'; Ok (b :: bs)
  end.

(** Python list indexing with a non-negative index. *)
Definition py_index {A} (l : list A) (i : nat) : result A :=
  match nth_error l i with
  | Some a => Ok a
  | None => Err IndexError
  end.

(** [l[i] = a] for a non-negative index in range; otherwise unchanged. *)
Fixpoint upd {A} (l : list A) (i : nat) (a : A) : list A :=
  match l, i with
  | [], _ => []
  | _ :: l', 0 => a :: l'
  | x :: l', S i' => x :: upd l' i' a
  end.

(** Characters are Unicode code points, strings are lists of them. *)
Definition char := N.
Definition pystr := list char.
Definition char_eq_dec : forall a b : char, {a = b} + {a <> b} := N.eq_dec.
Definition pystr_eq_dec : forall a b : pystr, {a = b} + {a <> b} :=
  list_eq_dec char_eq_dec.
Definition pystr_eqb (a b : pystr) : bool :=
  if pystr_eq_dec a b then true else false.
