(** Specification for parameters and their saved state, in terms of pairs of paths
    and arrays. *)
From Verif Require Import Base ParamModel.

Definition paths {A} (d : list (pystr * A)) : list pystr := map fst d.

(** A mapping has each path once. *)
Definition is_dict {A} (d : list (pystr * A)) : Prop := NoDup (paths d).

Section Spec.
Context {V : Type}.
Notation dict := (list (pystr * array V)).

(** Variables can be written to a state if those that are there already are not
    scalars and have the same shape. *)
Definition writable (vars state : dict) : Prop :=
  forall path a b, In (path, a) vars -> In (path, b) state -> a_shape b = a_shape a /\ a_shape b <> [].

(** Variables can be read from a state if all are there with as many dimensions. *)
Definition readable (vars state : dict) : Prop :=
  forall path a, In (path, a) vars -> exists b, In (path, b) state /\ length (a_shape b) = length (a_shape a).

(** Same paths in the same order, and as many dimensions. *)
Definition alike (vars vars' : dict) : Prop :=
  Forall2 (fun x y => fst x = fst y /\ length (a_shape (snd x)) = length (a_shape (snd y))) vars vars'.

(** The state [s'] is [s] with the variables written over it. *)
Definition overwritten (vars s s' : dict) : Prop :=
  is_dict s' /\ forall path a, In (path, a) s' <-> In (path, a) vars \/ (In (path, a) s /\ ~ In path (paths vars)).
End Spec.
