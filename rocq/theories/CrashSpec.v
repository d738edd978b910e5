(** Specification for files that were written in part. *)
From Verif Require Import Base NetModel SavedModel SavedSpec.
Local Open Scope nat_scope.

Section Spec.
Context {A : arith}.

(** All the parameters of a network, in the order in which they are written *)
Definition all_parameters (n : network A) : list (pystr * param A) :=
  (flat_map (fun l => l_params l) (n_layers n) ++ n_params n)%list.

(** The network [x] has the first [i] parameters of [new] and the other parameters of
    [old]. *)
Record mixture (i : nat) (old new x : network A) : Prop := {
  mx_network : other_values old x;
  mx_parameters : all_parameters x = (firstn i (all_parameters new) ++ skipn i (all_parameters old))%list }.
End Spec.
