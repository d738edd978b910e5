(** Specification of gradient based optimization, element by element. *)
From Coq Require Import Reals.
From Verif Require Import Base ParamSpec OptimizerModel.
Open Scope R_scope.

(** [x] is the element [i] of the tensor called [p]. *)
Definition elem (d : tdict) (p : pystr) (i : nat) (x : R) : Prop := exists t, In (p, t) d /\ nth_error t i = Some x.

(** Tensors with the same names, in the same order, and the same sizes *)
Definition same_shape (d d' : tdict) : Prop :=
  Forall2 (fun x y => fst x = fst y /\ length (snd x) = length (snd y)) d d'.

(** The norm of the vector of all the elements of the tensors *)
Definition elements (d : tdict) : list R := concat (map snd d).
Definition norm (d : tdict) : R := sqrt (fold_right Rplus 0 (map Rsqr (elements d))).

(** The factor that limits the norm of a step *)
Definition factor (o : options) (n : R) : R := Rmin n (max_norm o) / (epsilon o + n).

(** The auxiliary parameters of a method match the network parameters. *)
Definition well_formed (m : method) (s : store) : Prop :=
  is_dict (net s) /\ forall k x, In (k, x) (kinds m) -> same_shape (net s) (aux s k).

(** A gradient for each parameter, of the same size *)
Definition gradient_of (s : store) (g : list tensor) : Prop := map (@length R) g = map (fun x => length (snd x)) (net s).

(** The network parameters have been moved to the direction [D], the length of which
    has been limited. *)
Definition moved (o : options) (a : R) (D : tdict) (s s' : store) : Prop :=
  same_shape (net s) D /\ same_shape (net s) (net s') /\
  forall p i x d, elem (net s) p i x -> elem D p i d -> elem (net s') p i (x + a * (factor o (norm D) * d)).

(** The auxiliary parameters of kind [k] have been updated from the gradient [G] by the
    rule [f]. *)
Definition updated (k : kind) (f : R -> R -> R) (G : tdict) (s s' : store) : Prop :=
  same_shape (net s) (aux s' k) /\
  forall p i a g, elem (aux s k) p i a -> elem G p i g -> elem (aux s' k) p i (f a g).

(** A training run: the gradients (and learning rates) that have been used *)
Section Runs.
Variable gradients : tdict -> list (list nat) -> list (list nat) -> list (list bool) -> list tensor.
Variables (m : method) (o : options) (weights : list R).
Inductive run : store -> list (R * tdict) -> store -> Prop :=
| run_nil s : run s [] s
| run_snoc s0 l s lr b s' : run s0 l s ->
    update_minibatch gradients m o weights lr b s = Ok s' ->
    run s0 (l ++ [(lr, combine (map fst (net s)) (gradients (net s) (b_words b) (b_classes b) (tl (b_mask b))))]) s'.
End Runs.

(** [v] lists the values that the element [i] of the parameter [p] has in the gradients
    of a run. *)
Definition gradient_history (l : list (R * tdict)) (p : pystr) (i : nat) (v : list R) : Prop :=
  Forall2 (fun x g => elem (snd x) p i g) l v.

(** Exponentially weighted sum, the last one having weight 1 *)
Fixpoint weighted (c : R) (l : list R) : R :=
  match l with
  | [] => 0
  | x :: l' => c ^ length l' * x + weighted c l'
  end.
