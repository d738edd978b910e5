(** What the training objective should be, stated without the code's tensors. *)
From Coq Require Import Reals.
From Verif Require Import Base CostModel.
Open Scope R_scope.

(** The positions that the objective is about: not padding, and not the excluded word *)
Definition counted (o : cost_options) (p : position) : Prop :=
  in_mask p = true /\ exclude_id o <> Some (target_id p).

(** [objective o batch l s n]: every position of the mini-batch has a finite log
    probability, and [n] counted positions have log probabilities that sum to [- s] *)
Inductive objective (o : cost_options) : list position -> list ext -> R -> nat -> Prop :=
| objective_nil : objective o [] [] 0 0
| objective_counted : forall p x b l s n,
    counted o p -> objective o b l s n -> objective o (p :: b) (Fin x :: l) (s - x) (S n)
| objective_ignored : forall p x b l s n,
    ~ counted o p -> objective o b l s n -> objective o (p :: b) (Fin x :: l) s n.

(** [same_data o b l b' l']: the two mini-batches have the same log probabilities at
    counted positions in the same order, and finite log probabilities elsewhere. There
    may be a different number of other positions, in other places. *)
Inductive same_data (o : cost_options) : list position -> list ext -> list position -> list ext -> Prop :=
| same_nil : same_data o [] [] [] []
| same_counted : forall p p' x b l b' l',
    counted o p -> counted o p' -> same_data o b l b' l' -> same_data o (p :: b) (x :: l) (p' :: b') (x :: l')
| same_left : forall p x b l b' l',
    ~ counted o p -> same_data o b l b' l' -> same_data o (p :: b) (Fin x :: l) b' l'
| same_right : forall p x b l b' l',
    ~ counted o p -> same_data o b l b' l' -> same_data o b l (p :: b') (Fin x :: l').

(** The penalty of the parameters *)
Definition total (f : R -> R) (params : list (list R)) : R := fold_right Rplus 0 (map f (concat params)).
Definition weight (w : option R) : R := match w with Some x => x | None => 0 end.
Definition penalty (o : cost_options) (params : list (list R)) : R :=
  weight (l1_weight o) * total Rabs params + weight (l2_weight o) * total Rsqr params.

Definition finite (x : ext) : Prop := exists r, x = Fin r.
