(** Vocabulary for the properties of output layers. *)
From Coq Require Import Reals.
From Verif Require Import Base NetModel DeviceModel NetReal.
Local Open Scope nat_scope.

(** The sum of a list of real numbers *)
Definition total (p : list R) : R := fold_right Rplus 0%R p.
(** A probability distribution *)
Definition distribution (p : list R) : Prop := Forall (Rle 0) p /\ total p = 1%R.

(** The initial values of an output layer have its dimensions. *)
Definition softmax_dimensions {A} (o : output_description A) : Prop :=
  match o_kind o, o_values o with
  | Softmax, SoftmaxValues w b => length w = o_size o /\ length b = o_size o
  | _, _ => False
  end.
Definition hsoftmax_dimensions {A} (o : output_description A) (level1_size level2_size : nat) : Prop :=
  o_kind o = HSoftmax level1_size level2_size /\
  match o_values o with
  | HSoftmaxValues w b w2 b2 =>
    length w = level1_size /\ length b = level1_size /\ length w2 = level1_size /\ length b2 = level1_size /\
    Forall (fun m => length m = level2_size) w2 /\ Forall (fun v => length v = level2_size) b2
  | _ => False
  end.
