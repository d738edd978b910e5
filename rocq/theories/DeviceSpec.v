(** Vocabulary for the properties of splitting layers to devices. *)
From Verif Require Import Base Strings NetModel DeviceModel.

(** Consecutive ranges of indices, from [first] to [last] *)
Fixpoint consecutive (first last : nat) (ranges : list (nat * nat)) : Prop :=
  match ranges with
  | [] => first = last
  | (a, b) :: r => a = first /\ a <= b /\ consecutive b last r
  end.

Section Spec.
Context {A : arith}.

(** The dimensions of the initial values of a layer match: there is a bias for every
    output feature. *)
Definition fitting_values (v : layer_values A) : Prop :=
  match v with
  | Affine w b => length b = length w
  | Recurrent w _ b => length b = length w
  | TwoRecurrent w _ b w' _ b' => length b = length w /\ length b' = length w'
  | _ => True
  end.
(** The values are those of the kind of layer. *)
Definition right_values (k : kind) (v : layer_values A) : Prop :=
  match k, v with
  | (WordInput | ClassInput | Dropout), NoValues => True
  | Projection, Table _ => True
  | (FullyConnected | Highway), Affine _ _ => True
  | (LSTM | GRU | ReverseLSTM | ReverseGRU), Recurrent _ _ _ => True
  | (BLSTM | BGRU | ReverseBLSTM | ReverseBGRU), TwoRecurrent _ _ _ _ _ _ => True
  | GLU _, Convolution _ _ => True
  | Addition, Projections _ => True
  | _, _ => False
  end.
Definition fitting_output (o : output_description A) : Prop :=
  match o_kind o, o_values o with
  | Softmax, SoftmaxValues w b => length b = length w
  | HSoftmax _ _, HSoftmaxValues _ _ _ _ => True
  | _, _ => False
  end.

(** Descriptions of the same layer, maybe on other devices *)
Definition same_layer (d d' : description A) : Prop :=
  d_kind d' = d_kind d /\ d_name d' = d_name d /\ d_inputs d' = d_inputs d /\ d_size d' = d_size d /\
  d_activation d' = d_activation d /\ d_values d' = d_values d /\ d_scale d' = d_scale d.
Definition same_output (o o' : output_description A) : Prop :=
  o_kind o' = o_kind o /\ o_name o' = o_name o /\ o_inputs o' = o_inputs o /\ o_size o' = o_size o /\
  o_values o' = o_values o /\ o_unk_class o' = o_unk_class o /\ o_exclude_unk o' = o_exclude_unk o.

(** Layers that work on the devices that have been assigned to them. [None] is the
    default device. *)
Definition works_on_devices (d : description A) : Prop :=
  match d_kind d with GLU _ => d_devices d = [None] | _ => True end.
Definition output_works_on_devices (o : output_description A) : Prop :=
  match o_kind o with
  | Softmax => o_devices o = [None] \/ length (o_devices o) <> 1
  | HSoftmax _ _ => o_devices o = [None]
  end.
End Spec.
