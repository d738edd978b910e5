(** Model of how theanolm/network creates the parameters of layers, and splits them to
    devices. No proofs.

    Simplifications: initial parameter values are given instead of being generated; the
    sizes of the arrays are those of the values. What a device is does not matter, only
    its name. *)
From Verif Require Import Base Strings NumStr ParamModel NetModel.

(** basiclayer.py 261-292, _split_per_device: the ranges are pairs of the first index
    and the index after the last one. *)
Definition split_per_device (num_devices total_size : nat) : result (list (nat * nat)) :=
  if num_devices <? 1 then Err RuntimeError else
  if total_size <? num_devices then Err ValueError else
  let quotient := total_size / num_devices in
  let remainder := total_size mod num_devices in
  let '(ranges, end_index) :=
    fold_left (fun '(ranges, start_index) i =>
                 let end_index := i * quotient + Nat.min i remainder in
                 (ranges ++ [(start_index, end_index)], end_index))
              (seq 1 num_devices) ([], 0) in
  if negb (length ranges =? num_devices) then Err AssertionError else
  if negb (fold_left (fun n '(first, last) => n + (last - first)) ranges 0 =? total_size) then Err AssertionError else
  if negb (end_index =? total_size) then Err AssertionError else
  Ok ranges.

Section Devices.
Context {A : arith}.
Notation num := (num A).
Notation vec := (list num).
Notation params := (list (pystr * param A)).

(** array[..., range] *)
Definition slice_range {X} (range : nat * nat) (l : list X) : list X := firstn (snd range - fst range) (skipn (fst range) l).
Definition part (range : nat * nat) (v : param A) : param A :=
  match v with
  | Weight w => Weight (slice_range range w)
  | Bias b => Bias (slice_range range b)
  | Filters w => Filters (map (slice_range range) w)
  | LevelWeight w => LevelWeight (map (slice_range range) w)
  | LevelBias b => LevelBias (map (slice_range range) b)
  end.
(** array.shape[-1] *)
Definition last_dimension (v : param A) : nat :=
  match v with
  | Weight w => length w
  | Bias b => length b
  | Filters w | LevelWeight w => match w with [] => 0 | m :: _ => length m end
  | LevelBias b => match b with [] => 0 | r :: _ => length r end
  end.

(** parameters.py 38-75, add *)
Definition add_param (path : pystr) (v : param A) (ps : params) : result params :=
  match dict_get path ps with
  | Some _ => Err ValueError
  | None => Ok (ps ++ [(path, v)])
  end.

(** basiclayer.py 168-259, _init_weight and _init_bias *)
Definition init_param (devices : list (option pystr)) (ps : params) (i : pystr * pystr * bool * param A) : result params :=
  let '(layer, name, split_to_devices, v) := i in
  let path := param_path layer name None in
  if negb split_to_devices then add_param path v ps else
  match devices with
  | [None] => add_param path v ps
  | _ =>
    do ranges <- split_per_device (length devices) (last_dimension v);
    foldM (fun ps '(device, range) =>
      match device with
      | None => Err AssertionError
      | Some d => add_param (path ++ str "/" ++ d)%list (part range v) ps
      end) (combine devices ranges) ps
  end.

(** The initial values of the parameters of a layer *)
Inductive layer_values :=
| NoValues
| Table (w : list vec)
| Affine (w : list vec) (b : vec)
| Recurrent (w h : list vec) (b : vec)
| TwoRecurrent (w h : list vec) (b : vec) (w' h' : list vec) (b' : vec)
| Convolution (w : list (list vec)) (b : vec)
| Projections (w : nat -> list vec).

(** __init__ of the layers: the parameters in the order of creation, with the name of
    the layer (bidirectionallayer.py 36-57: those of the two layers), the name of the
    parameter, and if it is split to devices *)
Definition recurrent_params (name : pystr) (w h : list vec) (b : vec) : list (pystr * pystr * bool * param A) :=
  [(name, str "layer_input/W", true, Weight w);                        (* lstmlayer.py 43-50, grulayer.py 39-45 *)
   (name, str "step_input/W", false, Weight h);
   (name, str "layer_input/b", true, Bias b)].
Definition initial_params (k : kind) (name : pystr) (input_sizes : list nat) (size : nat) (v : layer_values)
  : list (pystr * pystr * bool * param A) :=
  match k, v with
  | Projection, Table w => [(name, str "W", true, Weight w)]           (* projectionlayer.py 27 *)
  | (FullyConnected | Highway), Affine w b =>                          (* fullyconnectedlayer.py 25-26, highwaylayer.py 36-38 *)
    [(name, str "input/W", true, Weight w); (name, str "input/b", true, Bias b)]
  | (LSTM | GRU | ReverseLSTM | ReverseGRU), Recurrent w h b => recurrent_params name w h b
  | (BLSTM | BGRU | ReverseBLSTM | ReverseBGRU), TwoRecurrent w h b w' h' b' =>
    (recurrent_params (name ++ str "/forward") w h b ++ recurrent_params (name ++ str "/backward") w' h' b')%list
  | GLU _, Convolution w b =>                                          (* glulayer.py 42-45 *)
    [(name, str "input/W", true, Filters w); (name, str "input/b", true, Bias b)]
  | Addition, Projections w =>                                         (* additionlayer.py 34-39 *)
    flat_map (fun '(i, input_size) =>
                if input_size =? size then []
                else [(name, str "input" ++ str_of_nat i ++ str "/W", true, Weight (w i))])%list
             (combine (seq 0 (length input_sizes)) input_sizes)
  | _, _ => []
  end.

Record description := mkDescription {
  d_kind : kind; d_name : pystr; d_inputs : list nat; d_size : nat; d_activation : activation;
  d_devices : list (option pystr); d_values : layer_values; d_scale : num }.

(** network.py 196-205, create_layer, and the constructors. [sizes] are those of the
    earlier layers. *)
Definition create_layer (sizes : list nat) (d : description) : result (layer A) :=
  do input_sizes <- mapM (py_index sizes) (d_inputs d);
  do ps <- foldM (init_param (d_devices d))
                 (initial_params (d_kind d) (d_name d) input_sizes (d_size d) (d_values d)) [];
  Ok (mkLayer (d_kind d) (d_name d) (d_inputs d) (d_size d) (d_activation d) (d_devices d) ps (d_scale d)).
Fixpoint create_layers (sizes : list nat) (ds : list description) : result (list (layer A)) :=
  match ds with
  | [] => Ok []
  | d :: r =>
    do l <- create_layer sizes d;
    do ls <- create_layers (sizes ++ [d_size d]) r;
    Ok (l :: ls)
  end.

Inductive output_values :=
| SoftmaxValues (w : list vec) (b : vec)
| HSoftmaxValues (w : list vec) (b : vec) (w2 : list (list vec)) (b2 : list vec).
Record output_description := mkOutput {
  o_kind : output_kind; o_name : pystr; o_inputs : list nat; o_size : nat;
  o_devices : list (option pystr); o_values : output_values; o_unk_class : nat; o_exclude_unk : bool }.
(** softmaxlayer.py 21-42, hsoftmaxlayer.py 20-58 *)
Definition output_params (k : output_kind) (name : pystr) (v : output_values) : list (pystr * pystr * bool * param A) :=
  match k, v with
  | Softmax, SoftmaxValues w b => [(name, str "input/W", true, Weight w); (name, str "input/b", true, Bias b)]
  | HSoftmax _ _, HSoftmaxValues w b w2 b2 =>
    [(name, str "input/W", true, Weight w); (name, str "input/b", true, Bias b);
     (name, str "level1/W", true, LevelWeight w2); (name, str "level1/b", true, LevelBias b2)]
  | _, _ => []
  end.
Definition create_network (ds : list description) (o : output_description) : result (network A) :=
  do ls <- create_layers [] ds;
  do _ <- match o_kind o with
          | HSoftmax _ _ => if 1 <? length (o_devices o) then Err ValueError else Ok tt
          | Softmax => Ok tt
          end;
  do ps <- foldM (init_param (o_devices o)) (output_params (o_kind o) (o_name o) (o_values o)) [];
  Ok (mkNetwork ls (o_kind o) (o_name o) (o_inputs o) (o_size o) (o_devices o) ps (o_unk_class o) (o_exclude_unk o)).
End Devices.
Arguments description : clear implicits.
Arguments output_description : clear implicits.
Arguments layer_values : clear implicits.
Arguments output_values : clear implicits.
