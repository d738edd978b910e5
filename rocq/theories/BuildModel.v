(** Model of how a network is built from an architecture description and a vocabulary.
    No proofs.

    Simplifications: the initial values of the parameters, which are random numbers or
    constants or log probabilities of the classes, are arbitrary; loading a model only
    replaces them. Arrays may have no elements. Two kinds of descriptions are not
    modelled, and are exceptions here: those where two layers have the same name
    (network.py 203 replaces the first one), and those where the output layer is not the
    last one, or another layer is a softmax layer. The evaluation of the layers is described
    in NetModel.v: create_structure() (network.py 253-254) raises an exception if and only
    if the evaluation of every mini-batch does. *)
From Coq Require Import ZArith.
From Verif Require Import Base Strings NumStr VocabModel ArchModel NetModel DeviceModel OutputModel.
Local Open Scope nat_scope.
Notation option_dict := (list (pystr * ArchModel.value)).

(** A Python string is iterated one character at a time. *)
Definition elements (v : ArchModel.value) : result (list scalar) :=
  match v with
  | Many vs => Ok vs
  | One (SStr s) => Ok (map (fun c => SStr [c]) s)
  | One (SInt _) => Err TypeError
  end.
Definition single (v : ArchModel.value) : result scalar := match v with One s => Ok s | Many _ => Err TypeError end.
Definition text_of (s : scalar) : result pystr := match s with SStr t => Ok t | SInt _ => Err TypeError end.
Definition text (o : option_dict) (key : pystr) : result pystr :=
  do v <- lookup o key; do s <- single v; text_of s.

(** network.py 530-540: the position of a layer that has been created *)
Fixpoint position (names : list pystr) (x : scalar) : result nat :=
  match names with
  | [] => Err InputError
  | n :: r => if scalar_eqb (SStr n) x then Ok 0 else do i <- position r x; Ok (S i)
  end.
Definition input_positions (names : list pystr) (o : option_dict) : result (list nat) :=
  do v <- lookup o (str "inputs"); do es <- elements v; mapM (position names) es.

(** network.py 198-201 *)
Definition device_names (default_device : option pystr) (o : option_dict) : result (list (option pystr)) :=
  match oget o (str "devices") with
  | None => Ok [default_device]
  | Some v => if falsy v then Ok [default_device]
              else do es <- elements v; mapM (fun e => do s <- text_of e; Ok (Some s)) es
  end.

(** basiclayer.py 42-54. (The name InputError is not imported, which is another
    exception.) *)
Definition activation_of (o : option_dict) : result activation :=
  match oget o (str "activation") with
  | None => Ok Tanh
  | Some v =>
    if match v with One (SStr s) => pystr_eqb s (str "tanh") | _ => false end then Ok Tanh
    else if match v with One (SStr s) => pystr_eqb s (str "relu") | _ => false end then Ok ReLU
    else if match v with One (SStr s) => pystr_eqb s (str "leakyrelu") | _ => false end then Ok LeakyReLU
    else Err InputError
  end.

Definition sum (l : list nat) : nat := fold_right Nat.add 0 l.

Section Build.
Context {A : arith}.
Notation num := (num A).
Notation vec := (list num).

(** int() of a string *)
Variable parse_int : pystr -> result Z.
(** dropoutlayer.py 32-38, 62-68: the inverse of one minus the dropout rate *)
Variable dropout_scale : option ArchModel.value -> result num.
(** The initial values: layer, parameter, and the indices of an element *)
Variable initial : pystr -> pystr -> nat -> nat -> nat -> num.

Definition int_of (s : scalar) : result Z := match s with SInt z => Ok z | SStr t => parse_int t end.

(** basiclayer.py 36-40, bidirectionallayer.py 33-37, additionlayer.py 29-30. A negative
    size is an exception when the parameters are created, or because it is not the size
    of the inputs (highwaylayer.py 28-30, dropoutlayer.py 42-46). *)
Definition layer_size (k : kind) (o : option_dict) (input_sizes : list nat) : result nat :=
  match oget o (str "size") with
  | Some v =>
    do s <- single v; do z <- int_of s;
    if (z <? 0)%Z then Err ValueError else Ok (Z.to_nat z)
  | None =>
    match k with
    | Addition => py_index input_sizes 0
    | _ => Ok (sum input_sizes)
    end
  end.

(** glulayer.py 29-32. The size has to be positive: if it is negative, the filters cannot
    be created, and if it is zero, there is no padding (glulayer.py 73-74). *)
Definition filter_size (o : option_dict) : result nat :=
  match oget o (str "filter_size") with
  | None => Ok 5
  | Some v =>
    do s <- single v; do z <- int_of s;
    if (z <=? 0)%Z then Err ValueError else Ok (Z.to_nat z)
  end.

(** basiclayer.py 56-59: bool() of the option *)
Definition reverse_time (o : option_dict) : bool :=
  match oget o (str "reverse_time") with Some v => negb (falsy v) | None => false end.

(** network.py 36-67, create_layer, for the types other than softmax and hsoftmax *)
Definition kind_of (o : option_dict) (type : pystr) : result kind :=
  if pystr_eqb type (str "projection") then Ok Projection
  else if pystr_eqb type (str "fc") || pystr_eqb type (str "tanh") then Ok FullyConnected
  else if pystr_eqb type (str "add") then Ok Addition
  else if pystr_eqb type (str "lstm") then Ok (if reverse_time o then ReverseLSTM else LSTM)
  else if pystr_eqb type (str "gru") then Ok (if reverse_time o then ReverseGRU else GRU)
  else if pystr_eqb type (str "blstm") then Ok (if reverse_time o then ReverseBLSTM else BLSTM)
  else if pystr_eqb type (str "bgru") then Ok (if reverse_time o then ReverseBGRU else BGRU)
  else if pystr_eqb type (str "highway") || pystr_eqb type (str "highwaytanh") then Ok Highway
  else if pystr_eqb type (str "glu") then do k <- filter_size o; Ok (GLU k)
  else if pystr_eqb type (str "dropout") then Ok Dropout
  else Err ValueError.

(** Arrays of the given dimensions *)
Definition new_bias (layer name : pystr) (size : nat) : vec := map (initial layer name 0 0) (seq 0 size).
Definition new_matrix (layer name : pystr) (i rows columns : nat) : list vec :=
  map (fun c => map (fun r => initial layer name i r c) (seq 0 rows)) (seq 0 columns).
Definition new_matrices (layer name : pystr) (count rows columns : nat) : list (list vec) :=
  map (fun i => new_matrix layer name i rows columns) (seq 0 count).

(** lstmlayer.py 32-50, grulayer.py 29-45: the dimensions of the parameters *)
Definition recurrent_matrices (layer : pystr) (count input_size size : nat) : list vec * list vec * vec :=
  (new_matrix layer (str "layer_input/W") 0 input_size (count * size),
   new_matrix layer (str "step_input/W") 0 size (count * size),
   new_bias layer (str "layer_input/b") (count * size)).
(** __init__ of the layers: the dimensions of the parameters *)
Definition new_values (k : kind) (name : pystr) (input_sizes : list nat) (size : nat) : layer_values A :=
  let input_size := sum input_sizes in
  match k with
  | WordInput | ClassInput | Dropout => NoValues
  | Projection => Table (new_matrix name (str "W") 0 input_size size)  (* projectionlayer.py 25-27 *)
  | FullyConnected =>                                                  (* fullyconnectedlayer.py 23-26 *)
    Affine (new_matrix name (str "input/W") 0 input_size size) (new_bias name (str "input/b") size)
  | Highway =>                                                         (* highwaylayer.py 36-38 *)
    Affine (new_matrix name (str "input/W") 0 input_size (2 * size)) (new_bias name (str "input/b") (2 * size))
  | LSTM | ReverseLSTM => let '(w, h, b) := recurrent_matrices name 4 input_size size in Recurrent w h b
  | GRU | ReverseGRU => let '(w, h, b) := recurrent_matrices name 3 input_size size in Recurrent w h b
  | BLSTM | BGRU | ReverseBLSTM | ReverseBGRU =>                       (* bidirectionallayer.py 38-55 *)
    let count := match k with BLSTM | ReverseBLSTM => 4 | _ => 3 end in
    let backward_size := size / 2 in
    let forward_size := size - backward_size in
    let '(w, h, b) := recurrent_matrices (name ++ str "/forward") count input_size forward_size in
    let '(w', h', b') := recurrent_matrices (name ++ str "/backward") count input_size backward_size in
    TwoRecurrent w h b w' h' b'
  | GLU k =>                                                           (* glulayer.py 36-45 *)
    Convolution (new_matrices name (str "input/W") k input_size (2 * size)) (new_bias name (str "input/b") (size * 2))
  | Addition =>                                                        (* additionlayer.py 34-39 *)
    Projections (fun i => new_matrix name (str "input" ++ str_of_nat i ++ str "/W")%list 0 (nth i input_sizes 0) size)
  end.

(** highwaylayer.py 26-30, dropoutlayer.py 42-46, glulayer.py 35 *)
Definition check_inputs (k : kind) (input_sizes : list nat) (size : nat) : result unit :=
  match k with
  | Highway | Dropout => if sum input_sizes =? size then Ok tt else Err ValueError
  | GLU _ => if length input_sizes =? 1 then Ok tt else Err AssertionError
  | _ => Ok tt
  end.

(** network.py 193-203, for the layers before the output layer *)
Definition hidden_layer (default_device : option pystr) (earlier : list (description A)) (o : option_dict)
  : result (description A) :=
  do inputs <- input_positions (map d_name earlier) o;
  do devices <- device_names default_device o;
  do name <- text o (str "name");
  do type <- text o (str "type");
  do k <- kind_of o type;
  do input_sizes <- mapM (py_index (map d_size earlier)) inputs;
  do size <- layer_size k o input_sizes;
  do act <- activation_of o;
  do _ <- check_inputs k input_sizes size;
  do scale <- match k with Dropout => dropout_scale (oget o (str "dropout_rate")) | _ => Ok one end;
  Ok (mkDescription k name inputs size act devices (new_values k name input_sizes size) scale).

(** networkinput.py 25-39 *)
Definition input_layer (v : vocabulary) (o : option_dict) : result (description A) :=
  do type <- text o (str "type");
  do '(k, size) <- (if pystr_eqb type (str "word") then Ok (WordInput, num_shortlist_words v)
                    else if pystr_eqb type (str "class") then Ok (ClassInput, num_classes v)
                    else Err ValueError);
  do name <- text o (str "name");
  do act <- activation_of o;
  Ok (mkDescription k name [] size act [] NoValues one).

(** network.py 196-197, and softmaxlayer.py 22-37, hsoftmaxlayer.py 24-53 *)
Definition output_layer (default_device : option pystr) (exclude_unk : bool) (v : vocabulary)
           (earlier : list (description A)) (o : option_dict) : result (output_description A) :=
  do inputs <- input_positions (map d_name earlier) o;
  do devices <- device_names default_device o;
  do name <- text o (str "name");
  do type <- text o (str "type");
  do input_sizes <- mapM (py_index (map d_size earlier)) inputs;
  let input_size := sum input_sizes in
  let size := num_classes v in
  do _ <- activation_of o;
  if pystr_eqb type (str "softmax") then
    do unk_id <- match word_to_id v UNK with Some i => Ok i | None => Err KeyError end;
    do unk_class <- py_index (v_w2c v) unk_id;
    Ok (mkOutput Softmax name inputs size devices
          (SoftmaxValues (new_matrix name (str "input/W") 0 input_size size) (new_bias name (str "input/b") size))
          unk_class exclude_unk)
  else if pystr_eqb type (str "hsoftmax") then
    do '(l1, l2) <- level_sizes size;
    Ok (mkOutput (HSoftmax l1 l2) name inputs size devices
          (HSoftmaxValues (new_matrix name (str "input/W") 0 input_size l1) (new_bias name (str "input/b") l1)
             (new_matrices name (str "level1/W") l1 input_size l2)
             (map (fun i => map (initial name (str "level1/b") 0 i) (seq 0 l2)) (seq 0 l1)))
          0 exclude_unk)
  else do _ <- kind_of o type; Err RuntimeError.                       (* 453-454 *)

(** self.layers[layer.name] = layer *)
Definition add_layer (earlier : list (description A)) (d : description A) : result (list (description A)) :=
  if existsb (pystr_eqb (d_name d)) (map d_name earlier) then Err OutOfFuel   (* not modelled *)
  else Ok (earlier ++ [d]).

(** network.py 92-254, __init__. [default_device] is None when the variables are not
    placed on a device. *)
Definition build (default_device : option pystr) (exclude_unk : bool) (a : architecture) (v : vocabulary)
  : result (network A) :=
  do ins <- foldM (fun ds o => do d <- input_layer v o; add_layer ds d) (a_inputs a) [];
  match rev (a_layers a) with
  | [] => Err KeyError                                                 (* 204 *)
  | last_options :: r =>
    do ds <- foldM (fun ds o => do d <- hidden_layer default_device ds o; add_layer ds d) (rev r) ins;
    do name <- text last_options (str "name");
    if negb (scalar_eqb (a_output a) (SStr name)) || existsb (pystr_eqb name) (map d_name ds)
    then Err OutOfFuel                                                 (* not modelled *)
    else do out <- output_layer default_device exclude_unk v ds last_options;
         create_network ds out
  end.
End Build.
