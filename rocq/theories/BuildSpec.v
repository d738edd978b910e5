(** Vocabulary for the properties of building networks. *)
From Verif Require Import Base Strings NumStr VocabModel ArchModel ArchSpec NetModel NetSpec.
Local Open Scope nat_scope.
Notation option_dict := (list (pystr * ArchModel.value)).

(** ** Mini-batches *)

(** Words of the shortlist, and word classes, in [N] sequences of [T] time steps *)
Record valid_batch (v : vocabulary) (T N : nat) (b : batch) : Prop := {
  vb_dimensions : dimensions b T N;
  vb_words : Forall (Forall (fun w => w < num_shortlist_words v)) (b_words b);
  vb_classes : Forall (Forall (fun c => c < num_classes v)) (b_classes b) }.

(** The words and classes of one time step *)
Definition valid_step (v : vocabulary) (N : nat) (x : list nat * list nat) : Prop :=
  length (fst x) = N /\ length (snd x) = N /\
  Forall (fun w => w < num_shortlist_words v) (fst x) /\ Forall (fun c => c < num_classes v) (snd x).

(** Numbers for [T] time steps, [N] sequences and [size] features *)
Definition tensor_shape {X} (T N size : nat) (x : list (list (list X))) : Prop :=
  length x = T /\ Forall (rectangle N size) x.

(** ** Architecture descriptions *)

(** The type of a layer *)
Definition has_type (o : option_dict) (type : pystr) : Prop := option_value o (str "type") = Some (One (SStr type)).

(** An option that lists names: a list, or a string, which is a list of characters in
    Python *)
Definition listed (o : option_dict) (key : pystr) (names : list pystr) : Prop :=
  option_value o key = Some (Many (map SStr names)) \/
  exists s, option_value o key = Some (One (SStr s)) /\ names = map (fun c => [c]) s.

(** [x] is the name of a network input. *)
Definition is_input (a : architecture) (x : pystr) : Prop :=
  exists o, In o (a_inputs a) /\ option_value o (str "name") = Some (One (SStr x)).

(** The input of a projection layer is one network input, and the inputs of other layers
    are other layers. *)
Definition connected (a : architecture) (o : option_dict) : Prop :=
  (has_type o (str "projection") -> exists x, listed o (str "inputs") [x] /\ is_input a x) /\
  (~ has_type o (str "projection") ->
   exists names, listed o (str "inputs") names /\ names <> [] /\ Forall (fun x => ~ is_input a x) names).

(** No device has been named for a layer, and there is no default device. *)
Definition no_device (default_device : option pystr) (o : option_dict) : Prop :=
  default_device = None /\ forall names, listed o (str "devices") names -> names = [].
(** The layer types that do not work on every device *)
Definition placed_well (default_device : option pystr) (o : option_dict) : Prop :=
  (has_type o (str "glu") \/ has_type o (str "hsoftmax") -> no_device default_device o) /\
  (has_type o (str "softmax") ->
   no_device default_device o \/ exists d d' names, listed o (str "devices") (d :: d' :: names)).

(** The option to process the sequence in reverse has been given, and its value is not
    empty or zero. *)
Definition reverse_option (o : option_dict) : bool :=
  match option_value o (str "reverse_time") with
  | None | Some (One (SStr [])) | Some (One (SInt 0)) | Some (Many []) => false
  | Some _ => true
  end.
(** A recurrent layer that processes the sequence in reverse *)
Definition reversed_type (o : option_dict) : Prop :=
  (has_type o (str "lstm") \/ has_type o (str "gru")) /\ reverse_option o = true.

(** Layer types that can be evaluated one time step at a time *)
Definition stepwise_type (o : option_dict) : Prop :=
  ~ has_type o (str "blstm") /\ ~ has_type o (str "bgru") /\ ~ has_type o (str "glu") /\ ~ reversed_type o.

(** Layer types that look only at earlier time steps *)
Definition unidirectional_type (o : option_dict) : Prop :=
  ~ has_type o (str "blstm") /\ ~ has_type o (str "bgru") /\ ~ reversed_type o.

(** ** Parameters *)
Section Dimensions.
Context {A : arith}.

(** Weights that multiply [inputs] features *)
Definition rows (inputs : nat) (w : list (list (num A))) : Prop := Forall (fun column => length column = inputs) w.
Definition total (sizes : list nat) : nat := fold_right Nat.add 0 sizes.

(** The weights of a layer match the sizes of its inputs and of its recurrent state, on
    every device of the layer (step_input/W, which is not divided, is read without the
    name of a device). *)
Definition weights_match (l : layer A) (input_sizes : list nat) : Prop :=
  let weight layer name size :=
    forall d w, In d (l_devices l) -> get_weight (l_params l) layer name d = Ok w -> rows size w in
  let recurrent layer size :=
    weight layer (str "layer_input/W") (total input_sizes) /\
    forall w, get_weight (l_params l) layer (str "step_input/W") None = Ok w -> rows size w in
  match l_kind l with
  | WordInput | ClassInput | Dropout => True
  | Projection => weight (l_name l) (str "W") (total input_sizes)
  | FullyConnected => weight (l_name l) (str "input/W") (total input_sizes)
  | Highway => weight (l_name l) (str "input/W") (total input_sizes) /\ total input_sizes = l_size l
  | LSTM | GRU | ReverseLSTM | ReverseGRU => recurrent (l_name l) (l_size l)
  | BLSTM | BGRU | ReverseBLSTM | ReverseBGRU =>
    recurrent (l_name l ++ str "/forward")%list (l_size l - l_size l / 2) /\
    recurrent (l_name l ++ str "/backward")%list (l_size l / 2)
  | GLU k =>
    forall d w, In d (l_devices l) -> get_filters (l_params l) (l_name l) (str "input/W") d = Ok w ->
    length w = k /\ Forall (rows (total input_sizes)) w
  | Addition =>
    forall i size, nth_error input_sizes i = Some size -> size <> l_size l ->
    weight (l_name l) (str "input" ++ str_of_nat i ++ str "/W")%list size
  end.
Definition output_weights_match (n : network A) (input_size : nat) : Prop :=
  (forall d w, In d (n_devices n) -> get_weight (n_params n) (n_name n) (str "input/W") d = Ok w -> rows input_size w) /\
  (forall l1 l2 d w, n_kind n = HSoftmax l1 l2 -> In d (n_devices n) ->
   get_level_weight (n_params n) (n_name n) (str "level1/W") d = Ok w -> Forall (rows input_size) w).
Definition input_sizes (n : network A) (inputs : list nat) : list nat :=
  map (fun i => nth i (map l_size (n_layers n)) 0) inputs.

(** The recurrent state of [N] sequences *)
Definition state_shape (n : network A) (N : nat) (state : list (list (list (num A)))) : Prop :=
  Forall2 (fun size x => rectangle N size x) (flat_map state_sizes (n_layers n)) state.
End Dimensions.
