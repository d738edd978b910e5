(** What an architecture description says about the layers of a network. *)
From Coq Require Import ZArith.
From Verif Require Import Base Strings NumStr VocabModel ArchModel ArchSpec NetModel NetSpec BuildSpec.
Local Open Scope nat_scope.

(** The layer types. [reverse] tells if the layer should process the sequence in reverse,
    which only recurrent layers do; the second layer of a bidirectional layer always
    does. *)
Inductive type_name (reverse : bool) : pystr -> kind -> Prop :=
| Projection_type : type_name reverse (str "projection") Projection
| FullyConnected_type : type_name reverse (str "fc") FullyConnected
| FullyConnected_old_type : type_name reverse (str "tanh") FullyConnected
| Addition_type : type_name reverse (str "add") Addition
| LSTM_type : reverse = false -> type_name reverse (str "lstm") LSTM
| ReverseLSTM_type : reverse = true -> type_name reverse (str "lstm") ReverseLSTM
| GRU_type : reverse = false -> type_name reverse (str "gru") GRU
| ReverseGRU_type : reverse = true -> type_name reverse (str "gru") ReverseGRU
| BLSTM_type : reverse = false -> type_name reverse (str "blstm") BLSTM
| ReverseBLSTM_type : reverse = true -> type_name reverse (str "blstm") ReverseBLSTM
| BGRU_type : reverse = false -> type_name reverse (str "bgru") BGRU
| ReverseBGRU_type : reverse = true -> type_name reverse (str "bgru") ReverseBGRU
| Highway_type : type_name reverse (str "highway") Highway
| Highway_old_type : type_name reverse (str "highwaytanh") Highway
| GLU_type region : type_name reverse (str "glu") (GLU region)
| Dropout_type : type_name reverse (str "dropout") Dropout.
Inductive activation_name : pystr -> activation -> Prop :=
| Tanh_name : activation_name (str "tanh") Tanh
| ReLU_name : activation_name (str "relu") ReLU
| LeakyReLU_name : activation_name (str "leakyrelu") LeakyReLU.

Section Described.
Context {A : arith}.
Variable parse_int : pystr -> result Z.
Variable dropout_scale : option ArchModel.value -> result (num A).
Variable v : vocabulary.
Variable n : network A.

(** An option that is a number *)
Definition number_option (o : option_dict) (key : pystr) (default size : nat) : Prop :=
  match option_value o key with
  | None => size = default
  | Some (One (SInt z)) => z = Z.of_nat size
  | Some (One (SStr s)) => parse_int s = Ok (Z.of_nat size)
  | Some (Many _) => False
  end.
Definition activation_option (o : option_dict) (a : activation) : Prop :=
  match option_value o (str "activation") with
  | None => a = Tanh
  | Some (One (SStr s)) => activation_name s a
  | Some _ => False
  end.

(** The inputs of the layer number [position] are earlier layers: those that have the
    given names. *)
Definition inputs_option (o : option_dict) (position : nat) (inputs : list nat) : Prop :=
  exists names, listed o (str "inputs") names /\
  Forall2 (fun i x => i < position /\ exists l, nth_error (n_layers n) i = Some l /\ l_name l = x) inputs names.

(** A network input *)
Definition input_described (o : option_dict) (l : layer A) : Prop :=
  option_value o (str "name") = Some (One (SStr (l_name l))) /\
  (has_type o (str "word") /\ l_kind l = WordInput /\ l_size l = num_shortlist_words v \/
   has_type o (str "class") /\ l_kind l = ClassInput /\ l_size l = num_classes v).

(** A layer other than the last one *)
Record layer_described (o : option_dict) (position : nat) (l : layer A) : Prop := {
  ld_name : option_value o (str "name") = Some (One (SStr (l_name l)));
  ld_type : exists type, has_type o type /\ type_name (reverse_option o) type (l_kind l);
  ld_inputs : inputs_option o position (l_inputs l);
  (* by default, the size is the size of all the inputs, but that of the first input
     when the inputs are added *)
  ld_size : number_option o (str "size")
              (match l_kind l with Addition => hd 0 | _ => total end (input_sizes n (l_inputs l))) (l_size l);
  ld_activation : activation_option o (l_activation l);
  ld_region : forall region, l_kind l = GLU region -> number_option o (str "filter_size") 5 region;
  ld_scale : l_kind l = Dropout -> dropout_scale (option_value o (str "dropout_rate")) = Ok (l_scale l) }.

(** The last layer *)
Record output_described (exclude_unk : bool) (o : option_dict) : Prop := {
  od_name : option_value o (str "name") = Some (One (SStr (n_name n)));
  od_inputs : inputs_option o (length (n_layers n)) (n_inputs n);
  od_size : n_size n = num_classes v;
  od_type : has_type o (str "softmax") /\ n_kind n = Softmax /\ n_exclude_unk n = exclude_unk /\
              (exists u, word_to_id v UNK = Some u /\ nth_error (v_w2c v) u = Some (n_unk_class n)) \/
            (* about as many classes on the first level as there are words in a class *)
            has_type o (str "hsoftmax") /\ exists l1 l2, n_kind n = HSoftmax l1 l2 /\
              (l1 - 1) * (l1 - 1) < n_size n <= l1 * l1 /\ l1 * (l2 - 1) < n_size n <= l1 * l2 }.

(** The network has the layers of the description, in the same order, and different
    layers have different names. *)
Definition network_described (exclude_unk : bool) (a : architecture) : Prop :=
  exists inputs layers os last,
    n_layers n = (inputs ++ layers)%list /\ a_layers a = (os ++ [last])%list /\
    Forall2 input_described (a_inputs a) inputs /\
    length os = length layers /\
    (forall i o l, nth_error os i = Some o -> nth_error layers i = Some l -> layer_described o (length inputs + i) l) /\
    output_described exclude_unk last /\
    NoDup (map l_name (n_layers n) ++ [n_name n]).
End Described.
