(** Which architecture descriptions a network can be built from. *)
From Coq Require Import ZArith.
From Verif Require Import Base Strings NumStr VocabModel ArchModel ArchSpec NetModel NetSpec BuildSpec DescribedSpec.
Local Open Scope nat_scope.

(** The devices of a layer *)
Definition devices_option (default_device : option pystr) (o : option_dict) (devices : list (option pystr)) : Prop :=
  (exists names, names <> [] /\ listed o (str "devices") names /\ devices = map Some names) \/
  (In (option_value o (str "devices")) [None; Some (Many []); Some (One (SStr [])); Some (One (SInt 0))] /\ devices = [default_device]).

(** The numbers of columns of the arrays that are divided between the devices *)
Definition divided (k : kind) (input_sizes : list nat) (size : nat) : list nat :=
  match k with
  | WordInput | ClassInput | Dropout => []
  | Projection | FullyConnected => [size]
  | Highway | GLU _ => [2 * size]
  | LSTM | ReverseLSTM => [4 * size]
  | GRU | ReverseGRU => [3 * size]
  | BLSTM | ReverseBLSTM => [4 * (size - size / 2); 4 * (size / 2)]
  | BGRU | ReverseBGRU => [3 * (size - size / 2); 3 * (size / 2)]
  | Addition => if forallb (fun s => s =? size) input_sizes then [] else [size]
  end.
(** Arrays of those sizes can be divided between the devices: every device gets something,
    and no device is listed twice. *)
Definition can_divide (sizes : list nat) (devices : list (option pystr)) : Prop :=
  devices = [None] \/ sizes = [] \/ Forall (fun size => length devices <= size) sizes /\ NoDup devices.

(** [known] are the names and the sizes of the layers that have been described earlier.
    The inputs of a layer are some of them. *)
Definition inputs_found (known : list (pystr * nat)) (o : option_dict) (input_sizes : list nat) : Prop :=
  exists names, listed o (str "inputs") names /\ Forall2 (fun name size => In (name, size) known) names input_sizes.

Section Accepted.
Context {A : arith}.
Variable parse_int : pystr -> result Z.
Variable dropout_scale : option ArchModel.value -> result (num A).
Variable default_device : option pystr.
Variable v : vocabulary.

Record accepted_layer (known : list (pystr * nat)) (o : option_dict) (name : pystr) (k : kind) (size : nat) (input_sizes : list nat) : Prop := {
  al_name : option_value o (str "name") = Some (One (SStr name));
  al_type : exists type, has_type o type /\ type_name (reverse_option o) type k;
  al_inputs : inputs_found known o input_sizes;
  al_size : number_option parse_int o (str "size") (match k with Addition => hd 0 | _ => total end input_sizes) size;
  al_activation : exists act, activation_option o act;
  al_region : forall region, k = GLU region -> number_option parse_int o (str "filter_size") 5 region /\ 0 < region;
  al_scale : k = Dropout -> exists scale, dropout_scale (option_value o (str "dropout_rate")) = Ok scale;
  al_devices : exists devices, devices_option default_device o devices /\ can_divide (divided k input_sizes size) devices;
  (* layers that have as many outputs as inputs, and layers that have one input or that
     take their size from the first input *)
  al_same_size : k = Highway \/ k = Dropout -> size = total input_sizes;
  al_one_input : forall region, k = GLU region -> length input_sizes = 1;
  al_first_input : k = Addition -> option_value o (str "size") = None -> input_sizes <> [] }.

Definition accepted_input (o : option_dict) (known : pystr * nat) : Prop :=
  option_value o (str "name") = Some (One (SStr (fst known))) /\
  (has_type o (str "word") /\ snd known = num_shortlist_words v \/ has_type o (str "class") /\ snd known = num_classes v) /\
  exists act, activation_option o act.

Record accepted_output (known : list (pystr * nat)) (o : option_dict) : Prop := {
  ao_name : exists name, option_value o (str "name") = Some (One (SStr name));
  ao_inputs : exists input_sizes, inputs_found known o input_sizes;
  ao_activation : exists act, activation_option o act;
  ao_type : exists devices, devices_option default_device o devices /\
    (has_type o (str "softmax") /\ can_divide [num_classes v] devices /\
       (exists unk_id unk_class, word_to_id v UNK = Some unk_id /\ nth_error (v_w2c v) unk_id = Some unk_class) \/
     has_type o (str "hsoftmax") /\ length devices = 1 /\ 0 < num_classes v) }.

(** The last layer is the output layer. *)
Fixpoint accepted_layers (known : list (pystr * nat)) (os : list option_dict) : Prop :=
  match os with
  | [] => False
  | [last] => accepted_output known last
  | o :: r => exists name k size input_sizes, accepted_layer known o name k size input_sizes /\ accepted_layers (known ++ [(name, size)])%list r
  end.
Definition accepted (a : architecture) : Prop :=
  exists known, Forall2 accepted_input (a_inputs a) known /\ accepted_layers known (a_layers a).
End Accepted.

(** The descriptions that are modelled: layers have different names, and only the last layer
    is an output layer *)
Record ordinary (a : architecture) : Prop := {
  or_names : NoDup (map (fun o => option_value o (str "name")) (a_inputs a ++ a_layers a)%list);
  or_output : option_value (last (a_layers a) []) (str "name") = Some (One (a_output a));
  or_one_output : forall o, In o (removelast (a_layers a)) -> ~ has_type o (str "softmax") /\ ~ has_type o (str "hsoftmax") }.
