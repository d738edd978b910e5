(** Model of the files that hold a trained language model: the vocabulary, the
    architecture and the parameters of a network are written to a HDF5 file, and a network
    is built from such a file. No proofs.

    Simplifications: the three parts of the file do not interfere (their paths start with
    "vocabulary", "architecture" and "layers"); what a trainer, an optimizer and an
    iterator write there is left out, apart from arrays that have other paths. The values
    that a network has when it is created are arbitrary, as in BuildModel.v. *)
From Verif Require Import Base Strings VocabModel ArchModel ParamModel NetModel DeviceModel BuildModel.
Local Open Scope nat_scope.

Section Saved.
Context {A : arith}.
Notation num := (num A).
Notation params := (list (pystr * param A)).

(** The array that holds a parameter: its dimensions, and its elements in a fixed order
    (here output features are listed before input features). The number of input features
    is not known if there are no output features. The filters of a convolution
    (glulayer.py 41-42) and the second level weights of hierarchical softmax
    (hsoftmaxlayer.py 50-52) have three dimensions. *)
Definition width {X} (m : list (list X)) : nat := match m with [] => 0 | r :: _ => length r end.
Definition depth {X} (w : list (list (list X))) : nat := match w with [] => 0 | m :: _ => width m end.
Definition array_of (p : param A) : array num :=
  match p with
  | Weight w => mkArray [width w; length w] (concat w)
  | Bias b => mkArray [length b] b
  | Filters w => mkArray [length w; depth w; width w] (concat (concat w))
  | LevelWeight w => mkArray [length w; depth w; width w] (concat (concat w))
  | LevelBias b => mkArray [length b; width b] (concat b)
  end.

(** [count] parts of [size] elements *)
Fixpoint chunks {X} (count size : nat) (l : list X) : list (list X) :=
  match count with
  | O => []
  | S c => firstn size l :: chunks c size (skipn size l)
  end.
(** The parameter after its value has been set: [old] tells what kind of a parameter it
    is. The number of dimensions has been checked (ParamModel.v). *)
Definition with_array (old : param A) (a : array num) : param A :=
  match old, a_shape a with
  | Weight _, [r; c] => Weight (chunks c r (a_data a))
  | Bias _, [c] => Bias (a_data a)
  | Filters _, [k; r; c] => Filters (chunks k c (chunks (k * c) r (a_data a)))
  | LevelWeight _, [k; r; c] => LevelWeight (chunks k c (chunks (k * c) r (a_data a)))
  | LevelBias _, [k; c] => LevelBias (chunks k c (a_data a))
  | _, _ => old
  end.

(** BasicLayer._params, of every layer. (A bidirectional layer has two layers, which are
    processed one after the other: bidirectionallayer.py 73-93.) *)
Definition parameters_of (ps : params) : parameters num :=
  mkParameters (map (fun v => (fst v, array_of (snd v))) ps)
               (list_sum (map (fun v => a_size (array_of (snd v))) ps)).
Definition all_params (n : network A) : list params := (map l_params (n_layers n) ++ [n_params n])%list.
Definition layer_parameters (n : network A) : list (parameters num) := map parameters_of (all_params n).

(** The network after the values of its parameters have been set *)
Definition set_params (ps : params) (new : parameters num) : params :=
  map2 (fun v x => (fst v, with_array (snd v) (snd x))) ps (p_vars new).
Definition set_layer (l : layer A) (new : parameters num) : layer A :=
  mkLayer (l_kind l) (l_name l) (l_inputs l) (l_size l) (l_activation l) (l_devices l) (set_params (l_params l) new) (l_scale l).
Definition set_output (n : network A) (layers : list (layer A)) (ps : params) : network A :=
  mkNetwork layers (n_kind n) (n_name n) (n_inputs n) (n_size n) (n_devices n) ps (n_unk_class n) (n_exclude_unk n).
Definition set_values (n : network A) (new : list (parameters num)) : network A :=
  set_output n (map2 set_layer (n_layers n) new)
    (set_params (n_params n) (nth (length (n_layers n)) new no_parameters)).

(** A network with its vocabulary and architecture: network.py 92-254 *)
Record model := mkModel { m_vocabulary : vocabulary; m_architecture : architecture; m_network : network A }.

(** networkinput.py 35-37: the options of the inputs are changed in the architecture of
    the network. *)
Definition input_options (v : vocabulary) (o : option_dict) : option_dict :=
  let size := match text o (str "type") with
              | Ok type => if pystr_eqb type (str "word") then num_shortlist_words v else num_classes v
              | Err _ => 0
              end in
  oset (oset (oset o (str "size") (One (SInt (Z.of_nat size)))) (str "input_layers") (Many [])) (str "devices") (Many []).
Definition with_input_options (v : vocabulary) (a : architecture) : architecture :=
  mkArch (map (input_options v) (a_inputs a)) (a_layers a) (a_output a).

Variable parse_int : pystr -> result Z.
Variable dropout_scale : option ArchModel.value -> result num.

Definition new_network (initial : pystr -> pystr -> nat -> nat -> nat -> num) (default_device : option pystr)
           (exclude_unk : bool) (a : architecture) (v : vocabulary) : result model :=
  do n <- build parse_int dropout_scale initial default_device exclude_unk a v;
  Ok (mkModel v (with_input_options v a) n).

Record model_file := mkFile {
  f_vocabulary : option vocab_state;
  f_architecture : h5_state;
  f_arrays : list (pystr * array num) }.
Definition empty_file : model_file := mkFile None None [].

(** commands/train.py 264-291: the vocabulary is written when the file is new. *)
Definition write_vocabulary (v : vocabulary) (f : model_file) : result model_file :=
  let state := match f_vocabulary f with Some s => s | None => empty_vocab_state end in
  do s <- vocab_get_state v state;
  Ok (mkFile (Some s) (f_architecture f) (f_arrays f)).

(** network.py 364-377, get_state *)
Definition write_network (m : model) (f : model_file) : result model_file :=
  do arrays <- network_get_state (layer_parameters (m_network m)) (f_arrays f);
  Ok (mkFile (f_vocabulary f) (ArchModel.get_state (m_architecture m) (f_architecture f)) arrays).

(** commands/train.py 264-291 and training/trainer.py 256-284: a file that has no language
    model yet gets the vocabulary, and then the values that the parameters have each time
    that the state of the training is saved. *)
Definition save (v : vocabulary) (a : architecture) (history : list (network A)) (f : model_file) : result model_file :=
  do f <- write_vocabulary v f; foldM (fun f n => write_network (mkModel v a n) f) history f.

(** network.py 379-397, set_state *)
Definition read_network (f : model_file) (m : model) : result model :=
  match network_set_state (f_arrays f) (layer_parameters (m_network m)) with
  | (new, Ok _) =>
    do _ <- check_state (m_architecture m) (f_architecture f);
    Ok (mkModel (m_vocabulary m) (m_architecture m) (set_values (m_network m) new))
  | (_, Err e) => Err e
  end.

(** network.py 256-294, from_file; commands/sample.py 72-88 *)
Definition from_file (initial : pystr -> pystr -> nat -> nat -> nat -> num) (default_device : option pystr)
           (exclude_unk : bool) (f : model_file) : result model :=
  do v <- vocab_from_state (f_vocabulary f);
  do a <- from_state (f_architecture f);
  do m <- new_network initial default_device exclude_unk a v;
  read_network f m.
End Saved.
Arguments model : clear implicits.
Arguments model_file : clear implicits.
