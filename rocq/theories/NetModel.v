(** Model of theanolm/network: the layers and what they compute from a mini-batch, or
    from one time step. No proofs.

    Simplifications: numbers are an arbitrary type with the operations that the layers
    use. Theano checks that dimensions match and raises an exception otherwise; here
    the longer list is cut. Exceptions that building the graph raises and exceptions
    that evaluating it raises are not distinguished. The names of input layers have
    been resolved to positions in the list of layers, and the output layer is the
    last one. *)
From Verif Require Import Base Strings NumStr ParamModel.

(** Numbers and elementwise functions *)
Record arith := mkArith {
  num : Type;
  zero : num; one : num;
  add : num -> num -> num; sub : num -> num -> num; mul : num -> num -> num; div : num -> num -> num;
  exp : num -> num; sigmoid : num -> num; tanh : num -> num; relu : num -> num; leaky_relu : num -> num }.
Arguments zero {a}. Arguments one {a}.
Arguments add {a}. Arguments sub {a}. Arguments mul {a}. Arguments div {a}.
Arguments exp {a}. Arguments sigmoid {a}. Arguments tanh {a}. Arguments relu {a}. Arguments leaky_relu {a}.

Fixpoint map2 {A B C} (f : A -> B -> C) (a : list A) (b : list B) : list C :=
  match a, b with
  | x :: a', y :: b' => f x y :: map2 f a' b'
  | _, _ => []
  end.

(** basiclayer.py 44-55 *)
Inductive activation := Tanh | ReLU | LeakyReLU.

(** network.py 37-67 and networkinput.py. A bidirectional layer has two recurrent
    layers. *)
Inductive kind :=
| WordInput | ClassInput
| Projection
| FullyConnected
| LSTM | GRU
| BLSTM | BGRU
| Highway
| GLU (filter_size : nat)
| Addition
| Dropout
(* basiclayer.py 56-59: recurrent layers with the option reverse_time, and bidirectional
   layers whose forward layer has got it too (bidirectionallayer.py 40-46) *)
| ReverseLSTM | ReverseGRU
| ReverseBLSTM | ReverseBGRU.
Inductive output_kind := Softmax | HSoftmax (level1_size level2_size : nat).

Section Net.
Context {A : arith}.
Notation num := (num A).
Notation vec := (list num).              (* features *)
Notation matrix := (list (list num)).    (* sequences, features *)
Notation tensor := (list (list (list num))).   (* time steps, sequences, features *)

(** ** Parameters *)

(** A weight matrix is the list of its columns: those of one output feature. A bias
    vector, the filters of a convolution (a weight matrix for each position of the
    region), and the weights and biases of the second level of hierarchical
    softmax. *)
Inductive param :=
| Weight (columns : list vec)
| Bias (b : vec)
| Filters (w : list (list vec))
| LevelWeight (w : list (list vec))
| LevelBias (b : list vec).

Notation params := (list (pystr * param)).

(** basiclayer.py 127-146, _param_path *)
Definition param_path (layer param_name : pystr) (device : option pystr) : pystr :=
  (str "layers/" ++ layer ++ str "/" ++ param_name ++
   match device with Some d => str "/" ++ d | None => [] end)%list.

(** basiclayer.py 149-165, _get_param; parameters.py 26-36 *)
Definition get_param (ps : params) (layer param_name : pystr) (device : option pystr) : result param :=
  match dict_get (param_path layer param_name device) ps with Some p => Ok p | None => Err KeyError end.
Definition get_weight ps layer name device : result (list vec) :=
  do p <- get_param ps layer name device; match p with Weight w => Ok w | _ => Err TypeError end.
Definition get_bias ps layer name device : result vec :=
  do p <- get_param ps layer name device; match p with Bias b => Ok b | _ => Err TypeError end.
Definition get_filters ps layer name device : result (list (list vec)) :=
  do p <- get_param ps layer name device; match p with Filters w => Ok w | _ => Err TypeError end.
Definition get_level_weight ps layer name device : result (list (list vec)) :=
  do p <- get_param ps layer name device; match p with LevelWeight w => Ok w | _ => Err TypeError end.
Definition get_level_bias ps layer name device : result (list vec) :=
  do p <- get_param ps layer name device; match p with LevelBias b => Ok b | _ => Err TypeError end.

(** ** Elementwise operations, and products *)

Definition mmap (f : num -> num) (a : matrix) : matrix := map (map f) a.
Definition mmap2 (f : num -> num -> num) (a b : matrix) : matrix := map2 (map2 f) a b.
Definition madd : matrix -> matrix -> matrix := mmap2 add.
Definition mmul : matrix -> matrix -> matrix := mmap2 mul.

Definition vsum (v : vec) : num := fold_right add zero v.
Definition dotv (x w : vec) : num := vsum (map2 mul x w).
(** tensor.dot of a matrix and a weight matrix *)
Definition mdot (x : matrix) (w : list vec) : matrix := map (fun row => map (dotv row) w) x.

(** tensor.switch(mask[:, None], a, b) *)
Definition switch (mask : list bool) (a b : matrix) : matrix :=
  map2 (fun (m : bool) '(x, y) => if m then x else y) mask (combine a b).

(** weightfunctions.py 103-133, get_submatrix, of one matrix *)
Definition get_submatrix (m : matrix) (index size end_index : nat) : matrix :=
  map (fun row => firstn ((end_index + 1) * size - index * size) (skipn (index * size) row)) m.

Definition activate (a : activation) : num -> num :=
  match a with Tanh => tanh | ReLU => relu | LeakyReLU => leaky_relu end.

(** shape[1] and shape[2] of a tensor *)
Definition num_sequences (x : tensor) : nat := match x with [] => 0 | m :: _ => length m end.
Definition num_features (x : tensor) : nat := match x with (v :: _) :: _ => length v | _ => 0 end.

Definition zeros (rows columns : nat) : matrix := repeat (repeat zero columns) rows.

(** tensor.concatenate(…, axis=2) *)
Definition concat_features (l : list tensor) : result tensor :=
  match l with
  | [] => Err ValueError
  | x :: r => Ok (fold_left (map2 (map2 (@app num))) r x)
  end.

(** basiclayer.py 294-338, _tensor_preact *)
Definition preact_part (use_bias : bool) (x : tensor) (p : list vec * vec) : tensor :=
  let r := map (fun m => mdot m (fst p)) x in
  if use_bias then map (map (fun row => map2 add row (snd p))) r else r.
Definition tensor_preact (ps : params) (layer : pystr) (devices : list (option pystr)) (x : tensor)
           (name : pystr) (use_bias : bool) : result tensor :=
  do parts <- mapM (fun d =>
    do w <- get_weight ps layer (name ++ str "/W")%list d;
    do b <- (if use_bias then get_bias ps layer (name ++ str "/b")%list d else Ok []);
    Ok (w, b)) devices;
  match parts with
  | [] => Err AssertionError
  | _ => concat_features (map (preact_part use_bias x) parts)
  end.

(** ** Convolution *)

Fixpoint windows {X} (k : nat) (l : list X) : list (list X) :=
  match l with
  | [] => []
  | _ :: l' => if length l <? k then [] else firstn k l :: windows k l'
  end.
(** backend/operations.py 91-133, conv1d, and basiclayer.py 340-393, _tensor_conv1d. The
    filters are not flipped (conv2d, line 71). *)
Definition conv1d (x : tensor) (filters : list (list vec)) : tensor :=
  map (fun w => match map2 mdot w filters with
                | [] => []
                | m :: r => fold_left madd r m
                end) (windows (length filters) x).
Definition tensor_conv1d (ps : params) (layer : pystr) (devices : list (option pystr)) (x : tensor)
           (name : pystr) : result tensor :=
  do parts <- mapM (fun d => get_filters ps layer (name ++ str "/W")%list d) devices;
  match parts with
  | [] => Err AssertionError
  | _ =>
    do r <- concat_features (map (conv1d x) parts);
    do b <- get_bias ps layer (name ++ str "/b")%list None;          (* 392, without a device *)
    Ok (map (map (fun row => map2 add row b)) r)
  end.

(** ** Recurrent layers *)

(** theano.scan: the states after each step *)
Fixpoint scan {S} (step : list bool -> matrix -> S -> S) (xs : list (list bool * matrix)) (s : S) : list S :=
  match xs with
  | [] => []
  | (m, x) :: r => let s' := step m x s in s' :: scan step r s'
  end.

(** lstmlayer.py 142-208, _create_time_step *)
Definition lstm_step (size : nat) (act : activation) (h_weights : list vec) (mask : list bool) (x_preact : matrix)
           (s : matrix * matrix) : matrix * matrix :=
  let (C_in, h_in) := s in
  let preact := madd (mdot h_in h_weights) x_preact in
  let i := mmap sigmoid (get_submatrix preact 0 size 0) in
  let f := mmap sigmoid (get_submatrix preact 1 size 1) in
  let o := mmap sigmoid (get_submatrix preact 2 size 2) in
  let C_candidate := mmap tanh (get_submatrix preact 3 size 3) in
  let C_out := madd (mmul f C_in) (mmul i C_candidate) in
  let h_out := mmul o (mmap (activate act) C_out) in
  (switch mask C_out C_in, switch mask h_out h_in).

(** grulayer.py 131-193, _create_time_step *)
Definition gru_step (size : nat) (h_weights : list vec) (mask : list bool) (x_preact h_in : matrix) : matrix :=
  let h_preact := mdot h_in h_weights in
  let preact_gates := madd (get_submatrix h_preact 0 size 1) (get_submatrix x_preact 0 size 1) in
  let r := mmap sigmoid (get_submatrix preact_gates 0 size 0) in
  let u := mmap sigmoid (get_submatrix preact_gates 1 size 1) in
  let preact_candidate := mmul (get_submatrix h_preact 2 size 2) r in
  let preact_candidate := madd preact_candidate (get_submatrix x_preact 2 size 2) in
  let h_candidate := mmap tanh preact_candidate in
  let h_out := madd (mmul (mmap (sub one) u) h_in) (mmul u h_candidate) in
  switch mask h_out h_in.

(** The input of a recurrent layer: lstmlayer.py 78-91, grulayer.py 70-83 *)
Definition shifted (x_preact : tensor) (sequences : nat) : tensor :=
  let padding := zeros sequences (num_features x_preact) in
  (skipn 2 x_preact ++ [padding; padding])%list.

(** lstmlayer.py 54-140, create_structure, in mini-batch mode: the output *)
Definition lstm_minibatch (ps : params) (name : pystr) (devices : list (option pystr)) (size : nat) (act : activation)
           (reverse_time : bool) (mask : list (list bool)) (x : tensor) : result tensor :=
  do x_preact <- tensor_preact ps name devices x (str "layer_input") true;
  do h_weights <- get_weight ps name (str "step_input/W") None;
  let n := num_sequences x in
  let initial := (zeros n size, zeros n size) in
  Ok (if reverse_time
      then map snd (rev (scan (lstm_step size act h_weights) (combine (rev mask) (rev (shifted x_preact n))) initial))
      else map snd (scan (lstm_step size act h_weights) (combine mask x_preact) initial)).

(** grulayer.py 49-129, likewise *)
Definition gru_minibatch (ps : params) (name : pystr) (devices : list (option pystr)) (size : nat)
           (reverse_time : bool) (mask : list (list bool)) (x : tensor) : result tensor :=
  do x_preact <- tensor_preact ps name devices x (str "layer_input") true;
  do h_weights <- get_weight ps name (str "step_input/W") None;
  let n := num_sequences x in
  let initial := zeros n size in
  Ok (if reverse_time
      then rev (scan (gru_step size h_weights) (combine (rev mask) (rev (shifted x_preact n))) initial)
      else scan (gru_step size h_weights) (combine mask x_preact) initial).

(** ** Layers *)

Record layer := mkLayer {
  l_kind : kind; l_name : pystr; l_inputs : list nat; l_size : nat; l_activation : activation;
  l_devices : list (option pystr); l_params : params;
  l_scale : num }.   (* Dropout: the inverse of the pass rate *)

(** The output of a layer: word or class IDs, or features *)
Inductive value := IDs (ids : list (list nat)) | Features (x : tensor).
Definition features (x : value) : result tensor := match x with Features t => Ok t | IDs _ => Err TypeError end.

(** The inputs of the network: network.py 131-135, 188-215. [b_dropout] is None when
    not training; otherwise it tells, for a layer, a time step, a sequence and a
    feature, if it passes. *)
Record batch := mkBatch {
  b_words : list (list nat); b_classes : list (list nat); b_mask : list (list bool);
  b_dropout : option (nat -> nat -> nat -> nat -> bool) }.

(** network.py 85-90, Network.Mode, with the recurrent state (without the dimension of
    time steps) *)
Inductive mode := Minibatch | Step (state : list matrix).

Definition recurrent_input (state : list matrix) (index : nat) : result matrix := py_index state index.

Definition mapi {X Y} (f : nat -> X -> Y) (l : list X) : list Y := map2 f (seq 0 (length l)) l.

(** dropoutlayer.py 52-77 *)
Definition dropout (scale : num) (pass : option (nat -> nat -> nat -> bool)) (x : tensor) : tensor :=
  match pass with
  | None => x
  | Some p => mapi (fun t => mapi (fun s => mapi (fun i y =>
                mul (mul y scale) (if p t s i : bool then one else zero)))) x
  end.

(** additionlayer.py 41-66 *)
Definition addition_input (ps : params) (name : pystr) (devices : list (option pystr)) (size : nat)
           (i : nat * (tensor * nat)) : result tensor :=
  let '(index, (x, input_size)) := i in
  if input_size =? size then Ok x
  else tensor_preact ps name devices x (str "input" ++ str_of_nat index)%list false.
Definition sum_tensors (l : list tensor) : result tensor :=
  match l with
  | [] => Err ValueError
  | x :: r => Ok (fold_left (map2 madd) r x)
  end.

(** The first dimension of an output in step mode: layer_input_preact[0] *)
Definition first_step (x : tensor) : result matrix := py_index x 0.

(** create_structure of the layers. [outs] are the outputs of the earlier layers with
    their sizes, [index] is the number of the layer and [sidx] the number of recurrent
    state variables that earlier layers have. The result is the output and, in step
    mode, the new recurrent state of this layer. *)
Definition eval_layer (m : mode) (b : batch) (outs : list (value * nat)) (index sidx : nat) (l : layer)
  : result (value * list matrix) :=
  do ins <- mapM (py_index outs) (l_inputs l);
  let ps := l_params l in
  let name := l_name l in
  let devices := l_devices l in
  let size := l_size l in
  let layer_input := do fs <- mapM (fun v => features (fst v)) ins; concat_features fs in
  let fwd := (name ++ str "/forward")%list in
  let bwd := (name ++ str "/backward")%list in
  let bsize := size / 2 in                                             (* bidirectionallayer.py 36-37 *)
  let fsize := size - bsize in
  let mask := match m with Minibatch => b_mask b | Step _ => map (map (fun _ => true)) (b_words b) end in
  match l_kind l with
  | WordInput => Ok (IDs (b_words b), [])                              (* networkinput.py 53-56 *)
  | ClassInput => Ok (IDs (b_classes b), [])
  | Projection =>                                                      (* projectionlayer.py 32-62 *)
    match ins with
    | [(IDs ids, _)] =>
      do parts <- mapM (fun d => do w <- get_weight ps name (str "W") d;
                                 mapM (mapM (fun i => mapM (fun column => py_index column i) w)) ids) devices;
      do x <- concat_features parts; Ok (Features x, [])
    | [_] => Err TypeError
    | _ => Err AssertionError
    end
  | FullyConnected =>                                                  (* fullyconnectedlayer.py 33-43 *)
    do x <- layer_input;
    do p <- tensor_preact ps name devices x (str "input") true;
    Ok (Features (map (mmap (activate (l_activation l))) p), [])
  | Highway =>                                                         (* highwaylayer.py 45-58 *)
    do x <- layer_input;
    do p <- tensor_preact ps name devices x (str "input") true;
    let h := map (fun r => mmap (activate (l_activation l)) (get_submatrix r 0 size 0)) p in
    let t := map (fun r => mmap sigmoid (get_submatrix r 1 size 1)) p in
    Ok (Features (map2 madd (map2 mmul h t) (map2 mmul x (map (mmap (sub one)) t))), [])
  | GLU filter_size =>                                                 (* glulayer.py 52-83 *)
    match m with
    | Step _ => Err RuntimeError
    | Minibatch =>
      match ins with
      | [(Features x, input_size)] =>
        let padding := repeat (zeros (num_sequences x) input_size) (filter_size - 1) in
        do p <- tensor_conv1d ps name devices (padding ++ x) (str "input");
        Ok (Features (map (fun r => mmul (get_submatrix r 0 size 0)
                                         (mmap sigmoid (get_submatrix r 1 size 1))) p), [])
      | [_] => Err TypeError
      | _ => Err AssertionError
      end
    end
  | Addition =>
    do xs <- mapM (fun v => do x <- features (fst v); Ok (x, snd v)) ins;
    do ts <- mapM (addition_input ps name devices size) (combine (seq 0 (length xs)) xs);
    do x <- sum_tensors ts; Ok (Features x, [])
  | Dropout =>
    do x <- layer_input;
    Ok (Features (dropout (l_scale l) (match b_dropout b with Some f => Some (f index) | None => None end) x), [])
  | LSTM =>
    do x <- layer_input;
    match m with
    | Minibatch => do y <- lstm_minibatch ps name devices size (l_activation l) false mask x; Ok (Features y, [])
    | Step state =>                                                    (* lstmlayer.py 119-140 *)
      do x_preact <- tensor_preact ps name devices x (str "layer_input") true;
      do h_weights <- get_weight ps name (str "step_input/W") None;
      do mask0 <- py_index mask 0;
      do x0 <- first_step x_preact;
      do C_in <- recurrent_input state sidx;
      do h_in <- recurrent_input state (sidx + 1);
      let (C, h) := lstm_step size (l_activation l) h_weights mask0 x0 (C_in, h_in) in
      Ok (Features [h], [C; h])
    end
  | GRU =>
    do x <- layer_input;
    match m with
    | Minibatch => do y <- gru_minibatch ps name devices size false mask x; Ok (Features y, [])
    | Step state =>                                                    (* grulayer.py 113-129 *)
      do x_preact <- tensor_preact ps name devices x (str "layer_input") true;
      do h_weights <- get_weight ps name (str "step_input/W") None;
      do mask0 <- py_index mask 0;
      do x0 <- first_step x_preact;
      do h_in <- recurrent_input state sidx;
      let h := gru_step size h_weights mask0 x0 h_in in
      Ok (Features [h], [h])
    end
  | BLSTM =>                                                           (* bidirectionallayer.py 60-71 *)
    do x <- layer_input;
    match m with
    | Minibatch =>
      do f <- lstm_minibatch ps fwd devices fsize (l_activation l) false mask x;
      do r <- lstm_minibatch ps bwd devices bsize (l_activation l) true mask x;
      do y <- concat_features [f; r]; Ok (Features y, [])
    | Step _ => Err RuntimeError                                       (* lstmlayer.py 116-118 *)
    end
  | BGRU =>
    do x <- layer_input;
    match m with
    | Minibatch =>
      do f <- gru_minibatch ps fwd devices fsize false mask x;
      do r <- gru_minibatch ps bwd devices bsize true mask x;
      do y <- concat_features [f; r]; Ok (Features y, [])
    | Step _ => Err RuntimeError
    end
  | ReverseLSTM =>
    do x <- layer_input;
    match m with
    | Minibatch => do y <- lstm_minibatch ps name devices size (l_activation l) true mask x; Ok (Features y, [])
    | Step _ => Err RuntimeError                                       (* lstmlayer.py 117-119 *)
    end
  | ReverseGRU =>
    do x <- layer_input;
    match m with
    | Minibatch => do y <- gru_minibatch ps name devices size true mask x; Ok (Features y, [])
    | Step _ => Err RuntimeError                                       (* grulayer.py 110-112 *)
    end
  | ReverseBLSTM =>
    do x <- layer_input;
    match m with
    | Minibatch =>
      do f <- lstm_minibatch ps fwd devices fsize (l_activation l) true mask x;
      do r <- lstm_minibatch ps bwd devices bsize (l_activation l) true mask x;
      do y <- concat_features [f; r]; Ok (Features y, [])
    | Step _ => Err RuntimeError
    end
  | ReverseBGRU =>
    do x <- layer_input;
    match m with
    | Minibatch =>
      do f <- gru_minibatch ps fwd devices fsize true mask x;
      do r <- gru_minibatch ps bwd devices bsize true mask x;
      do y <- concat_features [f; r]; Ok (Features y, [])
    | Step _ => Err RuntimeError
    end
  end.

(** network.py 420-447, add_recurrent_state: the sizes of the variables of a layer *)
Definition state_sizes (l : layer) : list nat :=
  match l_kind l with
  | LSTM | ReverseLSTM => [l_size l; l_size l]
  | GRU | ReverseGRU => [l_size l]
  | BLSTM | ReverseBLSTM => let b := l_size l / 2 in [l_size l - b; l_size l - b; b; b]
  | BGRU | ReverseBGRU => let b := l_size l / 2 in [l_size l - b; b]
  | _ => []
  end.

(** network.py 217-218: the outputs of all layers, and the recurrent state *)
Fixpoint eval_layers (m : mode) (b : batch) (outs : list (value * nat)) (index sidx : nat) (ls : list layer)
  : result (list (value * nat) * list matrix) :=
  match ls with
  | [] => Ok (outs, [])
  | l :: r =>
    do '(v, st) <- eval_layer m b outs index sidx l;
    do '(outs', st') <- eval_layers m b (outs ++ [(v, l_size l)]) (index + 1) (sidx + length (state_sizes l)) r;
    Ok (outs', st ++ st')
  end.

(** ** Output layers *)

Record network := mkNetwork {
  n_layers : list layer;
  n_kind : output_kind; n_name : pystr; n_inputs : list nat; n_size : nat;
  n_devices : list (option pystr); n_params : params;
  n_unk_class : nat; n_exclude_unk : bool }.

(** tensor.nnet.softmax; an activation that is minus infinity has been set to None *)
Definition softmax (v : list (option num)) : vec :=
  let e := map (fun x => match x with Some y => exp y | None => zero end) v in
  map (fun y => div y (vsum e)) e.

Definition set_log_zero (i : nat) (v : list (option num)) : list (option num) :=
  mapi (fun j x => if j =? i then None else x) v.

(** softmaxlayer.py 44-101, create_structure: the probabilities. The unnormalized log
    probabilities (lines 98-101) are not computed, but the parameters that they need are
    looked up (samplingoutputlayer.py 166-167). *)
Definition softmax_layer (n : network) (x : tensor) : result tensor :=
  do p <- tensor_preact (n_params n) (n_name n) (n_devices n) x (str "input") true;
  do _ <- (if 1 <? length (n_devices n) then Ok tt else
           do _ <- get_weight (n_params n) (n_name n) (str "input/W") None;
           do _ <- get_bias (n_params n) (n_name n) (str "input/b") None;
           Ok tt);
  Ok (map (map (fun row =>
        let v := map Some row in
        softmax (if n_exclude_unk n then set_log_zero (n_unk_class n) v else v))) p).

(** hsoftmaxlayer.py 59-116, create_structure, and h_softmax of Theano: the
    probabilities of all the classes *)
Definition h_softmax (size : nat) (w1 : list vec) (b1 : vec) (w2 : list (list vec)) (b2 : list vec) (x : vec) : vec :=
  let class_probs := softmax (map Some (map2 add (map (dotv x) w1) b1)) in
  let in_class := map2 (fun w b => softmax (map Some (map2 add (map (dotv x) w) b))) w2 b2 in
  firstn size (concat (map2 (fun p v => map (mul p) v) class_probs in_class)).
(** h_softmax of Theano with a target class *)
Definition h_softmax_target (l2 : nat) (w1 : list vec) (b1 : vec) (w2 : list (list vec)) (b2 : list vec) (x : vec)
           (target : nat) : result num :=
  do p <- py_index (softmax (map Some (map2 add (map (dotv x) w1) b1))) (target / l2);
  do w <- py_index w2 (target / l2);
  do b <- py_index b2 (target / l2);
  do q <- py_index (softmax (map Some (map2 add (map (dotv x) w) b))) (target mod l2);
  Ok (mul p q).
Definition hsoftmax_layer (n : network) (x : tensor) : result tensor :=
  if 1 <? length (n_devices n) then Err ValueError else                (* 27-29 *)
  do w1 <- get_weight (n_params n) (n_name n) (str "input/W") None;
  do b1 <- get_bias (n_params n) (n_name n) (str "input/b") None;
  do w2 <- get_level_weight (n_params n) (n_name n) (str "level1/W") None;
  do b2 <- get_level_bias (n_params n) (n_name n) (str "level1/b") None;
  Ok (map (map (h_softmax (n_size n) w1 b1 w2 b2)) x).

(** output_probs, and the new recurrent state *)
Definition eval_network (n : network) (m : mode) (b : batch) : result (tensor * list matrix) :=
  do '(outs, st) <- eval_layers m b [] 0 0 (n_layers n);
  do ins <- mapM (py_index outs) (n_inputs n);
  do fs <- mapM (fun v => features (fst v)) ins;
  do x <- concat_features fs;
  do p <- match n_kind n with
          | Softmax => softmax_layer n x
          | HSoftmax _ _ => hsoftmax_layer n x
          end;
  Ok (p, st).

(** target_probs: softmaxlayer.py 87-92, hsoftmaxlayer.py 100-116; and the new recurrent
    state *)
Definition eval_targets (n : network) (m : mode) (b : batch) (targets : list (list nat))
  : result (list (list num) * list matrix) :=
  do '(outs, st) <- eval_layers m b [] 0 0 (n_layers n);
  do ins <- mapM (py_index outs) (n_inputs n);
  do fs <- mapM (fun v => features (fst v)) ins;
  do x <- concat_features fs;
  do q <- match n_kind n with
          | Softmax =>
            do p <- softmax_layer n x;
            mapM (fun '(m, ts) => mapM (fun '(row, t) => py_index row t) (combine m ts)) (combine p targets)
          | HSoftmax l1 l2 =>
            if 1 <? length (n_devices n) then Err ValueError else
            do w1 <- get_weight (n_params n) (n_name n) (str "input/W") None;
            do b1 <- get_bias (n_params n) (n_name n) (str "input/b") None;
            do w2 <- get_level_weight (n_params n) (n_name n) (str "level1/W") None;
            do b2 <- get_level_bias (n_params n) (n_name n) (str "level1/b") None;
            mapM (fun '(m, ts) => mapM (fun '(row, t) => h_softmax_target l2 w1 b1 w2 b2 row t) (combine m ts)) (combine x targets)
          end;
  Ok (q, st).
Definition target_probs (n : network) (b : batch) (targets : list (list nat)) : result (list (list num)) :=
  do '(q, _) <- eval_targets n Minibatch b targets; Ok q.

Definition output_probs (n : network) (b : batch) : result tensor :=
  do '(p, _) <- eval_network n Minibatch b; Ok p.

(** recurrentstate.py 97-111, reset *)
Definition initial_state (n : network) (sequences : nat) : list matrix :=
  map (zeros sequences) (flat_map state_sizes (n_layers n)).

(** One time step: textsampler.py 38-46 and latticedecoder.py 316-327. The words and
    classes of each sequence. *)
Definition step_network (n : network) (words classes : list nat) (state : list matrix) : result (matrix * list matrix) :=
  do '(p, st) <- eval_network n (Step state) (mkBatch [words] [classes] [] None);
  do p0 <- py_index p 0;
  Ok (p0, st).

(** One time step, and the probabilities of target classes: latticedecoder.py 310-327 *)
Definition step_targets (n : network) (words classes targets : list nat) (state : list matrix) : result (vec * list matrix) :=
  do '(q, st) <- eval_targets n (Step state) (mkBatch [words] [classes] [] None) [targets];
  do q0 <- py_index q 0;
  Ok (q0, st).

(** One time step after another *)
Fixpoint run_steps (n : network) (xs : list (list nat * list nat)) (state : list matrix) : result (tensor * list matrix) :=
  match xs with
  | [] => Ok ([], state)
  | (w, c) :: r =>
    do '(p, st) <- step_network n w c state;
    do '(ps, st') <- run_steps n r st;
    Ok (p :: ps, st')
  end.
End Net.
Arguments param : clear implicits.
Arguments layer : clear implicits.
Arguments network : clear implicits.
Arguments value : clear implicits.
Arguments mode : clear implicits.
