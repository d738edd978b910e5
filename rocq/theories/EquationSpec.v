(** What the layers of a network should compute, as formulas for one unit of a layer at
    one time step of one sequence. The only things taken from the model are the names of
    the data: numbers, mini-batches, and the attributes of layers.

    [weight layer parameter i r c] is the value of a parameter of a layer: the weight from
    input [r] to unit [c] (and, when the parameter has three dimensions, [i] is the first
    index), or the bias of unit [c]. *)
From Verif Require Import Base Strings NumStr NetModel.
Local Open Scope nat_scope.

Section Equations.
Context {A : arith}.
Notation num := (num A).
Variable weight : pystr -> pystr -> nat -> nat -> nat -> num.

(** The output of a layer: time step, sequence, unit *)
Notation activity := (nat -> nat -> nat -> num).

(** f(0) + … + f(n - 1) *)
Definition sum_to (n : nat) (f : nat -> num) : num := fold_right add zero (map f (seq 0 n)).
(** The same for n > 0, added in another order *)
Definition sum_from_left (n : nat) (f : nat -> num) : num := fold_left (fun s i => add s (f i)) (seq 1 (n - 1)) (f 0).

(** The units of several layers after each other *)
Fixpoint joined (inputs : list (nat * activity)) : activity := fun t s j =>
  match inputs with
  | [] => zero
  | (size, x) :: r => if j <? size then x t s j else joined r t s (j - size)
  end.
Definition total_size (inputs : list (nat * activity)) : nat := fold_right Nat.add 0 (map fst inputs).

Definition linear (layer parameter : pystr) (i n : nat) (x : nat -> num) (k : nat) : num :=
  sum_to n (fun j => mul (x j) (weight layer parameter i j k)).
Definition affine (layer parameter : pystr) (n : nat) (x : nat -> num) (k : nat) : num :=
  add (linear layer (parameter ++ str "/W")%list 0 n x k) (weight layer (parameter ++ str "/b")%list 0 0 k).

Definition activation_function (a : activation) : num -> num :=
  match a with Tanh => tanh | ReLU => relu | LeakyReLU => leaky_relu end.

(** Long short-term memory: the cell state and the output after [steps] steps. [z] is what
    each step gets from the layer input, and [valid] tells if a step is not padding. *)
Fixpoint lstm (layer : pystr) (size : nat) (act : activation) (valid : nat -> bool) (z : nat -> nat -> num) (steps : nat)
  : (nat -> num) * (nat -> num) :=
  match steps with
  | 0 => (fun _ => zero, fun _ => zero)
  | S t =>
    let (c, h) := lstm layer size act valid z t in
    let a k := add (linear layer (str "step_input/W") 0 size h k) (z t k) in
    let input_gate k := sigmoid (a k) in
    let forget_gate k := sigmoid (a (size + k)) in
    let output_gate k := sigmoid (a (2 * size + k)) in
    let candidate k := tanh (a (3 * size + k)) in
    let c' k := add (mul (forget_gate k) (c k)) (mul (input_gate k) (candidate k)) in
    let h' k := mul (output_gate k) (activation_function act (c' k)) in
    if valid t then (c', h') else (c, h)
  end.

(** Gated recurrent units: the output after [steps] steps *)
Fixpoint gru (layer : pystr) (size : nat) (valid : nat -> bool) (z : nat -> nat -> num) (steps : nat) : nat -> num :=
  match steps with
  | 0 => fun _ => zero
  | S t =>
    let h := gru layer size valid z t in
    let a k := linear layer (str "step_input/W") 0 size h k in
    let reset_gate k := sigmoid (add (a k) (z t k)) in
    let update_gate k := sigmoid (add (a (size + k)) (z t (size + k))) in
    let candidate k := tanh (add (mul (a (2 * size + k)) (reset_gate k)) (z t (2 * size + k))) in
    let h' k := add (mul (sub one (update_gate k)) (h k)) (mul (update_gate k) (candidate k)) in
    if valid t then h' else h
  end.

(** The words, classes, and the mask of a mini-batch *)
Definition word_of (b : batch) (t s : nat) : nat := nth s (nth t (b_words b) []) 0.
Definition class_of (b : batch) (t s : nat) : nat := nth s (nth t (b_classes b) []) 0.
Definition valid_word (b : batch) (t s : nat) : bool := nth s (nth t (b_mask b) []) false.

(** What a layer computes from its inputs, in a mini-batch of [T] time steps. [index] is
    the number of the layer. *)
Definition layer_activity (b : batch) (T index : nat) (l : layer A) (ids : nat -> nat -> nat) (inputs : list (nat * activity)) : activity :=
  let name := l_name l in
  let size := l_size l in
  let n := total_size inputs in
  let x := joined inputs in
  let forward_size := size - size / 2 in
  let backward_size := size / 2 in
  let forward := (name ++ str "/forward")%list in
  let backward := (name ++ str "/backward")%list in
  (* a layer that processes the sequence in reverse, and at each time step sees what
     comes two time steps later, if anything does *)
  let later layer s u k :=
    let t := T - 1 - u in
    if t + 2 <? T then affine layer (str "layer_input") n (x (t + 2) s) k else zero in
  match l_kind l with
  | WordInput | ClassInput => fun _ _ _ => zero
  | Projection => fun t s k => weight name (str "W") 0 (ids t s) k
  | FullyConnected => fun t s k => activation_function (l_activation l) (affine name (str "input") n (x t s) k)
  | LSTM => fun t s k =>
    snd (lstm name size (l_activation l) (fun u => valid_word b u s) (fun u => affine name (str "layer_input") n (x u s)) (S t)) k
  | GRU => fun t s k =>
    gru name size (fun u => valid_word b u s) (fun u => affine name (str "layer_input") n (x u s)) (S t) k
  | BLSTM => fun t s k =>
    if k <? forward_size
    then snd (lstm forward forward_size (l_activation l) (fun u => valid_word b u s)
                   (fun u => affine forward (str "layer_input") n (x u s)) (S t)) k
    else snd (lstm backward backward_size (l_activation l) (fun u => valid_word b (T - 1 - u) s) (later backward s) (T - t))
             (k - forward_size)
  | BGRU => fun t s k =>
    if k <? forward_size
    then gru forward forward_size (fun u => valid_word b u s) (fun u => affine forward (str "layer_input") n (x u s)) (S t) k
    else gru backward backward_size (fun u => valid_word b (T - 1 - u) s) (later backward s) (T - t) (k - forward_size)
  | ReverseLSTM => fun t s k =>
    snd (lstm name size (l_activation l) (fun u => valid_word b (T - 1 - u) s) (later name s) (T - t)) k
  | ReverseGRU => fun t s k =>
    gru name size (fun u => valid_word b (T - 1 - u) s) (later name s) (T - t) k
  | ReverseBLSTM => fun t s k =>
    if k <? forward_size
    then snd (lstm forward forward_size (l_activation l) (fun u => valid_word b (T - 1 - u) s) (later forward s) (T - t)) k
    else snd (lstm backward backward_size (l_activation l) (fun u => valid_word b (T - 1 - u) s) (later backward s) (T - t))
             (k - forward_size)
  | ReverseBGRU => fun t s k =>
    if k <? forward_size
    then gru forward forward_size (fun u => valid_word b (T - 1 - u) s) (later forward s) (T - t) k
    else gru backward backward_size (fun u => valid_word b (T - 1 - u) s) (later backward s) (T - t) (k - forward_size)
  | Highway => fun t s k =>
    let transform := sigmoid (affine name (str "input") n (x t s) (size + k)) in
    add (mul (activation_function (l_activation l) (affine name (str "input") n (x t s) k)) transform)
        (mul (x t s k) (sub one transform))
  | GLU region => fun t s k =>
    (* the region ends at this time step; before the first time step there are zeros *)
    let a c := add (sum_from_left region (fun i =>
                      linear name (str "input/W") i n
                        (fun j => if t + i <? region - 1 then zero else x (t + i - (region - 1)) s j) c))
                   (weight name (str "input/b") 0 0 c) in
    mul (a k) (sigmoid (a (size + k)))
  | Addition => fun t s k =>
    sum_from_left (length inputs) (fun i =>
      let (input_size, y) := nth i inputs (0, fun _ _ _ => zero) in
      if input_size =? size then y t s k
      else linear name (str "input" ++ str_of_nat i ++ str "/W")%list 0 input_size (y t s) k)
  | Dropout => fun t s k =>
    match b_dropout b with
    | None => x t s k
    | Some pass => mul (mul (x t s k) (l_scale l)) (if pass index t s k then one else zero)
    end
  end.

(** What all the layers compute, one after another. [ls] have been computed already. *)
Definition ids_of (b : batch) (k : kind) : nat -> nat -> nat := match k with WordInput => word_of b | _ => class_of b end.
Definition next_activity (b : batch) (T : nat) (done : list (layer A * activity)) (l : layer A) : list (layer A * activity) :=
  let inputs := map (fun i => nth i done (l, fun _ _ _ => zero)) (l_inputs l) in
  let ids := match inputs with (i, _) :: _ => ids_of b (l_kind i) | [] => fun _ _ => 0 end in
  (done ++ [(l, layer_activity b T (length done) l ids (map (fun '(i, x) => (l_size i, x)) inputs))])%list.
Definition activities (b : batch) (T : nat) (ls : list (layer A)) : list (layer A * activity) :=
  fold_left (next_activity b T) ls [].

(** The probability of each class *)
Definition class_probability (n : network A) (inputs : list (nat * activity)) (t s c : nat) : num :=
  let name := n_name n in
  let size := total_size inputs in
  let x := joined inputs t s in
  match n_kind n with
  | Softmax =>
    let e i := if n_exclude_unk n && (i =? n_unk_class n) then zero else exp (affine name (str "input") size x i) in
    div (e c) (sum_to (n_size n) e)
  | HSoftmax l1 l2 =>
    let e i := exp (affine name (str "input") size x i) in
    let e' i j := exp (add (linear name (str "level1/W") i size x j) (weight name (str "level1/b") 0 i j)) in
    mul (div (e (c / l2)) (sum_to l1 e)) (div (e' (c / l2) (c mod l2)) (sum_to l2 (e' (c / l2))))
  end.
Definition network_probability (n : network A) (b : batch) (T t s c : nat) : num :=
  class_probability n
    (map (fun i => match nth_error (activities b T (n_layers n)) i with
                   | Some (l, x) => (l_size l, x)
                   | None => (0, fun _ _ _ => zero)
                   end) (n_inputs n)) t s c.
End Equations.
