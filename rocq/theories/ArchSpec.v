(** What the architecture theorems say: equality of architectures, the order of
    names as strings, and the contents of a description file. *)
From Coq Require Import Sorting.Permutation Sorting.Sorted.
From Verif Require Import Base Strings Dict NumStr TextSpec SlfSpec ArchModel.
Local Open Scope nat_scope.

(** ** Architectures *)
(** The value of an option, if it is given *)
Definition option_value (o : options) (k : pystr) : option value := dict_get pystr_eq_dec o k.

(** Dictionaries are equal when they have the same values; their order does not matter. *)
Definition same_options (o o' : options) : Prop := forall k, option_value o k = option_value o' k.

Record same_architecture (a b : architecture) : Prop := {
  sa_inputs : Forall2 same_options (a_inputs a) (a_inputs b);
  sa_layers : Forall2 same_options (a_layers a) (a_layers b);
  sa_output : a_output a = a_output b }.

(** Python objects: a dictionary has every name at most once, and the constructor
    rejects architectures without inputs or layers. *)
Definition dictionary (o : options) : Prop := NoDup (map fst o).
Record valid (a : architecture) : Prop := {
  va_inputs : Forall dictionary (a_inputs a);
  va_layers : Forall dictionary (a_layers a);
  va_some_input : a_inputs a <> [];
  va_some_layer : a_layers a <> [] }.

(** No more than [n] inputs, and no more than [n] elements in any list *)
Definition short_lists (n : nat) (o : options) : Prop :=
  forall k vs, option_value o k = Some (Many vs) -> length vs <= n.
Record at_most (n : nat) (a : architecture) : Prop := {
  am_inputs : length (a_inputs a) <= n;
  am_input_lists : Forall (short_lists n) (a_inputs a);
  am_layer_lists : Forall (short_lists n) (a_layers a) }.

(** ** The order of numbers as strings: "0", "1", "10", "11", "2", ... *)
Inductive lex_le : pystr -> pystr -> Prop :=
| lex_nil b : lex_le [] b
| lex_less c d a b : (c < d)%N -> lex_le (c :: a) (d :: b)
| lex_same c a b : lex_le a b -> lex_le (c :: a) (c :: b).

(** [order] lists the numbers below [n] in that order. *)
Definition string_order (n : nat) (order : list nat) : Prop :=
  Permutation order (seq 0 n) /\
  StronglySorted (fun i j => lex_le (str_of_nat i) (str_of_nat j)) order.

(** [l'] has the elements of [l] in the order of their numbers as strings,
    elements being related by [R]. *)
Definition reordered {A} (R : A -> A -> Prop) (l l' : list A) : Prop :=
  exists order, string_order (length l) order /\
    Forall2 (fun i y => exists x, nth_error l i = Some x /\ R x y) order l'.

(** The options [o'] that are loaded for the options [o] that were saved *)
Definition loaded_options (o o' : options) : Prop :=
  forall k,
    match option_value o k with
    | None => option_value o' k = None
    | Some (One v) => option_value o' k = Some (One v)
    | Some (Many vs) => exists vs', option_value o' k = Some (Many vs') /\ reordered eq vs vs'
    end.

(** ** What the check compares: everything in [o] is found in [o']. *)
Definition covered_options (o o' : options) : Prop :=
  forall k v, option_value o k = Some v ->
    match v with
    | One _ => option_value o' k = Some v
    | Many vs =>
      (exists rest, option_value o' k = Some (Many (vs ++ rest))) \/
      (k = str "devices" /\ vs = [] /\ forall ws, option_value o' k <> Some (Many ws))
    end.
Definition covered_list (l l' : list options) : Prop :=
  forall i o, nth_error l i = Some o -> exists o', nth_error l' i = Some o' /\ covered_options o o'.
Record covered (a b : architecture) : Prop := {
  co_inputs : covered_list (a_inputs a) (a_inputs b);
  co_layers : covered_list (a_layers a) (a_layers b);
  co_output : a_output a = a_output b }.

(** The same number of inputs and layers, the same option names and the same
    lengths of lists *)
Definition same_shape (o o' : options) : Prop :=
  forall k, match option_value o k, option_value o' k with
            | None, None => True
            | Some (One _), Some (One _) => True
            | Some (Many vs), Some (Many ws) => length vs = length ws
            | _, _ => False
            end.
Record same_shapes (a b : architecture) : Prop := {
  ss_inputs : Forall2 same_shape (a_inputs a) (a_inputs b);
  ss_layers : Forall2 same_shape (a_layers a) (a_layers b) }.

(** ** Description files *)
Section Description.
Variable parse_int : pystr -> result Z.

Inductive element := EInput (r : row) | ELayer (r : row).

(** A line holds nothing (blank or comment) or an element with its fields. *)
Inductive line_holds (line : pystr) : option element -> Prop :=
| lh_blank : tokens line [] -> line_holds line None
| lh_comment s toks : tokens line ((35%N :: s) :: toks) -> line_holds line None
| lh_input toks r : tokens line (str "input" :: toks) -> Forall2 is_field toks r ->
    line_holds line (Some (EInput r))
| lh_layer toks r : tokens line (str "layer" :: toks) -> Forall2 is_field toks r ->
    line_holds line (Some (ELayer r)).

Definition named (k : pystr) (r : row) : Prop := In k (map fst r).

(** The options of an input: for each name the last value given *)
Record input_options (r : row) (o : options) : Prop := {
  io_type : named (str "type") r;
  io_name : named (str "name") r;
  io_dictionary : dictionary o;
  io_values : forall k, option_value o k =
    match last_value [k] r with Some v => Some (One (SStr v)) | None => None end }.

(** The options of a layer: the fields [input] and [device] are collected to
    lists, [size] is a number, for other names the last value counts. *)
Record layer_options (r : row) (o : options) : Prop := {
  lo_type : named (str "type") r;
  lo_name : named (str "name") r;
  lo_input : named (str "input") r;
  lo_dictionary : dictionary o;
  lo_sizes : forall v, In (str "size", v) r -> exists z, parse_int v = Ok z;
  lo_inputs : option_value o (str "inputs") = Some (Many (map SStr (all_values [str "input"] r)));
  lo_devices : option_value o (str "devices") = Some (Many (map SStr (all_values [str "device"] r)));
  lo_size : forall v z, last_value [str "size"] r = Some v -> parse_int v = Ok z ->
    option_value o (str "size") = Some (One (SInt z));
  lo_no_size : last_value [str "size"] r = None -> option_value o (str "size") = None;
  lo_values : forall k, ~ In k [str "inputs"; str "devices"; str "size"] ->
    option_value o k =
    if name_in [str "input"; str "device"] k then None
    else match last_value [k] r with Some v => Some (One (SStr v)) | None => None end }.

(** The field names that would overwrite the collected lists *)
Definition no_reserved (r : row) : Prop := ~ named (str "inputs") r /\ ~ named (str "devices") r.

Definition input_rows (es : list (option element)) : list row :=
  concat (map (fun e => match e with Some (EInput r) => [r] | _ => [] end) es).
Definition layer_rows (es : list (option element)) : list row :=
  concat (map (fun e => match e with Some (ELayer r) => [r] | _ => [] end) es).

(** The inputs and layers of the file in order; the last layer is the output. *)
Record describes (es : list (option element)) (a : architecture) : Prop := {
  de_inputs : Forall2 input_options (input_rows es) (a_inputs a);
  de_layers : Forall2 layer_options (layer_rows es) (a_layers a);
  de_some_input : input_rows es <> [];
  de_output : exists rs r v, layer_rows es = rs ++ [r] /\ last_value [str "name"] r = Some v /\
    a_output a = SStr v }.
End Description.
