(** The architecture description of a network: reading it from a text file, and
    saving it to and loading it from an HDF5 state.

    Source: /repo/theanolm/network/architecture.py *)
From Verif Require Import Base Strings Dict NumStr SlfModel.
Local Open Scope nat_scope.

(** What an option or an HDF5 attribute holds: a string, or the integer that
    [int()] gave for a layer size.  (An integer is read back as a numpy integer,
    which compares equal to the Python integer; the model does not tell them
    apart.) *)
Inductive scalar := SStr (s : pystr) | SInt (z : Z).
Inductive value := One (v : scalar) | Many (vs : list scalar).

(** The options of an input or a layer: a Python dictionary *)
Notation options := (list (pystr * value)).

(** architecture.py 18-43, the attributes of an Architecture *)
Record architecture := mkArch {
  a_inputs : list options;
  a_layers : list options;
  a_output : scalar }.

Definition oget {V} (d : list (pystr * V)) (k : pystr) : option V := dict_get pystr_eq_dec d k.
Definition oset {V} (d : list (pystr * V)) (k : pystr) (v : V) : list (pystr * V) :=
  dict_set pystr_eq_dec d k v.

(** [d[k]] *)
Definition lookup {V} (d : list (pystr * V)) (k : pystr) : result V :=
  match oget d k with Some v => Ok v | None => Err KeyError end.

Definition scalar_eqb (a b : scalar) : bool :=
  match a, b with
  | SStr s, SStr t => pystr_eqb s t
  | SInt m, SInt n => Z.eqb m n
  | _, _ => false
  end.

(** A group of the HDF5 file that holds a dictionary: attributes for the strings,
    and for each list a subgroup whose attributes "0", "1", ... are the elements.
    Attributes and subgroups have separate names.  (h5py iterates over names in
    alphabetical order, here they are in the order of creation; no result depends
    on that order up to the order of the options in a dictionary.) *)
Record group := mkGroup {
  g_attrs : list (pystr * scalar);
  g_lists : list (pystr * list (pystr * scalar)) }.
Definition empty_group : group := mkGroup [] [].

(** The group "architecture" *)
Record h5_arch := mkH5 {
  h_inputs : option (list (pystr * group));
  h_layers : option (list (pystr * group));
  h_output : option scalar }.
Definition empty_h5 : h5_arch := mkH5 None None None.

(** The HDF5 state, as far as the architecture is concerned: [None] when there is
    no group "architecture" *)
Notation h5_state := (option h5_arch).

(** require_group() in a dictionary of groups *)
Definition require {V} (d : list (pystr * V)) (k : pystr) (new : V) : V :=
  match oget d k with Some g => g | None => new end.

(** architecture.py 302-304: one list element becomes one attribute *)
Fixpoint write_elements (attrs : list (pystr * scalar)) (i : nat) (vs : list scalar)
  : list (pystr * scalar) :=
  match vs with
  | [] => attrs
  | v :: vs' => write_elements (oset attrs (str_of_nat i) v) (S i) vs'
  end.

(** architecture.py 300-306, the body of the loop *)
Definition write_option (g : group) (kv : pystr * value) : group :=
  let (variable, values) := kv in
  match values with
  | Many vs => mkGroup (g_attrs g) (oset (g_lists g) variable (write_elements (require (g_lists g) variable []) 0 vs))
  | One v => mkGroup (oset (g_attrs g) variable v) (g_lists g)
  end.

(** architecture.py 284-306, _write_h5_dict() *)
Definition write_dict (g : group) (variables : options) : group := fold_left write_option variables g.

(** architecture.py 205-213: each input or layer is written to the group named by
    its number *)
Fixpoint write_dicts (d : list (pystr * group)) (i : nat) (os : list options) : list (pystr * group) :=
  match os with
  | [] => d
  | o :: os' =>
    let g := require d (str_of_nat i) empty_group in
    write_dicts (oset d (str_of_nat i) (write_dict g o)) (S i) os'
  end.

(** architecture.py 193-215, get_state() *)
Definition get_state (a : architecture) (state : h5_state) : h5_state :=
  let h := match state with Some h => h | None => empty_h5 end in
  let inputs := match h_inputs h with Some d => d | None => [] end in
  let layers := match h_layers h with Some d => d | None => [] end in
  Some (mkH5 (Some (write_dicts inputs 0 (a_inputs a)))
             (Some (write_dicts layers 0 (a_layers a)))
             (Some (a_output a))).

(** Comparison of Python strings: by code points, a prefix first *)
Fixpoint str_leb (a b : pystr) : bool :=
  match a, b with
  | [], _ => true
  | _ :: _, [] => false
  | c :: a', d :: b' => if N.ltb c d then true else if N.eqb c d then str_leb a' b' else false
  end.

(** sorted() *)
Fixpoint insert_by {A} (leb : A -> A -> bool) (x : A) (l : list A) : list A :=
  match l with
  | [] => [x]
  | y :: l' => if leb x y then x :: l else y :: insert_by leb x l'
  end.
Fixpoint sort_by {A} (leb : A -> A -> bool) (l : list A) : list A :=
  match l with
  | [] => []
  | x :: l' => insert_by leb x (sort_by leb l')
  end.

(** architecture.py 276-281, one subgroup of _read_h5_dict(): the elements in the
    order of their names as strings *)
Definition read_elements (attrs : list (pystr * scalar)) : result (list scalar) :=
  mapM (lookup attrs) (sort_by str_leb (map fst attrs)).

(** architecture.py 260-282, _read_h5_dict() *)
Definition read_dict (g : group) : result options :=
  let strings := fold_left (fun r (kv : pystr * scalar) => oset r (fst kv) (One (snd kv))) (g_attrs g) [] in
  foldM (fun r (kv : pystr * list (pystr * scalar)) =>
           do vs <- read_elements (snd kv); Ok (oset r (fst kv) (Many vs)))
        (g_lists g) strings.

(** int() of the name of a layer group.  Only digits are understood here; the
    names that get_state() writes consist of digits. *)
Fixpoint digits_value (acc : nat) (s : pystr) : result nat :=
  match s with
  | [] => Ok acc
  | c :: s' =>
    if (N.leb 48 c && N.leb c 57)%bool then digits_value (10 * acc + N.to_nat (c - 48)) s' else Err ValueError
  end.
Definition int_of_digits (s : pystr) : result nat :=
  match s with [] => Err ValueError | _ => digits_value 0 s end.

(** architecture.py 18-43, the constructor *)
Definition last_name (layers : list options) : result scalar :=
  match rev layers with
  | [] => Err IndexError
  | l :: _ => do v <- lookup l (str "name"); match v with One s => Ok s | Many _ => Err TypeError end
  end.
Definition make_arch (inputs layers : list options) (output : option scalar) : result architecture :=
  if match inputs with [] => true | _ => false end then Err ValueError
  else if match layers with [] => true | _ => false end then Err ValueError
  else match output with
       | Some o => Ok (mkArch inputs layers o)
       | None => do o <- last_name layers; Ok (mkArch inputs layers o)
       end.

(** architecture.py 45-86, from_state() *)
Definition from_state (state : h5_state) : result architecture :=
  match state with
  | None => Err IncompatibleStateError
  | Some h =>
    match h_inputs h with
    | None => Err IncompatibleStateError
    | Some h_in =>
      do inputs <- mapM (fun id => do g <- lookup h_in id; read_dict g) (sort_by str_leb (map fst h_in));
      match h_layers h with
      | None => Err IncompatibleStateError
      | Some h_lay =>
        do layer_ids <- mapM int_of_digits (map fst h_lay);
        do layers <- mapM (fun id => do g <- lookup h_lay (str_of_nat id); read_dict g) (sort_by Nat.leb layer_ids);
        match h_output h with
        | None => Err IncompatibleStateError
        | Some output => make_arch inputs layers (Some output)
        end
      end
    end
  end.

(** architecture.py 337-344: the elements of a list *)
Fixpoint check_elements (attrs : list (pystr * scalar)) (i : nat) (vs : list scalar) : result unit :=
  match vs with
  | [] => Ok tt
  | v :: vs' =>
    do h5_value <- lookup attrs (str_of_nat i);
    if scalar_eqb v h5_value then check_elements attrs (S i) vs' else Err IncompatibleStateError
  end.

(** architecture.py 326-351, the body of the loop of _check_h5_dict() *)
Definition check_option (g : group) (kv : pystr * value) : result unit :=
  let (variable, values) := kv in
  match values with
  | Many vs =>
    match oget (g_lists g) variable with
    | None =>
      if pystr_eqb variable (str "devices")
      then match vs with [] => Ok tt | _ => Err IncompatibleStateError end
      else Err KeyError
    | Some attrs => check_elements attrs 0 vs
    end
  | One v =>
    do h5_value <- lookup (g_attrs g) variable;
    if scalar_eqb v h5_value then Ok tt else Err IncompatibleStateError
  end.

(** architecture.py 308-351, _check_h5_dict() *)
Definition check_dict (g : group) (variables : options) : result unit :=
  foldM (fun _ kv => check_option g kv) variables tt.

(** architecture.py 236-238 and 245-247 *)
Fixpoint check_dicts (d : list (pystr * group)) (i : nat) (os : list options) : result unit :=
  match os with
  | [] => Ok tt
  | o :: os' =>
    do g <- lookup d (str_of_nat i);
    do _ <- check_dict g o;
    check_dicts d (S i) os'
  end.

(** architecture.py 217-258, check_state() *)
Definition check_state (a : architecture) (state : h5_state) : result unit :=
  match state with
  | None => Err IncompatibleStateError
  | Some h =>
    match h_inputs h with
    | None => Err IncompatibleStateError
    | Some h_in =>
      do _ <- check_dicts h_in 0 (a_inputs a);
      match h_layers h with
      | None => Err IncompatibleStateError
      | Some h_lay =>
        do _ <- check_dicts h_lay 0 (a_layers a);
        match h_output h with
        | None => Err IncompatibleStateError
        | Some output => if scalar_eqb (a_output a) output then Ok tt else Err IncompatibleStateError
        end
      end
    end
  end.

Section Description.
(** Python's int() of a string *)
Variable parse_int : pystr -> result Z.

(** architecture.py 109-117: a field of an input line *)
Definition read_input_field (o : options) (field : pystr) : result options :=
  match split_equals field with
  | None => Err InputError
  | Some (variable, v) => Ok (oset o variable (One (SStr v)))
  end.

(** architecture.py 107-126, an input line.  [has] is Python's [in]. *)
Definition has (o : options) (k : pystr) : bool := match oget o k with Some _ => true | None => false end.
Definition read_input (fields : list pystr) : result options :=
  do o <- foldM read_input_field fields [];
  if negb (has o (str "type")) then Err InputError
  else if negb (has o (str "name")) then Err InputError
  else Ok o.

(** [o[variable].append(value)]: AttributeError when a field named [inputs] or
    [devices] has replaced the list by a string *)
Definition append_to (o : options) (variable v : pystr) : result options :=
  do old <- lookup o variable;
  match old with
  | Many vs => Ok (oset o variable (Many (vs ++ [SStr v])))
  | One _ => Err AttributeError
  end.

(** architecture.py 130-145: a field of a layer line *)
Definition read_layer_field (o : options) (field : pystr) : result options :=
  match split_equals field with
  | None => Err InputError
  | Some (variable, v) =>
    if pystr_eqb variable (str "size") then do z <- parse_int v; Ok (oset o variable (One (SInt z)))
    else if pystr_eqb variable (str "input") then append_to o (str "inputs") v
    else if pystr_eqb variable (str "device") then append_to o (str "devices") v
    else Ok (oset o variable (One (SStr v)))
  end.

(** [not x] for a list or a string *)
Definition falsy (v : value) : bool :=
  match v with
  | Many [] => true
  | One (SStr []) => true
  | One (SInt 0%Z) => true
  | _ => false
  end.

(** architecture.py 128-158, a layer line *)
Definition read_layer (fields : list pystr) : result options :=
  do o <- foldM read_layer_field fields [(str "inputs", Many []); (str "devices", Many [])];
  if negb (has o (str "type")) then Err InputError
  else if negb (has o (str "name")) then Err InputError
  else do inputs <- lookup o (str "inputs");
  if falsy inputs then Err InputError
  else Ok o.

(** architecture.py 102-162, the loop over the lines *)
Definition read_line (st : list options * list options) (line : pystr)
  : result (list options * list options) :=
  let (inputs, layers) := st in
  match split line with
  | [] => Ok st
  | first :: fields =>
    if match first with c :: _ => N.eqb c hash | [] => false end then Ok st
    else if pystr_eqb first (str "input") then do o <- read_input fields; Ok (inputs ++ [o], layers)
    else if pystr_eqb first (str "layer") then do o <- read_layer fields; Ok (inputs, layers ++ [o])
    else Err InputError
  end.

(** architecture.py 88-169, from_description() *)
Definition from_description (lines : list pystr) : result architecture :=
  do '(inputs, layers) <- foldM read_line lines ([], []);
  match inputs with
  | [] => Err InputError
  | _ => match layers with
         | [] => Err InputError
         | _ => make_arch inputs layers None
         end
  end.
End Description.
