(** Model of theanolm/backend/parameters.py: named parameters, and how they are
    written to and read from a HDF5 state. No proofs.

    Simplifications: a HDF5 file is a mapping from paths to arrays (groups are not
    modelled, so a path never names a group); element types, devices and the checks
    of the Theano configuration (parameters.py:54-71) are left out. *)
From Verif Require Import Base.

(** Python dictionaries and HDF5 files with string keys, in insertion order. *)
Section Dictionaries.
Context {A : Type}.
Fixpoint dict_get (p : pystr) (d : list (pystr * A)) : option A :=
  match d with
  | [] => None
  | (q, a) :: d' => if pystr_eqb q p then Some a else dict_get p d'
  end.
Fixpoint dict_replace (p : pystr) (a : A) (d : list (pystr * A)) : list (pystr * A) :=
  match d with
  | [] => []
  | (q, b) :: d' => if pystr_eqb q p then (q, a) :: d' else (q, b) :: dict_replace p a d'
  end.
End Dictionaries.

Section Parameters.
Context {V : Type}.

(** numpy.ndarray: the dimensions, and the elements in order. *)
Record array := mkArray { a_shape : list nat; a_data : list V }.

(** ndarray.size *)
Definition a_size (a : array) : nat := fold_left Nat.mul (a_shape a) 1.

Notation dict := (list (pystr * array)).
Record parameters := mkParameters { p_vars : dict; p_total : nat }.

(** parameters.py:19-24, __init__ *)
Definition no_parameters : parameters := mkParameters [] 0.

(** parameters.py:38-75, add *)
Definition add (path : pystr) (value : array) (p : parameters) : result parameters :=
  match dict_get path (p_vars p) with
  | Some _ => Err ValueError
  | None => Ok (mkParameters (p_vars p ++ [(path, value)]) (p_total p + a_size value))
  end.

(** [state[path][:] = value] of h5py. The slice [:] cannot be used with a scalar
    dataset ("Invalid index for scalar dataset"), and the shapes have to match.
    (h5py would broadcast an array with fewer elements; here it is refused.) *)
Definition assign (old value : array) : result array :=
  match a_shape old with
  | [] => Err TypeError
  | _ => if list_eq_dec Nat.eq_dec (a_shape old) (a_shape value) then Ok value else Err TypeError
  end.

(** parameters.py:77-91, get_state: one iteration, and the loop *)
Definition store_parameter (state : dict) (v : pystr * array) : result dict :=
  let '(path, value) := v in
  match dict_get path state with
  | Some old => do new <- assign old value; Ok (dict_replace path new state)
  | None => Ok (state ++ [(path, value)])
  end.
Definition get_state (p : parameters) (state : dict) : result dict :=
  foldM store_parameter (p_vars p) state.

(** parameters.py:93-111, set_state. The variables after the call are returned also
    when there is an exception. [set_value] of a Theano shared variable raises
    TypeError if the number of dimensions is wrong; it does not look at the
    dimensions. *)
Fixpoint set_vars (state vars : dict) : dict * result unit :=
  match vars with
  | [] => ([], Ok tt)
  | (path, value) :: rest =>
      match dict_get path state with
      | None => (vars, Err IncompatibleStateError)
      | Some new =>
          if length (a_shape new) =? length (a_shape value) then
            let '(rest', e) := set_vars state rest in ((path, new) :: rest', e)
          else (vars, Err TypeError)
      end
  end.
Definition set_state (state : dict) (p : parameters) : parameters * result unit :=
  let '(vars, e) := set_vars state (p_vars p) in (mkParameters vars (p_total p), e).

(** The state of an optimizer: its parameters, and the learning rate as an attribute
    of the group "optimizer". *)
Record h5 := mkH5 { h_data : dict; h_optimizer : option (option V) }.

(** training/basicoptimizer.py:136-148, get_state *)
Definition optimizer_get_state (lr : V) (p : parameters) (state : h5) : result h5 :=
  do d <- get_state p (h_data state);
  Ok (mkH5 d (Some (Some lr))).

(** training/basicoptimizer.py:150-170, set_state: the new learning rate and
    parameters *)
Definition optimizer_set_state (state : h5) (lr : V) (p : parameters) : (V * parameters) * result unit :=
  match h_optimizer state with
  | None => ((lr, p), Err IncompatibleStateError)
  | Some None => ((lr, p), Err IncompatibleStateError)
  | Some (Some lr') => let '(p', e) := set_state (h_data state) p in ((lr', p'), e)
  end.

(** network/network.py:364-375, 377-390 (get_state, set_state): each layer has its own
    parameters. The architecture, which is also written and checked, is modelled
    elsewhere. *)
Definition network_get_state (layers : list parameters) (state : dict) : result dict :=
  foldM (fun s p => get_state p s) layers state.
Fixpoint network_set_state (state : dict) (layers : list parameters) : list parameters * result unit :=
  match layers with
  | [] => ([], Ok tt)
  | p :: rest =>
      match set_state state p with
      | (p', Ok _) => let '(rest', e) := network_set_state state rest in (p' :: rest', e)
      | (p', Err e) => (p' :: rest, Err e)
      end
  end.

End Parameters.
Arguments array : clear implicits.
Arguments parameters : clear implicits.
Arguments h5 : clear implicits.
