(** Specification of saved language models. *)
From Verif Require Import Base Strings VocabModel ArchModel ArchSpec ParamModel ParamSpec NetModel SavedModel.
Local Open Scope nat_scope.

Section Spec.
Context {A : arith}.
Notation num := (num A).

(** ** Networks that differ only in the values of their parameters *)
Definition same_rows (w w' : list (list num)) : Prop := Forall2 (fun r r' => length r = length r') w w'.
Definition same_dimensions (p q : param A) : Prop :=
  match p, q with
  | Weight w, Weight w' => same_rows w w'
  | Bias b, Bias b' => length b = length b'
  | Filters w, Filters w' => Forall2 same_rows w w'
  | LevelWeight w, LevelWeight w' => Forall2 same_rows w w'
  | LevelBias b, LevelBias b' => same_rows b b'
  | _, _ => False
  end.
Definition other_params (ps qs : list (pystr * param A)) : Prop :=
  Forall2 (fun x y => fst x = fst y /\ same_dimensions (snd x) (snd y)) ps qs.
Record other_layer (l l' : layer A) : Prop := {
  ol_kind : l_kind l' = l_kind l; ol_name : l_name l' = l_name l; ol_inputs : l_inputs l' = l_inputs l;
  ol_size : l_size l' = l_size l; ol_activation : l_activation l' = l_activation l;
  ol_devices : l_devices l' = l_devices l; ol_scale : l_scale l' = l_scale l;
  ol_params : other_params (l_params l) (l_params l') }.
Record other_values (n n' : network A) : Prop := {
  ov_layers : Forall2 other_layer (n_layers n) (n_layers n');
  ov_kind : n_kind n' = n_kind n; ov_name : n_name n' = n_name n; ov_inputs : n_inputs n' = n_inputs n;
  ov_size : n_size n' = n_size n; ov_devices : n_devices n' = n_devices n;
  ov_unk_class : n_unk_class n' = n_unk_class n; ov_exclude_unk : n_exclude_unk n' = n_exclude_unk n;
  ov_params : other_params (n_params n) (n_params n') }.

(** The same network with [exclude_unk] set *)
Definition with_exclude_unk (exclude_unk : bool) (n : network A) : network A :=
  mkNetwork (n_layers n) (n_kind n) (n_name n) (n_inputs n) (n_size n) (n_devices n) (n_params n) (n_unk_class n) exclude_unk.

(** The paths of all the parameters *)
Definition parameter_paths (n : network A) : list pystr :=
  (flat_map (fun l => paths (l_params l)) (n_layers n) ++ paths (n_params n))%list.

(** ** Layers whose names do not have a slash *)
Definition plain_name (o : options) : Prop :=
  forall x, option_value o (str "name") = Some (One (SStr x)) -> ~ In 47%N x.
Definition plain_names (a : architecture) : Prop := Forall plain_name (a_layers a).

(** A file where a model [m] can be saved: there is no vocabulary or architecture, and no
    array is called like a parameter. *)
Record file_for (m : model A) (f : model_file A) : Prop := {
  ff_vocabulary : f_vocabulary f = None;
  ff_architecture : f_architecture f = None;
  ff_dict : is_dict (f_arrays f);
  ff_other : forall path, In path (parameter_paths (m_network m)) -> ~ In path (paths (f_arrays f)) }.
End Spec.
