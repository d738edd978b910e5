(** Model of training with the optimizers: how a mini-batch that the trainer reads changes
    the parameters of the network and the state of the optimizer. Joins the model of the
    train command (TrainCommandModel.v) with that of the optimizers (OptimizerModel.v).
    No proofs.

    Numbers are real numbers. The gradients are an argument. They may depend on the command
    and the network, but are a function: the random numbers of dropout and of noise samples
    are left out, as in TrainCommandModel.v. The optimization method and its options come
    from the arguments of the command (train.py 386-397, training/__init__.py 16-47). *)
From Coq Require Import Reals QArith Qcanon Qreals.
From Verif Require Import Base Strings ParamModel NetModel NetReal SavedModel IterModel OptimizerModel TrainCommandModel.
Local Open Scope nat_scope.
Local Open Scope list_scope.

Notation rnetwork := (network reals).
Notation rparam := (param reals).

(** ** The shared variables of a network *)

(** The elements of a parameter, in the order in which SavedModel.v lists them *)
Definition values_of (p : rparam) : list R := a_data (array_of p).

(** The same parameter with other elements. The expressions that are given to
    theano.function as updates have the shape of the variable (basicoptimizer.py 118-134);
    if there were another number of elements, the parameter would be left as it is. *)
Fixpoint refill2 (w : list (list R)) (t : list R) : list (list R) :=
  match w with
  | [] => []
  | r :: w' => firstn (length r) t :: refill2 w' (skipn (length r) t)
  end.
Fixpoint refill3 (w : list (list (list R))) (t : list R) : list (list (list R)) :=
  match w with
  | [] => []
  | m :: w' => refill2 m (firstn (length (concat m)) t) :: refill3 w' (skipn (length (concat m)) t)
  end.
Definition refill (p : rparam) (t : list R) : rparam :=
  if length t =? length (values_of p) then
    match p with
    | Weight w => @Weight reals (refill2 w t)
    | Bias _ => @Bias reals t
    | Filters w => @Filters reals (refill3 w t)
    | LevelWeight w => @LevelWeight reals (refill3 w t)
    | LevelBias b => @LevelBias reals (refill2 b t)
    end
  else p.

(** network.py 399-415, get_variables(): the parameters of all the layers *)
Definition tensors (n : rnetwork) : tdict := map (fun v => (fst v, values_of (snd v))) (concat (all_params n)).

(** The network after its shared variables have been updated *)
Definition set_tensor (d : tdict) (v : pystr * rparam) : pystr * rparam :=
  (fst v, match dict_get (fst v) d with Some t => refill (snd v) t | None => snd v end).
Definition with_tensors (d : tdict) (n : rnetwork) : rnetwork :=
  mkNetwork (map (fun l => mkLayer (l_kind l) (l_name l) (l_inputs l) (l_size l) (l_activation l) (l_devices l)
                                   (map (set_tensor d) (l_params l)) (l_scale l)) (n_layers n))
            (n_kind n) (n_name n) (n_inputs n) (n_size n) (n_devices n) (map (set_tensor d) (n_params n))
            (n_unk_class n) (n_exclude_unk n).

(** ** The state of an optimizer *)

(** The variables of the optimizers in a file or in memory: of every kind either one for
    each parameter of the network or none at all, as a constructor creates them for all the
    parameters (for example nesterovoptimizer.py 38-40); and the time step of Adam
    (adamoptimizer.py 34). *)
Record opt_state := mkOptState { os_aux : kind -> option tdict; os_timestep : option nat }.

Definition has_kind (m : method) (k : kind) : bool := existsb (fun x => if kind_eq_dec (fst x) k then true else false) (kinds m).
Definition is_adam (m : method) : bool := match m with Adam => true | _ => false end.

(** The constructors of the optimizers, for example adamoptimizer.py 30-45 *)
Definition created (m : method) (n : rnetwork) : opt_state :=
  mkOptState (fun k => if has_kind m k then Some (aux (create_store m (tensors n)) k) else None)
             (if is_adam m then Some (timestep (create_store m (tensors n))) else None).

(** basicoptimizer.py 170, parameters.py 94-118: are the variables of the optimizer in the
    file? *)
Definition has_variables (m : method) (x : opt_state) : bool :=
  forallb (fun kx => match os_aux x (fst kx) with Some _ => true | None => false end) (kinds m) &&
  (negb (is_adam m) || match os_timestep x with Some _ => true | None => false end).

(** The variables that an update reads, and the state after the update, as it will be in
    the file when it is saved: a method changes the variables of its own kinds. Variables
    that another optimizer has written to the file stay there when the state is written in
    place (parameters.py 77-91), without a validation set (trainer.py 233-234). With a
    validation set the groups of the file are replaced (trainer.py 453-460). *)
Definition store_of (n : rnetwork) (x : opt_state) : OptimizerModel.store :=
  mkStore (tensors n) (fun k => match os_aux x k with Some d => d | None => [] end)
          (match os_timestep x with Some t => t | None => 0 end).
Definition state_of (in_place : bool) (m : method) (s : OptimizerModel.store) (x : opt_state) : opt_state :=
  mkOptState (fun k => if has_kind m k then Some (aux s k) else if in_place then os_aux x k else None)
             (if is_adam m then Some (timestep s) else if in_place then os_timestep x else None).

(** ** Saving the variables *)

(** The variables with their names, for example adamoptimizer.py 34-40. Arrays are flat
    here: the parameters of a network have at least one dimension, and only the time step
    is a scalar. *)
Definition suffix (k : kind) : pystr :=
  match k with
  | MeanGradient => str "_mean_gradient"
  | MeanSqrGradient => str "_mean_sqr_gradient"
  | MeanSqrDelta => str "_mean_sqr_delta"
  | SumSqrGradient => str "_sum_sqr_gradient"
  | Velocity => str "_velocity"
  end.
Definition timestep_path : pystr := str "optimizer/timestep".
Definition flat (t : tensor) : array R := mkArray [length t] t.
Definition variables (m : method) (x : opt_state) : list (pystr * array R) :=
  (if is_adam m then match os_timestep x with Some t => [(timestep_path, mkArray [] [INR t])] | None => [] end else []) ++
  flat_map (fun kx => match os_aux x (fst kx) with
                      | Some d => map (fun v => (fst v ++ suffix (fst kx), flat (snd v))) d
                      | None => []
                      end) (kinds m).

(** basicoptimizer.py 136-148, get_state(): written in place *)
Definition save_optimizer (m : method) (lr : R) (x : opt_state) (state : h5 R) : result (h5 R) :=
  optimizer_get_state lr (mkParameters (variables m x) (list_sum (map (fun v => a_size (snd v)) (variables m x)))) state.

(** ** An update *)
Section Update.
Variable view : vocab_view.             (* the vocabulary *)
Variable class_of : nat -> nat.         (* word_id_to_class_id *)
Variable gradients : train_args -> rnetwork -> tdict -> list (list nat) -> list (list nat) -> list (list bool) -> list tensor.
Variable method_of : train_args -> method.
Variable options_of : train_args -> options.

(** Indexing an array of [size] elements by a number that may be negative *)
Definition index_of (size : nat) (z : Z) : nat := Z.to_nat (if (z <? 0)%Z then Z.of_nat size + z else z)%Z.

(** trainer.py 208-214: the arrays of a mini-batch. Out-of-shortlist words are mapped to
    <unk> (trainer.py 79). *)
Definition arrays_of (num_files : nat) (sequences : list sequence) : result minibatch :=
  do '(word_ids, file_ids, mask) <- prepare_batch view true sequences;
  Ok (mkMinibatch word_ids (map (map class_of) word_ids) (map (map (index_of num_files)) file_ids)
                  (map (map (fun x => x =? 1)) mask)).

(** trainer.py 214-215 and basicoptimizer.py 172-200. The parameters and the state of the
    optimizer stay as they are if there is an exception, which would end the training. *)
Definition optimize (args : train_args) (weights : list Qc) (n : rnetwork) (x : opt_state) (lr : Qc) (b : list sequence)
  : rnetwork * opt_state :=
  match (do mb <- arrays_of (length weights) b;
         update_minibatch (gradients args n) (method_of args) (options_of args) (map (fun w => Q2R (this w)) weights)
                          (Q2R (this lr)) mb (store_of n x)) with
  | Ok s => (with_tensors (net s) n, state_of (negb (ta_validation_file args)) (method_of args) s x)
  | Err _ => (n, x)
  end.

Definition optimizer_of (args : train_args) (m : model reals) : opt_state := created (method_of args) (m_network m).
Definition accepted (args : train_args) (x : opt_state) : bool := has_variables (method_of args) x.
End Update.
