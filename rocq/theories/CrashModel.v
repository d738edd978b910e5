(** Model of how the train command writes the model file, and of what is in the file when
    the command is stopped at any point. No proofs.

    The file is opened with the "core" driver (train.py 355): everything is written to an
    image in memory. The image is written to the disk when the trainer flushes it at the end
    of a save (trainer.py 467), and when the file is closed. A process that is killed leaves
    on the disk what was flushed last. An exception, also the one that an interrupt from the
    keyboard raises, closes the file (the with statement of train.py 355), so that what is
    in the image then is written.

    Simplifications: one call of h5py either happens or does not happen. The inputs, the
    layers and the order of the sentences are written with one call each. All the variables
    of the optimizer are in the group "optimizer" (the code keeps those that belong to
    parameters in the group "layers"). Writing the image to the disk is not interrupted.
    Whether HDF5 has created an empty file before the first flush is not modelled. *)
From Coq Require Import QArith Qcanon.
From Verif Require Import Base Dict Strings VocabModel ArchModel ParamModel NetModel DeviceModel BuildModel
  SavedModel IterModel TrainerModel TrainDataModel TrainCommandModel.
Local Open Scope nat_scope.

Section Crash.
Context {A : arith} {accum : Type}.
Notation num := (num A).
Notation train_file := (train_file A accum).
Notation trainer_file := (@TrainerModel.file (network A) accum iter_state).
Notation tstate := (@tstate (network A) accum (bstate shuffling) iter_state (list sequence)).

(** ** Calls of h5py *)
Definition call := train_file -> result train_file.
Definition set_model (g : model_file A -> result (model_file A)) : call :=
  fun f => do m <- g (tf_model f); Ok (mkTrainFile m (tf_trainer f) (tf_iter f) (tf_optimizer f)).
Definition set_trainer (g : option tgroup -> option tgroup) : call :=
  fun f => Ok (mkTrainFile (tf_model f) (g (tf_trainer f)) (tf_iter f) (tf_optimizer f)).
Definition set_iterator (g : option iter_state) : call :=
  fun f => Ok (mkTrainFile (tf_model f) (tf_trainer f) g (tf_optimizer f)).
Definition set_optimizer (g : option (option Qc * option accum) -> option (option Qc * option accum)) : call :=
  fun f => Ok (mkTrainFile (tf_model f) (tf_trainer f) (tf_iter f) (g (tf_optimizer f))).
Definition set_architecture (g : h5_state -> h5_state) : call :=
  set_model (fun m => Ok (SavedModel.mkFile (f_vocabulary m) (g (f_architecture m)) (f_arrays m))).
Definition set_arrays (g : list (pystr * array num) -> result (list (pystr * array num))) : call :=
  set_model (fun m => do s <- g (f_arrays m); Ok (SavedModel.mkFile (f_vocabulary m) (f_architecture m) s)).

(** trainer.py 454-460, _set_candidate_state() with the state that was kept at the center of
    the validation: every group is deleted, if it is there, and copied. The groups are
    listed in the order of their names. *)
Definition copy_calls (a : architecture) (s : trainer_file) : list call :=
  match f_params s with
  | None => []
  | Some n =>
    [ set_architecture (fun _ => None);
      set_architecture (fun _ => ArchModel.get_state a None);
      set_iterator None;
      set_iterator (f_iter s);
      set_arrays (fun _ => Ok []);
      set_arrays (fun _ => network_get_state (layer_parameters n) []);
      set_optimizer (fun _ => None);
      set_optimizer (fun _ => f_optimizer s);
      set_trainer (fun _ => None);
      set_trainer (fun _ => f_trainer s) ]
  end.

(** Changes in an architecture group, which is created if it is missing: architecture.py
    203-215 *)
Definition h5_of (s : h5_state) : h5_arch := match s with Some h => h | None => empty_h5 end.
Definition dicts_of {V} (d : option (list (pystr * V))) : list (pystr * V) := match d with Some d => d | None => [] end.
Definition architecture_calls (a : architecture) : list call :=
  [ set_architecture (fun s => Some (ArchModel.mkH5 (Some (write_dicts (dicts_of (h_inputs (h5_of s))) 0 (a_inputs a))) (h_layers (h5_of s)) (h_output (h5_of s))));
    set_architecture (fun s => Some (ArchModel.mkH5 (h_inputs (h5_of s)) (Some (write_dicts (dicts_of (h_layers (h5_of s))) 0 (a_layers a))) (h_output (h5_of s))));
    set_architecture (fun s => Some (ArchModel.mkH5 (h_inputs (h5_of s)) (h_layers (h5_of s)) (Some (a_output a)))) ].

Definition group_of (g : option tgroup) : tgroup := match g with Some g => g | None => mkTgroup None None None end.
Definition variables_of (g : option (option Qc * option accum)) : option Qc * option accum :=
  match g with Some x => x | None => (None, None) end.
(** trainer.py 452 and 269-283, _set_candidate_state() with the current state: values are
    written over those that the file has. *)
Definition write_calls (a : architecture) (s : trainer_file) : list call :=
  match f_params s with
  | None => []
  | Some n =>
    [ set_trainer (fun g => Some (group_of g));                                                              (* 269 *)
      set_trainer (fun g => Some (mkTgroup (g_epoch (group_of (f_trainer s))) (g_update (group_of g)) (g_costs (group_of g))));  (* 270 *)
      set_trainer (fun g => Some (mkTgroup (g_epoch (group_of g)) (g_update (group_of (f_trainer s))) (g_costs (group_of g))));  (* 271 *)
      set_trainer (fun g => Some (mkTgroup (g_epoch (group_of g)) (g_update (group_of g)) (g_costs (group_of (f_trainer s))))) ] (* 272-278 *)
    ++ map (fun v => set_arrays (fun arrays => store_parameter arrays v))                                    (* network.py 374-375 *)
           (flat_map p_vars (layer_parameters n))
    ++ architecture_calls a                                                                                  (* network.py 377 *)
    ++ [ set_iterator (f_iter s);                                                                            (* 281 *)
         set_optimizer (fun g => Some (variables_of g));                                                     (* basicoptimizer.py 146 *)
         set_optimizer (fun g => Some (fst (variables_of (f_optimizer s)), snd (variables_of g)));           (* 147 *)
         set_optimizer (fun g => Some (fst (variables_of g), snd (variables_of (f_optimizer s)))) ]          (* 149 *)
  end.

(** trainer.py 442-460; [s] is the state to be saved, which has been taken with validation
    only if there is a validation file. *)
Definition save_calls (args : train_args) (a : architecture) (s : trainer_file) : list call :=
  if ta_validation_file args then copy_calls a s else write_calls a s.
Definition calls (cs : list call) (f : train_file) : result train_file := foldM (fun f c => c f) cs f.

(** ** The file on the disk, and its image in memory *)
Record storage := mkStorage { image : train_file; disk : train_file }.
(** trainer.py 467 *)
Definition flush (f : train_file) : storage := mkStorage f f.

Variable parse_int : pystr -> result Z.
Variable parse_float : pystr -> result Qc.
Variable choice : train_args -> nat -> nat -> list nat -> nat -> bool -> list nat.
Variable shuffle10 : train_args -> nat -> list nat -> list nat.
Variable dropout_scale : option ArchModel.value -> result num.
Variable initial : train_args -> pystr -> pystr -> nat -> nat -> nat -> num.
Variable new_optimizer : train_args -> model A -> accum.
Variable accepts : train_args -> accum -> bool.
Variable update : train_args -> list Qc -> network A -> accum -> Qc -> list sequence -> network A * accum.
Variable perplexity : train_args -> network A -> Qc.
Variable arch : train_args -> result architecture.

Definition training_step (args : train_args) (u : nat) : phase * tstate -> result (phase * tstate) :=
  step (data_next (choice args) (shuffle10 args) (ta_batch_size args) (ta_sequence_length args))
       (update args (file_weights args)) (perplexity args) data_save data_restore (options_of args u).

(** Has the state been saved in a step? *)
Definition saved_between (t t' : tstate) : bool := existsb is_candidate (skipn (length (t_log t)) (t_log t')).

(** One step of the training, with what it does to the file *)
Definition storing_step (args : train_args) (a : architecture) (u : nat) (x : (phase * tstate) * storage)
  : result ((phase * tstate) * storage) :=
  let '((ph, t), s) := x in
  do '(ph', t') <- training_step args u (ph, t);
  if saved_between t t' then
    do f <- calls (save_calls args a (t_file t')) (image s); Ok ((ph', t'), flush f)
  else Ok ((ph', t'), s).
Fixpoint storing_steps (args : train_args) (a : architecture) (u k : nat) (x : (phase * tstate) * storage)
  : result ((phase * tstate) * storage) :=
  match k with
  | 0 => Ok x
  | S k => do y <- storing_step args a u x; storing_steps args a u k y
  end.

(** After [k] steps, and [j] calls of the save of the next step if there is one. ([j] calls
    include the flush if there are less than [j] calls.) *)
Definition stopped_at (args : train_args) (a : architecture) (u k j : nat) (x : (phase * tstate) * storage) : result storage :=
  do '((ph, t), s) <- storing_steps args a u k x;
  match training_step args u (ph, t) with
  | Err _ => Ok s
  | Ok (ph', t') =>
    if saved_between t t' then
      let cs := save_calls args a (t_file t') in
      do f <- calls (firstn j cs) (image s);
      Ok (if length cs <? j then flush f else mkStorage f (disk s))
    else Ok s
  end.

(** train.py 355-473: the file when a command has been stopped. [Killed] is a process that
    is ended by the system, [Thrown] one that is ended by an exception from outside. *)
Inductive stop := Killed | Thrown.
Definition stopped_command (how : stop) (fuel k j : nat) (args : train_args) (f : train_file) : result train_file :=
  match TrainCommandModel.read_vocabulary parse_int parse_float args f with
  | (Err e, _) => Err e
  | (Ok v, f1) =>
    if refused args v then Err ValueError
    else
      do '(m, u, t0) <- TrainCommandModel.start parse_int choice shuffle10 dropout_scale initial new_optimizer accepts arch fuel args v f1;
      do s <- stopped_at args (m_architecture m) u k j ((AtEpoch, t0), mkStorage f1 f);
      Ok match how with Killed => disk s | Thrown => image s end
  end.
End Crash.
