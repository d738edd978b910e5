(** Model of the train command, commands/train.py, on a model file that may have been
    written by earlier commands. No proofs.

    Simplifications: what Theano and numpy compute (the values that a network has when it
    is created, mini-batch updates, validation set perplexities, random orders) is
    arbitrary, and may be different for each command. The options that only matter there
    are not listed. The options that are checked by argparse have values of the right
    type. The file is held in memory and written when it is closed or flushed (line 355,
    driver='core'); "the file" is what is in memory. *)
From Coq Require Import QArith Qcanon.
From Verif Require Import Base Dict Strings TextModel VocabModel ArchModel ParamModel NetModel DeviceModel BuildModel
  SavedModel IterModel TrainerModel TrainDataModel.
Local Open Scope nat_scope.

(** The lines of a file, as its iterator gives them *)
Fixpoint read_lines (fuel : nat) (data : pystr) : list pystr :=
  match fuel, data with
  | S fuel', _ :: _ => let '(line, rest) := readline data in line :: read_lines fuel' rest
  | _, _ => []
  end.
Definition lines_in (data : pystr) : list pystr := read_lines (length data) data.

(** Command line arguments, commands/train.py 31-215 *)
Record train_args := mkArgs {
  ta_training_set : list pystr;                     (* contents of the files *)
  ta_vocabulary : option (list pystr);              (* lines of the file *)
  ta_vocabulary_format : vocab_format;
  ta_num_classes : option nat;
  ta_weights : list Qc;
  ta_sampling : list Q;
  ta_noise_samples : nat;
  ta_batch_size : nat;
  ta_sequence_length : option nat;
  ta_validation_file : bool;                        (* is there a validation file? *)
  ta_validation_frequency : nat;
  ta_patience : Z;
  ta_stopping_criterion : criterion;
  ta_max_epochs : nat;
  ta_min_epochs : nat;
  ta_max_annealing_count : Z;
  ta_learning_rate : Qc;
  ta_default_device : option pystr;
  ta_random_seed : nat
}.

(** What the command prints last: train.py 475-481 *)
Inductive report := NotTrained | Trained | BestPerplexity (p : Qc).
(** How the command ended. [Interrupted] is a training that was stopped from outside. *)
Inductive outcome := Raised (e : exn) | Exited | Interrupted | Finished (r : report).

Section Command.
Context {A : arith} {accum : Type}.
Notation num := (num A).

(** The model file: what SavedModel.v describes, and the groups that the trainer, the
    iterator and the optimizer write *)
Record train_file := mkTrainFile {
  tf_model : model_file A;
  tf_trainer : option tgroup;
  tf_iter : option iter_state;
  tf_optimizer : option (option Qc * option accum)
}.
Definition no_file : train_file := mkTrainFile empty_file None None None.

(** state.keys(), line 247 *)
Definition has_keys (f : train_file) : bool :=
  match f_vocabulary (tf_model f), f_architecture (tf_model f), f_arrays (tf_model f),
        tf_trainer f, tf_iter f, tf_optimizer f with
  | None, None, [], None, None, None => false
  | _, _, _, _, _, _ => true
  end.

Definition with_model (f : train_file) (m : model_file A) : train_file :=
  mkTrainFile m (tf_trainer f) (tf_iter f) (tf_optimizer f).

(** The functions that convert text to numbers *)
Variable parse_int : pystr -> result Z.
Variable parse_float : pystr -> result Qc.

(** Writes a vocabulary to the file, for example line 270. [f] is kept if that fails. *)
Definition store (v : vocabulary) (f : train_file) : result vocabulary * train_file :=
  match write_vocabulary v (tf_model f) with
  | Ok m => (Ok v, with_model f m)
  | Err e => (Err e, f)
  end.

(** train.py 254-263, the vocabulary of a file without unigram probabilities: the words of
    the training set that are missing are added after the others. *)
Definition extended (v : vocabulary) (word_counts : dict pystr nat) : vocabulary :=
  let oos_words := filter (fun w => negb (contains (v_id_to_word v) w)) (dict_keys word_counts) in  (* 255-258 *)
  mkVocab (v_id_to_word v ++ oos_words) (v_w2c v) (v_classes v) (v_num_normal v) (v_unigram v).    (* 259-262 *)

(** train.py 224-299, _read_vocabulary(): the vocabulary or an exception, and the file *)
Definition read_vocabulary (args : train_args) (f : train_file) : result vocabulary * train_file :=
  let word_counts := compute_word_counts (map lines_in (ta_training_set args)) in
  if has_keys f then                                                             (* 247-264 *)
    match vocab_from_state (f_vocabulary (tf_model f)) with
    | Err e => (Err e, f)
    | Ok v =>
      match v_unigram v with
      | Some _ => (Ok v, f)
      | None =>
        match (do wc <- word_counts; compute_probs (extended v wc) wc false) with
        | Err e => (Err e, f)
        | Ok v => store v f
        end
      end
    end
  else
    match (match ta_vocabulary args with
           | None => do wc <- word_counts; from_word_counts wc (ta_num_classes args)   (* 266-270 *)
           | Some lines =>                                                             (* 272-291 *)
             do wc <- word_counts;
             do v <- VocabModel.from_file parse_int parse_float (ta_vocabulary_format args) lines (dict_keys wc);
             compute_probs v wc (match ta_vocabulary_format args with Classes => true | _ => false end)
           end) with
    | Err e => (Err e, f)
    | Ok v => store v f
    end.

(** train.py 358-374: the arguments that make the command stop with an error message *)
Definition refused (args : train_args) (v : vocabulary) : bool :=
  (num_classes v <? ta_noise_samples args) ||                                    (* 358-362 *)
  (length (ta_training_set args) <? length (ta_weights args)) ||                 (* 365-367 *)
  (length (ta_training_set args) <? length (ta_sampling args)).                  (* 371-374 *)

(** train.py 368-370, the weights of the training files *)
Definition file_weights (args : train_args) : list Qc :=
  fold_left (fun ws iw => upd ws (fst iw) (snd iw))
            (combine (seq 0 (length (ta_weights args))) (ta_weights args))
            (repeat 1%Qc (length (ta_training_set args))).

(** The random generators, what the network and the optimizer compute, and the conversions
    of options of layers *)
Variable choice : train_args -> nat -> nat -> list nat -> nat -> bool -> list nat.
Variable shuffle10 : train_args -> nat -> list nat -> list nat.
Variable dropout_scale : option ArchModel.value -> result num.
Variable initial : train_args -> pystr -> pystr -> nat -> nat -> nat -> num.
Variable new_optimizer : train_args -> model A -> accum.
Variable accepts : train_args -> accum -> bool.
  (* does the file have the state variables of the optimizer? basicoptimizer.py 151-170, parameters.py 94-118 *)
Variable update : train_args -> list Qc -> network A -> accum -> Qc -> list sequence -> network A * accum.
Variable perplexity : train_args -> network A -> Qc.

(** The architecture that is read from the file or the package, or an exception *)
Variable arch : train_args -> result architecture.

(** train.py 402-403, the trainer *)
Definition data_of (fuel : nat) (args : train_args) : result (nat * bstate shuffling) :=
  trainer_data (choice args) (shuffle10 args) (ta_batch_size args) (ta_sequence_length args) fuel
               (ta_training_set args) (ta_sampling args).

(** train.py 376-385 and trainer.py 89 *)
Definition options_of (args : train_args) (updates : nat) : toptions :=
  mkToptions updates (ta_validation_frequency args) (ta_patience args) 7 (ta_validation_file args).

(** The file as the trainer sees it, after its network has been read to [m] *)
Definition trainer_view (f : train_file) (m : model A) : @TrainerModel.file (network A) accum iter_state :=
  TrainerModel.mkFile (match tf_trainer f with Some _ => Some (m_network m) | None => None end)
                      (tf_trainer f) (tf_iter f) (tf_optimizer f).

(** What was saved by the trainer: trainer.py 442-469, 256-283. Only the state that was
    saved last is written, as it replaces the earlier ones. *)
Definition is_candidate {batch} (e : @event batch) : bool := match e with EvCandidate => true | _ => false end.
Definition saved_file (f : train_file) (m : model A)
           (t : @tstate (network A) accum (bstate shuffling) iter_state (list sequence)) : result train_file :=
  if existsb is_candidate (t_log t) then
    match f_params (t_file t) with
    | Some n =>
      do mf <- write_network (mkModel (m_vocabulary m) (m_architecture m) n) (tf_model f);
      Ok (mkTrainFile mf (f_trainer (t_file t)) (f_iter (t_file t)) (f_optimizer (t_file t)))
    | None => Ok f
    end
  else Ok f.

(** train.py 402-467, until the training starts: the network, and the state of the trainer,
    with the number of mini-batches in an epoch *)
Definition start (fuel : nat) (args : train_args) (v : vocabulary) (f : train_file)
  : result (model A * nat * @tstate (network A) accum (bstate shuffling) iter_state (list sequence)) :=
  do '(updates, it) <- data_of fuel args;                                        (* 402-403 *)
  do _ <- get_class_probs v;                                                     (* trainer.py 67 *)
  do arch <- arch args;                                                          (* 407-411 *)
  do m <- new_network parse_int dropout_scale (initial args) (ta_default_device args) false arch v;  (* 413-416 *)
  do m' <- match tf_trainer f with                                               (* trainer.py 184-189, 301 *)
           | Some _ => read_network (tf_model f) m
           | None => Ok m
           end;
  do t <- initialize data_restore (m_network m) (new_optimizer args m) (ta_learning_rate args) it
            (create_stopper (ta_stopping_criterion args) (ta_max_epochs args) (ta_min_epochs args) (ta_max_annealing_count args))
            (trainer_view f m');
  if match tf_trainer f with Some _ => accepts args (t_accum t) | None => true end
  then Ok (m', updates, t) else Err IncompatibleStateError.

(** train.py 475-481 *)
Definition final_report (args : train_args) (t : @tstate (network A) accum (bstate shuffling) iter_state (list sequence)) : report :=
  match f_params (t_file t) with
  | None => NotTrained                                                           (* 475-477 *)
  | Some n => if ta_validation_file args then BestPerplexity (perplexity args n) else Trained  (* 478-481 *)
  end.

(** [k] steps of the training (see TrainerModel.v), with the exception that ended it *)
Fixpoint run (args : train_args) (updates k : nat) (x : phase * @tstate (network A) accum (bstate shuffling) iter_state (list sequence))
  : (phase * @tstate (network A) accum (bstate shuffling) iter_state (list sequence)) * option exn :=
  match k with
  | O => (x, None)
  | S k =>
    match step (data_next (choice args) (shuffle10 args) (ta_batch_size args) (ta_sequence_length args))
               (update args (file_weights args)) (perplexity args) data_save data_restore (options_of args updates) x with
    | Ok y => run args updates k y
    | Err e => (x, Some e)
    end
  end.

(** train.py 355-481: the command, which is interrupted after [k] steps of the training
    unless it has ended before that. [fuel] is for counting the mini-batches. *)
Definition train_command (fuel k : nat) (args : train_args) (f : train_file) : outcome * train_file :=
  match read_vocabulary args f with                                              (* 356 *)
  | (Err e, f) => (Raised e, f)
  | (Ok v, f) =>
    if refused args v then (Exited, f)                                           (* 358-374 *)
    else
      match start fuel args v f with
      | Err e => (Raised e, f)
      | Ok (m, updates, t0) =>
        let '((ph, t), failed) := run args updates k (AtEpoch, t0) in            (* 473 *)
        match saved_file f m t with
        | Err e => (Raised e, f)
        | Ok f' =>
          (match failed, ph with
           | Some e, _ => Raised e
           | None, Done => Finished (final_report args t)
           | None, _ => Interrupted
           end, f')
        end
      end
  end.

(** Commands that are run one after another with the same model file *)
Fixpoint train_commands (cs : list (nat * nat * train_args)) (f : train_file) : list outcome * train_file :=
  match cs with
  | [] => ([], f)
  | (fuel, k, args) :: cs =>
    let '(o, f) := train_command fuel k args f in
    let '(os, f) := train_commands cs f in
    (o :: os, f)
  end.
End Command.
Arguments train_file : clear implicits.
