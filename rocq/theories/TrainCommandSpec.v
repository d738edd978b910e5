(** Specification of the train command. *)
From Coq Require Import QArith Qcanon.
From Verif Require Import Base QcLib Strings TextSpec VocabModel VocabSpec NetModel SavedModel IterSpec TrainerModel TrainCommandModel.
Local Open Scope nat_scope.

(** The sentences of the training files, with their start and end tags *)
Definition sentences (files : list pystr) (us : list (list pystr)) : Prop :=
  exists lss, file_lines files lss /\ utterances lss us.

(** The words that the network predicts, and the other words of a vocabulary *)
Definition shortlist (v : vocabulary) : list pystr := firstn (num_shortlist_words v) (v_id_to_word v).
Definition out_of_shortlist (v : vocabulary) : list pystr := skipn (num_shortlist_words v) (v_id_to_word v).

(** The relative frequency of a word *)
Definition frequency (words : list pystr) (w : pystr) : Qc :=
  (qc_of_nat (occurrences w words) / qc_of_nat (length words))%Qc.
Definition normal (w : pystr) : bool := if in_dec pystr_eq_dec w specials then false else true.

(** The vocabulary that is made of the training files alone. The special tokens have no
    probability. *)
Record training_vocabulary (num_classes : option nat) (us : list (list pystr)) (v : vocabulary) : Prop := {
  tv_distinct : NoDup (v_id_to_word v);
  tv_shortlist : forall w, In w (shortlist v) <-> In w (concat us) \/ is_special w;
  tv_others : out_of_shortlist v = [];
  tv_classes : exists words, v_id_to_word v = words ++ specials /\
    VocabModel.num_classes v = match num_classes with Some k => Nat.min k (length words) | None => length words end + 3;
  tv_unigram : v_unigram v = Some (map (frequency (filter normal (concat us))) (v_id_to_word v)) }.

(** The vocabulary that is made of a vocabulary file with the entries [es] *)
Record file_vocabulary (format : vocab_format) (es : list entry) (us : list (list pystr)) (v : vocabulary) : Prop := {
  fv_distinct : NoDup (v_id_to_word v);
  fv_shortlist : exists ms, shortlist v = map e_word es ++ ms /\ forall t, In t ms <-> is_special t /\ ~ In t (map e_word es);
  fv_others : forall w, In w (out_of_shortlist v) <-> In w (concat us) /\ ~ In w (shortlist v);
  fv_unigram : v_unigram v = Some (map (frequency (concat us)) (v_id_to_word v));
  fv_classes : forall i j, i < length es -> j < length es -> (nth_error (v_w2c v) i = nth_error (v_w2c v) j <-> same_class es i j);
  fv_weights : format <> Classes -> forall i e, nth_error es i = Some e -> get_word_prob v i = Ok (e_weight e / class_weight es i)%Qc }.

(** Why a new vocabulary cannot be made *)
Definition no_vocabulary (parse_int : pystr -> result Z) (parse_float : pystr -> result Qc) (args : train_args) (us : list (list pystr)) : Prop :=
  match ta_vocabulary args with
  | None => ta_num_classes args = Some 0 /\ exists w, In w (concat us) /\ ~ is_special w
  | Some lines => ~ exists es, entries parse_int parse_float (ta_vocabulary_format args) lines es /\ NoDup (map e_word es) /\
                      forall i, i < length es -> class_weight es i <> 0%Qc
  end.

(** The vocabulary of a new model *)
Definition describes (parse_int : pystr -> result Z) (parse_float : pystr -> result Qc) (args : train_args) (us : list (list pystr)) (v : vocabulary) : Prop :=
  match ta_vocabulary args with
  | None => training_vocabulary (ta_num_classes args) us v
  | Some lines => exists es, entries parse_int parse_float (ta_vocabulary_format args) lines es /\ file_vocabulary (ta_vocabulary_format args) es us v
  end.

(** Why a command stops before the training *)
Definition bad_options (args : train_args) (v : vocabulary) : Prop :=
  num_classes v < ta_noise_samples args \/ length (ta_training_set args) < length (ta_weights args) \/
  length (ta_training_set args) < length (ta_sampling args).

(** The weights of the training files: those that were not given are one. *)
Definition weights_of (args : train_args) : list Qc :=
  map (fun i => nth i (ta_weights args) 1%Qc) (seq 0 (length (ta_training_set args))).
(** When an epoch has [updates] mini-batches: how often the network is validated, on how many
    samples, and how many times the cost may not improve *)
Definition schedule (args : train_args) (updates : nat) : toptions :=
  {| o_updates := updates; o_frequency := ta_validation_frequency args; o_patience := ta_patience args;
     o_samples := 7; o_validate := ta_validation_file args |}.
(** When training ends *)
Definition stopper_of (args : train_args) :=
  create_stopper (ta_stopping_criterion args) (ta_max_epochs args) (ta_min_epochs args) (ta_max_annealing_count args).
