(** Model of the wctool command, wordclasses/wctool.py: reading the vocabulary and the
    training data, the optimization loop with its saves, and the text that is written. No
    proofs.

    Simplifications: the options that argparse checks have values of the right type, and
    the number of classes is not negative. Text files are given by their contents, the
    vocabulary file by its lines. Log messages and the lines that are printed to the
    standard output (lines 114-116) are left out, also when the classes are written to the
    standard output. A word that has been written to a file can be read from it (nothing
    is lost in buffers). The dictionary word_to_id lists words in the order in which they
    were inserted, as in Python 3.7 and later. *)
From Coq Require Import QArith Qcanon.
From Verif Require Import Base Strings TextModel VocabModel SlfModel TrainCommandModel BigramModel.
Local Open Scope nat_scope.

(** --output-format *)
Inductive class_format := ClassIds | SrilmIds | OtherIds.

(** wctool.py 42-91, the arguments. [wt_method] is [None] if the method is unknown, and
    [wt_seekable] tells whether the output is a file that can be rewound. *)
Record wctool_args := mkWctool {
  wt_training_set : list pystr;
  wt_vocabulary : option (list pystr);
  wt_vocabulary_format : vocab_format;
  wt_num_classes : nat;
  wt_method : option backend;
  wt_output_format : class_format;
  wt_output_frequency : Z;
  wt_seekable : bool
}.

Section Wctool.
Variable parse_int : pystr -> result Z.
Variable parse_float : pystr -> result Qc.
(** str() of a floating point number *)
Variable show_num : Qc -> pystr.

(** '{:05d}'.format() of a nonnegative integer *)
Definition show_int5 (n : nat) : pystr := repeat 48%N (5 - length (show_int n)) ++ show_int n.

(** numpybigramoptimizer.py 63-79, theanobigramoptimizer.py 87-104: get_word_prob(), as a
    rational number ([BigramModel.get_word_prob] is the same as a real number) *)
Definition word_prob (p : problem) (st : state) (w : nat) : Qc :=
  let class_count := class_counts st (class_of (word_to_class st) w) in
  if (class_count =? 0)%Z then 0%Qc else (Q2Qc (inject_Z (word_counts p w)) / Q2Qc (inject_Z class_count))%Qc.

(** bigramoptimizer.py 164-175, words() *)
Definition words (p : problem) (st : state) : list (pystr * nat * Qc) :=
  map (fun w => (word_name p w, class_of (word_to_class st) w, word_prob p st w)) (seq 0 (BigramModel.num_words p)).

(** wctool.py 34-38, what is written of one word *)
Definition class_line (format : class_format) (row : pystr * nat * Qc) : pystr :=
  let '(word, class_id, prob) := row in
  match format with
  | ClassIds => word ++ str " " ++ show_int class_id ++ [newline]
  | SrilmIds => str "CLASS-" ++ show_int5 class_id ++ str " " ++ show_num prob ++ str " " ++ word ++ [newline]
  | OtherIds => []
  end.

(** wctool.py 14-38, save(): the contents of the output after writing, [output] before *)
Definition save (args : wctool_args) (p : problem) (st : state) (output : pystr) : pystr :=
  (if wt_seekable args then [] else output) ++
  concat (map (class_line (wt_output_format args)) (words p st)).

(** wctool.py 104-112, the vocabulary *)
Definition wctool_vocabulary (args : wctool_args) : result vocabulary :=
  match wt_vocabulary args with
  | None => do word_counts <- compute_word_counts (map lines_in (wt_training_set args));
            from_word_counts word_counts (Some (wt_num_classes args))
  | Some lines => from_file parse_int parse_float (wt_vocabulary_format args) lines []
  end.

(** statistics.py 59-70, the word IDs on each line of the training files *)
Definition wctool_corpus (args : wctool_args) (v : vocabulary) : result (list (list nat)) :=
  match word_to_id v UNK with
  | None => Err KeyError
  | Some unk_id =>
    mapM (fun line => do words <- utterance_from_line line; Ok (sequence_ids v unk_id words))
         (concat (map lines_in (wt_training_set args)))
  end.

(** bigramoptimizer.py 23-27 and the statistics, statistics.py 48-57 and 71-76 *)
Definition wctool_problem (v : vocabulary) (corpus : list (list nat)) : problem :=
  let statistics := BigramModel.bigram_statistics corpus in
  mkProblem (num_shortlist_words v) (VocabModel.num_classes v) (v_num_normal v)
            (fun w => nth w (v_id_to_word v) [])
            (unigram_counts statistics) (bigram_counts statistics).

(** wctool.py 129-153, one iteration: the state, the number of words that have been moved,
    and the output *)
Definition saving_pass (args : wctool_args) (b : backend) (p : problem) (st : state) (output : pystr)
  : result (state * nat * pystr) :=
  foldM (fun '(st, num_moves, output) w =>
           do '(st, moved) <- move_to_best_class b p st w;
           Ok (st, if moved : bool then S num_moves else num_moves,
               if is_scheduled (Z.of_nat (S w)) (wt_output_frequency args) (Z.of_nat (BigramModel.num_words p))
               then save args p st output else output))
        (seq 0 (BigramModel.num_words p)) (st, 0, output).

(** wctool.py 127-160, the optimization loop and the last save. [passes] is the fuel. *)
Fixpoint saving_loop (passes : nat) (args : wctool_args) (b : backend) (p : problem) (st : state) (output : pystr)
  : result pystr :=
  match passes with
  | O => Err OutOfFuel
  | S passes =>
    do '(st, num_moves, output) <- saving_pass args b p st output;
    if num_moves =? 0 then Ok (save args p st output) else saving_loop passes args b p st output
  end.

(** wctool.py 104-125, everything before the loop *)
Definition wctool_start (args : wctool_args) : result (vocabulary * backend * problem * state) :=
  do v <- wctool_vocabulary args;
  do corpus <- wctool_corpus args v;
  let p := wctool_problem v corpus in
  match wt_method args with
  | None => Err ValueError                                              (* 125 *)
  | Some b => do st <- create p (v_w2c v); Ok (v, b, p, st)             (* 120-123 *)
  end.

(** wctool.py 40-160, main(): what the output contains in the end *)
Definition wctool (passes : nat) (args : wctool_args) : result pystr :=
  do '(_, b, p, st) <- wctool_start args;
  saving_loop passes args b p st [].

End Wctool.
