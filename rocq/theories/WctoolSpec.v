(** Specification of wctool's class files. *)
From Coq Require Import QArith Qcanon.
From Verif Require Import Base QcLib Strings VocabModel VocabSpec TrainCommandSpec WctoolModel.
Local Open Scope nat_scope.

(** The number of times that the training sentences [us] contain a word of a vocabulary
    that has the words [words]: other words count as <unk>. *)
Definition seen (words : list pystr) (us : list (list pystr)) (w : pystr) : nat :=
  occurrences w (map (fun t => if in_dec pystr_eq_dec t words then t else UNK) (concat us)).

(** The positions, in the list of words, of the words that are in class [c] of the
    assignment [a], and the number of times that the class is seen *)
Definition class_members (a : list nat) (c : nat) : list nat :=
  filter (fun i => match nth_error a i with Some d => d =? c | None => false end) (seq 0 (length a)).
Definition class_seen (words : list pystr) (us : list (list pystr)) (a : list nat) (c : nat) : nat :=
  list_sum (map (fun i => seen words us (nth i words [])) (class_members a c)).

(** [v'] has the words of the list [words], with the same word IDs and in the classes of
    the assignment [a] (under some numbering of the classes), and after them possibly
    words without a class *)
Record same_classes (words : list pystr) (a : list nat) (v' : vocabulary) : Prop := {
  sc_words : exists extra, v_id_to_word v' = words ++ extra;
  sc_shortlist : num_shortlist_words v' = length words;
  sc_classes : forall i j c d, nth_error a i = Some c -> nth_error a j = Some d ->
     (c = d <-> nth_error (v_w2c v') i = nth_error (v_w2c v') j) }.

(** The words of the vocabulary [v] end up in the classes [a]: the optimizer is created and
    its loop ends with this assignment of word IDs to class IDs. *)
Definition optimized (parse_int : pystr -> result Z) (parse_float : pystr -> result Qc) (passes : nat) (args : wctool_args)
  (v : vocabulary) (a : list nat) : Prop :=
  exists b p st0 st, wctool_start parse_int parse_float args = Ok (v, b, p, st0) /\
    BigramModel.optimize passes b p st0 = Ok st /\ a = BigramModel.word_to_class st.

(** The same command, with the output to a file that can be rewound *)
Definition to_file (args : wctool_args) : wctool_args :=
  mkWctool (wt_training_set args) (wt_vocabulary args) (wt_vocabulary_format args) (wt_num_classes args) (wt_method args)
           (wt_output_format args) (wt_output_frequency args) true.
