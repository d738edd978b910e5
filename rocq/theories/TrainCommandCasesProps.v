(** Concrete train commands. *)
From Coq Require Import QArith Qcanon String.
From Verif Require Import Base ListLib BaseLib QcLib Dict Strings TextModel TextSpec TextProps VocabModel VocabSpec VocabProps LatticeExamples
  ArchModel ArchSpec ParamModel NetModel DeviceModel BuildModel BuildProps SavedModel SavedSpec SavedProps
  NetExamples OutputModel ArchProps IterModel IterSpec IterWitness IterProps TrainerModel TrainDataModel TrainDataProps TrainCommandModel TrainCommandSpec TrainCommandProofs TrainCommandVocab TrainCommandRuns TrainCommandProps.
Local Open Scope nat_scope.
Local Open Scope list_scope.

(** An update that adds one to every parameter *)
Section Bump.
Context {A : arith}.
Variable g : num A -> num A.
Definition map_param (p : param A) : param A :=
  match p with
  | Weight w => Weight (map (map g) w)
  | Bias b => Bias (map g b)
  | Filters w => Filters (map (map (map g)) w)
  | LevelWeight w => LevelWeight (map (map (map g)) w)
  | LevelBias b => LevelBias (map (map g) b)
  end.
Definition map_params (ps : list (pystr * param A)) := map (fun x => (fst x, map_param (snd x))) ps.
Definition map_network (n : network A) : network A :=
  mkNetwork (map (fun l => mkLayer (l_kind l) (l_name l) (l_inputs l) (l_size l) (l_activation l) (l_devices l) (map_params (l_params l)) (l_scale l)) (n_layers n))
    (n_kind n) (n_name n) (n_inputs n) (n_size n) (n_devices n) (map_params (n_params n)) (n_unk_class n) (n_exclude_unk n).
Lemma map_rows w : same_rows w (map (map g) w).
Proof. induction w; cbn; constructor; [now rewrite map_length|assumption]. Qed.
Lemma map_dimensions p : same_dimensions p (map_param p).
Proof.
  destruct p; cbn; [apply map_rows|now rewrite map_length| | |apply map_rows].
  all: induction w; cbn; constructor; [apply map_rows|assumption].
Qed.
Lemma map_other ps : other_params ps (map_params ps).
Proof. induction ps; cbn; constructor; [split; [reflexivity|apply map_dimensions]|assumption]. Qed.
Lemma map_network_other n : other_values n (map_network n).
Proof.
  constructor; cbn; try reflexivity; [|apply map_other]. induction (n_layers n); cbn; constructor; [|assumption].
  constructor; cbn; try reflexivity. apply map_other.
Qed.
End Bump.

Definition ex_sentences : list pystr := map str ["a b"; "b a"; "a"; "b b"; "a a b"; "b"; "a b a"; "b a b"]%string.
Definition ex_args (vocabulary : option (list pystr)) (num_classes : option nat) (noise : nat) (weights : list Qc) (validate : bool) : train_args :=
  mkArgs [TrainDataProps.text ex_sentences] vocabulary Words num_classes weights [] noise 1 None validate 1 0 CEpochCount 2 0 0 1%Qc None 1.
Definition ex_network_bump (n : network integers) : network integers := @map_network integers (fun x : Z => (x + 1)%Z) n.
Definition ex_value (n : network integers) : Z :=
  match rev (n_params n) with (_, Bias (x :: _)) :: _ => x | _ => 0%Z end.
(** The smaller, the better: the distance of one parameter from ten *)
Definition ex_cost (n : network integers) : Qc := Q2Qc (inject_Z (1 + Z.abs (10 - ex_value n))).
Definition ex_arch_lines : list string :=
  ["input type=class name=class_input"; "layer type=projection name=p input=class_input size=2";
   "layer type=tanh name=h input=p size=2"; "layer type=softmax name=output_layer input=h"]%string.

Definition ex_command := @train_command integers nat ex_int ex_float (fun _ => cyc_choice) (fun _ => id_shuffle) ex_scale (fun _ => ex_initial)
  (fun _ _ => 0) (fun _ _ => true) (fun _ _ n x _ _ => (ex_network_bump n, S x)) (fun _ => ex_cost) (fun _ => Ok (ex_described ex_arch_lines)).
Definition ex_commands := @train_commands integers nat ex_int ex_float (fun _ => cyc_choice) (fun _ => id_shuffle) ex_scale (fun _ => ex_initial)
  (fun _ _ => 0) (fun _ _ => true) (fun _ _ n x _ _ => (ex_network_bump n, S x)) (fun _ => ex_cost) (fun _ => Ok (ex_described ex_arch_lines)).

(** Zero classes; too many noise samples; interrupted before anything has been saved;
    finished; interrupted after it had finished another epoch without validation; too many weights *)
Definition ex_history : list (nat * nat * train_args) :=
  [ (100, 1000, ex_args None (Some 0) 0 [] true);
    (100, 1000, ex_args None (Some 1) 100 [] true);
    (100, 5, ex_args None None 0 [] true);
    (100, 1000, ex_args None None 0 [] true);
    (100, 6, ex_args (Some [str "x"]) None 0 [] false);
    (100, 1000, ex_args None None 0 [1; 1]%Qc true) ].
Example ex_history_outcomes : fst (ex_commands ex_history no_file) =
  [Raised ZeroDivisionError; Exited; Interrupted; Finished (BestPerplexity (Q2Qc 4)); Interrupted; Exited].
Proof. vm_compute. reflexivity. Qed.

(** All the conditions of the theorems are met. *)
Lemma sentences_exist files : exists us, sentences files us.
Proof.
  assert (H : exists lss, IterSpec.file_lines files lss).
  { induction files as [|f files (lss & IH)]; [exists []; constructor|]. destruct (C02_lines_exist f) as (ls & H). exists (ls :: lss). now constructor. }
  destruct H as (lss & H). destruct (C15_utterances_exist lss) as (us & U). exists us, lss. auto.
Qed.
Lemma reads_exist cs : exists uss, Forall2 reads cs uss.
Proof. induction cs as [|c cs (uss & IH)]; [exists []; constructor|]. destruct (sentences_exist (ta_training_set (snd c))) as (us & H). exists (us :: uss). now constructor. Qed.
Example ex_history_meets : (exists uss, Forall2 reads ex_history uss) /\
  Forall (fun c => same_model (fun _ => Ok (ex_described ex_arch_lines)) (ex_described ex_arch_lines) None (snd c)) ex_history /\
  valid (ex_described ex_arch_lines) /\ at_most 10 (ex_described ex_arch_lines) /\ plain_names (ex_described ex_arch_lines) /\
  forall (n : network integers), other_values n (ex_network_bump n).
Proof.
  split; [apply reads_exist|]. split; [|split; [apply ex_valid_ok; vm_compute; reflexivity|split; [apply ex_ten_ok; vm_compute; reflexivity|split; [apply ex_plain_ok; vm_compute; reflexivity|intros n; apply map_network_other]]]].
  apply Forall_forall. intros c I. assert (D : ta_default_device (snd c) = None) by (repeat destruct I as [<-|I]; try reflexivity; contradiction).
  split; [exact D|]. intros b E. injection E as E. exact (eq_sym E).
Qed.
(** What is in the file: the one class that the second command asked for, and the network
    of the fifth command, which went on from the best network of the fourth (its parameter
    was 13) and made three more updates before it saved for the last time. *)
Definition ex_after := snd (ex_commands ex_history no_file).
Example ex_history_file :
  match vocabulary_in ex_after, SavedModel.from_file ex_int ex_scale (fun _ _ _ _ _ => 0%Z : num integers) None false (tf_model ex_after) with
  | Ok v, Ok m => num_classes v = 4 /\ v_id_to_word (m_vocabulary m) = v_id_to_word v /\ ex_value (m_network m) = 16%Z
  | _, _ => False
  end.
Proof. vm_compute. auto. Qed.

(** ** What is not true *)
(** The expectation that a command that was refused because of its options has no effect on
    later commands is false: the vocabulary that it made remains in the file. The second
    command, which does not ask for classes, has one class of words. *)
Theorem C69_failed_command_refuted :
  let refused := (100, 1000, ex_args None (Some 1) 100 [] true) in let corrected := (100, 1000, ex_args None None 0 [] true) in
  exists r f g v v', ex_commands [refused; corrected] no_file = ([Exited; Finished r], f) /\ ex_commands [corrected] no_file = ([Finished r], g) /\
    vocabulary_in f = Ok v /\ vocabulary_in g = Ok v' /\ num_classes v = 4 /\ num_classes v' = 5.
Proof.
  cbv zeta. set (refused := (100, 1000, ex_args None (Some 1) 100 [] true)). set (corrected := (100, 1000, ex_args None None 0 [] true)).
  exists (BestPerplexity (Q2Qc 4)), (snd (ex_commands [refused; corrected] no_file)), (snd (ex_commands [corrected] no_file)).
  exists (got (vocabulary_in (snd (ex_commands [refused; corrected] no_file))) empty_vocab), (got (vocabulary_in (snd (ex_commands [corrected] no_file))) empty_vocab).
  repeat (split; [vm_compute; reflexivity|]). vm_compute. reflexivity.
Qed.
Print Assumptions C69_failed_command_refuted.

(** The special tokens have no probability in the vocabulary that is made of the training
    files, although every sentence has a start and an end. *)
Theorem C69_special_tokens nc us v u w : training_vocabulary nc us v -> v_unigram v = Some u -> is_special w ->
  exists i, nth_error (v_id_to_word v) i = Some w /\ nth_error u i = Some 0%Qc.
Proof.
  intros T U S. rewrite (tv_unigram _ _ _ T) in U. injection U as <-. destruct (tv_classes _ _ _ T) as (words & E & _).
  assert (I : In w (v_id_to_word v)) by (rewrite E; apply in_or_app; now right). apply In_nth_error in I as (i & Hi). exists i. split; [exact Hi|].
  rewrite (map_nth_error _ _ _ Hi). f_equal. unfold frequency. rewrite occurrences_filter.
  replace (normal w) with false by (unfold normal; destruct (in_dec pystr_eq_dec w specials); [reflexivity|contradiction]). unfold Qcdiv. change (qc_of_nat 0) with 0%Qc. ring.
Qed.
Print Assumptions C69_special_tokens.
(** The expectation that the unigram probabilities do not depend on whether the words of
    the training files are given in a vocabulary file is false. *)
Definition ex_unigram (v : vocabulary) (w : pystr) : option Q :=
  match word_to_id v w, v_unigram v with Some i, Some u => option_map this (nth_error u i) | _, _ => None end.
Theorem C69_end_of_sentence_refuted :
  let without := (100, 0, ex_args None None 0 [] true) in let with_file := (100, 0, ex_args (Some [str "a"; str "b"]) None 0 [] true) in
  exists v v', vocabulary_in (snd (ex_commands [without] no_file)) = Ok v /\ vocabulary_in (snd (ex_commands [with_file] no_file)) = Ok v' /\
    (forall w, In w (v_id_to_word v) <-> In w (v_id_to_word v')) /\
    ex_unigram v EOS = Some 0%Q /\ ex_unigram v' EOS = Some (8 # 33)%Q /\
    ex_unigram v (str "a") = Some (8 # 17)%Q /\ ex_unigram v' (str "a") = Some (8 # 33)%Q.
Proof.
  cbv zeta. set (without := (100, 0, ex_args None None 0 [] true)). set (with_file := (100, 0, ex_args (Some [str "a"; str "b"]) None 0 [] true)).
  exists (got (vocabulary_in (snd (ex_commands [without] no_file))) empty_vocab), (got (vocabulary_in (snd (ex_commands [with_file] no_file))) empty_vocab).
  split; [vm_compute; reflexivity|]. split; [vm_compute; reflexivity|]. split.
  - assert (E1 : v_id_to_word (got (vocabulary_in (snd (ex_commands [without] no_file))) empty_vocab) = [str "a"; str "b"; SOS; EOS; UNK]) by (vm_compute; reflexivity).
    assert (E2 : v_id_to_word (got (vocabulary_in (snd (ex_commands [with_file] no_file))) empty_vocab) = [str "a"; str "b"; SOS; EOS; UNK]) by (vm_compute; reflexivity).
    intros w. rewrite E1, E2. reflexivity.
  - split; [vm_compute; reflexivity|]. split; [vm_compute; reflexivity|]. split; vm_compute; reflexivity.
Qed.
Print Assumptions C69_end_of_sentence_refuted.

(** A file of an earlier version: a vocabulary without unigram probabilities. The
    conditions of [C69_old_file] are met, and there are words to be added. *)
Example ex_old_file : exists vs f v', reachable_vocab BuildProps.ex_words /\ v_unigram BuildProps.ex_words = None /\ vocab_get_state BuildProps.ex_words empty_vocab_state = Ok vs /\
  f = snd (ex_command 100 0 (mkArgs [TrainDataProps.text [str "b x"; str "y"]] None Words None [] [] 0 1 None true 1 0 CEpochCount 2 0 0 1%Qc None 1)
             (mkTrainFile (SavedModel.mkFile (Some vs) None []) None None None)) /\
  vocabulary_in f = Ok v' /\ v_id_to_word BuildProps.ex_words = [str "a"; str "b"; SOS; EOS; UNK] /\ v_id_to_word v' = [str "a"; str "b"; SOS; EOS; UNK; str "x"; str "y"] /\
  ex_unigram v' (str "x") = Some (1 # 7)%Q.
Proof.
  exists (got (vocab_get_state BuildProps.ex_words empty_vocab_state) empty_vocab_state). eexists. eexists. split; [apply SavedProps.ex_reachable|].
  split; [vm_compute; reflexivity|]. split; [vm_compute; reflexivity|]. split; [reflexivity|]. split; [vm_compute; reflexivity|].
  repeat (split; [vm_compute; reflexivity|]). vm_compute. reflexivity.
Qed.
