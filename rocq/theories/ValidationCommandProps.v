(** C70: networks after training, and the perplexity that the train command reports last. *)
From Coq Require Import QArith Qcanon Lia.
From Verif Require Import Base ListLib BaseLib QcLib Dict Strings TextModel TextSpec VocabModel VocabSpec VocabProps
  ArchModel ArchSpec ParamModel ParamSpec NetModel DeviceModel BuildModel BuildSpec SavedModel SavedSpec SavedArrays SavedBuild SavedNetwork LinkModel LinkSpec LinkProps
  IterModel IterSpec ScoreModel ScoreSpec TrainerModel TrainDataModel
  TrainCommandModel TrainCommandSpec TrainCommandProofs TrainCommandVocab TrainCommandRuns TrainCommandProps
  RealiseProofs ValidationModel ValidationSpec ValidationProps.
Local Open Scope nat_scope.

(** ** Networks after training *)

(** A network that has other values in the place of the initial ones (training changes
    nothing else) is a network that could have been built with some initial values. What
    has been proved of new networks, whatever their initial values, holds of trained ones. *)
Theorem C70_any_values (A : arith) parse_int (dropout_scale : option ArchModel.value -> result (num A)) initial default exclude a v n0 n :
  plain_names a -> build parse_int dropout_scale initial default exclude a v = Ok n0 -> other_values n0 n ->
  exists initial', build parse_int dropout_scale initial' default exclude a v = Ok n.
Proof. exact (build_realise parse_int dropout_scale initial default exclude a v n0 n). Qed.
Print Assumptions C70_any_values.

Section Command.
Variables qe qsigmoid qtanh qrelu qleaky_relu : Qc -> Qc.
Notation A := (rationals qe qsigmoid qtanh qrelu qleaky_relu).
Notation scorer_net := (scorer_net qe qsigmoid qtanh qrelu qleaky_relu).
Notation network_alone := (network_alone qe qsigmoid qtanh qrelu qleaky_relu).
Notation num := (num A).
Context {accum : Type}.
Notation train_file := (train_file A accum).
Variable parse_int : pystr -> result Z.
Variable parse_float : pystr -> result Qc.
Variable choice : train_args -> nat -> nat -> list nat -> nat -> bool -> list nat.
Variable shuffle10 : train_args -> nat -> list nat -> list nat.
Variable dropout_scale : option ArchModel.value -> result num.
Variable initial : train_args -> pystr -> pystr -> nat -> nat -> nat -> num.
Variable new_optimizer : train_args -> model A -> accum.
Variable accepts : train_args -> accum -> bool.
Variable update : train_args -> list Qc -> network A -> accum -> Qc -> list sequence -> network A * accum.
Variable perplexity : train_args -> network A -> Qc.
Variable arch : train_args -> result architecture.
Notation read_vocabulary := (@TrainCommandModel.read_vocabulary A accum parse_int parse_float).
Notation train_command := (@TrainCommandModel.train_command A accum parse_int parse_float choice shuffle10 dropout_scale initial new_optimizer accepts update perplexity arch).
Notation train_commands := (@TrainCommandModel.train_commands A accum parse_int parse_float choice shuffle10 dropout_scale initial new_optimizer accepts update perplexity arch).
Notation build := (build parse_int dropout_scale).
Notation no_file := (@TrainCommandModel.no_file A accum).

(** Trained networks process the sequences of a mini-batch independently. *)
Theorem C70_trained_network init default exclude_unk a v n0 n : plain_names a -> build init default exclude_unk a v = Ok n0 -> other_values n0 n ->
  Forall (connected a) (a_layers a) -> Forall (placed_well default) (a_layers a) -> reachable_vocab v ->
  Forall unidirectional_type (a_layers a) ->
  batch_independent v (scorer_net n) (network_alone n).
Proof.
  intros PN B O CN PW Hv U. destruct (C70_any_values _ _ _ _ _ _ _ _ _ _ PN B O) as (init' & B').
  exact (C62_scoring_network _ _ _ _ _ _ _ _ _ _ _ _ _ B' CN PW Hv U).
Qed.

(** ** The last line that the train command prints *)
Lemma command_reachable f fuel k args us : sentences (ta_training_set args) us ->
  (f = no_file \/ exists v, has_vocab v f /\ reachable_vocab v) ->
  let f' := snd (train_command fuel k args f) in f' = no_file \/ exists v, has_vocab v f' /\ reachable_vocab v.
Proof.
  intros Hs [->|(v & Hv & R)] f'.
  - destruct (read_new parse_int parse_float (A := A) (accum := accum) args us Hs) as [[N (e & R)]|[N (v & vs & R & Hv & Rv & U & D)]].
    + left. unfold f', TrainCommandModel.train_command. rewrite R. reflexivity.
    + right. exists v. split; [|exact Rv]. split; [|exact U]. unfold f'.
      rewrite (command_vocab parse_int parse_float choice shuffle10 dropout_scale initial new_optimizer accepts update perplexity arch fuel k args _ _ _ R). exact Hv.
  - right. exists v. split; [|exact R]. destruct Hv as [H U]. split; [|exact U]. unfold f'.
    rewrite (command_kept parse_int parse_float choice shuffle10 dropout_scale initial new_optimizer accepts update perplexity arch fuel k args f v (conj H U)). exact H.
Qed.
Lemma commands_reachable cs uss : Forall2 reads cs uss -> forall f, (f = no_file \/ exists v, has_vocab v f /\ reachable_vocab v) ->
  let f' := snd (train_commands cs f) in f' = no_file \/ exists v, has_vocab v f' /\ reachable_vocab v.
Proof.
  intros H. induction H as [|[[fuel k] args] us cs uss Hc H IH]; intros f Hf f'; [exact Hf|]. unfold f'. rewrite commands_cons. cbn [snd].
  apply IH. eapply command_reachable; eauto.
Qed.

Variable a : architecture.
Variable d : option pystr.
Hypothesis V : valid a.
Hypothesis AM : at_most 10 a.
Hypothesis PN : plain_names a.
Hypothesis update_values : forall args ws n x lr b, other_values n (fst (update args ws n x lr b)).
Notation same_model := (same_model arch a d).
Notation loads := (loads parse_int dropout_scale a d).
Notation from_file := (SavedModel.from_file parse_int dropout_scale).

Lemma report_trained cs uss fuel k args us p f' : Forall2 reads cs uss -> Forall (fun c => same_model (snd c)) cs ->
  sentences (ta_training_set args) us -> same_model args ->
  train_command fuel k args (snd (train_commands cs no_file)) = (Finished (BestPerplexity p), f') ->
  exists v n, vocabulary_in f' = Ok v /\ reachable_vocab v /\ v_unigram v <> None /\ loads f' v n /\ p = perplexity args n /\
    exists init n0, build init d false a v = Ok n0 /\ other_values n0 n.
Proof using V AM PN update_values.
  intros H Hm Hs Hn E. pose proof (history_inv parse_int parse_float choice shuffle10 dropout_scale initial new_optimizer accepts update perplexity arch a d V PN update_values _ _ H Hm no_file (or_introl eq_refl)) as Hf.
  pose proof (commands_reachable _ _ H no_file (or_introl eq_refl)) as Hr. cbv zeta in Hr.
  set (f := snd (train_commands cs no_file)) in *.
  pose proof (command_reachable f fuel k args us Hs Hr) as Hr'. cbv zeta in Hr'. rewrite E in Hr'. cbn [snd] in Hr'.
  destruct (next_command parse_int parse_float choice shuffle10 dropout_scale initial new_optimizer accepts update perplexity arch a d _ _ _ _ _ _ _ Hf Hs Hn E) as [(_ & _ & e & e' & Ho & R)|(v & f1 & R & I & _ & E1)]; [discriminate|].
  assert (G : forall f2 n, has_vocab v f2 -> trained parse_int dropout_scale a d v n f2 -> f2 = f' -> p = perplexity args n ->
    exists v n, vocabulary_in f' = Ok v /\ reachable_vocab v /\ v_unigram v <> None /\ loads f' v n /\ p = perplexity args n /\
      exists init n0, build init d false a v = Ok n0 /\ other_values n0 n).
  { intros f2 n Hv T -> Ep. exists v, n. split; [apply Hv|]. split.
    { destruct Hr' as [->|(v' & [Hv' _] & R')]; [destruct Hv as [Hv _]; discriminate Hv|]. destruct Hv as [Hv _]. rewrite Hv in Hv'. injection Hv' as <-. exact R'. }
    split; [apply Hv|]. split; [intros init exclude; exact (trained_load parse_int dropout_scale a d V AM PN v n f' Hv T init exclude)|]. split; [exact Ep|].
    destruct T as [(init & n0 & B & O & _) _ _ _]. exists init, n0. auto. }
  destruct (command_inv parse_int parse_float choice shuffle10 dropout_scale initial new_optimizer accepts update perplexity arch a d V PN update_values _ _ _ _ _ _ _ Hn I E1)
    as [I' [[-> Hr2]|(m & u & t0 & n & j & ph & t & _ & St & Lj & Sj & Et & T & Hr2)]].
  - destruct (Hr2 _ eq_refl) as (m & u & t0 & j & t & St & _ & _ & Er & Ep).
    destruct (started parse_int choice shuffle10 dropout_scale initial new_optimizer accepts arch a d V PN fuel args v f1 Hn m u t0 St (proj2 I)) as (_ & _ & _ & E4 & n0 & _ & _ & _ & N2 & _).
    unfold final_report in Er. rewrite Ep, E4 in Er. destruct I as [Hv Hc]. destruct Hc as [U|(n & T)].
    + rewrite (u_trainer _ U) in Er. discriminate.
    + rewrite (N2 n T) in Er. destruct (tf_trainer f1) eqn:Et; [|destruct T; congruence].
      destruct (ta_validation_file args); [|discriminate]. injection Er as Er. exact (G f1 n Hv T eq_refl Er).
  - pose proof (Hr2 _ eq_refl) as Er. destruct (ta_validation_file args); [|discriminate]. injection Er as Er. exact (G f' n (proj1 I') T eq_refl Er).
Qed.

(** What the command prints as the best validation set perplexity is what the score command
    reports of the validation file when it has loaded the language model, with the option
    --shortlist and without the option --exclude-unk. It does not matter whether the train
    command had the option --exclude-unk. *)
Theorem C70_report cs uss fuel k args us p f' ln qexp exclude data ls ss :
  Forall2 reads cs uss -> Forall (fun c => same_model (snd c)) cs ->
  sentences (ta_training_set args) us -> same_model args ->
  Forall (connected a) (a_layers a) -> Forall (placed_well d) (a_layers a) -> Forall unidirectional_type (a_layers a) ->
  1 <= ta_batch_size args -> valid_max (ta_sequence_length args) ->
  tagged_lines 0 [data] ls -> lines_sequences None ls ss -> fits (ta_sequence_length args) ls ->
  train_command fuel k args (snd (train_commands cs no_file)) = (Finished (BestPerplexity p), f') ->
  exists v n, vocabulary_in f' = Ok v /\ (forall init, exists b, from_file init d false (tf_model f') = Ok (mkModel v b n)) /\
  ((forall s scores, In s ss -> sentence_scores ln (network_alone n) v true exclude (map fst s) scores -> Forall not_nan scores) ->
  exists fuel0, forall vfuel, fuel0 <= vfuel ->
    let validated n := validated ln qexp v exclude (ta_batch_size args) (ta_sequence_length args) vfuel (scorer_net n) data in
    (forall n q, validated n = Ok (Fin q) -> perplexity args n = q) ->
    (exists q, validated n = Ok (Fin q)) ->
    exists stats h, qexp h = Fin p /\ forall log_scale batch_size, 1 <= batch_size -> exists fuel1, forall fuel', fuel1 <= fuel' ->
      score_text ln (scorer_net n) v true false None false log_scale batch_size fuel' data = Ok (stats, [], Some h)).
Proof using V AM PN update_values.
  intros H Hm Hs Hn CN PW UD Hb Hx Hl Hss Hf E.
  destruct (report_trained _ _ _ _ _ _ _ _ H Hm Hs Hn E) as (v & n & Hv & R & U & L & Ep & init & n0 & B & O).
  exists v, n. split; [exact Hv|]. split.
  { intros i. destruct (L i false) as (b & Eb & _). exists b. rewrite Eb. do 2 f_equal.
    assert (X : n_exclude_unk n = false).
    { assert (R1 : Forall2 input_agrees (a_inputs a) (a_inputs a)) by (apply F2_refl; intros o x _; reflexivity).
      assert (R2 : Forall2 same_options (a_layers a) (a_layers a)) by (apply F2_refl; intros o x; reflexivity).
      pose proof (build_again parse_int dropout_scale init init d false false a a v R1 R2 eq_refl) as S. rewrite B in S. destruct S as (_ & _ & S). destruct O. congruence. }
    unfold with_exclude_unk. destruct n; cbn in *. now rewrite X. }
  pose proof (C70_trained_network init d false a v n0 n PN B O CN PW R UD) as Hnet. intros Hnan.
  destruct (C70_score_confirms ln qexp (scorer_net n) (network_alone n) v exclude (ta_batch_size args) (ta_sequence_length args) data ls ss false R Hnet Hb Hx Hl Hss Hf (or_introl U) Hnan) as (fuel0 & C).
  exists fuel0. intros vfuel Hfu val Hp (q & Eq). subst p. rewrite (Hp n q Eq). exact (C vfuel (Fin q) Hfu Eq).
Qed.
End Command.
Print Assumptions C70_trained_network.
Print Assumptions C70_report.
