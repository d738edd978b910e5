(** C71: what is in the model file when train commands have been killed or interrupted at
    any point, also in the middle of saving the state. *)
From Coq Require Import QArith Qcanon Lia.
From Verif Require Import Base ListLib BaseLib QcLib Dict Strings VocabModel VocabSpec VocabProps
  ArchModel ArchSpec ArchProps ParamModel ParamSpec ParamProofs NetModel DeviceModel BuildModel SavedModel SavedSpec SavedArrays SavedBuild SavedNetwork SavedProofs SavedProps
  IterModel IterSpec TrainerModel TrainerSpec TrainerRuns TrainerProps TrainDataModel TrainCommandModel TrainCommandSpec TrainCommandProofs TrainCommandVocab TrainCommandRuns TrainCommandProps
  CrashModel CrashSpec CrashArrays CrashTrainer CrashProofs CrashRuns.
Local Open Scope nat_scope.

Section Props.
Context {A : arith} {accum : Type}.
Notation num := (num A).
Notation train_file := (train_file A accum).
Variable parse_int : pystr -> result Z.
Variable parse_float : pystr -> result Qc.
Variable choice : train_args -> nat -> nat -> list nat -> nat -> bool -> list nat.
Variable shuffle10 : train_args -> nat -> list nat -> list nat.
Variable dropout_scale : option ArchModel.value -> result num.
Variable initial : train_args -> pystr -> pystr -> nat -> nat -> nat -> num.
Variable new_optimizer : train_args -> model A -> accum.
Variable accepts : train_args -> accum -> bool.
Variable update : train_args -> list Qc -> network A -> accum -> Qc -> list sequence -> network A * accum.
Variable perplexity : train_args -> network A -> Qc.
Variable arch : train_args -> result architecture.
Notation read_vocabulary := (@TrainCommandModel.read_vocabulary A accum parse_int parse_float).
Notation start := (@TrainCommandModel.start A accum parse_int choice shuffle10 dropout_scale initial new_optimizer accepts arch).
Notation train_command := (@TrainCommandModel.train_command A accum parse_int parse_float choice shuffle10 dropout_scale initial new_optimizer accepts update perplexity arch).
Notation train_commands := (@TrainCommandModel.train_commands A accum parse_int parse_float choice shuffle10 dropout_scale initial new_optimizer accepts update perplexity arch).
Notation stopped_command := (@CrashModel.stopped_command A accum parse_int parse_float choice shuffle10 dropout_scale initial new_optimizer accepts update perplexity arch).
Notation build := (build parse_int dropout_scale).
Notation from_file := (SavedModel.from_file parse_int dropout_scale).
Notation no_file := (@TrainCommandModel.no_file A accum).

Variable a : architecture.
Variable d : option pystr.
Hypothesis V : valid a.
Hypothesis AM : at_most 10 a.
Hypothesis PN : plain_names a.
Hypothesis update_values : forall args ws n x lr b, other_values n (fst (update args ws n x lr b)).
Notation same_model := (same_model arch a d).
Notation loads := (@loads A accum parse_int dropout_scale a d).
Notation loads_nothing := (@loads_nothing A accum parse_int dropout_scale d).
Notation of_model := (of_model parse_int dropout_scale a d).
Notation full := (@full A accum parse_int dropout_scale a d).
Notation fresh := (@fresh A accum parse_int dropout_scale a d).
Notation sound := (@sound A accum parse_int dropout_scale a d).
Notation dead := (@dead A accum parse_int choice shuffle10 dropout_scale initial new_optimizer accepts arch a d).
Notation saves := (@saves A accum parse_int dropout_scale a d).
Notation harch v := (ArchModel.get_state (with_input_options v a) None).

(** ** Specification *)

(** The next training starts with the network [n]. *)
Definition resumes (f : train_file) (v : vocabulary) (n : network A) : Prop :=
  forall fuel args m u t0, same_model args -> start fuel args v f = Ok (m, u, t0) -> t_params t0 = n.
(** The next training starts with a new network, with initial values. *)
Definition starts_over (f : train_file) (v : vocabulary) : Prop :=
  forall fuel args m u t0, same_model args -> start fuel args v f = Ok (m, u, t0) -> build (initial args) d false a v = Ok (t_params t0).
(** No training can start any more: every command ends with an error, and does not change
    the file. *)
Definition stuck (f : train_file) : Prop :=
  forall fuel k args, same_model args -> exists o, train_command fuel k args f = (o, f) /\ (o = Exited \/ exists e, o = Raised e).

(** What can happen to a file: a command runs until it ends, fails or is interrupted between
    two steps ([k] is the number of steps), or it is killed at any point, or killed before
    the training starts, or interrupted at any point. [interrupts] tells whether the last
    one is allowed. *)
Inductive event (interrupts : bool) (f : train_file) : train_file -> Prop :=
| ev_command fuel k args us : sentences (ta_training_set args) us -> same_model args -> event interrupts f (snd (train_command fuel k args f))
| ev_killed fuel k j args us f' : sentences (ta_training_set args) us -> same_model args -> stopped_command Killed fuel k j args f = Ok f' -> event interrupts f f'
| ev_killed_early : event interrupts f f
| ev_interrupted fuel k j args us f' : interrupts = true -> sentences (ta_training_set args) us -> same_model args ->
    stopped_command Thrown fuel k j args f = Ok f' -> event interrupts f f'.
(** The files that there can be after any number of commands, when there was no file at
    first *)
Inductive history (interrupts : bool) : train_file -> Prop :=
| hs_new : history interrupts no_file
| hs_event f f' : history interrupts f -> event interrupts f f' -> history interrupts f'.

(** ** Proofs *)
Lemma stopped_history how f fuel k j args us f' : history true f -> sentences (ta_training_set args) us -> same_model args ->
  stopped_command how fuel k j args f = Ok f' -> history true f'.
Proof. intros H Hs Hm E. eapply hs_event; [exact H|]. destruct how; [eapply ev_killed|eapply ev_interrupted]; eauto. Qed.
Lemma model_load f v n : has_vocab v f -> of_model v n -> f_architecture (tf_model f) = harch v -> f_arrays (tf_model f) = vars n -> loads f v n.
Proof using V AM PN.
  intros Hv M H1 H2 init exclude. set (g := mkTrainFile (accum := accum) (tf_model f) (Some (mkTgroup None None None)) None None).
  refine (trained_load parse_int dropout_scale a d V AM PN v n g Hv _ init exclude).
  destruct (model_fine _ _ _ _ PN _ _ M) as (D & _). destruct M as (i & n0 & B & O).
  constructor; cbn [g tf_model tf_trainer]; [|exact H1|now rewrite H2|discriminate]. exists i, n0. split; [exact B|]. split; [exact O|]. rewrite H2. split.
  - unfold is_dict. now rewrite vars_paths.
  - intros path x y Hx Hy. destruct (shapes_in _ _ _ _ (other_sym _ _ O) Hx) as (z & Hz & Ez).
    assert (Dn : is_dict (vars n)) by (unfold is_dict; now rewrite vars_paths).
    rewrite (in_unique _ _ _ _ Dn Hy Hz), Ez. split; [reflexivity|]. eapply vars_nonempty; eauto.
Qed.
Lemma no_architecture_load f v : has_vocab v f -> (exists e, from_state (f_architecture (tf_model f)) = Err e) -> loads_nothing f.
Proof using. intros [Hv _] (e & E) init exclude. unfold SavedModel.from_file. rewrite Hv, E. cbn [bind]. eauto. Qed.
Lemma no_arrays_load f : f_arrays (tf_model f) = [] -> loads_nothing f.
Proof using.
  intros E init exclude. unfold SavedModel.from_file. destruct (vocab_from_state _) as [v|]; [|cbn [bind]; eauto]. cbn [bind].
  destruct (from_state _) as [b|]; [|cbn [bind]; eauto]. cbn [bind]. destruct (new_network _ _ _ _ _ _ _) as [m|] eqn:N; [|cbn [bind]; eauto]. cbn [bind].
  apply new_inv in N as (n & B & ->). unfold read_network. cbn [m_network]. rewrite E.
  pose proof (built_vars _ _ _ _ _ _ _ _ B) as Nn. unfold vars in Nn. destruct (flat_map p_vars (layer_parameters n)) as [|[p x] r] eqn:Ev; [congruence|].
  destruct (set_state_missing [] (layer_parameters n) p) as (ps & ->); [rewrite Ev; now left|intros H; destruct H|intros q y z _ []|]. cbn [bind]. eauto.
Qed.
Lemma full_resumes f v n : full v n f -> resumes f v n.
Proof using V PN.
  intros F fuel args m u t0 Hs St. assert (S : sound v f) by (right; eauto).
  pose proof (starts parse_int choice shuffle10 dropout_scale initial new_optimizer accepts arch a d V PN _ _ _ _ _ _ _ Hs S St) as B.
  rewrite (bg_params _ _ _ _ _ _ _ _ _ B). exact (bg_full _ _ _ _ _ _ _ _ _ B n F).
Qed.
Lemma full_loads f v n : has_vocab v f -> full v n f -> loads f v n.
Proof using V AM PN. intros Hv F. apply model_load; [exact Hv|apply F|apply F|apply F]. Qed.
Lemma fresh_starts f v : tf_trainer f = None -> starts_over f v.
Proof using.
  intros Et fuel args m u t0 Hs St'. unfold TrainCommandModel.start in St'. destruct (data_of _ _ _ _) as [[u' it]|]; [|discriminate]. cbn [bind] in St'.
  destruct (get_class_probs v); [|discriminate]. cbn [bind] in St'. destruct (arch args) as [b|] eqn:Ea; [|discriminate]. cbn [bind] in St'.
  pose proof Hs as [Hd Ha]. specialize (Ha _ Ea). subst b. rewrite Hd in St'.
  destruct (new_network _ _ _ _ _ a v) as [m0|] eqn:En; [|discriminate]. cbn [bind] in St'.
  apply new_inv in En as (n0 & B & ->). cbn [m_network] in *. rewrite Et in St'. cbn [bind] in St'.
  destruct (initialize _ _ _ _ _ _ _) as [t|] eqn:Ei; [|discriminate]. cbn [bind] in St'. injection St' as <- <- <-.
  unfold initialize, trainer_view in Ei. cbn [f_trainer] in Ei. rewrite Et in Ei. injection Ei as <-. exact B.
Qed.
Lemma dead_stuck f v : has_vocab v f -> dead v f -> stuck f.
Proof using.
  intros Hv D fuel k args Hs.
  exact (dead_command parse_int parse_float choice shuffle10 dropout_scale initial new_optimizer accepts update perplexity arch a d v f fuel k args Hv D Hs).
Qed.

(** What the files of a history are *)
Definition described (f : train_file) : Prop := f = no_file \/ exists v, has_vocab v f /\ (sound v f \/ dead v f).
Lemma reading f args us : described f -> sentences (ta_training_set args) us ->
  (exists e, read_vocabulary args f = (Err e, f)) \/
  exists v f1, read_vocabulary args f = (Ok v, f1) /\ has_vocab v f1 /\ (f = no_file \/ f = f1) /\ (sound v f1 \/ f1 = f /\ dead v f).
Proof.
  intros [->|(v & Hv & H)] Hs.
  - destruct (read_new parse_int parse_float (A := A) (accum := accum) args us Hs) as [[N (e & R)]|[N (v & vs & R & Hv & Rv & U & D)]]; [eauto|].
    right. exists v, (mkTrainFile (SavedModel.mkFile (Some vs) None []) None None None). split; [exact R|]. split; [split; [exact Hv|exact U]|]. split; [auto|].
    left. left. constructor; auto.
  - right. exists v, f. split; [now apply read_kept|]. split; [exact Hv|]. tauto.
Qed.
Lemma vocab_same v (f f' : train_file) : has_vocab v f -> f_vocabulary (tf_model f') = f_vocabulary (tf_model f) -> has_vocab v f'.
Proof using. intros [H U] E. split; [now rewrite E|exact U]. Qed.
Lemma described_command f fuel k args us : described f -> sentences (ta_training_set args) us -> same_model args -> described (snd (train_command fuel k args f)).
Proof using V PN update_values.
  intros D Hs Hm. destruct (reading _ _ _ D Hs) as [(e & R)|(v & f1 & R & Hv & _ & [S|[-> S]])].
  - unfold TrainCommandModel.train_command. rewrite R. exact D.
  - right. exists v.
    destruct (command_sound parse_int parse_float choice shuffle10 dropout_scale initial new_optimizer accepts update perplexity arch a d V PN update_values fuel k _ _ _ _ R Hm S) as [S' E'].
    split; [eapply vocab_same; eauto|now left].
  - destruct (dead_stuck _ _ Hv S fuel k args Hm) as (o & -> & _). exact D.
Qed.
Lemma stopped_from f how fuel k j args us f' : described f -> sentences (ta_training_set args) us -> same_model args -> stopped_command how fuel k j args f = Ok f' ->
  exists v f1, read_vocabulary args f = (Ok v, f1) /\ has_vocab v f1 /\ sound v f1.
Proof using.
  intros D Hs Hm E. destruct (reading _ _ _ D Hs) as [(e & R)|(v & f1 & R & Hv & _ & [S|[-> S]])].
  - unfold CrashModel.stopped_command in E. rewrite R in E. discriminate.
  - eauto.
  - destruct (dead_stopped parse_int parse_float choice shuffle10 dropout_scale initial new_optimizer accepts update perplexity arch a d v f how fuel k j args Hv S Hm) as (e & E'). congruence.
Qed.
Lemma event_described i f f' : described f -> event i f f' -> described f'.
Proof using V PN update_values.
  intros D H. destruct H as [fuel k args us Hs Hm|fuel k j args us f' Hs Hm E| |fuel k j args us f' _ Hs Hm E].
  - eapply described_command; eauto.
  - destruct (stopped_from _ _ _ _ _ _ _ _ D Hs Hm E) as (v & f1 & R & Hv & S).
    destruct (stopped parse_int parse_float choice shuffle10 dropout_scale initial new_optimizer accepts update perplexity arch a d V PN update_values _ _ _ _ _ _ _ _ _ R Hm S E)
      as (m & u & t0 & _ & _ & _ & _ & _ & [[-> _]|[->| ->]]); [exact D|eapply described_command; eauto|eapply described_command; eauto].
  - exact D.
  - destruct (stopped_from _ _ _ _ _ _ _ _ D Hs Hm E) as (v & f1 & R & Hv & S).
    destruct (stopped parse_int parse_float choice shuffle10 dropout_scale initial new_optimizer accepts update perplexity arch a d V PN update_values _ _ _ _ _ _ _ _ _ R Hm S E)
      as (m & u & t0 & _ & _ & _ & Sb & Vb & [->|(s & n & Hn & _ & _ & Ec)]); [eapply described_command; eauto|].
    destruct (part_classified parse_int choice shuffle10 dropout_scale initial new_optimizer accepts arch a d V PN _ _ _ _ _ _ _ Sb Hn Ec) as [Cl Ev].
    right. exists v. split; [|exact Cl]. eapply vocab_same; [exact Hv|congruence].
Qed.
Lemma history_described i f : history i f -> described f.
Proof using V PN update_values. induction 1 as [|f f' H IH E]; [now left|eapply event_described; eauto]. Qed.

(** ** Theorems *)

(** A command that is interrupted after [k] steps can also be killed or interrupted at any
    point of the next step. *)
Theorem C71_stops i how f fuel k j args us : history i f -> sentences (ta_training_set args) us -> same_model args ->
  fst (train_command fuel k args f) = Interrupted -> exists f', stopped_command how fuel k j args f = Ok f'.
Proof using V PN update_values.
  intros H Hs Hm E. destruct (reading _ _ _ (history_described _ _ H) Hs) as [(e & R)|(v & f1 & R & Hv & _ & [S|[-> S]])].
  - unfold TrainCommandModel.train_command in E. rewrite R in E. discriminate.
  - exact (stops parse_int parse_float choice shuffle10 dropout_scale initial new_optimizer accepts update perplexity arch a d V PN update_values _ _ _ j _ _ _ _ R Hm S E).
  - destruct (dead_stuck _ _ Hv S fuel k args Hm) as (o & Eo & Ho). rewrite Eo in E. cbn [fst] in E. subst o. destruct Ho as [Ho|(e & Ho)]; discriminate.
Qed.
(** If the next step saves the state, then after the save is complete, the file on the disk
    has it, however the command ends. *)
Theorem C71_complete i how f fuel k args us : history i f -> sentences (ta_training_set args) us -> same_model args ->
  let before := snd (train_command fuel k args f) in let after := snd (train_command fuel (S k) args f) in
  before <> after -> exists J, forall j, J <= j -> stopped_command how fuel k j args f = Ok after.
Proof using V PN update_values.
  intros H Hs Hm before after Ne. destruct (reading _ _ _ (history_described _ _ H) Hs) as [(e & R)|(v & f1 & R & Hv & _ & [S|[-> S]])].
  - exfalso. apply Ne. unfold before, after, TrainCommandModel.train_command. now rewrite R.
  - exact (stops_after parse_int parse_float choice shuffle10 dropout_scale initial new_optimizer accepts update perplexity arch a d V PN update_values how _ _ _ _ _ _ R Hm S Ne).
  - exfalso. apply Ne. unfold before, after. destruct (dead_stuck _ _ Hv S fuel k args Hm) as (o & -> & _). destruct (dead_stuck _ _ Hv S fuel (Datatypes.S k) args Hm) as (o' & -> & _). reflexivity.
Qed.
(** A command that is killed, at any point, leaves the file as the command would have left it
    had it been interrupted between two steps of the training, [k] or [k + 1] steps after
    it started; or, if it had not saved anything, as it was before the command. *)
Theorem C71_killed i f fuel k j args us f' : history i f -> sentences (ta_training_set args) us -> same_model args ->
  stopped_command Killed fuel k j args f = Ok f' ->
  (f' = f /\ snd (train_command fuel k args f) = snd (read_vocabulary args f)) \/
  f' = snd (train_command fuel k args f) \/ f' = snd (train_command fuel (S k) args f).
Proof using V PN update_values.
  intros H Hs Hm E. destruct (stopped_from _ _ _ _ _ _ _ _ (history_described _ _ H) Hs Hm E) as (v & f1 & R & Hv & S).
  destruct (stopped parse_int parse_float choice shuffle10 dropout_scale initial new_optimizer accepts update perplexity arch a d V PN update_values _ _ _ _ _ _ _ _ _ R Hm S E)
    as (m & u & t0 & _ & _ & _ & _ & _ & K). rewrite R. exact K.
Qed.
(** If commands are only killed, the file is what some commands leave that are not killed.
    So everything that C69 says about the file is true also then. *)
Theorem C71_killed_history f : history false f ->
  exists cs uss, Forall2 reads cs uss /\ Forall (fun c => same_model (snd c)) cs /\ f = snd (train_commands cs no_file).
Proof using V PN update_values.
  induction 1 as [|f f' H IH E]; [exists [], []; repeat split; constructor|].
  destruct IH as (cs & uss & Hr & Hm & Ef).
  assert (G : forall fuel k args us, sentences (ta_training_set args) us -> same_model args ->
    exists cs uss, Forall2 reads cs uss /\ Forall (fun c => same_model (snd c)) cs /\ snd (train_command fuel k args f) = snd (train_commands cs no_file)).
  { intros fuel k args us Hs Ha. exists (cs ++ [(fuel, k, args)]), (uss ++ [us]). split; [apply Forall2_app; [exact Hr|constructor; [exact Hs|constructor]]|].
    split; [apply Forall_app; split; [exact Hm|constructor; [exact Ha|constructor]]|]. rewrite commands_app, <- Ef. cbn [snd]. rewrite commands_cons. cbn. reflexivity. }
  destruct E as [fuel k args us Hs Ha|fuel k j args us f' Hs Ha E| |fuel k j args us f' Hi]; [eauto| |eauto|discriminate].
  destruct (C71_killed _ _ _ _ _ _ _ _ H Hs Ha E) as [[-> _]|[->| ->]]; eauto.
Qed.

(** After any commands, killed or interrupted at any points: there is nothing in the file, or
    the file has a vocabulary that every command uses, and one of three: the next training
    starts with the network that is loaded from the file, or it starts with a new network, or
    no training can start any more. *)
Theorem C71_history i f : history i f ->
  f = no_file \/
  exists v, vocabulary_in f = Ok v /\ (forall args, read_vocabulary args f = (Ok v, f)) /\
    ((exists n, loads f v n /\ resumes f v n) \/ (tf_trainer f = None /\ starts_over f v) \/ stuck f).
Proof using V AM PN update_values.
  intros H. destruct (history_described _ _ H) as [->|(v & Hv & [[F|(n & F)]|D])]; [now left| | |]; right; exists v;
    (split; [apply Hv|]; split; [intros args; now apply read_kept|]).
  - right. left. split; [apply F|]. apply fresh_starts. apply F.
  - left. exists n. split; [now apply full_loads|now apply full_resumes].
  - right. right. now apply (dead_stuck f v).
Qed.
(** Once no training can start, nothing that happens changes the file any more. *)
Theorem C71_stuck i f f' : history i f -> stuck f -> event i f f' -> f' = f.
Proof using V PN update_values.
  intros H D E. pose proof (history_described _ _ H) as Df.
  assert (G : forall how fuel k j args us f', sentences (ta_training_set args) us -> same_model args -> stopped_command how fuel k j args f = Ok f' -> False).
  { intros how fuel k j args us g Hs Hm Es. destruct (stopped_from _ _ _ _ _ _ _ _ Df Hs Hm Es) as (v & f1 & R & Hv & S).
    destruct (stopped parse_int parse_float choice shuffle10 dropout_scale initial new_optimizer accepts update perplexity arch a d V PN update_values _ _ _ _ _ _ _ _ _ R Hm S Es)
      as (m & u & t0 & Rf & St & B & _). destruct (D fuel 0 args Hm) as (o & Et & Ho).
    unfold TrainCommandModel.train_command in Et. rewrite R, Rf, St in Et. cbn [TrainCommandModel.run] in Et. unfold saved_file in Et.
    rewrite (bg_log _ _ _ _ _ _ _ _ _ B) in Et. cbn [existsb] in Et. injection Et as <- _. destruct Ho as [Ho|(e & Ho)]; discriminate. }
  destruct E as [fuel k args us Hs Hm|fuel k j args us f' Hs Hm E| |fuel k j args us f' _ Hs Hm E]; [| |reflexivity|].
  - destruct (D fuel k args Hm) as (o & -> & _). reflexivity.
  - destruct (G _ _ _ _ _ _ _ Hs Hm E).
  - destruct (G _ _ _ _ _ _ _ Hs Hm E).
Qed.

(** An interrupted command *)
Lemma interrupted f fuel k j args us v f1 f' : described f -> sentences (ta_training_set args) us -> same_model args ->
  read_vocabulary args f = (Ok v, f1) -> stopped_command Thrown fuel k j args f = Ok f' ->
  let before := snd (train_command fuel k args f) in let after := snd (train_command fuel (S k) args f) in
  sound v before /\ has_vocab v before /\
  (f' = before \/ exists s n, saves v s n /\ after = stored a v s n before /\
    f' = if ta_validation_file args then copied (with_input_options v a) s n j before
         else written (with_input_options v a) s (some_arrays n before) (length (vars n)) j before).
Proof using V PN update_values.
  intros D Hs Hm R E before after. destruct (stopped_from _ _ _ _ _ _ _ _ D Hs Hm E) as (v' & f1' & R' & Hv & S). rewrite R in R'. injection R' as <- <-.
  destruct (stopped parse_int parse_float choice shuffle10 dropout_scale initial new_optimizer accepts update perplexity arch a d V PN update_values _ _ _ _ _ _ _ _ _ R Hm S E)
    as (m & u & t0 & _ & _ & _ & Sb & Vb & K). fold before in Sb, Vb, K. fold after in K.
  split; [exact Sb|]. split; [eapply vocab_same; eauto|]. destruct K as [->|(s & n & Hn & Ea & _ & Ec)]; [now left|right]. exists s, n. split; [exact Hn|]. split; [exact Ea|].
  rewrite (part_file parse_int dropout_scale a d PN args v before s n j Sb Hn) in Ec. now injection Ec.
Qed.

(** With a validation file, a save replaces the groups of the file: it deletes and copies one
    after another. [j] is the number of calls before the interrupt, [n'] is the network that
    is being saved. If there is a state in the file, an odd [j] leaves a file where a
    group is missing: no training can start, or (9) the next training starts over. If
    there was no state, the next training starts over. *)
Theorem C71_interrupted_copy i f fuel k j args us v f1 f' : history i f -> sentences (ta_training_set args) us -> same_model args ->
  ta_validation_file args = true -> read_vocabulary args f = (Ok v, f1) -> stopped_command Thrown fuel k j args f = Ok f' ->
  let before := snd (train_command fuel k args f) in let after := snd (train_command fuel (S k) args f) in
  f' = before \/ f' = after \/
  exists n', loads after v n' /\ resumes after v n' /\ 1 <= j <= 9 /\
    (j = 1 \/ j = 5 -> loads_nothing f') /\ (6 <= j -> loads f' v n') /\
    (tf_trainer before = None -> starts_over f' v) /\
    (tf_trainer before <> None -> exists n, loads before v n /\ resumes before v n /\
      (2 <= j <= 4 -> loads f' v n) /\
      (In j [1; 3; 5; 7] -> stuck f') /\
      (In j [2; 4] -> resumes f' v n) /\ (In j [6; 8] -> resumes f' v n') /\ (j = 9 -> starts_over f' v)).
Proof using V AM PN update_values.
  intros H Hs Hm Val R E before after. destruct (interrupted _ _ _ _ _ _ _ _ _ (history_described _ _ H) Hs Hm R E) as (Sb & Vb & [E'|(s & n' & Hn & Ea & E')]); [now left|].
  fold before in Sb, Vb, Ea, E'. fold after in Ea. rewrite Val in E'. destruct (Nat.eq_dec j 0) as [->|J0]; [left; rewrite E'; unfold copied, part; cbn [Nat.ltb Nat.leb]; destruct before as [[]]; reflexivity|].
  destruct (Nat.le_gt_cases 10 j) as [L|L].
  { right. left. rewrite E', Ea, copied_all by exact L. reflexivity. }
  right. right. exists n'. pose proof (saves_model _ _ _ _ _ _ _ Hn) as M'. pose proof (stored_full parse_int dropout_scale a d v s n' before Hn) as Fa. rewrite <- Ea in Fa.
  assert (Va : has_vocab v after) by (rewrite Ea; eapply vocab_same; [exact Vb|reflexivity]).
  assert (V' : has_vocab v f') by (rewrite E'; eapply vocab_same; [exact Vb|reflexivity]).
  split; [now apply full_loads|]. split; [now apply full_resumes|]. split; [lia|]. split.
  { intros [-> | ->]; [eapply no_architecture_load; [exact V'|]|apply no_arrays_load]; rewrite E'; cbn; eauto. }
  split.
  { intros L6. apply model_load; [exact V'|exact M'|..]; rewrite E'; unfold copied, part; cbn [tf_model f_architecture f_arrays].
    - destruct (Nat.ltb_spec j 1); [lia|]. destruct (Nat.eqb_spec j 1); [lia|reflexivity].
    - destruct (Nat.ltb_spec j 5); [lia|]. destruct (Nat.eqb_spec j 5); [lia|reflexivity]. }
  split.
  { intros Et. apply fresh_starts. rewrite E'. unfold copied, part. cbn [tf_trainer]. rewrite Et. destruct (Nat.ltb_spec j 9); [reflexivity|]. destruct (Nat.eqb_spec j 9); [reflexivity|lia]. }
  intros Et. destruct Sb as [F|(n & F)]; [destruct (Et (fr_trainer _ _ _ _ _ _ F))|]. exists n.
  split; [now apply full_loads|]. split; [now apply full_resumes|].
  assert (L9 : j <= 9) by lia.
  pose proof (copy_full parse_int choice shuffle10 dropout_scale initial new_optimizer accepts arch a d PN v before s n n' j F Hn L9) as T. rewrite <- E' in T. clear E' L L9 E.
  destruct T as [Q|Q1 Q2|Q|Q1 Q2|Q|Q1 Q2 Q3|Q|Q1 Q2 Q3|Q|Q1 Q2 Q3]; [congruence|..];
    (split; [intros L; try lia|]); [..|split; [|split; [|split]]; cbn [In]; intros X; try (exfalso; lia)]; 
    try (split; [|split; [|split]]; cbn [In]; intros X; try (exfalso; lia));
    try (eapply dead_stuck; eassumption); try (now apply full_resumes); try (now apply full_loads).
  all: try (subst f'; now first [apply full_loads|apply full_resumes]).
  - destruct F. apply model_load; [exact V'|assumption|now rewrite Q2|now rewrite Q2].
  - apply fresh_starts. apply Q1.
Qed.

(** Without a validation file, a save writes the values over those in the file. If there is a
    state in the file, the file has then the first parameters of the new network and the rest
    of the parameters of the old one, and training resumes with that mixture without an
    error. If the file was new, training cannot start until all of the state has been
    written. *)
Theorem C71_interrupted_write i f fuel k j args us v f1 f' : history i f -> sentences (ta_training_set args) us -> same_model args ->
  ta_validation_file args = false -> read_vocabulary args f = (Ok v, f1) -> stopped_command Thrown fuel k j args f = Ok f' ->
  let before := snd (train_command fuel k args f) in let after := snd (train_command fuel (S k) args f) in
  f' = before \/ f' = after \/
  exists n', loads after v n' /\ resumes after v n' /\
    let p := length (all_parameters n') in 1 <= j < p + 11 /\
    (tf_trainer before <> None -> exists n x, loads before v n /\ resumes before v n /\ mixture (j - 4) n n' x /\ loads f' v x /\ resumes f' v x) /\
    (untrained before -> stuck f' /\ (j < p + 7 -> loads_nothing f') /\ (p + 7 <= j -> loads f' v n')).
Proof using V AM PN update_values.
  intros H Hs Hm Val R E before after. destruct (interrupted _ _ _ _ _ _ _ _ _ (history_described _ _ H) Hs Hm R E) as (Sb & Vb & [E'|(s & n' & Hn & Ea & E')]); [now left|].
  fold before in Sb, Vb, Ea, E'. fold after in Ea. rewrite Val in E'.
  destruct (Nat.eq_dec j 0) as [->|J0]; [left; rewrite E'; unfold written, some_arrays; destruct before as [[]]; reflexivity|].
  pose proof (saves_model _ _ _ _ _ _ _ Hn) as M'. destruct (Nat.le_gt_cases (length (vars n') + 11) j) as [L|L].
  { right. left. rewrite E', Ea. now apply (written_all parse_int dropout_scale a d V). }
  right. right. exists n'. pose proof (stored_full parse_int dropout_scale a d v s n' before Hn) as Fa. rewrite <- Ea in Fa.
  assert (Va : has_vocab v after) by (rewrite Ea; eapply vocab_same; [exact Vb|reflexivity]).
  assert (V' : has_vocab v f') by (rewrite E'; eapply vocab_same; [exact Vb|reflexivity]).
  split; [now apply full_loads|]. split; [now apply full_resumes|]. intros p. assert (Ep : p = length (vars n')) by (unfold p; now rewrite vars_parameters, map_length).
  split; [lia|]. split.
  - intros Et. destruct Sb as [F|(n & F)]; [destruct (Et (fr_trainer _ _ _ _ _ _ F))|].
    destruct (write_full parse_int dropout_scale a d V v before n s n' j F Hn) as (x & Mx & Fx). rewrite <- E' in Fx.
    exists n, x. split; [now apply full_loads|]. split; [now apply full_resumes|]. split; [exact Mx|]. split; [now apply full_loads|now apply full_resumes].
  - intros [U1 U2 U3 U4 U5]. split; [|split].
    + apply (dead_stuck f' v V'). apply dead_groups; rewrite E'; unfold written; cbn [tf_trainer tf_iter tf_optimizer].
      * destruct j; [lia|discriminate].
      * intros (e & q & c & it & lr & ac & _ & _ & G). cbn [tf_optimizer] in G. rewrite U5 in G. unfold opt_stage in G. cbn [variables_of fst snd] in G.
        destruct (j - (length (vars n') + 8)) as [|[|[|q']]] eqn:Eq; cbn [Nat.leb] in G; try discriminate. lia.
    + intros Lj. eapply no_architecture_load; [exact V'|]. rewrite E'. unfold written. cbn [tf_model f_architecture]. rewrite U1. apply load_stage. lia.
    + intros Lj. apply model_load; [exact V'|exact M'|..]; rewrite E'; unfold written; cbn [tf_model f_architecture f_arrays].
      * rewrite U1. apply arch_stage_all. lia.
      * apply (some_all parse_int dropout_scale a d v); [exact Sb|exact M'|lia].
Qed.
End Props.
Print Assumptions C71_stops.
Print Assumptions C71_complete.
Print Assumptions C71_killed.
Print Assumptions C71_killed_history.
Print Assumptions C71_history.
Print Assumptions C71_stuck.
Print Assumptions C71_interrupted_copy.
Print Assumptions C71_interrupted_write.
