(** What can be loaded from the model file after any train commands. *)
From Coq Require Import QArith Qcanon Lia.
From Verif Require Import Base ListLib BaseLib QcLib Dict Strings VocabModel VocabSpec VocabProps
  ArchModel ArchSpec ArchProps ParamModel ParamSpec ParamProofs NetModel DeviceModel BuildModel SavedModel SavedSpec SavedArrays SavedBuild SavedNetwork SavedProofs SavedProps
  IterModel IterSpec TrainerModel TrainerSpec TrainerRuns TrainerProps TrainDataModel TrainCommandModel TrainCommandSpec TrainCommandProofs TrainCommandVocab TrainCommandRuns TrainCommandProps
  CrashModel CrashSpec CrashArrays CrashTrainer CrashProofs CrashRuns CrashProps.
Local Open Scope nat_scope.

Section Files.
Context {A : arith} {accum : Type}.
Notation num := (num A).
Notation train_file := (train_file A accum).
Variable parse_int : pystr -> result Z.
Variable parse_float : pystr -> result Qc.
Variable choice : train_args -> nat -> nat -> list nat -> nat -> bool -> list nat.
Variable shuffle10 : train_args -> nat -> list nat -> list nat.
Variable dropout_scale : option ArchModel.value -> result num.
Variable initial : train_args -> pystr -> pystr -> nat -> nat -> nat -> num.
Variable new_optimizer : train_args -> model A -> accum.
Variable accepts : train_args -> accum -> bool.
Variable update : train_args -> list Qc -> network A -> accum -> Qc -> list sequence -> network A * accum.
Variable perplexity : train_args -> network A -> Qc.
Variable arch : train_args -> result architecture.
Notation read_vocabulary := (@TrainCommandModel.read_vocabulary A accum parse_int parse_float).
Notation train_command := (@TrainCommandModel.train_command A accum parse_int parse_float choice shuffle10 dropout_scale initial new_optimizer accepts update perplexity arch).
Notation stopped_command := (@CrashModel.stopped_command A accum parse_int parse_float choice shuffle10 dropout_scale initial new_optimizer accepts update perplexity arch).
Notation build := (build parse_int dropout_scale).
Notation from_file := (SavedModel.from_file parse_int dropout_scale).
Notation no_file := (@TrainCommandModel.no_file A accum).

Variable a : architecture.
Variable d : option pystr.
Hypothesis V : valid a.
Hypothesis AM : at_most 10 a.
Hypothesis PN : plain_names a.
Hypothesis update_values : forall args ws n x lr b, other_values n (fst (update args ws n x lr b)).
Notation same_model := (same_model arch a d).
Notation loads := (@loads A accum parse_int dropout_scale a d).
Notation loads_nothing := (@loads_nothing A accum parse_int dropout_scale d).
Notation of_model := (of_model parse_int dropout_scale a d).
Notation sound := (@sound A accum parse_int dropout_scale a d).
Notation dead := (@dead A accum parse_int choice shuffle10 dropout_scale initial new_optimizer accepts arch a d).
Notation harch v := (ArchModel.get_state (with_input_options v a) None).
Notation event := (@event A accum parse_int parse_float choice shuffle10 dropout_scale initial new_optimizer accepts update perplexity arch a d).
Notation history := (@history A accum parse_int parse_float choice shuffle10 dropout_scale initial new_optimizer accepts update perplexity arch a d).

(** The architecture cannot be read, or it is that of the model. The arrays are the first
    ones of some network of the model. *)
Definition part_model (v : vocabulary) (f : train_file) : Prop :=
  (f_architecture (tf_model f) = harch v \/ exists e, from_state (f_architecture (tf_model f)) = Err e) /\
  (f_arrays (tf_model f) = [] \/ exists n i, of_model v n /\ f_arrays (tf_model f) = firstn i (vars n)).
Lemma sound_part v f : sound v f -> part_model v f.
Proof.
  intros S. split.
  - destruct (sound_architecture _ _ _ _ _ _ S) as [->| ->]; [right; cbn; eauto|now left].
  - destruct (sound_arrays _ _ _ _ _ _ S) as [->|(n & M & ->)]; [now left|]. right. exists n, (length (vars n)). split; [exact M|]. now rewrite firstn_all.
Qed.
Lemma copied_part v f s n j : sound v f -> of_model v n -> part_model v (copied (with_input_options v a) s n j f).
Proof.
  intros S M. destruct (sound_part _ _ S) as [H1 H2]. unfold copied, part, part_model. cbn [tf_model f_architecture f_arrays]. split.
  - destruct (j <? 1); [exact H1|]. destruct (j =? 1); [right; cbn; eauto|now left].
  - destruct (j <? 5); [exact H2|]. destruct (j =? 5); [now left|]. right. exists n, (length (vars n)). split; [exact M|]. now rewrite firstn_all.
Qed.
Lemma written_part v f s n j : sound v f -> of_model v n -> part_model v (written (with_input_options v a) s (some_arrays n f) (length (vars n)) j f).
Proof.
  intros S M. unfold written, part_model. cbn [tf_model f_architecture f_arrays]. split.
  - set (q := j - _). destruct (sound_architecture _ _ _ _ _ _ S) as [->| ->].
    + destruct (Nat.le_gt_cases 3 q) as [L|L]; [left; now apply arch_stage_all|right; now apply load_stage].
    + left. now apply stage_same.
  - unfold some_arrays. set (i := j - 4). right. destruct (sound_arrays _ _ _ _ _ _ S) as [->|(n1 & M1 & ->)].
    + exists n, i. split; [exact M|]. now rewrite skipn_nil, app_nil_r.
    + pose proof (models_other _ _ _ _ _ _ _ M1 M) as O. pose proof (mix_mixture i _ _ O) as X. exists (mix i n1 n), (length (vars (mix i n1 n))).
      split; [|now rewrite firstn_all, (mixture_vars _ _ _ _ X)]. eapply model_other; [exact M1|apply X].
Qed.

(** The vocabulary and the rest of the model in the files of a history *)
Definition kept (f : train_file) : Prop := f = no_file \/ exists v, has_vocab v f /\ reachable_vocab v /\ part_model v f /\ (sound v f \/ dead v f).
Lemma kept_described f : kept f -> described parse_int choice shuffle10 dropout_scale initial new_optimizer accepts arch a d f.
Proof. intros [->|(v & Hv & _ & _ & H)]; [now left|right; eauto]. Qed.
Lemma kept_reading f args us : kept f -> sentences (ta_training_set args) us ->
  (exists e, read_vocabulary args f = (Err e, f)) \/
  exists v f1, read_vocabulary args f = (Ok v, f1) /\ has_vocab v f1 /\ reachable_vocab v /\ (sound v f1 \/ f1 = f /\ dead v f).
Proof.
  intros [->|(v & Hv & Rv & Hp & H)] Hs.
  - destruct (read_new parse_int parse_float (A := A) (accum := accum) args us Hs) as [[N (e & R)]|[N (v & vs & R & Hv & Rv & U & D)]]; [eauto|].
    right. exists v, (mkTrainFile (SavedModel.mkFile (Some vs) None []) None None None). split; [exact R|]. split; [split; [exact Hv|exact U]|]. split; [exact Rv|].
    left. left. constructor; auto.
  - right. exists v, f. split; [now apply read_kept|]. split; [exact Hv|]. split; [exact Rv|]. tauto.
Qed.
Lemma kept_command f fuel k args us : kept f -> sentences (ta_training_set args) us -> same_model args -> kept (snd (train_command fuel k args f)).
Proof.
  intros D Hs Hm. destruct (kept_reading _ _ _ D Hs) as [(e & R)|(v & f1 & R & Hv & Rv & [S|[-> S]])].
  - unfold TrainCommandModel.train_command. rewrite R. exact D.
  - right. exists v.
    destruct (command_sound parse_int parse_float choice shuffle10 dropout_scale initial new_optimizer accepts update perplexity arch a d V PN update_values fuel k _ _ _ _ R Hm S) as [S' E'].
    split; [eapply vocab_same; eauto|]. split; [exact Rv|]. split; [now apply sound_part|now left].
  - destruct (dead_stuck parse_int parse_float choice shuffle10 dropout_scale initial new_optimizer accepts update perplexity arch a d _ _ Hv S fuel k args Hm) as (o & -> & _). exact D.
Qed.
Lemma kept_event i f f' : kept f -> event i f f' -> kept f'.
Proof.
  intros D H. destruct H as [fuel k args us Hs Hm|fuel k j args us f' Hs Hm E| |fuel k j args us f' _ Hs Hm E].
  - eapply kept_command; eauto.
  - destruct (stopped_from parse_int parse_float choice shuffle10 dropout_scale initial new_optimizer accepts update perplexity arch a d _ _ _ _ _ _ _ _ (kept_described _ D) Hs Hm E) as (v & f1 & R & Hv & S).
    destruct (stopped parse_int parse_float choice shuffle10 dropout_scale initial new_optimizer accepts update perplexity arch a d V PN update_values _ _ _ _ _ _ _ _ _ R Hm S E)
      as (m & u & t0 & _ & _ & _ & _ & _ & [[-> _]|[->| ->]]); [exact D|eapply kept_command; eauto|eapply kept_command; eauto].
  - exact D.
  - destruct (stopped_from parse_int parse_float choice shuffle10 dropout_scale initial new_optimizer accepts update perplexity arch a d _ _ _ _ _ _ _ _ (kept_described _ D) Hs Hm E) as (v & f1 & R & Hv & S).
    destruct (kept_reading _ _ _ D Hs) as [(e & R')|(v' & f1' & R' & _ & Rv & _)]; rewrite R in R'; [discriminate|]. injection R' as <- <-.
    pose proof (event_described parse_int parse_float choice shuffle10 dropout_scale initial new_optimizer accepts update perplexity arch a d V PN update_values true f f' (kept_described _ D) ltac:(eapply ev_interrupted; eauto)) as Df.
    destruct (interrupted parse_int parse_float choice shuffle10 dropout_scale initial new_optimizer accepts update perplexity arch a d V PN update_values _ _ _ _ _ _ _ _ _ (kept_described _ D) Hs Hm R E) as (Sb & Vb & [->|(s & n & Hn & _ & E')]); [eapply kept_command; eauto|].
    pose proof (saves_model _ _ _ _ _ _ _ Hn) as M.
    assert (P : part_model v f') by (rewrite E'; destruct (ta_validation_file args); [now apply copied_part|now apply written_part]).
    assert (V' : has_vocab v f') by (rewrite E'; eapply vocab_same; [exact Vb|]; destruct (ta_validation_file args); reflexivity).
    right. exists v. split; [exact V'|]. split; [exact Rv|]. split; [exact P|].
    destruct Df as [->|(v' & [V2 _] & H)]; [destruct V' as [V' _]; discriminate V'|]. destruct V' as [V' _]. rewrite V' in V2. injection V2 as <-. exact H.
Qed.
Lemma history_kept i f : history i f -> kept f.
Proof. induction 1 as [|f f' H IH E]; [now left|eapply kept_event; eauto]. Qed.

(** If some of the arrays are missing, nothing is loaded. *)
Lemma missing_load f v n i : has_vocab v f -> of_model v n -> f_architecture (tf_model f) = harch v -> f_arrays (tf_model f) = firstn i (vars n) -> i < length (vars n) -> loads_nothing f.
Proof.
  intros [Hv _] M EA Er L init exclude. destruct (missing_path _ _ _ _ PN _ _ _ M L) as (path & I & N).
  destruct (model_fine _ _ _ _ PN _ _ M) as (Dn & _). destruct M as (i0 & n0 & B & O).
  pose proof (valid_input_options v a V) as Va. destruct (C50_load_same _ Va (at_most_input_options v a AM)) as (b & Eb & Sb & _). 
  destruct (same_alike _ _ _ Sb) as [D1 D2 D3].
  pose proof (build_again parse_int dropout_scale i0 init d false exclude a b v D1 D2 D3) as S. rewrite B in S.
  unfold SavedModel.from_file, SavedModel.new_network. rewrite Hv. cbn [bind]. rewrite EA, Eb. cbn [bind].
  destruct (build init d exclude b v) as [n2|] eqn:B2; [|contradiction S]. cbn [bind]. cbn [sim] in S. pose proof (other_exclude _ _ _ _ _ S O) as O2.
  unfold read_network. cbn [m_network]. rewrite Er.
  destruct (set_state_missing (firstn i (vars n)) (layer_parameters n2) path) as (ps & ->); [| |intros p x y Hx Hy|cbn [bind]; eauto].
  - fold (vars n2). rewrite vars_paths, <- (other_paths _ _ O2). exact I.
  - exact N.
  - fold (vars n2) in Hx. assert (Hy' : In (p, y) (vars n)) by (rewrite <- (firstn_skipn i (vars n)); apply in_or_app; now left).
    destruct (shapes_in _ _ _ _ (other_sym _ _ O2) Hx) as (z & Hz & Ez). change (vars (with_exclude_unk exclude n)) with (vars n) in Hz.
    assert (Dv : is_dict (vars n)) by (unfold is_dict; now rewrite vars_paths). rewrite (in_unique _ _ _ _ Dv Hy' Hz), Ez. reflexivity.
Qed.
(** Nothing can be loaded, or a network of the model is loaded. *)
Lemma part_loads v f : has_vocab v f -> part_model v f -> loads_nothing f \/ exists n, of_model v n /\ loads f v n.
Proof.
  intros Hv [[H1|H1] H2]; [|left; eapply no_architecture_load; eauto]. destruct H2 as [H2|(n & i & M & H2)]; [left; now apply no_arrays_load|].
  destruct (Nat.le_gt_cases (length (vars n)) i) as [L|L].
  - right. exists n. split; [exact M|]. apply model_load; auto. now rewrite H2, firstn_all2.
  - left. eapply missing_load; eauto.
Qed.
End Files.
