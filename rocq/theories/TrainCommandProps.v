(** C69: what train commands leave in the model file. The commands can have any options, and
    each of them can fail, be refused, be interrupted at any time, or finish. *)
From Coq Require Import QArith Qcanon.
From Verif Require Import Base ListLib BaseLib QcLib Dict Strings TextModel TextSpec VocabModel VocabSpec VocabProps
  ArchModel ArchSpec ArchProps ParamModel ParamSpec NetModel NetExamples DeviceModel BuildModel BuildProps SavedModel SavedSpec SavedArrays SavedProofs SavedProps
  IterModel IterSpec TrainerModel TrainerSpec TrainerProps TrainDataModel TrainCommandModel TrainCommandSpec TrainCommandProofs TrainCommandVocab TrainCommandRuns.
Local Open Scope nat_scope.

Section Props.
Context {A : arith} {accum : Type}.
Notation num := (num A).
Notation train_file := (train_file A accum).
Variable parse_int : pystr -> result Z.
Variable parse_float : pystr -> result Qc.
Variable choice : train_args -> nat -> nat -> list nat -> nat -> bool -> list nat.
Variable shuffle10 : train_args -> nat -> list nat -> list nat.
Variable dropout_scale : option ArchModel.value -> result num.
Variable initial : train_args -> pystr -> pystr -> nat -> nat -> nat -> num.
Variable new_optimizer : train_args -> model A -> accum.
Variable accepts : train_args -> accum -> bool.
Variable update : train_args -> list Qc -> network A -> accum -> Qc -> list sequence -> network A * accum.
Variable perplexity : train_args -> network A -> Qc.
Variable arch : train_args -> result architecture.
Notation read_vocabulary := (@TrainCommandModel.read_vocabulary A accum parse_int parse_float).
Notation start := (@TrainCommandModel.start A accum parse_int choice shuffle10 dropout_scale initial new_optimizer accepts arch).
Notation train_command := (@TrainCommandModel.train_command A accum parse_int parse_float choice shuffle10 dropout_scale initial new_optimizer accepts update perplexity arch).
Notation train_commands := (@TrainCommandModel.train_commands A accum parse_int parse_float choice shuffle10 dropout_scale initial new_optimizer accepts update perplexity arch).
Notation build := (build parse_int dropout_scale).
Notation from_file := (SavedModel.from_file parse_int dropout_scale).
Notation no_file := (@TrainCommandModel.no_file A accum).
Notation no_vocabulary := (no_vocabulary parse_int parse_float).
Notation describes := (describes parse_int parse_float).
(** The steps of the training of a command; [u] is the number of mini-batches *)
Notation tsteps args u := (steps (data_next (choice args) (shuffle10 args) (ta_batch_size args) (ta_sequence_length args))
  (update args (weights_of args)) (perplexity args) data_save data_restore (schedule args u)).
Notation tstep args u := (step (data_next (choice args) (shuffle10 args) (ta_batch_size args) (ta_sequence_length args))
  (update args (weights_of args)) (perplexity args) data_save data_restore (schedule args u)).

(** ** The vocabulary *)

(** The vocabulary in the file, and the sentences that a command reads *)
Definition vocabulary_in (f : train_file) : result vocabulary := vocab_from_state (f_vocabulary (tf_model f)).
Definition reads (c : nat * nat * train_args) (us : list (list pystr)) : Prop := sentences (ta_training_set (snd c)) us.

Lemma new_command fuel k args us o f : sentences (ta_training_set args) us -> train_command fuel k args no_file = (o, f) ->
  (no_vocabulary args us /\ (exists e, o = Raised e) /\ f = no_file) \/
  (~ no_vocabulary args us /\ exists v, describes args us v /\ has_vocab v f).
Proof.
  intros Hs E. destruct (read_new parse_int parse_float (A := A) (accum := accum) args us Hs) as [[N (e & R)]|[N (v & vs & R & Hv & Rv & U & D)]].
  - left. unfold TrainCommandModel.train_command in E. rewrite R in E. injection E as <- <-. eauto.
  - right. split; [exact N|]. exists v. split; [exact D|]. split; [|exact U].
    pose proof (command_vocab parse_int parse_float choice shuffle10 dropout_scale initial new_optimizer accepts update perplexity arch fuel k args _ _ _ R) as C.
    rewrite E in C. cbn [snd tf_model f_vocabulary] in C. now rewrite C.
Qed.

(** After any commands, the vocabulary in the file is that of the first command that was
    able to make one, and every command uses it, whatever its options are. If there was no
    such command, there is nothing in the file. *)
Theorem C69_vocabulary cs uss os f : Forall2 reads cs uss -> train_commands cs no_file = (os, f) ->
  (Forall2 (fun c us => no_vocabulary (snd c) us) cs uss /\ f = no_file /\ Forall (fun o => exists e, o = Raised e) os) \/
  exists cs1 c cs2 us1 us us2 v, cs = cs1 ++ c :: cs2 /\ uss = us1 ++ us :: us2 /\ length cs1 = length us1 /\
    Forall2 (fun c us => no_vocabulary (snd c) us) cs1 us1 /\ ~ no_vocabulary (snd c) us /\ describes (snd c) us v /\
    vocabulary_in f = Ok v /\ forall args, read_vocabulary args f = (Ok v, f).
Proof.
  intros H E. assert (Ef : f = snd (train_commands cs no_file)) by now rewrite E. assert (Eo : os = fst (train_commands cs no_file)) by now rewrite E. clear E. subst f os.
  induction H as [|[[fuel k] args] us cs uss Hc H IH].
  - left. split; [constructor|]. split; [reflexivity|constructor].
  - rewrite commands_cons. cbn [fst snd]. destruct (train_command fuel k args no_file) as [o f1] eqn:E1. cbn [fst snd].
    destruct (new_command _ _ _ _ _ _ Hc E1) as [(N & Ho & ->)|(N & v & D & Hv)].
    + destruct IH as [(A1 & A2 & A3)|(cs1 & c & cs2 & us1 & u & us2 & v & -> & -> & L & F & B)].
      * left. split; [constructor; [exact N|exact A1]|]. split; [exact A2|]. constructor; [exact Ho|exact A3].
      * right. exists ((fuel, k, args) :: cs1), c, cs2, (us :: us1), u, us2, v. split; [reflexivity|]. split; [reflexivity|]. split; [cbn; congruence|]. split; [constructor; assumption|exact B].
    + right. exists [], (fuel, k, args), cs, [], us, uss, v. split; [reflexivity|]. split; [reflexivity|]. split; [reflexivity|]. split; [constructor|].
      split; [exact N|]. split; [exact D|].
      assert (Hv' : has_vocab v (snd (train_commands cs f1))).
      { destruct Hv as [Hv U]. split; [|exact U]. erewrite commands_kept; [exact Hv|split; eassumption]. }
      split; [apply Hv'|]. intros args'. now apply read_kept.
Qed.

(** Commands that stop with an error message because of their options: there are more noise
    samples than classes, or more weights or sampling coefficients than training files *)
Theorem C69_refused cs uss fuel k args us o f : Forall2 reads cs uss -> sentences (ta_training_set args) us ->
  train_command fuel k args (snd (train_commands cs no_file)) = (o, f) ->
  (o = Exited <-> exists v, vocabulary_in f = Ok v /\ bad_options args v) /\
  (o = Exited -> forall v, vocabulary_in (snd (train_commands cs no_file)) = Ok v -> f = snd (train_commands cs no_file)).
Proof.
  intros H Hs E. set (f0 := snd (train_commands cs no_file)) in *.
  assert (G : forall v f1, read_vocabulary args f0 = (Ok v, f1) -> vocabulary_in f1 = Ok v ->
    (o = Exited <-> exists v, vocabulary_in f = Ok v /\ bad_options args v) /\ (o = Exited -> f = f1)).
  { intros v f1 R Hv.
    pose proof (command_vocab parse_int parse_float choice shuffle10 dropout_scale initial new_optimizer accepts update perplexity arch fuel k args _ _ _ R) as C.
    rewrite E in C. cbn [snd] in C. assert (Hf : vocabulary_in f = Ok v) by (unfold vocabulary_in in *; now rewrite C).
    assert (B : refused args v = true <-> bad_options args v).
    { unfold refused, bad_options. rewrite !orb_true_iff, !Nat.ltb_lt. tauto. }
    unfold TrainCommandModel.train_command in E. rewrite R in E. destruct (refused args v).
    - injection E as <- <-. split; [|auto]. split; [|auto]. intros _. exists v. split; [exact Hv|]. now apply B.
    - assert (X : o <> Exited).
      { destruct (start fuel args v f1) as [[[m u] t0]|]; [|injection E as <- <-; discriminate].
        destruct (TrainCommandModel.run _ _ _ _ _ _ _ _) as [[ph t] failed]. destruct (saved_file f1 m t); [|injection E as <- <-; discriminate].
        injection E as <- <-. destruct failed; [discriminate|]. destruct ph; discriminate. }
      split; [|contradiction]. split; [contradiction|]. intros (v' & Hv' & Hb). rewrite Hf in Hv'. injection Hv' as <-. apply B in Hb. discriminate. }
  destruct (train_commands cs no_file) as [os f0'] eqn:Ec. cbn [snd] in f0. subst f0.
  destruct (C69_vocabulary _ _ _ _ H Ec) as [(_ & -> & _)|(cs1 & c & cs2 & us1 & us' & us2 & v & _ & _ & _ & _ & _ & _ & Hv & Hr)].
  - split; [|intros _ v Hv; discriminate Hv].
    destruct (read_new parse_int parse_float (A := A) (accum := accum) args us Hs) as [[N (e & R)]|[N (v & vs & R & Hv & _)]].
    + unfold TrainCommandModel.train_command in E. rewrite R in E. injection E as <- <-. split; [discriminate|]. intros (v & Hv & _). discriminate Hv.
    + apply (G _ _ R). exact Hv.
  - destruct (G _ _ (Hr args) Hv) as [G1 G2]. split; [exact G1|]. intros Ho _ _. auto.
Qed.

(** The weights of the training files: those that were not given are one *)
Theorem C69_weights args : length (ta_weights args) <= length (ta_training_set args) ->
  length (file_weights args) = length (ta_training_set args) /\
  forall i, i < length (ta_training_set args) -> nth_error (file_weights args) i = Some (nth i (ta_weights args) 1%Qc).
Proof.
  intros L. unfold file_weights. set (n := length (ta_training_set args)) in *. set (ws := ta_weights args) in *.
  assert (G : forall xs start l, start + length xs <= length l ->
    let l' := fold_left (fun ws (iw : nat * Qc) => upd ws (fst iw) (snd iw)) (combine (seq start (length xs)) xs) l in
    length l' = length l /\ forall i, nth_error l' i = if (start <=? i) && (i <? start + length xs) then nth_error xs (i - start) else nth_error l i).
  { clear. induction xs as [|x xs IH]; intros start l Hl; cbn [length seq combine fold_left].
    - split; [reflexivity|]. intros i. rewrite Nat.add_0_r. destruct (Nat.leb_spec start i), (Nat.ltb_spec i start); try lia; reflexivity.
    - cbn [fst snd]. cbn [length] in Hl. destruct (IH (Datatypes.S start) (upd l start x)) as [H1 H2]; [rewrite upd_length; lia|]. rewrite upd_length in H1. split; [exact H1|].
      intros i. rewrite H2. destruct (Nat.eq_dec i start) as [->|D].
      + replace (Datatypes.S start <=? start) with false by (symmetry; apply Nat.leb_gt; lia). cbn [andb]. rewrite Nat.sub_diag, Nat.leb_refl.
        replace (start <? start + _) with true by (symmetry; apply Nat.ltb_lt; lia). cbn [andb nth_error]. rewrite nth_error_upd, Nat.eqb_refl. destruct (Nat.ltb_spec start (length l)); [reflexivity|lia].
      + rewrite nth_error_upd. replace (i =? start) with false by (symmetry; now apply Nat.eqb_neq). cbn [andb].
        destruct (Nat.leb_spec (Datatypes.S start) i), (Nat.leb_spec start i), (Nat.ltb_spec i (Datatypes.S start + length xs)), (Nat.ltb_spec i (start + Datatypes.S (length xs))); cbn [andb]; try lia; auto.
        replace (i - start) with (Datatypes.S (i - Datatypes.S start)) by lia. reflexivity. }
  destruct (G ws 0 (repeat 1%Qc n)) as [G1 G2]; [rewrite repeat_length; exact L|]. rewrite repeat_length in G1. split; [exact G1|].
  intros i Hi. rewrite G2. cbn [Nat.leb andb Nat.add]. rewrite Nat.sub_0_r. destruct (Nat.ltb_spec i (length ws)) as [Li|Li].
  - destruct (nth_error ws i) as [w|] eqn:E; [|apply nth_error_None in E; lia]. f_equal. symmetry. now apply nth_error_nth.
  - rewrite nth_overflow by exact Li. rewrite (nth_error_nth' _ 1%Qc) by (rewrite repeat_length; exact Hi). f_equal. apply nth_repeat.
Qed.
Lemma same_weights args : length (ta_weights args) <= length (ta_training_set args) -> file_weights args = weights_of args.
Proof.
  intros L. destruct (C69_weights args L) as [W1 W2]. apply nth_error_ext. intros i. destruct (Nat.lt_ge_cases i (length (ta_training_set args))) as [Li|Li].
  - rewrite (W2 i Li). unfold weights_of. rewrite nth_error_map, nth_error_seq. destruct (Nat.ltb_spec i (length (ta_training_set args))); [reflexivity|lia].
  - rewrite (proj2 (nth_error_None _ _)) by lia. symmetry. apply nth_error_None. unfold weights_of. rewrite map_length, seq_length. exact Li.
Qed.
Lemma same_schedule args u : options_of args u = schedule args u.
Proof. reflexivity. Qed.

(** A file of an earlier version, which has a vocabulary without unigram probabilities: the
    vocabulary keeps its words, their numbers and classes, the other words of the training
    files are added, and every word gets a probability. *)
Theorem C69_old_file args us (f : train_file) v vs fuel k : sentences (ta_training_set args) us -> reachable_vocab v -> v_unigram v = None ->
  f_vocabulary (tf_model f) = Some vs -> vocab_get_state v empty_vocab_state = Ok vs ->
  exists v' extra, let f' := snd (train_command fuel k args f) in
    vocabulary_in f' = Ok v' /\ NoDup (v_id_to_word v') /\
    v_id_to_word v' = v_id_to_word v ++ extra /\ (forall w, In w extra <-> In w (concat us) /\ ~ In w (v_id_to_word v)) /\
    v_w2c v' = v_w2c v /\ v_classes v' = v_classes v /\ v_unigram v' = Some (map (frequency (concat us)) (v_id_to_word v')) /\
    forall args', read_vocabulary args' f' = (Ok v', f').
Proof.
  intros Hs R U Hf Hg. destruct (read_old parse_int parse_float args us f v vs Hs R U Hf Hg) as (v' & vs' & extra & Er & Hv & N & H1 & H2 & H3 & H4 & H5).
  exists v', extra. cbv zeta.
  pose proof (command_vocab parse_int parse_float choice shuffle10 dropout_scale initial new_optimizer accepts update perplexity arch fuel k args _ _ _ Er) as C.
  cbn [tf_model f_vocabulary] in C. unfold vocabulary_in. rewrite C. do 7 (split; [assumption|]). intros args'. apply read_kept. split; [now rewrite C|congruence].
Qed.

(** ** The network *)
Variable a : architecture.
Variable d : option pystr.
Hypothesis V : valid a.
Hypothesis AM : at_most 10 a.
Hypothesis PN : plain_names a.
Hypothesis update_values : forall args ws n x lr b, other_values n (fst (update args ws n x lr b)).

(** All the commands have the same architecture and default device. (It may be impossible
    to read the architecture.) *)
Notation same_model := (same_model arch a d).
(** The language model that is loaded from the file, if there is one: its vocabulary is [v],
    and it is the network [n], whatever its initial values are. *)
Definition loads (f : train_file) (v : vocabulary) (n : network A) : Prop :=
  forall init exclude, exists b, from_file init d exclude (tf_model f) = Ok (mkModel v b (with_exclude_unk exclude n)) /\
    same_architecture (with_input_options v a) b.
Definition loads_nothing (f : train_file) : Prop := forall init exclude, exists e, from_file init d exclude (tf_model f) = Err e.

Notation inv := (inv parse_int dropout_scale a d).
Notation trained := (trained parse_int dropout_scale a d).
Lemma untrained_loads f v : has_vocab v f -> untrained f -> loads_nothing f.
Proof using.
  intros [Hv _] [U1 _ _ _ _] init exclude. unfold SavedModel.from_file. rewrite Hv, U1. cbn [bind]. eexists. reflexivity.
Qed.
Lemma no_file_loads : loads_nothing no_file.
Proof using. intros init exclude. eexists. reflexivity. Qed.
Lemma command_same fuel k args f v f1 : read_vocabulary args f = (Ok v, f1) -> has_vocab v f1 -> train_command fuel k args f = train_command fuel k args f1.
Proof using. intros R H. unfold TrainCommandModel.train_command. now rewrite R, (read_kept _ _ _ _ _ H). Qed.

(** A command after others *)
Lemma next_command f fuel k args us o f' : (f = no_file \/ exists v, inv v f) -> sentences (ta_training_set args) us -> same_model args ->
  train_command fuel k args f = (o, f') ->
  (f = no_file /\ f' = no_file /\ exists e e', o = Raised e /\ read_vocabulary args f = (Err e', no_file)) \/
  exists v f1, read_vocabulary args f = (Ok v, f1) /\ inv v f1 /\ (f = no_file \/ f = f1) /\ train_command fuel k args f1 = (o, f').
Proof using.
  intros H Hs Hm E. destruct H as [->|(v & Hv)].
  - destruct (read_new parse_int parse_float (A := A) (accum := accum) args us Hs) as [[N (e & R)]|[N (v & vs & R & Hv & Rv & U & D)]].
    + left. unfold TrainCommandModel.train_command in E. rewrite R in E. injection E as <- <-. split; [reflexivity|]. split; [reflexivity|]. eauto.
    + right. exists v, (mkTrainFile (SavedModel.mkFile (Some vs) None []) None None None). split; [exact R|].
      assert (Hv1 : has_vocab v (mkTrainFile (accum := accum) (@SavedModel.mkFile A (Some vs) None []) None None None)) by (split; [exact Hv|exact U]).
      split; [split; [exact Hv1|left; constructor; reflexivity]|]. split; [auto|]. now rewrite <- (command_same _ _ _ _ _ _ R Hv1).
  - right. exists v, f. destruct Hv as [Hv H]. split; [now apply read_kept|]. split; [split; assumption|]. auto.
Qed.
Lemma history_inv cs uss : Forall2 reads cs uss -> Forall (fun c => same_model (snd c)) cs -> forall f, (f = no_file \/ exists v, inv v f) ->
  snd (train_commands cs f) = no_file \/ exists v, inv v (snd (train_commands cs f)).
Proof using V PN update_values.
  intros H. induction H as [|[[fuel k] args] us cs uss Hc H IH]; intros Hm f Hf; [exact Hf|]. rewrite commands_cons. cbn [snd]. inversion Hm as [|x l Hm1 Hm2]; subst.
  apply IH; [exact Hm2|]. destruct (train_command fuel k args f) as [o f'] eqn:E. cbn [snd].
  destruct (next_command _ _ _ _ _ _ _ Hf Hc Hm1 E) as [(_ & -> & _)|(v & f1 & R & I & _ & E1)]; [auto|right]. exists v.
  exact (proj1 (command_inv parse_int parse_float choice shuffle10 dropout_scale initial new_optimizer accepts update perplexity arch a d V PN update_values _ _ _ _ _ _ _ Hm1 I E1)).
Qed.

(** After any commands, either no language model can be loaded from the file, or one can,
    with the vocabulary that is in the file. *)
Theorem C69_loaded cs uss : Forall2 reads cs uss -> Forall (fun c => same_model (snd c)) cs ->
  let f := snd (train_commands cs no_file) in
  loads_nothing f \/ exists v n, vocabulary_in f = Ok v /\ loads f v n.
Proof using V AM PN update_values.
  intros H Hm f. pose proof (history_inv _ _ H Hm no_file (or_introl eq_refl)) as Hist. fold f in Hist. destruct Hist as [E|(v & Hv & [U|(n & T)])].
  - left. rewrite E. apply no_file_loads.
  - left. eapply untrained_loads; eauto.
  - right. exists v, n. split; [apply Hv|]. intros init exclude. exact (trained_load parse_int dropout_scale a d V AM PN v n f Hv T init exclude).
Qed.

(** What one more command does with the network: either the file does not change (apart
    from the vocabulary of a new file), or the language model in the file is the network as
    it was at some time in the training of this command. *)
Theorem C69_saved cs uss fuel k args us o f' : Forall2 reads cs uss -> Forall (fun c => same_model (snd c)) cs ->
  sentences (ta_training_set args) us -> same_model args ->
  let f := snd (train_commands cs no_file) in
  train_command fuel k args f = (o, f') ->
  f' = snd (read_vocabulary args f) \/
  exists v f1 m u t0 j ph t, read_vocabulary args f = (Ok v, f1) /\ ~ bad_options args v /\ start fuel args v f1 = Ok (m, u, t0) /\
    j <= k /\ tsteps args u j (AtEpoch, t0) = Ok (ph, t) /\ loads f' v (t_params t).
Proof using V AM PN update_values.
  intros H Hm Hs Hn f E. pose proof (history_inv _ _ H Hm no_file (or_introl eq_refl)) as Hf. fold f in Hf.
  destruct (next_command _ _ _ _ _ _ _ Hf Hs Hn E) as [(_ & -> & e & e' & _ & R)|(v & f1 & R & I & _ & E1)]; [left; now rewrite R|].
  destruct (command_inv parse_int parse_float choice shuffle10 dropout_scale initial new_optimizer accepts update perplexity arch a d V PN update_values _ _ _ _ _ _ _ Hn I E1)
    as [I' [[-> _]|(m & u & t0 & n & j & ph & t & Hr & St & Lj & Sj & Et & T & _)]]; [left; now rewrite R|].
  right. exists v, f1, m, u, t0, j, ph, t. split; [exact R|]. split.
  { intros B. unfold refused in Hr. rewrite !orb_false_iff, !Nat.ltb_ge in Hr. unfold bad_options in B. lia. }
  rewrite same_schedule, same_weights in Sj by (unfold refused in Hr; rewrite !orb_false_iff, !Nat.ltb_ge in Hr; lia).
  split; [exact St|]. split; [exact Lj|]. split; [exact Sj|]. rewrite Et. intros init exclude. exact (trained_load parse_int dropout_scale a d V AM PN v n f' (proj1 I') T init exclude).
Qed.

(** The next command starts with the network that would be loaded from the file, or with a
    new network if there is none. *)
Theorem C69_continued cs uss fuel args v m u t0 : Forall2 reads cs uss -> Forall (fun c => same_model (snd c)) cs -> same_model args ->
  let f := snd (train_commands cs no_file) in
  vocabulary_in f = Ok v -> start fuel args v f = Ok (m, u, t0) ->
  t_params t0 = m_network m /\
  (forall init loaded, from_file init d false (tf_model f) = Ok loaded -> m_vocabulary loaded = v /\ m_network loaded = m_network m) /\
  (loads_nothing f -> build (initial args) d false a v = Ok (m_network m)).
Proof using V AM PN update_values.
  intros H Hm Hn f Hv St. pose proof (history_inv _ _ H Hm no_file (or_introl eq_refl)) as Hist. fold f in Hist. destruct Hist as [E|(v' & Hv' & Hf)].
  { rewrite E in Hv. discriminate Hv. }
  assert (v' = v) by (destruct Hv' as [Hv' _]; unfold vocabulary_in in Hv; congruence). subst v'.
  destruct (started parse_int choice shuffle10 dropout_scale initial new_optimizer accepts arch a d V PN fuel args v f Hn m u t0 St Hf) as (_ & _ & E3 & _ & n0 & B & _ & N1 & N2 & _).
  split; [exact E3|]. destruct Hf as [U|(n & T)].
  - split.
    + intros init loaded L. destruct (untrained_loads _ _ Hv' U init false) as (e & X). congruence.
    + intros _. rewrite N1; [exact B|apply U].
  - pose proof (trained_load parse_int dropout_scale a d V AM PN v n f Hv' T) as L. split.
    + intros init loaded L'. destruct (L init false) as (b & L1 & _). rewrite L' in L1. injection L1 as ->. cbn [m_vocabulary m_network]. split; [reflexivity|].
      rewrite (N2 n T). destruct T as [(i0 & nb & B0 & O & _) _ _ _]. exact (excluded_same parse_int dropout_scale a d _ _ _ _ B0 O).
    + intros X. destruct (X (initial args) false) as (e & X1). destruct (L (initial args) false) as (b & L1 & _). congruence.
Qed.

(** How training starts when no network has been saved: with the learning rate and the
    stopping criterion of the command, from the beginning of the data. *)
Theorem C69_started cs uss fuel args v m u t0 : Forall2 reads cs uss -> Forall (fun c => same_model (snd c)) cs -> same_model args ->
  let f := snd (train_commands cs no_file) in
  vocabulary_in f = Ok v -> start fuel args v f = Ok (m, u, t0) -> loads_nothing f ->
  exists it, trainer_data (choice args) (shuffle10 args) (ta_batch_size args) (ta_sequence_length args) fuel (ta_training_set args) (ta_sampling args) = Ok (u, it) /\
    initialize data_restore (m_network m) (new_optimizer args m) (ta_learning_rate args) it (stopper_of args) (TrainerModel.mkFile None None None None) = Ok t0.
Proof using V AM PN update_values.
  intros H Hm Hn f Hv St X. pose proof (history_inv _ _ H Hm no_file (or_introl eq_refl)) as Hist. fold f in Hist. destruct Hist as [E|(v' & Hv' & Hf)].
  { rewrite E in Hv. discriminate Hv. }
  assert (v' = v) by (destruct Hv' as [Hv' _]; unfold vocabulary_in in Hv; congruence). subst v'.
  destruct (started parse_int choice shuffle10 dropout_scale initial new_optimizer accepts arch a d V PN fuel args v f Hn m u t0 St Hf)
    as (_ & _ & E3 & _ & n0 & B & _ & N1 & N2 & it & m0 & D & M & I).
  destruct Hf as [U|(n & T)].
  - exists it. split; [exact D|]. rewrite (M (u_trainer _ U)), <- (N1 (u_trainer _ U)) in I. unfold trainer_view in I.
    rewrite (u_trainer _ U), (u_iter _ U), (u_optimizer _ U) in I. exact I.
  - destruct (X (initial args) false) as (e & X1). destruct (trained_load parse_int dropout_scale a d V AM PN v n f Hv' T (initial args) false) as (b & L1 & _). congruence.
Qed.

(** How training continues: a command that saves a network leaves in the file exactly what
    its trainer has in memory as the saved state when the command ends, and the next command
    is initialized with it, and with the learning rate, the data and the stopping criterion of
    its own arguments. (What follows from that is C36 and C68.) *)
Theorem C69_resumed cs uss fuel k args us o f' : Forall2 reads cs uss -> Forall (fun c => same_model (snd c)) cs ->
  sentences (ta_training_set args) us -> same_model args ->
  let f := snd (train_commands cs no_file) in
  train_command fuel k args f = (o, f') ->
  f' = snd (read_vocabulary args f) \/
  exists v f1 m u t0 j ph t, read_vocabulary args f = (Ok v, f1) /\ ~ bad_options args v /\ start fuel args v f1 = Ok (m, u, t0) /\
    tsteps args u j (AtEpoch, t0) = Ok (ph, t) /\
    (j = k /\ (forall e, o <> Raised e) \/ j < k /\ exists e, tstep args u (ph, t) = Err e /\ o = Raised e) /\
    forall fuel2 args2 m2 u2 t2, same_model args2 -> start fuel2 args2 v f' = Ok (m2, u2, t2) ->
      exists it2 p ac, trainer_data (choice args2) (shuffle10 args2) (ta_batch_size args2) (ta_sequence_length args2) fuel2 (ta_training_set args2) (ta_sampling args2) = Ok (u2, it2) /\
        initialize data_restore p ac (ta_learning_rate args2) it2 (stopper_of args2) (t_file t) = Ok t2.
Proof using V AM PN update_values.
  intros H Hm Hs Hn f E. pose proof (history_inv _ _ H Hm no_file (or_introl eq_refl)) as Hf. fold f in Hf.
  destruct (next_command _ _ _ _ _ _ _ Hf Hs Hn E) as [(_ & -> & e & e' & _ & R)|(v & f1 & R & I & _ & E1)]; [left; now rewrite R|].
  destruct I as [Hv Hc]. unfold TrainCommandModel.train_command in E1. rewrite (read_kept _ _ _ _ _ Hv) in E1.
  destruct (refused args v) eqn:Hr; [injection E1 as <- <-; left; now rewrite R|].
  destruct (start fuel args v f1) as [[[m u] t0]|] eqn:St; [|injection E1 as <- <-; left; now rewrite R].
  destruct (TrainCommandModel.run choice shuffle10 update perplexity args u k (AtEpoch, t0)) as [[ph t] failed] eqn:Rn.
  destruct (ended parse_int choice shuffle10 dropout_scale initial new_optimizer accepts update perplexity arch a d V PN update_values fuel args v f1 Hn m u t0 St Hc k ph t failed Rn)
    as (f2 & Es & Hsaved). rewrite Es in E1. injection E1 as <- <-.
  destruct Hsaved as [[-> _]|(n & j' & ph' & t' & _ & _ & _ & Ep & T & T1 & T2 & T3)]; [left; now rewrite R|]. right.
  assert (Lw : ~ bad_options args v /\ length (ta_weights args) <= length (ta_training_set args)).
  { unfold refused in Hr. rewrite !orb_false_iff, !Nat.ltb_ge in Hr. unfold bad_options. lia. }
  destruct Lw as [Nb Lw]. pose proof (run_steps choice shuffle10 update perplexity args u k _ _ _ Rn) as Rs. rewrite same_schedule, same_weights in Rs by exact Lw.
  assert (Q : forall fuel2 args2 m2 u2 t2, same_model args2 -> start fuel2 args2 v f2 = Ok (m2, u2, t2) ->
      exists it2 p ac, trainer_data (choice args2) (shuffle10 args2) (ta_batch_size args2) (ta_sequence_length args2) fuel2 (ta_training_set args2) (ta_sampling args2) = Ok (u2, it2) /\
        initialize data_restore p ac (ta_learning_rate args2) it2 (stopper_of args2) (t_file t) = Ok t2).
  { intros fuel2 args2 m2 u2 t2 Hn2 St2.
    destruct (started parse_int choice shuffle10 dropout_scale initial new_optimizer accepts arch a d V PN fuel2 args2 v f2 Hn2 m2 u2 t2 St2 (or_intror (ex_intro _ n T)))
      as (_ & _ & _ & _ & n0 & _ & _ & _ & N2 & it & m0 & D & _ & I2).
    exists it, n0, (new_optimizer args2 m0). split; [exact D|]. unfold trainer_view in I2. rewrite (N2 n T), T2, T3 in I2.
    destruct (tf_trainer f2) as [g|] eqn:Eg; [|destruct T; congruence]. rewrite T1, <- Ep in I2. destruct (t_file t). exact I2. }
  destruct Rs as [[Hfl S]|(e & j & Hfl & L & S & Fl)].
  - exists v, f1, m, u, t0, k, ph, t. split; [exact R|]. split; [exact Nb|]. split; [exact St|]. split; [exact S|]. split; [|exact Q].
    left. split; [reflexivity|]. rewrite Hfl. intros e. destruct ph; discriminate.
  - exists v, f1, m, u, t0, j, ph, t. split; [exact R|]. split; [exact Nb|]. split; [exact St|]. split; [exact S|]. split; [|exact Q].
    right. split; [exact L|]. exists e. rewrite Hfl. split; [exact Fl|reflexivity].
Qed.

(** What the command says at the end is true of the language model that is in the file. *)
Theorem C69_report cs uss fuel k args us r f' : Forall2 reads cs uss -> Forall (fun c => same_model (snd c)) cs ->
  sentences (ta_training_set args) us -> same_model args ->
  train_command fuel k args (snd (train_commands cs no_file)) = (Finished r, f') ->
  match r with
  | NotTrained => loads_nothing f'
  | Trained => ta_validation_file args = false /\ exists v n, loads f' v n
  | BestPerplexity p => ta_validation_file args = true /\ exists v n, loads f' v n /\ p = perplexity args n
  end.
Proof using V AM PN update_values.
  intros H Hm Hs Hn E. pose proof (history_inv _ _ H Hm no_file (or_introl eq_refl)) as Hf. set (f := snd (train_commands cs no_file)) in *.
  destruct (next_command _ _ _ _ _ _ _ Hf Hs Hn E) as [(_ & -> & e & e' & Ho & R)|(v & f1 & R & I & _ & E1)]; [discriminate|].
  destruct (command_inv parse_int parse_float choice shuffle10 dropout_scale initial new_optimizer accepts update perplexity arch a d V PN update_values _ _ _ _ _ _ _ Hn I E1)
    as [I' [[-> Hr]|(m & u & t0 & n & j & ph & t & _ & St & Lj & Sj & Et & T & Hr)]].
  - destruct (Hr r eq_refl) as (m & u & t0 & j & t & St & _ & _ & -> & Ep).
    destruct (started parse_int choice shuffle10 dropout_scale initial new_optimizer accepts arch a d V PN fuel args v f1 Hn m u t0 St (proj2 I)) as (_ & _ & _ & E4 & n0 & _ & _ & _ & N2 & _).
    unfold final_report. rewrite Ep, E4. destruct I as [Hv Hc]. destruct Hc as [U|(n & T)].
    + rewrite (u_trainer _ U). eapply untrained_loads; eauto.
    + rewrite (N2 n T). destruct (tf_trainer f1) eqn:Et; [|destruct T; congruence].
      assert (L : loads f1 v n) by (intros init exclude; exact (trained_load parse_int dropout_scale a d V AM PN v n f1 Hv T init exclude)).
      destruct (ta_validation_file args); (split; [reflexivity|]); eauto.
  - rewrite (Hr r eq_refl).
    assert (L : loads f' v n) by (intros init exclude; exact (trained_load parse_int dropout_scale a d V AM PN v n f' (proj1 I') T init exclude)).
    destruct (ta_validation_file args); (split; [reflexivity|]); eauto.
Qed.
End Props.
Print Assumptions C69_vocabulary.
Print Assumptions C69_refused.
Print Assumptions C69_weights.
Print Assumptions C69_old_file.
Print Assumptions C69_loaded.
Print Assumptions C69_saved.
Print Assumptions C69_continued.
Print Assumptions C69_started.
Print Assumptions C69_resumed.
Print Assumptions C69_report.
