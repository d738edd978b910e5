(** Properties of training with the optimizers. *)
From Coq Require Import Reals QArith Qcanon Qreals Lra FunctionalExtensionality String.
From Verif Require Import Base ListLib BaseLib QcLib Dict Strings TextModel VocabModel VocabSpec VocabProps LatticeExamples ArchModel ArchSpec ArchProps ParamModel ParamSpec ParamProofs NetModel NetReal NetExamples
  DeviceModel BuildModel BuildProps SavedModel SavedSpec SavedArrays SavedProps IterModel IterSpec IterWitness TrainerModel TrainerSpec TrainDataModel TrainDataProps
  TrainCommandModel TrainCommandSpec TrainCommandProofs TrainCommandVocab TrainCommandRuns TrainCommandProps TrainCommandCasesProps
  OptimizerModel OptimizerSpec OptimizerProps TrainOptimizerModel TrainOptimizerSpec TrainOptimizerProofs TrainOptimizerRuns.
Local Open Scope nat_scope.
Local Open Scope list_scope.

Section Props.
Variable parse_int : pystr -> result Z.
Variable parse_float : pystr -> result Qc.
Variable choice : train_args -> nat -> nat -> list nat -> nat -> bool -> list nat.
Variable shuffle10 : train_args -> nat -> list nat -> list nat.
Variable dropout_scale : option ArchModel.value -> result (num reals).
Variable initial : train_args -> pystr -> pystr -> nat -> nat -> nat -> num reals.
Variable perplexity : train_args -> rnetwork -> Qc.
Variable arch : train_args -> result architecture.
Variable view : vocab_view.
Variable class_of : nat -> nat.
Variable gradients : train_args -> rnetwork -> tdict -> list (list nat) -> list (list nat) -> list (list bool) -> list tensor.
Variable method_of : train_args -> method.
Variable opts_of : train_args -> OptimizerModel.options.
(** A gradient has the size of its parameter, and the limit of the norm is not negative. *)
Hypothesis Hgrad : forall args n d w c k, map (@length R) (gradients args n d w c k) = map (fun x => length (snd x)) d.
Hypothesis Hmax : forall args, (0 <= max_norm (opts_of args))%R.
Notation optimize := (optimize view class_of gradients method_of opts_of).
Notation start := (@TrainCommandModel.start reals opt_state parse_int choice shuffle10 dropout_scale initial (optimizer_of method_of) (accepted method_of) arch).
Notation read_vocabulary := (@TrainCommandModel.read_vocabulary reals opt_state parse_int parse_float).
Notation train_command := (@TrainCommandModel.train_command reals opt_state parse_int parse_float choice shuffle10 dropout_scale initial (optimizer_of method_of) (accepted method_of) optimize perplexity arch).
Notation train_commands := (@TrainCommandModel.train_commands reals opt_state parse_int parse_float choice shuffle10 dropout_scale initial (optimizer_of method_of) (accepted method_of) optimize perplexity arch).
Notation next_batch args := (data_next (choice args) (shuffle10 args) (ta_batch_size args) (ta_sequence_length args)).
Notation tsteps args u := (steps (next_batch args) (optimize args (weights_of args)) (perplexity args) data_save data_restore (schedule args u)).
Notation no_file := (@TrainCommandModel.no_file reals opt_state).
Notation real w := (Q2R (this w)).

(** The network [n'] and the optimizer state [x'] are what the optimization method of the
    command makes of [n] and [x] with the mini-batch [b]: nothing has failed, and from the
    values of the parameters and of the variables in [s] the update of OptimizerModel.v,
    whose rules are the subject of C38 and C39, has given those in [s']. Only the values
    have changed. *)
Definition updated_by (args : train_args) (n : rnetwork) (x : opt_state) (lr : Qc) (b : list sequence) (n' : rnetwork) (x' : opt_state) : Prop :=
  exists mb s s', batch_arrays view class_of (length (ta_training_set args)) b mb /\
    tensors n = net s /\ holds (method_of args) x s /\ well_formed (method_of args) s /\
    update_minibatch (gradients args n) (method_of args) (opts_of args) (map (fun w => real w) (weights_of args)) (real lr) mb s = Ok s' /\
    other_values n n' /\ tensors n' = net s' /\ holds (method_of args) x' s'.

Lemma weights_length args : length (weights_of args) = length (ta_training_set args).
Proof using. unfold weights_of. now rewrite map_length, seq_length. Qed.

(** One update *)
Theorem C78_update args n x lr b : distinct_parameters n -> fits n x -> complete (method_of args) x ->
  from_files (length (ta_training_set args)) b -> 0 < length (ta_training_set args) ->
  let '(n', x') := optimize args (weights_of args) n x lr b in
  updated_by args n x lr b n' x' /\ fits n' x' /\ complete (method_of args) x'.
Proof using Hgrad Hmax.
  intros D F C B P. rewrite <- (weights_length args) in B, P.
  destruct (optimize_update view class_of gradients method_of opts_of Hgrad Hmax args (weights_of args) n x lr b D F C B P) as (mb & s & E1 & E2 & E3 & E4).
  pose proof (optimize_kept view class_of gradients method_of opts_of Hgrad Hmax args (weights_of args) n x lr b D F C) as G.
  pose proof (optimize_values view class_of gradients method_of opts_of args (weights_of args) n x lr b) as O. rewrite E3 in *. cbn [fst] in O.
  destruct G as (G1 & G2 & _). split; [|auto]. exists mb, (store_of n x), s. rewrite <- weights_length. split; [now apply arrays_spec|]. split; [reflexivity|]. split.
  { destruct C as [C1 C2]. split.
    - intros k H. specialize (C1 k H). cbn [store_of aux]. destruct (os_aux x k); [reflexivity|contradiction].
    - intros H. specialize (C2 H). cbn [store_of timestep]. destruct (os_timestep x); [reflexivity|contradiction]. }
  split; [now apply store_wf|]. split; [exact E2|]. split; [exact O|]. split; [exact E4|]. split.
  - intros k H. unfold state_of. cbn [os_aux]. now rewrite (proj2 (has_kind_iff _ k) H).
  - intros ->. reflexivity.
Qed.

(** In terms of the elements of the parameters, for stochastic gradient descent: every element
    moves against its gradient, scaled by the learning rate and the limit of the norm. *)
Theorem C78_sgd args n x lr b n' x' : method_of args = SGD -> updated_by args n x lr b n' x' ->
  exists mb D, batch_arrays view class_of (length (ta_training_set args)) b mb /\
    let G := combine (map fst (tensors n)) (gradients args n (tensors n) (b_words mb) (b_classes mb) (tl (b_mask mb))) in
    (forall p i g, elem G p i g -> elem D p i (- g)%R) /\ same_shape (tensors n) D /\
    forall p i y g, elem (tensors n) p i y -> elem D p i g ->
      elem (tensors n') p i (y + real lr * (factor (opts_of args) (norm D) * g))%R.
Proof using Hgrad Hmax.
  intros M (mb & s & s' & E1 & E0 & _ & W & E2 & _ & E3 & _). rewrite M in *.
  destruct (C39_sgd (gradients args n) (Hgrad args n) (opts_of args) _ (Hmax args) _ _ _ _ W E2) as (D & HD & S1 & _ & S3).
  exists mb, D. split; [exact E1|]. cbn zeta. rewrite E0, E3. split; [exact HD|]. split; [exact S1|]. exact S3.
Qed.

(** The weights of the training files have no effect: a command with other weights, but the
    same in everything else (also in what is drawn at random), ends in the same way and leaves
    the same file. (See [C39_weights_refuted].) *)
Notation trun := (@TrainCommandModel.run reals opt_state choice shuffle10 optimize perplexity).
Definition with_weights (ws : list Qc) (args : train_args) : train_args :=
  mkArgs (ta_training_set args) (ta_vocabulary args) (ta_vocabulary_format args) (ta_num_classes args) ws (ta_sampling args) (ta_noise_samples args)
    (ta_batch_size args) (ta_sequence_length args) (ta_validation_file args) (ta_validation_frequency args) (ta_patience args) (ta_stopping_criterion args)
    (ta_max_epochs args) (ta_min_epochs args) (ta_max_annealing_count args) (ta_learning_rate args) (ta_default_device args) (ta_random_seed args).
Definition same_otherwise (args args' : train_args) : Prop :=
  choice args' = choice args /\ shuffle10 args' = shuffle10 args /\ initial args' = initial args /\ perplexity args' = perplexity args /\
  arch args' = arch args /\ gradients args' = gradients args /\ method_of args' = method_of args /\ opts_of args' = opts_of args.
Theorem C78_weights_refuted fuel k args ws f : length (ta_weights args) <= length (ta_training_set args) -> length ws <= length (ta_training_set args) ->
  same_otherwise args (with_weights ws args) ->
  train_command fuel k (with_weights ws args) f = train_command fuel k args f.
Proof using.
  intros L1 L2 (S1 & S2 & S3 & S4 & S5 & S6 & S7 & S8). set (args' := with_weights ws args) in *.
  assert (U : optimize args' (file_weights args') = optimize args (file_weights args)).
  { apply functional_extensionality; intros n. apply functional_extensionality; intros x. apply functional_extensionality; intros lr. apply functional_extensionality; intros b.
    assert (L : length (file_weights args') = length (file_weights args)).
    { rewrite (proj1 (C69_weights args L1)). exact (proj1 (C69_weights args' L2)). }
    unfold TrainOptimizerModel.optimize. rewrite S6, S7, S8, L. destruct (arrays_of view class_of (length (file_weights args)) b) as [mb|]; [|reflexivity]. cbn [bind].
    rewrite (C39_weights (gradients args n) (opts_of args) (map (fun w => real w) (file_weights args))) by (rewrite !map_length; exact L). reflexivity. }
  assert (W : refused args' = refused args).
  { apply functional_extensionality. intros v. unfold refused. cbn [args' with_weights ta_noise_samples ta_training_set ta_weights ta_sampling].
    destruct (Nat.ltb_spec (length (ta_training_set args)) (length ws)); [lia|]. destruct (Nat.ltb_spec (length (ta_training_set args)) (length (ta_weights args))); [lia|]. reflexivity. }
  unfold TrainCommandModel.train_command. change (read_vocabulary args') with (read_vocabulary args). destruct (read_vocabulary args f) as [[v|e] f1]; [|reflexivity].
  rewrite W. destruct (refused args v); [reflexivity|].
  assert (St : start fuel args' v f1 = start fuel args v f1).
  { unfold TrainCommandModel.start, data_of, accepted, optimizer_of. rewrite S1, S2, S3, S5, S7. reflexivity. }
  rewrite St. destruct (start fuel args v f1) as [[[m u] t0]|e]; [|reflexivity].
  assert (Rn : forall k' y, trun args' u k' y = trun args u k' y).
  { induction k' as [|k' IH]; intros y; [reflexivity|]. cbn [TrainCommandModel.run]. rewrite U, S1, S2, S4. change (TrainCommandModel.options_of args' u) with (TrainCommandModel.options_of args u).
    change (ta_batch_size args') with (ta_batch_size args). change (ta_sequence_length args') with (ta_sequence_length args).
    destruct (step _ _ _ _ _ _ y) as [y'|]; [apply IH|reflexivity]. }
  rewrite Rn. unfold final_report. rewrite S4. reflexivity.
Qed.

(** ** Commands *)
Variable a : architecture.
Variable d : option pystr.
Hypothesis V : valid a.
Hypothesis AM : at_most 10 a.
Hypothesis PN : plain_names a.
Notation same_model := (same_model arch a d).
Notation loads := (@TrainCommandProps.loads reals opt_state parse_int dropout_scale a d).
Notation loads_nothing := (@TrainCommandProps.loads_nothing reals opt_state parse_int dropout_scale d).

(** Commands that the model describes: the sentences of the training files, the same network
    in every command, and no second save in place with Adam, which would raise an exception
    (see [C78_adam_save_refuted]). *)
Definition modelled (args : train_args) : Prop :=
  (exists us, sentences (ta_training_set args) us) /\ same_model args /\ (method_of args = Adam -> ta_validation_file args = true).
Notation history := (Forall (fun c : nat * nat * train_args => modelled (snd c))).

Lemma history_some cs : history cs -> Forall reads_some cs /\ Forall (fun c => same_model (snd c)) cs /\ exists uss, Forall2 reads cs uss.
Proof using.
  induction 1 as [|c cs ((us & H1) & H2 & _) F (I1 & I2 & uss & I3)]; [split; [constructor|split; [constructor|exists []; constructor]]|].
  split; [constructor; [exists us; exact H1|exact I1]|]. split; [constructor; assumption|]. exists (us :: uss). now constructor.
Qed.
Notation values := (fun args ws n x lr b => optimize_values view class_of gradients method_of opts_of args ws n x lr b).
Lemma history_states (Q : opt_state -> Prop) cs : history cs -> Forall (fun c => allowed method_of Q (snd c)) cs ->
  snd (train_commands cs no_file) = no_file \/ exists v, inv2 parse_int dropout_scale a d Q v (snd (train_commands cs no_file)).
Proof using Hgrad Hmax V PN.
  intros H HK. destruct (history_some _ H) as (H1 & H2 & _).
  apply (history_inv2 parse_int parse_float choice shuffle10 dropout_scale initial perplexity arch view class_of gradients method_of opts_of Hgrad Hmax a d V PN Q cs H1 H2 HK). now left.
Qed.
Lemma any_allowed args : allowed method_of (fun _ => True) args.
Proof using. split; auto. Qed.

(** After any commands with any optimizers, every update that the next command makes is that
    of its optimization method, in every state of its training: the optimizer has its
    variables, they fit the network, and no update fails. *)
Theorem C78_reachable cs fuel args v m u t0 j ph t b it : history cs -> modelled args ->
  let f := snd (train_commands cs no_file) in
  vocabulary_in f = Ok v -> ~ bad_options args v -> start fuel args v f = Ok (m, u, t0) ->
  tsteps args u j (AtEpoch, t0) = Ok (ph, t) ->
  fits (t_params t) (t_accum t) /\ complete (method_of args) (t_accum t) /\
  (next_batch args (t_iter t) = (Some b, it) -> 
   let '(n', x') := optimize args (weights_of args) (t_params t) (t_accum t) (t_lr t) b in
   updated_by args (t_params t) (t_accum t) (t_lr t) b n' x').
Proof using Hgrad Hmax V PN.
  intros H (_ & Hm & _) f Hv Nb St S. destruct (history_states (fun _ => True) cs H) as [E|(v' & I)].
  { apply Forall_forall. intros. apply any_allowed. }
  { fold f in E. rewrite E in Hv. discriminate Hv. }
  fold f in I. assert (v' = v) by (destruct I as [[X _] _]; unfold vocabulary_in in Hv; congruence). subst v'.
  assert (Lw : length (ta_weights args) <= length (ta_training_set args)) by (unfold bad_options in Nb; lia).
  rewrite <- same_schedule, <- same_weights in S by exact Lw.
  pose proof (start_reached parse_int choice shuffle10 dropout_scale initial arch method_of a d V PN (fun _ => True) fuel args v f m u t0 Hm I (any_allowed args) St) as R0.
  pose proof (steps_reached choice shuffle10 perplexity view class_of gradients method_of opts_of Hgrad Hmax (fun _ => True) args u j _ _ _ _ (any_allowed args) R0 S) as [(D & F & C & _) Hi _ _].
  split; [exact F|]. split; [exact C|]. intros N. destruct (next_files _ _ _ _ _ _ _ _ Hi N) as [_ B]. specialize (B b eq_refl).
  assert (P : 0 < length (ta_training_set args)).
  { revert St. unfold TrainCommandModel.start. destruct (data_of _ _ _ _) as [[u' it0]|] eqn:Ed; [|discriminate]. intros _. unfold data_of in Ed. exact (proj2 (data_files _ _ _ _ _ _ _ _ _ Ed)). }
  pose proof (C78_update args (t_params t) (t_accum t) (t_lr t) b D F C B P) as G. destruct (optimize _ _ _ _ _ b). apply G.
Qed.

(** What can be loaded after any commands with any optimizers *)
Theorem C78_loaded cs : history cs ->
  let f := snd (train_commands cs no_file) in
  loads_nothing f \/ exists v n, vocabulary_in f = Ok v /\ loads f v n.
Proof using V AM PN.
  intros H. destruct (history_some _ H) as (_ & H2 & uss & H3).
  exact (C69_loaded parse_int parse_float choice shuffle10 dropout_scale initial (optimizer_of method_of) (accepted method_of) optimize perplexity arch a d V AM PN values cs uss H3 H2).
Qed.
(** The language model that is in the file after one more command is either what was there or
    the network as it was at some time in the training. *)
Theorem C78_saved cs fuel k args o f' : history cs -> modelled args ->
  let f := snd (train_commands cs no_file) in
  train_command fuel k args f = (o, f') ->
  f' = snd (read_vocabulary args f) \/
  exists v f1 m u t0 j ph t, read_vocabulary args f = (Ok v, f1) /\ ~ bad_options args v /\ start fuel args v f1 = Ok (m, u, t0) /\
    j <= k /\ tsteps args u j (AtEpoch, t0) = Ok (ph, t) /\ loads f' v (t_params t).
Proof using V AM PN.
  intros H ((us & Hs) & Hm & _). destruct (history_some _ H) as (_ & H2 & uss & H3).
  exact (C69_saved parse_int parse_float choice shuffle10 dropout_scale initial (optimizer_of method_of) (accepted method_of) optimize perplexity arch a d V AM PN values cs uss fuel k args us o f' H3 H2 Hs Hm).
Qed.

(** A command whose optimizer has variables of a kind that the optimizers of the earlier
    commands do not have cannot continue the training: it raises an exception (or exits because
    of its options), and the file stays as it is. *)
Theorem C78_switch cs args fuel k kd : history cs -> modelled args ->
  let f := snd (train_commands cs no_file) in
  ~ loads_nothing f -> uses (method_of args) kd -> (forall c, In c cs -> ~ uses (method_of (snd c)) kd) ->
  exists o, train_command fuel k args f = (o, f) /\ (o = Exited \/ exists e, o = Raised e).
Proof using Hgrad Hmax V PN.
  intros H (_ & Hm & _) f NL U NU. destruct (history_states (fun x => os_aux x kd = None) cs H) as [E|(v & I)].
  { apply Forall_forall. intros c Hc. assert (B : has_kind (method_of (snd c)) kd = false).
    { destruct (has_kind (method_of (snd c)) kd) eqn:B; [|reflexivity]. apply has_kind_iff in B. contradiction (NU c Hc B). }
    split; [intros n|intros s x Hx]; cbn [created state_of os_aux]; rewrite B; [reflexivity|]. now destruct (negb _). }
  { exfalso. apply NL. unfold f. rewrite E. apply no_file_loads. }
  fold f in I. pose proof I as [Hv Hf]. destruct Hf as [Un|(n & T & Hx)].
  { exfalso. apply NL. eapply untrained_loads; eauto. }
  unfold TrainCommandModel.train_command. rewrite (read_kept _ _ _ _ _ Hv). destruct (refused args v); [eexists; split; [reflexivity|auto]|].
  destruct (start fuel args v f) as [[[m u] t0]|e] eqn:St; [exfalso|eexists; split; [reflexivity|eauto]].
  destruct (start_accepts _ _ _ _ _ _ _ _ _ _ _ _ _ _ St (tr_trainer _ _ _ _ _ _ _ T)) as (Ac & l & Eo).
  apply has_variables_iff in Ac as [C _]. exact (C kd U (proj2 (Hx _ _ Eo))).
Qed.

(** A command whose optimizer needs no other variables than those that all the optimizers of
    the earlier commands have is not refused because of them: the training starts as if the
    file was not checked. *)
Notation unchecked_start := (@TrainCommandModel.start reals opt_state parse_int choice shuffle10 dropout_scale initial (optimizer_of method_of) (fun _ _ => true) arch).
Theorem C78_same_optimizer cs args fuel v : history cs -> 
  (forall c, In c cs -> (forall k, uses (method_of args) k -> uses (method_of (snd c)) k) /\ (method_of args = Adam -> method_of (snd c) = Adam)) ->
  let f := snd (train_commands cs no_file) in
  vocabulary_in f = Ok v -> start fuel args v f = unchecked_start fuel args v f.
Proof using Hgrad Hmax V PN.
  intros H HI f Hv. destruct (history_states (complete (method_of args)) cs H) as [E|(v' & I)].
  { apply Forall_forall. intros c Hc. destruct (HI c Hc) as [I1 I2]. split; [intros n|intros s x Hx]; split.
    - intros k U. apply (proj1 (created_complete _ _)). auto.
    - intros M. apply (proj2 (created_complete _ _)). auto.
    - intros k U. cbn [state_of os_aux]. now rewrite (proj2 (has_kind_iff _ k) (I1 k U)).
    - intros M. cbn [state_of os_timestep]. now rewrite (I2 M). }
  { fold f in E. rewrite E in Hv. discriminate Hv. }
  fold f in I. destruct (start_unchecked parse_int choice shuffle10 dropout_scale initial arch method_of fuel args v f) as [-> O].
  destruct (unchecked_start fuel args v f) as [[[m u] t0]|e]; [|reflexivity]. cbn [bind]. destruct (tf_trainer f) eqn:Et; [|reflexivity].
  destruct (O _ _ _ eq_refl ltac:(congruence)) as (l & Eo). destruct I as [_ [U|(n & T & Hx)]]; [destruct U; congruence|].
  destruct (Hx _ _ Eo) as [_ C]. unfold accepted. now rewrite (proj2 (has_variables_iff _ _) C).
Qed.
End Props.
Print Assumptions C78_same_optimizer.
Print Assumptions C78_update.
Print Assumptions C78_sgd.
Print Assumptions C78_weights_refuted.
Print Assumptions C78_reachable.
Print Assumptions C78_loaded.
Print Assumptions C78_saved.
Print Assumptions C78_switch.

(** ** What is not true *)

(** The expectation that the state of a training can be saved in the same file again and again
    is false: when the state of Adam is in a file, saving any later state of Adam there raises
    an exception. (Training without a validation set saves the state in place after every epoch,
    so with Adam it ends after the second one.) *)
Lemma replaced_get {A} p q (y z : A) : forall d, ParamModel.dict_get p d = Some z -> q <> p -> ParamModel.dict_get p (ParamModel.dict_replace q y d) = Some z.
Proof.
  induction d as [|[r w] d IH]; cbn [ParamModel.dict_get ParamModel.dict_replace]; [discriminate|]. intros E N. destruct (pystr_eqb_spec r q) as [->|Nq]; cbn [ParamModel.dict_get].
  - destruct (pystr_eqb_spec q p); [contradiction|exact E].
  - destruct (pystr_eqb_spec r p); [exact E|auto].
Qed.
Lemma appended_get {A} p (y : A) e : forall d, ParamModel.dict_get p d = Some y -> ParamModel.dict_get p (d ++ e) = Some y.
Proof. induction d as [|[r w] d IH]; cbn [ParamModel.dict_get app]; [discriminate|]. destruct (pystr_eqb r p); auto. Qed.
Lemma appended_new {A} p (y : A) : forall d, ParamModel.dict_get p d = None -> ParamModel.dict_get p (d ++ [(p, y)]) = Some y.
Proof.
  induction d as [|[r w] d IH]; cbn [ParamModel.dict_get app]; [intros _; now destruct (pystr_eqb_spec p p)|].
  destruct (pystr_eqb r p); [discriminate|exact IH].
Qed.
Lemma keeps_scalar p y s v s' : ParamModel.dict_get p s = Some y -> a_shape y = [] -> @store_parameter R s v = Ok s' -> ParamModel.dict_get p s' = Some y.
Proof.
  intros G E. unfold store_parameter. destruct v as [q z]. destruct (ParamModel.dict_get q s) as [old|] eqn:Eq.
  - unfold assign. destruct (a_shape old) eqn:Es; [discriminate|]. destruct (list_eq_dec _ _ _); [|discriminate]. cbn [bind]. intros [= <-].
    apply replaced_get; [exact G|]. intros ->. congruence.
  - intros [= <-]. now apply appended_get.
Qed.
Lemma keeps_scalars p y vs : forall s s', ParamModel.dict_get p s = Some y -> a_shape y = [] -> foldM (@store_parameter R) vs s = Ok s' -> ParamModel.dict_get p s' = Some y.
Proof.
  induction vs as [|v vs IH]; cbn [foldM]; intros s s' G E; [intros [= <-]; exact G|].
  destruct (store_parameter s v) as [s0|] eqn:S; cbn [bind]; [|discriminate]. apply IH; [|exact E]. eapply keeps_scalar; eauto.
Qed.
Theorem C78_adam_save_refuted lr x lr' x' s s1 : os_timestep x <> None -> os_timestep x' <> None ->
  save_optimizer Adam lr x s = Ok s1 -> save_optimizer Adam lr' x' s1 = Err TypeError.
Proof.
  unfold save_optimizer, optimizer_get_state, ParamModel.get_state, variables. cbn [is_adam p_vars].
  destruct (os_timestep x) as [t|]; [intros _|congruence]. destruct (os_timestep x') as [t'|]; [intros _|congruence].
  cbn [app foldM]. set (rest := flat_map _ _). set (rest' := flat_map _ _).
  destruct (store_parameter (h_data s) (timestep_path, mkArray [] [INR t])) as [s0|] eqn:E0; cbn [bind]; [|discriminate].
  destruct (foldM store_parameter rest s0) as [d|] eqn:E1; cbn [bind]; [|discriminate]. intros [= <-]. cbn [h_data].
  assert (G0 : ParamModel.dict_get timestep_path s0 = Some (mkArray [] [INR t])).
  { unfold store_parameter in E0. destruct (ParamModel.dict_get timestep_path (h_data s)) as [old|] eqn:Eg.
    - unfold assign in E0. exfalso. destruct (a_shape old) as [|n0 l0]; [discriminate E0|]. cbn [a_shape] in E0. destruct (list_eq_dec Nat.eq_dec (n0 :: l0) []) as [Z|Z]; [discriminate Z|discriminate E0].
    - injection E0 as <-. now apply appended_new. }
  pose proof (keeps_scalars _ _ _ _ _ G0 eq_refl E1) as G. unfold store_parameter at 1. rewrite G. reflexivity.
Qed.
Print Assumptions C78_adam_save_refuted.
Example C78_adam_save_case : exists s1, save_optimizer Adam 1 (mkOptState (fun _ => Some [(str "layers/h/W", [1; 2]%R)]) (Some 1)) (mkH5 [] None) = Ok s1.
Proof. eexists. reflexivity. Qed.

(** With the other optimizers a state can be saved in place any number of times, and after
    that the file has the variables of the last one. *)
Definition shape_of (v : pystr * array R) : pystr * list nat := (fst v, a_shape (snd v)).
Definition shapes (m : method) (n : rnetwork) : list (pystr * list nat) :=
  flat_map (fun kx => map (fun v => (fst v ++ suffix (fst kx), [length (snd v)])) (tensors n)) (kinds m).
Lemma variables_shapes m n x : m <> Adam -> fits n x -> complete m x -> map shape_of (variables m x) = shapes m n.
Proof.
  intros N F [C _]. unfold variables, shapes. replace (is_adam m) with false by (destruct m; [reflexivity..|contradiction]). cbn [app].
  assert (C' : forall k z, In (k, z) (kinds m) -> os_aux x k <> None) by (intros k z I; apply C; exists z; exact I). clear C.
  induction (kinds m) as [|[k z] ks IH]; [reflexivity|]. cbn [flat_map fst]. rewrite map_app. f_equal; [clear IH|apply IH; intros k' z' I; apply (C' k' z'); now right].
  destruct (os_aux x k) as [d|] eqn:E; [|exfalso; apply (C' k z); [now left|exact E]]. specialize (F k d E). clear -F.
  induction F as [|[p t] [q t'] d1 d2 [H1 H2] F IH]; [reflexivity|]. cbn in H1, H2. subst q. cbn [map]. rewrite IH. unfold shape_of, flat. cbn. now rewrite H2.
Qed.
Lemma suffix_other k k' p q : k <> k' -> p ++ suffix k <> q ++ suffix k'.
Proof.
  intros N E. apply (f_equal (@rev _)) in E. rewrite !rev_app_distr in E.
  destruct k, k'; try contradiction; cbn in E; discriminate E.
Qed.
Lemma shapes_dict m n : distinct_parameters n -> NoDup (map fst (shapes m n)).
Proof.
  intros D. unfold distinct_parameters in D. rewrite <- tensors_paths in D. unfold shapes.
  assert (one : forall k, NoDup (map fst (map (fun v : pystr * tensor => (fst v ++ suffix k, [length (snd v)])) (tensors n)))).
  { intros k. rewrite map_map. cbn [fst]. rewrite <- (map_map fst (fun p => p ++ suffix k)). apply FinFun.Injective_map_NoDup; [|exact D].
    intros p q E. exact (app_inv_tail _ _ _ E). }
  assert (Kn : NoDup (map fst (kinds m))) by (destruct m; cbn; repeat constructor; cbn; intuition congruence).
  induction (kinds m) as [|[k z] ks IH]; [constructor|]. cbn [flat_map fst]. rewrite map_app. inversion Kn as [|? ? K1 K2]; subst.
  apply NoDup_app_iff. split; [apply one|]. split; [apply IH, K2|]. intros q H1 H2. rewrite map_map in H1. cbn [fst] in H1. apply in_map_iff in H1 as (v & <- & _).
  apply in_map_iff in H2 as (w & E & H2). apply in_flat_map in H2 as ([k' z'] & I & H2). apply in_map_iff in H2 as (v' & <- & _). cbn [fst] in E.
  revert E. apply suffix_other. intros ->. apply K1. exact (in_map fst _ _ I).
Qed.
Lemma saved_overwritten vs : forall s s', is_dict vs -> is_dict s -> foldM (@store_parameter R) vs s = Ok s' -> overwritten vs s s'.
Proof.
  induction vs as [|[p y] vs IH]; intros s s' Dv Ds; cbn [foldM]; [intros [= <-]; now apply overwritten_nil|].
  destruct (dict_cons_inv _ _ Dv) as [Dv' Dj]. destruct (store_parameter s (p, y)) as [s1|] eqn:E; cbn [bind]; [|discriminate]. intros E2.
  assert (O1 := store_parameter_overwritten _ _ _ _ Ds E). exact (overwritten_app [(p, y)] vs s s1 s' Dj O1 (IH s1 s' Dv' (proj1 O1) E2)).
Qed.
Theorem C78_save_again m n x x' lr lr' s s1 : m <> Adam -> distinct_parameters n ->
  fits n x -> complete m x -> fits n x' -> complete m x' -> is_dict (h_data s) ->
  save_optimizer m lr x s = Ok s1 ->
  exists s2, save_optimizer m lr' x' s1 = Ok s2 /\ h_optimizer s2 = Some (Some lr') /\ overwritten (variables m x') (h_data s1) (h_data s2).
Proof.
  intros N D F C F' C' Ds. pose proof (variables_shapes m n x N F C) as S. pose proof (variables_shapes m n x' N F' C') as S'.
  assert (dict : forall y, map shape_of (variables m y) = shapes m n -> is_dict (variables m y)).
  { intros y E. unfold is_dict, paths. replace (map fst (variables m y)) with (map fst (map shape_of (variables m y))) by now rewrite map_map.
    rewrite E. now apply shapes_dict. }
  pose proof (dict x S) as D1. pose proof (dict x' S') as D2. clear dict.
  unfold save_optimizer, optimizer_get_state, ParamModel.get_state. cbn [p_vars].
  destruct (foldM store_parameter (variables m x) (h_data s)) as [d|] eqn:E; [|discriminate]. cbn [bind]. intros [= <-]. cbn [h_data].
  pose proof (saved_overwritten _ _ _ D1 Ds E) as O.
  destruct (get_state_spec (variables m x') d D2 (proj1 O)) as [G1' _].
  assert (W : writable (variables m x') d).
  { intros q y b Hy Hb. assert (Sy : In (q, a_shape y) (shapes m n)) by (rewrite <- S'; exact (in_map shape_of _ _ Hy)).
    rewrite <- S in Sy. apply in_map_iff in Sy as ([q' y'] & Ey & Hy'). unfold shape_of in Ey. cbn [fst snd] in Ey. injection Ey as -> Ey.
    apply (proj2 O) in Hb as [Hb|[_ Nb]]; [|exfalso; apply Nb; exact (in_map fst _ _ Hy')].
    pose proof (in_unique _ _ _ _ D1 Hb Hy') as ->. split; [exact Ey|]. clear -Hy' N. unfold variables in Hy'.
    replace (is_adam m) with false in Hy' by (destruct m; [reflexivity..|contradiction]). apply in_flat_map in Hy' as (kx & _ & I).
    destruct (os_aux x (fst kx)); [|destruct I]. apply in_map_iff in I as (v & [= _ <-] & _). discriminate. }
  destruct (G1' W) as (d2 & -> & O2). eexists. split; [reflexivity|]. split; [reflexivity|exact O2].
Qed.
Print Assumptions C78_save_again.

(** ** A case *)

(** The optimizer of a command is chosen by the number of noise samples. The gradient is
    two for every element. *)
Definition cs_method (args : train_args) : method := match ta_noise_samples args with 0 => RMSPropNesterov | 1 => SGD | 2 => Nesterov | _ => Adam end.
Definition cs_gradients (args : train_args) (n : rnetwork) := two.
Definition cs_view : vocab_view := mkView (fun _ => Some 0) (fun _ => true) 0.
Definition cs_arch (args : train_args) : result architecture := Ok (ex_described ex_arch_lines).
Definition cs_scale (v : option ArchModel.value) : result (num reals) := Ok (1%R : num reals).
Definition cs_initial (args : train_args) (p k : pystr) (i j l : nat) : num reals := (0%R : num reals).
Definition cs_commands := @train_commands reals opt_state ex_int ex_float (fun _ => cyc_choice) (fun _ => id_shuffle) cs_scale cs_initial
  (optimizer_of cs_method) (accepted cs_method) (optimize cs_view (fun w => w) cs_gradients cs_method (fun _ => unit_options)) (fun _ _ => 1%Qc) cs_arch.
Definition cs_start := @start reals opt_state ex_int (fun _ => cyc_choice) (fun _ => id_shuffle) cs_scale cs_initial
  (optimizer_of cs_method) (accepted cs_method) cs_arch.
(** Nesterov momentum with RMSProp; stochastic gradient descent *)
Definition cs_history : list (nat * nat * train_args) :=
  [(100, 1000, ex_args None None 0 [] true); (100, 1000, ex_args None None 1 [] false)].
Lemma cs_modelled noise validate : (noise <= 2 \/ validate = true) -> modelled cs_arch cs_method (ex_described ex_arch_lines) None (ex_args None None noise [] validate).
Proof.
  intros H. split; [apply sentences_exist|]. split; [split; [reflexivity|intros b E; injection E as E; exact (eq_sym E)]|].
  cbn. destruct noise as [|[|[|]]]; try discriminate. intros _. destruct H; [lia|assumption].
Qed.
Example C78_case : Forall (fun c => modelled cs_arch cs_method (ex_described ex_arch_lines) None (snd c)) cs_history /\
  valid (ex_described ex_arch_lines) /\ at_most 10 (ex_described ex_arch_lines) /\ plain_names (ex_described ex_arch_lines) /\
  (forall args n d w c k, map (@length R) (cs_gradients args n d w c k) = map (fun x => length (snd x)) d) /\ (0 <= max_norm unit_options)%R.
Proof.
  split; [repeat constructor; apply cs_modelled; auto|].
  split; [apply ex_valid_ok; vm_compute; reflexivity|]. split; [apply ex_ten_ok; vm_compute; reflexivity|]. split; [apply ex_plain_ok; vm_compute; reflexivity|].
  split; [intros args n; apply two_shape|cbn; lra].
Qed.
(** The training goes on with Nesterov momentum, whose variables the first command has
    written: the first command saves the groups anew, the second in place. It could not with
    Adam. *)
Definition cs_file := snd (cs_commands cs_history (@no_file reals opt_state)).
Definition cs_starts (noise : nat) : result (bool * bool) :=
  do v <- vocabulary_in cs_file; do '(m, u, t0) <- cs_start 100 (ex_args None None noise [] true) v cs_file;
  Ok (refused (ex_args None None noise [] true) v, match data_next cyc_choice id_shuffle 1 None (t_iter t0) with (Some b, it) => true | _ => false end).
Example C78_reachable_case : cs_starts 2 = Ok (false, true) /\ cs_starts 3 = Err IncompatibleStateError.
Proof. vm_compute. auto. Qed.
(** Adam needs variables that the optimizers of the history do not have; stochastic gradient
    descent does not need any, and Nesterov momentum only one that RMSProp with Nesterov
    momentum has. *)
Example C78_switch_case : let args := ex_args None None 3 [] true in
  uses (cs_method args) MeanGradient /\ (forall c, In c cs_history -> ~ uses (cs_method (snd c)) MeanGradient) /\
  match tf_trainer cs_file with Some _ => True | None => False end.
Proof.
  cbn zeta. split; [exists 0%R; now left|]. split; [|vm_compute; exact I].
  intros c [<-|[<-|[]]] (x & H); cbn in H; intuition congruence.
Qed.
Example C78_same_optimizer_case : let args := ex_args None None 2 [] true in let cs := [(100, 1000, ex_args None None 0 [] true)] in
  (forall c, In c cs -> (forall k, uses (cs_method args) k -> uses (cs_method (snd c)) k) /\ (cs_method args = Adam -> cs_method (snd c) = Adam)) /\
  exists k, uses (cs_method args) k.
Proof.
  cbn zeta. split; [|exists Velocity, 0%R; now left]. intros c [<-|[]]. split; [|discriminate]. intros k (x & H). cbn in H. destruct H as [[= <- <-]|[]].
  exists 0%R. right. now left.
Qed.
