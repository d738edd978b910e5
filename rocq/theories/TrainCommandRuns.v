(** Train commands that are run one after another. *)
From Coq Require Import QArith Qcanon.
From Verif Require Import Base ListLib BaseLib QcLib Dict Strings VocabModel VocabSpec VocabProps
  ArchModel ArchSpec ArchProps ParamModel ParamSpec NetModel DeviceModel BuildModel SavedModel SavedSpec SavedArrays SavedBuild SavedNetwork SavedProofs SavedProps
  IterModel IterSpec TrainerModel TrainerSpec TrainerRuns TrainerProps TrainDataModel TrainCommandModel TrainCommandSpec TrainCommandProofs TrainCommandVocab.
Local Open Scope nat_scope.

Section Runs.
Context {A : arith} {accum : Type}.
Notation num := (num A).
Notation train_file := (train_file A accum).
Variable parse_int : pystr -> result Z.
Variable parse_float : pystr -> result Qc.
Variable choice : train_args -> nat -> nat -> list nat -> nat -> bool -> list nat.
Variable shuffle10 : train_args -> nat -> list nat -> list nat.
Variable dropout_scale : option ArchModel.value -> result num.
Variable initial : train_args -> pystr -> pystr -> nat -> nat -> nat -> num.
Variable new_optimizer : train_args -> model A -> accum.
Variable accepts : train_args -> accum -> bool.
Variable update : train_args -> list Qc -> network A -> accum -> Qc -> list sequence -> network A * accum.
Variable perplexity : train_args -> network A -> Qc.
Variable arch : train_args -> result architecture.
Notation read_vocabulary := (@TrainCommandModel.read_vocabulary A accum parse_int parse_float).
Notation start := (@TrainCommandModel.start A accum parse_int choice shuffle10 dropout_scale initial new_optimizer accepts arch).
Notation run := (@TrainCommandModel.run A accum choice shuffle10 update perplexity).
Notation train_command := (@TrainCommandModel.train_command A accum parse_int parse_float choice shuffle10 dropout_scale initial new_optimizer accepts update perplexity arch).
Notation train_commands := (@TrainCommandModel.train_commands A accum parse_int parse_float choice shuffle10 dropout_scale initial new_optimizer accepts update perplexity arch).
Notation build := (build parse_int dropout_scale).
Notation from_file := (SavedModel.from_file parse_int dropout_scale).
Notation tsteps args u := (steps (data_next (choice args) (shuffle10 args) (ta_batch_size args) (ta_sequence_length args))
  (update args (file_weights args)) (perplexity args) data_save data_restore (options_of args u)).
Notation tstep args u := (step (data_next (choice args) (shuffle10 args) (ta_batch_size args) (ta_sequence_length args))
  (update args (file_weights args)) (perplexity args) data_save data_restore (options_of args u)).

(** ** The vocabulary *)
Definition has_vocab (v : vocabulary) (f : train_file) : Prop := vocab_from_state (f_vocabulary (tf_model f)) = Ok v /\ v_unigram v <> None.

Lemma read_kept args v f : has_vocab v f -> read_vocabulary args f = (Ok v, f).
Proof.
  intros [H U]. unfold TrainCommandModel.read_vocabulary. cbv zeta.
  replace (has_keys f) with true by (unfold has_keys; destruct (f_vocabulary (tf_model f)); [reflexivity|discriminate H]).
  rewrite H. destruct (v_unigram v); [reflexivity|congruence].
Qed.
Lemma saved_vocab (f : train_file) m t f' : saved_file f m t = Ok f' -> f_vocabulary (tf_model f') = f_vocabulary (tf_model f).
Proof.
  unfold saved_file. destruct (existsb _ _); [|now intros [= <-]]. destruct (f_params (t_file t)); [|now intros [= <-]].
  unfold write_network. destruct (network_get_state _ _); [|discriminate]. cbn [bind]. intros [= <-]. reflexivity.
Qed.
(** What a command does after its vocabulary has been read *)
Lemma command_vocab fuel k args f v f1 : read_vocabulary args f = (Ok v, f1) ->
  f_vocabulary (tf_model (snd (train_command fuel k args f))) = f_vocabulary (tf_model f1).
Proof.
  intros E. unfold TrainCommandModel.train_command. rewrite E. destruct (refused args v); [reflexivity|].
  destruct (start fuel args v f1) as [[[m u] t0]|]; [|reflexivity]. destruct (run args u k (AtEpoch, t0)) as [[ph t] failed].
  destruct (saved_file f1 m t) as [f'|] eqn:S; [|reflexivity]. cbn [snd]. eapply saved_vocab; eauto.
Qed.
Lemma command_kept fuel k args f v : has_vocab v f -> f_vocabulary (tf_model (snd (train_command fuel k args f))) = f_vocabulary (tf_model f).
Proof. intros H. exact (command_vocab _ _ _ _ _ _ (read_kept _ _ _ H)). Qed.
Lemma commands_cons fuel k args cs f : train_commands ((fuel, k, args) :: cs) f =
  (fst (train_command fuel k args f) :: fst (train_commands cs (snd (train_command fuel k args f))), snd (train_commands cs (snd (train_command fuel k args f)))).
Proof. cbn [TrainCommandModel.train_commands]. destruct (train_command fuel k args f) as [o f1]. cbn [fst snd]. now destruct (train_commands cs f1). Qed.
Lemma commands_app cs ds f : snd (train_commands (cs ++ ds) f) = snd (train_commands ds (snd (train_commands cs f))).
Proof.
  revert f. induction cs as [|[[fuel k] args] cs IH]; intros f; [reflexivity|]. change (((fuel, k, args) :: cs) ++ ds) with ((fuel, k, args) :: (cs ++ ds)).
  rewrite !commands_cons. cbn [snd]. apply IH.
Qed.
Lemma commands_kept cs f v : has_vocab v f -> f_vocabulary (tf_model (snd (train_commands cs f))) = f_vocabulary (tf_model f).
Proof.
  revert f. induction cs as [|[[fuel k] args] cs IH]; intros f H; [reflexivity|]. rewrite commands_cons. cbn [snd].
  pose proof (command_kept fuel k args f v H) as E. rewrite IH; [exact E|]. destruct H as [H U]. split; [now rewrite E|exact U].
Qed.
(** ** Steps of the training *)
Lemma run_steps args u k : forall x y failed, run args u k x = (y, failed) ->
  (failed = None /\ tsteps args u k x = Ok y) \/ exists e j, failed = Some e /\ j < k /\ tsteps args u j x = Ok y /\ tstep args u y = Err e.
Proof.
  induction k as [|k IH]; intros x y failed; cbn [TrainCommandModel.run].
  - intros [= <- <-]. left. split; reflexivity.
  - destruct (step _ _ _ _ _ _ x) as [z|e] eqn:E.
    + intros R. destruct (IH _ _ _ R) as [[-> S]|(e & j & -> & L & S & Fl)].
      * left. split; [reflexivity|]. cbn [steps]. now rewrite E.
      * right. exists e, (Datatypes.S j). split; [reflexivity|]. split; [lia|]. split; [cbn [steps]; now rewrite E|exact Fl].
    + intros [= <- <-]. right. exists e, 0. split; [reflexivity|]. split; [lia|]. split; [reflexivity|exact E].
Qed.
Lemma run_some args u k x y failed : run args u k x = (y, failed) -> exists j, j <= k /\ tsteps args u j x = Ok y.
Proof. intros R. destruct (run_steps _ _ _ _ _ _ R) as [[_ S]|(e & j & _ & L & S & _)]; [exists k; auto|exists j; split; [lia|exact S]]. Qed.

(** ** The network *)
Variable a : architecture.
Variable d : option pystr.
Hypothesis V : valid a.
Hypothesis AM : at_most 10 a.
Hypothesis PN : plain_names a.
Definition same_model (args : train_args) : Prop := ta_default_device args = d /\ forall b, arch args = Ok b -> b = a.
Hypothesis update_values : forall args ws n x lr b, other_values n (fst (update args ws n x lr b)).

Record untrained (f : train_file) : Prop := mkUntrained {
  u_architecture : f_architecture (tf_model f) = None; u_arrays : f_arrays (tf_model f) = [];
  u_trainer : tf_trainer f = None; u_iter : tf_iter f = None; u_optimizer : tf_optimizer f = None }.
Record trained (v : vocabulary) (n : network A) (f : train_file) : Prop := mkTrained {
  tr_built : exists init n0, build init d false a v = Ok n0 /\ other_values n0 n /\ fit n0 (f_arrays (tf_model f));
  tr_architecture : f_architecture (tf_model f) = ArchModel.get_state (with_input_options v a) None;
  tr_arrays : forall path x, In (path, x) (vars n) -> In (path, x) (f_arrays (tf_model f));
  tr_trainer : tf_trainer f <> None }.

Lemma rebuilt init init' e v n0 n1 : build init d e a v = Ok n0 -> build init' d e a v = Ok n1 -> other_values n0 n1.
Proof using.
  intros B B'.
  assert (R1 : Forall2 input_agrees (a_inputs a) (a_inputs a)) by (apply F2_refl; intros o k _; reflexivity).
  assert (R2 : Forall2 same_options (a_layers a) (a_layers a)) by (apply F2_refl; intros o k; reflexivity).
  pose proof (build_again parse_int dropout_scale init init' d e e a a v R1 R2 eq_refl) as S.
  rewrite B, B' in S. destruct S as (S & _ & E). rewrite <- E, with_excluded in S. exact S.
Qed.
Lemma fit_other (n n' : network A) s : other_values n n' -> fit n s -> fit n' s.
Proof using.
  intros O [D W]. split; [exact D|]. intros path x y Hx Hy. destruct (shapes_in _ _ _ _ O Hx) as (z & Hz & Ez). rewrite <- Ez. eapply W; eauto.
Qed.
Lemma excluded_same init v n0 n : build init d false a v = Ok n0 -> other_values n0 n -> with_exclude_unk false n = n.
Proof using.
  intros B O. rewrite <- (excluded _ _ _ _ _ _ _ _ B), <- (ov_exclude_unk _ _ O). apply with_excluded.
Qed.

(** What is loaded *)
Lemma trained_load v n f : has_vocab v f -> trained v n f -> forall init exclude,
  exists b, from_file init d exclude (tf_model f) = Ok (mkModel v b (with_exclude_unk exclude n)) /\ same_architecture (with_input_options v a) b.
Proof using V AM PN.
  intros [H _] [(i0 & n0 & B & O & [D W]) T2 T3 T4] init exclude.
  eapply load_same; [exact V|exact AM|exact PN|exact B|exact O|exact H|exact T2|exact D|exact T3].
Qed.

Section Command.
Variables (fuel : nat) (args : train_args) (v : vocabulary) (f : train_file).
Hypothesis Hs : same_model args.
Variables (m : model A) (u : nat) (t0 : @tstate (network A) accum (bstate shuffling) iter_state (list sequence)).
Hypothesis St : start fuel args v f = Ok (m, u, t0).
Hypothesis Hf : untrained f \/ exists n, trained v n f.

Lemma started : m_vocabulary m = v /\ m_architecture m = with_input_options v a /\ t_params t0 = m_network m /\
  f_params (t_file t0) = (match tf_trainer f with Some _ => Some (m_network m) | None => None end) /\
  exists n0, build (initial args) d false a v = Ok n0 /\ other_values n0 (m_network m) /\
    (tf_trainer f = None -> m_network m = n0) /\ (forall n, trained v n f -> m_network m = n) /\
    exists it m0, data_of choice shuffle10 fuel args = Ok (u, it) /\ (tf_trainer f = None -> m0 = m) /\
      initialize data_restore n0 (new_optimizer args m0) (ta_learning_rate args) it
        (create_stopper (ta_stopping_criterion args) (ta_max_epochs args) (ta_min_epochs args) (ta_max_annealing_count args)) (trainer_view f m) = Ok t0.
Proof using V PN Hs St Hf.
  pose proof St as S. unfold TrainCommandModel.start in S. destruct (data_of _ _ _ _) as [[u' it]|] eqn:Ed; [|discriminate]. cbn [bind] in S.
  destruct (get_class_probs v); [|discriminate]. cbn [bind] in S. destruct (arch args) as [b|] eqn:Ea; [|discriminate]. cbn [bind] in S.
  destruct Hs as [Hd Ha]. specialize (Ha _ Ea). subst b. rewrite Hd in S.
  destruct (new_network _ _ _ _ _ a v) as [m0|] eqn:En; [|discriminate]. cbn [bind] in S. pose proof En as En'.
  apply new_inv in En as (n0 & B & ->). cbn [m_network] in *.
  destruct (tf_trainer f) as [g|] eqn:Et.
  - destruct Hf as [[]|(n & T)]; [congruence|]. pose proof T as [(i0 & nb & B0 & O & [D W]) T2 T3 T4].
    destruct (resume parse_int dropout_scale i0 (initial args) d false false a v nb n (tf_model f) V PN B0 O T2 D T3) as (m1 & N & R).
    rewrite En' in N. injection N as <-. rewrite R in S. cbn [bind] in S. rewrite (excluded_same _ _ _ _ B0 O) in S.
    destruct (initialize _ _ _ _ _ _ _) as [t|] eqn:Ei; [|discriminate]. cbn [bind] in S. destruct (accepts _ _); [|discriminate]. injection S as <- <- <-.
    cbn [m_vocabulary m_architecture m_network]. split; [reflexivity|]. split; [reflexivity|].
    assert (G : t_params t = n /\ f_params (t_file t) = Some n).
    { unfold initialize, trainer_view in Ei. cbn [f_trainer m_network] in Ei. rewrite Et in Ei. unfold reset_state in Ei. cbn [t_file f_params f_trainer f_iter f_optimizer t_iter] in Ei.
      destruct (g_epoch g); [|discriminate]. destruct (g_update g); [|discriminate]. destruct (tf_iter f); [|discriminate].
      destruct (data_restore _ _); [|discriminate]. cbn [bind] in Ei. destruct (tf_optimizer f) as [[[lr1|] [ac1|]]|]; try discriminate. injection Ei as <-. split; reflexivity. }
    split; [apply G|]. split; [apply G|].
    exists n0. split; [exact B|]. split; [eapply other_trans; [eapply rebuilt; [exact B|exact B0]|exact O]|]. split; [discriminate|]. split; [|do 2 eexists; split; [reflexivity|]; split; [discriminate|exact Ei]].
    intros n' [(i1 & nb' & B1 & O1 & [D1 W1]) T2' T3' T4'].
    assert (R' : read_network (tf_model f) (mkModel v (with_input_options v a) n0) = Ok (mkModel v (with_input_options v a) n')).
    { destruct (resume parse_int dropout_scale i1 (initial args) d false false a v nb' n' (tf_model f) V PN B1 O1 T2' D1 T3') as (m1 & N & R').
      rewrite En' in N. injection N as <-. now rewrite (excluded_same _ _ _ _ B1 O1) in R'. }
    rewrite (excluded_same _ _ _ _ B0 O) in R. rewrite R in R'. now injection R' as <-.
  - cbn [bind] in S. destruct (initialize _ _ _ _ _ _ _) as [t|] eqn:Ei; [|discriminate]. cbn [bind] in S. injection S as <- <- <-.
    cbn [m_vocabulary m_architecture m_network]. split; [reflexivity|]. split; [reflexivity|].
    assert (G : t_params t = n0 /\ f_params (t_file t) = None).
    { unfold initialize, trainer_view in Ei. cbn [f_trainer m_network] in Ei. rewrite Et in Ei. injection Ei as <-. split; reflexivity. }
    split; [apply G|]. split; [apply G|].
    exists n0. split; [exact B|]. split; [eapply rebuilt; [exact B|exact B]|]. split; [reflexivity|]. split; [|do 2 eexists; split; [reflexivity|]; split; [reflexivity|exact Ei]]. intros n [_ _ _ T4]. congruence.
Qed.

Lemma ended k ph t failed : run args u k (AtEpoch, t0) = ((ph, t), failed) ->
  exists f', saved_file f m t = Ok f' /\
    ((f' = f /\ f_params (t_file t) = f_params (t_file t0)) \/
     exists n j ph' t', j <= k /\ tsteps args u j (AtEpoch, t0) = Ok (ph', t') /\ t_params t' = n /\ f_params (t_file t) = Some n /\ trained v n f' /\
       tf_trainer f' = f_trainer (t_file t) /\ tf_iter f' = f_iter (t_file t) /\ tf_optimizer f' = f_optimizer (t_file t)).
Proof using V PN Hs St Hf update_values.
  intros R. destruct (run_some _ _ _ _ _ _ R) as (k' & Lk & S).
  destruct started as (E1 & E2 & E3 & E4 & n0 & B & O & N1 & N2 & it & m0 & _ & _ & Ei).
  destruct (build_fine _ _ _ _ _ _ _ _ PN B) as [ND _].
  assert (K0 : kept (other_values n0) (trainer_view f m) t0).
  { eapply initialize_kept; [| |exact Ei]; [eapply rebuilt; [exact B|exact B]|].
    intros p. unfold trainer_view. cbn [f_params]. destruct (tf_trainer f); [|discriminate]. now intros [= <-]. }
  assert (K : kept (other_values n0) (trainer_view f m) t).
  { eapply steps_kept; [|exact K0|exact S]. intros p x lr b Hp. eapply other_trans; [exact Hp|apply update_values]. }
  assert (F0 : t_file t0 = trainer_view f m).
  { destruct (existsb is_candidate (t_log t0)) eqn:Ec; [|exact (k_same _ _ _ K0 Ec)].
    clear - Ei. revert Ei. unfold initialize. destruct (f_trainer _); [|intros [= <-]; reflexivity]. unfold reset_state. cbn [t_file t_iter f_params f_trainer f_iter f_optimizer trainer_view].
    destruct (tf_trainer f) as [g|]; [|discriminate]. destruct (g_epoch g), (g_update g), (tf_iter f); try discriminate. destruct (data_restore _ _); [|discriminate].
    cbn [bind]. destruct (tf_optimizer f) as [[[lr1|] [ac1|]]|]; try discriminate. intros [= <-]. reflexivity. }
  unfold saved_file. destruct (existsb is_candidate (t_log t)) eqn:Ec.
  2:{ exists f. split; [reflexivity|]. left. split; [reflexivity|]. now rewrite (k_same _ _ _ K Ec), F0. }
  destruct (k_full _ _ _ K Ec) as [(n & En & On) Et]. rewrite En.
  assert (Fit : fit n0 (f_arrays (tf_model f)) /\ (f_architecture (tf_model f) = None \/ f_architecture (tf_model f) = ArchModel.get_state (with_input_options v a) None)).
  { destruct Hf as [[U1 U2 _ _ _]|(n' & [(i0 & nb & B0 & O' & Fb) T2 T3 T4])].
    - split; [|auto]. rewrite U2. split; [constructor|]. intros path x y _ [].
    - split; [|auto]. eapply fit_other; [|exact Fb]. eapply rebuilt; [exact B0|exact B]. }
  destruct Fit as [Ff Fa].
  destruct (writes parse_int v (with_input_options v a) n0 [n] (valid_input_options v a V) ND (Forall_cons _ On (Forall_nil _)) (tf_model f) Ff Fa) as (mf & Ew & W1 & W2 & _ & _ & W3).
  destruct (W3 [] n eq_refl) as [W4 W5]. cbn [foldM] in Ew. rewrite E1, E2.
  destruct (write_network (mkModel v (with_input_options v a) n) (tf_model f)) as [mf'|]; [|discriminate]. cbn [bind] in Ew |- *. injection Ew as ->.
  eexists. split; [reflexivity|]. right.
  assert (T : trained v n (mkTrainFile mf (f_trainer (t_file t)) (f_iter (t_file t)) (f_optimizer (t_file t)))).
  { constructor; cbn [tf_model tf_trainer]; [exists (initial args), n0; auto|exact W4|exact W5|exact Et]. }
  destruct (C33_saved_state _ _ _ _ _ _ _ _ _ _ _ _ _ _ _ _ Ei k' ph t S) as [[Fe _]|(j & ph' & t' & costs & Lj & Sj & (Hp & _) & _)].
  - exists n, 0, AtEpoch, t0. split; [lia|]. split; [reflexivity|]. split; [|split; [reflexivity|split; [exact T|auto]]].
    rewrite Fe in En. cbn [trainer_view f_params] in En. destruct (tf_trainer f); [|discriminate]. injection En as <-. exact E3.
  - exists n, j, ph', t'. split; [lia|]. split; [exact Sj|]. split; [congruence|]. split; [reflexivity|split; [exact T|auto]].
Qed.
End Command.

(** ** A command *)
Definition inv (v : vocabulary) (f : train_file) : Prop := has_vocab v f /\ (untrained f \/ exists n, trained v n f).

Lemma command_inv fuel k args v f o f' : same_model args -> inv v f -> train_command fuel k args f = (o, f') ->
  inv v f' /\
  ((f' = f /\ forall r, o = Finished r -> exists m u t0 j t, start fuel args v f = Ok (m, u, t0) /\ j <= k /\ tsteps args u j (AtEpoch, t0) = Ok (Done, t) /\
       r = final_report perplexity args t /\ f_params (t_file t) = f_params (t_file t0)) \/
   exists m u t0 n j ph' t', refused args v = false /\ start fuel args v f = Ok (m, u, t0) /\ j <= k /\ tsteps args u j (AtEpoch, t0) = Ok (ph', t') /\ t_params t' = n /\
     trained v n f' /\ forall r, o = Finished r -> r = if ta_validation_file args then BestPerplexity (perplexity args n) else Trained).
Proof using V PN update_values.
  intros Hs [Hv Hf]. unfold TrainCommandModel.train_command. rewrite (read_kept _ _ _ Hv).
  destruct (refused args v); [intros [= <- <-]; split; [split; auto|left; split; [reflexivity|discriminate]]|].
  destruct (start fuel args v f) as [[[m u] t0]|] eqn:St; [|intros [= <- <-]; split; [split; auto|left; split; [reflexivity|discriminate]]].
  destruct (run args u k (AtEpoch, t0)) as [[ph t] failed] eqn:R.
  destruct (ended fuel args v f Hs m u t0 St Hf k ph t failed R) as (f1 & Es & H). rewrite Es. intros [= <- <-].
  destruct H as [[-> Hp]|(n & j & ph' & t' & Lj & Sj & En & Ep & T & _)].
  - split; [split; auto|]. left. split; [reflexivity|]. intros r Hr. destruct (run_steps _ _ _ _ _ _ R) as [[-> S]|(e & j & -> & _)]; [|discriminate].
    destruct ph; try discriminate. injection Hr as <-. exists m, u, t0, k, t. auto.
  - split.
    + split; [|eauto]. destruct Hv as [Hv U]. split; [|exact U]. now rewrite (saved_vocab _ _ _ _ Es).
    + right. exists m, u, t0, n, j, ph', t'. do 6 (split; [auto|]). intros r Hr. destruct failed; [discriminate|]. destruct ph; try discriminate. injection Hr as <-.
      unfold final_report. now rewrite Ep.
Qed.
Lemma commands_inv cs v : Forall (fun c => same_model (snd c)) cs -> forall f, inv v f -> inv v (snd (train_commands cs f)).
Proof using V PN update_values.
  induction 1 as [|[[fuel k] args] cs Hc F IH]; intros f I; [exact I|]. rewrite commands_cons. cbn [snd]. apply IH.
  destruct (train_command fuel k args f) as [o f'] eqn:E. exact (proj1 (command_inv _ _ _ _ _ _ _ Hc I E)).
Qed.
End Runs.
