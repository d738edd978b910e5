(** Train commands that are stopped at any point, one after another. *)
From Coq Require Import QArith Qcanon Lia.
From Verif Require Import Base ListLib BaseLib QcLib Dict Strings VocabModel VocabSpec VocabProps
  ArchModel ArchSpec ArchProps ParamModel ParamSpec ParamProofs NetModel DeviceModel BuildModel SavedModel SavedSpec SavedArrays SavedBuild SavedNetwork SavedProofs SavedProps
  IterModel IterSpec TrainerModel TrainerSpec TrainerRuns TrainerProps TrainDataModel TrainCommandModel TrainCommandSpec TrainCommandProofs TrainCommandVocab TrainCommandRuns
  CrashModel CrashSpec CrashArrays CrashTrainer CrashProofs.
Local Open Scope nat_scope.

Section Runs.
Context {A : arith} {accum : Type}.
Notation num := (num A).
Notation train_file := (train_file A accum).
Notation trainer_file := (@TrainerModel.file (network A) accum iter_state).
Notation tstate := (@tstate (network A) accum (bstate shuffling) iter_state (list sequence)).
Variable parse_int : pystr -> result Z.
Variable parse_float : pystr -> result Qc.
Variable choice : train_args -> nat -> nat -> list nat -> nat -> bool -> list nat.
Variable shuffle10 : train_args -> nat -> list nat -> list nat.
Variable dropout_scale : option ArchModel.value -> result num.
Variable initial : train_args -> pystr -> pystr -> nat -> nat -> nat -> num.
Variable new_optimizer : train_args -> model A -> accum.
Variable accepts : train_args -> accum -> bool.
Variable update : train_args -> list Qc -> network A -> accum -> Qc -> list sequence -> network A * accum.
Variable perplexity : train_args -> network A -> Qc.
Variable arch : train_args -> result architecture.
Notation read_vocabulary := (@TrainCommandModel.read_vocabulary A accum parse_int parse_float).
Notation start := (@TrainCommandModel.start A accum parse_int choice shuffle10 dropout_scale initial new_optimizer accepts arch).
Notation run := (@TrainCommandModel.run A accum choice shuffle10 update perplexity).
Notation train_command := (@TrainCommandModel.train_command A accum parse_int parse_float choice shuffle10 dropout_scale initial new_optimizer accepts update perplexity arch).
Notation build := (build parse_int dropout_scale).
Notation from_file := (SavedModel.from_file parse_int dropout_scale).
Notation tsteps args u := (steps (data_next (choice args) (shuffle10 args) (ta_batch_size args) (ta_sequence_length args))
  (update args (file_weights args)) (perplexity args) data_save data_restore (options_of args u)).
Notation training_step := (@training_step A accum choice shuffle10 update perplexity).
Notation storing_step := (@storing_step A accum choice shuffle10 update perplexity).
Notation storing_steps := (@storing_steps A accum choice shuffle10 update perplexity).
Notation stopped_command := (@stopped_command A accum parse_int parse_float choice shuffle10 dropout_scale initial new_optimizer accepts update perplexity arch).

Variable a : architecture.
Variable d : option pystr.
Hypothesis V : valid a.
Hypothesis AM : at_most 10 a.
Hypothesis PN : plain_names a.
Notation same_model := (same_model arch a d).
Hypothesis update_values : forall args ws n x lr b, other_values n (fst (update args ws n x lr b)).

(** ** Files *)
Definition of_model (v : vocabulary) (n : network A) : Prop := exists init n0, build init d false a v = Ok n0 /\ other_values n0 n.
Notation harch v := (ArchModel.get_state (with_input_options v a) None).
(** Nothing is resumed. There can be remains of a save. *)
Record fresh (v : vocabulary) (f : train_file) : Prop := mkFresh {
  fr_trainer : tf_trainer f = None;
  fr_architecture : f_architecture (tf_model f) = None \/ f_architecture (tf_model f) = harch v;
  fr_arrays : f_arrays (tf_model f) = [] \/ exists n, of_model v n /\ f_arrays (tf_model f) = vars n }.
Definition groups_full (f : train_file) : Prop :=
  exists e u c i lr ac, tf_trainer f = Some (mkTgroup (Some e) (Some u) c) /\ tf_iter f = Some i /\ tf_optimizer f = Some (Some lr, Some ac).
(** A state that can be resumed, with the network [n] *)
Record full (v : vocabulary) (n : network A) (f : train_file) : Prop := mkFull {
  fl_model : of_model v n;
  fl_architecture : f_architecture (tf_model f) = harch v;
  fl_arrays : f_arrays (tf_model f) = vars n;
  fl_groups : groups_full f }.
(** No training can start. *)
Definition dead (v : vocabulary) (f : train_file) : Prop := forall fuel args, same_model args -> exists e, start fuel args v f = Err e.
Definition sound (v : vocabulary) (f : train_file) : Prop := fresh v f \/ exists n, full v n f.

Lemma model_fine v n : of_model v n -> NoDup (parameter_paths n) /\ all_regular n /\ vars n <> [] /\ with_exclude_unk false n = n.
Proof using PN.
  intros (init & n0 & B & O). destruct (build_fine _ _ _ _ _ _ _ _ PN B) as [D R].
  split; [now rewrite (other_paths _ _ O)|]. split; [eapply regular_other; eauto|]. split.
  - pose proof (built_vars _ _ _ _ _ _ _ _ B) as N. apply vars_shapes in O. intros E. rewrite E in O. inversion O. congruence.
  - exact (excluded_same _ _ _ _ _ _ _ _ B O).
Qed.
Lemma models_other v n n' : of_model v n -> of_model v n' -> other_values n n'.
Proof using.
  intros (i & m & B & O) (i' & m' & B' & O'). eapply other_trans; [apply other_sym; exact O|]. eapply other_trans; [|exact O'].
  exact (rebuilt _ _ _ _ _ _ _ _ _ _ B B').
Qed.
Lemma model_other v n n' : of_model v n -> other_values n n' -> of_model v n'.
Proof using. intros (i & m & B & O) H. exists i, m. split; [exact B|]. eapply other_trans; eauto. Qed.
Lemma full_trained v n f : full v n f -> trained parse_int dropout_scale a d v n f.
Proof using PN.
  intros [M H1 H2 (e & u & c & i & lr & ac & G1 & G2 & G3)]. destruct (model_fine _ _ M) as (D & _). destruct M as (init & n0 & B & O).
  constructor; [|exact H1|now rewrite H2|congruence]. exists init, n0. split; [exact B|]. split; [exact O|]. rewrite H2. split.
  - unfold is_dict. now rewrite vars_paths.
  - intros path x y Hx Hy. destruct (shapes_in _ _ _ _ (other_sym _ _ O) Hx) as (z & Hz & Ez).
    assert (Dn : is_dict (vars n)) by (unfold is_dict; now rewrite vars_paths).
    rewrite (in_unique _ _ _ _ Dn Hy Hz), Ez. split; [reflexivity|]. eapply vars_nonempty; eauto.
Qed.
Lemma full_load v n f : has_vocab v f -> full v n f -> forall init exclude,
  exists b, from_file init d exclude (tf_model f) = Ok (mkModel v b (with_exclude_unk exclude n)) /\ same_architecture (with_input_options v a) b.
Proof using V AM PN. intros H F. eapply trained_load; eauto. now apply full_trained. Qed.

(** ** Files where no training can start *)
Lemma dead_arrays v f n : of_model v n -> tf_trainer f <> None -> (exists path, In path (parameter_paths n) /\ ~ In path (paths (f_arrays (tf_model f)))) ->
  (forall p x y, In (p, x) (vars n) -> In (p, y) (f_arrays (tf_model f)) -> length (a_shape y) = length (a_shape x)) -> dead v f.
Proof using.
  intros M Ht (path & I & N) W fuel args [Hd Ha]. unfold TrainCommandModel.start. destruct (data_of _ _ _ _) as [[u it]|]; [|cbn [bind]; eauto]. cbn [bind].
  destruct (get_class_probs v); [|cbn [bind]; eauto]. cbn [bind]. destruct (arch args) as [b|] eqn:Ea; [|cbn [bind]; eauto]. cbn [bind].
  specialize (Ha _ eq_refl). subst b. rewrite Hd. unfold new_network. destruct (build (initial args) d false a v) as [n1|] eqn:B; [|cbn [bind]; eauto]. cbn [bind].
  destruct (tf_trainer f); [|congruence]. unfold read_network. cbn [m_network].
  assert (M1 : of_model v n1) by (exists (initial args), n1; split; [exact B|eapply rebuilt; exact B]).
  pose proof (models_other _ _ _ M M1) as O. destruct (set_state_missing (f_arrays (tf_model f)) (layer_parameters n1) path) as (ps & ->); cbn [bind]; eauto.
  - fold (vars n1). rewrite vars_paths, (other_paths _ _ O). exact I.
  - fold (vars n1). intros p x y Hx Hy. destruct (shapes_in _ _ _ _ O Hx) as (z & Hz & Ez). rewrite <- Ez. eapply W; eauto.
Qed.
Lemma dead_architecture v f : tf_trainer f <> None -> (forall b, exists e, check_state b (f_architecture (tf_model f)) = Err e) -> dead v f.
Proof using.
  intros Ht Hc fuel args _. unfold TrainCommandModel.start. destruct (data_of _ _ _ _) as [[u it]|]; [|cbn [bind]; eauto]. cbn [bind].
  destruct (get_class_probs v); [|cbn [bind]; eauto]. cbn [bind]. destruct (arch args) as [b|] eqn:Ea; [|cbn [bind]; eauto]. cbn [bind].
  destruct (new_network _ _ _ _ _ _ _) as [m|]; [|cbn [bind]; eauto]. cbn [bind]. destruct (tf_trainer f); [|congruence].
  unfold read_network. destruct (network_set_state _ _) as [new [[]|]]; [|cbn [bind]; eauto]. destruct (Hc (m_architecture m)) as (e & ->). cbn [bind]. eauto.
Qed.
Lemma dead_groups v f : tf_trainer f <> None -> ~ groups_full f -> dead v f.
Proof using.
  intros Ht Hg fuel args _. unfold TrainCommandModel.start. destruct (data_of _ _ _ _) as [[u it]|]; [|cbn [bind]; eauto]. cbn [bind].
  destruct (get_class_probs v); [|cbn [bind]; eauto]. cbn [bind]. destruct (arch args) as [b|] eqn:Ea; [|cbn [bind]; eauto]. cbn [bind].
  destruct (new_network _ _ _ _ _ _ _) as [m|]; [|cbn [bind]; eauto]. cbn [bind]. destruct (tf_trainer f) as [g|] eqn:Et; [|congruence].
  destruct (read_network _ _) as [m'|]; [|cbn [bind]; eauto]. cbn [bind].
  assert (E : forall n ac lr s, exists e, initialize (batch := list sequence) data_restore n ac lr it s (trainer_view f m') = Err e).
  { intros n ac lr s. unfold initialize, trainer_view. cbn [f_trainer]. rewrite Et. unfold reset_state. cbn [t_file f_params f_trainer f_iter f_optimizer t_iter].
    destruct g as [[e|] [u'|] c]; cbn [g_epoch g_update g_costs]; eauto. destruct (tf_iter f) as [i|] eqn:Ei; eauto.
    destruct (data_restore it i); [|cbn [bind]; eauto]. cbn [bind]. destruct (tf_optimizer f) as [[[lr1|] [ac1|]]|] eqn:Eo; eauto.
    exfalso. apply Hg. unfold groups_full. rewrite Et. eauto 12. }
  match goal with |- context [initialize _ ?n ?ac ?lr _ ?s _] => destruct (E n ac lr s) as (e & ->) end. cbn [bind]. eauto.
Qed.
Lemma dead_command v f fuel k args : has_vocab v f -> dead v f -> same_model args ->
  exists o, train_command fuel k args f = (o, f) /\ (o = Exited \/ exists e, o = Raised e).
Proof using.
  intros Hv D Hs. unfold TrainCommandModel.train_command. rewrite (read_kept _ _ _ _ _ Hv). destruct (refused args v); [eauto|].
  destruct (D fuel args Hs) as (e & ->). eauto.
Qed.
Lemma dead_stopped v f how fuel k j args : has_vocab v f -> dead v f -> same_model args -> exists e, stopped_command how fuel k j args f = Err e.
Proof using.
  intros Hv D Hs. unfold CrashModel.stopped_command. rewrite (read_kept _ _ _ _ _ Hv). destruct (refused args v); [eauto|].
  destruct (D fuel args Hs) as (e & ->). cbn [bind]. eauto.
Qed.

(** ** A save *)
Definition stored (v : vocabulary) (s : trainer_file) (n : network A) (f : train_file) : train_file :=
  mkTrainFile (SavedModel.mkFile (f_vocabulary (tf_model f)) (harch v) (vars n)) (f_trainer s) (f_iter s) (f_optimizer s).
Definition saves (v : vocabulary) (s : trainer_file) (n : network A) : Prop := complete (of_model v) s /\ f_params s = Some n.

Lemma saves_model v s n : saves v s n -> of_model v n.
Proof using. intros [C E]. destruct C. cbn in E. now injection E as <-. Qed.
Lemma stored_full v s n f : saves v s n -> full v n (stored v s n f).
Proof using.
  intros H. pose proof (saves_model _ _ _ H) as M. destruct H as [C E]. constructor; [exact M|reflexivity|reflexivity|]. destruct C. unfold groups_full, stored. cbn. eauto 12.
Qed.
Lemma stored_again v s n s' n' f : stored v s' n' (stored v s n f) = stored v s' n' f.
Proof using. reflexivity. Qed.
Lemma harch_again v : ArchModel.get_state (with_input_options v a) (harch v) = harch v.
Proof using V. exact (C50_save_again _ 1 (valid_input_options v a V)). Qed.
Lemma sound_architecture v f : sound v f -> f_architecture (tf_model f) = None \/ f_architecture (tf_model f) = harch v.
Proof using. intros [[]|(n & [])]; auto. Qed.
Lemma sound_arrays v f : sound v f -> f_arrays (tf_model f) = [] \/ exists n, of_model v n /\ f_arrays (tf_model f) = vars n.
Proof using. intros [[]|(n & [])]; eauto. Qed.

(** The arrays after some of them have been written *)
Definition some_arrays (n : network A) (f : train_file) (i : nat) : list (pystr * array num) := firstn i (vars n) ++ skipn i (f_arrays (tf_model f)).
Lemma arrays_part v f n : sound v f -> of_model v n -> forall i, foldM store_parameter (firstn i (vars n)) (f_arrays (tf_model f)) = Ok (some_arrays n f i).
Proof using PN.
  intros S M i. unfold some_arrays. destruct (model_fine _ _ M) as (D & _). destruct (sound_arrays _ _ S) as [->|(n' & M' & ->)].
  - rewrite skipn_nil, app_nil_r. apply (store_new (vars n) []). unfold is_dict. cbn [app]. now rewrite vars_paths.
  - destruct (model_fine _ _ M') as (D' & _). apply (store_over (vars n') (vars n) (vars_place _ _ (models_other _ _ _ M' M)) []). unfold is_dict. cbn [app]. now rewrite vars_paths.
Qed.
Lemma some_all v f n i : sound v f -> of_model v n -> length (vars n) <= i -> some_arrays n f i = vars n.
Proof using.
  intros S M L. unfold some_arrays. rewrite firstn_all2 by exact L. destruct (sound_arrays _ _ S) as [->|(n' & M' & ->)].
  - now rewrite skipn_nil, app_nil_r.
  - pose proof (vars_place _ _ (models_other _ _ _ M' M)) as F. assert (E : length (vars n') = length (vars n)) by (clear - F; induction F; cbn; auto).
    rewrite skipn_all2 by lia. apply app_nil_r.
Qed.
Lemma written_all v f s n j : sound v f -> saves v s n -> length (vars n) + 11 <= j ->
  written (with_input_options v a) s (some_arrays n f) (length (vars n)) j f = stored v s n f.
Proof using V.
  intros S H L. pose proof (saves_model _ _ _ H) as M. unfold written, stored.
  rewrite arch_stage_all by lia. rewrite (some_all _ _ _ _ S M) by lia. rewrite group_stage_all by lia.
  replace (ArchModel.get_state (with_input_options v a) (f_architecture (tf_model f))) with (harch v).
  2:{ destruct (sound_architecture _ _ S) as [->| ->]; [reflexivity|]. symmetry. apply harch_again. }
  destruct (Nat.eqb_spec (j - (length (vars n) + 7)) 0); [lia|]. destruct H as [C _]. destruct C. cbn [f_trainer f_iter f_optimizer group_stage group_of g_epoch g_update g_costs Nat.leb].
  destruct (j - (length (vars n) + 8)) as [|[|[|x]]] eqn:E; try lia. reflexivity.
Qed.
Lemma save_all args v f s n : sound v f -> saves v s n -> calls (save_calls args (with_input_options v a) s) f = Ok (stored v s n f).
Proof using V PN.
  intros S H. pose proof (saves_model _ _ _ H) as M. destruct (model_fine _ _ M) as (D & _). unfold save_calls. destruct (ta_validation_file args).
  - pose proof (copy_part (with_input_options v a) s n 10 f (proj2 H) D) as C. rewrite firstn_all2 in C.
    + rewrite C, copied_all by lia. reflexivity.
    + unfold copy_calls. destruct H as [_ ->]. cbn. lia.
  - pose proof (write_part (with_input_options v a) s n (some_arrays n f) (length (vars n) + 11) f (proj2 H) (arrays_part _ _ _ S M)) as C. rewrite firstn_all2 in C.
    + rewrite C. f_equal. now apply written_all.
    + rewrite (write_length _ _ n (proj2 H)). lia.
Qed.

(** ** Starting *)
Record begun (v : vocabulary) (f : train_file) (m : model A) (t0 : tstate) : Prop := {
  bg_vocabulary : m_vocabulary m = v;
  bg_architecture : m_architecture m = with_input_options v a;
  bg_network : of_model v (m_network m);
  bg_full : forall n, full v n f -> m_network m = n;
  bg_fresh : tf_trainer f = None -> exists args, build (initial args) d false a v = Ok (m_network m);
  bg_ready : ready (of_model v) t0;
  bg_log : t_log t0 = [];
  bg_params : t_params t0 = m_network m;
  bg_init : exists p ac lr it crit mx mn ann, initialize data_restore p ac lr it (create_stopper crit mx mn ann) (trainer_view f m) = Ok t0;
  bg_file : f_params (t_file t0) = match tf_trainer f with Some _ => Some (m_network m) | None => None end }.
Lemma starts fuel args v f m u t0 : same_model args -> sound v f -> start fuel args v f = Ok (m, u, t0) -> begun v f m t0.
Proof using V PN.
  intros Hs S St. pose proof St as St'. unfold TrainCommandModel.start in St'. destruct (data_of _ _ _ _) as [[u' it]|]; [|discriminate]. cbn [bind] in St'.
  destruct (get_class_probs v); [|discriminate]. cbn [bind] in St'. destruct (arch args) as [b|] eqn:Ea; [|discriminate]. cbn [bind] in St'.
  pose proof Hs as [Hd Ha]. specialize (Ha _ Ea). subst b. rewrite Hd in St'.
  destruct (new_network _ _ _ _ _ a v) as [m0|] eqn:En; [|discriminate]. cbn [bind] in St'.
  destruct S as [F|(n & F)].
  - apply new_inv in En as (n0 & B & ->). cbn [m_network] in *. pose proof (fr_trainer _ _ F) as Et. rewrite Et in St'. cbn [bind] in St'.
    destruct (initialize _ _ _ _ _ _ _) as [t|] eqn:Ei; [|discriminate]. cbn [bind] in St'. injection St' as <- <- <-.
    assert (M : of_model v n0) by (exists (initial args), n0; split; [exact B|eapply rebuilt; exact B]).
    assert (Hp : forall p, f_params (trainer_view f (mkModel v (with_input_options v a) n0)) = Some p -> of_model v p) by (unfold trainer_view; cbn [f_params]; rewrite Et; discriminate).
    destruct (initialize_ready data_restore (of_model v) _ _ _ _ _ _ _ M Hp Ei) as (R & L & Ft).
    constructor; cbn [m_vocabulary m_architecture m_network]; auto.
    + intros n' F'. destruct (fl_groups _ _ _ F') as (e & q & c & i & lr & ac & G1 & _). congruence.
    + intros _. now exists args.
    + unfold initialize, trainer_view in Ei. cbn [f_trainer] in Ei. rewrite Et in Ei. now injection Ei as <-.
    + do 8 eexists. exact Ei.
    + rewrite Ft. unfold trainer_view. cbn [f_params]. now rewrite Et.
  - clear St'. pose proof (full_trained _ _ _ F) as T.
    destruct (started parse_int choice shuffle10 dropout_scale initial new_optimizer accepts arch a d V PN fuel args v f Hs m u t0 St (or_intror (ex_intro _ n T)))
      as (E1 & E2 & E3 & E4 & n0 & B & O & N1 & N2 & it' & m1 & _ & _ & Ei).
    destruct (fl_groups _ _ _ F) as (e & q & c & i & lr & ac & G1 & _).
    assert (M : of_model v (m_network m)) by (exists (initial args), n0; auto).
    assert (M0 : of_model v n0) by (exists (initial args), n0; split; [exact B|eapply rebuilt; exact B]).
    assert (Hp : forall p, f_params (trainer_view f m) = Some p -> of_model v p) by (unfold trainer_view; cbn [f_params]; destruct (tf_trainer f); [now intros p [= <-]|discriminate]).
    destruct (initialize_ready data_restore (of_model v) _ _ _ _ _ _ _ M0 Hp Ei) as (R & L & Ft).
    constructor; auto.
    + intros n' F'. apply N2. now apply full_trained.
    + congruence.
    + do 8 eexists. exact Ei.
Qed.

(** ** Training *)
Lemma run_of args u k : forall x y, tsteps args u k x = Ok y -> run args u k x = (y, None).
Proof using.
  induction k as [|k IH]; intros x y; cbn [steps TrainCommandModel.run]; [now intros [= <-]|].
  destruct (step _ _ _ _ _ _ x) as [z|]; [|discriminate]. cbn [bind]. apply IH.
Qed.
Lemma steps_snoc args u k x : tsteps args u (S k) x = do y <- tsteps args u k x; training_step args u y.
Proof using.
  revert x. induction k as [|k IH]; intros x; cbn [steps bind].
  - unfold CrashModel.training_step. destruct (step _ _ _ _ _ _ x); reflexivity.
  - destruct (step _ _ _ _ _ _ x) as [z|]; cbn [bind]; [|reflexivity]. apply IH.
Qed.
Lemma run_longer args u k : forall x e, tsteps args u k x = Err e -> run args u (S k) x = run args u k x.
Proof using.
  induction k as [|k IH]; intros x e H; [discriminate|]. cbn [steps] in H. 
  change (run args u (S (S k)) x) with (match training_step args u x with Ok y => run args u (S k) y | Err e => (x, Some e) end).
  change (run args u (S k) x) with (match training_step args u x with Ok y => run args u k y | Err e => (x, Some e) end).
  unfold CrashModel.training_step. destruct (step _ _ _ _ _ _ x) as [y|]; [|reflexivity]. cbn [bind] in H. eapply IH; eauto.
Qed.
Lemma run_failed args u k e : forall x y, tsteps args u k x = Ok y -> training_step args u y = Err e -> run args u (S k) x = (y, Some e).
Proof using.
  induction k as [|k IH]; intros x y H F.
  - injection H as <-. cbn [TrainCommandModel.run]. unfold CrashModel.training_step in F. now rewrite F.
  - cbn [steps] in H. change (run args u (S (S k)) x) with (match training_step args u x with Ok y => run args u (S k) y | Err e => (x, Some e) end).
    unfold CrashModel.training_step at 1. destruct (step _ _ _ _ _ _ x) as [z|]; [|discriminate]. cbn [bind] in H. now apply IH.
Qed.
(** What is in the file, and on the disk, at some time in the training *)
Definition holds (v : vocabulary) (f1 f : train_file) (t : tstate) (s : storage) : Prop :=
  if existsb is_candidate (t_log t) then exists n, saves v (t_file t) n /\ s = flush (stored v (t_file t) n f1) else s = mkStorage f1 f.
Lemma holds_image v f1 f t s : sound v f1 -> holds v f1 f t s -> sound v (image s) /\ f_vocabulary (tf_model (image s)) = f_vocabulary (tf_model f1).
Proof using.
  intros S. unfold holds. destruct (existsb _ _).
  - intros (n & H & ->). split; [right; exists n; now apply stored_full|reflexivity].
  - intros ->. split; [exact S|reflexivity].
Qed.
Lemma update_model args v : forall p x lr b, of_model v p -> of_model v (fst (update args (file_weights args) p x lr b)).
Proof using update_values. intros p x lr b H. eapply model_other; [exact H|apply update_values]. Qed.
Lemma complete_saves v (s : trainer_file) : complete (of_model v) s -> exists n, saves v s n.
Proof using. intros C. pose proof C as C'. destruct C as [n]. exists n. split; [exact C'|reflexivity]. Qed.
Lemma step_holds args v u ph t ph' t' : ready (of_model v) t -> training_step args u (ph, t) = Ok (ph', t') ->
  ready (of_model v) t' /\
  existsb is_candidate (t_log t') = existsb is_candidate (t_log t) || saved_between t t' /\
  (saved_between t t' = false -> t_file t' = t_file t) /\
  (saved_between t t' = true -> exists n, saves v (t_file t') n).
Proof using update_values.
  intros R E. destruct (step_ready _ _ _ _ _ _ _ (update_model args v) _ _ _ _ R E) as [R' (es & El & Ef)]. split; [exact R'|].
  assert (Es : saved_between t t' = existsb is_candidate es) by (unfold saved_between; rewrite El, skipn_app_exact; reflexivity).
  assert (Ec : existsb is_candidate (t_log t') = existsb is_candidate (t_log t) || saved_between t t') by (now rewrite Es, El, existsb_app).
  split; [exact Ec|]. split; [now rewrite Es|]. intros H. apply complete_saves. apply (rd_saved _ _ R'). rewrite Ec, H. apply orb_true_r.
Qed.
Lemma storing args v f1 f u t0 : sound v f1 -> ready (of_model v) t0 -> t_log t0 = [] -> forall k ph t, 
  (forall s, storing_steps args (with_input_options v a) u k ((AtEpoch, t0), mkStorage f1 f) = Ok ((ph, t), s) ->
    tsteps args u k (AtEpoch, t0) = Ok (ph, t)) /\
  (tsteps args u k (AtEpoch, t0) = Ok (ph, t) ->
    exists s, storing_steps args (with_input_options v a) u k ((AtEpoch, t0), mkStorage f1 f) = Ok ((ph, t), s) /\
      ready (of_model v) t /\ holds v f1 f t s).
Proof using V PN update_values.
  intros S R0 L0 k.
  assert (G : forall ph0 t1 s1, ready (of_model v) t1 -> holds v f1 f t1 s1 -> forall ph t,
    (forall s, storing_steps args (with_input_options v a) u k ((ph0, t1), s1) = Ok ((ph, t), s) -> tsteps args u k (ph0, t1) = Ok (ph, t)) /\
    (tsteps args u k (ph0, t1) = Ok (ph, t) ->
      exists s, storing_steps args (with_input_options v a) u k ((ph0, t1), s1) = Ok ((ph, t), s) /\ ready (of_model v) t /\ holds v f1 f t s)).
  { induction k as [|k IH]; intros ph0 t1 s1 R H ph t; cbn [CrashModel.storing_steps steps].
    - split; [now intros s [= <- <- <-]|]. intros [= <- <-]. eauto.
    - unfold CrashModel.storing_step, CrashModel.training_step.
      destruct (step _ _ _ _ _ _ (ph0, t1)) as [[ph2 t2]|] eqn:E; cbn [bind]; [|split; intros; discriminate].
      destruct (step_holds _ _ _ _ _ _ _ R E) as (R2 & Ec & Es & En). destruct (saved_between t1 t2) eqn:Sb.
      + destruct (En eq_refl) as (n & Hn). destruct (holds_image _ _ _ _ _ S H) as [Si Vi].
        rewrite (save_all args v (image s1) (t_file t2) n Si Hn). cbn [bind]. apply IH; [exact R2|]. unfold holds. rewrite Ec, orb_true_r.
        exists n. split; [exact Hn|]. unfold stored. now rewrite Vi.
      + apply IH; [exact R2|]. unfold holds. rewrite Ec, orb_false_r, Es by reflexivity. exact H. }
  intros ph t. apply G; [exact R0|]. unfold holds. now rewrite L0.
Qed.

(** ** Commands *)
Lemma saved_stored v f1 f m t s : sound v f1 -> m_vocabulary m = v -> m_architecture m = with_input_options v a -> holds v f1 f t s -> saved_file f1 m t = Ok (image s).
Proof using V PN.
  intros S E1 E2 H. unfold holds in H. unfold saved_file. destruct (existsb is_candidate (t_log t)); [|now subst s].
  destruct H as (n & Hn & ->). pose proof (saves_model _ _ _ Hn) as M. destruct Hn as [C En]. rewrite En, E1, E2.
  unfold write_network. cbn [m_network m_architecture].
  assert (W : network_get_state (layer_parameters n) (f_arrays (tf_model f1)) = Ok (vars n)).
  { destruct (sound_arrays _ _ S) as [->|(n' & M' & ->)]; [apply write_new|apply write_over; [|exact (models_other _ _ _ M' M)]].
    - now apply (model_fine v).
    - now apply (model_fine v). }
  rewrite W. cbn [bind]. unfold stored. cbn [image flush]. destruct (sound_architecture _ _ S) as [->| ->]; [reflexivity|]. now rewrite harch_again.
Qed.
Lemma command_file fuel k args v f f1 m u t0 ph t s : read_vocabulary args f = (Ok v, f1) -> refused args v = false -> start fuel args v f1 = Ok (m, u, t0) ->
  sound v f1 -> begun v f1 m t0 -> tsteps args u k (AtEpoch, t0) = Ok (ph, t) -> holds v f1 f t s ->
  snd (train_command fuel k args f) = image s.
Proof using V PN.
  intros R Rf St S B T H. unfold TrainCommandModel.train_command. rewrite R, Rf, St, (run_of _ _ _ _ _ T).
  now rewrite (saved_stored v f1 f m t s S (bg_vocabulary _ _ _ _ B) (bg_architecture _ _ _ _ B) H).
Qed.

(** What a command that ends, or is interrupted between saves, leaves *)
Lemma command_sound fuel k args v f f1 : read_vocabulary args f = (Ok v, f1) -> same_model args -> sound v f1 ->
  sound v (snd (train_command fuel k args f)) /\ f_vocabulary (tf_model (snd (train_command fuel k args f))) = f_vocabulary (tf_model f1).
Proof using V PN update_values.
  intros R Hs S. split; [|eapply command_vocab; eauto]. unfold TrainCommandModel.train_command. rewrite R. destruct (refused args v); [exact S|].
  destruct (start fuel args v f1) as [[[m u] t0]|] eqn:St; [|exact S]. pose proof (starts _ _ _ _ _ _ _ Hs S St) as B.
  destruct (run args u k (AtEpoch, t0)) as [[ph t] failed] eqn:Rn. destruct (run_some _ _ _ _ _ _ _ _ _ _ Rn) as (k' & _ & T).
  destruct (proj2 (storing args v f1 f u t0 S (bg_ready _ _ _ _ B) (bg_log _ _ _ _ B) k' ph t) T) as (s & _ & _ & H).
  rewrite (saved_stored v f1 f m t s S (bg_vocabulary _ _ _ _ B) (bg_architecture _ _ _ _ B) H). exact (proj1 (holds_image _ _ _ _ _ S H)).
Qed.
(** A stopped command: [before] and [after] the save of the last step *)
Lemma stopped fuel k j args v f f1 how f' : read_vocabulary args f = (Ok v, f1) -> same_model args -> sound v f1 ->
  stopped_command how fuel k j args f = Ok f' ->
  exists m u t0, refused args v = false /\ start fuel args v f1 = Ok (m, u, t0) /\ begun v f1 m t0 /\
  let before := snd (train_command fuel k args f) in let after := snd (train_command fuel (S k) args f) in
  sound v before /\ f_vocabulary (tf_model before) = f_vocabulary (tf_model f1) /\
  match how with
  | Killed => (f' = f /\ before = f1) \/ f' = before \/ f' = after
  | Thrown => f' = before \/ exists s n, saves v s n /\ after = stored v s n before /\
      (exists k' ph t, k' <= S k /\ tsteps args u k' (AtEpoch, t0) = Ok (ph, t) /\ t_params t = n) /\
      calls (firstn j (save_calls args (with_input_options v a) s)) before = Ok f'
  end.
Proof using V PN update_values.
  intros R Hs S E. unfold CrashModel.stopped_command in E. rewrite R in E. destruct (refused args v) eqn:Rf; [discriminate|].
  destruct (start fuel args v f1) as [[[m u] t0]|] eqn:St; [|discriminate]. cbn [bind] in E. pose proof (starts _ _ _ _ _ _ _ Hs S St) as B.
  exists m, u, t0. split; [reflexivity|]. split; [reflexivity|]. split; [exact B|]. intros before after. rewrite (bg_architecture _ _ _ _ B) in E. unfold stopped_at in E.
  destruct (command_sound fuel k args v f f1 R Hs S) as [Sb Vb]. fold before in Sb, Vb. split; [exact Sb|]. split; [exact Vb|].
  destruct (CrashModel.storing_steps _ _ _ _ _ _ _ _ _) as [[[ph t] s]|] eqn:Es; [|discriminate]. cbn [bind] in E.
  pose proof (fun ph t => storing args v f1 f u t0 S (bg_ready _ _ _ _ B) (bg_log _ _ _ _ B) k ph t) as G.
  pose proof (proj1 (G ph t) s Es) as T. destruct (proj2 (G ph t) T) as (s1 & Es1 & Rt & H). rewrite Es in Es1. injection Es1 as <-. clear G.
  pose proof (command_file _ _ _ _ _ _ _ _ _ _ _ _ R Rf St S B T H) as Eb. fold before in Eb.
  assert (D : (disk s = f /\ before = f1) \/ disk s = before).
  { unfold holds in H. destruct (existsb is_candidate (t_log t)); [|subst s; left; split; [reflexivity|exact Eb]]. destruct H as (n & _ & ->). right. now rewrite Eb. }
  destruct (CrashModel.training_step _ _ _ _ _ _ (ph, t)) as [[ph' t']|] eqn:Et.
  2:{ cbn [bind] in E. injection E as <-. destruct how; [tauto|left; congruence]. }
  destruct (step_holds _ _ _ _ _ _ _ Rt Et) as (R2 & Ec & Ef & En).
  destruct (saved_between t t') eqn:Sv; [|cbn [bind] in E; injection E as <-; destruct how; [tauto|left; congruence]].
  destruct (En eq_refl) as (n & Hn).
  assert (T' : tsteps args u (Datatypes.S k) (AtEpoch, t0) = Ok (ph', t')) by (rewrite steps_snoc, T; exact Et).
  assert (H' : holds v f1 f t' (flush (stored v (t_file t') n f1))) by (unfold holds; rewrite Ec, orb_true_r; eauto).
  pose proof (command_file _ _ _ _ _ _ _ _ _ _ _ _ R Rf St S B T' H') as Ea. fold after in Ea. cbn [image flush] in Ea.
  assert (Ea' : after = stored v (t_file t') n before).
  { rewrite Ea. unfold stored. now rewrite Vb. }
  destruct (calls (firstn j _) (image s)) as [g|] eqn:Eg; [|discriminate]. cbn [bind] in E. injection E as <-. destruct how.
  - destruct (Nat.ltb_spec (length (save_calls args (with_input_options v a) (t_file t'))) j) as [L|L]; [|cbn [disk]; tauto].
    right. right. cbn [disk flush]. rewrite firstn_all2, <- Eb in Eg by lia. rewrite (save_all args v before _ n Sb Hn) in Eg. injection Eg as <-. now rewrite Ea'.
  - right. exists (t_file t'), n. split; [exact Hn|]. split; [exact Ea'|]. split.
    + destruct (bg_init _ _ _ _ B) as (p & ac & lr & it & st & mx & mn & ann & Ei).
      destruct (C33_saved_state _ _ _ _ _ _ _ _ _ _ _ _ _ _ _ _ Ei (Datatypes.S k) ph' t' T') as [[Fe _]|(i & ph2 & t2 & costs & Lj & Sj & (Hp & _) & _)].
      * exists 0, AtEpoch, t0. split; [lia|]. split; [reflexivity|]. rewrite (bg_params _ _ _ _ B). destruct Hn as [_ Hn]. rewrite Fe in Hn. cbn [trainer_view f_params] in Hn.
        destruct (tf_trainer f1); [|discriminate]. now injection Hn.
      * exists i, ph2, t2. split; [exact Lj|]. split; [exact Sj|]. destruct Hn as [_ Hn]. congruence.
    + rewrite Eb, Eg. destruct (_ <? j); reflexivity.
Qed.

(** ** A part of a save *)
Lemma check_stage v j b : j < 3 -> exists e, check_state b (arch_stage j (with_input_options v a) None) = Err e.
Proof using.
  intros L. destruct j as [|[|[|j]]]; [| | |lia]; unfold arch_stage; cbn [Nat.leb h5_of empty_h5 h_inputs h_layers h_output check_state]; [eauto| |];
    destruct (check_dicts _ 0 (a_inputs b)); cbn [bind]; eauto. destruct (check_dicts _ 0 (a_layers b)); cbn [bind]; eauto.
Qed.
Lemma load_stage v j : j < 3 -> exists e, from_state (arch_stage j (with_input_options v a) None) = Err e.
Proof using.
  intros L. destruct j as [|[|[|j]]]; [| | |lia]; unfold arch_stage; cbn [Nat.leb h5_of empty_h5 h_inputs h_layers h_output from_state]; [eauto| |];
    destruct (mapM _ _); cbn [bind]; eauto. destruct (mapM _ _); cbn [bind]; eauto. destruct (mapM _ _); cbn [bind]; eauto.
Qed.
Lemma stage_same v j : arch_stage j (with_input_options v a) (harch v) = harch v.
Proof using V.
  destruct (Nat.le_gt_cases 3 j) as [L|L]; [rewrite arch_stage_all by exact L; apply harch_again|].
  pose proof (harch_again v) as H. revert H. generalize (with_input_options v a). intros b H. unfold ArchModel.get_state in H. cbn [h_inputs h_layers h_output empty_h5] in H. injection H as H1 H2.
  destruct j as [|[|[|j]]]; [reflexivity| | |lia]; unfold arch_stage, ArchModel.get_state; cbn [Nat.leb h5_of h_inputs h_layers h_output empty_h5 dicts_of]; rewrite H1, ?H2; reflexivity.
Qed.
Lemma groups_dec f : groups_full f \/ ~ groups_full f.
Proof using.
  unfold groups_full. destruct (tf_trainer f) as [[[e|] [u|] c]|].
  2-5: right; intros (? & ? & ? & ? & ? & ? & H & _); discriminate.
  destruct (tf_iter f) as [i|]; [|right; intros (? & ? & ? & ? & ? & ? & _ & H & _); discriminate].
  destruct (tf_optimizer f) as [[[lr|] [ac|]]|]; try (right; intros (? & ? & ? & ? & ? & ? & _ & _ & H); discriminate).
  left. eauto 12.
Qed.
Lemma missing_path v n i : of_model v n -> i < length (vars n) -> exists path, In path (parameter_paths n) /\ ~ In path (paths (firstn i (vars n))).
Proof using PN.
  intros M L. destruct (model_fine _ _ M) as (D & _). rewrite <- vars_paths in *. destruct (nth_error (paths (vars n)) i) as [path|] eqn:E.
  - exists path. split; [eapply nth_error_In; eauto|]. unfold paths in *. rewrite <- firstn_map. clear - D E. revert i E. induction (map fst (vars n)) as [|x l IH]; intros [|i] E; try discriminate.
    + cbn. tauto.
    + cbn [nth_error firstn] in *. inversion D; subst. intros [->|I]; [apply nth_error_In in E; contradiction|]. now apply (IH H2 i).
  - apply nth_error_None in E. unfold paths in E. rewrite map_length in E. lia.
Qed.
Lemma written_dead_arrays v f s n j : of_model v n -> f_arrays (tf_model f) = [] -> 1 <= j -> j - 4 < length (vars n) -> 
  dead v (written (with_input_options v a) s (some_arrays n f) (length (vars n)) j f).
Proof using PN.
  intros M E L1 L. apply (dead_arrays v _ n M); cbn [written tf_trainer tf_model f_arrays].
  - destruct j; [lia|discriminate].
  - unfold some_arrays. rewrite E, skipn_nil, app_nil_r. now apply (missing_path v).
  - intros p x y Hx Hy. unfold some_arrays in Hy. rewrite E, skipn_nil, app_nil_r in Hy. destruct (model_fine _ _ M) as (D & _).
    assert (Dn : is_dict (vars n)) by (unfold is_dict; now rewrite vars_paths).
    assert (Hy' : In (p, y) (vars n)) by (rewrite <- (firstn_skipn (j - 4) (vars n)); apply in_or_app; now left).
    now rewrite (in_unique _ _ _ _ Dn Hx Hy').
Qed.
(** The state is resumed, or training cannot start. *)
Lemma written_some v f s n x j : of_model v x -> some_arrays n f (j - 4) = vars x ->
  (f_architecture (tf_model f) = None \/ f_architecture (tf_model f) = harch v) -> 1 <= j ->
  let f' := written (with_input_options v a) s (some_arrays n f) (length (vars n)) j f in
  full v x f' \/ dead v f'.
Proof using V.
  intros M E Fa L f'. assert (Ht : tf_trainer f' <> None) by (destruct j; [lia|discriminate]).
  destruct (groups_dec f') as [G|G]; [|right; now apply dead_groups].
  assert (Ca : f_architecture (tf_model f') = harch v \/ forall b, exists e, check_state b (f_architecture (tf_model f')) = Err e).
  { unfold f', written. cbn [tf_model f_architecture]. destruct Fa as [-> | ->].
    - destruct (Nat.le_gt_cases 3 (j - (length (vars n) + 4))) as [L3|L3]; [left; now rewrite arch_stage_all|]. right. intros b. now apply check_stage.
    - left. apply stage_same. }
  destruct Ca as [Ca|Ca]; [left|right; now apply dead_architecture]. constructor; [exact M|exact Ca|exact E|exact G].
Qed.
Lemma mixed_arrays v f n n' i : full v n f -> of_model v n' -> exists x, of_model v x /\ mixture i n n' x /\ some_arrays n' f i = vars x.
Proof using.
  intros F M'. pose proof (fl_model _ _ _ F) as M. pose proof (mix_mixture i n n' (models_other _ _ _ M M')) as Mx. exists (mix i n n').
  split; [eapply model_other; [exact M|apply (mx_network _ _ _ _ Mx)]|]. split; [exact Mx|]. rewrite (mixture_vars _ _ _ _ Mx). unfold some_arrays. now rewrite (fl_arrays _ _ _ F).
Qed.
Lemma write_full v f n s n' j : full v n f -> saves v s n' -> exists x, mixture (j - 4) n n' x /\
  full v x (written (with_input_options v a) s (some_arrays n' f) (length (vars n')) j f).
Proof using V.
  intros F H. pose proof (saves_model _ _ _ H) as M'. destruct (mixed_arrays _ _ _ _ (j - 4) F M') as (x & M & Mx & E). exists x. split; [exact Mx|].
  constructor; [exact M| |exact E|]; unfold written; cbn [tf_model f_architecture].
  - rewrite (fl_architecture _ _ _ F). apply stage_same.
  - destruct (fl_groups _ _ _ F) as (e & u & c & i & lr & ac & G1 & G2 & G3). destruct H as [C _]. destruct C. unfold groups_full. cbn [tf_trainer tf_iter tf_optimizer f_trainer f_iter f_optimizer].
    rewrite G1, G2, G3. unfold group_stage, opt_stage. cbn [group_of g_epoch g_update g_costs variables_of fst snd].
    destruct j as [|j]; [do 6 eexists; repeat split; reflexivity|].
    destruct (1 <=? j), (2 <=? j), (Datatypes.S j - (length (vars n') + 7) =? 0), (Datatypes.S j - (length (vars n') + 8)) as [|q];
      try (do 6 eexists; repeat split; reflexivity); destruct (1 <=? q), (2 <=? q); do 6 eexists; repeat split; reflexivity.
Qed.

Lemma write_classified v f s n j : sound v f -> saves v s n ->
  let f' := written (with_input_options v a) s (some_arrays n f) (length (vars n)) j f in sound v f' \/ dead v f'.
Proof using V PN.
  intros S H f'. pose proof (saves_model _ _ _ H) as M. destruct (Nat.eq_dec j 0) as [->|Nj].
  - left. replace f' with f; [exact S|]. unfold f', written, some_arrays. destruct f as [[]]. reflexivity.
  - destruct S as [F|(n0 & F)].
    2:{ destruct (write_full _ _ _ _ _ j F H) as (x & _ & Fx). left. right. eauto. }
    destruct (fr_arrays _ _ F) as [E|(n0 & M0 & E)].
    + destruct (Nat.lt_ge_cases (j - 4) (length (vars n))) as [L|L]; [right; apply written_dead_arrays; auto; lia|].
      destruct (written_some v f s n n j M (some_all v f n _ (or_introl F) M L) (fr_architecture _ _ F)) as [Fx|Fx]; [lia|left; right; eauto|now right].
    + pose proof (mix_mixture (j - 4) n0 n (models_other _ _ _ M0 M)) as Mx.
      destruct (written_some v f s n (mix (j - 4) n0 n) j) as [Fx|Fx]; [| |exact (fr_architecture _ _ F)|lia|left; right; eauto|now right].
      * eapply model_other; [exact M0|apply (mx_network _ _ _ _ Mx)].
      * rewrite (mixture_vars _ _ _ _ Mx). unfold some_arrays. now rewrite E.
Qed.
Lemma copied_fresh v f s n j : fresh v f -> of_model v n -> j <= 9 -> fresh v (copied (with_input_options v a) s n j f).
Proof using.
  intros [F1 F2 F3] M L. constructor; unfold copied; cbn [tf_trainer tf_model f_architecture f_arrays]; unfold part.
  - rewrite F1. destruct (j <? 9) eqn:E; [reflexivity|]. apply Nat.ltb_ge in E. replace j with 9 by lia. reflexivity.
  - destruct (j <? 1); [exact F2|]. destruct (j =? 1); auto.
  - destruct (j <? 5); [exact F3|]. destruct (j =? 5); eauto.
Qed.
Inductive copied_full (v : vocabulary) (n n' : network A) (f f' : train_file) : nat -> Prop :=
| cf_0 : f' = f -> copied_full v n n' f f' 0
| cf_1 : dead v f' -> f_architecture (tf_model f') = None -> copied_full v n n' f f' 1
| cf_2 : f' = f -> copied_full v n n' f f' 2
| cf_3 : dead v f' -> tf_model f' = tf_model f -> copied_full v n n' f f' 3
| cf_4 : full v n f' -> copied_full v n n' f f' 4
| cf_5 : dead v f' -> f_arrays (tf_model f') = [] -> f_architecture (tf_model f') = harch v -> copied_full v n n' f f' 5
| cf_6 : full v n' f' -> copied_full v n n' f f' 6
| cf_7 : dead v f' -> f_arrays (tf_model f') = vars n' -> f_architecture (tf_model f') = harch v -> copied_full v n n' f f' 7
| cf_8 : full v n' f' -> copied_full v n n' f f' 8
| cf_9 : fresh v f' -> f_arrays (tf_model f') = vars n' -> f_architecture (tf_model f') = harch v -> copied_full v n n' f f' 9.
Lemma copy_full v f s n n' j : full v n f -> saves v s n' -> j <= 9 -> copied_full v n n' f (copied (with_input_options v a) s n' j f) j.
Proof using PN.
  intros F H L. pose proof (saves_model _ _ _ H) as M'. destruct F as [M F1 F2 (e & u & c & i & lr & ac & G1 & G2 & G3)]. destruct H as [C _]. destruct C as [p e' u' c' i' lr' ac' Hp].
  destruct f as [[vs ar arr] tr it op]. cbn [tf_model tf_trainer tf_iter tf_optimizer f_vocabulary f_architecture f_arrays] in *. subst ar arr tr it op.
  assert (Nn : forall X, exists path, In path (parameter_paths n') /\ ~ In path (paths ([] : list (pystr * X)))).
  { intros X. destruct (model_fine _ _ M') as (_ & _ & N & _). rewrite <- vars_paths. destruct (vars n') as [|[p0 x0] r]; [congruence|]. exists p0. split; [now left|intros []]. }
  destruct j as [|[|[|[|[|[|[|[|[|[|j]]]]]]]]]]; [..|lia]; clear L; unfold copied, part; cbn [tf_model tf_trainer tf_iter tf_optimizer f_vocabulary f_architecture f_arrays f_trainer f_iter f_optimizer Nat.ltb Nat.leb Nat.eqb]; constructor;
    try reflexivity; try (constructor; cbn [tf_model tf_trainer tf_iter tf_optimizer f_architecture f_arrays]; auto; unfold groups_full; cbn [tf_trainer tf_iter tf_optimizer]; eauto 12; fail).
  - apply dead_architecture; cbn; [discriminate|]. eauto.
  - apply dead_groups; cbn; [discriminate|]. intros (? & ? & ? & ? & ? & ? & _ & X & _). discriminate.
  - apply (dead_arrays v _ n' M'); cbn; [discriminate|exact (Nn nat)|]. intros ? ? ? _ [].
  - apply dead_groups; cbn; [discriminate|]. intros (? & ? & ? & ? & ? & ? & _ & _ & X). discriminate.
Qed.
Lemma copy_classified v f s n j : sound v f -> saves v s n -> let f' := copied (with_input_options v a) s n j f in sound v f' \/ dead v f'.
Proof using PN.
  intros S H f'. destruct (Nat.le_gt_cases 10 j) as [L|L].
  - left. right. exists n. unfold f'. rewrite copied_all by exact L. now apply (stored_full v s n f).
  - destruct S as [F|(n0 & F)]; [left; left; apply copied_fresh; [exact F|eapply saves_model; eauto|lia]|].
    destruct (copy_full v f s n0 n j F H) as [E|D E|E|D E|E|D E|E|D E|E|E]; try lia; try (now right); left; try (right; eauto; fail); try (now left).
    + right. exists n0. fold f' in E. now rewrite E.
    + right. exists n0. fold f' in E. now rewrite E.
Qed.
Lemma part_file args v f s n j : sound v f -> saves v s n ->
  calls (firstn j (save_calls args (with_input_options v a) s)) f =
  Ok (if ta_validation_file args then copied (with_input_options v a) s n j f else written (with_input_options v a) s (some_arrays n f) (length (vars n)) j f).
Proof using PN.
  intros S H. pose proof (saves_model _ _ _ H) as M. destruct (model_fine _ _ M) as (D & _). unfold save_calls. destruct (ta_validation_file args).
  - apply copy_part; [apply H|exact D].
  - apply write_part; [apply H|]. now apply (arrays_part v).
Qed.
Lemma part_classified args v f s n j f' : sound v f -> saves v s n -> calls (firstn j (save_calls args (with_input_options v a) s)) f = Ok f' ->
  (sound v f' \/ dead v f') /\ f_vocabulary (tf_model f') = f_vocabulary (tf_model f).
Proof using V PN.
  intros S H. rewrite (part_file args v f s n j S H). intros [= <-]. destruct (ta_validation_file args); (split; [|reflexivity]); [now apply copy_classified|now apply write_classified].
Qed.

(** ** A command can be stopped anywhere *)
Lemma run_none args u k : forall x y, run args u k x = (y, None) -> tsteps args u k x = Ok y.
Proof using.
  induction k as [|k IH]; intros x y; cbn [steps TrainCommandModel.run]; [now intros [= <-]|].
  destruct (step _ _ _ _ _ _ x) as [z|]; [|discriminate]. cbn [bind]. apply IH.
Qed.
Lemma stops how fuel k j args v f f1 : read_vocabulary args f = (Ok v, f1) -> same_model args -> sound v f1 -> fst (train_command fuel k args f) = Interrupted ->
  exists f', stopped_command how fuel k j args f = Ok f'.
Proof using V PN update_values.
  intros R Hs S E. unfold TrainCommandModel.train_command in E. unfold CrashModel.stopped_command. rewrite R in *. destruct (refused args v); [discriminate|].
  destruct (start fuel args v f1) as [[[m u] t0]|] eqn:St; [|discriminate]. cbn [bind]. pose proof (starts _ _ _ _ _ _ _ Hs S St) as B.
  destruct (run args u k (AtEpoch, t0)) as [[ph t] failed] eqn:Rn. destruct (saved_file f1 m t); [|discriminate]. cbn [fst] in E. destruct failed; [discriminate|]. apply run_none in Rn.
  destruct (proj2 (storing args v f1 f u t0 S (bg_ready _ _ _ _ B) (bg_log _ _ _ _ B) k ph t) Rn) as (s & Es & Rt & H).
  unfold stopped_at. rewrite (bg_architecture _ _ _ _ B), Es. cbn [bind].
  destruct (CrashModel.training_step _ _ _ _ _ _ (ph, t)) as [[ph' t']|] eqn:Et; [|cbn [bind]; eauto].
  destruct (step_holds _ _ _ _ _ _ _ Rt Et) as (R2 & Ec & Ef & En). destruct (saved_between t t'); [|cbn [bind]; eauto]. destruct (En eq_refl) as (n & Hn).
  rewrite (part_file args v (image s) (t_file t') n j (proj1 (holds_image _ _ _ _ _ S H)) Hn). cbn [bind]. eauto.
Qed.
(** The save of the last step, when it is complete *)
Lemma stops_after how fuel k args v f f1 : read_vocabulary args f = (Ok v, f1) -> same_model args -> sound v f1 ->
  let before := snd (train_command fuel k args f) in let after := snd (train_command fuel (S k) args f) in
  before <> after -> exists J, forall j, J <= j -> stopped_command how fuel k j args f = Ok after.
Proof using V PN update_values.
  intros R Hs S before after Ne. unfold CrashModel.stopped_command. rewrite R.
  assert (Rf : refused args v = false).
  { destruct (refused args v) eqn:Rf; [|reflexivity]. exfalso. apply Ne. unfold before, after, TrainCommandModel.train_command. now rewrite R, Rf. }
  rewrite Rf. destruct (start fuel args v f1) as [[[m u] t0]|] eqn:St.
  2:{ exfalso. apply Ne. unfold before, after, TrainCommandModel.train_command. now rewrite R, Rf, St. }
  cbn [bind]. pose proof (starts _ _ _ _ _ _ _ Hs S St) as B. rewrite (bg_architecture _ _ _ _ B).
  pose proof (fun ph t => storing args v f1 f u t0 S (bg_ready _ _ _ _ B) (bg_log _ _ _ _ B) k ph t) as G.
  destruct (tsteps args u k (AtEpoch, t0)) as [[ph t]|] eqn:T.
  2:{ exfalso. apply Ne. unfold before, after, TrainCommandModel.train_command. rewrite R, Rf, St. now rewrite (run_longer _ _ _ _ _ T). }
  destruct (proj2 (G ph t) eq_refl) as (s & Es & Rt & H). clear G. unfold stopped_at. rewrite Es. cbn [bind].
  pose proof (command_file _ _ _ _ _ _ _ _ _ _ _ _ R Rf St S B T H) as Eb. fold before in Eb.
  destruct (CrashModel.training_step _ _ _ _ _ _ (ph, t)) as [[ph' t']|] eqn:Et.
  2:{ exfalso. apply Ne. unfold before, after, TrainCommandModel.train_command. rewrite R, Rf, St, (run_of _ _ _ _ _ T), (run_failed _ _ _ _ _ _ T Et). 
      destruct (saved_file f1 m t); reflexivity. }
  assert (T' : tsteps args u (Datatypes.S k) (AtEpoch, t0) = Ok (ph', t')) by (rewrite steps_snoc, T; exact Et).
  destruct (step_holds _ _ _ _ _ _ _ Rt Et) as (R2 & Ec & Ef & En). destruct (saved_between t t') eqn:Sv.
  - destruct (En eq_refl) as (n & Hn).
    assert (H' : holds v f1 f t' (flush (stored v (t_file t') n f1))) by (unfold holds; rewrite Ec, orb_true_r; eauto).
    pose proof (command_file _ _ _ _ _ _ _ _ _ _ _ _ R Rf St S B T' H') as Ea. fold after in Ea. cbn [image flush] in Ea.
    destruct (holds_image _ _ _ _ _ S H) as [Si Vi].
    exists (Datatypes.S (length (save_calls args (with_input_options v a) (t_file t')))). intros j Lj. rewrite firstn_all2 by lia.
    rewrite (save_all args v (image s) _ n Si Hn). cbn [bind]. destruct (Nat.ltb_spec (length (save_calls args (with_input_options v a) (t_file t'))) j); [|lia].
    cbn [disk image flush]. rewrite Ea. unfold stored. rewrite Vi. now destruct how.
  - exfalso. apply Ne. rewrite Eb. symmetry. apply (command_file _ _ _ _ _ _ _ _ _ _ _ _ R Rf St S B T').
    unfold holds. rewrite Ec, orb_false_r, Ef by reflexivity. exact H.
Qed.
End Runs.
