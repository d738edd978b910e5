(** Train commands that use the optimizers. *)
From Coq Require Import Reals QArith Qcanon Qreals.
From Verif Require Import Base ListLib BaseLib QcLib Dict Strings TextModel VocabModel VocabSpec ArchModel ArchSpec ParamModel ParamSpec NetModel NetReal DeviceModel BuildModel
  SavedModel SavedSpec SavedArrays SavedBuild SavedNetwork SavedProofs IterModel IterSpec TrainerModel TrainerSpec TrainDataModel TrainDataProps
  TrainCommandModel TrainCommandSpec TrainCommandProofs TrainCommandVocab TrainCommandRuns TrainCommandProps
  OptimizerModel OptimizerSpec TrainOptimizerModel TrainOptimizerSpec TrainOptimizerProofs.
Local Open Scope nat_scope.
Local Open Scope list_scope.

(** ** The files of the words in a mini-batch *)
Definition files_read (num_files : nat) (st : bstate shuffling) : Prop :=
  length (sp_files (s_pointers (b_src st))) = num_files /\ forall w f, In (w, f) (b_buffer st) -> f < num_files.

Lemma readline_files s line f s' : shuffling_readline s = Ok (Some (line, f), s') -> f < length (sp_files (s_pointers s)) /\ s_pointers s' = s_pointers s.
Proof.
  unfold shuffling_readline. destruct (_ <=? _); [discriminate|]. destruct (py_index (s_order s) _) as [i|]; [|discriminate]. cbn [bind].
  destruct (py_index (sp_pointers _) i) as [[k p]|]; [|discriminate]. cbn [bind]. destruct (py_index (sp_files _) k) as [d|] eqn:E; [|discriminate]. cbn [bind].
  intros [= _ <- <-]. split; [|reflexivity]. unfold py_index in E. destruct (nth_error _ k) eqn:Ek; [|discriminate]. apply nth_error_Some. congruence.
Qed.
Lemma readline_none s s' : shuffling_readline s = Ok (None, s') -> s' = s.
Proof.
  unfold shuffling_readline. destruct (_ <=? _); [now intros [= <-]|]. destruct (py_index (s_order s) _) as [i|]; [|discriminate]. cbn [bind].
  destruct (py_index (sp_pointers _) i) as [[k p]|]; [|discriminate]. cbn [bind]. destruct (py_index (sp_files _) k) as [d|] eqn:E; discriminate.
Qed.
Lemma sequence_files num_files max_len st r st' : files_read num_files st -> read_sequence shuffling shuffling_readline max_len st = Ok (r, st') ->
  files_read num_files st' /\ forall q w f, r = Some q -> In (w, f) q -> f < num_files.
Proof.
  intros [L B]. unfold read_sequence. destruct (b_buffer st) as [|x buf] eqn:Eb.
  - destruct (shuffling_readline (b_src st)) as [[[[line f]|] s']|] eqn:E; [| |discriminate]; cbn [bind].
    + destruct (utterance_from_line line) as [u|]; [|discriminate]. cbn [bind]. apply readline_files in E as [Lf Ep]. rewrite L in Lf.
      assert (G : forall w g, In (w, g) (map (fun word => (word, f)) u) -> g < num_files).
      { intros w g H. apply in_map_iff in H as (y & [= _ <-] & _). exact Lf. }
      revert G. generalize (map (fun word => (word, f)) u). intros l G. unfold take_from_buffer. destruct max_len as [m|]; intros [= <- <-].
      * split; [split; [cbn; now rewrite Ep|cbn; intros w g H; eapply G; rewrite <- (firstn_skipn m l); apply in_app_iff; eauto]|].
        intros q w g [= <-] H. eapply G. rewrite <- (firstn_skipn m l). apply in_app_iff. eauto.
      * split; [split; [cbn; now rewrite Ep|cbn; contradiction]|]. intros q w g [= <-] H. eapply G; eauto.
    + apply readline_none in E. subst s'. intros [= <- <-]. split; [split; [exact L|cbn; contradiction]|discriminate].
  - assert (G : forall w g, In (w, g) (x :: buf) -> g < num_files) by (intros w g H; apply (B w g); now rewrite ?Eb).
    revert G. generalize (x :: buf). intros l G. unfold take_from_buffer. destruct max_len as [m|]; intros [= <- <-].
    + split; [split; [exact L|cbn; intros w g H; eapply G; rewrite <- (firstn_skipn m l); apply in_app_iff; eauto]|].
      intros q w g [= <-] H. eapply G. rewrite <- (firstn_skipn m l). apply in_app_iff. eauto.
    + split; [split; [exact L|cbn; contradiction]|]. intros q w g [= <-] H. eapply G; eauto.
Qed.
Lemma loop_files reset batch_size max_len num_files : (forall b s, s_pointers (reset b s) = s_pointers s) ->
  forall fuel st acc r st', files_read num_files st -> (forall s w f, In s acc -> In (w, f) s -> f < num_files) ->
  next_loop shuffling shuffling_readline reset batch_size max_len fuel st acc = Ok (r, st') ->
  files_read num_files st' /\ forall b, r = Some b -> from_files num_files b.
Proof.
  intros Hr. induction fuel as [|fuel IH]; intros st acc r st' F Ha; [discriminate|]. cbn [next_loop].
  destruct (read_sequence _ _ _ st) as [[[q|] st1]|] eqn:E; [| |discriminate]; cbn [bind]; destruct (sequence_files _ _ _ _ _ F E) as [F1 Fq].
  - destruct (_ <? 2); [now apply IH|].
    assert (Ha' : forall s w f, In s (acc ++ [q]) -> In (w, f) s -> f < num_files).
    { intros s w f H Hw. apply in_app_iff in H as [H|[<-|[]]]; [eapply Ha; eauto|eapply Fq; eauto]. }
    destruct (_ <=? _); [|now apply IH]. intros [= <- <-]. split; [exact F1|]. intros b [= <-]. split; [destruct acc; discriminate|exact Ha'].
  - destruct acc as [|s acc].
    + intros [= <- <-]. split; [|discriminate]. destruct F1 as [F1 F2]. split; [cbn; now rewrite Hr|exact F2].
    + intros [= <- <-]. split; [exact F1|]. intros b [= <-]. split; [discriminate|exact Ha].
Qed.
Lemma next_files choice shuffle10 batch_size max_len num_files st r st' : files_read num_files st ->
  data_next choice shuffle10 batch_size max_len st = (r, st') -> files_read num_files st' /\ forall b, r = Some b -> from_files num_files b.
Proof.
  intros F. unfold data_next, next_sequences. destruct (b_eof st).
  - intros [= <- <-]. split; [exact F|discriminate].
  - destruct (next_loop _ _ _ _ _ _ _ _) as [[q i]|] eqn:E; intros [= <- <-]; [|split; [exact F|discriminate]].
    eapply loop_files; [|exact F| |exact E]; [intros [|] s; reflexivity|contradiction].
Qed.
Lemma restore_files num_files st s st' : files_read num_files st -> data_restore st s = Ok st' -> files_read num_files st'.
Proof.
  intros [F1 F2]. unfold data_restore, shuffling_iter_set_state, shuffling_set_state. destruct (is_order s) as [[|o l]|]; try discriminate.
  destruct (is_next_line s); [|discriminate]. cbn [bind]. intros [= <-]. split; [exact F1|exact F2].
Qed.
Lemma make_pointers_files files sp : make_pointers files = Ok sp -> length (sp_files sp) = length files.
Proof.
  unfold make_pointers. assert (G : forall fs s s', foldM add_file fs s = Ok s' -> length (sp_files s') = length (sp_files s) + length fs).
  { induction fs as [|x fs IH]; intros s s'; cbn [foldM]; [intros [= <-]; cbn; lia|]. destruct (add_file s x) as [s1|] eqn:E; [|discriminate]. cbn [bind].
    intros H. rewrite (IH _ _ H). cbn [length]. revert E. unfold add_file. destruct x; [discriminate|]. destruct (find_sentence_starts _); [|discriminate]. cbn [bind].
    intros [= <-]. cbn [sp_files]. rewrite app_length. cbn [length]. lia. }
  intros H. now rewrite (G _ _ _ H).
Qed.
Lemma data_files choice shuffle10 batch_size max_len fuel files sampling n it :
  trainer_data choice shuffle10 batch_size max_len fuel files sampling = Ok (n, it) -> files_read (length files) it /\ 0 < length files.
Proof.
  intros H. pose proof (data_pointers _ _ _ _ _ _ _ _ _ H) as P. unfold trainer_data in H. destruct (linear_init files) as [l|] eqn:El; [|discriminate]. cbn [bind] in H.
  destruct (IterModel.epoch _ _ _ _ _ _ _) as [[bs e]|] eqn:Ee; [|discriminate]. cbn [bind] in H. destruct (Nat.ltb_spec (length bs) 1) as [|Lb]; [discriminate|].
  destruct (shuffling_init _ _ _ _) as [s|] eqn:Es; [|discriminate]. cbn [bind] in H. injection H as _ <-. cbn [batch_init b_src b_buffer] in *.
  split; [|destruct files; [discriminate|cbn; lia]]. split; [|cbn; contradiction]. cbn [batch_init b_src]. now rewrite (make_pointers_files _ _ P).
Qed.

(** ** What training keeps *)
Section Kept.
Context {params accum iter isaved batch : Type}.
Variable next_batch : iter -> option batch * iter.
Variable update : params -> accum -> Qc -> batch -> params * accum.
Variable perplexity : params -> Qc.
Variable isave : iter -> isaved.
Variable irestore : iter -> isaved -> result iter.
Variable o : toptions.
Notation tstate := (@tstate params accum iter isaved batch).
Notation file := (@file params accum isaved).
Variable P : params -> accum -> Prop.
Hypothesis HP : forall p a lr b, P p a -> P (fst (update p a lr b)) (snd (update p a lr b)).
Variable I : iter -> Prop.
Hypothesis HI : forall i, I i -> I (snd (next_batch i)).
Hypothesis HR : forall i s i', I i -> irestore i s = Ok i' -> I i'.

Definition good_file (f : file) : Prop := forall p l x, f_params f = Some p -> f_optimizer f = Some (l, Some x) -> P p x.
Record sound (t : tstate) : Prop := mkSound {
  s_state : P (t_params t) (t_accum t); s_iter : I (t_iter t);
  s_file : good_file (t_file t); s_center : forall c, t_center t = Some c -> good_file c }.

Lemma sound_event e t : sound t -> sound (add_event e t).
Proof using. intros []. constructor; cbn; auto. Qed.
Lemma sound_candidate f t : good_file f -> sound t -> sound (set_candidate_state f t).
Proof using. intros H []. constructor; cbn; auto. Qed.
Lemma sound_samples l c t : (forall f, c = Some f -> good_file f) -> sound t -> sound (set_samples l c t).
Proof using. intros H []. constructor; cbn; auto. Qed.
Lemma sound_get_state (t : tstate) : sound t -> good_file (get_state isave t).
Proof using. intros [] p l x. cbn. intros [= <-] [= _ <-]. assumption. Qed.
Lemma sound_reset (t t' : tstate) : sound t -> reset_state irestore t = Ok t' -> sound t'.
Proof using HR.
  intros K. unfold reset_state. destruct (f_params (t_file t)) as [p|] eqn:E; [|discriminate].
  destruct (f_trainer (t_file t)) as [g|]; [|discriminate]. destruct (g_epoch g); [|discriminate]. destruct (g_update g); [|discriminate].
  destruct (f_iter (t_file t)); [|discriminate]. destruct (irestore _ _) eqn:Er; [|discriminate]. cbn [bind].
  destruct (f_optimizer (t_file t)) as [[[lr1|] [a1|]]|] eqn:Eo; try discriminate. intros [= <-]. pose proof (s_file _ K _ _ _ E Eo).
  destruct K. constructor; cbn; auto. eapply HR; eauto.
Qed.
Lemma sound_decrease t t' : sound t -> decrease_learning_rate irestore t = Ok t' -> sound t'.
Proof using HR.
  intros K. unfold decrease_learning_rate. destruct (reset_state irestore t) as [u|] eqn:E; [|discriminate]. cbn [bind]. intros [= <-].
  apply sound_reset in E; [|exact K]. apply sound_event. destruct E. constructor; cbn; auto.
Qed.
Lemma sound_finish t t' : sound t -> finish_validation irestore o t = Ok t' -> sound t'.
Proof using HR.
  intros K. unfold finish_validation. destruct (t_center t) as [f|] eqn:Ec; [|discriminate].
  set (c := median (t_samples t)). set (costs := t_costs t ++ [c]).
  assert (Ku : sound (add_event (EvValidation c) (set_costs costs t))).
  { apply sound_event. destruct K. constructor; cbn; auto. }
  set (u := add_event _ _) in *. clearbody u. destruct (has_improved u) as [b|]; [|discriminate]. cbn [bind].
  assert (Kw : sound (if b then set_candidate_state (with_costs f costs) u else u)).
  { destruct b; [|exact Ku]. apply sound_candidate; [|exact Ku]. exact (s_center _ K _ Ec). }
  set (w := if b then _ else u) in *. clearbody w.
  match goal with |- bind ?x _ = _ -> _ => destruct x as [v|] eqn:Ev; [|discriminate] end. cbn [bind]. intros [= <-].
  apply sound_samples; [discriminate|]. revert Ev. destruct (0 <=? o_patience o)%Z; [|intros [= <-]; exact Kw].
  destruct (validations_since_candidate w) as [k|]; [|discriminate]. cbn [bind]. destruct (o_patience o <? k)%Z; [|intros [= <-]; exact Kw].
  now apply sound_decrease.
Qed.
Lemma sound_validate t t' : sound t -> validate perplexity isave irestore o t = Ok t' -> sound t'.
Proof using HR.
  intros K. unfold validate. destruct (negb (o_validate o)); [intros [= <-]; exact K|].
  destruct (negb (is_scheduled _ _ (o_samples o - 1) _)); [intros [= <-]; exact K|].
  set (u := add_event _ (set_samples _ (t_center t) t)).
  assert (Ku : sound u).
  { apply sound_event. apply sound_samples; [|exact K]. intros f E. exact (s_center _ K _ E). }
  clearbody u. destruct (negb (is_scheduled _ _ (o_samples o / 2) _)); [intros [= <-]; exact Ku|].
  set (w := match t_center u with None => _ | Some _ => u end).
  assert (Kw : sound w).
  { unfold w. destruct (t_center u); [exact Ku|]. apply sound_event. apply sound_samples; [|exact Ku].
    intros f [= <-]. now apply sound_get_state. }
  clearbody w. destruct (negb (is_scheduled _ _ 0 _)); [intros [= <-]; exact Kw|].
  destruct (_ <? _); [|now apply sound_finish]. intros [= <-]. apply sound_event. now apply sound_samples.
Qed.
Lemma sound_step ph t ph' t' : sound t -> step next_batch update perplexity isave irestore o (ph, t) = Ok (ph', t') -> sound t'.
Proof using HP HI HR.
  intros K. destruct ph; cbn [step].
  - destruct (start_new_epoch _ _ _) as [s go]. intros [= _ <-]. destruct K. constructor; cbn; auto.
  - pose proof (HI _ (s_iter _ K)) as Hi. destruct (next_batch (t_iter t)) as [[b|] it]; cbn [snd] in Hi.
    + assert (Ku : sound (TrainerModel.update_minibatch update b it t)).
      { unfold TrainerModel.update_minibatch. pose proof (HP (t_params t) (t_accum t) (t_lr t) b (s_state _ K)) as Hp.
        destruct (update _ _ _ b) as [p a]. apply sound_event. destruct K. constructor; cbn; auto. }
      destruct (validate _ _ _ _ _) as [u|] eqn:E; [|discriminate]. apply sound_validate in E; [|exact Ku]. cbn [bind].
      destruct (start_new_minibatch _ _ _) as [s go]. intros [= _ <-]. destruct E. constructor; cbn; auto.
    + intros [= _ <-]. destruct K. constructor; cbn; auto.
  - intros [= _ <-].
    assert (Kw : sound (if o_validate o then t else set_candidate_state (get_state isave t) t)).
    { destruct (o_validate o); [exact K|]. apply sound_candidate; [|exact K]. now apply sound_get_state. }
    set (w := if o_validate o then t else _) in *. clearbody w. destruct Kw. constructor; cbn; auto.
  - intros [= _ <-]. exact K.
Qed.
Lemma sound_steps k : forall ph t ph' t', sound t -> steps next_batch update perplexity isave irestore o k (ph, t) = Ok (ph', t') -> sound t'.
Proof using HP HI HR.
  induction k as [|k IH]; intros ph t ph' t' K; cbn [steps]; [intros [= _ <-]; exact K|].
  destruct (step _ _ _ _ _ _ (ph, t)) as [[ph1 t1]|] eqn:E; [|discriminate]. cbn [bind]. apply IH. eapply sound_step; eauto.
Qed.
Lemma sound_initialize p a lr it s f0 t : (f_trainer f0 = None -> P p a) -> I it -> good_file f0 ->
  initialize irestore p a lr it s f0 = Ok t -> sound t.
Proof using HR.
  intros Hp Hi Hf. unfold initialize. destruct (f_trainer f0) eqn:Et.
  - unfold reset_state. cbn [t_file t_iter]. destruct (f_params f0) as [q|] eqn:E; [|discriminate]. rewrite Et.
    destruct (g_epoch _); [|discriminate]. destruct (g_update _); [|discriminate].
    destruct (f_iter f0); [|discriminate]. destruct (irestore _ _) eqn:Er; [|discriminate]. cbn [bind].
    destruct (f_optimizer f0) as [[[lr1|] [a1|]]|] eqn:Eo; try discriminate. intros [= <-].
    constructor; cbn; [eapply Hf; eauto|eapply HR; eauto|exact Hf|discriminate].
  - intros [= <-]. constructor; cbn; auto. discriminate.
Qed.
End Kept.

(** ** Commands *)
Section Commands.
Variable parse_int : pystr -> result Z.
Variable parse_float : pystr -> result Qc.
Variable choice : train_args -> nat -> nat -> list nat -> nat -> bool -> list nat.
Variable shuffle10 : train_args -> nat -> list nat -> list nat.
Variable dropout_scale : option ArchModel.value -> result (num reals).
Variable initial : train_args -> pystr -> pystr -> nat -> nat -> nat -> num reals.
Variable perplexity : train_args -> rnetwork -> Qc.
Variable arch : train_args -> result architecture.
Variable view : vocab_view.
Variable class_of : nat -> nat.
Variable gradients : train_args -> rnetwork -> tdict -> list (list nat) -> list (list nat) -> list (list bool) -> list tensor.
Variable method_of : train_args -> method.
Variable opts_of : train_args -> OptimizerModel.options.
Hypothesis Hgrad : forall args n d w c k, map (@length R) (gradients args n d w c k) = map (fun x => length (snd x)) d.
Hypothesis Hmax : forall args, (0 <= max_norm (opts_of args))%R.
Notation optimize := (optimize view class_of gradients method_of opts_of).
Notation train_file := (train_file reals opt_state).
Notation read_vocabulary := (@TrainCommandModel.read_vocabulary reals opt_state parse_int parse_float).
Notation start := (@TrainCommandModel.start reals opt_state parse_int choice shuffle10 dropout_scale initial (optimizer_of method_of) (accepted method_of) arch).
Notation unchecked_start := (@TrainCommandModel.start reals opt_state parse_int choice shuffle10 dropout_scale initial (optimizer_of method_of) (fun _ _ => true) arch).
Notation run := (@TrainCommandModel.run reals opt_state choice shuffle10 optimize perplexity).
Notation train_command := (@TrainCommandModel.train_command reals opt_state parse_int parse_float choice shuffle10 dropout_scale initial (optimizer_of method_of) (accepted method_of) optimize perplexity arch).
Notation train_commands := (@TrainCommandModel.train_commands reals opt_state parse_int parse_float choice shuffle10 dropout_scale initial (optimizer_of method_of) (accepted method_of) optimize perplexity arch).
Notation tsteps args u := (steps (data_next (choice args) (shuffle10 args) (ta_batch_size args) (ta_sequence_length args))
  (optimize args (file_weights args)) (perplexity args) data_save data_restore (TrainCommandModel.options_of args u)).
Variable a : architecture.
Variable d : option pystr.
Hypothesis V : valid a.
Hypothesis PN : plain_names a.
Notation same_model := (same_model arch a d).
Notation trained := (@TrainCommandRuns.trained reals opt_state parse_int dropout_scale a d).
Notation inv := (@TrainCommandRuns.inv reals opt_state parse_int dropout_scale a d).
(** What is claimed of every saved state of an optimizer, and the commands that keep it *)
Variable Q : opt_state -> Prop.
Definition allowed (args : train_args) : Prop :=
  (forall n, Q (created (method_of args) n)) /\
  forall s x, Q x -> Q (state_of (negb (ta_validation_file args)) (method_of args) s x).

Definition ready (args : train_args) (n : rnetwork) (x : opt_state) : Prop :=
  distinct_parameters n /\ fits n x /\ complete (method_of args) x /\ Q x.
Definition saved_ok (v : vocabulary) (f : train_file) : Prop :=
  untrained f \/ exists n, trained v n f /\ forall l x, tf_optimizer f = Some (l, Some x) -> fits n x /\ Q x.
Definition inv2 (v : vocabulary) (f : train_file) : Prop := has_vocab v f /\ saved_ok v f.
Lemma inv2_inv v f : inv2 v f -> inv v f.
Proof using. intros [H [U|(n & T & _)]]; split; eauto. Qed.
Notation reached args := (sound (ready args) (files_read (length (ta_training_set args)))).

Lemma ready_update args ws p x lr b : allowed args ->
  ready args p x -> ready args (fst (optimize args ws p x lr b)) (snd (optimize args ws p x lr b)).
Proof using Hgrad Hmax.
  intros HK (D & F & C & Hk). pose proof (optimize_values view class_of gradients method_of opts_of args ws p x lr b) as O.
  pose proof (optimize_kept view class_of gradients method_of opts_of Hgrad Hmax args ws p x lr b D F C) as G.
  assert (Hq : Q (snd (optimize args ws p x lr b))).
  { unfold TrainOptimizerModel.optimize. destruct (bind _ _); cbn [snd]; [now apply HK|exact Hk]. }
  destruct (optimize args ws p x lr b) as [p' x']. cbn [fst snd] in *. destruct G as (G1 & G2 & G3).
  split; [unfold distinct_parameters; now rewrite (other_paths _ _ O)|]. split; [exact G1|]. split; [exact G2|exact Hq].
Qed.
Lemma start_accepts fuel args v f m u t0 : start fuel args v f = Ok (m, u, t0) -> tf_trainer f <> None ->
  accepted method_of args (t_accum t0) = true /\ exists l, tf_optimizer f = Some (l, Some (t_accum t0)).
Proof using.
  unfold TrainCommandModel.start. destruct (data_of _ _ _ _) as [[u' it]|]; [|discriminate]. cbn [bind].
  destruct (get_class_probs v); [|discriminate]. cbn [bind]. destruct (arch args) as [b|]; [|discriminate]. cbn [bind].
  destruct (new_network _ _ _ _ _ b v) as [m0|]; [|discriminate]. cbn [bind]. destruct (tf_trainer f) as [g|] eqn:Et; [|congruence].
  destruct (read_network _ _) as [m1|]; [|discriminate]. cbn [bind].
  destruct (initialize _ _ _ _ _ _ _) as [t|] eqn:Ei; [|discriminate]. cbn [bind]. destruct (accepted _ _ _) eqn:Ea; [|discriminate].
  intros [= _ _ <-] _. split; [exact Ea|].
  unfold initialize, trainer_view in Ei. cbn [f_trainer] in Ei. rewrite Et in Ei. unfold reset_state in Ei. cbn [t_file f_params f_trainer f_iter f_optimizer t_iter] in Ei.
  destruct (g_epoch g); [|discriminate]. destruct (g_update g); [|discriminate]. destruct (tf_iter f); [|discriminate].
  destruct (data_restore _ _); [|discriminate]. cbn [bind] in Ei. destruct (tf_optimizer f) as [[[lr1|] [ac1|]]|]; try discriminate. injection Ei as <-. eauto.
Qed.
Lemma start_unchecked fuel args v f :
  start fuel args v f = (do '(m, u, t0) <- unchecked_start fuel args v f;
                         if match tf_trainer f with Some _ => accepted method_of args (t_accum t0) | None => true end then Ok (m, u, t0) else Err IncompatibleStateError) /\
  forall m u t0, unchecked_start fuel args v f = Ok (m, u, t0) -> tf_trainer f <> None -> exists l, tf_optimizer f = Some (l, Some (t_accum t0)).
Proof using.
  unfold TrainCommandModel.start. destruct (data_of _ _ _ _) as [[u' it]|]; [|split; [reflexivity|discriminate]]. cbn [bind].
  destruct (get_class_probs v); [|split; [reflexivity|discriminate]]. cbn [bind]. destruct (arch args) as [b|]; [|split; [reflexivity|discriminate]]. cbn [bind].
  destruct (new_network _ _ _ _ _ b v) as [m0|]; [|split; [reflexivity|discriminate]]. cbn [bind].
  destruct (match tf_trainer f with Some _ => read_network (tf_model f) m0 | None => Ok m0 end) as [m1|]; [|split; [reflexivity|discriminate]]. cbn [bind].
  destruct (initialize _ _ _ _ _ _ _) as [t|] eqn:Ei; [|split; [reflexivity|discriminate]]. cbn [bind].
  destruct (tf_trainer f) as [g|] eqn:Et; [|split; [reflexivity|congruence]]. split; [reflexivity|]. intros m u t0 [= _ _ <-] _.
  unfold initialize, trainer_view in Ei. cbn [f_trainer] in Ei. rewrite Et in Ei. unfold reset_state in Ei. cbn [t_file f_params f_trainer f_iter f_optimizer t_iter] in Ei.
  destruct (g_epoch g); [|discriminate]. destruct (g_update g); [|discriminate]. destruct (tf_iter f); [|discriminate].
  destruct (data_restore _ _); [|discriminate]. cbn [bind] in Ei. destruct (tf_optimizer f) as [[[lr1|] [ac1|]]|]; try discriminate. injection Ei as <-. eauto.
Qed.
Lemma start_reached fuel args v f m u t0 : same_model args -> inv2 v f -> allowed args ->
  start fuel args v f = Ok (m, u, t0) -> reached args t0.
Proof using V PN.
  intros Hs [Hv Hf] HK St.
  assert (Hf' : untrained f \/ exists n, trained v n f) by (destruct Hf as [U|(n & T & _)]; eauto).
  destruct (started parse_int choice shuffle10 dropout_scale initial (optimizer_of method_of) (accepted method_of) arch a d V PN fuel args v f Hs m u t0 St Hf')
    as (E1 & E2 & E3 & E4 & n0 & B & O & N1 & N2 & it & m0 & D & M & Ei).
  destruct (build_fine _ _ _ _ _ _ _ _ PN B) as [ND _].
  apply data_files in D as [D _].
  eapply sound_initialize; [intros i s i'; apply restore_files| |exact D| |exact Ei].
  - cbn [trainer_view f_trainer]. intros Et. specialize (M Et). subst m0. specialize (N1 Et). unfold optimizer_of. rewrite N1.
    split; [exact ND|]. split; [now apply created_fits|]. split; [apply created_complete|apply HK].
  - intros p l x. cbn [trainer_view f_params f_optimizer]. destruct (tf_trainer f) as [g|] eqn:Et; [|discriminate]. intros [= <-] Eo.
    destruct (start_accepts _ _ _ _ _ _ _ St ltac:(congruence)) as (Ac & l' & Eo'). rewrite Eo in Eo'. injection Eo' as _ ->.
    destruct Hf as [[_ _ U _ _]|(n & T & Hx)]; [congruence|]. destruct (Hx _ _ Eo) as [F Hk]. rewrite (N2 n T).
    split; [|split; [exact F|split; [apply has_variables_iff; exact Ac|exact Hk]]].
    unfold distinct_parameters. rewrite <- (N2 n T), (other_paths _ _ O). exact ND.
Qed.
Lemma steps_reached args u j ph t ph' t' : allowed args -> reached args t -> tsteps args u j (ph, t) = Ok (ph', t') -> reached args t'.
Proof using Hgrad Hmax.
  intros HK. apply sound_steps.
  - intros p x lr b. now apply ready_update.
  - intros i Hi. destruct (data_next _ _ _ _ i) as [r i'] eqn:E. cbn [snd]. eapply next_files; eauto.
  - intros i s i'. apply restore_files.
Qed.
Lemma command_inv2 fuel k args v f o f' : same_model args -> allowed args -> inv2 v f -> train_command fuel k args f = (o, f') -> inv2 v f'.
Proof using V PN Hgrad Hmax.
  intros Hs HK I2. pose proof I2 as [Hv Hf]. unfold TrainCommandModel.train_command. rewrite (read_kept _ _ _ _ _ Hv).
  destruct (refused args v); [intros [= <- <-]; exact I2|]. destruct (start fuel args v f) as [[[m u] t0]|] eqn:St; [|intros [= <- <-]; exact I2].
  destruct (run args u k (AtEpoch, t0)) as [[ph t] failed] eqn:R.
  assert (Hf' : untrained f \/ exists n, trained v n f) by (destruct Hf as [U|(n & T & _)]; eauto).
  destruct (ended parse_int choice shuffle10 dropout_scale initial (optimizer_of method_of) (accepted method_of) optimize perplexity arch a d V PN
    (fun args ws n x lr b => optimize_values view class_of gradients method_of opts_of args ws n x lr b) fuel args v f Hs m u t0 St Hf' k ph t failed R) as (f1 & Es & H).
  rewrite Es. intros [= _ <-]. destruct H as [[-> _]|(n & j & ph' & t' & _ & _ & _ & Ep & T & _ & _ & Eo)]; [exact I2|].
  destruct (run_some choice shuffle10 optimize perplexity _ _ _ _ _ _ R) as (k' & _ & S).
  pose proof (steps_reached _ _ _ _ _ _ _ HK (start_reached _ _ _ _ _ _ _ Hs I2 HK St) S) as [_ _ G _].
  destruct Hv as [Hv U]. split; [split; [now rewrite (saved_vocab _ _ _ _ Es)|exact U]|]. right. exists n. split; [exact T|].
  intros l x Ex. rewrite Eo in Ex. destruct (G _ _ _ Ep Ex) as (_ & F & _ & Hk). auto.
Qed.
Lemma read_trainer args f : tf_trainer (snd (read_vocabulary args f)) = tf_trainer f.
Proof using.
  unfold TrainCommandModel.read_vocabulary, TrainCommandModel.store. cbv zeta.
  repeat match goal with |- context [match ?x with _ => _ end] => destruct x; try reflexivity end.
Qed.
Definition reads_some (c : nat * nat * train_args) : Prop := exists us, sentences (ta_training_set (snd c)) us.
Lemma history_inv2 cs : Forall reads_some cs -> Forall (fun c => same_model (snd c)) cs -> Forall (fun c => allowed (snd c)) cs ->
  forall f, (f = no_file \/ exists v, inv2 v f) -> snd (train_commands cs f) = no_file \/ exists v, inv2 v (snd (train_commands cs f)).
Proof using V PN Hgrad Hmax.
  induction cs as [|[[fuel k] args] cs IH]; intros H1 H2 H3 f Hf; [exact Hf|]. rewrite commands_cons. cbn [snd].
  inversion H1 as [|x l (us & Hus) H1']; subst. inversion H2 as [|x l Hm H2']; subst. inversion H3 as [|x l HK H3']; subst. cbn [snd] in *.
  apply IH; try assumption. destruct (train_command fuel k args f) as [o f'] eqn:E. cbn [snd].
  destruct (next_command parse_int parse_float choice shuffle10 dropout_scale initial (optimizer_of method_of) (accepted method_of) optimize perplexity arch a d
    f fuel k args us o f') as [(_ & -> & _)|(v & f1 & R & I1 & Hff & E1)]; [|exact Hus|exact Hm|exact E|auto|].
  { destruct Hf as [->|(v & I2)]; [auto|right; exists v; now apply inv2_inv]. }
  right. exists v. eapply command_inv2; [exact Hm|exact HK| |exact E1]. destruct Hf as [->|(v' & I2)].
  - split; [apply I1|]. left. destruct I1 as [_ [U|(n & [_ _ _ T])]]; [exact U|]. exfalso. apply T. pose proof (read_trainer args no_file) as X. rewrite R in X. exact X.
  - destruct Hff as [->|<-]; [exfalso; destruct I2 as [[X _] _]; discriminate X|].
    assert (v' = v); [|now subst]. destruct I2 as [[X _] _]. destruct I1 as [[Y _] _]. congruence.
Qed.
End Commands.
