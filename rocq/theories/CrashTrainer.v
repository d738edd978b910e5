(** What a step of the training saves. *)
From Coq Require Import QArith Qcanon.
From Verif Require Import Base ListLib BaseLib TrainerModel TrainerSpec TrainerRuns TrainCommandModel.
Local Open Scope nat_scope.

Section Saves.
Context {params accum iter isaved batch : Type}.
Variable next_batch : iter -> option batch * iter.
Variable update : params -> accum -> Qc -> batch -> params * accum.
Variable perplexity : params -> Qc.
Variable isave : iter -> isaved.
Variable irestore : iter -> isaved -> result iter.
Variable o : toptions.
Notation tstate := (@tstate params accum iter isaved batch).
Notation file := (@file params accum isaved).
Variable P : params -> Prop.
Hypothesis HP : forall p a lr b, P p -> P (fst (update p a lr b)).

(** A state where nothing is missing *)
Inductive complete : file -> Prop :=
| complete_file p e u c i lr a : P p -> complete (mkFile (Some p) (Some (mkTgroup (Some e) (Some u) (Some c))) (Some i) (Some (Some lr, Some a))).
Record ready (t : tstate) : Prop := mkReady {
  rd_params : P (t_params t);
  rd_file : forall p, f_params (t_file t) = Some p -> P p;
  rd_center : forall c, t_center t = Some c -> complete c;
  rd_saved : existsb is_candidate (t_log t) = true -> complete (t_file t) }.
(** The events are only added to the log, and the file changes only if one of them is that
    the state was saved. *)
Definition grows (t t' : tstate) : Prop :=
  exists es, t_log t' = t_log t ++ es /\ (existsb is_candidate es = false -> t_file t' = t_file t).

Lemma grows_refl t : grows t t.
Proof using. exists []. rewrite app_nil_r. split; [reflexivity|auto]. Qed.
Lemma grows_trans t t' t'' : grows t t' -> grows t' t'' -> grows t t''.
Proof using.
  intros (e & E & F) (e' & E' & F'). exists (e ++ e'). rewrite E', E, app_assoc. split; [reflexivity|].
  rewrite existsb_app. intros H. apply orb_false_elim in H as [H1 H2]. rewrite F', F; auto.
Qed.
Lemma grows_same t t' : t_log t' = t_log t -> t_file t' = t_file t -> grows t t'.
Proof using. intros E F. exists []. rewrite app_nil_r. auto. Qed.
Lemma grows_event e t : is_candidate e = false -> grows t (add_event e t).
Proof using. intros H. exists [e]. split; [reflexivity|]. reflexivity. Qed.
Lemma grows_candidate f t : grows t (set_candidate_state f t).
Proof using. exists [EvCandidate]. split; [reflexivity|]. discriminate. Qed.

Lemma ready_event e t : is_candidate e = false -> ready t -> ready (add_event e t).
Proof using. intros H []. constructor; cbn; auto. rewrite existsb_app. cbn. now rewrite H, !orb_false_r. Qed.
Lemma ready_candidate f t : complete f -> ready t -> ready (set_candidate_state f t).
Proof using.
  intros C []. constructor; cbn; auto. intros p E. destruct C. cbn in E. now injection E as <-.
Qed.
Lemma ready_samples l c t : (forall f, c = Some f -> complete f) -> ready t -> ready (set_samples l c t).
Proof using. intros H []. constructor; cbn; auto. Qed.
Lemma complete_state (t : tstate) : P (t_params t) -> complete (get_state isave t).
Proof using. intros H. now constructor. Qed.
Lemma reset_ready (t t' : tstate) : ready t -> reset_state irestore t = Ok t' -> ready t' /\ grows t t'.
Proof using.
  intros K. unfold reset_state. destruct (f_params (t_file t)) as [p|] eqn:E; [|discriminate].
  destruct (f_trainer (t_file t)) as [g|]; [|discriminate]. destruct (g_epoch g); [|discriminate]. destruct (g_update g); [|discriminate].
  destruct (f_iter (t_file t)); [|discriminate]. destruct (irestore _ _); [|discriminate]. cbn [bind].
  destruct (f_optimizer (t_file t)) as [[[lr1|] [a1|]]|]; try discriminate. intros [= <-]. pose proof (rd_file _ K _ E).
  split; [destruct K; constructor; cbn; auto|now apply grows_same].
Qed.
Lemma decrease_ready t t' : ready t -> decrease_learning_rate irestore t = Ok t' -> ready t' /\ grows t t'.
Proof using.
  intros K. unfold decrease_learning_rate. destruct (reset_state irestore t) as [u|] eqn:E; [|discriminate]. cbn [bind]. intros [= <-].
  apply reset_ready in E as [E G]; [|exact K]. split.
  - apply ready_event; [reflexivity|]. destruct E. constructor; cbn; auto.
  - eapply grows_trans; [exact G|]. eapply grows_trans; [|now apply grows_event]. now apply grows_same.
Qed.
Lemma finish_ready t t' : ready t -> finish_validation irestore o t = Ok t' -> ready t' /\ grows t t'.
Proof using.
  intros K. unfold finish_validation. destruct (t_center t) as [f|] eqn:Ec; [|discriminate].
  set (c := median (t_samples t)). set (costs := t_costs t ++ [c]).
  assert (Ku : ready (add_event (EvValidation c) (set_costs costs t))).
  { apply ready_event; [reflexivity|]. destruct K. constructor; cbn; auto. }
  assert (Gu : grows t (add_event (EvValidation c) (set_costs costs t))).
  { eapply grows_trans; [|now apply grows_event]. now apply grows_same. }
  set (u := add_event _ _) in *. clearbody u. destruct (has_improved u) as [b|]; [|discriminate]. cbn [bind].
  assert (Kw : ready (if b then set_candidate_state (with_costs f costs) u else u)).
  { destruct b; [|exact Ku]. apply ready_candidate; [|exact Ku]. destruct (rd_center _ K _ Ec). now constructor. }
  assert (Gw : grows u (if b then set_candidate_state (with_costs f costs) u else u)).
  { destruct b; [apply grows_candidate|apply grows_refl]. }
  set (w := if b then _ else u) in *. clearbody w.
  match goal with |- bind ?x _ = _ -> _ => destruct x as [v|] eqn:Ev; [|discriminate] end. cbn [bind]. intros [= <-].
  assert (H : ready v /\ grows w v).
  { revert Ev. destruct (0 <=? o_patience o)%Z; [|intros [= <-]; split; [exact Kw|apply grows_refl]].
    destruct (validations_since_candidate w) as [k|]; [|discriminate]. cbn [bind]. destruct (o_patience o <? k)%Z; [|intros [= <-]; split; [exact Kw|apply grows_refl]].
    now apply decrease_ready. }
  destruct H as [Kv Gv]. split; [apply ready_samples; [discriminate|exact Kv]|].
  eapply grows_trans; [exact Gu|]. eapply grows_trans; [exact Gw|]. eapply grows_trans; [exact Gv|]. now apply grows_same.
Qed.
Lemma validate_ready t t' : ready t -> validate perplexity isave irestore o t = Ok t' -> ready t' /\ grows t t'.
Proof using.
  intros K. unfold validate. destruct (negb (o_validate o)); [intros [= <-]; split; [exact K|apply grows_refl]|].
  destruct (negb (is_scheduled _ _ (o_samples o - 1) _)); [intros [= <-]; split; [exact K|apply grows_refl]|].
  set (u := add_event _ (set_samples _ (t_center t) t)).
  assert (Ku : ready u).
  { apply ready_event; [reflexivity|]. apply ready_samples; [|exact K]. intros f E. exact (rd_center _ K _ E). }
  assert (Gu : grows t u) by (eapply grows_trans; [|now apply grows_event]; now apply grows_same).
  clearbody u. destruct (negb (is_scheduled _ _ (o_samples o / 2) _)); [intros [= <-]; auto|].
  set (w := match t_center u with None => _ | Some _ => u end).
  assert (Kw : ready w).
  { unfold w. destruct (t_center u); [exact Ku|]. apply ready_event; [reflexivity|]. apply ready_samples; [|exact Ku].
    intros f [= <-]. apply complete_state, (rd_params _ Ku). }
  assert (Gw : grows t w).
  { eapply grows_trans; [exact Gu|]. unfold w. destruct (t_center u); [apply grows_refl|]. eapply grows_trans; [|now apply grows_event]. now apply grows_same. }
  clearbody w. destruct (negb (is_scheduled _ _ 0 _)); [intros [= <-]; auto|].
  destruct (_ <? _).
  - intros [= <-]. split; [apply ready_event; [reflexivity|]; now apply ready_samples|]. eapply grows_trans; [exact Gw|]. eapply grows_trans; [|now apply grows_event]. now apply grows_same.
  - intros E. destruct (finish_ready _ _ Kw E) as [K' G']. split; [exact K'|]. eapply grows_trans; eauto.
Qed.
Lemma step_ready ph t ph' t' : ready t -> step next_batch update perplexity isave irestore o (ph, t) = Ok (ph', t') -> ready t' /\ grows t t'.
Proof using HP.
  intros K. destruct ph; cbn [step].
  - destruct (start_new_epoch _ _ _) as [s go]. intros [= _ <-]. split; [destruct K; constructor; cbn; auto|now apply grows_same].
  - destruct (next_batch (t_iter t)) as [[b|] it].
    + assert (Ku : ready (update_minibatch update b it t) /\ grows t (update_minibatch update b it t)).
      { unfold update_minibatch. pose proof (HP (t_params t) (t_accum t) (t_lr t) b (rd_params _ K)) as Hp.
        destruct (update _ _ _ b) as [p a]. split; [apply ready_event; [reflexivity|]; destruct K; constructor; cbn; auto|].
        eapply grows_trans; [|now apply grows_event]. now apply grows_same. }
      destruct Ku as [Ku Gu]. destruct (validate _ _ _ _ _) as [u|] eqn:E; [|discriminate]. apply validate_ready in E as [E G]; [|exact Ku]. cbn [bind].
      destruct (start_new_minibatch _ _ _) as [s go]. intros [= _ <-]. split; [destruct E; constructor; cbn; auto|].
      eapply grows_trans; [exact Gu|]. eapply grows_trans; [exact G|]. now apply grows_same.
    + intros [= _ <-]. split; [destruct K; constructor; cbn; auto|now apply grows_same].
  - intros [= _ <-].
    assert (Kw : ready (if o_validate o then t else set_candidate_state (get_state isave t) t)).
    { destruct (o_validate o); [exact K|]. apply ready_candidate; [|exact K]. apply complete_state, (rd_params _ K). }
    assert (Gw : grows t (if o_validate o then t else set_candidate_state (get_state isave t) t)).
    { destruct (o_validate o); [apply grows_refl|apply grows_candidate]. }
    set (w := if o_validate o then t else _) in *. clearbody w. split; [destruct Kw; constructor; cbn; auto|].
    eapply grows_trans; [exact Gw|]. now apply grows_same.
  - intros [= _ <-]. split; [exact K|apply grows_refl].
Qed.
Lemma initialize_ready p a lr it s f t : P p -> (forall p, f_params f = Some p -> P p) ->
  initialize irestore p a lr it s f = Ok t -> ready t /\ t_log t = [] /\ t_file t = f.
Proof using.
  intros Hp Hf. unfold initialize.
  assert (K : ready (mkTstate p a lr it 1 0 [] None f [] None s [])) by (constructor; cbn; auto; discriminate).
  destruct (f_trainer f); [|intros [= <-]; auto]. intros E. destruct (reset_ready _ _ K E) as [K' _]. split; [exact K'|]. clear K'.
  revert E. unfold reset_state. cbn [t_file t_iter]. destruct (f_params f) as [q|]; [|discriminate].
  destruct (f_trainer f) as [g|]; [|discriminate]. destruct (g_epoch g); [|discriminate]. destruct (g_update g); [|discriminate].
  destruct (f_iter f); [|discriminate]. destruct (irestore _ _); [|discriminate]. cbn [bind].
  destruct (f_optimizer f) as [[[lr1|] [a1|]]|]; try discriminate. intros [= <-]. split; reflexivity.
Qed.
End Saves.
