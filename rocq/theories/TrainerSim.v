(** Two trainings that differ only in the iterator: if the iterators give the same
    mini-batches, everything else is the same. *)
From Coq Require Import QArith Qcanon.
From Verif Require Import Base ListLib BaseLib QcLib TrainerModel TrainerSpec.
Local Open Scope nat_scope.

Section Sim.
Context {params accum iter1 iter2 saved1 saved2 batch : Type}.
Variable next1 : iter1 -> option batch * iter1.
Variable next2 : iter2 -> option batch * iter2.
Variable update : params -> accum -> Qc -> batch -> params * accum.
Variable perplexity : params -> Qc.
Variable save1 : iter1 -> saved1.
Variable save2 : iter2 -> saved2.
Variable restore1 : iter1 -> saved1 -> result iter1.
Variable restore2 : iter2 -> saved2 -> result iter2.
Variable o : toptions.
Notation tstate1 := (@tstate params accum iter1 saved1 batch).
Notation tstate2 := (@tstate params accum iter2 saved2 batch).
Notation file1 := (@file params accum saved1).
Notation file2 := (@file params accum saved2).
Notation step1 := (step next1 update perplexity save1 restore1 o).
Notation step2 := (step next2 update perplexity save2 restore2 o).
Notation steps1 := (steps next1 update perplexity save1 restore1 o).
Notation steps2 := (steps next2 update perplexity save2 restore2 o).
Notation train1 := (train next1 update perplexity save1 restore1 o).
Notation train2 := (train next2 update perplexity save2 restore2 o).

(** [R'] holds after a mini-batch has been read. *)
Variables R R' : iter1 -> iter2 -> Prop.
Variable RS : saved1 -> saved2 -> Prop.

Definition option_rel {A B} (r : A -> B -> Prop) (x : option A) (y : option B) : Prop :=
  match x, y with None, None => True | Some a, Some b => r a b | _, _ => False end.
Definition result_rel {A B} (r : A -> B -> Prop) (x : result A) (y : result B) : Prop :=
  match x, y with Ok a, Ok b => r a b | Err e, Err e' => e = e' | _, _ => False end.

Hypothesis Hsub : forall i j, R' i j -> R i j.
Hypothesis Hnext : forall i j, R i j ->
  match next1 i, next2 j with
  | (Some b, i'), (Some b', j') => b = b' /\ R' i' j'
  | (None, i'), (None, j') => R i' j'
  | _, _ => False
  end.
Hypothesis Hsave : forall i j, R i j -> RS (save1 i) (save2 j).
Hypothesis Hrestore : forall i j s s', R' i j -> RS s s' -> result_rel R (restore1 i s) (restore2 j s').

Definition file_rel (f : file1) (f' : file2) : Prop :=
  f_params f = f_params f' /\ f_trainer f = f_trainer f' /\ option_rel RS (f_iter f) (f_iter f') /\
  f_optimizer f = f_optimizer f'.
Record t_rel (Q : iter1 -> iter2 -> Prop) (t : tstate1) (t' : tstate2) : Prop := mkTrel {
  r_params : t_params t = t_params t'; r_accum : t_accum t = t_accum t'; r_lr : t_lr t = t_lr t';
  r_iter : Q (t_iter t) (t_iter t');
  r_epoch : t_epoch t = t_epoch t'; r_update : t_update t = t_update t'; r_costs : t_costs t = t_costs t';
  r_candidate : t_candidate t = t_candidate t'; r_file : file_rel (t_file t) (t_file t');
  r_samples : t_samples t = t_samples t'; r_center : option_rel file_rel (t_center t) (t_center t');
  r_stopper : t_stopper t = t_stopper t'; r_log : t_log t = t_log t' }.

Ltac tsolve := constructor; cbn; try assumption; try congruence.

Lemma t_rel_weaken (t : tstate1) (t' : tstate2) : t_rel R' t t' -> t_rel R t t'.
Proof. intros [? ? ? ? ? ? ? ? ? ? ? ? ?]. constructor; auto. Qed.

Lemma cand_rel Q (t : tstate1) (t' : tstate2) : t_rel Q t t' -> candidate_cost t = candidate_cost t'.
Proof. intros H. unfold candidate_cost. now rewrite (r_candidate _ _ _ H), (r_costs _ _ _ H). Qed.

Lemma add_event_rel Q e (t : tstate1) (t' : tstate2) : t_rel Q t t' -> t_rel Q (add_event e t) (add_event e t').
Proof. intros H. destruct H. tsolve. Qed.

Lemma set_samples_rel Q l c c' (t : tstate1) (t' : tstate2) : t_rel Q t t' -> option_rel file_rel c c' ->
  t_rel Q (set_samples l c t) (set_samples l c' t').
Proof. intros H Hc. destruct H. tsolve. Qed.

Lemma set_stopper_rel Q s (t : tstate1) (t' : tstate2) : t_rel Q t t' -> t_rel Q (set_stopper s t) (set_stopper s t').
Proof. intros H. destruct H. tsolve. Qed.

Lemma set_candidate_rel Q f f' (t : tstate1) (t' : tstate2) : t_rel Q t t' -> file_rel f f' ->
  t_rel Q (set_candidate_state f t) (set_candidate_state f' t').
Proof. intros H Hf. unfold set_candidate_state. apply add_event_rel. destruct H. tsolve. Qed.

Lemma get_state_rel (t : tstate1) (t' : tstate2) : t_rel R t t' -> file_rel (get_state save1 t) (get_state save2 t').
Proof.
  intros H. destruct H as [H1 H2 H3 H4 H5 H6 H7 _ _ _ _ _ _]. unfold get_state, file_rel. cbn.
  rewrite H1, H2, H3, H5, H6, H7. repeat (split; [reflexivity|]). split; [|reflexivity]. now apply Hsave.
Qed.

Lemma with_costs_rel f f' l : file_rel f f' -> file_rel (with_costs f l) (with_costs f' l).
Proof. intros (H1 & H2 & H3 & H4). unfold file_rel, with_costs. cbn. rewrite H1, H2, H4. auto. Qed.

Lemma reset_rel (t : tstate1) (t' : tstate2) : t_rel R' t t' ->
  result_rel (t_rel R) (reset_state restore1 t) (reset_state restore2 t').
Proof.
  intros H. pose proof (r_file _ _ _ H) as Hf. destruct Hf as (F1 & F2 & F3 & F4). unfold reset_state.
  rewrite <- F1, <- F2, <- F4.
  destruct (f_params (t_file t)) as [p|]; [|reflexivity].
  destruct (f_trainer (t_file t)) as [g|]; [|reflexivity].
  destruct (g_epoch g) as [e|]; [|reflexivity].
  destruct (g_update g) as [u|]; [|reflexivity].
  destruct (f_iter (t_file t)) as [i|], (f_iter (t_file t')) as [i'|]; cbn in F3; try contradiction; [|reflexivity].
  pose proof (Hrestore _ _ _ _ (r_iter _ _ _ H) F3) as Hr.
  destruct (restore1 (t_iter t) i) as [j|], (restore2 (t_iter t') i') as [j'|]; cbn in Hr; try contradiction; cbn [bind]; [|exact Hr].
  destruct (f_optimizer (t_file t)) as [[[lr|] [a|]]|]; try reflexivity.
  pose proof (r_file _ _ _ H) as Hf. destruct H. cbn. tsolve.
Qed.

Lemma decrease_rel (t : tstate1) (t' : tstate2) : t_rel R' t t' ->
  result_rel (t_rel R) (decrease_learning_rate restore1 t) (decrease_learning_rate restore2 t').
Proof.
  intros H. unfold decrease_learning_rate. pose proof (reset_rel _ _ H) as Hr.
  destruct (reset_state restore1 t) as [t1|], (reset_state restore2 t') as [t1'|]; cbn in Hr; try contradiction; cbn [bind]; [|exact Hr].
  cbn [result_rel]. rewrite (r_lr _ _ _ H). apply add_event_rel. rewrite (cand_rel _ _ _ Hr). destruct Hr. tsolve.
Qed.

Lemma finish_rel (t : tstate1) (t' : tstate2) : t_rel R' t t' ->
  result_rel (t_rel R) (finish_validation restore1 o t) (finish_validation restore2 o t').
Proof.
  intros H. unfold finish_validation. pose proof (r_center _ _ _ H) as Hc.
  destruct (t_center t) as [f|], (t_center t') as [f'|]; cbn in Hc; try contradiction; [|reflexivity].
  rewrite (r_samples _ _ _ H), (r_costs _ _ _ H).
  set (c := median (t_samples t')). set (costs := t_costs t' ++ [c]).
  set (u := add_event (EvValidation c) (set_costs costs t)). set (u' := add_event (EvValidation c) (set_costs costs t')).
  assert (Hu : t_rel R' u u') by (apply add_event_rel; destruct H; tsolve). clearbody u u'.
  assert (Hi : has_improved u = has_improved u').
  { unfold has_improved. now rewrite (r_costs _ _ _ Hu), (r_candidate _ _ _ Hu). }
  rewrite Hi. destruct (has_improved u') as [b|]; [|reflexivity]. cbn [bind].
  set (w := if b then _ else u). set (w' := if b then _ else u').
  assert (Hw : t_rel R' w w').
  { unfold w, w'. destruct b; [|exact Hu]. apply set_candidate_rel; [exact Hu|]. now apply with_costs_rel. }
  clearbody w w'.
  assert (Hv : validations_since_candidate w = validations_since_candidate w').
  { unfold validations_since_candidate. now rewrite (r_costs _ _ _ Hw), (r_candidate _ _ _ Hw). }
  rewrite Hv.
  assert (Hx : result_rel (t_rel R)
    (if (0 <=? o_patience o)%Z then do k <- validations_since_candidate w'; if (o_patience o <? k)%Z then decrease_learning_rate restore1 w else Ok w else Ok w)
    (if (0 <=? o_patience o)%Z then do k <- validations_since_candidate w'; if (o_patience o <? k)%Z then decrease_learning_rate restore2 w' else Ok w' else Ok w')).
  { destruct (0 <=? o_patience o)%Z; [|now apply t_rel_weaken].
    destruct (validations_since_candidate w') as [k|]; [|reflexivity]. cbn [bind].
    destruct (o_patience o <? k)%Z; [|now apply t_rel_weaken]. now apply decrease_rel. }
  match goal with |- result_rel _ (bind ?x _) (bind ?y _) => destruct x as [v|], y as [v'|] end; cbn in Hx; try contradiction; cbn [bind]; [|exact Hx].
  apply set_samples_rel; [exact Hx|exact I].
Qed.

Lemma validate_rel (t : tstate1) (t' : tstate2) : t_rel R' t t' ->
  result_rel (t_rel R) (validate perplexity save1 restore1 o t) (validate perplexity save2 restore2 o t').
Proof.
  intros H. unfold validate. rewrite (r_update _ _ _ H).
  destruct (negb (o_validate o)); [now apply t_rel_weaken|].
  destruct (negb (is_scheduled _ _ (o_samples o - 1) _)); [now apply t_rel_weaken|].
  rewrite (r_params _ _ _ H), (r_samples _ _ _ H).
  set (u := add_event _ (set_samples _ (t_center t) t)). set (u' := add_event _ (set_samples _ (t_center t') t')).
  assert (Hu : t_rel R' u u') by (apply add_event_rel, set_samples_rel; [exact H|apply (r_center _ _ _ H)]). clearbody u u'.
  destruct (negb (is_scheduled _ _ (o_samples o / 2) _)); [now apply t_rel_weaken|].
  set (w := match t_center u with None => _ | Some _ => u end). set (w' := match t_center u' with None => _ | Some _ => u' end).
  assert (Hw : t_rel R' w w').
  { unfold w, w'. pose proof (r_center _ _ _ Hu) as Hc. destruct (t_center u), (t_center u'); cbn in Hc; try contradiction; [exact Hu|].
    apply add_event_rel. rewrite (r_samples _ _ _ Hu). apply set_samples_rel; [exact Hu|]. apply get_state_rel. now apply t_rel_weaken. }
  clearbody w w'.
  destruct (negb (is_scheduled _ _ 0 _)); [now apply t_rel_weaken|].
  rewrite (r_samples _ _ _ Hw).
  destruct (_ <? _); [|now apply finish_rel].
  apply add_event_rel, set_samples_rel; [now apply t_rel_weaken|exact I].
Qed.

Definition run_rel (x : phase * tstate1) (y : phase * tstate2) : Prop := fst x = fst y /\ t_rel R (snd x) (snd y).

Lemma sim_step ph (t : tstate1) (t' : tstate2) : t_rel R t t' -> result_rel run_rel (step1 (ph, t)) (step2 (ph, t')).
Proof.
  intros H. destruct ph; cbn [step].
  - rewrite (r_stopper _ _ _ H), (r_epoch _ _ _ H), (cand_rel _ _ _ H).
    destruct (start_new_epoch _ _ _) as [s go]. split; [reflexivity|]. cbn [snd]. now apply set_stopper_rel.
  - pose proof (Hnext _ _ (r_iter _ _ _ H)) as Hn.
    destruct (next1 (t_iter t)) as [[b|] i], (next2 (t_iter t')) as [[b'|] j]; try contradiction.
    + destruct Hn as [<- Hn].
      assert (Hu : t_rel R' (update_minibatch update b i t) (update_minibatch update b j t')).
      { unfold update_minibatch. rewrite (r_params _ _ _ H), (r_accum _ _ _ H), (r_lr _ _ _ H).
        destruct (update _ _ _ b) as [p a]. apply add_event_rel. destruct H. tsolve. }
      pose proof (validate_rel _ _ Hu) as Hv.
      destruct (validate _ _ _ _ (update_minibatch update b i t)) as [v|], (validate _ _ _ _ (update_minibatch update b j t')) as [v'|]; cbn in Hv; try contradiction; cbn [bind]; [|exact Hv].
      rewrite (r_stopper _ _ _ Hv), (r_epoch _ _ _ Hv), (cand_rel _ _ _ Hv).
      destruct (start_new_minibatch _ _ _) as [s go]. split; [reflexivity|]. cbn [snd]. now apply set_stopper_rel.
    + split; [reflexivity|]. cbn [snd]. unfold set_iter. destruct H. tsolve.
  - split; [reflexivity|]. cbn [snd].
    assert (Hw : t_rel R (if o_validate o then t else set_candidate_state (get_state save1 t) t)
                         (if o_validate o then t' else set_candidate_state (get_state save2 t') t')).
    { destruct (o_validate o); [exact H|]. apply set_candidate_rel; [exact H|]. now apply get_state_rel. }
    set (w := if o_validate o then t else _) in *. set (w' := if o_validate o then t' else _) in *. clearbody w w'.
    destruct Hw. tsolve.
  - split; [reflexivity|exact H].
Qed.

Lemma sim_steps k : forall ph (t : tstate1) (t' : tstate2), t_rel R t t' -> result_rel run_rel (steps1 k (ph, t)) (steps2 k (ph, t')).
Proof.
  induction k as [|k IH]; intros ph t t' H; cbn [steps].
  - split; [reflexivity|exact H].
  - pose proof (sim_step ph t t' H) as Hs.
    destruct (step1 (ph, t)) as [[ph1 t1]|], (step2 (ph, t')) as [[ph2 t2]|]; cbn in Hs; try contradiction; cbn [bind]; [|exact Hs].
    destruct Hs as [Hp Ht]. cbn in Hp, Ht. subst ph2. now apply IH.
Qed.

Lemma sim_train k : forall ph (t : tstate1) (t' : tstate2), t_rel R t t' -> result_rel (t_rel R) (train1 k (ph, t)) (train2 k (ph, t')).
Proof.
  induction k as [|k IH]; intros ph t t' H; cbn [train].
  - destruct ph; cbn; auto.
  - destruct ph; try exact H.
    all: match goal with |- result_rel _ (bind (_ (?p, _)) _) _ => pose proof (sim_step p t t' H) as Hs end;
      match type of Hs with result_rel _ ?x ?y => destruct x as [[ph1 t1]|], y as [[ph2 t2]|] end;
      cbn in Hs; try contradiction; cbn [bind]; [|exact Hs];
      destruct Hs as [Hp Ht]; cbn in Hp, Ht; subst ph2; now apply IH.
Qed.

Lemma sim_initialize p a lr it it' s f f' : R' it it' -> file_rel f f' ->
  result_rel (t_rel R) (initialize (batch := batch) restore1 p a lr it s f) (initialize (batch := batch) restore2 p a lr it' s f').
Proof.
  intros Hi Hf. unfold initialize. destruct Hf as (F1 & F2 & F3 & F4).
  set (t := mkTstate p a lr it 1 0 [] None f [] None s []). set (t' := mkTstate p a lr it' 1 0 [] None f' [] None s []).
  assert (Ht : t_rel R' t t') by (constructor; cbn; auto; repeat split; auto). rewrite <- F2.
  destruct (f_trainer f); [now apply reset_rel|]. cbn. now apply t_rel_weaken.
Qed.
End Sim.
