(** Properties C38 and C39: normalisation and the update rules of the optimizers. *)
From Coq Require Import Reals Lra.
From Verif Require Import Base ListLib BaseLib ParamModel ParamSpec ParamProofs OptimizerModel OptimizerSpec OptimizerProofs OptimizerRules OptimizerRuns.
Open Scope R_scope.

(** ** C38: normalisation bounds the step *)

(** All the elements are multiplied by the same number between 0 and 1; the norm of the
    result does not exceed the maximum; if the norm was within the maximum, no element
    changes more than epsilon; and otherwise the norm becomes the maximum, up to the
    fraction epsilon / norm of it. *)
Theorem C38_norm o D : 0 < epsilon o -> 0 <= max_norm o ->
  norm (normalize o D) <= max_norm o /\ norm (normalize o D) <= norm D /\
  (exists c, 0 <= c <= 1 /\ normalize o D = map (fun '(p, t) => (p, map (fun x => c * x) t)) D /\
     (norm D <= max_norm o -> forall x, In x (elements D) -> Rabs (c * x - x) <= epsilon o)) /\
  (max_norm o <= norm D -> max_norm o * (1 - epsilon o / norm D) <= norm (normalize o D)).
Proof.
  intros He Hm. pose proof (norm_pos D) as Hn. destruct (factor_bounds o (norm D) He Hm Hn) as [[F0 F1] F2].
  rewrite (norm_normalize o D Hm F0). split; [exact F2|]. split; [|split].
  - pose proof (Rmult_le_compat_r (norm D) _ 1 Hn F1). lra.
  - exists (factor o (norm D)). split; [auto|]. split; [now apply normalize_eq|]. intros Hle x Hx.
    assert (Hx' : Rabs x <= norm D).
    { unfold elements in Hx. apply in_concat in Hx as (t & Ht & Hx). apply in_map_iff in Ht as ([p t'] & <- & Hp).
      apply In_nth_error in Hx as [i Hi]. eapply elem_le_norm. exists t'. eauto. }
    unfold factor. rewrite (Rmin_left _ _ Hle).
    replace (norm D / (epsilon o + norm D) * x - x) with (- (epsilon o * (x / (epsilon o + norm D)))) by (field; lra).
    rewrite Rabs_Ropp, Rabs_mult, (Rabs_pos_eq (epsilon o)) by lra. rewrite <- (Rmult_1_r (epsilon o)) at 3. apply Rmult_le_compat_l; [lra|].
    unfold Rdiv. rewrite Rabs_mult, (Rabs_pos_eq (/ _)) by (apply Rlt_le, Rinv_0_lt_compat; lra).
    apply (Rmult_le_reg_r (epsilon o + norm D)); [lra|]. rewrite Rmult_assoc, Rinv_l by lra. lra.
  - intros Hle. unfold factor. rewrite (Rmin_right _ _ Hle). destruct (Req_dec (norm D) 0) as [Z|Z].
    + assert (max_norm o = 0) by lra. rewrite H. lra.
    + assert (P : 0 < norm D) by lra. replace (max_norm o / (epsilon o + norm D) * norm D) with (max_norm o * (norm D / (epsilon o + norm D))) by (unfold Rdiv; ring).
      apply Rmult_le_compat_l; [exact Hm|]. apply (Rmult_le_reg_r (norm D * (epsilon o + norm D))); [apply Rmult_lt_0_compat; lra|].
      replace ((1 - epsilon o / norm D) * (norm D * (epsilon o + norm D))) with (norm D * norm D - epsilon o * epsilon o) by (field; lra).
      replace (norm D / (epsilon o + norm D) * (norm D * (epsilon o + norm D))) with (norm D * norm D) by (field; lra).
      pose proof (Rle_0_sqr (epsilon o)) as Q. unfold Rsqr in Q. lra.
Qed.
Print Assumptions C38_norm.

Definition W : pystr := [87%N].
Definition unit_options : options := mkOptions 1 10 (1 / 2) (1 / 2) (1 / 2).

Lemma norm_single x : norm [(W, [x])] = Rabs x.
Proof. unfold norm, elements. cbn. rewrite !Rplus_0_r. apply sqrt_Rsqr_abs. Qed.

(** The expectation that a step within the maximum is not changed is false: the
    numerical stability term makes it shorter, here by half. *)
Theorem C38_unchanged_refuted :
  exists o D, 0 < epsilon o /\ norm D <= max_norm o /\ elem D W 0 1 /\ elem (normalize o D) W 0 (1 / 2).
Proof.
  exists unit_options, [(W, [1])]. rewrite norm_single, Rabs_R1. cbn [epsilon max_norm unit_options].
  split; [lra|]. split; [lra|]. split; [exists [1]; split; [now left|reflexivity]|].
  rewrite normalize_eq by (cbn; lra). rewrite norm_single, Rabs_R1. eexists. split; [left; reflexivity|]. cbn. unfold factor. cbn.
  rewrite Rmin_left by lra. f_equal. field.
Qed.
Print Assumptions C38_unchanged_refuted.

Section Statements.
(** Gradients of the size of the parameters, any mini-batches, learning rates and
    weights *)
Variable gradients : tdict -> list (list nat) -> list (list nat) -> list (list bool) -> list tensor.
Hypothesis Hgrad : forall d w c k, map (@length R) (gradients d w c k) = map (fun x => length (snd x)) d.
Variables (o : options) (weights : list R).
Hypothesis Hmax : 0 <= max_norm o.
Notation update m := (update_minibatch gradients m o weights).
Notation run m := (run gradients m o weights).
(** the gradient that an update uses *)
Notation gradient s b := (combine (map fst (net s)) (gradients (net s) (b_words b) (b_classes b) (tl (b_mask b)))).

(** ** C39: the update rules *)

(** An update succeeds in every state that can be reached (if there is a weight for
    each file), and keeps names and sizes. *)
Theorem C39_total m s lr b : well_formed m s -> (forall i, In i (concat (tl (b_files b))) -> (i < length weights)%nat) ->
  exists s', update m lr b s = Ok s' /\ well_formed m s' /\ same_shape (net s) (net s').
Proof.
  intros Hwf Hf. destruct (updates_ok m o Hmax s lr (batch_gradients gradients s b) Hwf (batch_gradients_ok gradients Hgrad s b)) as (ups & E & H).
  exists (apply_updates ups s). split; [|exact H]. unfold update_minibatch. cbv zeta.
  destruct (mapM (mapM (py_index weights)) (tl (b_files b))) as [w|e] eqn:Ew.
  - cbn [bind]. unfold batch_gradients in E. rewrite E. reflexivity.
  - exfalso. revert Hf e Ew. clear. induction (tl (b_files b)) as [|row l IH]; intros Hf e; cbn [mapM]; [discriminate|].
    assert (R1 : exists r, mapM (py_index weights) row = Ok r).
    { assert (Hr : forall i, In i row -> (i < length weights)%nat) by (intros i Hi; apply Hf; cbn [concat]; apply in_app_iff; auto). revert Hr. clear.
      induction row as [|i row IH]; intros H; cbn [mapM]; [eauto|]. destruct IH as [r ->]; [intros j Hj; apply H; now right|].
      unfold py_index at 1. destruct (nth_error weights i) eqn:E; [cbn; eauto|]. apply nth_error_None in E. specialize (H i ltac:(now left)). lia. }
    destruct R1 as [r ->]. cbn [bind]. destruct (mapM _ l) eqn:E; cbn [bind]; [discriminate|]. intros _. eapply IH; [|reflexivity].
    intros i Hi. apply Hf. cbn [concat]. apply in_app_iff. auto.
Qed.

(** The state that training starts from *)
Theorem C39_initial m d : is_dict d -> well_formed m (create_store m d) /\ net (create_store m d) = d /\ timestep (create_store m d) = 0%nat /\
  forall k x, In (k, x) (kinds m) -> forall p i y, elem (aux (create_store m d) k) p i y -> y = x.
Proof.
  intros D. split; [now apply create_store_wf|]. split; [reflexivity|]. split; [reflexivity|]. intros k x Hk p i y (t & Ht & E).
  assert (U : aux (create_store m d) k = like x d).
  { unfold create_store. cbn [aux]. destruct m; cbn in Hk; repeat (destruct Hk as [Hk|Hk]; [injection Hk as <- <-; reflexivity|]); contradiction. }
  rewrite U in Ht. unfold like in Ht. apply in_map_iff in Ht as ([q u] & Eq & _). injection Eq as -> <-.
  apply nth_error_In, in_map_iff in E as (z & <- & _). reflexivity.
Qed.

Ltac rule rl := intros Hwf H; destruct (update_inv _ _ _ _ _ _ _ _ H) as (ups & E & ->);
  destruct (rl (batch_gradients_ok gradients Hgrad _ _) Hmax Hwf) as (ups2 & D & E2 & R);
  cbn [get_param_updates] in E; rewrite E in E2; injection E2 as <-; exists D.

(** Stochastic gradient descent: a step against the gradient, limited by the
    normalisation *)
Theorem C39_sgd s lr b s' : well_formed SGD s -> update SGD lr b s = Ok s' ->
  exists D, (forall p i g, elem (gradient s b) p i g -> elem D p i (- g)) /\ moved o lr D s s'.
Proof. rule (sgd_rule o s lr (batch_gradients gradients s b)). tauto. Qed.

(** Nesterov momentum: velocity and step. (The network parameters [x] are always ahead
    of the classical ones, [x - momentum * v], by the velocity.) *)
Theorem C39_nesterov s lr b s' : well_formed Nesterov s -> update Nesterov lr b s = Ok s' ->
  exists D, (forall p i g, elem (gradient s b) p i g -> elem D p i (- g)) /\
  same_shape (net s) D /\
  forall p i x v d, elem (net s) p i x -> elem (aux s Velocity) p i v -> elem D p i d ->
    exists x' v', elem (net s') p i x' /\ elem (aux s' Velocity) p i v' /\
      v' = momentum o * v + lr * (factor o (norm D) * d) /\
      x' - momentum o * v' = (x - momentum o * v) + v'.
Proof.
  rule (nesterov_rule o s lr (batch_gradients gradients s b)). destruct R as (R1 & R2 & _ & _ & R3 & _). split; [exact R1|]. split; [exact R2|].
  intros p i x v d E1 E2 E3. destruct (R3 p i x v d E1 E2 E3) as [H1 H2]. eexists _, _. split; [exact H2|]. split; [exact H1|]. split; [reflexivity|ring].
Qed.

(** AdaGrad: the gradient is divided by the root of the sum of its squares. *)
Theorem C39_adagrad s lr b s' : well_formed AdaGrad s -> update AdaGrad lr b s = Ok s' ->
  exists D, (forall p i a g, elem (aux s SumSqrGradient) p i a -> elem (gradient s b) p i g -> elem D p i (- g / sqrt (a + g ^ 2 + epsilon o))) /\
  moved o lr D s s' /\ updated SumSqrGradient (fun a g => a + g ^ 2) (gradient s b) s s'.
Proof.
  rule (adagrad_rule o s lr (batch_gradients gradients s b)). destruct R as (R1 & R2 & R3 & _). split; [|split; [exact R2|]].
  - intros p i a g Ha Hx. rewrite <- Rsqr_pow2. now apply R1.
  - destruct R3 as [R3 R4]. split; [exact R3|]. intros p i a g Ha Hx. rewrite <- Rsqr_pow2. now apply R4.
Qed.

(** Adadelta *)
Theorem C39_adadelta s lr b s' : well_formed Adadelta s -> update Adadelta lr b s = Ok s' ->
  exists D, (forall p i a c g, elem (aux s MeanSqrGradient) p i a -> elem (aux s MeanSqrDelta) p i c -> elem (gradient s b) p i g ->
     elem D p i (- g * sqrt (c + epsilon o) / sqrt (gamma o * a + (1 - gamma o) * g ^ 2 + epsilon o))) /\
  moved o lr D s s' /\ updated MeanSqrGradient (fun a g => gamma o * a + (1 - gamma o) * g ^ 2) (gradient s b) s s' /\
  (forall p i c d, elem (aux s MeanSqrDelta) p i c -> elem D p i d ->
     elem (aux s' MeanSqrDelta) p i (gamma o * c + (1 - gamma o) * (factor o (norm D) * d) ^ 2)).
Proof.
  rule (adadelta_rule o s lr (batch_gradients gradients s b)). destruct R as (R1 & R2 & [R3 R4] & _ & R5 & _). split; [|split; [exact R2|split; [split; [exact R3|]|]]].
  - intros p i a c g Ha Hc Hx. rewrite <- Rsqr_pow2. now apply R1.
  - intros p i a g Ha Hx. rewrite <- Rsqr_pow2. now apply R4.
  - intros p i c d Hc Hd. rewrite <- Rsqr_pow2. now apply R5.
Qed.

(** RMSProp *)
Theorem C39_rmsprop_sgd s lr b s' : well_formed RMSPropSGD s -> update RMSPropSGD lr b s = Ok s' ->
  exists D, (forall p i a g, elem (aux s MeanSqrGradient) p i a -> elem (gradient s b) p i g ->
     elem D p i (- g / sqrt (gamma o * a + (1 - gamma o) * g ^ 2 + epsilon o))) /\
  moved o lr D s s' /\ updated MeanSqrGradient (fun a g => gamma o * a + (1 - gamma o) * g ^ 2) (gradient s b) s s'.
Proof.
  rule (rmsprop_sgd_rule o s lr (batch_gradients gradients s b)). destruct R as (R1 & R2 & [R3 R4] & _). split; [|split; [exact R2|split; [exact R3|]]].
  - intros p i a g Ha Hx. rewrite <- Rsqr_pow2. now apply R1.
  - intros p i a g Ha Hx. rewrite <- Rsqr_pow2. now apply R4.
Qed.

(** RMSProp with Nesterov momentum. The mean squared gradient does not change. *)
Theorem C39_rmsprop_nesterov s lr b s' : well_formed RMSPropNesterov s -> update RMSPropNesterov lr b s = Ok s' ->
  exists D, (forall p i a g, elem (aux s MeanSqrGradient) p i a -> elem (gradient s b) p i g ->
     elem D p i (- g / sqrt (gamma o * a + (1 - gamma o) * g ^ 2 + epsilon o))) /\
  same_shape (net s) D /\
  (forall p i x v d, elem (net s) p i x -> elem (aux s Velocity) p i v -> elem D p i d ->
    exists x' v', elem (net s') p i x' /\ elem (aux s' Velocity) p i v' /\
      v' = momentum o * v + lr * (factor o (norm D) * d) /\
      x' - momentum o * v' = (x - momentum o * v) + v') /\
  aux s' MeanSqrGradient = aux s MeanSqrGradient.
Proof.
  rule (rmsprop_nesterov_rule o s lr (batch_gradients gradients s b)). destruct R as (R1 & R2 & _ & _ & R3 & R4 & _). split; [|split; [exact R2|split]].
  - intros p i a g Ha Hx. rewrite <- Rsqr_pow2. now apply R1.
  - intros p i x v d E1 E2 E3. destruct (R3 p i x v d E1 E2 E3) as [H1 H2]. eexists _, _. split; [exact H2|]. split; [exact H1|]. split; [reflexivity|ring].
  - now apply R4.
Qed.

(** Adam, with the bias corrections of the means in the step size *)
Theorem C39_adam s lr b s' : well_formed Adam s -> update Adam lr b s = Ok s' ->
  exists D, (forall p i a c g, elem (aux s MeanGradient) p i a -> elem (aux s MeanSqrGradient) p i c -> elem (gradient s b) p i g ->
     elem D p i (- (gamma o * a + (1 - gamma o) * g) / (sqrt (gamma_ms o * c + (1 - gamma_ms o) * g ^ 2) + epsilon o))) /\
  moved o (lr * sqrt (1 - gamma_ms o ^ timestep s') / (1 - gamma o ^ timestep s')) D s s' /\
  updated MeanGradient (fun a g => gamma o * a + (1 - gamma o) * g) (gradient s b) s s' /\
  updated MeanSqrGradient (fun c g => gamma_ms o * c + (1 - gamma_ms o) * g ^ 2) (gradient s b) s s' /\
  timestep s' = S (timestep s).
Proof.
  rule (adam_rule o s lr (batch_gradients gradients s b)). destruct R as (R1 & R2 & R3 & [R4 R5] & R6 & _). rewrite R6. split; [|split; [exact R2|split; [exact R3|split; [split; [exact R4|]|reflexivity]]]].
  - intros p i a c g Ha Hc Hx. rewrite <- Rsqr_pow2. now apply R1.
  - intros p i a g Ha Hx. rewrite <- Rsqr_pow2. now apply R5.
Qed.

(** The accumulators after any number of updates, from any initial parameters:
    [v] are the gradients of an element over the training. *)
Theorem C39_history m d l s p i v x : is_dict d -> run m (create_store m d) l s -> elem d p i x -> gradient_history l p i v ->
  (m = AdaGrad -> elem (aux s SumSqrGradient) p i (fold_right Rplus 0 (map (fun g => g ^ 2) v))) /\
  (m = RMSPropSGD -> elem (aux s MeanSqrGradient) p i (gamma o ^ length v + (1 - gamma o) * weighted (gamma o) (map (fun g => g ^ 2) v))) /\
  (m = Adadelta -> elem (aux s MeanSqrGradient) p i ((1 - gamma o) * weighted (gamma o) (map (fun g => g ^ 2) v))) /\
  (m = RMSPropNesterov -> elem (aux s MeanSqrGradient) p i 1) /\
  (m = Adam -> elem (aux s MeanGradient) p i ((1 - gamma o) * weighted (gamma o) v) /\
     elem (aux s MeanSqrGradient) p i ((1 - gamma_ms o) * weighted (gamma_ms o) (map (fun g => g ^ 2) v)) /\
     timestep s = length v).
Proof.
  intros D H Hx Hv. pose proof (create_store_wf m d D) as W0.
  assert (I0 : forall k y, In (k, y) (kinds m) -> elem (aux (create_store m d) k) p i y).
  { intros k y Hk. destruct (same_shape_elem d (aux (create_store m d) k) p i x) as [z Hz]; [exact (proj2 W0 k y Hk)|exact Hx|].
    destruct (C39_initial m d D) as (_ & _ & _ & Hi). now rewrite <- (Hi k y Hk p i z Hz). }
  assert (Wc : forall c k (l : list R), weighted c (map (fun g => k * g ^ 2) l) = k * weighted c (map (fun g => g ^ 2) l)).
  { intros c k l0. induction l0 as [|y l0 IH]; cbn [map weighted]; [ring|]. rewrite IH, !map_length. ring. }
  assert (Wc1 : forall c k (l : list R), weighted c (map (fun g => k * g) l) = k * weighted c l).
  { intros c k l0. induction l0 as [|y l0 IH]; cbn [map weighted]; [ring|]. rewrite IH, !map_length. ring. }
  split; [|split; [|split; [|split]]]; intros ->.
  - pose proof (accumulator_history gradients Hgrad AdaGrad o weights Hmax SumSqrGradient 1 (fun g => g ^ 2)) as A.
    rewrite <- weighted_one. replace (weighted 1 (map (fun g => g ^ 2) v)) with (1 ^ length v * 0 + weighted 1 (map (fun g => g ^ 2) v)) by ring.
    eapply A; [|exact W0|exact H|apply I0; now left|exact Hv].
    intros s1 lr b s2 W1 E. destruct (C39_adagrad s1 lr b s2 W1 E) as (_ & _ & _ & U1 & U2). split; [exact U1|].
    intros q j a g Ha Hg. replace (1 * a + g ^ 2) with (a + g ^ 2) by ring. now apply U2.
  - pose proof (accumulator_history gradients Hgrad RMSPropSGD o weights Hmax MeanSqrGradient (gamma o) (fun g => (1 - gamma o) * g ^ 2)) as A.
    rewrite <- Wc. replace (gamma o ^ length v) with (gamma o ^ length v * 1) by ring.
    eapply A; [|exact W0|exact H|apply I0; now left|exact Hv].
    intros s1 lr b s2 W1 E. destruct (C39_rmsprop_sgd s1 lr b s2 W1 E) as (_ & _ & _ & U). exact U.
  - pose proof (accumulator_history gradients Hgrad Adadelta o weights Hmax MeanSqrGradient (gamma o) (fun g => (1 - gamma o) * g ^ 2)) as A.
    rewrite <- Wc. match goal with |- elem _ _ _ ?r => replace r with (gamma o ^ length v * 0 + r) by ring end.
    eapply A; [|exact W0|exact H|apply I0; now left|exact Hv].
    intros s1 lr b s2 W1 E. destruct (C39_adadelta s1 lr b s2 W1 E) as (_ & _ & _ & U & _). exact U.
  - clear Hv. assert (U : aux s MeanSqrGradient = aux (create_store RMSPropNesterov d) MeanSqrGradient).
    { remember (create_store RMSPropNesterov d) as s0 eqn:E0. clear E0 I0 Hx. induction H as [s|s0 l s lr b s' H IH E]; [reflexivity|].
      destruct (run_wf gradients Hgrad _ o weights Hmax _ _ _ W0 H) as (Ws & _ & _). rewrite <- (IH W0). now destruct (C39_rmsprop_nesterov s lr b s' Ws E) as (_ & _ & _ & _ & U). }
    rewrite U. apply I0. now left.
  - split; [|split].
    + pose proof (accumulator_history gradients Hgrad Adam o weights Hmax MeanGradient (gamma o) (fun g => (1 - gamma o) * g)) as A.
      rewrite <- Wc1. match goal with |- elem _ _ _ ?r => replace r with (gamma o ^ length v * 0 + r) by ring end.
      eapply A; [|exact W0|exact H|apply I0; now left|exact Hv].
      intros s1 lr b s2 W1 E. destruct (C39_adam s1 lr b s2 W1 E) as (_ & _ & _ & U & _). exact U.
    + pose proof (accumulator_history gradients Hgrad Adam o weights Hmax MeanSqrGradient (gamma_ms o) (fun g => (1 - gamma_ms o) * g ^ 2)) as A.
      rewrite <- Wc. match goal with |- elem _ _ _ ?r => replace r with (gamma_ms o ^ length v * 0 + r) by ring end.
      eapply A; [|exact W0|exact H|apply I0; right; now left|exact Hv].
      intros s1 lr b s2 W1 E. destruct (C39_adam s1 lr b s2 W1 E) as (_ & _ & _ & _ & U & _). exact U.
    + assert (T : timestep s = (timestep (create_store Adam d) + length l)%nat).
      { remember (create_store Adam d) as s0 eqn:E0. clear E0 I0 Hx Hv. induction H as [s|s0 l s lr b s' H IH E]; [cbn; lia|].
        destruct (run_wf gradients Hgrad _ o weights Hmax _ _ _ W0 H) as (Ws & _ & _). destruct (C39_adam s lr b s' Ws E) as (_ & _ & _ & _ & _ & T).
        rewrite app_length, T, (IH W0). cbn. lia. }
      rewrite T. cbn [create_store timestep]. unfold gradient_history in Hv. change (length l = length v). clear - Hv. induction Hv; cbn [length]; congruence.
Qed.

(** Adam's bias correction: if an element has always had the gradient [g], its means
    divided by the corrections are the gradient and its square. *)
Theorem C39_adam_bias d l s p i g n x : is_dict d -> run Adam (create_store Adam d) l s -> elem d p i x -> gradient_history l p i (repeat g n) ->
  elem (aux s MeanGradient) p i ((1 - gamma o ^ timestep s) * g) /\
  elem (aux s MeanSqrGradient) p i ((1 - gamma_ms o ^ timestep s) * g ^ 2).
Proof.
  intros D H Hx Hv. destruct (C39_history Adam d l s p i _ x D H Hx Hv) as (_ & _ & _ & _ & A). destruct (A eq_refl) as (A1 & A2 & A3).
  rewrite map_repeat in A2. rewrite weighted_constant in A1, A2. rewrite A3, repeat_length. auto.
Qed.

(** The size of a step: without momentum no element moves more than the learning rate
    times the maximum norm. *)
Theorem C38_step m s lr b s' : 0 < epsilon o -> 0 <= lr -> In m [SGD; AdaGrad; Adadelta; RMSPropSGD] -> well_formed m s -> update m lr b s = Ok s' ->
  forall p i x x', elem (net s) p i x -> elem (net s') p i x' -> Rabs (x' - x) <= lr * max_norm o.
Proof.
  intros He Hl Hm Hwf H p i x x' Hx Hx'.
  assert (M : exists D, moved o lr D s s').
  { destruct Hm as [<-|[<-|[<-|[<-|[]]]]].
    - destruct (C39_sgd s lr b s' Hwf H) as (D & _ & M). eauto.
    - destruct (C39_adagrad s lr b s' Hwf H) as (D & _ & M & _). eauto.
    - destruct (C39_adadelta s lr b s' Hwf H) as (D & _ & M & _). eauto.
    - destruct (C39_rmsprop_sgd s lr b s' Hwf H) as (D & _ & M & _). eauto. }
  destruct M as (D & S1 & S2 & M). destruct (same_shape_elem _ D p i x S1 Hx) as [d Hd].
  rewrite (elem_unique _ _ _ _ _ (same_shape_dict _ _ S2 (proj1 Hwf)) Hx' (M p i x d Hx Hd)).
  replace (x + lr * (factor o (norm D) * d) - x) with (lr * (factor o (norm D) * d)) by ring.
  destruct (factor_bounds o (norm D) He Hmax (norm_pos D)) as [[F0 F1] F2].
  rewrite Rabs_mult, (Rabs_pos_eq lr Hl). apply Rmult_le_compat_l; [exact Hl|]. rewrite Rabs_mult, (Rabs_pos_eq _ F0).
  eapply Rle_trans; [|exact F2]. apply Rmult_le_compat_l; [exact F0|]. eapply elem_le_norm; exact Hd.
Qed.

(** With momentum the velocities stay below the sum of the geometric series, and so do
    the steps. *)
Theorem C38_momentum m d l s A : 0 < epsilon o -> 0 <= A -> 0 <= momentum o < 1 -> In m [Nesterov; RMSPropNesterov] -> is_dict d ->
  run m (create_store m d) l s -> (forall x, In x l -> 0 <= fst x <= A) ->
  let bound := A * max_norm o / (1 - momentum o) in
  (forall p i v, elem (aux s Velocity) p i v -> Rabs v <= bound) /\
  forall lr b s' p i x x', 0 <= lr <= A -> update m lr b s = Ok s' -> elem (net s) p i x -> elem (net s') p i x' -> Rabs (x' - x) <= bound.
Proof.
  intros He HA0 Hmu Hm D H HA bound. pose proof (create_store_wf m d D) as W0.
  assert (Hk : In (Velocity, 0) (kinds m)) by (destruct Hm as [<-|[<-|[]]]; [now left|right; now left]).
  assert (Step : forall s lr b s', well_formed m s -> update m lr b s = Ok s' -> exists D, same_shape (net s) D /\
     forall p i x v d, elem (net s) p i x -> elem (aux s Velocity) p i v -> elem D p i d ->
       exists x' v', elem (net s') p i x' /\ elem (aux s' Velocity) p i v' /\ v' = momentum o * v + lr * (factor o (norm D) * d) /\
         x' - momentum o * v' = (x - momentum o * v) + v').
  { intros s1 lr b s2 W1 E. destruct Hm as [<-|[<-|[]]].
    - destruct (C39_nesterov s1 lr b s2 W1 E) as (D1 & _ & A1 & A2). eauto.
    - destruct (C39_rmsprop_nesterov s1 lr b s2 W1 E) as (D1 & _ & A1 & A2 & _). eauto. }
  assert (Dd : forall lr D1 q j d0, 0 <= lr <= A -> elem D1 q j d0 -> Rabs (lr * (factor o (norm D1) * d0)) <= A * max_norm o).
  { intros lr D1 q j d0 Hl Hd. destruct (factor_bounds o (norm D1) He Hmax (norm_pos D1)) as [[F0 F1] F2].
    rewrite Rabs_mult, (Rabs_pos_eq lr) by lra. apply Rmult_le_compat; [lra|apply Rabs_pos|lra|]. rewrite Rabs_mult, (Rabs_pos_eq _ F0).
    eapply Rle_trans; [|exact F2]. apply Rmult_le_compat_l; [exact F0|]. eapply elem_le_norm; exact Hd. }
  assert (Geo : momentum o * bound + A * max_norm o = bound) by (unfold bound; field; lra).
  assert (B0 : 0 <= bound).
  { unfold bound. apply Rmult_le_pos; [apply Rmult_le_pos; lra|]. apply Rlt_le, Rinv_0_lt_compat. lra. }
  assert (V' : forall s1 lr b s2, well_formed m s1 -> (forall p i v, elem (aux s1 Velocity) p i v -> Rabs v <= bound) -> 0 <= lr <= A ->
     update m lr b s1 = Ok s2 -> (forall p i v, elem (aux s2 Velocity) p i v -> Rabs v <= bound) /\
     forall p i x x', elem (net s1) p i x -> elem (net s2) p i x' -> Rabs (x' - x) <= bound).
  { intros s1 lr b s2 W1 V1 Hl E. destruct (Step s1 lr b s2 W1 E) as (D1 & S1 & S2).
    destruct (update_wf gradients Hgrad m o weights Hmax lr b s1 s2 W1 E) as [W2 S3].
    assert (Sv := proj2 W1 Velocity 0 Hk). assert (Sv2 := proj2 W2 Velocity 0 Hk).
    assert (K : forall p i x, elem (net s1) p i x -> exists x' v', elem (net s2) p i x' /\ elem (aux s2 Velocity) p i v' /\ Rabs v' <= bound /\ Rabs (x' - x) <= bound).
    { intros p i x Hx. destruct (same_shape_elem _ _ p i x Sv Hx) as [v Hv]. destruct (same_shape_elem _ _ p i x S1 Hx) as [d0 Hd].
      destruct (S2 p i x v d0 Hx Hv Hd) as (x' & v' & X1 & X2 & X3 & X4). exists x', v'. split; [exact X1|]. split; [exact X2|].
      pose proof (V1 p i v Hv) as Bv. pose proof (Dd lr D1 p i d0 Hl Hd) as Bd.
      assert (Bv' : Rabs v' <= bound).
      { rewrite X3. eapply Rle_trans; [apply Rabs_triang|]. rewrite Rabs_mult, (Rabs_pos_eq (momentum o)) by lra. rewrite <- Geo.
        apply Rplus_le_compat; [apply Rmult_le_compat_l; lra|exact Bd]. }
      split; [exact Bv'|]. replace (x' - x) with (momentum o * v' + lr * (factor o (norm D1) * d0)) by lra.
      eapply Rle_trans; [apply Rabs_triang|]. rewrite Rabs_mult, (Rabs_pos_eq (momentum o)) by lra. rewrite <- Geo.
      apply Rplus_le_compat; [apply Rmult_le_compat_l; lra|exact Bd]. }
    split.
    - intros p i v Hv. assert (Hn : exists x, elem (net s1) p i x).
      { eapply same_shape_elem; [|exact Hv]. apply same_shape_sym. eapply same_shape_trans; [exact S3|exact Sv2]. }
      destruct Hn as [x Hx]. destruct (K p i x Hx) as (x' & v' & _ & X2 & X3 & _).
      now rewrite (elem_unique _ _ _ _ _ (same_shape_dict _ _ Sv2 (proj1 W2)) Hv X2).
    - intros p i x x' Hx Hx'. destruct (K p i x Hx) as (x2 & v' & X1 & _ & _ & X4).
      now rewrite (elem_unique _ _ _ _ _ (proj1 W2) Hx' X1). }
  assert (V : well_formed m s /\ forall p i v, elem (aux s Velocity) p i v -> Rabs v <= bound).
  { assert (Z : forall p i v, elem (aux (create_store m d) Velocity) p i v -> v = 0).
    { destruct (C39_initial m d D) as (_ & _ & _ & Hi). apply Hi. exact Hk. }
    remember (create_store m d) as s0 eqn:E0. clear E0. induction H as [s|s0 l s lr b s' H IH E].
    - split; [exact W0|]. intros p i v Hv. rewrite (Z p i v Hv), Rabs_R0. exact B0.
    - destruct (IH (fun x Hx => HA x (proj2 (in_app_iff _ _ _) (or_introl Hx))) W0 Z) as [Ws Vs].
      assert (Hl : 0 <= lr <= A) by (apply (HA (lr, gradient s b)); apply in_app_iff; right; left; reflexivity).
      split; [eapply update_wf; eassumption|]. exact (proj1 (V' s lr b s' Ws Vs Hl E)). }
  destruct V as [Ws Vs]. split; [exact Vs|]. intros lr b s' p i x x' Hl E Hx Hx'. exact (proj2 (V' s lr b s' Ws Vs Hl E) p i x x' Hx Hx').
Qed.

(** The weights of the training files do not matter. *)
Theorem C39_weights m lr b s w : length w = length weights ->
  update_minibatch gradients m o w lr b s = update m lr b s.
Proof.
  intros Hl. unfold update_minibatch. cbv zeta.
  assert (E : (exists a b', mapM (mapM (py_index w)) (tl (b_files b)) = Ok a /\ mapM (mapM (py_index weights)) (tl (b_files b)) = Ok b') \/
              (mapM (mapM (py_index w)) (tl (b_files b)) = Err IndexError /\ mapM (mapM (py_index weights)) (tl (b_files b)) = Err IndexError)).
  { assert (R1 : forall row, (exists a b', mapM (py_index w) row = Ok a /\ mapM (py_index weights) row = Ok b') \/
                            (mapM (py_index w) row = Err IndexError /\ mapM (py_index weights) row = Err IndexError)).
    { induction row as [|i row IH]; cbn [mapM]; [left; eauto|].
      assert (P1 : py_index w i = match nth_error w i with Some a => Ok a | None => Err IndexError end) by reflexivity.
      assert (P2 : py_index weights i = match nth_error weights i with Some a => Ok a | None => Err IndexError end) by reflexivity.
      rewrite P1, P2. destruct (nth_error w i) eqn:E1, (nth_error weights i) eqn:E2; cbn [bind].
      - destruct IH as [(a & b' & -> & ->)|[-> ->]]; cbn; [left; eauto|right; auto].
      - apply nth_error_None in E2. assert (i < length w)%nat by (apply nth_error_Some; congruence). lia.
      - apply nth_error_None in E1. assert (i < length weights)%nat by (apply nth_error_Some; congruence). lia.
      - right. auto. }
    induction (tl (b_files b)) as [|row l IH]; cbn [mapM]; [left; eauto|].
    destruct (R1 row) as [(a & b' & -> & ->)|[-> ->]]; cbn [bind]; [|right; auto].
    destruct IH as [(a2 & b2 & -> & ->)|[-> ->]]; cbn; [left; eauto|right; auto]. }
  destruct E as [(a & b' & -> & ->)|[-> ->]]; reflexivity.
Qed.
End Statements.
Print Assumptions C39_total.
Print Assumptions C39_initial.
Print Assumptions C39_sgd.
Print Assumptions C39_nesterov.
Print Assumptions C39_adagrad.
Print Assumptions C39_adadelta.
Print Assumptions C39_rmsprop_sgd.
Print Assumptions C39_rmsprop_nesterov.
Print Assumptions C39_adam.
Print Assumptions C39_history.
Print Assumptions C39_adam_bias.
Print Assumptions C38_step.
Print Assumptions C38_momentum.
Print Assumptions C39_weights.

(** A concrete training: one parameter with one element, whose gradient is always 2. *)
Definition two (d : tdict) (w c : list (list nat)) (k : list (list bool)) : list tensor := map (fun x => map (fun _ => 2) (snd x)) d.
Definition toy_batch : minibatch := mkMinibatch [[0; 0]; [1; 1]]%nat [[0; 0]; [1; 1]]%nat [[0; 0]; [0; 0]]%nat [[true; true]; [true; true]].

Lemma two_shape d w c k : map (@length R) (two d w c k) = map (fun x => length (snd x)) d.
Proof. unfold two. rewrite map_map. apply map_ext. intros [p t]. cbn. apply map_length. Qed.

Lemma toy_dict (x : R) : is_dict [(W, [x])].
Proof. unfold is_dict. cbn. constructor; [intros []|constructor]. Qed.

Lemma toy_elem x : elem [(W, [x])] W 0 x.
Proof. exists [x]. split; [now left|reflexivity]. Qed.

Lemma toy_update m w : (0 < length w)%nat ->
  exists s', update_minibatch two m unit_options w 1 toy_batch (create_store m [(W, [3])]) = Ok s' /\ well_formed m s' /\
    run two m unit_options w (create_store m [(W, [3])]) [(1, [(W, [2])])] s'.
Proof.
  intros Hw. destruct (C39_total two two_shape unit_options w ltac:(cbn; lra) m (create_store m [(W, [3])]) 1 toy_batch) as (s' & E & H & _).
  - apply create_store_wf, toy_dict.
  - cbn. intros i Hi. assert (i = 0)%nat by intuition. lia.
  - exists s'. split; [exact E|]. split; [exact H|]. exact (run_snoc two m unit_options w _ [] _ 1 toy_batch s' (run_nil _ _ _ _ _) E).
Qed.

(** Stochastic gradient descent goes from 3 to 3 - 2/3 * 2 (the numerical stability term
    is 1, so the factor is 2/3). *)
Example C39_sgd_example : exists s', update_minibatch two SGD unit_options [1] 1 toy_batch (create_store SGD [(W, [3])]) = Ok s' /\
  elem (net s') W 0 (5 / 3).
Proof.
  destruct (toy_update SGD [1]) as (s' & E & Wf & _); [cbn; lia|]. exists s'. split; [exact E|].
  destruct (sgd_rule unit_options (create_store SGD [(W, [3])]) 1 [[2]] eq_refl ltac:(cbn; lra)) as (ups & D & Eu & HD & M & _); [apply create_store_wf, toy_dict|].
  destruct (update_inv _ _ _ _ _ _ _ _ E) as (ups' & Eu' & ->). cbn [get_param_updates] in Eu'. change (batch_gradients two (create_store SGD [(W, [3])]) toy_batch) with [[2]] in Eu'.
  rewrite Eu in Eu'. injection Eu' as <-. clear E Wf Eu. destruct M as (S1 & _ & M).
  specialize (HD W 0%nat 2 (toy_elem 2)). specialize (M W 0%nat 3 (- 2) (toy_elem 3) HD).
  assert (ED : D = [(W, [- 2])]).
  { cbn [create_store net] in S1. inversion S1 as [|? y ? l [A1 A2] A3]; subst. inversion A3; subst. destruct y as [q t]. cbn [fst snd] in *. subst q.
    destruct t as [|z [|]]; try discriminate. destruct HD as (t & [[= <-]|[]] & Et). cbn in Et. assert (Ez : z = -2) by (injection Et; intros; lra). now rewrite Ez. }
  rewrite ED in M. rewrite norm_single in M. replace (5 / 3) with (3 + 1 * (factor unit_options (Rabs (-2)) * - 2)); [exact M|].
  rewrite Rabs_left by lra. unfold factor. cbn. rewrite Rmin_left by lra. field.
Qed.

(** The expectation that the weights of the training files scale the updates is false:
    with weight zero the parameters change as much as with weight one. *)
Theorem C39_weights_refuted : exists gradients b s s' p i x x',
  (forall d w c k, map (@length R) (gradients d w c k) = map (fun x => length (snd x)) d) /\
  update_minibatch gradients SGD unit_options [1] 1 b s = Ok s' /\ update_minibatch gradients SGD unit_options [0] 1 b s = Ok s' /\
  elem (net s) p i x /\ elem (net s') p i x' /\ x' <> x.
Proof.
  destruct C39_sgd_example as (s' & E & H). exists two, toy_batch, (create_store SGD [(W, [3])]), s', W, 0%nat, 3, (5 / 3).
  split; [apply two_shape|]. split; [exact E|]. split; [|split; [apply toy_elem|split; [exact H|lra]]].
  rewrite <- E. now apply (C39_weights two unit_options [1]).
Qed.
Print Assumptions C39_weights_refuted.

(** The expectation that the RMSProp optimizer with Nesterov momentum averages the
    squared gradients is false: the mean stays 1 although the squared gradient is 4. *)
Theorem C39_mean_square_refuted : exists gradients b s s',
  (forall d w c k, map (@length R) (gradients d w c k) = map (fun x => length (snd x)) d) /\
  well_formed RMSPropNesterov s /\ update_minibatch gradients RMSPropNesterov unit_options [1] 1 b s = Ok s' /\
  elem (aux s MeanSqrGradient) W 0 1 /\
  elem (combine (map fst (net s)) (gradients (net s) (b_words b) (b_classes b) (tl (b_mask b)))) W 0 2 /\
  elem (aux s' MeanSqrGradient) W 0 1 /\ ~ elem (aux s' MeanSqrGradient) W 0 (gamma unit_options * 1 + (1 - gamma unit_options) * 2 ^ 2).
Proof.
  destruct (toy_update RMSPropNesterov [1]) as (s' & E & Wf & Hr); [cbn; lia|].
  exists two, toy_batch, (create_store RMSPropNesterov [(W, [3])]), s'. split; [apply two_shape|]. split; [apply create_store_wf, toy_dict|].
  split; [exact E|]. split; [apply toy_elem|]. split; [apply toy_elem|].
  destruct (C39_history two two_shape unit_options [1] ltac:(cbn; lra) RMSPropNesterov [(W, [3])] _ s' W 0 [2] 3 (toy_dict 3) Hr (toy_elem 3)) as (_ & _ & _ & H & _).
  - constructor; [apply toy_elem|constructor].
  - specialize (H eq_refl). split; [exact H|]. intros H2.
    assert (U := elem_unique _ _ _ _ _ (same_shape_dict _ _ (proj2 Wf MeanSqrGradient 1 ltac:(now left)) (proj1 Wf)) H H2). cbn in U. lra.
Qed.
Print Assumptions C39_mean_square_refuted.

Example C39_history_example : exists s', run two Adam unit_options [1] (create_store Adam [(W, [3])]) [(1, [(W, [2])])] s' /\
  elem (aux s' MeanGradient) W 0 1 /\ elem (aux s' MeanSqrGradient) W 0 2.
Proof.
  destruct (toy_update Adam [1]) as (s' & E & Wf & Hr); [cbn; lia|]. exists s'. split; [exact Hr|].
  destruct (C39_history two two_shape unit_options [1] ltac:(cbn; lra) Adam [(W, [3])] _ s' W 0 [2] 3 (toy_dict 3) Hr (toy_elem 3)) as (_ & _ & _ & _ & H).
  - constructor; [apply toy_elem|constructor].
  - destruct (H eq_refl) as (H1 & H2 & _). cbn in H1, H2. split; [replace 1 with ((1 - 1 / 2) * (1 * 2 + 0)) by lra; exact H1|].
    replace 2 with ((1 - 1 / 2) * (1 * (2 * (2 * 1)) + 0)) by lra. exact H2.
Qed.

Example C38_momentum_example : exists s', run two Nesterov unit_options [1] (create_store Nesterov [(W, [3])]) [(1, [(W, [2])])] s' /\
  forall p i v, elem (aux s' Velocity) p i v -> Rabs v <= 20.
Proof.
  destruct (toy_update Nesterov [1]) as (s' & E & Wf & Hr); [cbn; lia|]. exists s'. split; [exact Hr|]. intros p i v Hv.
  destruct (C38_momentum two two_shape unit_options [1] ltac:(cbn; lra) Nesterov [(W, [3])] _ s' 1 ltac:(cbn; lra) ltac:(lra) ltac:(cbn; lra) ltac:(now left) (toy_dict 3) Hr) as [H _].
  - intros x [<-|[]]. cbn. lra.
  - specialize (H p i v Hv). cbn in H. lra.
Qed.
