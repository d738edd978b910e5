From Coq Require Import Reals Lra.
From Verif Require Import Base ListLib BaseLib ParamModel ParamSpec ParamProofs OptimizerModel OptimizerSpec OptimizerProofs OptimizerRules.
Open Scope R_scope.

Lemma same_shape_trans d1 d2 d3 : same_shape d1 d2 -> same_shape d2 d3 -> same_shape d1 d3.
Proof.
  intros H. revert d3. unfold same_shape. induction H as [|x y l l' [E1 E2] _ IH]; intros d3 H3; inversion H3 as [|? z ? l'' [F1 F2]]; subst; constructor.
  - split; congruence.
  - auto.
Qed.
Lemma same_shape_sym d1 d2 : same_shape d1 d2 -> same_shape d2 d1.
Proof. unfold same_shape. induction 1 as [|x y l l' [E1 E2] _ IH]; constructor; auto. Qed.

Lemma same_shape_elem d d' p i x : same_shape d d' -> elem d p i x -> exists y, elem d' p i y.
Proof.
  intros H (t & Ht & E). unfold same_shape in H. induction H as [|[q a] [q' b] l l' [E1 E2] _ IH]; [contradiction|]. cbn [fst snd] in *. subst q'.
  destruct Ht as [[= -> ->]|Ht].
  - destruct (nth_error b i) as [y|] eqn:Eb.
    + exists y, b. split; [now left|exact Eb].
    + apply nth_error_None in Eb. assert (i < length t)%nat by (apply nth_error_Some; congruence). lia.
  - destruct (IH Ht) as (y & u & H1 & H2). exists y, u. split; [now right|exact H2].
Qed.

Lemma same_shape_dict d d' : same_shape d d' -> is_dict d -> is_dict d'.
Proof. intros H D. unfold is_dict. now rewrite <- (same_shape_paths _ _ H). Qed.

Lemma elem_unique d p i x y : is_dict d -> elem d p i x -> elem d p i y -> x = y.
Proof. intros D H1 H2. apply (elem_look _ _ _ _ D) in H1 as [_ H1]. apply (elem_look _ _ _ _ D) in H2 as [_ H2]. congruence. Qed.

Section Updates.
Variable gradients : tdict -> list (list nat) -> list (list nat) -> list (list bool) -> list tensor.
Hypothesis Hgrad : forall d w c k, map (@length R) (gradients d w c k) = map (fun x => length (snd x)) d.
Variables (m : method) (o : options) (weights : list R).
Hypothesis Hmax : 0 <= max_norm o.
Notation update := (update_minibatch gradients m o weights).
Definition batch_gradients (s : store) (b : minibatch) : list tensor :=
  gradients (net s) (b_words b) (b_classes b) (tl (b_mask b)).

Lemma batch_gradients_ok s b : gradient_of s (batch_gradients s b).
Proof. apply Hgrad. Qed.

Lemma update_inv lr b s s' : update lr b s = Ok s' ->
  exists ups, get_param_updates o s lr (batch_gradients s b) m = Ok ups /\ s' = apply_updates ups s.
Proof.
  unfold update_minibatch. cbv zeta. destruct (mapM _ _); cbn [bind]; [|discriminate].
  fold (batch_gradients s b). destruct (get_param_updates _ _ _ _ _) as [ups|]; cbn [bind]; [|discriminate]. intros [= <-]. eauto.
Qed.

(** The updates do not fail, and keep the shape of everything. *)
Lemma updates_ok s lr g : well_formed m s -> gradient_of s g ->
  exists ups, get_param_updates o s lr g m = Ok ups /\ let s' := apply_updates ups s in well_formed m s' /\ same_shape (net s) (net s').
Proof.
  intros Hwf Hg. pose proof (net_dict m s Hwf) as Dn. destruct m eqn:Em; cbn [get_param_updates].
  - destruct (sgd_rule o s lr g Hg Hmax Hwf) as (ups & D & E & _ & (_ & S' & _) & _). exists ups. split; [exact E|]. cbn zeta.
    split; [|exact S']. split; [eapply same_shape_dict; eassumption|]. intros k x [].
  - destruct (nesterov_rule o s lr g Hg Hmax Hwf) as (ups & D & E & _ & _ & S' & Sv & _). exists ups. split; [exact E|]. cbn zeta.
    split; [|exact S']. split; [eapply same_shape_dict; eassumption|]. intros k x [[= <- <-]|[]].
    eapply same_shape_trans; [apply same_shape_sym; exact S'|exact Sv].
  - destruct (adagrad_rule o s lr g Hg Hmax Hwf) as (ups & D & E & _ & (_ & S' & _) & (Sv & _) & _). exists ups. split; [exact E|]. cbn zeta.
    split; [|exact S']. split; [eapply same_shape_dict; eassumption|]. intros k x [[= <- <-]|[]].
    eapply same_shape_trans; [apply same_shape_sym; exact S'|exact Sv].
  - destruct (adadelta_rule o s lr g Hg Hmax Hwf) as (ups & D & E & _ & (_ & S' & _) & (Sv & _) & Sd & _). exists ups. split; [exact E|]. cbn zeta.
    split; [|exact S']. split; [eapply same_shape_dict; eassumption|]. intros k x [[= <- <-]|[[= <- <-]|[]]];
    (eapply same_shape_trans; [apply same_shape_sym; exact S'|]); assumption.
  - destruct (rmsprop_sgd_rule o s lr g Hg Hmax Hwf) as (ups & D & E & _ & (_ & S' & _) & (Sv & _) & _). exists ups. split; [exact E|]. cbn zeta.
    split; [|exact S']. split; [eapply same_shape_dict; eassumption|]. intros k x [[= <- <-]|[]].
    eapply same_shape_trans; [apply same_shape_sym; exact S'|exact Sv].
  - destruct (rmsprop_nesterov_rule o s lr g Hg Hmax Hwf) as (ups & D & E & _ & _ & S' & Sv & _ & K & _). exists ups. split; [exact E|]. cbn zeta in *.
    split; [|exact S']. split; [eapply same_shape_dict; eassumption|]. intros k x [[= <- <-]|[[= <- <-]|[]]];
    (eapply same_shape_trans; [apply same_shape_sym; exact S'|]); [|assumption].
    rewrite K by discriminate. apply (proj2 Hwf MeanSqrGradient 1). now left.
  - destruct (adam_rule o s lr g Hg Hmax Hwf) as (ups & D & E & _ & (_ & S' & _) & (Sv & _) & (Sd & _) & _). exists ups. split; [exact E|]. cbn zeta.
    split; [|exact S']. split; [eapply same_shape_dict; eassumption|]. intros k x [[= <- <-]|[[= <- <-]|[]]];
    (eapply same_shape_trans; [apply same_shape_sym; exact S'|]); assumption.
Qed.

Lemma update_wf lr b s s' : well_formed m s -> update lr b s = Ok s' -> well_formed m s' /\ same_shape (net s) (net s').
Proof.
  intros Hwf H. destruct (update_inv _ _ _ _ H) as (ups & E & ->).
  destruct (updates_ok s lr _ Hwf (batch_gradients_ok s b)) as (ups' & E' & W). rewrite E in E'. injection E' as <-. exact W.
Qed.

Lemma run_wf s0 l s : well_formed m s0 -> run gradients m o weights s0 l s ->
  well_formed m s /\ same_shape (net s0) (net s) /\ Forall (fun x => same_shape (net s0) (snd x)) l.
Proof.
  intros W0. induction 1 as [s|s0 l s lr b s' H IH E].
  - split; [exact W0|]. split; [|constructor]. apply same_shape_look; [apply W0|]. auto.
  - destruct (IH W0) as (I1 & I2 & I3). destruct (update_wf _ _ _ _ I1 E) as [W' S'].
    split; [exact W'|]. split; [eapply same_shape_trans; eassumption|]. apply Forall_app. split; [exact I3|]. constructor; [|constructor]. cbn [snd].
    eapply same_shape_trans; [exact I2|]. exact (gradient_shape s _ (batch_gradients_ok s b)).
Qed.

Lemma create_store_wf d : is_dict d -> well_formed m (create_store m d).
Proof.
  intros D. split; [exact D|]. intros k x H. assert (L : forall x, same_shape d (like x d)).
  { intros y. unfold same_shape, like. clear. induction d as [|[p t] d IH]; cbn; constructor; [cbn; now rewrite map_length|exact IH]. }
  unfold create_store. cbn [net aux]. destruct (find _ _) as [[k' y]|] eqn:E; [apply L|].
  exfalso. apply (find_none _ _ E) in H. cbn in H. destruct (kind_eq_dec k k); congruence.
Qed.

Lemma weighted_snoc c l x : weighted c (l ++ [x]) = c * weighted c l + x.
Proof.
  induction l as [|y l IH]; cbn [app weighted]; [cbn; ring|]. rewrite IH, app_length. cbn [length]. rewrite Nat.add_1_r. cbn [pow]. ring.
Qed.

(** An auxiliary parameter that each update multiplies by [c] and to which it adds a
    function of the gradient *)
Lemma accumulator_history k c f : (forall s lr b s', well_formed m s -> update lr b s = Ok s' ->
    updated k (fun a x => c * a + f x) (path_gradients s (batch_gradients s b)) s s') ->
  forall s0 l s, well_formed m s0 -> run gradients m o weights s0 l s ->
  forall p i a v, elem (aux s0 k) p i a -> gradient_history l p i v -> elem (aux s k) p i (c ^ length v * a + weighted c (map f v)).
Proof.
  intros Hu s0 l s W0 H. induction H as [s|s0 l s lr b s' H IH E]; intros p i a v Ha Hv.
  - inversion Hv; subst. cbn. replace (1 * a + 0) with a by ring. exact Ha.
  - unfold gradient_history in Hv. apply Forall2_app_inv_l in Hv as (v1 & v2 & H1 & H2 & ->). inversion H2 as [|? g ? ? Eg Hn]; subst. inversion Hn; subst. cbn [snd] in Eg.
    pose proof (IH W0 p i a v1 Ha H1) as I1. destruct (run_wf _ _ _ W0 H) as (Ws & _ & _).
    destruct (Hu s lr b s' Ws E) as [_ U].
    specialize (U p i _ g I1 Eg). rewrite app_length, map_app. cbn [length map]. rewrite weighted_snoc, Nat.add_1_r. cbn [pow].
    replace (c * c ^ length v1 * a + (c * weighted c (map f v1) + f g)) with (c * (c ^ length v1 * a + weighted c (map f v1)) + f g) by ring. exact U.
Qed.
End Updates.

Lemma weighted_constant c g n : (1 - c) * weighted c (repeat g n) = (1 - c ^ n) * g.
Proof.
  induction n as [|n IH]; cbn [repeat weighted]; [cbn; ring|]. rewrite repeat_length, Rmult_plus_distr_l, IH. cbn [pow]. ring.
Qed.
Lemma weighted_one l : weighted 1 l = fold_right Rplus 0 l.
Proof. induction l as [|x l IH]; cbn [weighted fold_right]; [reflexivity|]. now rewrite IH, pow1, Rmult_1_l. Qed.
