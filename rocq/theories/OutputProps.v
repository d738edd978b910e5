(** Output layers: C48, C59. *)
From Coq Require Import Reals Lra.
From Verif Require Import Base BaseLib ListLib Strings ParamModel NetModel NetSpec NetColumns NetReal NetExamples DeviceModel DeviceSpec DeviceProofs DeviceNet DeviceProps
  OutputModel OutputSpec OutputProofs.
Local Open Scope nat_scope.

(** ** C48: hierarchical softmax *)

(** Whatever the number of classes is, the constructor finds the sizes of two levels that
    are equal or almost equal, cover the classes, and cannot be made smaller. No
    assertion fails. *)
Theorem C48_levels n : 1 <= n -> exists l1 l2, level_sizes n = Ok (l1, l2) /\
  (l1 - 1) * (l1 - 1) < n /\ n <= l1 * l1 /\
  n <= l1 * l2 /\ (l1 - 1) * l2 < n /\ l1 * (l2 - 1) < n /\ (l1 = l2 \/ l1 = l2 + 1).
Proof. apply levels_ok. Qed.
Print Assumptions C48_levels.
Example C48_levels_example : level_sizes 10 = Ok (4, 3) /\ level_sizes 13 = Ok (4, 4) /\ level_sizes 16 = Ok (4, 4) /\ level_sizes 1 = Ok (1, 1).
Proof. repeat split. Qed.

(** Asking for the probabilities of target classes gives those of the distribution over
    all the classes, with softmax and with hierarchical softmax. *)
Theorem C48_target_probability A (ds : list (description A)) o n b p st targets :
  create_network ds o = Ok n -> output_works_on_devices o ->
  (softmax_dimensions o \/ exists l1 l2, level_sizes (o_size o) = Ok (l1, l2) /\ hsoftmax_dimensions o l1 l2) ->
  eval_network n Minibatch b = Ok (p, st) ->
  Forall (Forall (fun c => c < o_size o)) targets ->
  exists q, target_probs n b targets = Ok q /\
  forall t s distribution target, cell p t s = Some distribution -> cell targets t s = Some target ->
  exists probability, cell q t s = Some probability /\ nth_error distribution target = Some probability.
Proof.
  intros C W D E F. destruct (eval_targets_output _ _ _ _ _ _ _ _ C W D E F) as (q & Q & _ & H).
  exists q. split; [unfold target_probs; now rewrite Q|exact H].
Qed.
Print Assumptions C48_target_probability.

(** And likewise when one time step is processed at a time; the new recurrent state is
    the same. *)
Theorem C48_target_probability_step A (ds : list (description A)) o n words classes state p st targets :
  create_network ds o = Ok n -> output_works_on_devices o ->
  (softmax_dimensions o \/ exists l1 l2, level_sizes (o_size o) = Ok (l1, l2) /\ hsoftmax_dimensions o l1 l2) ->
  step_network n words classes state = Ok (p, st) ->
  Forall (fun c => c < o_size o) targets ->
  exists q, step_targets n words classes targets state = Ok (q, st) /\ length q = Nat.min (length p) (length targets) /\
  forall s distribution target, nth_error p s = Some distribution -> nth_error targets s = Some target ->
  exists probability, nth_error q s = Some probability /\ nth_error distribution target = Some probability.
Proof. apply step_targets_output. Qed.
Print Assumptions C48_target_probability_step.

(** ** C59: the distributions *)

(** The output of a softmax layer is a probability distribution over the classes. Every
    class gets a positive probability, except that of unknown words when it is
    excluded. *)
Theorem C59_softmax_distribution (ds : list (description reals)) o n m b p st t s d :
  create_network ds o = Ok n -> output_works_on_devices o -> softmax_dimensions o ->
  (exists class, class < o_size o /\ (o_exclude_unk o = true -> class <> o_unk_class o)) ->
  eval_network n m b = Ok (p, st) -> cell p t s = Some d ->
  length d = o_size o /\ distribution d /\
  forall class, class < o_size o -> exists probability, nth_error d class = Some probability /\
  if (o_exclude_unk o && (class =? o_unk_class o))%bool then probability = 0%R else (0 < probability)%R.
Proof.
  intros C W D (c & Hc & HU) E Hd. destruct (softmax_rows _ _ _ _ _ _ _ C D W E) as (x & -> & L).
  rewrite cell_map' in Hd. destruct (cell x t s) as [row|] eqn:R; [|discriminate]. cbn [option_map] in Hd. injection Hd as <-.
  apply L in R. split; [now rewrite softmax_row_length|]. unfold softmax_row.
  set (v := if o_exclude_unk o then set_log_zero (o_unk_class o) (map Some row) else map Some row).
  assert (N : forall class, class < o_size o -> exists y, nth_error v class =
    Some (if (o_exclude_unk o && (class =? o_unk_class o))%bool then None else Some y)).
  { intros class H. destruct (nth_error row class) as [y|] eqn:Y; [|apply nth_error_None in Y; lia]. exists y. unfold v.
    destruct (o_exclude_unk o); cbn [andb].
    - unfold set_log_zero. rewrite nth_mapi, nth_error_map, Y. reflexivity.
    - rewrite nth_error_map, Y. reflexivity. }
  clearbody v. destruct (N c Hc) as [y Hy].
  replace (o_exclude_unk o && (c =? o_unk_class o))%bool with false in Hy
    by (destruct (o_exclude_unk o); cbn [andb]; [|reflexivity]; symmetry; apply Nat.eqb_neq; auto).
  destruct (softmax_distribution v c y Hy) as (P1 & P2 & P3). split; [exact P1|]. intros class H. destruct (N class H) as [z Hz].
  destruct (o_exclude_unk o && (class =? o_unk_class o))%bool; [exists 0%R; split; [now apply P3|reflexivity]|]. destruct (P2 class z Hz) as (q & Hq & Q). eauto.
Qed.
Print Assumptions C59_softmax_distribution.

(** The output of a hierarchical softmax layer gives a positive probability to every
    class. The probabilities sum up to one exactly when the number of classes is the
    product of the sizes of the levels. Excluding unknown words has no effect. *)
Theorem C59_hsoftmax_distribution (ds : list (description reals)) o n m b p st t s d l1 l2 :
  create_network ds o = Ok n -> output_works_on_devices o -> level_sizes (o_size o) = Ok (l1, l2) -> hsoftmax_dimensions o l1 l2 ->
  eval_network n m b = Ok (p, st) -> cell p t s = Some d ->
  length d = o_size o /\ Forall (Rlt 0) d /\ (total d <= 1)%R /\ (total d = 1%R <-> o_size o = l1 * l2).
Proof.
  intros C W L D E Hd. assert (W' : o_devices o = [None]).
  { unfold output_works_on_devices in W. destruct D as [K _]. now rewrite K in W. }
  destruct (hsoftmax_rows _ _ _ _ _ _ _ _ _ C D W' E) as (w & bb & w2 & b2 & x & V & ->).
  rewrite cell_map' in Hd. destruct (cell x t s) as [row|] eqn:R; [|discriminate]. cbn [option_map] in Hd. injection Hd as <-.
  destruct D as [_ D]. rewrite V in D. destruct D as (D1 & D2 & D3 & D4 & D5 & D6).
  destruct (o_size o) as [|k] eqn:Z; [discriminate L|].
  destruct (levels_ok (S k) ltac:(lia)) as (l1' & l2' & L' & _ & _ & G & _). rewrite L' in L. injection L as <- <-.
  apply h_distribution; try assumption; nia.
Qed.
Print Assumptions C59_hsoftmax_distribution.

(** *** Examples and counterexamples *)

(** A network with one feature that is zero: hierarchical softmax over three classes, of
    which the first one is that of unknown words *)
Definition ex_zero : list (description reals) :=
  [mkDescription (A := reals) WordInput (str "i") [] 1 Tanh [None] NoValues 0%R;
   mkDescription (A := reals) Projection (str "p") [0] 1 Tanh [None] (Table (A := reals) [[0%R]]) 0%R].
Definition ex_levels (size : nat) (exclude : bool) : output_description reals :=
  mkOutput (A := reals) (HSoftmax 2 2) (str "o") [1] size [None] (HSoftmaxValues (A := reals) [[0%R]; [0%R]] [0%R; 0%R] [[[0%R]; [0%R]]; [[0%R]; [0%R]]] [[0%R; 0%R]; [0%R; 0%R]]) 0 exclude.
Definition ex_flat (exclude : bool) : output_description reals :=
  mkOutput (A := reals) Softmax (str "o") [1] 3 [None] (SoftmaxValues (A := reals) [[0%R]; [0%R]; [0%R]] [0%R; 0%R; 0%R]) 0 exclude.
Definition ex_one : batch := alone [(0, 0)].

Lemma real_sum2 : (1 / (1 + 1) * (1 / (1 + 1)) = / 4)%R. Proof. field. Qed.
Lemma ex_levels_output size exclude : In size [3; 4] -> exists n st,
  create_network ex_zero (ex_levels size exclude) = Ok n /\ eval_network n Minibatch ex_one = Ok ([[repeat (/ 4)%R size]], st).
Proof.
  intros [<-|[<-|[]]]; (eexists; eexists; split; [cbv -[Rplus Rmult Rdiv Rinv Rtrigo_def.exp IZR]; reflexivity|]);
  cbv -[Rplus Rmult Rdiv Rinv Rtrigo_def.exp IZR]; real_norm; rewrite real_sum2; reflexivity.
Qed.
Lemma ex_flat_output : exists n st p,
  create_network ex_zero (ex_flat true) = Ok n /\ eval_network n Minibatch ex_one = Ok ([[p]], st).
Proof.
  eexists; eexists; eexists. split; [cbv -[Rplus Rmult Rdiv Rinv Rtrigo_def.exp IZR]; reflexivity|].
  cbv -[Rplus Rmult Rdiv Rinv Rtrigo_def.exp IZR]. reflexivity.
Qed.
Example C59_softmax_example : exists n st p,
  create_network ex_zero (ex_flat true) = Ok n /\ eval_network n Minibatch ex_one = Ok ([[p]], st) /\
  output_works_on_devices (ex_flat true) /\ softmax_dimensions (ex_flat true) /\ 1 <> o_unk_class (ex_flat true).
Proof.
  destruct ex_flat_output as (n & st & p & C & E). exists n, st, p. repeat split; try assumption; [now left|discriminate].
Qed.
Lemma ex_levels_dimensions size exclude : In size [3; 4] ->
  level_sizes size = Ok (2, 2) /\ hsoftmax_dimensions (ex_levels size exclude) 2 2 /\ output_works_on_devices (ex_levels size exclude).
Proof. intros [<-|[<-|[]]]; repeat split; repeat constructor. Qed.

(** The probabilities do not sum up to one, although the hypotheses of
    [C59_hsoftmax_distribution] are met. *)
Theorem C59_hsoftmax_sum_refuted :
  ~ (forall (ds : list (description reals)) o n m b p st t s d l1 l2,
     create_network ds o = Ok n -> output_works_on_devices o -> level_sizes (o_size o) = Ok (l1, l2) -> hsoftmax_dimensions o l1 l2 ->
     eval_network n m b = Ok (p, st) -> cell p t s = Some d -> total d = 1%R).
Proof.
  intro H. destruct (ex_levels_output 3 false ltac:(now left)) as (n & st & C & E).
  destruct (ex_levels_dimensions 3 false ltac:(now left)) as (L & D & W).
  specialize (H ex_zero (ex_levels 3 false) n Minibatch ex_one _ st 0 0 _ 2 2 C W L D E eq_refl). unfold total in H. cbn [repeat fold_right] in H. lra.
Qed.
Print Assumptions C59_hsoftmax_sum_refuted.

(** An unknown word gets a positive probability even if unknown words are excluded. *)
Theorem C59_hsoftmax_exclude_unk_refuted :
  ~ (forall (ds : list (description reals)) o n m b p st t s d l1 l2,
     create_network ds o = Ok n -> output_works_on_devices o -> level_sizes (o_size o) = Ok (l1, l2) -> hsoftmax_dimensions o l1 l2 ->
     o_exclude_unk o = true -> o_unk_class o < o_size o ->
     eval_network n m b = Ok (p, st) -> cell p t s = Some d -> nth_error d (o_unk_class o) = Some 0%R).
Proof.
  intro H. destruct (ex_levels_output 4 true ltac:(right; now left)) as (n & st & C & E).
  destruct (ex_levels_dimensions 4 true ltac:(right; now left)) as (L & D & W).
  specialize (H ex_zero (ex_levels 4 true) n Minibatch ex_one _ st 0 0 _ 2 2 C W L D eq_refl ltac:(cbn; lia) E eq_refl).
  cbn [nth_error repeat o_unk_class ex_levels] in H. injection H as H. lra.
Qed.
Print Assumptions C59_hsoftmax_exclude_unk_refuted.

Example C48_target_probability_example : exists n st, create_network ex_zero (ex_levels 3 false) = Ok n /\
  eval_network n Minibatch ex_one = Ok ([[repeat (/ 4)%R 3]], st) /\ Forall (Forall (fun c => c < o_size (ex_levels 3 false))) [[2]].
Proof.
  destruct (ex_levels_output 3 false ltac:(now left)) as (n & st & C & E). exists n, st. repeat split; try assumption. repeat constructor.
Qed.
