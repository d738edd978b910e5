(** Specification of sampling noise classes, and of unnormalized probabilities. *)
From Coq Require Import Reals.
From Verif Require Import Base Strings NetModel NetSpec BuildSpec EquationSpec SamplingModel.
Local Open Scope nat_scope.

(** An element of an array *)
Definition at2 {X} (m : list (list X)) (t s : nat) : option X :=
  match nth_error m t with Some r => nth_error r s | None => None end.

Section Scores.
Context {A : arith}.
Notation num := (num A).
Variable weight : pystr -> pystr -> nat -> nat -> nat -> num.

(** The score of a class before softmax: an affine map of what the layers compute *)
Definition class_score (n : network A) (b : batch) (T t s c : nat) : num :=
  let inputs := map (fun i => match nth_error (activities weight b T (n_layers n)) i with
                              | Some (l, x) => (l_size l, x)
                              | None => (0, fun _ _ _ => zero)
                              end) (n_inputs n) in
  affine weight (n_name n) (str "input") (total_size inputs) (joined inputs t s) c.
End Scores.

(** ** Sharing of samples *)
(** How many samples are drawn: rows and columns *)
Definition rows_drawn (s : sharing) (T N : nat) : nat := match s with NotShared => T * N | _ => 1 end.
Definition columns_drawn (s : sharing) (T k : nat) : nat := match s with SequencesShared => T * k | _ => k end.
(** The [k] classes that are used for sequence [i] at time step [t] *)
Definition noise_at (s : sharing) (N k : nat) (drawn : list (list nat)) (t i : nat) : list nat :=
  match s with
  | NotShared => nth (t * N + i) drawn []
  | SequencesShared => firstn k (skipn (t * k) (nth 0 drawn []))
  | BatchShared => nth 0 drawn []
  end.
(** What a noise distribution should draw *)
Definition good_draw (num_classes rows columns : nat) (drawn : list (list nat)) : Prop :=
  rectangle rows columns drawn /\ Forall (Forall (fun c => c < num_classes)) drawn.

(** ** Noise distributions *)
Open Scope R_scope.
(** The interval from zero to one is divided to intervals, one for each class, as long as
    the probability of the class. A class is drawn when the random number is in its
    interval. *)
Definition draws_by_probability (num_classes : nat) (d : (nat -> nat -> R) -> distribution) : Prop :=
  exists bounds : nat -> R, bounds 0%nat = 0 /\ bounds num_classes = 1 /\
    (forall random c, (c < num_classes)%nat -> bounds (S c) - bounds c = d_probs (d random) c /\ 0 < d_probs (d random) c) /\
    forall random rows k, (forall i j, 0 <= random i j < 1) ->
      exists drawn, d_sample (d random) rows k = Ok drawn /\ rectangle rows k drawn /\
        forall i j c, (i < rows)%nat -> (j < k)%nat ->
          (at2 drawn i j = Some c <-> (c < num_classes)%nat /\ bounds c <= random i j < bounds (S c)).

(** Drawing without replacement, what Theano's random number generator should do *)
Definition draws_without_replacement (choice : nat -> nat -> list R -> result (list (list nat))) : Prop :=
  forall rows k probs,
    ((k <= length probs)%nat -> exists drawn, choice rows k probs = Ok drawn /\ good_draw (length probs) rows k drawn /\ Forall (@NoDup nat) drawn) /\
    ((length probs < k)%nat -> choice rows k probs = Err ValueError).

(** What noise sampling needs: random numbers that are at least zero and less than one, a
    prior probability for each class, and not all the prior probabilities zero *)
Record can_sample (random : nat -> nat -> R) (choice : nat -> nat -> list R -> result (list (list nat))) (num_classes : nat) (priors : list R) : Prop := {
  cs_random : forall i j, 0 <= random i j < 1;
  cs_choice : draws_without_replacement choice;
  cs_number : length priors = num_classes;
  cs_priors : Forall (fun p => 0 <= p) priors;
  cs_some : Exists (fun p => 0 < p) priors }.
(** Sampling from the unigram distribution. (Raised to the power of zero it is uniform.) *)
Definition by_unigrams (type : pystr) (dampening : R) : Prop := type = str "unigram" /\ dampening <> 0.
