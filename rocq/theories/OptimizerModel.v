(** Model of theanolm/training/*optimizer.py: the update rules of the optimizers.
    No proofs.

    Numbers are real numbers. The gradients are an argument: Theano computes them from
    the cost of the mini-batch. A parameter is the list of its elements, because the
    rules work element by element; Theano raises an exception for different shapes,
    whereas [map2] cuts the longer list (the theorems assume equal lengths). An
    auxiliary parameter such as "layers/x/W_velocity" is identified by its kind and the
    path of the network parameter; no two such names coincide. *)
From Coq Require Import Reals.
From Verif Require Import Base ParamModel.

Notation tensor := (list R).
Notation tdict := (list (pystr * list R)).

Inductive method := SGD | Nesterov | AdaGrad | Adadelta | RMSPropSGD | RMSPropNesterov | Adam.
Inductive kind := MeanGradient | MeanSqrGradient | MeanSqrDelta | SumSqrGradient | Velocity.
Definition kind_eq_dec (a b : kind) : {a = b} + {a <> b}.
Proof. decide equality. Defined.

(** The shared variables: network parameters, auxiliary parameters, and the time step
    of Adam. *)
Record store := mkStore { net : tdict; aux : kind -> tdict; timestep : nat }.

Record options := mkOptions {
  epsilon : R; max_norm : R;
  gamma : R;      (* gradient_decay_rate *)
  gamma_ms : R;   (* sqr_gradient_decay_rate *)
  momentum : R }.

(** An element of the list that is given to theano.function as updates. All the new
    values are computed from the old values of the variables. *)
Inductive upd1 := SetNet (p : pystr) (t : tensor) | SetAux (k : kind) (p : pystr) (t : tensor) | SetTimestep (n : nat).
Definition apply1 (s : store) (u : upd1) : store :=
  match u with
  | SetNet p t => mkStore (dict_replace p t (net s)) (aux s) (timestep s)
  | SetAux k p t => mkStore (net s) (fun k' => if kind_eq_dec k' k then dict_replace p t (aux s k') else aux s k') (timestep s)
  | SetTimestep n => mkStore (net s) (aux s) n
  end.
Definition apply_updates (ups : list upd1) (s : store) : store := fold_left apply1 ups s.

Fixpoint map2 (f : R -> R -> R) (a b : tensor) : tensor :=
  match a, b with
  | x :: a', y :: b' => f x y :: map2 f a' b'
  | _, _ => []
  end.

(** Dictionary indexing *)
Definition lookup (d : tdict) (p : pystr) : result tensor :=
  match dict_get p d with Some t => Ok t | None => Err KeyError end.

Open Scope R_scope.

(** backend/operations.py:149-161 *)
Definition rsum (t : tensor) : R := fold_right Rplus 0 t.
Definition sum_of_squares (l : list tensor) : R := fold_right (fun t s => rsum (map Rsqr t) + s) 0 l.

(** tensor.clip *)
Definition clip (x lo hi : R) : R := if Rlt_dec x lo then lo else if Rlt_dec hi x then hi else x.

(** basicoptimizer.py:217-237, _normalize. The maximum norm is never None: the
    constructor has converted it to a float (line 70). *)
Definition normalize (o : options) (deltas : tdict) : tdict :=
  let norm := sqrt (sum_of_squares (map snd deltas)) in
  let target_norm := clip norm 0 (max_norm o) in
  map (fun '(name, delta) => (name, map (fun x => x * target_norm / (epsilon o + norm)) delta)) deltas.

Section Updates.
Variable o : options.
Variable s : store.            (* the old values *)
Variable alpha : R.            (* the scale of the updates *)
Variable gradients : list tensor.

(** [zip(self.network.get_variables(), self._gradients)] *)
Definition path_gradients : tdict := combine (map fst (net s)) gradients.

(** Updates of the network parameters that the rules without momentum share *)
Definition step_params (alpha : R) (deltas : tdict) : result (list upd1) :=
  mapM (fun '(path, param_old) =>
    do delta <- lookup deltas path;
    Ok (SetNet path (map2 (fun p d => p + alpha * d) param_old delta))) (net s).

(** Updates of velocities and network parameters that the Nesterov rules share
    (nesterovoptimizer.py:67-73, rmspropnesterovoptimizer.py:95-101) *)
Definition step_velocities (deltas : tdict) : result (list upd1) :=
  do l <- mapM (fun '(path, param_old) =>
    do delta <- lookup deltas path;
    do velocity_old <- lookup (aux s Velocity) path;
    let velocity := map2 (fun v d => momentum o * v + alpha * d) velocity_old delta in
    let param := map2 (fun x d => x + alpha * d) (map2 (fun p v => p + momentum o * v) param_old velocity) delta in
    Ok [SetAux Velocity path velocity; SetNet path param]) (net s);
  Ok (concat l).

(** sgdoptimizer.py:30-51 *)
Definition sgd_updates : result (list upd1) :=
  let deltas := map (fun '(path, g) => (path, map Ropp g)) path_gradients in
  step_params alpha (normalize o deltas).

(** nesterovoptimizer.py:49-74 *)
Definition nesterov_updates : result (list upd1) :=
  let deltas := map (fun '(path, g) => (path, map Ropp g)) path_gradients in
  step_velocities (normalize o deltas).

(** adagradoptimizer.py:47-73 *)
Definition adagrad_updates : result (list upd1) :=
  do l <- mapM (fun '(path, g) =>
    do ss_gradient_old <- lookup (aux s SumSqrGradient) path;
    let ss_gradient := map2 (fun a x => a + Rsqr x) ss_gradient_old g in
    let delta := map2 (fun x a => - x / sqrt (a + epsilon o)) g ss_gradient in
    Ok (SetAux SumSqrGradient path ss_gradient, (path, delta))) path_gradients;
  let deltas := normalize o (map snd l) in
  do ups <- step_params alpha deltas;
  Ok (map fst l ++ ups).

(** adadeltaoptimizer.py:54-89 *)
Definition adadelta_updates : result (list upd1) :=
  do l <- mapM (fun '(path, g) =>
    do ms_gradient_old <- lookup (aux s MeanSqrGradient) path;
    let ms_gradient := map2 (fun a x => gamma o * a + (1 - gamma o) * Rsqr x) ms_gradient_old g in
    do ms_delta_old <- lookup (aux s MeanSqrDelta) path;
    let rms_delta_old := map (fun a => sqrt (a + epsilon o)) ms_delta_old in
    let rms_gradient := map (fun a => sqrt (a + epsilon o)) ms_gradient in
    let delta := map2 (fun x r => x / r) (map2 (fun x r => - x * r) g rms_delta_old) rms_gradient in
    Ok (SetAux MeanSqrGradient path ms_gradient, (path, delta))) path_gradients;
  let deltas := normalize o (map snd l) in
  do ups <- mapM (fun '(path, param_old) =>
    do delta <- lookup deltas path;
    do ms_delta_old <- lookup (aux s MeanSqrDelta) path;
    let ms_delta := map2 (fun a d => gamma o * a + (1 - gamma o) * Rsqr d) ms_delta_old delta in
    Ok [SetAux MeanSqrDelta path ms_delta; SetNet path (map2 (fun p d => p + alpha * d) param_old delta)]) (net s);
  Ok (map fst l ++ concat ups).

(** The first loop of the RMSProp rules (rmspropsgdoptimizer.py:62-73,
    rmspropnesterovoptimizer.py:80-91): the updates of the mean squared gradients, and
    the steps *)
Definition rmsprop_deltas : result (list (upd1 * (pystr * tensor))) :=
  mapM (fun '(path, g) =>
    do ms_gradient_old <- lookup (aux s MeanSqrGradient) path;
    let ms_gradient := map2 (fun a x => gamma o * a + (1 - gamma o) * Rsqr x) ms_gradient_old g in
    let rms_gradient := map (fun a => sqrt (a + epsilon o)) ms_gradient in
    Ok (SetAux MeanSqrGradient path ms_gradient, (path, map2 (fun x r => - x / r) g rms_gradient))) path_gradients.

(** rmspropsgdoptimizer.py:51-79 *)
Definition rmsprop_sgd_updates : result (list upd1) :=
  do l <- rmsprop_deltas;
  do ups <- step_params alpha (normalize o (map snd l));
  Ok (map fst l ++ ups).

(** rmspropnesterovoptimizer.py:69-102. Line 94 starts a new list of updates: those of
    the mean squared gradients are dropped. *)
Definition rmsprop_nesterov_updates : result (list upd1) :=
  do l <- rmsprop_deltas;
  step_velocities (normalize o (map snd l)).

(** adamoptimizer.py:61-100. The time step is a natural number (a float in the
    code). *)
Definition adam_updates : result (list upd1) :=
  let t := S (timestep s) in
  let alpha := alpha * sqrt (1 - gamma_ms o ^ t) in
  let alpha := alpha / (1 - gamma o ^ t) in
  do l <- mapM (fun '(path, g) =>
    do m_gradient_old <- lookup (aux s MeanGradient) path;
    do ms_gradient_old <- lookup (aux s MeanSqrGradient) path;
    let m_gradient := map2 (fun a x => gamma o * a + (1 - gamma o) * x) m_gradient_old g in
    let ms_gradient := map2 (fun a x => gamma_ms o * a + (1 - gamma_ms o) * Rsqr x) ms_gradient_old g in
    let rms_gradient := map (fun a => sqrt a + epsilon o) ms_gradient in
    let delta := map2 (fun m r => - m / r) m_gradient rms_gradient in
    Ok ([SetAux MeanGradient path m_gradient; SetAux MeanSqrGradient path ms_gradient], (path, delta))) path_gradients;
  do ups <- step_params alpha (normalize o (map snd l));
  Ok (concat (map fst l) ++ ups ++ [SetTimestep t]).

(** training/__init__.py:15-48, create_optimizer, and _get_param_updates *)
Definition get_param_updates (m : method) : result (list upd1) :=
  match m with
  | SGD => sgd_updates
  | Nesterov => nesterov_updates
  | AdaGrad => adagrad_updates
  | Adadelta => adadelta_updates
  | RMSPropSGD => rmsprop_sgd_updates
  | RMSPropNesterov => rmsprop_nesterov_updates
  | Adam => adam_updates
  end.
End Updates.

(** The constructors: sgd 15-28, nesterov 26-47, adagrad 30-45, adadelta 29-52,
    rmspropsgd 26-49, rmspropnesterov 37-67, adam 21-59. *)
Definition like (x : R) (d : tdict) : tdict := map (fun '(p, t) => (p, map (fun _ => x) t)) d.
Definition kinds (m : method) : list (kind * R) :=
  match m with
  | SGD => []
  | Nesterov => [(Velocity, 0)]
  | AdaGrad => [(SumSqrGradient, 0)]
  | Adadelta => [(MeanSqrGradient, 0); (MeanSqrDelta, 0)]
  | RMSPropSGD => [(MeanSqrGradient, 1)]
  | RMSPropNesterov => [(MeanSqrGradient, 1); (Velocity, 0)]
  | Adam => [(MeanGradient, 0); (MeanSqrGradient, 0)]
  end.
Definition create_store (m : method) (network : tdict) : store :=
  mkStore network
    (fun k => match find (fun x => if kind_eq_dec (fst x) k then true else false) (kinds m) with
              | Some (_, x) => like x network
              | None => []
              end) 0.

(** A mini-batch: matrices indexed by time step and sequence *)
Record minibatch := mkMinibatch { b_words : list (list nat); b_classes : list (list nat);
                                  b_files : list (list nat); b_mask : list (list bool) }.

Section Minibatch.
(** What Theano computes from the cost: a gradient for each network parameter. The
    arguments are the network parameters, the word and class IDs and the mask of the
    output words. *)
Variable gradients : tdict -> list (list nat) -> list (list nat) -> list (list bool) -> list tensor.

Definition count_true (m : list (list bool)) : nat := length (filter (fun b => b) (concat m)).

(** basicoptimizer.py:104-134 (the rest of the constructor) and 172-200,
    update_minibatch. The scale that takes the weights into account (lines 112-116,
    here without the words that the cost excludes) is computed, but the unmodified
    alpha is used (line 131). *)
Definition update_minibatch (m : method) (o : options) (weights : list R) (learning_rate : R) (b : minibatch) (s : store) : result store :=
  let mask := tl (b_mask b) in
  let file_ids := tl (b_files b) in
  do weights <- mapM (mapM (py_index weights)) file_ids;
  let alpha := learning_rate in
  let weight := rsum (map fst (filter snd (combine (concat weights) (concat mask)))) in
  let num_words := count_true mask in
  let modified_alpha := match num_words with O => alpha | _ => alpha * weight / INR num_words end in
  do ups <- get_param_updates o s alpha (gradients (net s) (b_words b) (b_classes b) mask) m;
  Ok (apply_updates ups s).

(** Updates of a training: mini-batches with the learning rate at the time *)
Definition updates (m : method) (o : options) (weights : list R) (l : list (R * minibatch)) (s : store) : result store :=
  foldM (fun s '(lr, b) => update_minibatch m o weights lr b s) l s.
End Minibatch.
