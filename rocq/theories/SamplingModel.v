(** Model of theanolm/network/samplingoutputlayer.py and backend/classdistribution.py:
    sampling of noise classes, and the unnormalized probabilities that sampling-based
    training objectives need. No proofs.

    Random numbers are arguments. Theano's functions are taken to compute with real
    numbers: rounding of floating point numbers is not modelled. *)
From Coq Require Import Reals.
From Verif Require Import Base Strings NetModel NetReal CostModel.
Local Open Scope nat_scope.

(** How noise samples are shared: network.py 321-324 *)
Inductive sharing := NotShared | SequencesShared | BatchShared.

(** reshape([n, size]) of the elements in order *)
Fixpoint rows_of {X} (n size : nat) (l : list X) : list (list X) :=
  match n with
  | O => []
  | S k => firstn size l :: rows_of k size (skipn size l)
  end.

Section Network.
Context {A : arith}.
Notation num := (num A).
Notation vec := (list num).
Notation matrix := (list vec).
Notation tensor := (list matrix).

(** softmaxlayer.py 63-64, 98: layer_input *)
Definition output_input (n : network A) (m : mode A) (b : batch) : result tensor :=
  do '(outs, _) <- eval_layers m b [] 0 0 (n_layers n);
  do ins <- mapM (py_index outs) (n_inputs n);
  do fs <- mapM (fun v => features (fst v)) ins;
  concat_features fs.

(** The weights and the bias of one class. (The lists of a weight matrix are the
    columns.) *)
Definition class_preact (w : list vec) (b : vec) (x : vec) (c : nat) : result num :=
  do column <- py_index w c;
  do bias <- py_index b c;
  Ok (add (dotv x column) bias).
Definition output_weights (n : network A) : result (list vec * vec) :=
  do w <- get_weight (n_params n) (n_name n) (str "input/W") None;
  do b <- get_bias (n_params n) (n_name n) (str "input/b") None;
  Ok (w, b).

(** samplingoutputlayer.py 151-180, _get_target_preact *)
Definition target_preact (n : network A) (x : tensor) (ids : list (list (list nat))) : result tensor :=
  do '(w, b) <- output_weights n;
  mapM (fun '(m, is) => mapM (fun '(row, cs) => mapM (class_preact w b row) cs) (combine m is)) (combine x ids).
(** 182-213, _get_target_seq_preact *)
Definition target_seq_preact (n : network A) (x : tensor) (ids : list (list nat)) : result tensor :=
  do '(w, b) <- output_weights n;
  mapM (fun '(m, cs) => mapM (fun row => mapM (class_preact w b row) cs) m) (combine x ids).
(** 215-241, _get_target_list_preact *)
Definition target_list_preact (n : network A) (x : tensor) (ids : list nat) : result tensor :=
  do '(w, b) <- output_weights n;
  mapM (mapM (fun row => mapM (class_preact w b row) ids)) x.

(** samplingoutputlayer.py 24-50 and network.py 470-488, unnormalized_logprobs: None if
    the parameters are on several devices *)
Definition unnormalized_logprobs (n : network A) (b : batch) (targets : list (list nat)) : result (option matrix) :=
  match n_kind n with
  | HSoftmax _ _ => Err RuntimeError
  | Softmax =>
    do x <- output_input n Minibatch b;
    if 1 <? length (n_devices n) then Ok None else
    do y <- target_preact n x (map (map (fun c => [c])) targets);
    Ok (Some (map (@concat num) y))
  end.

(** network.py 346-360, 490-514, noise_sample, with samplingoutputlayer.py 52-149.
    [sample] is the method of the noise distribution, and [k] is the number of samples. *)
Definition noise_sample (sample : nat -> nat -> result (list (list nat))) (k : nat) (s : sharing) (n : network A) (b : batch)
  : result (list (list (list nat)) * tensor) :=
  match n_kind n with
  | HSoftmax _ _ => Err InputError
  | Softmax =>
    if 1 <? length (n_devices n) then Err InputError else
    do x <- output_input n Minibatch b;
    let T := length x in
    let N := num_sequences x in
    match s with
    | NotShared =>                                                     (* 52-85 *)
      do drawn <- sample (T * N) k;
      let ids := rows_of T N drawn in
      do y <- target_preact n x ids; Ok (ids, y)
    | SequencesShared =>                                               (* 87-120 *)
      do drawn <- sample 1 (T * k);
      let ids := rows_of T k (concat drawn) in
      do y <- target_seq_preact n x ids; Ok (map (fun cs => [cs]) ids, y)
    | BatchShared =>                                                   (* 122-149 *)
      do drawn <- sample 1 k;
      do ids <- py_index drawn 0;
      do y <- target_list_preact n x ids; Ok ([[ids]], y)
    end
  end.

(** Broadcasting of the first two dimensions to [T] time steps and [N] sequences *)
Definition broadcast {X} (T N : nat) (s : list (list X)) : list (list X) :=
  map (fun m => match m with [r] => repeat r N | _ => m end) (match s with [m] => repeat m T | _ => s end).
End Network.

(** ** Noise distributions: classdistribution.py *)
Open Scope R_scope.

(** probs gives the probability of a class. *)
Record distribution := mkDistribution { d_sample : nat -> nat -> result (list (list nat)); d_probs : nat -> R }.

(** astype('int64') of a nonnegative number *)
Definition to_int (x : R) : nat := Z.to_nat (Int_part x).
(** self._random.uniform(size=(rows, columns), high=...): [random] are numbers that are at
    least zero and less than one. *)
Definition uniform (random : nat -> nat -> R) (rows columns : nat) (high : R) : list (list R) :=
  map (fun i => map (fun j => random i j * high) (seq 0 columns)) (seq 0 rows).

(** 56-101 *)
Definition uniform_distribution (random : nat -> nat -> R) (support : nat) : distribution :=
  mkDistribution (fun rows k => Ok (map (map to_int) (uniform random rows k (INR support)))) (fun _ => 1 / INR support).

(** 104-164 *)
Definition log_uniform_distribution (random : nat -> nat -> R) (support : nat) : distribution :=
  let log_support := ln (INR support + 1) in
  mkDistribution (fun rows k => Ok (map (map (fun x => to_int (Rtrigo_def.exp x - 1))) (uniform random rows k log_support)))
                 (fun c => ln ((INR c + 2) / (INR c + 1)) / log_support).

(** 166-224. [choice] is self._random.choice(replace=False). *)
Definition multinomial_distribution (choice : nat -> nat -> list R -> result (list (list nat))) (probs : list R) : distribution :=
  mkDistribution (fun rows k => do s <- choice rows k probs; Ok (map (map (fun i => i mod length probs)%nat) s))
                 (fun c => nth c probs 0).

(** numpy.power of a nonnegative number, when the exponent is not negative *)
Definition power (x d : R) : R := if Req_EM_T x 0 then (if Req_EM_T d 0 then 1 else 0) else Rpower x d.
Definition rsum (l : list R) : R := fold_right Rplus 0 l.

(** network.py 296-345, 362, set_sampling. [priors] are the class prior probabilities. *)
Definition noise_distribution (random : nat -> nat -> R) (choice : nat -> nat -> list R -> result (list (list nat)))
           (num_classes : nat) (priors : list R) (type : pystr) (dampening : R) : result distribution :=
  if pystr_eqb type (str "uniform") || (pystr_eqb type (str "unigram") && (if Req_EM_T dampening 0 then true else false))
  then Ok (uniform_distribution random num_classes)
  else if pystr_eqb type (str "log-uniform") then Ok (log_uniform_distribution random num_classes)
  else if pystr_eqb type (str "unigram") then
    let probs := map (fun p => power p dampening) priors in
    Ok (multinomial_distribution choice (map (fun p => p / rsum probs) probs))
  else Err ValueError.

(** ** The objectives: cost.py 159-192 and 221-254, for every position of a mini-batch *)
Definition sampling_logprobs {X} (objective : R * R -> list (R * R) -> X) (d : distribution) (k : nat) (s : sharing)
           (n : network reals) (b : batch) (targets : list (list nat)) : result (list (list X)) :=
  do u <- unnormalized_logprobs n b targets;
  match u with
  | None => Err TypeError
  | Some u =>
    do '(ids, y) <- noise_sample (d_sample d) k s n b;
    let priors := map (map (d_probs d)) targets in
    let noise_priors := map (map (map (d_probs d))) (broadcast (length y) (num_sequences y) ids) in
    Ok (map2 (map2 objective) (map2 (@combine R R) u priors) (map2 (map2 (@combine R R)) y noise_priors))
  end.
Definition nce_logprobs (epsilon : R) := sampling_logprobs (nce_logprob epsilon).
Definition blackout_logprobs (epsilon : R) := sampling_logprobs (blackout_logprob epsilon).
