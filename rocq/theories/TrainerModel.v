(** Model of the training process: theanolm/training/trainer.py and stoppers.py.

    The network, the optimizer and the iterator over the training data are
    parameters: [params] is the network state, [accum] the optimizer state apart
    from the learning rate, [iter] the iterator, [isaved] what the iterator saves.
    [update] is BasicOptimizer.update_minibatch(), [perplexity] what
    TextScorer.compute_perplexity() gives for the validation data. [log] records
    what the trainer does (computed samples, log messages). Costs are exact
    rationals. Time measurement and log messages that do not tell about validation
    are left out, and so is randomness that is not part of the saved state. *)
From Coq Require Import QArith Qcanon.
From Verif Require Import Base QcLib.
Local Open Scope nat_scope.

(** ** Scheduling *)

(** trainer.py 564-591, _is_scheduled(); [n] is the number of updates per epoch, a
    positive number. The frequency is not negative. *)
Definition is_scheduled (n frequency within update : nat) : bool :=
  let modulo := (update * frequency) mod n in
  (modulo <? frequency) || (n - modulo <=? within * frequency).

(** ** Median (numpy.median of a non-empty array), trainer.py 91 *)
Definition qc_leb (a b : Qc) : bool := if Qclt_le_dec b a then false else true.
Definition qc_ltb (a b : Qc) : bool := if Qclt_le_dec a b then true else false.
Fixpoint qinsert (x : Qc) (l : list Qc) : list Qc :=
  match l with
  | [] => [x]
  | y :: l' => if qc_leb x y then x :: l else y :: qinsert x l'
  end.
Definition qsorted (l : list Qc) : list Qc := fold_right qinsert [] l.
Definition median (l : list Qc) : Qc :=
  let s := qsorted l in
  let h := length l / 2 in
  if Nat.even (length l) then ((nth (h - 1) s 0 + nth h s 0) / (1 + 1))%Qc
  else nth h s 0%Qc.

(** trainer.py 415 *)
Definition improvement_factor : Qc := Q2Qc (999 # 1000).

(** ** Stoppers *)

(** stoppers.py 25-77, 79-148, 150-187 *)
Inductive stopper :=
| EpochCount (max_epochs : nat)
| NoImprovement (max_epochs min_epochs : nat) (candidate_cost : option Qc) (has_improved : bool)
| AnnealingCount (max_epochs min_epochs : nat) (annealing_left : Z).

(** stoppers.py 48-53, 103-122, 169-174; [cost] is trainer.candidate_cost() *)
Definition improvement_ceased (s : stopper) (cost : option Qc) : stopper :=
  match s with
  | EpochCount _ => s
  | NoImprovement mx mn old _ =>
    match cost with
    | None => NoImprovement mx mn old false
    | Some c =>
      match old with
      | None => NoImprovement mx mn (Some c) true
      | Some o => NoImprovement mx mn (Some c) (qc_ltb c o)
      end
    end
  | AnnealingCount mx mn k => AnnealingCount mx mn (k - 1)
  end.

(** stoppers.py 69-77, 124-148, 176-187 *)
Definition start_new_minibatch (s : stopper) (epoch : nat) (cost : option Qc) : stopper * bool :=
  match s with
  | EpochCount _ => (s, true)
  | NoImprovement mx mn old improved =>
    if epoch <=? mn then (s, true)
    else if improved then (s, true)
    else match cost with
         | None => (s, false)
         | Some c =>
           match old with
           | None => (NoImprovement mx mn old true, true)
           | Some o => if qc_ltb c o then (NoImprovement mx mn old true, true) else (s, false)
           end
         end
  | AnnealingCount mx mn k =>
    if epoch <=? mn then (s, true) else (s, (0 <=? k)%Z)
  end.

Definition max_epochs (s : stopper) : nat :=
  match s with EpochCount mx | NoImprovement mx _ _ _ | AnnealingCount mx _ _ => mx end.

(** stoppers.py 55-67 *)
Definition start_new_epoch (s : stopper) (epoch : nat) (cost : option Qc) : stopper * bool :=
  if max_epochs s <? epoch then (s, false) else start_new_minibatch s epoch cost.

(** stoppers.py 6-23, the names of the stopping criteria *)
Inductive criterion := CEpochCount | CNoImprovement | CAnnealingCount.
Definition create_stopper (c : criterion) (mx mn : nat) (max_annealing_count : Z) : stopper :=
  match c with
  | CEpochCount => EpochCount mx
  | CNoImprovement => NoImprovement mx mn None true
  | CAnnealingCount => AnnealingCount mx mn max_annealing_count
  end.

(** ** Trainer *)

(** Options: trainer.py 89, train.py 376-385. [o_updates] is _updates_per_epoch. *)
Record toptions := mkToptions {
  o_updates : nat; o_frequency : nat; o_patience : Z; o_samples : nat; o_validate : bool }.

Section Trainer.
Context {params accum iter isaved batch : Type}.
Variable next_batch : iter -> option batch * iter.
  (* __next__(): a batch or StopIteration, and the new state *)
Variable update : params -> accum -> Qc -> batch -> params * accum.
Variable perplexity : params -> Qc.
Variable isave : iter -> isaved.
Variable irestore : iter -> isaved -> result iter.
Variable o : toptions.

(** The HDF5 groups "trainer" (with the attributes epoch_number, update_number and
    the data set cost_history), "optimizer" (with the attribute learning_rate),
    "iterator" and the network parameters *)
Record tgroup := mkTgroup { g_epoch : option nat; g_update : option nat; g_costs : option (list Qc) }.
Record file := mkFile {
  f_params : option params; f_trainer : option tgroup; f_iter : option isaved;
  f_optimizer : option (option Qc * option accum) }.

Inductive event :=
| EvUpdate (b : batch)           (* a mini-batch update *)
| EvSample (c : Qc)              (* a perplexity was computed *)
| EvCenter                       (* 508, the state was kept in case performance has improved *)
| EvIgnored (n : nat)            (* 527, too few samples *)
| EvValidation (c : Qc)          (* 438, a cost was added to the cost history *)
| EvCandidate                    (* 468, the state was saved *)
| EvAnneal (old new : Qc).       (* 390, the learning rate was decreased *)

Record tstate := mkTstate {
  t_params : params; t_accum : accum; t_lr : Qc; t_iter : iter;
  t_epoch : nat; t_update : nat; t_costs : list Qc; t_candidate : option nat;
  t_file : file; t_samples : list Qc; t_center : option file; t_stopper : stopper;
  t_log : list event }.

(** trainer.py 256-283, get_state(), basicoptimizer.py 136-149. Writes all groups. *)
Definition get_state (t : tstate) : file :=
  mkFile (Some (t_params t)) (Some (mkTgroup (Some (t_epoch t)) (Some (t_update t)) (Some (t_costs t))))
         (Some (isave (t_iter t))) (Some (Some (t_lr t), Some (t_accum t))).

Definition last_index {A} (l : list A) : option nat := match l with [] => None | _ => Some (length l - 1) end.

(** trainer.py 285-337, _reset_state(), basicoptimizer.py 151-170: the checks in order;
    shufflingbatchiterator.py 171-173 *)
Definition reset_state (t : tstate) : result tstate :=
  let f := t_file t in
  match f_params f with
  | None => Err IncompatibleStateError
  | Some p =>
  match f_trainer f with
  | None => Err IncompatibleStateError
  | Some g =>
  match g_epoch g with
  | None => Err IncompatibleStateError
  | Some e =>
  match g_update g with
  | None => Err IncompatibleStateError
  | Some u =>
  let costs := match g_costs g with Some c => c | None => [] end in        (* 322-334 *)
  match f_iter f with
  | None => Err IncompatibleStateError
  | Some i =>
  do it <- irestore (t_iter t) i;
  match f_optimizer f with
  | Some (Some lr, Some a) =>
    Ok (mkTstate p a lr it e u costs (last_index costs) f (t_samples t) (t_center t) (t_stopper t) (t_log t))
  | _ => Err IncompatibleStateError
  end end end end end end.

(** trainer.py 162-196, initialize(), on a trainer whose members are as the
    constructor leaves them, with network [p], optimizer [a] and learning rate [lr] *)
Definition initialize (p : params) (a : accum) (lr : Qc) (it : iter) (s : stopper) (f : file) : result tstate :=
  let t := mkTstate p a lr it 1 0 [] None f [] None s [] in
  match f_trainer f with
  | Some _ => reset_state t
  | None => Ok t
  end.

(** trainer.py 363-375, candidate_cost() *)
Definition candidate_cost (t : tstate) : option Qc :=
  match t_candidate t with None => None | Some i => nth_error (t_costs t) i end.

(** trainer.py 397-415, _has_improved() *)
Definition has_improved (t : tstate) : result bool :=
  match rev (t_costs t) with
  | [] => Err RuntimeError
  | c :: _ =>
    match t_candidate t with
    | None => Ok true
    | Some i => do b <- py_index (t_costs t) i; Ok (qc_ltb c (improvement_factor * b)%Qc)
    end
  end.

Definition add_event (e : event) (t : tstate) : tstate :=
  mkTstate (t_params t) (t_accum t) (t_lr t) (t_iter t) (t_epoch t) (t_update t) (t_costs t) (t_candidate t)
           (t_file t) (t_samples t) (t_center t) (t_stopper t) (t_log t ++ [e]).

(** trainer.py 442-469, _set_candidate_state(); [f] is the state to be saved: all the
    groups of the file are replaced *)
Definition set_candidate_state (f : file) (t : tstate) : tstate :=
  add_event EvCandidate
    (mkTstate (t_params t) (t_accum t) (t_lr t) (t_iter t) (t_epoch t) (t_update t) (t_costs t)
              (last_index (t_costs t)) f (t_samples t) (t_center t) (t_stopper t) (t_log t)).

(** trainer.py 542-544, the cost history of the state at the center *)
Definition with_costs (f : file) (costs : list Qc) : file :=
  mkFile (f_params f)
         (match f_trainer f with Some g => Some (mkTgroup (g_epoch g) (g_update g) (Some costs)) | None => None end)
         (f_iter f) (f_optimizer f).

(** trainer.py 377-395, _decrease_learning_rate() *)
Definition decrease_learning_rate (t : tstate) : result tstate :=
  let new := (t_lr t / (1 + 1))%Qc in
  do t' <- reset_state t;
  Ok (add_event (EvAnneal (t_lr t) new)
        (mkTstate (t_params t') (t_accum t') new (t_iter t') (t_epoch t') (t_update t') (t_costs t')
                  (t_candidate t') (t_file t') (t_samples t') (t_center t')
                  (improvement_ceased (t_stopper t') (candidate_cost t')) (t_log t'))).

(** trainer.py 348-361, validations_since_candidate(); the index has been set by 545 *)
Definition validations_since_candidate (t : tstate) : result Z :=
  match t_costs t with
  | [] => Err RuntimeError
  | _ => match t_candidate t with
         | None => Err TypeError
         | Some i => Ok (Z.of_nat (length (t_costs t)) - 1 - Z.of_nat i)%Z
         end
  end.

Definition set_samples (l : list Qc) (c : option file) (t : tstate) : tstate :=
  mkTstate (t_params t) (t_accum t) (t_lr t) (t_iter t) (t_epoch t) (t_update t) (t_costs t) (t_candidate t)
           (t_file t) l c (t_stopper t) (t_log t).
Definition set_costs (l : list Qc) (t : tstate) : tstate :=
  mkTstate (t_params t) (t_accum t) (t_lr t) (t_iter t) (t_epoch t) (t_update t) l (t_candidate t)
           (t_file t) (t_samples t) (t_center t) (t_stopper t) (t_log t).

(** trainer.py 536-562, the end of _validate(), at the last sample *)
Definition finish_validation (t : tstate) : result tstate :=
  match t_center t with
  | None => Err TypeError                                   (* the center has been set in 507-513 *)
  | Some f =>
    let c := median (t_samples t) in                                              (* 536 *)
    let costs := t_costs t ++ [c] in                                              (* 537 *)
    let t := add_event (EvValidation c) (set_costs costs t) in
    do b <- has_improved t;                                                       (* 538 *)
    let t := if b : bool then set_candidate_state (with_costs f costs) t else t in       (* 542-545 *)
    do t <- (if (0 <=? o_patience o)%Z then                                       (* 549-558 *)
               do k <- validations_since_candidate t;
               if (o_patience o <? k)%Z then decrease_learning_rate t else Ok t
             else Ok t);
    Ok (set_samples [] None t)                                                    (* 560-562 *)
  end.

(** trainer.py 471-562, _validate() *)
Definition validate (t : tstate) : result tstate :=
  let sched within := is_scheduled (o_updates o) (o_frequency o) within (t_update t) in
  if negb (o_validate o) then Ok t else
  if negb (sched (o_samples o - 1)) then Ok t else
  let c := perplexity (t_params t) in                                             (* 491 *)
  let t := add_event (EvSample c) (set_samples (t_samples t ++ [c]) (t_center t) t) in   (* 492 *)
  if negb (sched (o_samples o / 2)) then Ok t else
  let t := match t_center t with                                                  (* 507-513 *)
           | None => add_event EvCenter (set_samples (t_samples t) (Some (get_state t)) t)
           | Some _ => t
           end in
  if negb (sched 0) then Ok t else
  if length (t_samples t) <? o_samples o then                                     (* 523-534 *)
    Ok (add_event (EvIgnored (length (t_samples t))) (set_samples [] None t))
  else finish_validation t.

(** trainer.py 198-254, train(): one step of its two loops. [AtEpoch] is line 213,
    [InEpoch] line 215 and [EndEpoch] line 233. *)
Inductive phase := AtEpoch | InEpoch | EndEpoch | Done.

Definition set_stopper (s : stopper) (t : tstate) : tstate :=
  mkTstate (t_params t) (t_accum t) (t_lr t) (t_iter t) (t_epoch t) (t_update t) (t_costs t) (t_candidate t)
           (t_file t) (t_samples t) (t_center t) s (t_log t).
Definition set_iter (i : iter) (t : tstate) : tstate :=
  mkTstate (t_params t) (t_accum t) (t_lr t) i (t_epoch t) (t_update t) (t_costs t) (t_candidate t)
           (t_file t) (t_samples t) (t_center t) (t_stopper t) (t_log t).

(** trainer.py 216-221 *)
Definition update_minibatch (b : batch) (it : iter) (t : tstate) : tstate :=
  let '(p, a) := update (t_params t) (t_accum t) (t_lr t) b in
  add_event (EvUpdate b)
    (mkTstate p a (t_lr t) it (t_epoch t) (t_update t + 1) (t_costs t) (t_candidate t)
              (t_file t) (t_samples t) (t_center t) (t_stopper t) (t_log t)).

Definition step (x : phase * tstate) : result (phase * tstate) :=
  let '(ph, t) := x in
  match ph with
  | AtEpoch =>                                                                    (* 213 *)
    let '(s, go) := start_new_epoch (t_stopper t) (t_epoch t) (candidate_cost t) in
    Ok (if go then InEpoch else Done, set_stopper s t)
  | InEpoch =>
    match next_batch (t_iter t) with
    | (None, it) => Ok (EndEpoch, set_iter it t)
    | (Some b, it) =>
      do t <- validate (update_minibatch b it t);                                 (* 216-228 *)
      let '(s, go) := start_new_minibatch (t_stopper t) (t_epoch t) (candidate_cost t) in
      Ok (if go then InEpoch else EndEpoch, set_stopper s t)                      (* 230-231 *)
    end
  | EndEpoch =>
    let t := if o_validate o then t else set_candidate_state (get_state t) t in   (* 233-234 *)
    Ok (AtEpoch, mkTstate (t_params t) (t_accum t) (t_lr t) (t_iter t) (t_epoch t + 1) 0 (t_costs t) (t_candidate t)
                          (t_file t) (t_samples t) (t_center t) (t_stopper t) (t_log t))  (* 247-248 *)
  | Done => Ok x
  end.

Fixpoint steps (k : nat) (x : phase * tstate) : result (phase * tstate) :=
  match k with
  | 0 => Ok x
  | S k' => do y <- step x; steps k' y
  end.

(** trainer.py 198-254, train(), with at most [fuel] steps *)
Fixpoint train (fuel : nat) (x : phase * tstate) : result tstate :=
  match x with
  | (Done, t) => Ok t
  | _ => match fuel with
         | 0 => Err OutOfFuel
         | S fuel' => do y <- step x; train fuel' y
         end
  end.
End Trainer.
