(** Independent specification of the training process. *)
From Coq Require Import QArith Qcanon.
From Verif Require Import Base QcLib TrainerModel.
Local Open Scope nat_scope.

(** ** Scheduling *)

(** [u] is the first update after which at least [k] of [f] parts of the epochs of
    [n] updates have been done. *)
Definition completes (n f k u : nat) : Prop :=
  k * n <= u * f /\ forall u', k * n <= u' * f -> u <= u'.

(** ** Validation *)

(** What happens at a validation: the model is saved, nothing, or the learning rate
    is decreased. *)
Inductive verdict := Improved | Waited | Annealed.

(** The rule: a cost that is more than 0.1 % smaller than the best so far is an
    improvement. More than [patience] costs in a row without improvement decrease
    the learning rate, unless [patience] is negative, and the counting starts again.
    [best] is the best cost, [bad] the number of costs since the last improvement or
    decrease. *)
Definition is_improvement (best : option Qc) (c : Qc) : bool :=
  match best with None => true | Some b => if Qclt_le_dec c (Q2Qc (999 # 1000) * b) then true else false end.
Fixpoint verdicts (patience : Z) (best : option Qc) (bad : nat) (costs : list Qc) : list (Qc * verdict) :=
  match costs with
  | [] => []
  | c :: cs =>
    if is_improvement best c then (c, Improved) :: verdicts patience (Some c) 0 cs
    else if (0 <=? patience)%Z && (patience <? Z.of_nat (S bad))%Z then (c, Annealed) :: verdicts patience best 0 cs
    else (c, Waited) :: verdicts patience best (S bad) cs
  end.

(** What happened according to the log: each validation is followed by the message
    about saving the model or decreasing the learning rate, if that was done. *)
Definition set_last (h : list (Qc * verdict)) (v : verdict) : list (Qc * verdict) :=
  match rev h with [] => [] | (c, _) :: r => rev ((c, v) :: r) end.
Definition history_event {batch} (h : list (Qc * verdict)) (e : @event batch) : list (Qc * verdict) :=
  match e with
  | EvValidation c => h ++ [(c, Waited)]
  | EvCandidate => set_last h Improved
  | EvAnneal _ _ => set_last h Annealed
  | _ => h
  end.
Definition history {batch} (log : list (@event batch)) : list (Qc * verdict) := fold_left history_event log [].

Definition is_annealed (x : Qc * verdict) : bool := match snd x with Annealed => true | _ => false end.
Fixpoint halved (k : nat) (x : Qc) : Qc := match k with 0 => x | S k' => (halved k' x / (1 + 1))%Qc end.

(** ** Stopping *)

(** The best cost after a history of validations, and the best cost each time the
    learning rate was decreased *)
Fixpoint final_best (best : option Qc) (h : list (Qc * verdict)) : option Qc :=
  match h with
  | [] => best
  | (c, Improved) :: h' => final_best (Some c) h'
  | _ :: h' => final_best best h'
  end.
Fixpoint annealing_costs (best : option Qc) (h : list (Qc * verdict)) : list Qc :=
  match h with
  | [] => []
  | (c, Improved) :: h' => annealing_costs (Some c) h'
  | (c, Annealed) :: h' => match best with Some b => [b] | None => [] end ++ annealing_costs best h'
  | (c, Waited) :: h' => annealing_costs best h'
  end.

(** There was no improvement between the last two times the learning rate was
    decreased and there has been none since. *)
Definition stalled (best : option Qc) (h : list (Qc * verdict)) : Prop :=
  exists pre x y, annealing_costs best h = pre ++ [x; y] /\ (x <= y)%Qc /\
    forall b, final_best best h = Some b -> (y <= b)%Qc.

(** When the stopping criteria want to stop, apart from the numbers of epochs *)
Definition should_stop (c : criterion) (max_annealing_count : Z) (best : option Qc) (h : list (Qc * verdict)) : Prop :=
  match c with
  | CEpochCount => False
  | CNoImprovement => stalled best h
  | CAnnealingCount => (max_annealing_count < Z.of_nat (length (filter is_annealed h)))%Z
  end.
(** The minimum number of epochs is used by two of the criteria. *)
Definition min_epochs (c : criterion) (mn : nat) : nat := match c with CEpochCount => 0 | _ => mn end.

(** At least half of the numbers are not larger and at least half not smaller. *)
Definition is_median (l : list Qc) (m : Qc) : Prop :=
  length l <= 2 * length (filter (fun x => qc_leb x m) l) /\
  length l <= 2 * length (filter (fun x => qc_leb m x) l).

Section Training.
Context {params accum iter isaved batch : Type}.
Notation tstate := (@tstate params accum iter isaved batch).
Notation file := (@file params accum isaved).
Variable isave : iter -> isaved.

(** The file holds the network, optimizer, iterator, epoch and update number of a
    training state, and this cost history. *)
Definition holds (f : file) (t : tstate) (costs : list Qc) : Prop :=
  f_params f = Some (t_params t) /\ f_iter f = Some (isave (t_iter t)) /\
  f_optimizer f = Some (Some (t_lr t), Some (t_accum t)) /\
  f_trainer f = Some (mkTgroup (Some (t_epoch t)) (Some (t_update t)) (Some costs)).

(** [k] updates with the next mini-batches, without anything else *)
Variable next_batch : iter -> option batch * iter.
Variable update : params -> accum -> Qc -> batch -> params * accum.
Fixpoint updated (k : nat) (lr : Qc) (x : params * accum * iter) : option (params * accum * iter) :=
  match k with
  | 0 => Some x
  | S k' =>
    match updated k' lr x with
    | Some (p, a, it) =>
      match next_batch it with
      | (Some b, it') => let '(p', a') := update p a lr b in Some (p', a', it')
      | (None, _) => None
      end
    | None => None
    end
  end.
(** ... starting from a training state *)
Definition after_updates (k : nat) (t : tstate) : option (params * accum * iter) :=
  updated k (t_lr t) (t_params t, t_accum t, t_iter t).
End Training.

(** [d] updates after update [u] is the next validation point: a fraction of the
    epoch is completed. *)
Definition next_validation (n f u d : nat) : Prop :=
  1 <= d /\ (exists k, completes n f k (u + d)) /\ forall e, 1 <= e < d -> ~ exists k, completes n f k (u + e).
