(** Model of theanolm/training/cost.py: the training objective. No proofs.

    Numbers are real numbers, extended by the infinities and NaN that floating point
    arithmetic has. A mini-batch is flattened: the positions of the matrices in some
    order. The network is an argument: for each position the probability (or the
    unnormalized log probability) of the target, and of the noise samples. *)
From Coq Require Import Reals.
From Verif Require Import Base.
Open Scope R_scope.

Inductive ext := Fin (x : R) | PosInf | NegInf | NaN.

Definition ext_add (a b : ext) : ext :=
  match a, b with
  | NaN, _ | _, NaN => NaN
  | Fin x, Fin y => Fin (x + y)
  | PosInf, NegInf | NegInf, PosInf => NaN
  | PosInf, _ | _, PosInf => PosInf
  | NegInf, _ | _, NegInf => NegInf
  end.
Definition ext_opp (a : ext) : ext :=
  match a with Fin x => Fin (- x) | PosInf => NegInf | NegInf => PosInf | NaN => NaN end.
(** Multiplication by an element of the mask, which is 0 or 1 *)
Definition ext_mask (a : ext) (b : bool) : ext :=
  match a, b with
  | Fin x, true => Fin x
  | Fin x, false => Fin 0
  | a, true => a
  | _, false => NaN
  end.
(** Division by a number of words *)
Definition ext_div (a : ext) (n : nat) : ext :=
  match n, a with
  | O, Fin x => if Req_EM_T x 0 then NaN else if Rlt_dec 0 x then PosInf else NegInf
  | S _, Fin x => Fin (x / INR n)
  | _, a => a
  end.
Definition ext_sum (l : list ext) : ext := fold_right ext_add (Fin 0) l.

(** tensor.log *)
Definition ext_ln (x : R) : ext := if Rlt_dec 0 x then Fin (ln x) else if Req_EM_T x 0 then NegInf else NaN.

(** backend/operations.py:135-161 *)
Definition l1_norm (params : list (list R)) : R := fold_right (fun t s => fold_right Rplus 0 (map Rabs t) + s) 0 params.
Definition sum_squares (params : list (list R)) : R := fold_right (fun t s => fold_right Rplus 0 (map Rsqr t) + s) 0 params.

Record cost_options := mkCostOptions { exclude_id : option nat; l1_weight : option R; l2_weight : option R }.

(** A position of the mini-batch: mask and target word ID *)
Record position := mkPosition { in_mask : bool; target_id : nat }.

(** cost.py:62-97, get_tensor. [logprobs] is what _get_logprobs returns; the result is
    the cost and the number of words. *)
Definition get_tensor (o : cost_options) (params : list (list R)) (batch : list position) (logprobs : list ext) : ext * nat :=
  let mask := map (fun p => match exclude_id o with
                            | None => in_mask p
                            | Some i => in_mask p && negb (target_id p =? i)%nat
                            end) batch in
  let masked := map (fun '(x, b) => ext_mask x b) (combine logprobs mask) in
  let num_words := length (filter (fun b => b) mask) in
  let cost := ext_div (ext_opp (ext_sum masked)) num_words in
  let cost := match l1_weight o with Some w => ext_add cost (Fin (w * l1_norm params)) | None => cost end in
  let cost := match l2_weight o with Some w => ext_add cost (Fin (w * sum_squares params)) | None => cost end in
  (cost, num_words).

(** cost.py:121-130, CrossEntropyCost._get_logprobs *)
Definition cross_entropy_logprobs (target_probs : list R) : list ext := map ext_ln target_probs.

(** tensor.nnet.softplus *)
Definition softplus (x : R) : R := ln (1 + exp x).

(** cost.py:159-192, NCECost._get_logprobs at one position: [target] is the
    unnormalized log probability and the prior probability of the target, [samples]
    those of the noise samples. (The logarithm is that of a positive number when
    epsilon is positive.) *)
Definition nce_logprob (epsilon : R) (target : R * R) (samples : list (R * R)) : R :=
  let G := fst target - ln (snd target + epsilon) in
  let target_log_h := - softplus (- G) in
  let sample_log_one_minus_h := map (fun s => - softplus (fst s - ln (snd s + epsilon))) samples in
  target_log_h + fold_right Rplus 0 sample_log_one_minus_h.

(** cost.py:221-254, BlackoutCost._get_logprobs at one position. A zero prior
    probability makes an infinite weight, and infinity divided by itself (or by the
    sum) gives NaN or zero; such cases are all taken as NaN here. *)
Definition blackout_logprob (epsilon : R) (target : R * R) (samples : list (R * R)) : ext :=
  if existsb (fun s => if Req_EM_T (snd s) 0 then true else false) (target :: samples) then NaN else
  let target_weighted := exp (fst target) / snd target in
  let sample_weighted := map (fun s => exp (fst s) / snd s) samples in
  let denominator := target_weighted + fold_right Rplus 0 sample_weighted in
  let target_cost := target_weighted / denominator in
  let sample_costs := map (fun w => 1 - w / denominator) sample_weighted in
  ext_add (ext_ln (target_cost + epsilon)) (ext_sum (map (fun c => ext_ln (c + epsilon)) sample_costs)).
