(** Interpolation of probabilities: /repo/theanolm/backend/probfunctions.py, and its use
    by Token.recompute_total() of /repo/theanolm/scoring/latticedecoder.py.

    Numbers are real numbers with infinities and NaN. Arithmetic is exact, except that
    numpy.exp() gives zero for the numbers that [underflow] selects; the decimal library
    is assumed not to underflow. *)
From Coq Require Import Reals.
From Verif Require Import Base.
Local Open Scope R_scope.

Inductive number := Real (x : R) | MinusInfinity | PlusInfinity | NaN.

(** IEEE addition *)
Definition plus (x y : number) : number :=
  match x, y with
  | NaN, _ | _, NaN => NaN
  | PlusInfinity, MinusInfinity | MinusInfinity, PlusInfinity => NaN
  | PlusInfinity, _ | _, PlusInfinity => PlusInfinity
  | MinusInfinity, _ | _, MinusInfinity => MinusInfinity
  | Real a, Real b => Real (a + b)
  end.

(** IEEE multiplication by a number that is not infinite *)
Definition times (w : R) (x : number) : number :=
  match x with
  | Real a => Real (w * a)
  | NaN => NaN
  | MinusInfinity =>
    if Req_EM_T w 0 then NaN else if Rlt_dec w 0 then PlusInfinity else MinusInfinity
  | PlusInfinity =>
    if Req_EM_T w 0 then NaN else if Rlt_dec w 0 then MinusInfinity else PlusInfinity
  end.

Definition exponential (x : number) : number :=
  match x with
  | Real a => Real (exp a)
  | MinusInfinity => Real 0
  | PlusInfinity => PlusInfinity
  | NaN => NaN
  end.

Definition positive (x : number) : bool :=
  match x with
  | Real a => if Rlt_dec 0 a then true else false
  | PlusInfinity => true
  | _ => false
  end.

Section Interpolation.
Variable underflow : R -> bool.

(** numpy.exp() *)
Definition numpy_exp (x : number) : number :=
  match x with
  | Real a => if underflow a then Real 0 else Real (exp a)
  | _ => exponential x
  end.

(** numpy.log() *)
Definition numpy_log (x : number) : number :=
  match x with
  | Real a => if Rlt_dec 0 a then Real (ln a) else if Req_EM_T a 0 then MinusInfinity else NaN
  | PlusInfinity => PlusInfinity
  | MinusInfinity | NaN => NaN
  end.

(** Decimal.ln(), which raises InvalidOperation (modelled as ValueError) for negative
    numbers *)
Definition decimal_ln (x : number) : result number :=
  match x with
  | Real a => if Rlt_dec 0 a then Ok (Real (ln a)) else if Req_EM_T a 0 then Ok MinusInfinity else Err ValueError
  | PlusInfinity => Ok PlusInfinity
  | MinusInfinity => Err ValueError
  | NaN => Ok NaN
  end.

(** probfunctions.py 14-56, interpolate_linear(). The weight is not infinite or NaN. The
    rounding of Decimal to 16 digits is not modelled, nor that adding infinities of
    different signs or multiplying one with zero raises an exception in Decimal. *)
Definition interpolate_linear (logprob1 logprob2 : number) (weight1 : R) : result number :=
  let prob1 := numpy_exp logprob1 in                                   (* 35 *)
  let prob2 := numpy_exp logprob2 in
  if positive prob1 && positive prob2 then                             (* 37 *)
    let weight2 := 1 - weight1 in
    let prob := times weight1 prob1 in
    let prob := plus prob (times weight2 prob2) in
    Ok (numpy_log prob)                                                (* 41 *)
  else
    let d_weight1 := weight1 in                                        (* 46 *)
    let d_weight2 := 1 - d_weight1 in
    let d_prob := Real 0 in
    let d_prob := if Req_EM_T d_weight1 0 then d_prob
                  else plus d_prob (times d_weight1 (exponential logprob1)) in (* 52-53 *)
    let d_prob := if Req_EM_T d_weight2 0 then d_prob
                  else plus d_prob (times d_weight2 (exponential logprob2)) in (* 54-55 *)
    decimal_ln d_prob.                                                 (* 56 *)

(** probfunctions.py 58-90, interpolate_loglinear() *)
Definition interpolate_loglinear (logprob1 logprob2 : number) (prior1 prior2 : R) : result number :=
  let result := Real 0 in                                              (* 84 *)
  let result := if Req_EM_T prior1 0 then result else plus result (times prior1 logprob1) in
  let result := if Req_EM_T prior2 0 then result else plus result (times prior2 logprob2) in
  match result with NaN => Err AssertionError | _ => Ok result end.    (* 89 *)

(** The members of a token that the score depends on: latticedecoder.py 36-76. [k_words]
    is the length of the history. *)
Record scores := mkScores { k_words : nat; k_ac : R; k_lat : number; k_nn : number }.

(** latticedecoder.py 114-153, recompute_total(): total_logprob. An LM scale of zero is
    not excluded: then an infinite LM log probability gives NaN. *)
Definition total_logprob (linear : bool) (nn_lm_weight lm_scale wi_penalty : R) (k : scores) : result number :=
  do lm <- (if linear then interpolate_linear (k_nn k) (k_lat k) nn_lm_weight   (* 141-144 *)
            else interpolate_loglinear (k_nn k) (k_lat k) nn_lm_weight (1 - nn_lm_weight)); (* 146-148 *)
  let graph := plus (times lm_scale lm) (Real (wi_penalty * (INR (k_words k) - 1))) in (* 150-152 *)
  Ok (plus (Real (k_ac k)) graph).                                     (* 153 *)

End Interpolation.
