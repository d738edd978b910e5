(** Model of how text scoring and lattice decoding use a network. No proofs.

    ScoreModel.v and DecoderModel.v have functions in place of the network. Here they are
    given the networks of NetModel.v. The numbers are rational numbers, as elsewhere in
    scoring; the exponential function and the activation functions, which do not have
    rational values, are arbitrary functions. *)
From Coq Require Import QArith Qcanon Bool.
From Verif Require Import Base NetModel StateModel.
Local Open Scope nat_scope.

Definition rationals (exp sigmoid tanh relu leaky_relu : Qc -> Qc) : arith :=
  mkArith Qc 0%Qc 1%Qc Qcplus Qcminus Qcmult Qcdiv exp sigmoid tanh relu leaky_relu.

Section Link.
Variables qexp qsigmoid qtanh qrelu qleaky_relu : Qc -> Qc.
Notation A := (rationals qexp qsigmoid qtanh qrelu qleaky_relu).
Variable n : network A.

(** textscorer.py 88-117: network.target_probs() with the given words, classes, mask and
    target classes. The error is that of NetModel.v. *)
Definition scorer_probs (words classes mask targets : list (list nat)) : result (list (list Qc)) :=
  target_probs n (mkBatch words classes (map (map (Nat.eqb 1)) mask) None) targets.
Definition scorer_net (words classes mask targets : list (list nat)) : list (list Qc) :=
  match scorer_probs words classes mask targets with Ok q => q | Err _ => [] end.

(** network.recurrent_state_size: network.py 420-447 *)
Definition recurrent_state_size : list nat := flat_map state_sizes (n_layers n).

(** The array that the network returns for a state variable *)
Definition array_of (m : list (list Qc)) : array Qc :=
  mkArray (1, length m, match m with row :: _ => length row | [] => 0 end) [m].

(** latticedecoder.py 634-653: the network processes all the hypotheses in one step. Word,
    class, target class and state of each hypothesis; the probability of the target class
    and the new state. *)
Definition decoder_step (l : list (nat * nat * nat * state Qc)) : result (list (Qc * state Qc)) :=
  do whole <- combine_sequences 0%Qc (map (fun '(_, _, _, st) => st) l);               (* 634-635 *)
  do '(q, states) <- step_targets n (map (fun '(w, _, _, _) => w) l) (map (fun '(_, c, _, _) => c) l)
                       (map (fun '(_, _, target, _) => target) l)
                       (map (fun a => concat (a_data a)) (get_all whole));             (* 639-642 *)
  do states <- mapM (token_state 0%Qc recurrent_state_size (map array_of states)) (seq 0 (length l)); (* 648-653 *)
  Ok (combine q states).

(** recurrentstate.py 113-136: the shapes that set() checks. The array is as its shape
    tells. *)
Definition well_shaped (st : state Qc) : bool :=
  if list_eq_dec Nat.eq_dec (r_sizes st) recurrent_state_size then
    (r_sequences st =? 1) && (length (r_variables st) =? length recurrent_state_size) &&
    forallb (fun '(a, size) =>
      (shape0 a =? 1) && (shape1 a =? 1) && (shape2 a =? size) &&
      match a_data a with [[row]] => length row =? size | _ => false end)
      (combine (r_variables st) recurrent_state_size)
  else false.
(** The RecurrentState objects of one hypothesis *)
Definition recurrent : Type := {st : state Qc | well_shaped st = true}.
Definition forget (x : nat * nat * nat * recurrent) : nat * nat * nat * state Qc :=
  let '(w, c, target, st) := x in (w, c, target, proj1_sig st).
Definition object (x : Qc * state Qc) : result (Qc * recurrent) :=
  match bool_dec (well_shaped (snd x)) true with
  | left H => Ok (fst x, exist _ (snd x) H)
  | right _ => Err ValueError
  end.
Definition decoder_results (l : list (nat * nat * nat * recurrent)) : result (list (Qc * recurrent)) :=
  do r <- decoder_step (map forget l); mapM object r.
Definition decoder_net (l : list (nat * nat * nat * recurrent)) : list (Qc * recurrent) :=
  match decoder_results l with Ok r => r | Err _ => [] end.
End Link.
