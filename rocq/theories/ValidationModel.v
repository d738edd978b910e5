(** Model of the validations in the train command. No proofs.

    Simplifications: the mini-batches are read before the first one is scored, which only
    matters when both fail. The validation file is not empty (an empty file cannot be
    mapped to memory, train.py 457). *)
From Coq Require Import QArith Qcanon.
From Verif Require Import Base Strings VocabModel IterModel ScoreModel.
Local Open Scope nat_scope.

Section Validation.
Variable ln : Qc -> Qc.
Variable qexp : lp -> lp.
Variable v : vocabulary.
(** Arguments of the train command *)
Variable exclude_unk : bool.
Variable batch_size : nat.
Variable sequence_length : option nat.
(** Upper bound of the steps in reading the file *)
Variable fuel : nat.

(** The output of the network, which has changed between two validations *)
Notation net_output := (list (list nat) -> list (list nat) -> list (list nat) -> list (list nat) -> list (list Qc)).

(** train.py 460-465: the iterator that is used in every validation *)
Definition validation_iter (data : pystr) : result (bstate linear) :=
  do s <- linear_init [data]; Ok (batch_init s).

(** textscorer.py 199-254: compute_perplexity() with the scorer that has been created on
    lines 453-455 of train.py, and the iterator after it. It is called by trainer.py for
    every validation, and by train.py 480. *)
Definition validation (net : net_output) (st : bstate linear) : result (lp * bstate linear) :=
  do unk <- unk_id v;
  do '(batches, st') <- epoch linear linear_readline linear_reset batch_size sequence_length fuel st;
  let view := mkView (word_to_id v) (in_shortlist v) unk in
  do matrices <- mapM (prepare_batch view false) batches;              (* 465 *)
  do p <- compute_perplexity ln qexp net v true exclude_unk
            (map (fun '(word_ids, _, mask) => (word_ids, mask)) matrices);
  Ok (p, st').

(** The validations of a training, of the networks that it has come to *)
Fixpoint validations (nets : list net_output) (st : bstate linear) : result (list lp * bstate linear) :=
  match nets with
  | [] => Ok ([], st)
  | net :: nets' =>
    do '(p, st') <- validation net st;
    do '(ps, st'') <- validations nets' st';
    Ok (p :: ps, st'')
  end.

(** The perplexity that a training prints if its only validation is the last one *)
Definition validated (net : net_output) (data : pystr) : result lp :=
  do st <- validation_iter data; do '(p, _) <- validation net st; Ok p.
End Validation.
