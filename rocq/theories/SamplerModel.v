(** Text generation.

    Source: /repo/theanolm/textsampler.py, /repo/theanolm/commands/sample.py,
    /repo/theanolm/vocabulary/vocabulary.py (class_ids_to_word_ids),
    /repo/theanolm/vocabulary/wordclass.py (sample). *)
From Coq Require Import QArith Qcanon.
From Verif Require Import Base Strings Dict VocabModel.
Local Open Scope nat_scope.

Section Sampler.
(** The distributions that the network gives for each sequence, and its recurrent
    state, are kept abstract: [step words classes state] is one call of
    [network.output_probs()] and [network.recurrent_state_output]
    (textsampler.py 34-59). [state.set()] checks the shapes; StateModel and the
    theorems of C49 are about that. *)
Context {P X : Type}.
Variable step : list nat -> list nat -> X -> result (list (list P) * X).
Variable initial : X.

(** The random number generators: which class is drawn from a distribution over
    classes at a time step for a sequence (textsampler.py 45), and which word from
    the membership probabilities of a class (wordclass.py 94-97). *)
Variable draw_class : nat -> nat -> list P -> nat.
Variable draw_word : nat -> nat -> list Qc -> nat.

Variable v : vocabulary.

(** The values of a row that is computed for each sequence *)
Fixpoint rowM {A B} (f : nat -> A -> result B) (j : nat) (l : list A) : result (list B) :=
  match l with
  | [] => Ok []
  | a :: l' => do b <- f j a; do bs <- rowM f (S j) l'; Ok (b :: bs)
  end.
Fixpoint row {A B} (f : nat -> A -> B) (j : nat) (l : list A) : list B :=
  match l with
  | [] => []
  | a :: l' => f j a :: row f (S j) l'
  end.

(** wordclass.py 85-97, sample() *)
Definition sample_word (t j : nat) (c : wclass) : result nat :=
  py_index (map fst (wc_probs c)) (draw_word t j (map snd (wc_probs c))).

(** vocabulary.py, class_ids_to_word_ids() *)
Definition class_ids_to_word_ids (t : nat) (class_ids : list nat) : result (list nat) :=
  rowM (fun j class_id => do c <- py_index (v_classes v) class_id; sample_word t j c) 0 class_ids.

Definition token_id (token : pystr) : result nat :=
  match word_to_id v token with Some id => Ok id | None => Err KeyError end.

(** [result[time_step] = ids].  (numpy would repeat a row of one element.) *)
Definition set_row (num_sequences : nat) (rows : list (list nat)) (t : nat) (ids : list nat) : result (list (list nat)) :=
  if negb (t <? length rows) then Err IndexError
  else if negb (length ids =? num_sequences) then Err ValueError
  else Ok (upd rows t ids).

Record sampler := mkSampler {
  s_words : list nat;        (* input_word_ids *)
  s_classes : list nat;      (* input_class_ids *)
  s_rows : list (list nat);  (* result *)
  s_state : X }.

(** textsampler.py 92-107, the loop over the seed *)
Fixpoint seed_loop (num_sequences t : nat) (tokens : list pystr) (s : sampler) : result sampler :=
  match tokens with
  | [] => Ok s
  | token :: tokens' =>
    do '(_, state) <- step (s_words s) (s_classes s) (s_state s);
    do id <- token_id token;
    do class_id <- py_index (v_w2c v) id;
    let words := repeat id num_sequences in
    do rows <- set_row num_sequences (s_rows s) t words;
    seed_loop num_sequences (S t) tokens' (mkSampler words (repeat class_id num_sequences) rows state)
  end.

(** textsampler.py 110-123, the loop that samples *)
Fixpoint sample_loop (num_sequences steps t : nat) (s : sampler) : result sampler :=
  match steps with
  | 0 => Ok s
  | S steps' =>
    do '(probs, state) <- step (s_words s) (s_classes s) (s_state s);
    let class_ids := row (draw_class t) 0 probs in
    do words <- class_ids_to_word_ids t class_ids;
    do rows <- set_row num_sequences (s_rows s) t words;
    sample_loop num_sequences steps' (S t) (mkSampler words class_ids rows state)
  end.

(** id_to_word[result.transpose()].tolist() *)
Definition to_words (num_sequences : nat) (rows : list (list nat)) : result (list (list pystr)) :=
  mapM (fun j => mapM (fun ids => do id <- py_index ids j; py_index (v_id_to_word v) id) rows) (seq 0 num_sequences).

(** textsampler.py 61-125, generate() *)
Definition generate (length_ num_sequences : nat) (seed_sequence : pystr) : result (list (list pystr)) :=
  let seed_tokens := split (strip seed_sequence) in
  do sos_id <- token_id SOS;
  do sos_class_id <- py_index (v_w2c v) sos_id;
  let words := repeat sos_id num_sequences in
  let rows := repeat words (length seed_tokens + length_) in
  do s <- seed_loop num_sequences 1 seed_tokens (mkSampler words (repeat sos_class_id num_sequences) rows initial);
  do s <- sample_loop num_sequences (length_ + length seed_tokens - (length seed_tokens + 1)) (length seed_tokens + 1) s;
  to_words num_sequences (s_rows s).

(** sample.py 95-99: sequence[:eos_pos+1], if there is one *)
Fixpoint cut_after (w : pystr) (l : list pystr) : list pystr :=
  match l with
  | [] => []
  | x :: l' => if pystr_eqb x w then [x] else x :: cut_after w l'
  end.
Definition print_sequence (sequence : list pystr) : pystr :=
  join [space] (cut_after EOS sequence) ++ [newline].

(** sample.py 93-100, the output *)
Definition sample_output (length_ num_sequences : nat) (seed_sequence : pystr) : result (list pystr) :=
  do sequences <- generate length_ num_sequences seed_sequence;
  Ok (map print_sequence sequences).
End Sampler.
Arguments sampler : clear implicits.
