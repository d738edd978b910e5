(** Vocabulary for the property of the text of the score report. *)
From Coq Require Import QArith Qcanon.
From Verif Require Import Base Strings TextSpec VocabModel ScoreModel ScoreSpec.
Local Open Scope nat_scope.

(** Where a word or a part of a word is found *)
Inductive found_in (v : vocabulary) (part : pystr) : word_status -> Prop :=
| found_nowhere : word_to_id v part = None -> found_in v part InOOV
| found_shortlist id : word_to_id v part = Some id -> id < num_shortlist_words v -> found_in v part InShortlist
| found_outside id : word_to_id v part = Some id -> num_shortlist_words v <= id -> found_in v part InOOS.

(** The logarithm of the requested base: that of the option, if it is given, otherwise that
    of e *)
Definition base_logarithm (base : option (nat * Qc)) : Qc :=
  match base with None => 1%Qc | Some b => snd b end.

(** A log probability in the requested base *)
Definition in_base (scale : Qc) (x : lp) : lp := match x with Fin q => Fin (q / scale)%Qc | y => y end.

(** Two sentences, given by their words and the scores of the words after the first one,
    cannot be told apart by a reader who sees the numbers [show] prints, in bases with the
    logarithms [scale] and [scale']. *)
Record same_sentence (show : lp -> pystr) (v v' : vocabulary) (scale scale' : Qc)
       (s s' : list nat * (list (list pystr) * list (option lp))) : Prop := {
  ss_words : fst (snd s) = fst (snd s');
  ss_scores : map (option_map (fun x => show (in_base scale x))) (snd (snd s)) =
              map (option_map (fun x => show (in_base scale' x))) (snd (snd s'));
  ss_found : forall word part status, In word (tl (fst (snd s))) -> In part word ->
             found_in v part status <-> found_in v' part status }.

(** The counts of the report *)
Definition counts (s : text_stats) : list nat :=
  [t_sentences s; t_words s; t_tokens s; t_probs s; t_unks s; t_zeroprobs s].
