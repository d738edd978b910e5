(** Model of the text that the score command writes (theanolm/commands/score.py). The
    contents of the report are those of ScoreModel. The conversion of floating point numbers
    to text and numpy.exp are parameters. What has been written before an exception is not
    modelled. *)
From Coq Require Import QArith Qcanon.
From Verif Require Import Base Strings NumStr VocabModel ScoreModel.
Local Open Scope nat_scope.

Section Report.
Variable show : lp -> pystr.       (* "{0}".format(x), str(x) *)
Variable pexp : lp -> lp.          (* numpy.exp *)

Definition newline : pystr := [10%N].
Definition space : pystr := str " ".

(** score.py 341-351, word_info() *)
Definition info_text (word : pystr) (info : word_status) : pystr :=
  word ++ match info with
          | InOOV => str ":OOV"
          | InShortlist => str ":shortlist"
          | InOOS => str ":OOS"
          end.

(** score.py 358-381: a line of _write_word_scores() *)
Definition entry_text (e : score_entry) : pystr :=
  let history := join space ((if se_cut e then [str "..."] else [])      (* 360 *)
                             ++ map (join space) (se_history e)) in      (* 361-366 *)
  let predicted := join space (se_word e) in                             (* 372 *)
  let info := join space (map (fun wi => info_text (fst wi) (snd wi))
                              (combine (se_word e) (se_info e))) in      (* 370-371 *)
  match se_logprob e with
  | None => str "p(" ++ predicted ++ str " | " ++ history ++ str ") is not predicted  [" ++ info ++ str "]"
  | Some logprob =>
    str "log(p(" ++ predicted ++ str " | " ++ history ++ str ")) = " ++ show logprob ++ str "  [" ++ info ++ str "]"
  end ++ newline.

(** score.py 214-219 *)
Definition sentence_text (number : nat) (r : report) : pystr :=
  str "# Sentence " ++ str_of_nat number ++ newline
  ++ concat (map entry_text (fst r))
  ++ str "Sentence perplexity: " ++ show (pexp (snd r)) ++ newline ++ newline.

(** score.py 221-238: the statistics. [base] is the value of the option --log-base and its
    logarithm. Zero and negative bases, whose logarithm is not a number, are left out. *)
Definition stats_text (s : text_stats) (cross_entropy : option lp) (base : option (nat * Qc)) : pystr :=
  str "Number of sentences: " ++ str_of_nat (t_sentences s) ++ newline
  ++ str "Number of words: " ++ str_of_nat (t_words s) ++ newline
  ++ str "Number of tokens: " ++ str_of_nat (t_tokens s) ++ newline
  ++ str "Number of predicted probabilities: " ++ str_of_nat (t_probs s) ++ newline
  ++ str "Number of excluded (OOV) words: " ++ str_of_nat (t_unks s) ++ newline
  ++ str "Number of zero probabilities: " ++ str_of_nat (t_zeroprobs s) ++ newline
  ++ match cross_entropy with
     | None => []                                                        (* 230 *)
     | Some x =>
       str "Cross entropy (base e): " ++ show x ++ newline
       ++ match base with
          | None => []
          | Some (b, scale) => str "Cross entropy (base " ++ str_of_nat b ++ str "): " ++ show (ldiv x scale) ++ newline
          end
       ++ str "Perplexity: " ++ show (pexp x) ++ newline
     end.

Definition report_text (r : text_stats * list report * option lp) (base : option (nat * Qc)) : pystr :=
  let '(stats, reports, cross_entropy) := r in
  concat (map (fun nr => sentence_text (fst nr) (snd nr)) (combine (seq 1 (length reports)) reports))
  ++ stats_text stats cross_entropy base.

(** score.py 173, 421 *)
Definition log_scale_of (base : option (nat * Qc)) : Qc := match base with None => 1%Qc | Some (_, scale) => scale end.

Section Scorer.
Variable ln : Qc -> Qc.
Variable net : list (list nat) -> list (list nat) -> list (list nat) -> list (list nat) -> list (list Qc).
Variable v : vocabulary.
Variables use_shortlist exclude_unk : bool.

(** score.py 133-238, _score_text(): what is written *)
Definition score_text_output (mark : option marking) (word_level : bool) (base : option (nat * Qc)) (batch_size fuel : nat) (data : pystr)
  : result pystr :=
  do r <- score_text ln net v use_shortlist exclude_unk mark word_level (log_scale_of base) batch_size fuel data;
  Ok (report_text r base).

(** score.py 383-431, _score_utterances(): what is written *)
Definition score_utterances_output (lines : list pystr) (base : option (nat * Qc)) : result pystr :=
  do '(scores, _) <- score_utterances ln net v use_shortlist exclude_unk lines (log_scale_of base);
  Ok (concat (map (fun s => show (Fin s) ++ newline) scores)).
End Scorer.
End Report.
