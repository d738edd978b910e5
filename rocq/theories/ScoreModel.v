(** Model of theanolm/scoring/textscorer.py and theanolm/commands/score.py.
    Logarithms, the exponential and the network are parameters. Log probabilities
    are exact numbers, minus infinity or NaN. *)
From Coq Require Import QArith Qcanon.
From Verif Require Import Base QcLib Strings Dict TextModel IterModel VocabModel.
Local Open Scope nat_scope.

(** Values of log probability arrays. *)
Inductive lp := Fin (q : Qc) | NegInf | NaN.

(** Addition: -inf + x = -inf, NaN absorbs. *)
Definition ladd (a b : lp) : lp :=
  match a, b with
  | NaN, _ | _, NaN => NaN
  | NegInf, _ | _, NegInf => NegInf
  | Fin x, Fin y => Fin (x + y)%Qc
  end.
Definition lsum (l : list lp) : lp := fold_right ladd (Fin 0%Qc) l.
(** Multiplication by an integer mask: -inf * 0 = NaN. *)
Definition lmask (m : nat) (x : lp) : lp :=
  match x with
  | Fin q => Fin (q * qc_of_nat m)%Qc
  | NegInf => if m =? 0 then NaN else NegInf
  | NaN => NaN
  end.
(** Division by a positive scale. *)
Definition ldiv (x : lp) (scale : Qc) : lp :=
  match x with Fin q => Fin (q / scale)%Qc | y => y end.
Definition is_neginf (x : lp) : bool := match x with NegInf => true | _ => false end.

(** Elementwise operations on matrices given as lists of rows. Theano raises an
    error on different shapes; the shapes are equal in all the uses. *)
Definition mmap {A B} (f : A -> B) (m : list (list A)) : list (list B) := map (map f) m.
Definition zip_with {A B C} (f : A -> B -> C) (a : list A) (b : list B) : list C :=
  map (fun ab => f (fst ab) (snd ab)) (combine a b).
Definition mzip {A B C} (f : A -> B -> C) (a : list (list A)) (b : list (list B)) : list (list C) :=
  zip_with (zip_with f) a b.
(** m[:, j] *)
Definition column {A} (j : nat) (m : list (list A)) : list A :=
  concat (map (fun row => match nth_error row j with Some a => [a] | None => [] end) m).
(** values[mask == 1] *)
Definition select {A} (mask : list nat) (values : list A) : list A :=
  map snd (filter (fun mv => fst mv =? 1) (combine mask values)).

(** Subword markings of --subwords. *)
Inductive marking := WordBoundary | PrefixAffix | OtherMarking.
Definition BOUNDARY : pystr := str "<w>".
Definition plus_sign : char := 43%N.
(** s.startswith('+'), s.endswith('+') *)
Definition starts_plus (s : pystr) : bool :=
  match s with c :: _ => N.eqb c plus_sign | [] => false end.
Definition ends_plus (s : pystr) : bool := starts_plus (rev s).

(** Addition of optional log probabilities, score.py 281-284, 302-305 *)
Definition oadd (a b : option lp) : option lp :=
  match a, b with
  | Some x, Some y => Some (ladd x y)
  | _, _ => None
  end.

(** Local variables of _merge_subwords(). *)
Record merging := mkMerging {
  g_words : list (list pystr);
  g_logprobs : list (option lp);
  g_word : list pystr;               (* current_word *)
  g_logprob : option lp              (* current_logprob *)
}.

(** score.py 280-294, one iteration for word boundary tokens *)
Definition merge_boundary (st : merging) (x : pystr * option lp) : merging :=
  let (subword, logprob) := x in
  let current_logprob := oadd (g_logprob st) logprob in                (* 281-284 *)
  if pystr_eq_dec subword BOUNDARY then                                (* 285 *)
    match g_word st with
    | [] => mkMerging (g_words st) (g_logprobs st) [] (Some (Fin 0%Qc)) (* 290 *)
    | w => mkMerging (g_words st ++ [w]) (g_logprobs st ++ [current_logprob]) []
                     (Some (Fin 0%Qc))                                 (* 286-290 *)
    end
  else if contains (g_word st) UNK || pystr_eqb subword UNK then       (* 291 *)
    mkMerging (g_words st) (g_logprobs st) [UNK] current_logprob       (* 292 *)
  else mkMerging (g_words st) (g_logprobs st) (g_word st ++ [subword]) current_logprob. (* 294 *)

(** score.py 298-311, one iteration for prefix and affix markers *)
Definition merge_affix (st : merging) (x : pystr * option lp) : merging :=
  let (subword, logprob) := x in
  match rev (g_word st) with
  | last :: _ =>
    if ends_plus last && starts_plus subword                           (* 299-300 *)
    then mkMerging (g_words st) (g_logprobs st) (g_word st ++ [subword])
                   (oadd (g_logprob st) logprob)                       (* 301-305 *)
    else mkMerging (g_words st ++ [g_word st]) (g_logprobs st ++ [g_logprob st])
                   [subword] logprob                                   (* 307-311 *)
  | [] => mkMerging (g_words st) (g_logprobs st) [subword] logprob
  end.

(** score.py 315-318 *)
Definition merge_end (st : merging) : list (list pystr) * list (option lp) :=
  match g_word st with
  | [] => (g_words st, g_logprobs st)
  | w => (g_words st ++ [w], g_logprobs st ++ [g_logprob st])
  end.

(** score.py 240-318, _merge_subwords(). A word is given as the list of its
    subwords; without marking (268-270) it is a list of one. *)
Definition merge_subwords (subwords : list pystr) (logprobs : list (option lp))
           (mark : option marking) : result (list (list pystr) * list (option lp)) :=
  if S (length logprobs) =? length subwords then                       (* 264 *)
    match mark, subwords with
    | None, _ => Ok (map (fun w => [w]) subwords, logprobs)            (* 268-270 *)
    | Some m, first :: rest =>
      let init := mkMerging [[first]] [] [] (Some (Fin 0%Qc)) in       (* 272-275 *)
      match m with
      | WordBoundary => Ok (merge_end (fold_left merge_boundary (combine rest logprobs) init))
      | PrefixAffix => Ok (merge_end (fold_left merge_affix (combine rest logprobs) init))
      | OtherMarking => Err ValueError                                 (* 313 *)
      end
    | Some _, [] => Err IndexError                                     (* 272 *)
    end
  else Err ValueError.

(** Whether a score enters the total, score.py 195-196, 204-205 *)
Definition counted (x : option lp) : bool :=
  match x with Some l => negb (is_neginf l) | None => false end.
Definition counted_sum (l : list (option lp)) : lp :=
  lsum (concat (map (fun x => match x with
                              | Some v => if is_neginf v then [] else [v]
                              | None => []
                              end) l)).
Definition count_if {A} (f : A -> bool) (l : list A) : nat := length (filter f l).

(** Local variables of _score_text(). *)
Record text_stats := mkStats {
  t_logprob : lp;
  t_sentences : nat;
  t_tokens : nat;
  t_words : nat;
  t_probs : nat;
  t_unks : nat;
  t_zeroprobs : nat
}.
Definition zero_stats : text_stats := mkStats (Fin 0%Qc) 0 0 0 0 0 0.

(** score.py 341-351, word_info() *)
Inductive word_status := InOOV | InShortlist | InOOS.
Definition word_info (v : vocabulary) (word : pystr) : word_status :=
  match word_to_id v word with
  | None => InOOV
  | Some id => if in_shortlist v id then InShortlist else InOOS
  end.

(** A line of the word score report: predicted word, history, whether the history
    has been cut, log probability in the requested base, and where the parts of
    the word have been found. The text of the line is in ReportModel. *)
Record score_entry := mkEntryLine {
  se_word : list pystr;
  se_history : list (list pystr);
  se_cut : bool;
  se_logprob : option lp;
  se_info : list word_status
}.

(** score.py 320-381, _write_word_scores() *)
Definition word_scores (v : vocabulary) (words : list (list pystr)) (logprobs : list (option lp))
           (log_scale : Qc) : result (list score_entry) :=
  if S (length logprobs) =? length words then                          (* 353 *)
    mapM (fun il =>
      let (index, logprob) := (il : nat * option lp) in
      let cut := 2 <? index in                                         (* 359 *)
      let history := if cut then firstn 3 (skipn (index - 2) words)    (* 361 *)
                     else firstn (index + 1) words in                  (* 363 *)
      do predicted <- py_index words (index + 1);                      (* 368 *)
      Ok (mkEntryLine predicted history cut
                      (option_map (fun x => ldiv x log_scale) logprob) (* 357 *)
                      (map (word_info v) predicted)))
      (combine (seq 0 (length logprobs)) logprobs)
  else Err ValueError.

Section Scorer.

(** Natural logarithm of positive numbers, and the exponential. *)
Variable ln : Qc -> Qc.
Variable qexp : lp -> lp.
(** The network: probabilities of the target classes given the input word IDs, the
    input class IDs, the mask and the target class IDs of a mini-batch. *)
Variable net : list (list nat) -> list (list nat) -> list (list nat) -> list (list nat) ->
               list (list Qc).
Variable v : vocabulary.
Variable use_shortlist exclude_unk : bool.

Definition tlog (p : Qc) : lp :=
  if Qc_eq_dec p 0%Qc then NegInf
  else if Qclt_le_dec 0%Qc p then Fin (ln p) else NaN.

(** network.py 168-179 *)
Definition oos_logprobs : result (option (list lp)) :=
  match v_unigram v with
  | None => Ok None
  | Some _ =>
    do probs <- get_oos_probs v;
    Ok (Some (map (fun p => match p with Some p => tlog p | None => NaN end) probs))
  end.

Definition unk_id : result nat :=
  match word_to_id v UNK with Some i => Ok i | None => Err KeyError end.

(** textscorer.py 78-108: log probabilities and mask. The matrices have one row
    more than [membership_probs] and [mask]. *)
Definition scorer_tensors (word_ids class_ids : list (list nat))
           (membership_probs : list (list Qc)) (mask : list (list nat))
  : result (list (list lp) * list (list nat)) :=
  do unk <- unk_id;                                                    (* 61 *)
  do oos <- oos_logprobs;
  let shortlist_size := num_shortlist_words v in                       (* 79 *)
  let input_word_ids :=
    mmap (fun i => if shortlist_size <=? i then unk else i) (removelast word_ids) in (* 80-83 *)
  let input_class_ids := removelast class_ids in                       (* 86 *)
  let target_class_ids := tl class_ids in                              (* 87 *)
  let target_word_ids := tl word_ids in                                (* 90 *)
  let logprobs := mmap tlog (net input_word_ids input_class_ids mask target_class_ids) in (* 92 *)
  let logprobs := mzip ladd logprobs (mmap tlog membership_probs) in   (* 94 *)
  let not_unk := mmap (fun i => if i =? unk then 0 else 1) target_word_ids in
  match (if use_shortlist then oos else None) with
  | Some oos =>                                                        (* 97 *)
    do share <- mapM (mapM (py_index oos)) target_word_ids;            (* 101 *)
    Ok (mzip ladd logprobs share, mzip Nat.mul mask not_unk)           (* 101-104 *)
  | None =>
    if exclude_unk                                                     (* 105 *)
    then Ok (logprobs,
             mzip Nat.mul (mzip Nat.mul mask not_unk)
                  (mmap (fun i => if i <? shortlist_size then 1 else 0) target_word_ids)) (* 107-108 *)
    else Ok (logprobs, mask)
  end.

(** textscorer.py 112-122, _target_logprobs_function() *)
Definition target_logprobs word_ids class_ids membership_probs mask
  : result (list (list lp) * list (list nat)) :=
  do '(logprobs, mask) <- scorer_tensors word_ids class_ids membership_probs mask;
  Ok (mzip lmask mask logprobs, mask).

(** textscorer.py 127-138, _total_logprob_function() *)
Definition total_logprob word_ids class_ids membership_probs mask : result (lp * nat) :=
  do '(logprobs, mask) <- scorer_tensors word_ids class_ids membership_probs mask;
  let mask := mzip Nat.mul mask
                   (mmap (fun p => if Qc_eq_dec p 0%Qc then 0 else 1) membership_probs) in (* 127 *)
  let masked := mzip (fun m x => if m =? 0 then Fin 0%Qc else x) mask logprobs in (* 128 *)
  Ok (lsum (concat masked), list_sum (concat mask)).                   (* 131 *)

(** textscorer.py 144-197, score_batch() *)
Definition score_batch (word_ids class_ids : list (list nat))
           (membership_probs : list (list Qc)) (mask : list (list nat))
  : result (list (list (option lp))) :=
  do '(logprobs, new_mask) <-
     target_logprobs word_ids class_ids (tl membership_probs) (tl mask); (* 184-187 *)
  let cols := match logprobs with row :: _ => length row | [] => 0 end in
  Ok (map (fun j =>                                                    (* 188 *)
        let seq_mask := column j (tl mask) in                          (* 189 *)
        let seq_logprobs := select seq_mask (column j logprobs) in     (* 190 *)
        let seq_mask := select seq_mask (column j new_mask) in         (* 192 *)
        zip_with (fun lp m => if m =? 1 then Some lp else None) seq_logprobs seq_mask) (* 193-194 *)
      (seq 0 cols)).

(** vocabulary.py 521-541, get_class_memberships() *)
Definition get_class_memberships (word_ids : list (list nat))
  : result (list (list nat) * list (list Qc)) :=
  do kp <- mapM (mapM (get_class_membership v)) word_ids;
  Ok (mmap fst kp, mmap snd kp).

(** textscorer.py 225-248, one iteration of compute_perplexity() *)
Definition perplexity_step (st : lp * nat) (batch : list (list nat) * list (list nat))
  : result (lp * nat) :=
  let (word_ids, mask) := batch in
  do '(class_ids, membership_probs) <- get_class_memberships word_ids; (* 226-227 *)
  do '(batch_logprob, batch_num_words) <-
     total_logprob word_ids class_ids (tl membership_probs) (tl mask); (* 232-236 *)
  match batch_logprob with
  | NaN | NegInf => Err NumberError                                    (* 237-242 *)
  | Fin q =>
    if Qclt_le_dec 0%Qc q then Err NumberError                         (* 243-245 *)
    else Ok (ladd (fst st) batch_logprob, snd st + batch_num_words)    (* 247-248 *)
  end.

(** textscorer.py 199-254, compute_perplexity(): the cross entropy of which the
    exponential is returned. The mini-batches are word ID and mask matrices. *)
Definition cross_entropy (batches : list (list (list nat) * list (list nat))) : result lp :=
  do '(logprob, num_words) <- foldM perplexity_step batches (Fin 0%Qc, 0);
  match num_words with
  | 0 => Err ValueError                                                (* 250-252 *)
  | _ => Ok (ldiv logprob (- qc_of_nat num_words)%Qc)                  (* 253 *)
  end.
Definition compute_perplexity batches : result lp :=
  do h <- cross_entropy batches; Ok (qexp h).                          (* 254 *)

(** textscorer.py 256-303, score_sequence() *)
Definition score_sequence (word_ids class_ids : list nat) (membership_probs : list Qc)
  : result Qc :=
  let word_ids := map (fun x => [x]) word_ids in                       (* 280 *)
  let class_ids := map (fun x => [x]) class_ids in                     (* 281 *)
  let membership_probs := map (fun x => [x]) membership_probs in       (* 282-283 *)
  let mask := map (fun _ => [1]) word_ids in                           (* 285 *)
  do '(logprob, _) <- total_logprob word_ids class_ids (tl membership_probs) (tl mask);
  match logprob with
  | NaN | NegInf => Err NumberError                                    (* 293-298 *)
  | Fin q => if Qclt_le_dec 0%Qc q then Err NumberError else Ok q      (* 299-303 *)
  end.

(** textscorer.py 305-344, score_line(), with the counters num_words and num_unks.
    The vocabulary argument is the one of the network. *)
Definition score_line (counters : nat * nat) (line : pystr)
  : result (option Qc * (nat * nat)) :=
  do words <- utterance_from_line line;                                (* 330 *)
  match words with
  | [] => Ok (None, counters)                                          (* 331-332 *)
  | _ =>
    do word_ids <- words_to_ids v words;                               (* 334 *)
    do unk <- unk_id;                                                  (* 335 *)
    let counters := (fst counters + length word_ids,
                     snd counters + count_if (Nat.eqb unk) word_ids) in (* 336-337 *)
    do class_ids <- mapM (py_index (v_w2c v)) word_ids;                (* 339-340 *)
    do probs <- mapM (get_word_prob v) word_ids;                       (* 341-342 *)
    do s <- score_sequence word_ids class_ids probs;                   (* 344 *)
    Ok (Some s, counters)
  end.

(** score.py 383-431, _score_utterances(): the scores that are written; the
    logged summary is not modelled. *)
Definition score_utterances (lines : list pystr) (log_scale : Qc)
  : result (list Qc * (nat * nat)) :=
  foldM (fun st line =>
           do '(s, counters) <- score_line (snd st) line;
           match s with
           | None => Ok (fst st, counters)                             (* 417-418 *)
           | Some s => Ok (fst st ++ [(s / log_scale)%Qc], counters)   (* 419-420 *)
           end) lines ([], (0, 0)).

Section ScoreText.
Variable mark : option marking.
Variable word_level : bool.
Variable log_scale : Qc.

(** Report of one sentence: the words and the sentence cross entropy. *)
Definition report := (list score_entry * lp)%type.

(** score.py 185-219, one sequence *)
Definition score_text_sequence (st : text_stats * list report)
           (x : list (option lp) * (list nat * list pystr))
  : result (text_stats * list report) :=
  let '(seq_logprobs, (seq_word_ids, seq_words)) := x in
  do '(merged_words, merged_logprobs) <- merge_subwords seq_words seq_logprobs mark; (* 190-192 *)
  let s := fst st in
  let seq_logprob := counted_sum merged_logprobs in                    (* 195-196 *)
  let num_seq_probs := count_if counted merged_logprobs in             (* 204-205 *)
  let s := mkStats (ladd (t_logprob s) seq_logprob)                    (* 198 *)
                   (t_sentences s + 1)                                 (* 212 *)
                   (t_tokens s + length seq_word_ids)                  (* 200 *)
                   (t_words s + length merged_words)                   (* 202 *)
                   (t_probs s + num_seq_probs)                         (* 206 *)
                   (t_unks s + count_if (fun x => match x with None => true | _ => false end)
                                        merged_logprobs)               (* 208 *)
                   (t_zeroprobs s + count_if (fun x => match x with Some x => is_neginf x | None => false end)
                                             merged_logprobs) in       (* 209-210 *)
  if word_level then                                                   (* 214 *)
    do entries <- word_scores v merged_words merged_logprobs log_scale; (* 216-217 *)
    match num_seq_probs with
    | 0 => Err ZeroDivisionError                                       (* 219: 0 / 0 *)
    | _ => Ok (s, snd st ++ [(entries, ldiv seq_logprob (- qc_of_nat num_seq_probs)%Qc)])
    end
  else Ok (s, snd st).

(** score.py 181-219, one mini-batch *)
Definition score_text_batch (st : text_stats * list report)
           (batch : list (list nat) * list (list pystr) * list (list nat))
  : result (text_stats * list report) :=
  let '(word_ids, words, mask) := batch in
  do '(class_ids, membership_probs) <- get_class_memberships word_ids; (* 182 *)
  do logprobs <- score_batch word_ids class_ids membership_probs mask; (* 183-184 *)
  let ids := map (fun j => select (column j mask) (column j word_ids))
                 (seq 0 (length logprobs)) in                          (* 186-188 *)
  foldM score_text_sequence (combine logprobs (combine ids words)) st.

(** score.py 133-238, _score_text(): the statistics, the reports and the cross
    entropy (base e), [None] if there are no words. The code uses batch size 16
    and no maximum length. *)
Definition score_text (batch_size fuel : nat) (data : pystr)
  : result (text_stats * list report * option lp) :=
  do unk <- unk_id;
  do s <- linear_init [data];
  do '(batches, _) <- epoch linear linear_readline linear_reset batch_size None fuel (batch_init s);
  let view := mkView (word_to_id v) (in_shortlist v) unk in
  do batches <- mapM (prepare_scoring_batch view false) batches;
  do '(stats, reports) <- foldM score_text_batch batches (zero_stats, []);
  match t_words stats with
  | 0 => Ok (stats, reports, None)                                     (* 230 *)
  | _ =>
    match t_probs stats with
    | 0 => Err ZeroDivisionError                                       (* 231 *)
    | _ => Ok (stats, reports, Some (ldiv (t_logprob stats) (- qc_of_nat (t_probs stats))%Qc))
    end
  end.
End ScoreText.
End Scorer.
