(** Property theorems C16-C19 and C53: scoring text. *)
From Coq Require Import QArith Qcanon.
From Verif Require Import Base ListLib QcLib Strings TextModel TextSpec VocabModel VocabSpec VocabProps
  IterModel IterSpec IterProofs ScoreModel ScoreSpec SubwordProofs MatrixProofs ScoreProofs ScoreText.
Local Open Scope nat_scope.

(** ** A concrete network and text for the examples *)

(** The probability depends on the input word and on the target class. *)
Definition ex_prob (w k : nat) : Qc := (1 / qc_of_nat (4 + w + k))%Qc.
Definition ex_net (words classes mask targets : list (list nat)) : list (list Qc) :=
  mzip ex_prob words targets.
Definition ex_f (inputs : list (nat * nat)) (t target : nat) : Qc :=
  ex_prob (fst (nth t inputs (0, 0))) target.
Lemma ex_net_independent v : batch_independent v ex_net ex_f.
Proof.
  intros rows cols words classes mask targets Hw _ _ Ht _ _. split; [now apply is_matrix_mzip|].
  intros j inputs t target Hl Hm Hi Hlt Hc. unfold ex_net. rewrite cell_mzip, Hc.
  destruct (nth_error inputs t) as [[w c]|] eqn:E; [|apply nth_error_None in E; lia].
  destruct (Hi t w c E) as [-> _]. unfold ex_f. erewrite nth_error_nth by exact E. reflexivity.
Qed.
(** A function that is increasing and zero at one, in place of the logarithm. *)
Definition ex_ln (p : Qc) : Qc := (p - 1)%Qc.
Definition ex_text : pystr := str "a b x
q c
" ++ str "
" ++ str "<unk> y".
Definition show (x : option lp) : option (option Q) :=
  match x with None => None | Some (Fin q) => Some (Some (this q)) | Some _ => Some None end.

(** ** C16: merging subwords *)

(** The result of merging, for every marking. *)
Theorem C16_merging : forall mark first rest logprobs,
  mark <> Some OtherMarking -> length logprobs = length rest ->
  exists words scores,
    merge_subwords (first :: rest) logprobs mark = Ok (words, scores) /\
    merged mark first (combine rest logprobs) words scores.
Proof. exact merge_spec. Qed.
Print Assumptions C16_merging.
Theorem C16_invalid_arguments : forall subwords logprobs mark,
  (length subwords <> S (length logprobs) \/ mark = Some OtherMarking) ->
  merge_subwords subwords logprobs mark = Err ValueError.
Proof. exact merge_fails. Qed.
Print Assumptions C16_invalid_arguments.
Theorem C16_one_score_for_each_word : forall mark first toks words scores,
  merged mark first toks words scores -> length words = S (length scores).
Proof. exact merged_lengths. Qed.
Print Assumptions C16_one_score_for_each_word.

(** Prefixes and affixes: no token and no score is lost. *)
Theorem C16_affix_tokens : forall first toks words scores,
  merged (Some PrefixAffix) first toks words scores -> concat words = first :: map fst toks.
Proof. exact merged_affix_tokens. Qed.
Print Assumptions C16_affix_tokens.
Theorem C16_affix_total : forall first toks words scores,
  merged (Some PrefixAffix) first toks words scores -> total_score scores = total_score (map snd toks).
Proof. exact merged_affix_total. Qed.
Print Assumptions C16_affix_total.

(** Word boundaries: tokens other than the boundaries are kept unless the word is
    unknown; the score is conserved if no word is empty. *)
Theorem C16_boundary_tokens : forall first toks words scores,
  merged (Some WordBoundary) first toks words scores -> ~ In UNK (map fst toks) ->
  concat words = first :: filter (fun w => if pystr_eq_dec w BOUNDARY then false else true) (map fst toks).
Proof. exact merged_boundary_tokens. Qed.
Print Assumptions C16_boundary_tokens.
Theorem C16_boundary_total : forall first toks words scores,
  merged (Some WordBoundary) first toks words scores -> no_empty_words toks ->
  total_score scores = total_score (map snd toks).
Proof. exact merged_boundary_total. Qed.
Print Assumptions C16_boundary_total.
(** What is lost otherwise: the scores of the groups without a subword. *)
Theorem C16_boundary_loss : forall first toks words scores,
  merged (Some WordBoundary) first toks words scores ->
  exists gs, boundary_groups toks gs /\
    total_score (map snd toks) =
    oadd (total_score scores)
         (total_score (map (fun g => total_score (map snd g))
            (filter (fun g => negb (match content g with [] => false | _ => true end)) gs))).
Proof. exact merged_boundary_lost. Qed.
Print Assumptions C16_boundary_loss.
(** The total that is reported (known scores other than -inf) is that of the
    tokens if all of them have a finite score. *)
Theorem C16_reported_total : forall mark first toks words scores,
  merged mark first toks words scores ->
  (mark = Some WordBoundary -> no_empty_words toks) ->
  (forall x, In x (map snd toks) -> exists q, x = Some (Fin q)) ->
  lsum (known_scores scores) = lsum (known_scores (map snd toks)).
Proof. exact merged_reported_total. Qed.
Print Assumptions C16_reported_total.

(** The full statement fails: "<s> <w> a <w> </s>" loses the score of the first <w>. *)
Definition C16_tokens : list pystr := [SOS; BOUNDARY; str "a"; BOUNDARY; EOS].
Definition C16_scores : list (option lp) := map (fun z => Some (Fin (Q2Qc (inject_Z z)))) [-1; -2; -4; -8]%Z.
Theorem C16_boundary_refuted : exists subwords logprobs words scores,
  length logprobs + 1 = length subwords /\
  merge_subwords subwords logprobs (Some WordBoundary) = Ok (words, scores) /\
  total_score scores <> total_score logprobs.
Proof.
  exists C16_tokens, C16_scores. eexists _, _. split; [reflexivity|]. split; [reflexivity|].
  intros H. vm_compute in H. discriminate H.
Qed.
Print Assumptions C16_boundary_refuted.

Example C16_affix_example :
  merge_subwords [SOS; str "a+"; str "+b"; str "c"; EOS] C16_scores (Some PrefixAffix)
  = Ok ([[SOS]; [str "a+"; str "+b"]; [str "c"]; [EOS]],
        map (fun z => Some (Fin (Q2Qc (inject_Z z)))) [-3; -4; -8]%Z).
Proof. vm_compute. reflexivity. Qed.
Example C16_boundary_example :
  merge_subwords [SOS; str "a"; str "b"; BOUNDARY; EOS] C16_scores (Some WordBoundary)
  = Ok ([[SOS]; [str "a"; str "b"]; [EOS]],
        map (fun z => Some (Fin (Q2Qc (inject_Z z)))) [-7; -8]%Z) /\
  no_empty_words (combine [str "a"; str "b"; BOUNDARY; EOS] C16_scores).
Proof.
  split; [vm_compute; reflexivity|]. intros p s q H.
  destruct p as [|a1 [|a2 [|a3 [|a4 p]]]]; try discriminate H; injection H; intros; subst.
  - exists [(str "a", Some (Fin (Q2Qc (inject_Z (-1)))))], (str "b"). eexists. split; [reflexivity|discriminate].
  - destruct p; discriminate.
Qed.

(** ** C17: totals *)

(** The scores of a mini-batch are those of its sequences, each taken alone. *)
Theorem C17_batch_scores : forall ln net f v use_shortlist exclude_unk unk idss w m,
  reachable_vocab v -> batch_independent v net f ->
  word_to_id v UNK = Some unk -> batch_matrices unk idss w m ->
  (forall ids x, In ids idss -> In x ids -> x < num_words v) ->
  (exists ids, In ids idss /\ 2 <= length ids) ->
  exists ks ps scores,
    get_class_memberships v w = Ok (ks, ps) /\
    score_batch ln net v use_shortlist exclude_unk w ks ps m = Ok scores /\
    Forall2 (sequence_scores ln f v use_shortlist exclude_unk) idss scores.
Proof. intros *. intros Hv Hn. exact (batch_scores ln net f v _ _ Hv Hn unk idss w m). Qed.
Print Assumptions C17_batch_scores.
(** A sequence has only one list of scores. *)
Theorem C17_scores_unique : forall ln f v use_shortlist exclude_unk ids a b,
  reachable_vocab v ->
  sequence_scores ln f v use_shortlist exclude_unk ids a ->
  sequence_scores ln f v use_shortlist exclude_unk ids b -> a = b.
Proof.
  intros * Hv. destruct (C09_special_tokens_present v UNK Hv) as (unk & Hunk & _); [cbn; auto|].
  exact (sequence_scores_unique ln f v _ _ Hv unk Hunk ids a b).
Qed.
Print Assumptions C17_scores_unique.

(** Scoring a text: totals over its sequences, whatever the batch size. *)
Theorem C17_score_text : forall ln net f v use_shortlist exclude_unk mark log_scale data ls ss,
  reachable_vocab v -> batch_independent v net f ->
  mark <> Some OtherMarking -> tagged_lines 0 [data] ls -> lines_sequences None ls ss ->
  exists rs, Forall2 (sequence_result ln f v use_shortlist exclude_unk mark) (map (map fst) ss) rs /\
  forall batch_size, 1 <= batch_size -> exists fuel0, forall fuel, fuel0 <= fuel ->
    score_text ln net v use_shortlist exclude_unk mark false log_scale batch_size fuel data = text_result rs [].
Proof. intros *. intros Hv Hn. exact (score_text_spec ln net f v _ _ Hv Hn mark log_scale data ls ss). Qed.
Print Assumptions C17_score_text.

(** Perplexity: the scores of all the mini-batches, divided by their number. *)
Theorem C17_cross_entropy : forall ln net f v use_shortlist exclude_unk batches lss,
  reachable_vocab v -> batch_independent v net f ->
  scored_batches ln f v use_shortlist exclude_unk batches lss ->
  Forall finite_nonpos (concat lss) ->
  cross_entropy ln net v use_shortlist exclude_unk batches =
  match length (concat lss) with
  | 0 => Err ValueError
  | n => Ok (negative_mean (lsum (concat lss)) n)
  end.
Proof. intros *. intros Hv Hn. exact (cross_entropy_spec ln net f v _ _ Hv Hn batches lss). Qed.
Print Assumptions C17_cross_entropy.
Theorem C17_infinite_scores_fail : forall ln net f v use_shortlist exclude_unk batches lss,
  reachable_vocab v -> batch_independent v net f ->
  scored_batches ln f v use_shortlist exclude_unk batches lss ->
  Forall (fun x => finite_nonpos x \/ x = NegInf \/ x = NaN) (concat lss) ->
  Exists (fun x => x = NegInf \/ x = NaN) (concat lss) ->
  cross_entropy ln net v use_shortlist exclude_unk batches = Err NumberError.
Proof. intros *. intros Hv Hn. exact (cross_entropy_error ln net f v _ _ Hv Hn batches lss). Qed.
Print Assumptions C17_infinite_scores_fail.

Example C17_example :
  match score_text ex_ln ex_net ex_vocab false false None false 1%Qc 2 100 ex_text with
  | Ok (s, _, Some (Fin h)) => (t_sentences s, t_tokens s, t_words s, t_probs s, t_unks s, this h)
  | _ => (0, 0, 0, 0, 0, 0%Q)
  end = (3, 13, 13, 10, 0, (1709 # 1400)%Q).
Proof. vm_compute. reflexivity. Qed.
Example C17_example_batch_size :
  score_text ex_ln ex_net ex_vocab false true None false 1%Qc 1 100 ex_text =
  score_text ex_ln ex_net ex_vocab false true None false 1%Qc 16 100 ex_text.
Proof. vm_compute. reflexivity. Qed.
(** A text in which no word has a probability makes the command fail. *)
Theorem C17_no_probability_fails : exists data,
  score_text ex_ln ex_net ex_vocab false true (Some WordBoundary) false 1%Qc 16 100 data = Err ZeroDivisionError.
Proof. exists (str "<unk>"). vm_compute. reflexivity. Qed.
Print Assumptions C17_no_probability_fails.

(** ** C18: policy on unknown words *)

(** A predicted word has no score exactly if the policy excludes it. *)
Theorem C18_excluded_words : forall ln f v use_shortlist exclude_unk ids scores i x,
  sequence_scores ln f v use_shortlist exclude_unk ids scores -> nth_error scores i = Some x ->
  exists id, nth_error ids (S i) = Some id /\ (x = None <-> excluded v use_shortlist exclude_unk id).
Proof. exact policy_excluded. Qed.
Print Assumptions C18_excluded_words.
(** The scores of the other words do not depend on the policy. *)
Theorem C18_other_words_unaffected : forall ln f v use_shortlist exclude_unk exclude_unk' ids scores scores' i x y,
  reachable_vocab v ->
  sequence_scores ln f v use_shortlist exclude_unk ids scores ->
  sequence_scores ln f v use_shortlist exclude_unk' ids scores' ->
  nth_error scores i = Some (Some x) -> nth_error scores' i = Some (Some y) -> x = y.
Proof. intros ln f v us eu eu' ids s s' i x y Hv. exact (policy_same_score ln f v Hv us eu eu' ids s s' i x y). Qed.
Print Assumptions C18_other_words_unaffected.
(** Which words are excluded. *)
Theorem C18_policies : forall v unk id, word_to_id v UNK = Some unk ->
  (excluded v false false id <-> False) /\
  (excluded v false true id <-> id = unk \/ num_shortlist_words v <= id) /\
  (forall exclude_unk, v_unigram v <> None -> (excluded v true exclude_unk id <-> id = unk)) /\
  (v_unigram v = None -> (excluded v true true id <-> id = unk \/ num_shortlist_words v <= id)).
Proof.
  intros v unk id Hu. unfold excluded, shares. rewrite Hu.
  repeat match goal with |- _ /\ _ => split end; try intros eu; intros; intuition (try discriminate; try congruence).
  all: right; intuition (try discriminate; try congruence).
Qed.
Print Assumptions C18_policies.

Example C18_example :
  let scores us eu w := match get_class_memberships ex_vocab_probs w with
    | Ok (ks, ps) => match score_batch ex_ln ex_net ex_vocab_probs us eu w ks ps [[1]; [1]; [1]; [1]] with
                     | Ok l => map (map show) l | Err _ => [] end
    | Err _ => [] end in
  let w := [[4]; [0]; [6]; [3]] in        (* <s> a x <unk> *)
  map (map (fun x => match x with None => false | _ => true end)) (scores false true w) = [[true; false; false]] /\
  map (map (fun x => match x with None => false | _ => true end)) (scores true true w) = [[true; true; false]] /\
  map (map (fun x => match x with None => false | _ => true end)) (scores false false w) = [[true; true; true]].
Proof. vm_compute. auto. Qed.

(** ** C19: lines *)

(** The score of a line without out-of-shortlist words is the sum of the scores
    that the mini-batch scorer gives to its words ([C17_batch_scores]), except the
    excluded ones and those of membership probability zero. *)
Theorem C19_line_score : forall ln net f v use_shortlist exclude_unk line words ids scores l counters,
  reachable_vocab v -> batch_independent v net f ->
  utterance_of line words -> words <> [] -> ids_of v words ids ->
  (forall x, In x ids -> x < num_shortlist_words v) ->
  sequence_scores ln f v use_shortlist exclude_unk ids scores -> included v (tl ids) scores l ->
  exists unk, word_to_id v UNK = Some unk /\
  score_line ln net v use_shortlist exclude_unk counters line =
  match lsum l with
  | Fin q => if Qclt_le_dec 0%Qc q then Err NumberError
             else Ok (Some q, (fst counters + length words, snd counters + number (Nat.eqb unk) ids))
  | _ => Err NumberError
  end.
Proof. intros *. intros Hv Hn. exact (score_line_ok ln net f v _ _ Hv Hn line words ids scores l counters). Qed.
Print Assumptions C19_line_score.
Theorem C19_blank_line : forall ln net v use_shortlist exclude_unk line counters,
  utterance_of line [] ->
  score_line ln net v use_shortlist exclude_unk counters line = Ok (None, counters).
Proof. intros *. exact (score_line_blank ln net v _ _ line counters). Qed.
Print Assumptions C19_blank_line.
(** A line with an out-of-shortlist word cannot be scored, although the mini-batch
    scorer gives scores to all of its words. *)
Theorem C19_oos_line_fails : forall ln net v use_shortlist exclude_unk line words ids counters,
  reachable_vocab v ->
  utterance_of line words -> ids_of v words ids ->
  (exists x, In x ids /\ num_shortlist_words v <= x) ->
  score_line ln net v use_shortlist exclude_unk counters line = Err IndexError.
Proof. intros *. intros Hv. exact (score_line_oos ln net v _ _ Hv line words ids counters). Qed.
Print Assumptions C19_oos_line_fails.
(** The utterance scorer writes, in order, the score of each line that has one, in
    the requested base, and nothing for blank lines. *)
Theorem C19_utterances : forall ln net v use_shortlist exclude_unk lines scores log_scale,
  Forall2 (fun line s => forall counters, exists counters',
             score_line ln net v use_shortlist exclude_unk counters line = Ok (s, counters')) lines scores ->
  exists counters,
    score_utterances ln net v use_shortlist exclude_unk lines log_scale
    = Ok (flat_map (fun s => match s with Some x => [(x / log_scale)%Qc] | None => [] end) scores, counters).
Proof.
  intros * H. unfold score_utterances.
  enough (G : forall acc c, exists counters,
    foldM (fun st line =>
           do '(s, counters) <- score_line ln net v use_shortlist exclude_unk (snd st) line;
           match s with
           | None => Ok (fst st, counters)
           | Some s => Ok (fst st ++ [(s / log_scale)%Qc], counters)
           end) lines (acc, c)
    = Ok (acc ++ flat_map (fun s => match s with Some x => [(x / log_scale)%Qc] | None => [] end) scores, counters))
    by exact (G [] (0, 0)).
  induction H as [|line s lines scores Hs _ IH]; intros acc c; cbn [foldM flat_map].
  - rewrite app_nil_r. eexists; reflexivity.
  - cbn [snd fst]. destruct (Hs c) as [c' ->]. cbn [bind]. destruct s as [x|]; cbn [bind].
    + destruct (IH (acc ++ [(x / log_scale)%Qc]) c') as [c2 E]. exists c2. rewrite E, <- app_assoc. reflexivity.
    + apply IH.
Qed.
Print Assumptions C19_utterances.
Theorem C19_line_score_refuted : exists net f v line words ids scores l q,
  reachable_vocab v /\ batch_independent v net f /\ utterance_of line words /\ ids_of v words ids /\
  sequence_scores ex_ln f v false false ids scores /\ included v (tl ids) scores l /\
  lsum l = Fin q /\ (q <= 0)%Qc /\
  score_line ex_ln net v false false (0, 0) line = Err IndexError.
Proof.
  set (ids := [4; 0; 6; 5]).
  assert (Hu : word_to_id ex_vocab UNK = Some 3) by reflexivity.
  destruct (contributions_included ex_ln ex_f ex_vocab false false ex_vocab_reachable 3 ids Hu) as (scores & S1 & S2).
  { intros x [<-|[<-|[<-|[<-|[]]]]]; vm_compute; lia. }
  assert (E : lsum (contributions ex_ln ex_f ex_vocab false false 3 ids) = Fin (Q2Qc (-143 # 40))) by (vm_compute; reflexivity).
  exists ex_net, ex_f, ex_vocab, (str "a x"), [SOS; str "a"; str "x"; EOS], ids, scores,
         (contributions ex_ln ex_f ex_vocab false false 3 ids), (Q2Qc (-143 # 40)).
  split; [apply ex_vocab_reachable|]. split; [apply ex_net_independent|].
  split; [apply TextProofs.utterance_of_iff; vm_compute; reflexivity|].
  split. { exists 3. split; [exact Hu|]. repeat constructor. }
  split; [exact S1|]. split; [exact S2|]. split; [exact E|]. split; [|vm_compute; reflexivity].
  vm_compute. discriminate.
Qed.
Print Assumptions C19_line_score_refuted.

Example C19_example :
  match score_line ex_ln ex_net ex_vocab false false (0, 0) (str "a b q") with
  | Ok (Some q, c) => (this q, c) | _ => (0%Q, (0, 0)) end = ((-589 # 120)%Q, (5, 1)).
Proof. vm_compute. reflexivity. Qed.

(** ** C53: word score reports *)

Theorem C53_word_scores : forall v words scores log_scale,
  length words = S (length scores) ->
  exists entries, word_scores v words scores log_scale = Ok entries /\
    reported v log_scale words scores entries.
Proof. intros v words scores log_scale. exact (word_scores_ok v log_scale words scores). Qed.
Print Assumptions C53_word_scores.

(** The reports on a whole text. A sentence in which no word has a probability
    makes the command fail. *)
Theorem C53_text_reports : forall ln net f v use_shortlist exclude_unk mark log_scale data ls ss,
  reachable_vocab v -> batch_independent v net f ->
  mark <> Some OtherMarking -> tagged_lines 0 [data] ls -> lines_sequences None ls ss ->
  exists rs, Forall2 (sequence_result ln f v use_shortlist exclude_unk mark) (map (map fst) ss) rs /\
  (Forall (fun r => 0 < number is_known (snd (snd r))) rs ->
     exists reports,
       Forall2 (fun r rep => reported v log_scale (fst (snd r)) (snd (snd r)) (fst rep) /\
                  snd rep = negative_mean (lsum (known_scores (snd (snd r)))) (number is_known (snd (snd r)))) rs reports /\
       forall batch_size, 1 <= batch_size -> exists fuel0, forall fuel, fuel0 <= fuel ->
         score_text ln net v use_shortlist exclude_unk mark true log_scale batch_size fuel data = text_result rs reports) /\
  (Exists (fun r => number is_known (snd (snd r)) = 0) rs ->
     forall batch_size, 1 <= batch_size -> exists fuel0, forall fuel, fuel0 <= fuel ->
       score_text ln net v use_shortlist exclude_unk mark true log_scale batch_size fuel data = Err ZeroDivisionError).
Proof. intros *. intros Hv Hn. exact (score_text_reports ln net f v _ _ Hv Hn mark log_scale data ls ss). Qed.
Print Assumptions C53_text_reports.

Example C53_example :
  match score_text ex_ln ex_net ex_vocab false false None true (Q2Qc (1 # 2)) 16 100 (str "a b x c") with
  | Ok (_, [(es, _)], _) => map (fun e => (se_word e, se_history e, se_cut e, se_info e)) es
  | _ => []
  end =
  [([str "a"], [[SOS]], false, [InShortlist]);
   ([str "b"], [[SOS]; [str "a"]], false, [InShortlist]);
   ([str "x"], [[SOS]; [str "a"]; [str "b"]], false, [InOOS]);
   ([str "c"], [[str "a"]; [str "b"]; [str "x"]], true, [InShortlist]);
   ([EOS], [[str "b"]; [str "x"]; [str "c"]], true, [InShortlist])].
Proof. vm_compute. reflexivity. Qed.
