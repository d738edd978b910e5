(** Property theorem C77: what the text of the score report says. *)
From Coq Require Import QArith Qcanon.
From Verif Require Import Base ListLib QcLib Strings NumStr TextModel TextSpec TextProofs VocabModel VocabSpec VocabProps
  IterModel IterSpec IterProofs ScoreModel ScoreSpec ScoreText ScoreProps ReportModel ReportSpec ReportProofs.
Local Open Scope nat_scope.
Local Open Scope list_scope.

Lemma scale_base base : log_scale_of base = base_logarithm base.
Proof. destruct base as [[b scale]|]; reflexivity. Qed.

(** Numbers are printed without white space. Two runs of the score command with word scores,
    with any vocabularies, networks, subword markings, bases, mini-batch sizes and texts, that
    write the same report have scored the same sentences: the same words, made of the same
    subwords, with the same printed scores, the same words without a score, and the same
    parts found in the shortlist, outside it, and not at all. The counts are the same too. *)
Theorem C77_report_determines : forall show pexp
  ln net f v us eu mark base data ls ss ln' net' f' v' us' eu' mark' base' data' ls' ss',
  (forall x, show x <> [] /\ no_space (show x)) ->
  reachable_vocab v -> batch_independent v net f -> mark <> Some OtherMarking ->
  tagged_lines 0 [data] ls -> lines_sequences None ls ss ->
  reachable_vocab v' -> batch_independent v' net' f' -> mark' <> Some OtherMarking ->
  tagged_lines 0 [data'] ls' -> lines_sequences None ls' ss' ->
  exists rs rs',
    Forall2 (sequence_result ln f v us eu mark) (map (map fst) ss) rs /\
    Forall2 (sequence_result ln' f' v' us' eu' mark') (map (map fst) ss') rs' /\
    forall batch_size batch_size', 1 <= batch_size -> 1 <= batch_size' ->
    exists fuel0, forall fuel fuel' text, fuel0 <= fuel -> fuel0 <= fuel' ->
      score_text_output show pexp ln net v us eu mark true base batch_size fuel data = Ok text ->
      score_text_output show pexp ln' net' v' us' eu' mark' true base' batch_size' fuel' data' = Ok text ->
      Forall2 (same_sentence show v v' (base_logarithm base) (base_logarithm base')) rs rs' /\
      counts (totals rs) = counts (totals rs').
Proof. intros show pexp. intros. rewrite <- !scale_base. eapply report_text_determines; eassumption. Qed.
Print Assumptions C77_report_determines.

(** Without subwords, the words of the text can be read back from the report. *)
Lemma plain_words ln f v us eu ws r : sequence_result ln f v us eu None ws r -> fst (snd r) = map (fun w => [w]) ws.
Proof.
  intros [first rest ids scores mwords mscores (u & _ & I) S M]. inversion M; subst. cbn [fst snd map]. f_equal.
  pose proof (len2 _ _ _ _ _ I) as L1. pose proof (len2 _ _ _ _ _ S) as L2.
  rewrite seq_length in L2. cbn [length] in L1. assert (L : length rest = length scores) by lia. clear -L. revert scores L.
  induction rest as [|w rest IH]; intros [|x scores] L; try discriminate; [reflexivity|]. cbn [combine map fst]. f_equal. apply IH. now injection L.
Qed.
Lemma single_inj (a : list pystr) : forall b, map (fun w => [w]) a = map (fun w => [w]) b -> a = b.
Proof. induction a as [|x a IH]; intros [|y b] E; try discriminate; [reflexivity|]. cbn [map] in E. injection E as -> E. now rewrite (IH b E). Qed.
Theorem C77_text_read_back : forall show pexp
  ln net f v us eu base data ls ss ln' net' f' v' us' eu' base' data' ls' ss',
  (forall x, show x <> [] /\ no_space (show x)) ->
  reachable_vocab v -> batch_independent v net f -> tagged_lines 0 [data] ls -> lines_sequences None ls ss ->
  reachable_vocab v' -> batch_independent v' net' f' -> tagged_lines 0 [data'] ls' -> lines_sequences None ls' ss' ->
  forall batch_size batch_size', 1 <= batch_size -> 1 <= batch_size' ->
  exists fuel0, forall fuel fuel' text, fuel0 <= fuel -> fuel0 <= fuel' ->
    score_text_output show pexp ln net v us eu None true base batch_size fuel data = Ok text ->
    score_text_output show pexp ln' net' v' us' eu' None true base' batch_size' fuel' data' = Ok text ->
    map (map fst) ss = map (map fst) ss'.
Proof.
  intros show pexp ln net f v us eu base data ls ss ln' net' f' v' us' eu' base' data' ls' ss' P Hv Hn Hl Hs Hv' Hn' Hl' Hs' b b' Hb Hb'.
  destruct (report_text_determines show pexp P ln net f v us eu None base data ls ss ln' net' f' v' us' eu' None base' data' ls' ss')
    as (rs & rs' & R & R' & D); auto; try discriminate.
  destruct (D b b' Hb Hb') as (fuel0 & D0). exists fuel0. intros fuel fuel' text Hf Hf' E E'. destruct (D0 fuel fuel' text Hf Hf' E E') as [S _].
  clear -R R' S. revert R R'. generalize (map (map fst) ss) (map (map fst) ss'). induction S as [|r r' rs rs' [H _ _] S IH]; intros l l' R R'.
  - inversion R. inversion R'. reflexivity.
  - inversion R as [|w ? ws ? R1 R2]; subst. inversion R' as [|w' ? ws' ? R1' R2']; subst. rewrite (IH _ _ R2 R2'). f_equal.
    apply single_inj. rewrite <- (plain_words _ _ _ _ _ _ _ R1), <- (plain_words _ _ _ _ _ _ _ R1'). exact H.
Qed.
Print Assumptions C77_text_read_back.

(** The report on a text without words. The sums are not divided by zero. *)
Theorem C77_no_words : forall show pexp ln net f v us eu mark word_level base data ls,
  reachable_vocab v -> batch_independent v net f -> mark <> Some OtherMarking ->
  tagged_lines 0 [data] ls -> lines_sequences None ls [] ->
  forall batch_size, 1 <= batch_size -> exists fuel0, forall fuel, fuel0 <= fuel ->
    score_text_output show pexp ln net v us eu mark word_level base batch_size fuel data =
    Ok (concat (map (fun line => line ++ [10%N])
          [str "Number of sentences: 0"; str "Number of words: 0"; str "Number of tokens: 0"; str "Number of predicted probabilities: 0";
           str "Number of excluded (OOV) words: 0"; str "Number of zero probabilities: 0"])).
Proof.
  intros * Hv Hn Hm Hl Hs b Hb. destruct word_level.
  - destruct (score_text_reports ln net f v us eu Hv Hn mark (log_scale_of base) data ls [] Hm Hl Hs) as (rs & R & A & _).
    inversion R; subst. destruct (A (Forall_nil _)) as (reps & Rep & Run). inversion Rep; subst. destruct (Run b Hb) as (fuel0 & H).
    exists fuel0. intros fuel Hf. unfold score_text_output. rewrite (H fuel Hf). reflexivity.
  - destruct (score_text_spec ln net f v us eu Hv Hn mark (log_scale_of base) data ls [] Hm Hl Hs) as (rs & R & A).
    inversion R; subst. destruct (A b Hb) as (fuel0 & H).
    exists fuel0. intros fuel Hf. unfold score_text_output. rewrite (H fuel Hf). reflexivity.
Qed.
Print Assumptions C77_no_words.

(** ** Utterance scores *)

(** The output has a line for each input line that is not blank, in the same order, and the
    line is the score of that input line alone. Nothing is written for a blank line, so that
    line numbers of the input and the output agree only if there are no blank lines before. *)
Lemma score_line_counters ln net v us eu c line s c1 : score_line ln net v us eu c line = Ok (s, c1) ->
  (s = None <-> all_space line) /\ forall c', exists c2, score_line ln net v us eu c' line = Ok (s, c2).
Proof.
  unfold score_line. destruct (utterance_spec line) as [[B ->]|(toks & mid & B & _ & _ & _ & ->)]; cbn [bind].
  - intro E. injection E as <- <-. split; [tauto|]. intro c'. exists c'. reflexivity.
  - destruct (words_to_ids v _) as [ids|]; cbn [bind]; [|discriminate]. destruct (unk_id v) as [unk|]; cbn [bind]; [|discriminate].
    destruct (mapM _ ids) as [ks|]; cbn [bind]; [|discriminate]. destruct (mapM (get_word_prob v) ids) as [ps|]; cbn [bind]; [|discriminate].
    destruct (score_sequence _ _ _ _ _ _ _ _) as [q|]; cbn [bind]; [|discriminate]. intro E. injection E as <- <-. split; [split; [discriminate|contradiction]|].
    intro c'. eexists. reflexivity.
Qed.
Lemma foldM_app_inv ln net v us eu scale lines : forall acc c scores c',
  foldM (fun st line => do '(s, counters) <- score_line ln net v us eu (snd st) line;
           match s with None => Ok (fst st, counters) | Some s => Ok (fst st ++ [(s / scale)%Qc], counters) end) lines (acc, c) = Ok (scores, c') ->
  exists shown, Forall2 (fun line s => (s = None <-> all_space line) /\ forall c0, exists c1, score_line ln net v us eu c0 line = Ok (s, c1)) lines shown /\
    scores = acc ++ flat_map (fun s => match s with Some x => [(x / scale)%Qc] | None => [] end) shown.
Proof.
  induction lines as [|line lines IH]; intros acc c scores c' E; cbn [foldM] in E.
  - injection E as <- <-. exists []. split; [constructor|]. now rewrite app_nil_r.
  - destruct (score_line ln net v us eu (snd (acc, c)) line) as [[s c1]|e] eqn:L; cbn [bind] in E; [|discriminate]. pose proof (score_line_counters _ _ _ _ _ _ _ _ _ L) as H.
    destruct s as [q|]; cbn [bind fst] in E; apply IH in E as (shown & F & ->).
    + exists (Some q :: shown). split; [constructor; assumption|]. cbn [flat_map]. now rewrite <- app_assoc.
    + exists (None :: shown). split; [constructor; assumption|]. reflexivity.
Qed.
Theorem C77_utterance_lines : forall show ln net v us eu lines base text,
  score_utterances_output show ln net v us eu lines base = Ok text ->
  exists scores,
    Forall2 (fun line s => (s = None <-> all_space line) /\
               forall counters, exists counters', score_line ln net v us eu counters line = Ok (s, counters')) lines scores /\
    text = concat (map (fun s => match s with
                                 | None => []
                                 | Some q => show (Fin (q / base_logarithm base)%Qc) ++ [10%N]
                                 end) scores).
Proof.
  intros * E. unfold score_utterances_output in E. destruct (score_utterances _ _ _ _ _ _ _) as [[qs c]|] eqn:S; cbn [bind] in E; [|discriminate].
  rewrite scale_base in S. unfold score_utterances in S. apply foldM_app_inv in S as (shown & F & ->). exists shown. split; [exact F|].
  apply (f_equal (fun r : result pystr => match r with Ok y => y | Err _ => [] end)) in E. rewrite <- E. clear.
  induction shown as [|[q|] shown IH]; [reflexivity| |].
  - cbn [flat_map app map concat]. cbn [app] in IH. now rewrite IH.
  - cbn [flat_map app map concat]. exact IH.
Qed.
Print Assumptions C77_utterance_lines.

(** ** Cases *)
Definition ex_digits (x : lp) : pystr :=
  match x with
  | Fin q => (if Qclt_le_dec q 0 then str "-" else []) ++ str_of_nat (Z.to_nat (Z.abs (Qnum (this q)))) ++ str "/" ++ str_of_nat (Pos.to_nat (Qden (this q)))
  | NegInf => str "-inf"
  | NaN => str "nan"
  end.
Lemma digits_tokens u : no_space (uint_chars u).
Proof. induction u; cbn [uint_chars]; intros c C; [contradiction| | | | | | | | | |]; (destruct C as [<-|C]; [reflexivity|auto]). Qed.
Lemma plain_digits : forall x, ex_digits x <> [] /\ no_space (ex_digits x).
Proof.
  intros [q| |].
  - split; [unfold ex_digits; intro C; apply app_eq_nil in C as [_ C]; apply app_eq_nil in C as [_ C]; discriminate|].
    intros c C. unfold ex_digits in C. apply in_app_or in C as [C|C]; [destruct (Qclt_le_dec q 0); [|contradiction]; destruct C as [<-|[]]; reflexivity|].
    apply in_app_or in C as [C|C]; [now apply digits_tokens in C|]. destruct C as [<-|C]; [reflexivity|]. now apply digits_tokens in C.
  - split; [discriminate|]. intros c C. repeat (destruct C as [<-|C]; [reflexivity|]). contradiction.
  - split; [discriminate|]. intros c C. repeat (destruct C as [<-|C]; [reflexivity|]). contradiction.
Qed.
Definition ex_report mark eu base data :=
  score_text_output ex_digits (fun x => x) ex_ln ex_net ex_vocab false eu mark true base 16 100 data.
Example C77_report_example : ex_report None true (Some (2, Q2Qc (1 # 2))) (str "a b x c") = Ok (str
"# Sentence 1
log(p(a | <s>)) = -11/4  [a:shortlist]
log(p(b | <s> a)) = -13/5  [b:shortlist]
p(x | <s> a b) is not predicted  [x:OOS]
log(p(c | ... a b x)) = -19/7  [c:shortlist]
log(p(</s> | ... b x c)) = -16/9  [</s>:shortlist]
Sentence perplexity: 12401/10080

Number of sentences: 1
Number of words: 6
Number of tokens: 6
Number of predicted probabilities: 4
Number of excluded (OOV) words: 1
Number of zero probabilities: 0
Cross entropy (base e): 12401/10080
Cross entropy (base 2): 12401/5040
Perplexity: 12401/10080
").
Proof. vm_compute. reflexivity. Qed.

(** Different texts with the same report: only white space differs. *)
Example C77_same_report :
  ex_report None true (Some (2, Q2Qc (1 # 2))) (str "a b x c") = ex_report None true (Some (2, Q2Qc (1 # 2))) (str "
  <s> a  b x c </s>
") /\ (exists text, ex_report None true (Some (2, Q2Qc (1 # 2))) (str "a b x c") = Ok text).
Proof. split; [vm_compute; reflexivity|]. eexists. exact C77_report_example. Qed.
(** Words made of subwords: the histories of two texts read the same, the reports differ. *)
Example C77_subwords :
  exists text text', ex_report (Some WordBoundary) false None (str "a b <w> c") = Ok text /\ ex_report (Some WordBoundary) false None (str "a <w> b c") = Ok text' /\
  text <> text' /\
  firstn 134 text = str
"# Sentence 1
log(p(a b | <s>)) = -481/120  [a:shortlist b:shortlist]
log(p(c </s> | <s> a b)) = -283/126  [c:shortlist </s>:shortlist]".
Proof. eexists. eexists. split; [vm_compute; reflexivity|]. split; [vm_compute; reflexivity|]. split; [vm_compute; discriminate|]. vm_compute; reflexivity. Qed.
Example C77_blank_text : exists fuel0, forall fuel, fuel0 <= fuel ->
  score_text_output ex_digits (fun x => x) ex_ln ex_net ex_vocab false true None true None 16 fuel (str "  ") =
  ex_report None true None (str "  ").
Proof.
  edestruct (C77_no_words ex_digits (fun x => x) ex_ln ex_net ex_f ex_vocab false true None true None (str "  ") [(str "  ", 0)] ex_vocab_reachable (ex_net_independent _)) as (fuel0 & H).
  - discriminate.
  - apply (tagged_lines_cons 0 (str "  ") [] [str "  "] []); [|constructor]. apply lines_last; [discriminate|]. intros [C|[C|[]]]; discriminate.
  - apply (lines_sequences_cons None (str "  ") 0 [] [] []); [|constructor].
    apply (line_sequences_intro None 0 (str "  ") [] [[]]); [|reflexivity]. apply utterance_blank_line. intros c [<-|[<-|[]]]; reflexivity.
  - apply (proj1 (Nat.leb_le 1 16) eq_refl).
  - exists fuel0. intros fuel Hf. rewrite (H fuel Hf). vm_compute. reflexivity.
Qed.
Example C77_utterances_example :
  score_utterances_output ex_digits ex_ln ex_net ex_vocab false false [str "a b"; str " "; str "b"] None = Ok (str
"-71/20
-163/72
") .
Proof. vm_compute. reflexivity. Qed.
