(** C70: the perplexities of validations, and what the score command reports. *)
From Coq Require Import QArith Qcanon Lia.
From Verif Require Import Base ListLib BaseLib QcLib Dict Strings TextModel TextSpec VocabModel VocabSpec VocabProofs VocabBuild VocabProps
  ArchModel ArchSpec ParamModel ParamSpec NetModel DeviceModel BuildModel BuildSpec SavedModel SavedSpec SavedArrays LinkModel LinkSpec LinkProps
  IterModel IterSpec IterProofs IterProps ScoreModel ScoreSpec ScoreProofs ScoreText ScoreProps TrainerModel TrainDataModel
  TrainCommandModel TrainCommandSpec TrainCommandProofs TrainCommandVocab TrainCommandRuns TrainCommandProps
  VocabStats CorpusProofs RealiseProofs ValidationModel ValidationSpec ValidationProofs.
Local Open Scope nat_scope.

(** ** A validation *)
Section Validation.
Variable ln : Qc -> Qc.
Variable qexp : lp -> lp.
Variable net : list (list nat) -> list (list nat) -> list (list nat) -> list (list nat) -> list (list Qc).
Variable f : list (nat * nat) -> nat -> nat -> Qc.
Variable v : vocabulary.
Variable exclude_unk : bool.
Variable batch_size : nat.
Variable max_len : option nat.
Variable data : pystr.
Variable ls : list (pystr * nat).
Variable ss : list (list (pystr * nat)).
Notation words_in := (map (@fst pystr nat)).
Notation validated fuel := (validated ln qexp v exclude_unk batch_size max_len fuel net data).

(** The perplexity of the validation set is that of the sentences in the file, cut to the
    maximum length. It does not depend on how they are divided into mini-batches. *)
Theorem C70_validation : reachable_vocab v -> batch_independent v net f -> 1 <= batch_size -> valid_max max_len ->
  tagged_lines 0 [data] ls -> lines_sequences max_len ls ss ->
  exists lss, Forall2 (fun s l => sentence_included ln f v true exclude_unk (words_in s) l) ss lss /\
  exists fuel0, forall fuel, fuel0 <= fuel ->
    (Forall finite_nonpos (concat lss) ->
       validated fuel = match length (concat lss) with 0 => Err ValueError | n => Ok (qexp (negative_mean (lsum (concat lss)) n)) end) /\
    (Forall (fun x => finite_nonpos x \/ x = NegInf \/ x = NaN) (concat lss) -> Exists (fun x => x = NegInf \/ x = NaN) (concat lss) ->
       validated fuel = Err NumberError) /\
    (forall p, validated fuel = Ok p -> Forall finite (concat lss) /\ 0 < length (concat lss) /\
       p = qexp (negative_mean (lsum (concat lss)) (length (concat lss)))).
Proof.
  intros Hv Hn Hb Hm Hl Hs. destruct (vocab_specials v UNK Hv) as (unk & Hunk & _); [apply special_cases|].
  exists (map (fun s => contributions ln f v true exclude_unk unk (map (code v unk) (words_in s))) ss). split.
  { clear Hl Hs. induction ss as [|s ss' IH]; cbn [map]; constructor; [|exact IH]. now apply contributions_sentence. }
  destruct (validated_spec ln qexp f v Hv unk Hunk exclude_unk batch_size max_len data ls ss Hb Hm Hl Hs) as (fuel0 & H).
  exists fuel0. intros fuel Hf. destruct (H fuel Hf) as (pairs & lss & S & <- & V). split; [|split].
  - intros F. rewrite V, (cross_entropy_spec ln net f v true exclude_unk Hv Hn _ _ S F). destruct (length (concat lss)); reflexivity.
  - intros F E. rewrite V, (cross_entropy_error ln net f v true exclude_unk Hv Hn _ _ S F E). reflexivity.
  - intros p. rewrite V. destruct (cross_entropy _ _ _ _ _ _) as [h|] eqn:E; [|discriminate]. cbn [bind]. intros [= <-].
    destruct (cross_entropy_ok ln f v Hv net Hn _ _ _ _ _ S E) as (F & L & ->). auto.
Qed.

(** Every validation of a training reads the whole file: the perplexity is that of a
    validation with a new iterator. *)
Theorem C70_validations : reachable_vocab v -> 1 <= batch_size -> valid_max max_len ->
  exists fuel0, forall fuel, fuel0 <= fuel -> exists st, validation_iter data = Ok st /\
  forall nets, validations ln qexp v exclude_unk batch_size max_len fuel nets st =
    (do ps <- mapM (fun net => ValidationModel.validated ln qexp v exclude_unk batch_size max_len fuel net data) nets; Ok (ps, st)).
Proof.
  intros Hv Hb Hm. destruct (vocab_specials v UNK Hv) as (unk & Hunk & _); [apply special_cases|].
  pose proof (C03_lines_exist 0 [data]) as Hl. pose proof (C03_sequences_exist max_len (tagf 0 [data]) Hm) as Hs.
  exact (validations_spec ln qexp (fun _ _ _ => 0%Qc) v Hv unk Hunk exclude_unk batch_size max_len data _ _ Hb Hm Hl Hs).
Qed.

(** ** The score command *)

(** A perplexity that a validation has computed is what the score command reports of the
    same file and the same network with the option --shortlist, if no sentence is longer
    than the maximum length. If the vocabulary has unigram probabilities, the option
    --exclude-unk of the text scorer makes no difference. *)
Theorem C70_score_confirms exclude_unk' : reachable_vocab v -> batch_independent v net f -> 1 <= batch_size -> valid_max max_len ->
  tagged_lines 0 [data] ls -> lines_sequences None ls ss -> fits max_len ls ->
  (v_unigram v <> None \/ exclude_unk' = exclude_unk) ->
  (forall s scores, In s ss -> sentence_scores ln f v true exclude_unk (words_in s) scores -> Forall not_nan scores) ->
  exists fuel0, forall fuel p, fuel0 <= fuel -> validated fuel = Ok p ->
  exists stats h, qexp h = p /\ forall log_scale batch_size', 1 <= batch_size' -> exists fuel1, forall fuel', fuel1 <= fuel' ->
    score_text ln net v true exclude_unk' None false log_scale batch_size' fuel' data = Ok (stats, [], Some h).
Proof.
  intros Hv Hn Hb Hm Hl Hs Hf He Hnan. destruct (vocab_specials v UNK Hv) as (unk & Hunk & _); [apply special_cases|].
  assert (Hs' : lines_sequences max_len ls ss).
  { pose proof (C03_sequences_exist max_len ls Hm) as Hs'. pose proof (fits_sequences _ _ _ Hm Hf Hs') as X.
    apply (lines_sequences_unique None _ _ I) in X. apply (lines_sequences_unique None _ _ I) in Hs. congruence. }
  destruct (validated_spec ln qexp f v Hv unk Hunk exclude_unk batch_size max_len data ls ss Hb Hm Hl Hs') as (fuel0 & H).
  exists fuel0. intros fuel p Hfu. destruct (H fuel Hfu) as (pairs & lss & S & C & V). rewrite V.
  destruct (cross_entropy _ _ _ _ _ _) as [h|] eqn:E; [|discriminate]. cbn [bind]. intros [= <-].
  destruct (cross_entropy_ok ln f v Hv net Hn _ _ _ _ _ S E) as (F & L & Eh). rewrite C in F, L, Eh.
  destruct (score_text_spec ln net f v true exclude_unk' Hv Hn None 1%Qc data ls ss) as (rs & Hrs & _); [discriminate|exact Hl|exact Hs|].
  exists (totals rs), h. split; [reflexivity|]. intros log_scale b' Hb'.
  destruct (score_text_spec ln net f v true exclude_unk' Hv Hn None log_scale data ls ss) as (rs' & Hrs' & T); [discriminate|exact Hl|exact Hs|].
  destruct (T b' Hb') as (fuel1 & T1). exists fuel1. intros fuel' Hf'. rewrite (T1 fuel' Hf').
  assert (N : Forall (no_nan ln f v exclude_unk) ss).
  { apply Forall_forall. intros s Hi scores. now apply Hnan. }
  pose proof (text_result_known ln f v Hv unk Hunk exclude_unk exclude_unk' He ss rs' (sequences_long _ _ _ Hs) Hrs' N F) as T2. cbv zeta in T2. rewrite T2.
  assert (Hne : ss <> []) by (intros ->; cbn in L; lia).
  assert (rs' = rs) as ->.
  { clear -Hrs Hrs' Hv Hunk. revert rs Hrs. induction Hrs' as [|ws r wss rs' H1 H2 IH]; intros rs Hrs; inversion Hrs as [|? r' ? rs'' H1' H2']; subst; [reflexivity|].
    f_equal; [|now apply IH]. inversion H1 as [first rest ids sc mw ms I1 S1 M1]; subst. inversion H1' as [first' rest' ids' sc' mw' ms' I1' S1' M1']; subst.
    pose proof (ids_of_codes _ _ _ _ Hunk I1) as E1. pose proof (ids_of_codes _ _ _ _ Hunk I1') as E2. rewrite E1 in *. rewrite E2 in *.
    assert (sc = sc') by (eapply sequence_scores_unique; eauto). subst sc'. inversion M1; subst. inversion M1'; subst. reflexivity. }
  destruct rs as [|r rs]; [destruct ss; [congruence|inversion Hrs]|]. destruct (length _) as [|k] eqn:Ek; [lia|]. now rewrite Eh.
Qed.

(** In the other direction: a perplexity that the score command reports is that of a
    validation, if every word of the text is excluded, has a membership probability of zero,
    or has a probability that is greater than zero and not greater than one. *)
Theorem C70_score_predicts exclude_unk' : reachable_vocab v -> batch_independent v net f -> 1 <= batch_size -> valid_max max_len ->
  tagged_lines 0 [data] ls -> lines_sequences None ls ss -> fits max_len ls ->
  (v_unigram v <> None \/ exclude_unk' = exclude_unk) ->
  (forall s scores, In s ss -> sentence_scores ln f v true exclude_unk (words_in s) scores -> Forall not_nan scores) ->
  (forall s, In s ss -> sentence_possible ln f v true exclude_unk (words_in s)) ->
  forall log_scale batch_size', 1 <= batch_size' -> exists fuel0, forall fuel stats h, fuel0 <= fuel ->
    score_text ln net v true exclude_unk' None false log_scale batch_size' fuel data = Ok (stats, [], Some h) ->
    validated fuel = Ok (qexp h).
Proof.
  intros Hv Hn Hb Hm Hl Hs Hf He Hnan Hp log_scale b' Hb'. destruct (vocab_specials v UNK Hv) as (unk & Hunk & _); [apply special_cases|].
  assert (Hs' : lines_sequences max_len ls ss).
  { pose proof (C03_sequences_exist max_len ls Hm) as Hs'. pose proof (fits_sequences _ _ _ Hm Hf Hs') as X.
    apply (lines_sequences_unique None _ _ I) in X. apply (lines_sequences_unique None _ _ I) in Hs. congruence. }
  destruct (validated_spec ln qexp f v Hv unk Hunk exclude_unk batch_size max_len data ls ss Hb Hm Hl Hs') as (fuel1 & H).
  destruct (score_text_spec ln net f v true exclude_unk' Hv Hn None log_scale data ls ss) as (rs & Hrs & T); [discriminate|exact Hl|exact Hs|].
  destruct (T b' Hb') as (fuel2 & T1). exists (max fuel1 fuel2). intros fuel stats h Hfu. rewrite (T1 fuel) by lia.
  assert (N : Forall (no_nan ln f v exclude_unk) ss).
  { apply Forall_forall. intros s Hi scores. now apply Hnan. }
  assert (P : Forall finite_nonpos (concat (map (fun s => contributions ln f v true exclude_unk unk (map (code v unk) (words_in s))) ss))).
  { clear -Hp Hv Hunk. induction ss as [|s ss' IH]; cbn [map concat]; [constructor|]. apply Forall_app. split; [apply possible_finite; auto; apply Hp; now left|].
    apply IH. intros x Hx. apply Hp. now right. }
  assert (F : Forall finite (concat (map (fun s => contributions ln f v true exclude_unk unk (map (code v unk) (words_in s))) ss))).
  { eapply Forall_impl; [|exact P]. intros x (q & -> & _). now exists q. }
  pose proof (text_result_known ln f v Hv unk Hunk exclude_unk exclude_unk' He ss rs (sequences_long _ _ _ Hs) Hrs N F) as T2. cbv zeta in T2. rewrite T2.
  destruct (H fuel ltac:(lia)) as (pairs & lss & S & C & V). rewrite V. rewrite <- C in *.
  rewrite (cross_entropy_spec ln net f v true exclude_unk Hv Hn _ _ S P). destruct rs as [|r rs]; [discriminate|].
  destruct (length (concat lss)); [discriminate|]. intros [= _ <-]. reflexivity.
Qed.
End Validation.
Print Assumptions C70_validation.
Print Assumptions C70_validations.
Print Assumptions C70_score_confirms.
Print Assumptions C70_score_predicts.
