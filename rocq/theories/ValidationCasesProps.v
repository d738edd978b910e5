(** C70: concrete validations. *)
From Coq Require Import QArith Qcanon Lia String.
From Verif Require Import Base ListLib BaseLib QcLib Dict Strings TextModel TextSpec TextProofs VocabModel VocabSpec VocabProofs VocabBuild VocabStats CorpusProofs VocabProps LatticeExamples
  ArchModel ArchSpec ArchProps ParamModel ParamSpec NetModel NetExamples DeviceModel DeviceSpec BuildModel BuildSpec BuildProps SavedModel SavedSpec SavedProps LinkModel LinkSpec LinkProps
  IterModel IterSpec IterProofs IterWitness IterProps ScoreModel ScoreSpec SubwordProofs MatrixProofs ScoreProofs ScoreText ScoreProps TrainerModel TrainDataModel TrainDataProps
  TrainCommandModel TrainCommandSpec TrainCommandProofs TrainCommandVocab TrainCommandRuns TrainCommandProps TrainCommandCasesProps
  ValidationModel ValidationSpec ValidationProofs ValidationProps ValidationCommandProps.
Local Open Scope nat_scope.
Local Open Scope list_scope.

(** An increasing function in place of the exponential function *)
Definition ex_lexp (x : lp) : lp := match x with Fin q => Fin (1 + q)%Qc | y => y end.

(** ** A train command whose numbers are rational *)
Definition ex_vargs : train_args :=
  mkArgs [TrainDataProps.text (map str ["a b"; "b"; "c a"; "b"; "c"; "a a"; "c b"; "a"]%string)] (Some [str "a"]) Words None [] [] 0 1 (Some 6) true 1 0 CEpochCount 2 0 0 1%Qc None 1.
Definition ex_vdata : pystr := TrainDataProps.text (map str ["a b d"; ""; "c"; "<unk> a a"]%string).
Definition ex_vlines : list string :=
  ["input type=class name=class_input"; "layer type=projection name=p input=class_input size=1";
   "layer type=tanh name=h input=p size=1"; "layer type=softmax name=output_layer input=h"]%string.
Definition ex_varch := ex_described ex_vlines.
Definition ex_vvocab : vocabulary := got (fst (@read_vocabulary ex_q nat ex_int ex_float ex_vargs no_file)) empty_vocab.
Notation ex_scorer := (scorer_net ex_qexp ex_squash ex_squash ex_squash ex_squash).
Definition ex_validated (n : network ex_q) : result lp :=
  validated ex_ln ex_lexp ex_vvocab true (ta_batch_size ex_vargs) (ta_sequence_length ex_vargs) 100 (ex_scorer n) ex_vdata.
Definition ex_perplexity (args : train_args) (n : network ex_q) : Qc := match ex_validated n with Ok (Fin q) => q | _ => 0%Qc end.
Definition ex_vupdate (n : network ex_q) : network ex_q := @map_network ex_q (fun x : Qc => Qcmult (Q2Qc (5 # 4)) x) n.
Definition ex_vcommands := @train_commands ex_q nat ex_int ex_float (fun _ => cyc_choice) (fun _ => id_shuffle) ex_qscale (fun _ => LinkProps.ex_value)
  (fun _ _ => 0) (fun _ _ => true) (fun _ _ n x _ _ => (ex_vupdate n, S x)) ex_perplexity (fun _ => Ok ex_varch).
Definition ex_vhistory := [(100, 200, ex_vargs)].
Definition ex_vfile := snd (ex_vcommands ex_vhistory no_file).
Definition ex_vmodel (exclude : bool) : result (model ex_q) :=
  SavedModel.from_file ex_int ex_qscale (fun _ _ _ _ _ => 0%Qc : num ex_q) None exclude (tf_model ex_vfile).
Definition ex_vloaded (exclude : bool) : result (network ex_q) := do m <- ex_vmodel exclude; Ok (m_network m).
(** The perplexity of a file: the options --shortlist and --exclude-unk of the score command *)
Definition ex_scored (shortlist exclude : bool) (data : pystr) : result Q :=
  do n <- ex_vloaded exclude;
  do '(_, _, h) <- score_text ex_ln (ex_scorer n) ex_vvocab shortlist exclude None false 1%Qc 16 100 data;
  match h with Some x => match ex_lexp x with Fin q => Ok (this q) | _ => Err ValueError end | None => Err ValueError end.

Definition shown_lp (x : result lp) : result Q := match x with Ok (Fin q) => Ok (this q) | Ok _ => Err ValueError | Err e => Err e end.
(** The command prints the perplexity that the score command reports with --shortlist. *)
Example C70_example_report :
  match fst (ex_vcommands ex_vhistory no_file) with [Finished (BestPerplexity p)] => this p | _ => 0%Q end = (485093114095 # 261320494184)%Q /\
  ex_scored true false ex_vdata = Ok (485093114095 # 261320494184)%Q /\
  shown_lp (do n <- ex_vloaded false; ex_validated n) = Ok (485093114095 # 261320494184)%Q.
Proof. vm_compute. auto. Qed.

(** The conditions of [C70_report] are met. *)
Lemma not_nan_computed ln f v us e unk words scores : reachable_vocab v -> word_to_id v UNK = Some unk ->
  forallb (fun x => match x with Some NaN => false | _ => true end) (pscores ln f v us e unk (map (code v unk) words)) = true ->
  sentence_scores ln f v us e words scores -> Forall not_nan scores.
Proof.
  intros Hv Hunk H (ids & Hi & S). rewrite (ids_of_codes _ _ _ _ Hunk Hi) in S.
  assert (E : scores = pscores ln f v us e unk (map (code v unk) words)).
  { eapply sequence_scores_unique; eauto. apply pscores_spec; [exact Hv|exact Hunk|]. intros x Hx. eapply codes_range; eauto. }
  rewrite E. apply Forall_forall. intros x Hx. rewrite forallb_forall in H. specialize (H x Hx). now intros ->.
Qed.
Lemma ex_vvocab_reachable : reachable_vocab ex_vvocab.
Proof.
  destruct (sentences_exist (ta_training_set ex_vargs)) as (us & Hs).
  destruct (read_new ex_int ex_float (A := ex_q) (accum := nat) ex_vargs us Hs) as [[_ (e & R)]|[_ (v & vs & R & _ & Rv & _)]].
  - exfalso. assert (X : match fst (@read_vocabulary ex_q nat ex_int ex_float ex_vargs no_file) with Ok _ => True | Err _ => False end) by (vm_compute; exact I).
    rewrite R in X. exact X.
  - unfold ex_vvocab. rewrite R. exact Rv.
Qed.
Definition ex_vlines_of : list (pystr * nat) := tagf 0 [ex_vdata].
Definition ex_vsequences : list (list (pystr * nat)) := flat_map (line_seqs None) ex_vlines_of.
Example C70_example_conditions : exists p n b,
  (exists us, sentences (ta_training_set ex_vargs) us) /\
  same_model (fun _ => Ok ex_varch) ex_varch None ex_vargs /\
  valid ex_varch /\ at_most 10 ex_varch /\ plain_names ex_varch /\ (forall n, other_values n (ex_vupdate n)) /\
  Forall (connected ex_varch) (a_layers ex_varch) /\ Forall (placed_well None) (a_layers ex_varch) /\ Forall unidirectional_type (a_layers ex_varch) /\
  tagged_lines 0 [ex_vdata] ex_vlines_of /\ lines_sequences None ex_vlines_of ex_vsequences /\ length ex_vsequences = 3 /\
  fits (ta_sequence_length ex_vargs) ex_vlines_of /\
  ex_vcommands ex_vhistory no_file = ([Finished (BestPerplexity p)], ex_vfile) /\
  vocabulary_in ex_vfile = Ok ex_vvocab /\
  ex_vmodel false = Ok (mkModel ex_vvocab b n) /\
  (forall m q, ex_validated m = Ok (Fin q) -> ex_perplexity ex_vargs m = q) /\
  (exists q, ex_validated n = Ok (Fin q)) /\
  (forall s scores, In s ex_vsequences ->
     sentence_scores ex_ln (network_alone _ _ _ _ _ n) ex_vvocab true true (map fst s) scores -> Forall not_nan scores).
Proof.
  destruct (ex_vcommands ex_vhistory no_file) as [os f] eqn:E.
  assert (X : exists p, os = [Finished (BestPerplexity p)]).
  { assert (Y : match fst (ex_vcommands ex_vhistory no_file) with [Finished (BestPerplexity p)] => True | _ => False end) by (vm_compute; exact I).
    rewrite E in Y. cbn [fst] in Y. destruct os as [|[ | | | [| |p]] [|]]; try contradiction Y. now exists p. }
  destruct X as (p & ->). exists p.
  destruct (ex_ok _ (ex_vmodel false)) as [[v b n] El]; [vm_compute; reflexivity|].
  exists n, b.
  split; [apply sentences_exist|]. split; [split; [reflexivity|intros x [= <-]; reflexivity]|].
  split; [apply ex_valid_ok; vm_compute; reflexivity|]. split; [apply ex_ten_ok; vm_compute; reflexivity|]. split; [apply ex_plain_ok; vm_compute; reflexivity|].
  split; [intros m; apply map_network_other|]. split; [ex_layers ex_connected|]. split; [ex_layers ex_placed|]. split; [ex_layers ex_only_forward|].
  split; [apply C03_lines_exist|]. split; [now apply C03_sequences_exist|]. split; [vm_compute; reflexivity|].
  split.
  { cbn [fits ta_sequence_length ex_vargs]. intros line file_id words Hi Hu. apply utterance_of_iff in Hu.
    assert (X : forallb (fun l => match utterance_from_line (fst l) with Ok ws => length ws <=? 6 | Err _ => false end) ex_vlines_of = true) by (vm_compute; reflexivity).
    rewrite forallb_forall in X. specialize (X _ Hi). cbn [fst] in X. rewrite Hu in X. now apply Nat.leb_le. }
  split; [unfold ex_vfile; now rewrite E|].
  assert (V : vocabulary_in ex_vfile = Ok ex_vvocab) by (vm_compute; reflexivity).
  split; [exact V|]. split.
  { assert (Y : match ex_vmodel false with Ok m => Some (m_vocabulary m) | Err _ => None end = Some ex_vvocab) by (vm_compute; reflexivity).
    rewrite El in Y. cbn [m_vocabulary] in Y. apply Some_inj in Y. rewrite <- Y. exact El. }
  split; [unfold ex_perplexity; intros m q ->; reflexivity|].
  assert (El' : ex_vloaded false = Ok n) by (unfold ex_vloaded; rewrite El; reflexivity).
  split.
  { assert (Y : match (do n <- ex_vloaded false; ex_validated n) with Ok (Fin _) => True | _ => False end) by (vm_compute; exact I).
    rewrite El' in Y. cbn [bind] in Y. destruct (ex_validated n) as [[q| |]|]; try contradiction Y. now exists q. }
  intros s scores Hi. assert (U : word_to_id ex_vvocab UNK = Some 3) by (vm_compute; reflexivity).
  apply (not_nan_computed _ _ _ _ _ 3); [apply ex_vvocab_reachable|exact U|].
  assert (Y : match ex_vloaded false with Ok n => forallb (fun s => forallb (fun x => match x with Some NaN => false | _ => true end)
    (pscores ex_ln (network_alone _ _ _ _ _ n) ex_vvocab true true 3 (map (code ex_vvocab 3) (map fst s)))) ex_vsequences | Err _ => false end = true) by (vm_compute; reflexivity).
  rewrite El' in Y. rewrite forallb_forall in Y. exact (Y s Hi).
Qed.

Lemma Ok_inj {X} (x y : X) : Ok x = Ok y -> x = y.
Proof. congruence. Qed.
Lemma ex_vloads : exists n, ex_vloaded false = Ok (with_exclude_unk false n) /\ ex_vloaded true = Ok (with_exclude_unk true n).
Proof.
  destruct C70_example_conditions as (p & m & b & (us & Hs) & Hm & V & AM & PN & U & _).
  assert (H : Forall2 (@reads) ex_vhistory [us]) by (constructor; [exact Hs|constructor]).
  assert (Hm' : Forall (fun c : nat * nat * train_args => same_model (fun _ => Ok ex_varch) ex_varch None (snd c)) ex_vhistory) by (constructor; [exact Hm|constructor]).
  destruct (C69_loaded (A := ex_q) (accum := nat) ex_int ex_float (fun _ => cyc_choice) (fun _ => id_shuffle) ex_qscale (fun _ => LinkProps.ex_value)
    (fun _ _ => 0) (fun _ _ => true) (fun _ _ n x _ _ => (ex_vupdate n, S x)) ex_perplexity (fun _ => Ok ex_varch) ex_varch None V AM PN (fun _ _ n _ _ _ => U n) ex_vhistory [us] H Hm')
    as [L|(v & n & _ & L)].
  - exfalso. destruct (L (fun _ _ _ _ _ => 0%Qc : num ex_q) false) as (e & E). change (ex_vmodel false = Err e) in E.
    assert (Y : (if ex_vmodel false then true else false) = true) by (vm_compute; reflexivity). rewrite E in Y. discriminate Y.
  - exists n. split.
    + destruct (L (fun _ _ _ _ _ => 0%Qc : num ex_q) false) as (b' & E & _). change (ex_vmodel false = Ok (mkModel v b' (with_exclude_unk false n))) in E. unfold ex_vloaded. now rewrite E.
    + destruct (L (fun _ _ _ _ _ => 0%Qc : num ex_q) true) as (b' & E & _). change (ex_vmodel true = Ok (mkModel v b' (with_exclude_unk true n))) in E. unfold ex_vloaded. now rewrite E.
Qed.

(** ** What is not true *)

(** The expectation that the score command confirms the perplexity when both commands have
    been given the option --exclude-unk is false. The network that is trained and validated
    can predict <unk>; the one that the score command loads cannot. The out-of-shortlist
    words, which have a share of the probability of <unk>, have probability zero, and the
    score command leaves them out. *)
Theorem C70_exclude_unk_refuted : exists p n n' q q',
  fst (ex_vcommands ex_vhistory no_file) = [Finished (BestPerplexity p)] /\
  ex_vloaded false = Ok n /\ ex_vloaded true = Ok n' /\ n' = with_exclude_unk true n /\
  ex_validated n = Ok (Fin p) /\
  ex_scored true false ex_vdata = Ok q /\ ex_scored true true ex_vdata = Ok q' /\ q = this p /\ ~ (q == q')%Q.
Proof.
  assert (X : exists p, fst (ex_vcommands ex_vhistory no_file) = [Finished (BestPerplexity p)] /\ this p = (485093114095 # 261320494184)%Q).
  { assert (Y : match fst (ex_vcommands ex_vhistory no_file) with [Finished (BestPerplexity p)] => this p = (485093114095 # 261320494184)%Q | _ => False end) by (vm_compute; reflexivity).
    destruct (fst (ex_vcommands ex_vhistory no_file)) as [|[ | | | [| |p]] [|]]; try contradiction Y. now exists p. }
  destruct X as (p & Ep & Hp).
  destruct (ex_ok _ (ex_vloaded false)) as [n En]; [vm_compute; reflexivity|]. destruct (ex_ok _ (ex_vloaded true)) as [n' En']; [vm_compute; reflexivity|].
  exists p, n, n', (485093114095 # 261320494184)%Q, (23314833530 # 14233040743)%Q.
  split; [exact Ep|]. split; [exact En|]. split; [exact En'|]. split.
  { destruct ex_vloads as (n0 & E1 & E2). rewrite E1 in En. rewrite E2 in En'. apply Ok_inj in En, En'. subst n n'. reflexivity. }
  split.
  { assert (Y : shown_lp (do n <- ex_vloaded false; ex_validated n) = Ok (485093114095 # 261320494184)%Q) by (vm_compute; reflexivity).
    rewrite En in Y. cbn [bind] in Y. destruct (ex_validated n) as [[q| |]|]; try discriminate Y. cbn [shown_lp] in Y. f_equal. f_equal. apply Qc_is_canon. rewrite Hp. apply Ok_inj in Y. now rewrite Y. }
  split; [vm_compute; reflexivity|]. split; [vm_compute; reflexivity|]. split; [now rewrite Hp|]. vm_compute. discriminate.
Qed.
Print Assumptions C70_exclude_unk_refuted.

(** Neither is the perplexity that of the score command without the option --shortlist. *)
Theorem C70_shortlist_refuted : exists p q,
  fst (ex_vcommands ex_vhistory no_file) = [Finished (BestPerplexity p)] /\
  ex_scored false false ex_vdata = Ok q /\ ~ (this p == q)%Q.
Proof.
  destruct C70_exclude_unk_refuted as (p & n & n' & q & q' & Ep & _ & _ & _ & _ & Eq & _ & E & _). exists p, (57469033884 # 32665061773)%Q.
  split; [exact Ep|]. split; [vm_compute; reflexivity|].
  assert (Y : ex_scored true false ex_vdata = Ok (485093114095 # 261320494184)%Q) by (vm_compute; reflexivity).
  rewrite Eq in Y. apply Ok_inj in Y. rewrite <- E, Y. vm_compute. discriminate.
Qed.
Print Assumptions C70_shortlist_refuted.

(** The expectation that the perplexity does not depend on the maximum sequence length of
    the train command is false: the first words of the pieces of a sentence that has been
    cut are not predicted, and pieces of one word are left out. *)
Definition ex_cut (max_len : option nat) : result Q :=
  do n <- ex_vloaded false; shown_lp (validated ex_ln ex_lexp ex_vvocab false 1 max_len 100 (ex_scorer n) ex_vdata).
Theorem C70_cut_refuted : exists p q, ex_cut (Some 4) = Ok p /\ ex_cut (Some 5) = Ok q /\ ex_cut None = Ok q /\
  ex_scored true false ex_vdata = Ok q /\ ~ (p == q)%Q.
Proof.
  exists (365272233827 # 195990370638)%Q, (485093114095 # 261320494184)%Q. repeat (split; [vm_compute; reflexivity|]). vm_compute. discriminate.
Qed.
Print Assumptions C70_cut_refuted.

(** A word of probability zero makes the validation fail. The score command leaves it out. *)
Definition zero_prob (w k : nat) : Qc := if k =? 0 then 0%Qc else ex_prob w k.
Definition zero_net (words classes mask targets : list (list nat)) : list (list Qc) := mzip zero_prob words targets.
Definition zero_f (inputs : list (nat * nat)) (t target : nat) : Qc := zero_prob (fst (nth t inputs (0, 0))) target.
Definition zero_scored := score_text ex_ln zero_net ex_vvocab true false None false 1%Qc 16 100 ex_vdata.
Theorem C70_zero_probability_refuted : batch_independent ex_vvocab zero_net zero_f /\
  validated ex_ln ex_lexp ex_vvocab false 1 None 100 zero_net ex_vdata = Err NumberError /\
  exists stats h, score_text ex_ln zero_net ex_vvocab true false None false 1%Qc 16 100 ex_vdata = Ok (stats, [], Some h) /\ t_zeroprobs stats = 3.
Proof.
  split.
  { intros rows cols words classes mask targets Hw _ _ Ht _ _. split; [now apply is_matrix_mzip|].
    intros j inputs t target Hl Hm Hi Hlt Hc. unfold zero_net. rewrite cell_mzip, Hc.
    destruct (nth_error inputs t) as [[w c]|] eqn:E; [|apply nth_error_None in E; lia].
    destruct (Hi t w c E) as [-> _]. unfold zero_f. erewrite nth_error_nth by exact E. reflexivity. }
  split; [vm_compute; reflexivity|].
  assert (Y : match zero_scored with Ok (stats, [], Some _) => t_zeroprobs stats = 3 | _ => False end) by (vm_compute; reflexivity).
  fold zero_scored. destruct zero_scored as [[[stats [|]] [h|]]|]; try contradiction Y. now exists stats, h.
Qed.
Print Assumptions C70_zero_probability_refuted.
