(** C74: one model file, three commands. Whatever has happened to the train commands that
    wrote the file, the networks that the commands load from it score, decode and generate
    with the same probabilities. *)
From Coq Require Import QArith Qcanon Lia.
From Verif Require Import Base ListLib BaseLib QcLib Dict Strings TextModel TextSpec VocabModel VocabSpec VocabProps
  ArchModel ArchSpec ArchProps ParamModel ParamSpec ParamProofs NetModel NetSpec DeviceModel DeviceSpec BuildModel BuildSpec SavedModel SavedSpec SavedArrays SavedBuild SavedNetwork SavedProofs SavedProps
  StateModel LinkModel LinkSpec LinkProps IterModel IterSpec ScoreModel ScoreSpec ScoreProofs ScoreText ScoreProps LatticeModel LatticeSpec DecoderModel DecoderSpec AgreeSpec SamplerModel SamplerSpec SamplerProofs
  TrainerModel TrainDataModel TrainCommandModel TrainCommandSpec TrainCommandProps RealiseProofs ValidationCommandProps
  CrashModel CrashSpec CrashArrays CrashRuns CrashProps SampleScoreSpec SampleScoreProofs SampleScoreProps ModelFileProofs.
Local Open Scope nat_scope.

Section Loaded.
Context {A : arith} {accum : Type}.
Notation num := (num A).
Notation train_file := (train_file A accum).
Variable parse_int : pystr -> result Z.
Variable parse_float : pystr -> result Qc.
Variable choice : train_args -> nat -> nat -> list nat -> nat -> bool -> list nat.
Variable shuffle10 : train_args -> nat -> list nat -> list nat.
Variable dropout_scale : option ArchModel.value -> result num.
Variable initial : train_args -> pystr -> pystr -> nat -> nat -> nat -> num.
Variable new_optimizer : train_args -> model A -> accum.
Variable accepts : train_args -> accum -> bool.
Variable update : train_args -> list Qc -> network A -> accum -> Qc -> list sequence -> network A * accum.
Variable perplexity : train_args -> network A -> Qc.
Variable arch : train_args -> result architecture.
Notation build := (build parse_int dropout_scale).
Notation from_file := (SavedModel.from_file parse_int dropout_scale).
Variable a : architecture.
Variable d : option pystr.
Hypothesis V : valid a.
Hypothesis AM : at_most 10 a.
Hypothesis PN : plain_names a.
Hypothesis update_values : forall args ws n x lr b, other_values n (fst (update args ws n x lr b)).
Notation history := (@history A accum parse_int parse_float choice shuffle10 dropout_scale initial new_optimizer accepts update perplexity arch a d).

(** If a command can load a network from the file, it is one that the architecture
    description gives, with some parameter values. Every other command can load it too, and
    gets the same network, whatever the random initial values are that it starts with. *)
Theorem C74_loaded i f init exclude m : history i f -> from_file init d exclude (tf_model f) = Ok m ->
  let v := m_vocabulary m in
  vocabulary_in f = Ok v /\ reachable_vocab v /\
  (exists values, build values d exclude a v = Ok (m_network m)) /\
  forall init' exclude', exists b, from_file init' d exclude' (tf_model f) = Ok (mkModel v b (with_exclude_unk exclude' (m_network m))).
Proof using V AM PN update_values.
  intros H E v.
  destruct (history_kept parse_int parse_float choice shuffle10 dropout_scale initial new_optimizer accepts update perplexity arch a d V PN update_values i f H) as [->|(w & Hv & Rv & Hp & _)].
  { discriminate E. }
  destruct (part_loads parse_int dropout_scale a d V AM PN w f Hv Hp) as [L|(n & M & L)].
  { destruct (L init exclude) as (e & E'). rewrite E in E'. discriminate. }
  destruct (L init exclude) as (b & E' & _). rewrite E in E'. injection E' as ->. cbn [m_vocabulary m_network] in *. subst v.
  split; [apply Hv|]. split; [exact Rv|]. split.
  - destruct M as (i0 & n0 & B & O).
    assert (R1 : Forall2 input_agrees (a_inputs a) (a_inputs a)) by (apply F2_refl; intros o x _; reflexivity).
    assert (R2 : Forall2 same_options (a_layers a) (a_layers a)) by (apply F2_refl; intros o x; reflexivity).
    pose proof (build_again parse_int dropout_scale i0 init d false exclude a a w R1 R2 eq_refl) as S. rewrite B in S.
    destruct (build init d exclude a w) as [n2|] eqn:B2; [|contradiction S]. cbn [sim] in S. pose proof (other_exclude _ _ _ _ _ S O) as O2.
    exact (C70_any_values A parse_int dropout_scale init d exclude a w n2 _ PN B2 O2).
  - intros init' exclude'. destruct (L init' exclude') as (b' & E' & _). exists b'. rewrite E'. reflexivity.
Qed.

(** After any commands, every attempt to load a network fails, or every attempt loads the
    same network. *)
Theorem C74_always_or_never i f : history i f ->
  (forall init exclude, exists e, from_file init d exclude (tf_model f) = Err e) \/
  exists v n, forall init exclude, exists b, from_file init d exclude (tf_model f) = Ok (mkModel v b (with_exclude_unk exclude n)).
Proof using V AM PN update_values.
  intros H.
  destruct (history_kept parse_int parse_float choice shuffle10 dropout_scale initial new_optimizer accepts update perplexity arch a d V PN update_values i f H) as [->|(w & Hv & Rv & Hp & _)].
  { left. intros init exclude. eexists. reflexivity. }
  destruct (part_loads parse_int dropout_scale a d V AM PN w f Hv Hp) as [L|(n & M & L)]; [now left|right].
  exists w, n. intros init exclude. destruct (L init exclude) as (b & E & _). eauto.
Qed.
End Loaded.
Print Assumptions C74_loaded.
Print Assumptions C74_always_or_never.

Section Commands.
Variables qexp qsigmoid qtanh qrelu qleaky_relu : Qc -> Qc.
Notation A := (rationals qexp qsigmoid qtanh qrelu qleaky_relu).
Notation scorer_net := (scorer_net qexp qsigmoid qtanh qrelu qleaky_relu).
Notation network_alone := (network_alone qexp qsigmoid qtanh qrelu qleaky_relu).
Notation recurrent := (recurrent qexp qsigmoid qtanh qrelu qleaky_relu).
Notation decoder_net := (decoder_net qexp qsigmoid qtanh qrelu qleaky_relu).
Notation starting_state := (starting_state qexp qsigmoid qtanh qrelu qleaky_relu).
Notation draws_of := (draws_of qexp qsigmoid qtanh qrelu qleaky_relu).
Notation num := (num A).
Context {accum : Type}.
Notation train_file := (train_file A accum).
Variable parse_int : pystr -> result Z.
Variable parse_float : pystr -> result Qc.
Variable choice : train_args -> nat -> nat -> list nat -> nat -> bool -> list nat.
Variable shuffle10 : train_args -> nat -> list nat -> list nat.
Variable dropout_scale : option ArchModel.value -> result num.
Variable initial : train_args -> pystr -> pystr -> nat -> nat -> nat -> num.
Variable new_optimizer : train_args -> model A -> accum.
Variable accepts : train_args -> accum -> bool.
Variable update : train_args -> list Qc -> network A -> accum -> Qc -> list sequence -> network A * accum.
Variable perplexity : train_args -> network A -> Qc.
Variable arch : train_args -> result architecture.
Notation build := (build parse_int dropout_scale).
Notation from_file := (SavedModel.from_file parse_int dropout_scale).
Variable a : architecture.
Variable d : option pystr.
Hypothesis V : valid a.
Hypothesis AM : at_most 10 a.
Hypothesis PN : plain_names a.
Hypothesis update_values : forall args ws n x lr b, other_values n (fst (update args ws n x lr b)).
Notation history := (@history A accum parse_int parse_float choice shuffle10 dropout_scale initial new_optimizer accepts update perplexity arch a d).
Hypothesis CN : Forall (connected a) (a_layers a).
Hypothesis PW : Forall (placed_well d) (a_layers a).

(** The score command on a text, with whatever options: the log probabilities are those that
    the loaded network gives to the sentences one at a time. *)
Theorem C74_scored_text i f init exclude m : history i f -> from_file init d exclude (tf_model f) = Ok m ->
  Forall unidirectional_type (a_layers a) ->
  forall ln use_shortlist mark log_scale data ls ss,
  mark <> Some OtherMarking -> tagged_lines 0 [data] ls -> lines_sequences None ls ss ->
  exists rs, Forall2 (sequence_result ln (network_alone (m_network m)) (m_vocabulary m) use_shortlist exclude mark) (map (map fst) ss) rs /\
  forall batch_size, 1 <= batch_size -> exists fuel0, forall fuel, fuel0 <= fuel ->
    score_text ln (scorer_net (m_network m)) (m_vocabulary m) use_shortlist exclude mark false log_scale batch_size fuel data = text_result rs [].
Proof using V AM PN update_values CN PW.
  intros H E U ln us mark ls data l ss M T S.
  destruct (C74_loaded parse_int parse_float choice shuffle10 dropout_scale initial new_optimizer accepts update perplexity arch a d V AM PN update_values i f init exclude m H E) as (_ & Rv & (values & B) & _).
  exact (C62_scored_text _ _ _ _ _ parse_int dropout_scale values d exclude a _ _ B CN PW Rv U ln us exclude mark ls data l ss M T S).
Qed.

Section Decoded.
Variables (v : vocabulary) (n : network A) (values : pystr -> pystr -> nat -> nat -> nat -> num).
Hypothesis Hv : reachable_vocab v.
Hypothesis B : build values d false a v = Ok n.
Hypothesis SW : Forall stepwise_type (a_layers a).
Lemma history_both f0 ln lin o lattice p st t words : o_use_shortlist o = false ->
  hypothesis_at (recurrent n) st f0 ln lin v o lattice None p t -> history_words (recurrent n) v t = Ok words ->
  Forall (fun w => exists id, word_to_id v w = Some id /\ id < num_shortlist_words v) words ->
  Forall (scored_by_both v (o_use_shortlist o) false) (path_words v o p).
Proof using Hv.
  intros Eo [_ [(sos & eos & _ & _ & Eh & _) _ _ _ _]] Ew F. apply Forall_forall. intros [w oov] Hi.
  assert (Hh : In w (tk_history _ t)) by (rewrite Eh; right; rewrite map_app; apply in_or_app; left; exact (in_map fst _ _ Hi)).
  unfold history_words in Ew. rewrite Eo.
  assert (G : exists s, (match w with inl i => py_index (v_id_to_word v) i | inr s => Ok s end) = Ok s /\ In s words).
  { clear - Ew Hh. revert words Ew. induction (tk_history _ t) as [|x l IH]; [destruct Hh|]. intros words Ew. cbn [mapM] in Ew.
    destruct (match x with inl i => py_index (v_id_to_word v) i | inr s => Ok s end) as [s|] eqn:Ex; cbn [bind] in Ew; [|discriminate].
    match type of Ew with (do bs <- ?r; _) = _ => destruct r as [ws|] eqn:El end; cbn [bind] in Ew; [|discriminate]. injection Ew as <-. destruct Hh as [->|Hh].
    - exists s. split; [exact Ex|now left].
    - destruct (IH Hh ws eq_refl) as (s' & H1 & H2). exists s'. split; [exact H1|now right]. }
  destruct G as (s & Es & Is). rewrite Forall_forall in F. destruct (F s Is) as (id & Hid & Lid).
  assert (NS : ~ shares v false) by (unfold shares; intros [X _]; discriminate X).
  split; cbn [fst snd].
  - intros x _ [[X _]|[_ [X _]]]; [exact (NS X)|discriminate X].
  - destruct w as [j|s'].
    + left. unfold py_index in Es. destruct (nth_error (v_id_to_word v) j) as [s1|] eqn:Ej; [|discriminate]. injection Es as ->.
      apply (proj2 (C09_inverse_maps v Hv)) in Ej. rewrite Ej in Hid. injection Hid as ->. exact Lid.
    + injection Es as ->. exfalso. unfold path_words in Hi. apply in_concat in Hi as (l & Hl & Hi). apply in_map_iff in Hl as (k & <- & _).
      unfold link_words in Hi. destruct (k_word k) as [w|]; [|destruct Hi]. destruct Hi as [Hi|[]]. destruct (word_to_id v w) eqn:Ek; [discriminate Hi|]. injection Hi as -> _. congruence.
Qed.
End Decoded.

(** The three commands, each of which has loaded the file, on a sentence of shortlist words:
    the probability with which the sample command generates it, the score that the score
    command gives to it, and the score that lattice decoding gives to a hypothesis with its
    words. *)
Section Agree.
Variable ln : Qc -> Qc.
Hypothesis ln_product : forall x y, (0 < x)%Qc -> (0 < y)%Qc -> ln (x * y)%Qc = (ln x + ln y)%Qc.

Theorem C74_commands_agree i f init_score init_decode init_sample m_score m_decode m_sample : history i f ->
  from_file init_score d false (tf_model f) = Ok m_score ->
  from_file init_decode d false (tf_model f) = Ok m_decode ->
  from_file init_sample d false (tf_model f) = Ok m_sample ->
  Forall stepwise_type (a_layers a) ->
  forall line words ids length_, utterance_of line (SOS :: words) -> printable length_ words ->
  Forall2 (fun w id => word_to_id (m_vocabulary m_score) w = Some id /\ id < num_shortlist_words (m_vocabulary m_score)) (SOS :: words) ids ->
  exists xs, draws_of (m_network m_sample) (m_vocabulary m_sample) 1 ids xs /\ length xs = length words /\ NoDup (map dr_time xs) /\
    (forall draw_class draw_word num_sequences j, chooses draw_class -> chooses draw_word -> j < num_sequences ->
     exists sequences sequence,
       generate (step_network (m_network m_sample)) (initial_state (m_network m_sample) num_sequences) draw_class draw_word (m_vocabulary m_sample) length_ num_sequences [] = Ok sequences /\
       nth_error sequences j = Some sequence /\
       (up_to_eos sequence (SOS :: words) <-> Forall (comes_out draw_class draw_word j) xs)) /\
    (Forall possible xs ->
     (forall counters, exists counters',
        score_line ln (scorer_net (m_network m_score)) (m_vocabulary m_score) false false counters line =
        if Qclt_le_dec 0%Qc (ln (chance xs)) then Err NumberError else Ok (Some (ln (chance xs)), counters')) /\
     (forall st lin hash o lattice hypotheses dropped t sos eos prob,
        starting_state (m_network m_decode) st -> o_use_shortlist o = false -> lattice_ok lattice ->
        decode (recurrent (m_network m_decode)) st (decoder_net (m_network m_decode)) ln lin hash (m_vocabulary m_decode) o lattice = Ok (hypotheses, dropped) ->
        In t hypotheses -> history_words (recurrent (m_network m_decode)) (m_vocabulary m_decode) t = Ok (SOS :: words) ->
        word_to_id (m_vocabulary m_decode) SOS = Some sos -> word_to_id (m_vocabulary m_decode) EOS = Some eos ->
        get_word_prob (m_vocabulary m_decode) sos = Ok prob -> get_word_prob (m_vocabulary m_decode) eos = Ok prob -> (0 < prob)%Qc ->
        tk_nn _ t = ln (chance xs))).
Proof using V AM PN update_values CN PW ln_product.
  intros H E1 E2 E3 SW line words ids length_ U Pr F.
  destruct (C74_loaded parse_int parse_float choice shuffle10 dropout_scale initial new_optimizer accepts update perplexity arch a d V AM PN update_values i f init_score false m_score H E1) as (_ & Rv & (values & B) & L).
  assert (X : forall init m, from_file init d false (tf_model f) = Ok m -> m_vocabulary m = m_vocabulary m_score /\ m_network m = m_network m_score).
  { intros init m Em. destruct (L init false) as (b & Eb). rewrite Em in Eb. injection Eb as ->. split; [reflexivity|]. cbn [m_network].
    destruct (L init_score false) as (b' & Eb'). rewrite E1 in Eb'. injection Eb' as Eb'. rewrite Eb' at 2. reflexivity. }
  destruct (X _ _ E2) as [V2 N2]. destruct (X _ _ E3) as [V3 N3]. rewrite V2, V3. clear X L E1 E2 E3 V2 V3. 
  destruct m_score as [v b1 n]. destruct m_decode as [v2 b2 n2]. destruct m_sample as [v3 b3 n3]. cbn [m_vocabulary m_network] in *. subst n2 n3. clear v2 b2 v3 b3 b1.
  assert (T0 : tokens [] []) by (constructor; intros ? []).
  destruct (C73_generated _ _ _ _ _ _ _ _ _ _ _ _ _ B CN PW Rv SW length_ [] [] words ids T0 (fun x => x) Pr F) as (xs & D & ND & Lx & G). cbn [app length] in D, G.
  exists xs. split; [exact D|]. split; [exact Lx|]. split; [exact ND|]. split; [exact G|]. intros Hp. split.
  { intros counters. exact (C73_line _ _ _ _ _ _ _ _ ln ln_product _ _ _ _ _ B CN PW Rv SW line words ids xs counters U F D Hp). }
  intros st lin hash o lattice hyps dropped t sos eos prob St Eo Lo De Ht Eh Hs He Ps Pe P0.
  destruct (C62_decoded_total _ _ _ _ _ _ _ _ _ _ _ _ _ B CN PW Rv SW st ln lin hash o false lattice hyps dropped t St Lo De Ht sos eos prob Hs He Ps Pe P0) as (p & Hy & Tot).
  assert (Fw : Forall (fun w => exists id, word_to_id v w = Some id /\ id < num_shortlist_words v) (SOS :: words)).
  { clear - F. induction F as [|w id l l' K _ IH]; constructor; eauto. }
  specialize (Tot (history_both v n Rv _ ln lin o lattice p st t _ Eo Hy Eh Fw)).
  assert (Fi : Forall (fun id => id < num_shortlist_words v) ids) by (clear - F; induction F as [|w id l l' [_ K] _ IH]; constructor; auto).
  destruct (C09_special_tokens_present v UNK Rv ltac:(right; right; now left)) as (unk & Hu & _).
  destruct (contributions_included ln (network_alone n) v false false Rv unk ids Hu) as (scores & S1 & _).
  { intros x Hx. destruct (SamplerProofs.Forall2_nth _ _ _ F) as [LF NF]. apply In_nth_error in Hx as [k Hk].
    destruct (nth_error (SOS :: words) k) as [w|] eqn:Ew; [|apply nth_error_None in Ew; assert (k < length ids) by (apply nth_error_Some; congruence); lia].
    destruct (NF k w x Ew Hk) as [K _]. apply (proj2 (C09_inverse_maps v Rv)) in K. apply nth_error_Some. congruence. }
  assert (Is : ids_of v (SOS :: words) ids).
  { exists unk. split; [exact Hu|]. clear - F. induction F as [|w id l l' [K _] _ IH]; constructor; auto. }
  rewrite Eo in Tot. specialize (Tot _ _ _ Eh Is S1).
  pose proof (C73_total _ _ _ _ _ _ _ _ ln ln_product _ _ _ _ _ B CN PW Rv SW 0 ids xs scores Fi D Hp S1) as T2. cbn [skipn] in T2.
  rewrite Tot in T2. injection T2 as T2. exact T2.
Qed.
End Agree.
End Commands.
Print Assumptions C74_scored_text.
Print Assumptions C74_commands_agree.
