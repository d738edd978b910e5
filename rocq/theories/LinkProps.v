(** Text scoring and lattice decoding with the networks of architecture descriptions. *)
From Coq Require Import ZArith QArith Qcanon Bool.
From Verif Require Import Base BaseLib ListLib QcLib Strings VocabModel VocabSpec VocabBuild VocabProps LatticeExamples ArchModel ArchSpec NetModel NetSpec
  DeviceModel DeviceSpec BuildModel BuildSpec BuildProps StateModel LinkModel LinkSpec LinkProofs
  IterSpec ScoreModel ScoreSpec ScoreProps LatticeModel LatticeSpec DecoderModel DecoderSpec DecoderExamples AgreeSpec AgreeProps.
Local Open Scope nat_scope.
Local Open Scope list_scope.

Section Props.
Variables qexp qsigmoid qtanh qrelu qleaky_relu : Qc -> Qc.
Notation A := (rationals qexp qsigmoid qtanh qrelu qleaky_relu).
Notation scorer_probs := (scorer_probs qexp qsigmoid qtanh qrelu qleaky_relu).
Notation scorer_net := (scorer_net qexp qsigmoid qtanh qrelu qleaky_relu).
Notation network_alone := (network_alone qexp qsigmoid qtanh qrelu qleaky_relu).
Notation recurrent := (recurrent qexp qsigmoid qtanh qrelu qleaky_relu).
Notation decoder_results := (decoder_results qexp qsigmoid qtanh qrelu qleaky_relu).
Notation decoder_net := (decoder_net qexp qsigmoid qtanh qrelu qleaky_relu).
Notation decoder_alone := (decoder_alone qexp qsigmoid qtanh qrelu qleaky_relu).
Notation starting_state := (starting_state qexp qsigmoid qtanh qrelu qleaky_relu).
Variable parse_int : pystr -> result Z.
Variable dropout_scale : option ArchModel.value -> result (num A).
Variable value : pystr -> pystr -> nat -> nat -> nat -> num A.
Notation build := (build parse_int dropout_scale value).

(** A network without bidirectional layers processes the sequences of a mini-batch
    independently: what text scoring takes for granted. *)
Theorem C62_scoring_network default exclude_unk a v n : build default exclude_unk a v = Ok n ->
  Forall (connected a) (a_layers a) -> Forall (placed_well default) (a_layers a) -> reachable_vocab v ->
  Forall unidirectional_type (a_layers a) ->
  batch_independent v (scorer_net n) (network_alone n).
Proof. intros B CN PW Hv U. exact (scorer_independent _ _ _ _ _ _ _ _ _ _ _ _ _ B CN PW Hv U). Qed.

(** The probabilities are computed; this needs no restriction on the layers. *)
Theorem C62_scoring_computes default exclude_unk a v n : build default exclude_unk a v = Ok n ->
  Forall (connected a) (a_layers a) -> Forall (placed_well default) (a_layers a) -> reachable_vocab v ->
  forall rows cols words classes mask targets, rows <> 0 ->
  is_matrix rows cols words -> is_matrix rows cols classes -> is_matrix rows cols mask -> is_matrix rows cols targets ->
  (forall i j w, cell words i j = Some w -> exists c, cell classes i j = Some c /\ nth_error (v_w2c v) w = Some c) ->
  (forall i j c, cell targets i j = Some c -> exists w, nth_error (v_w2c v) w = Some c) ->
  exists q, scorer_probs n words classes mask targets = Ok q /\ is_matrix rows cols q.
Proof. intros B CN PW Hv. exact (scorer_computes _ _ _ _ _ _ _ _ _ _ _ _ _ B CN PW Hv). Qed.

(** A network that can be stepped through processes the hypotheses of a node
    independently: what the decoder takes for granted. The step succeeds, and the new
    states are valid. *)
Theorem C62_decoding_network default exclude_unk a v n : build default exclude_unk a v = Ok n ->
  Forall (connected a) (a_layers a) -> Forall (placed_well default) (a_layers a) -> reachable_vocab v ->
  Forall stepwise_type (a_layers a) ->
  step_independent v (decoder_net n) (decoder_alone n) /\
  forall l, l <> [] ->
    (forall w c target st, In (w, c, target, st) l ->
       nth_error (v_w2c v) w = Some c /\ exists x, nth_error (v_w2c v) x = Some target) ->
    exists r, decoder_results n l = Ok r /\ length r = length l.
Proof.
  intros B CN PW Hv SW. split; [exact (decoder_independent _ _ _ _ _ _ _ _ _ _ _ _ _ B CN PW Hv SW)|].
  intros l NE H. eexists. split; [|apply map_length]. refine (decoder_results_alone _ _ _ _ _ _ _ _ _ _ _ _ _ B CN PW l SW NE _).
  apply Forall_forall. intros [[[w c] target] st] Hx. destruct (H w c target st Hx) as [H1 (y & H2)].
  destruct (class_range _ _ _ Hv H1), (class_range _ _ _ Hv H2). cbn. auto.
Qed.

(** Both use the same network. *)
Theorem C62_same_network default exclude_unk a v n : build default exclude_unk a v = Ok n ->
  Forall (connected a) (a_layers a) -> Forall (placed_well default) (a_layers a) -> reachable_vocab v ->
  Forall stepwise_type (a_layers a) ->
  (exists st, starting_state n st) /\
  forall st, starting_state n st -> same_network v st (decoder_alone n) (network_alone n).
Proof.
  intros B CN PW Hv SW. split; [exact (starting_exists _ _ _ _ _ n)|].
  intros st. exact (both_same _ _ _ _ _ _ _ _ _ _ _ _ _ B CN PW Hv st SW).
Qed.

Lemma stepwise_unidirectional o : stepwise_type o -> unidirectional_type o.
Proof. unfold stepwise_type, unidirectional_type. tauto. Qed.

(** The perplexity of a text with such a network *)
Theorem C62_scored_text default exclude_unk a v n : build default exclude_unk a v = Ok n ->
  Forall (connected a) (a_layers a) -> Forall (placed_well default) (a_layers a) -> reachable_vocab v ->
  Forall unidirectional_type (a_layers a) ->
  forall ln use_shortlist exclude mark log_scale data ls ss,
  mark <> Some OtherMarking -> tagged_lines 0 [data] ls -> lines_sequences None ls ss ->
  exists rs, Forall2 (sequence_result ln (network_alone n) v use_shortlist exclude mark) (map (map fst) ss) rs /\
  forall batch_size, 1 <= batch_size -> exists fuel0, forall fuel, fuel0 <= fuel ->
    score_text ln (scorer_net n) v use_shortlist exclude mark false log_scale batch_size fuel data = text_result rs [].
Proof.
  intros B CN PW Hv U ln us eu mark ls data l ss M T S.
  exact (C17_score_text ln _ _ v us eu mark ls data l ss Hv (C62_scoring_network _ _ _ _ _ B CN PW Hv U) M T S).
Qed.

(** The score of a hypothesis in the lattice decoder is that of its words in text
    scoring. *)
Theorem C62_decoded_total default exclude_unk a v n : build default exclude_unk a v = Ok n ->
  Forall (connected a) (a_layers a) -> Forall (placed_well default) (a_layers a) -> reachable_vocab v ->
  Forall stepwise_type (a_layers a) ->
  forall st ln lin hash o exclude lattice tokens dropped t, starting_state n st -> lattice_ok lattice ->
  decode (recurrent n) st (decoder_net n) ln lin hash v o lattice = Ok (tokens, dropped) -> In t tokens ->
  forall sos eos prob, word_to_id v SOS = Some sos -> word_to_id v EOS = Some eos ->
  get_word_prob v sos = Ok prob -> get_word_prob v eos = Ok prob -> (0 < prob)%Qc ->
  exists p, hypothesis_at (recurrent n) st (decoder_alone n) ln lin v o lattice None p t /\
    (Forall (scored_by_both v (o_use_shortlist o) exclude) (path_words v o p) ->
     forall words ids scores,
       history_words (recurrent n) v t = Ok words -> ids_of v words ids ->
       sequence_scores ln (network_alone n) v (o_use_shortlist o) exclude ids scores ->
       total_score scores = Some (Fin (tk_nn _ t))).
Proof.
  intros B CN PW Hv SW st ln lin hash o exclude lattice tokens dropped t S LO D Ht.
  exact (C31_same_total _ st _ _ (network_alone n) ln lin hash v o exclude lattice tokens dropped t Hv
    (proj1 (C62_decoding_network _ _ _ _ _ B CN PW Hv SW)) LO (proj2 (C62_same_network _ _ _ _ _ B CN PW Hv SW) st S) D Ht).
Qed.
End Props.
Print Assumptions C62_scoring_network.
Print Assumptions C62_scoring_computes.
Print Assumptions C62_decoding_network.
Print Assumptions C62_same_network.
Print Assumptions C62_scored_text.
Print Assumptions C62_decoded_total.

(** ** Examples *)
From Coq Require Import String.
Local Open Scope list_scope.
Definition ex_value (layer name : pystr) (i r c : nat) : Qc := Q2Qc (1 # Pos.of_nat (S (i + r + c))).
Definition ex_qexp (x : Qc) : Qc := if Qclt_le_dec x 0 then (1 / (1 - x))%Qc else (1 + x)%Qc.
Definition ex_squash (x : Qc) : Qc := if Qclt_le_dec x 1 then Q2Qc (1 # 3) else Q2Qc (1 # 2).
Definition ex_q := rationals ex_qexp ex_squash ex_squash ex_squash ex_squash.
Definition ex_qscale (rate : option ArchModel.value) : result (num ex_q) := Ok 1%Qc.
Definition ex_qlines : list string :=
  ["input type=class name=class_input"; "layer type=projection name=p input=class_input size=1";
   "layer type=gru name=h input=p size=1"; "layer type=lstm name=g input=h input=p size=1"; "layer type=softmax name=output_layer input=h input=g"]%string.
Definition ex_qbuild : result (network ex_q) := build ex_parse_int ex_qscale ex_value None false (ex_described ex_qlines) ex_words.
Example C62_example : exists n, ex_qbuild = Ok n /\
  Forall (connected (ex_described ex_qlines)) (a_layers (ex_described ex_qlines)) /\ Forall (placed_well None) (a_layers (ex_described ex_qlines)) /\
  Forall stepwise_type (a_layers (ex_described ex_qlines)) /\ reachable_vocab ex_words /\ List.length (a_layers (ex_described ex_qlines)) = 4.
Proof.
  destruct (ex_ok _ ex_qbuild) as [n B]; [vm_compute; reflexivity|]. exists n. split; [exact B|].
  split; [ex_layers ex_connected|]. split; [ex_layers ex_placed|]. split; [ex_layers ex_only_forward|]. split; [|reflexivity].
  apply (rv_file ex_int ex_float Words [str "a"; str "b"] []). unfold ex_words. destruct (from_file _ _ _ _ _) eqn:E; [reflexivity|]. vm_compute in E. discriminate.
Qed.
Definition ex_start (n : network ex_q) : option (recurrent _ _ _ _ _ n) :=
  match construct 0%Qc (recurrent_state_size _ _ _ _ _ n) 1 None with
  | Ok st => match object _ _ _ _ _ n (0%Qc, st) with Ok (_, s) => Some s | Err _ => None end
  | Err _ => None
  end.
Lemma ex_start_starting n st : ex_start n = Some st -> starting_state _ _ _ _ _ n st.
Proof.
  unfold ex_start, starting_state. destruct (construct 0%Qc _ 1 None) as [s|]; [|discriminate]. unfold object. cbn [fst snd].
  destruct (bool_dec _ true); [|discriminate]. intro H. injection H as <-. reflexivity.
Qed.
(** A lattice with three sentences, one of which has a word that is not in the vocabulary.
    The scores of the hypotheses are those of the lines of text. *)
Definition ex_decoded : result (list (list hword * Qc)) :=
  do n <- ex_qbuild;
  match ex_start n with
  | Some st => do '(l, _) <- decode _ st (decoder_net _ _ _ _ _ n) ex_ln ex_lin ex_hash ex_words ex_options ex_lattice; Ok (map (fun t => (tk_history _ t, tk_nn _ t)) l)
  | None => Err KeyError
  end.
Definition ex_line (line : pystr) : result Q :=
  do n <- ex_qbuild; do '(s, _) <- score_line ex_ln (scorer_net _ _ _ _ _ n) ex_words false false (0, 0) line;
  match s with Some x => Ok (this x) | None => Err KeyError end.
Example C62_example_decoded :
  match ex_decoded with
  | Ok l => map (fun x => (fst x, this (snd x))) l =
    [([inl 2; inl 1; inl 3], (-86121878 # 52980965)%Q); ([inl 2; inr (str "c"); inl 3], (-88543428 # 52980965)%Q); ([inl 2; inl 0; inl 3], (-27695767 # 17850158)%Q)]
  | Err _ => False
  end /\
  ex_line (str "b") = Ok (-86121878 # 52980965)%Q /\ ex_line (str "c") = Ok (-88543428 # 52980965)%Q /\ ex_line (str "a") = Ok (-27695767 # 17850158)%Q.
Proof. vm_compute. auto. Qed.
Example C62_example_theorem : exists n st tokens dropped, ex_qbuild = Ok n /\ starting_state _ _ _ _ _ n st /\
  decode _ st (decoder_net _ _ _ _ _ n) ex_ln ex_lin ex_hash ex_words ex_options ex_lattice = Ok (tokens, dropped) /\ List.length tokens = 3 /\ lattice_ok ex_lattice /\
  word_to_id ex_words SOS = Some 2 /\ word_to_id ex_words EOS = Some 3 /\ get_word_prob ex_words 2 = Ok 1%Qc /\ get_word_prob ex_words 3 = Ok 1%Qc /\
  same_network ex_words st (decoder_alone _ _ _ _ _ n) (network_alone _ _ _ _ _ n).
Proof.
  destruct C62_example as (n & B & CN & PW & SW & Hv & _).
  assert (X : exists l, ex_decoded = Ok l /\ List.length l = 3).
  { destruct ex_decoded as [l|] eqn:E; [exists l; split; [reflexivity|]|vm_compute in E; discriminate]. assert (Y : match ex_decoded with Ok l => List.length l = 3 | Err _ => False end) by (vm_compute; reflexivity). now rewrite E in Y. }
  destruct X as (l & X & L). unfold ex_decoded in X. rewrite B in X. cbn [bind] in X. destruct (ex_start n) as [st|] eqn:ES; [|discriminate].
  destruct (decode _ st _ _ _ _ _ _ _) as [[tokens dropped]|] eqn:D; cbn [bind] in X; [|discriminate]. injection X as <-. rewrite map_length in L.
  exists n, st, tokens, dropped. split; [exact B|]. split; [now apply ex_start_starting|]. split; [exact D|]. split; [exact L|]. split; [exact ex_lattice_ok|].
  split; [vm_compute; reflexivity|]. split; [vm_compute; reflexivity|]. split; [vm_compute; reflexivity|]. split; [vm_compute; reflexivity|].
  apply (proj2 (C62_same_network _ _ _ _ _ _ _ _ _ _ _ _ _ B CN PW Hv SW)). now apply ex_start_starting.
Qed.
