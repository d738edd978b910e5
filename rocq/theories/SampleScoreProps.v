(** C73: the probability of generated text is that which scoring gives to it. *)
From Coq Require Import QArith Qcanon Lia Permutation String List.
From Verif Require Import Base BaseLib ListLib QcLib Strings Dict TextModel TextSpec TextProofs VocabModel VocabSpec VocabBuild VocabProps LatticeExamples ArchModel NetModel NetSpec NetColumns NetProps
  BuildModel BuildSpec BuildProps StateModel LinkModel LinkSpec LinkProofs SubwordProofs LinkProps SamplerModel SamplerSpec SamplerProofs SamplerProps
  OutputModel OutputSpec OutputProofs DeviceModel DeviceSpec DeviceProofs DeviceNet IterSpec ScoreModel ScoreSpec ScoreText ScoreProps SampleScoreSpec SampleScoreProofs.
Local Open Scope nat_scope.
Local Open Scope list_scope.

Lemma qmult_pos x y : (0 < x)%Qc -> (0 < y)%Qc -> (0 < x * y)%Qc.
Proof. intros H1 H2. pose proof (Qcmult_lt_compat_r 0 x y H2 H1) as H. now rewrite Qcmult_0_l in H. Qed.

Section Props.
Variables qexp qsigmoid qtanh qrelu qleaky_relu : Qc -> Qc.
Notation A := (rationals qexp qsigmoid qtanh qrelu qleaky_relu).
Notation scorer_net := (scorer_net qexp qsigmoid qtanh qrelu qleaky_relu).
Notation network_alone := (network_alone qexp qsigmoid qtanh qrelu qleaky_relu).
Notation predicts := (predicts qexp qsigmoid qtanh qrelu qleaky_relu).
Notation draw_of := (draw_of qexp qsigmoid qtanh qrelu qleaky_relu).
Notation draws_of := (draws_of qexp qsigmoid qtanh qrelu qleaky_relu).
Variable parse_int : pystr -> result Z.
Variable dropout_scale : option ArchModel.value -> result (num A).
Variable value : pystr -> pystr -> nat -> nat -> nat -> num A.
Notation build := (build parse_int dropout_scale value).

(** One of the generated sequences is printed as a given sentence exactly if certain
    random choices come out, one of a class and one of a word for each word after the
    seed. They do not depend on what the other sequences are. *)
Theorem C73_generated default exclude_unk a v n : build default exclude_unk a v = Ok n ->
  Forall (connected a) (a_layers a) -> Forall (placed_well default) (a_layers a) -> reachable_vocab v ->
  Forall stepwise_type (a_layers a) ->
  forall length_ text seed words ids, tokens text seed -> ~ In EOS seed -> printable length_ words ->
  Forall2 (fun w id => word_to_id v w = Some id /\ id < num_shortlist_words v) (SOS :: seed ++ words) ids ->
  exists xs, draws_of n v (S (length seed)) ids xs /\ NoDup (map dr_time xs) /\ length xs = length words /\
    forall draw_class draw_word num_sequences j, chooses draw_class -> chooses draw_word -> j < num_sequences ->
    exists sequences sequence,
      generate (step_network n) (initial_state n num_sequences) draw_class draw_word v length_ num_sequences text = Ok sequences /\
      nth_error sequences j = Some sequence /\
      (up_to_eos sequence (SOS :: seed ++ words) <-> Forall (comes_out draw_class draw_word j) xs).
Proof.
  intros B CN PW Hv SW length_ text seed ws ids Ht Hs Pr F.
  assert (L1 : 1 <= length_) by (destruct Pr as [(b & _ & _ & L)|[_ L]]; lia).
  assert (Fi : Forall (fun id => id < num_shortlist_words v) ids).
  { clear - F. induction F as [|w id l l' [_ H] _ IH]; constructor; auto. }
  destruct (draws_exist _ _ _ _ _ _ _ _ _ _ _ _ _ B CN PW Hv SW (S (length seed)) ids Fi ltac:(lia)) as (xs & D).
  destruct (SamplerProofs.Forall2_nth _ _ _ F) as [LF NF]. cbn [length] in LF. rewrite app_length in LF.
  assert (Et : map dr_time xs = seq (S (length seed)) (length ids - S (length seed))).
  { unfold SampleScoreSpec.draws_of in D. clear - D. induction D as [|t x l l' (E & _) _ IH]; cbn [map]; [reflexivity|]. now rewrite E, IH. }
  exists xs. split; [exact D|]. split; [rewrite Et; apply seq_NoDup|]. split.
  { apply (f_equal (@length nat)) in Et. rewrite map_length, seq_length in Et. lia. }
  intros dc dw N j Hc Hw Hj.
  destruct (generates _ _ _ _ _ _ _ _ _ _ _ _ _ B CN PW Hv SW dc dw length_ N text seed Hc Hw L1 Ht) as (sequences & E).
  { apply Forall_forall. intros w Hin. apply In_nth_error in Hin as [i Hi].
    assert (Hk : nth_error (SOS :: seed ++ ws) (S i) = Some w) by (cbn [nth_error]; rewrite nth_error_app1; [exact Hi|apply nth_error_Some; congruence]).
    destruct (nth_error ids (S i)) as [id|] eqn:Eid; [|apply nth_error_None in Eid; assert (i < length seed) by (apply nth_error_Some; congruence); lia].
    exists id. exact (NF (S i) w id Hk Eid). }
  destruct (C51_drawn _ _ _ _ _ _ _ _ _ _ _ _ L1 Ht E) as (words & classes & Lw & G & T).
  destruct (C51_shape _ _ _ _ _ _ _ _ _ _ _ _ L1 Ht E) as [Ls _].
  destruct (nth_error sequences j) as [sequence|] eqn:Ej; [|apply nth_error_None in Ej; lia].
  exists sequences, sequence. split; [exact E|]. split; [exact Ej|]. specialize (T j sequence Ej).
  destruct (SamplerProofs.Forall2_nth _ _ _ T) as [LT _].
  assert (Lq : length sequence = length seed + length_) by lia.
  assert (Lk : length (SOS :: seed ++ ws) <= length sequence).
  { cbn [length]. rewrite app_length. destruct Pr as [(b & _ & _ & L)|[_ L]]; lia. }
  rewrite (kept_prefix length_ seed ws sequence Pr Hs Lq), (prefix_ids v Hv words j sequence _ ids T F Lk). symmetry.
  apply (whole_sequence _ _ _ _ _ v n Hv dc dw N seed words classes G j Hj ids xs).
  - cbn [length] in Lk. rewrite app_length in Lk. lia.
  - intros i id Hi Hid. assert (Lis : i < length (SOS :: seed)) by (cbn [length]; lia).
    destruct (nth_error (SOS :: seed) i) as [token|] eqn:Etk; [|apply nth_error_None in Etk; lia].
    destruct (nth_error words i) as [w|] eqn:Ew; [|apply nth_error_None in Ew; lia].
    destruct (nth_error classes i) as [c|] eqn:Ec; [|apply nth_error_None in Ec; rewrite (g_same_length _ _ _ _ _ _ _ _ _ G) in Ec; lia].
    destruct (g_given _ _ _ _ _ _ _ _ _ G i token w c Etk Ew Ec) as (id' & cl & [H1 _] & -> & _).
    assert (Hk : nth_error (SOS :: seed ++ ws) i = Some token) by (change (SOS :: seed ++ ws) with ((SOS :: seed) ++ ws); rewrite nth_error_app1; [exact Etk|exact Lis]).
    destruct (NF i token id Hk Hid) as [H2 _]. assert (id' = id) as -> by congruence. exists (repeat id N). split; [exact Ew|now rewrite nth_error_repeat].
  - exact D.
Qed.

(** The log probabilities of the choices are those that text scoring gives to the words. *)
Theorem C73_word_scores default exclude_unk a v n : build default exclude_unk a v = Ok n ->
  Forall (connected a) (a_layers a) -> Forall (placed_well default) (a_layers a) -> reachable_vocab v ->
  Forall stepwise_type (a_layers a) ->
  forall ln k ids xs scores, Forall (fun id => id < num_shortlist_words v) ids ->
  draws_of n v (S k) ids xs -> sequence_scores ln (network_alone n) v false false ids scores ->
  Forall2 (fun x s => exists class_score word_score,
             log_of ln (class_chance x) class_score /\ log_of ln (word_chance x) word_score /\
             s = Some (ladd class_score word_score)) xs (skipn k scores).
Proof.
  intros B CN PW Hv SW ln k ids xs scores F D S.
  pose proof (draw_scores _ _ _ _ _ _ _ _ _ _ _ _ _ B CN PW Hv SW ln (Datatypes.S k) ids xs scores F ltac:(lia) D S) as H.
  now rewrite Nat.sub_succ, Nat.sub_0_r in H.
Qed.

Definition possible (x : draw) : Prop := (0 < class_chance x)%Qc /\ (0 < word_chance x)%Qc.

Section Logarithm.
Variable ln : Qc -> Qc.
Hypothesis ln_product : forall x y, (0 < x)%Qc -> (0 < y)%Qc -> ln (x * y)%Qc = (ln x + ln y)%Qc.
Lemma ln_one : ln 1%Qc = 0%Qc.
Proof.
  pose proof (ln_product 1%Qc 1%Qc eq_refl eq_refl) as H. rewrite Qcmult_1_l in H.
  assert (E : (ln 1 - ln 1 = ln 1 + ln 1 - ln 1)%Qc) by (now rewrite <- H). ring_simplify in E. symmetry. exact E.
Qed.
Lemma log_pos p a : (0 < p)%Qc -> log_of ln p a -> a = Fin (ln p).
Proof.
  intros H [[E _]|[[_ E]|[E _]]]; [subst; discriminate|exact E|]. exfalso. exact (Qclt_not_le _ _ E (Qclt_le_weak _ _ H)).
Qed.
Lemma possible_score x s a b : possible x -> log_of ln (class_chance x) a -> log_of ln (word_chance x) b -> s = Some (ladd a b) ->
  s = Some (Fin (ln (class_chance x * word_chance x)%Qc)).
Proof. intros [H1 H2] L1 L2 ->. rewrite (log_pos _ _ H1 L1), (log_pos _ _ H2 L2), ln_product by assumption. reflexivity. Qed.
Lemma chance_pos xs : Forall possible xs -> (0 < chance xs)%Qc.
Proof.
  induction 1 as [|x xs [H1 H2] _ IH]; [reflexivity|]. cbn [chance fold_right]. unfold chance in IH.
  apply qmult_pos; [apply qmult_pos|]; assumption.
Qed.
Lemma sum_chance xs l : Forall possible xs -> Forall2 (fun x s => s = Fin (ln (class_chance x * word_chance x)%Qc)) xs l -> lsum l = Fin (ln (chance xs)).
Proof.
  intros Hp F. induction F as [|x s xs l -> _ IH]; [cbn; now rewrite ln_one|]. apply Forall_cons_iff in Hp as [[H1 H2] Hp].
  unfold lsum in *. cbn [fold_right]. rewrite IH by exact Hp. cbn [ladd]. f_equal. cbn [chance fold_right]. pose proof (chance_pos xs Hp) as P. unfold chance in *.
  symmetry. apply ln_product; [now apply qmult_pos|exact P].
Qed.

(** The score of the words after the seed is the logarithm of the probability that they are
    generated. *)
Theorem C73_total default exclude_unk a v n : build default exclude_unk a v = Ok n ->
  Forall (connected a) (a_layers a) -> Forall (placed_well default) (a_layers a) -> reachable_vocab v ->
  Forall stepwise_type (a_layers a) ->
  forall k ids xs scores, Forall (fun id => id < num_shortlist_words v) ids ->
  draws_of n v (S k) ids xs -> Forall possible xs ->
  sequence_scores ln (network_alone n) v false false ids scores ->
  total_score (skipn k scores) = Some (Fin (ln (chance xs))).
Proof.
  intros B CN PW Hv SW k ids xs scores F D Hp S.
  pose proof (C73_word_scores _ _ _ _ _ B CN PW Hv SW ln k ids xs scores F D S) as H. clear - ln_product H Hp.
  revert Hp. induction H as [|x s xs l (a & b & H1 & H2 & H3) _ IH]; intros Hp; [cbn; now rewrite ln_one|].
  apply Forall_cons_iff in Hp as [Px Hp]. rewrite (possible_score x s a b Px H1 H2 H3). cbn [total_score]. rewrite (IH Hp). f_equal.
  cbn [ladd]. f_equal. cbn [chance fold_right]. destruct Px as [P1 P2]. pose proof (chance_pos xs Hp) as P. unfold chance in *.
  symmetry. apply ln_product; [now apply qmult_pos|exact P].
Qed.

(** A sentence without a seed, as a line of text: its utterance score. *)
Theorem C73_line default exclude_unk a v n : build default exclude_unk a v = Ok n ->
  Forall (connected a) (a_layers a) -> Forall (placed_well default) (a_layers a) -> reachable_vocab v ->
  Forall stepwise_type (a_layers a) ->
  forall line words ids xs counters, utterance_of line (SOS :: words) ->
  Forall2 (fun w id => word_to_id v w = Some id /\ id < num_shortlist_words v) (SOS :: words) ids ->
  draws_of n v 1 ids xs -> Forall possible xs ->
  exists counters',
  score_line ln (scorer_net n) v false false counters line =
  if Qclt_le_dec 0%Qc (ln (chance xs)) then Err NumberError else Ok (Some (ln (chance xs)), counters').
Proof.
  intros B CN PW Hv SW line ws ids xs counters U F D Hp.
  assert (Fi : Forall (fun id => id < num_shortlist_words v) ids).
  { clear - F. induction F as [|w id l l' [_ H] _ IH]; constructor; auto. }
  destruct (C09_special_tokens_present v UNK Hv ltac:(right; right; now left)) as (unk & Hu & _).
  assert (UT : Forall unidirectional_type (a_layers a)) by (eapply Forall_impl; [|exact SW]; intros o; apply stepwise_unidirectional).
  destruct (contributions_included ln (network_alone n) v false false Hv unk ids Hu) as (scores & S1 & S2).
  { intros x Hx. rewrite Forall_forall in Fi. specialize (Fi x Hx). destruct (C10_partition v x Hv Fi) as (k & _).
    destruct (SamplerProofs.Forall2_nth _ _ _ F) as [LF NF]. apply In_nth_error in Hx as [i Hi].
    destruct (nth_error (SOS :: ws) i) as [w|] eqn:Ew; [|apply nth_error_None in Ew; assert (i < length ids) by (apply nth_error_Some; congruence); lia].
    destruct (NF i w x Ew Hi) as [H _]. apply (proj2 (C09_inverse_maps v Hv)) in H. apply nth_error_Some. congruence. }
  set (l := ScoreProofs.contributions ln (network_alone n) v false false unk ids) in *.
  destruct (C19_line_score ln (scorer_net n) (network_alone n) v false false line (SOS :: ws) ids scores l counters Hv
    (C62_scoring_network _ _ _ _ _ _ _ _ _ _ _ _ _ B CN PW Hv UT) U ltac:(discriminate)) as (unk' & _ & E).
  - exists unk. split; [exact Hu|]. clear - F. induction F as [|w id l l' [H _] _ IH]; constructor; auto.
  - now apply Forall_forall.
  - exact S1.
  - exact S2.
  - rewrite E. eexists. assert (El : lsum l = Fin (ln (chance xs))); [|now rewrite El].
    apply (sum_chance xs l Hp). pose proof (C73_word_scores _ _ _ _ _ B CN PW Hv SW ln 0 ids xs scores Fi D S1) as H. cbn [skipn] in H.
    assert (NZ : Forall2 (fun x id => VocabModel.get_word_prob v id = Ok (word_chance x)) xs (tl ids)).
    { unfold SampleScoreSpec.draws_of in D. destruct ids as [|i0 ids]; [inversion F|]. cbn [tl length] in *. rewrite Nat.sub_succ, Nat.sub_0_r in D.
      assert (K : forall m pre rest xs, i0 :: ids = pre ++ rest -> length pre = m -> Forall2 (draw_of n v (i0 :: ids)) (seq m (length rest)) xs ->
        Forall2 (fun x id => VocabModel.get_word_prob v id = Ok (word_chance x)) xs rest).
      { clear - Hv. intros m pre rest. revert m pre. induction rest as [|id rest IH]; intros m pre xs Ei Lm F; cbn [length seq] in F; inversion F as [|? x ? xs' (Et & _ & id' & wc & H1 & H2 & H3 & H4 & H5) F']; subst; [constructor|].
        assert (id' = id) as ->. { rewrite Ei, nth_error_app2, Nat.sub_diag in H1 by lia. cbn in H1. congruence. }
        constructor; [exact (word_member v Hv x id wc H2 H3 H4 H5)|]. apply (IH (Datatypes.S (length pre)) (pre ++ [id])); [now rewrite <- app_assoc|rewrite app_length; cbn; lia|exact F']. }
      exact (K 1 [i0] ids xs eq_refl eq_refl D). }
    clear - ln_product S2 H NZ Hp Fi. assert (Ft : Forall (fun id => id < num_shortlist_words v) (tl ids)) by (destruct Fi; [constructor|assumption]). clear Fi.
    revert xs H NZ Hp. induction S2 as [|id ids' x scores l Hx S2 IH|id ids' x scores l Hx S2 IH]; intros xs H NZ Hp; inversion NZ as [|y ? xs' ? Hy NZ']; subst.
    + constructor.
    + exfalso. inversion H as [|? ? ? ? (p & q & _ & _ & ->) H']; subst. apply Forall_cons_iff in Hp as [[_ P2] _]. destruct Hx as [Hx|(shown & c & SA & H3 & H4)]; [discriminate|].
      apply Forall_cons_iff in Ft as [F1 _]. destruct SA as [[_ ->]|[G _]]; [|lia]. rewrite Hy in H4. injection H4 as H4. rewrite H4 in P2. discriminate.
    + inversion H as [|? ? ? ? (p & q & H1 & H2 & H3) H']; subst. apply Forall_cons_iff in Hp as [Py Hp]. apply Forall_cons_iff in Ft as [_ Ft].
      pose proof (possible_score _ _ _ _ Py H1 H2 H3) as E. injection E as ->. constructor; [reflexivity|]. now apply IH.
Qed.
End Logarithm.

(** The probabilities of all the choices of the next word add up to those of the classes. *)
Theorem C73_next_word default exclude_unk a v n : build default exclude_unk a v = Ok n ->
  Forall (connected a) (a_layers a) -> Forall (placed_well default) (a_layers a) -> reachable_vocab v ->
  Forall stepwise_type (a_layers a) ->
  forall ids d p, ids <> [] -> Forall (fun id => id < num_shortlist_words v) ids -> predicts n v ids d ->
  (forall id, id < num_shortlist_words v ->
     exists x, draw_of n v (ids ++ [id]) (length ids) x /\ p id = (class_chance x * word_chance x)%Qc) ->
  qsum (map p (seq 0 (num_shortlist_words v))) = qsum d.
Proof.
  intros B CN PW Hv SW ids d p NE F Pd H.
  destruct (predicts_exists _ _ _ _ _ _ _ _ _ _ _ _ _ B CN PW Hv SW ids NE F) as (d' & Pd' & Ld).
  rewrite (predicts_fun _ _ _ _ _ v n ids d' d Pd' Pd) in Ld.
  set (keys := fun wc : wclass => dict_keys (wc_probs wc)).
  assert (PM : Permutation (seq 0 (num_shortlist_words v)) (concat (map keys (v_classes v)))).
  { apply NoDup_Permutation; [apply seq_NoDup| |].
    - apply NoDup_concat_keys.
      + intros k wc Hk. destruct (C10_class_shape v k wc Hv Hk) as (_ & _ & N & _). exact N.
      + intros k k' wc wc' i Hk Hk' I1 I2. destruct (C10_class_shape v k wc Hv Hk) as (_ & _ & _ & R & _).
        destruct (C10_partition v i Hv (R i I1)) as (c & _ & _ & U). apply (U k wc Hk) in I1. apply (U k' wc' Hk') in I2. congruence.
    - intros i. split.
      + intros Hi. apply in_seq in Hi. destruct (C10_partition v i Hv ltac:(lia)) as (c & _ & Lc & U).
        destruct (nth_error (v_classes v) c) as [wc|] eqn:Ec; [|apply nth_error_None in Ec; unfold VocabModel.num_classes in Lc; lia].
        apply in_concat. exists (keys wc). split; [apply in_map; eapply nth_error_In; exact Ec|]. now apply (U c wc Ec).
      + intros Hi. apply in_concat in Hi as (l & Hl & Hi). apply in_map_iff in Hl as (wc & <- & Hw). apply In_nth_error in Hw as [k Hk].
        destruct (C10_class_shape v k wc Hv Hk) as (_ & _ & _ & R & _). apply in_seq. specialize (R i Hi). lia. }
  rewrite (qsum_perm _ _ (Permutation_map p PM)). apply sum_by_class; [symmetry; exact Ld|].
  intros k wc q Hk Hq. destruct (C10_class_shape v k wc Hv Hk) as (_ & _ & N & R & T).
  assert (E : map p (keys wc) = map (fun im => (q * snd im)%Qc) (wc_probs wc)).
  { unfold keys, dict_keys. rewrite map_map. apply map_ext_in. intros [i m] Hi. cbn [fst snd].
    assert (Ii : In i (dict_keys (wc_probs wc))) by (apply in_map_iff; now exists (i, m)).
    destruct (H i (R i Ii)) as (x & (_ & Px & id & wc' & H1 & H2 & H3 & H4 & H5) & ->).
    rewrite nth_error_app2, Nat.sub_diag in H1 by lia. cbn in H1. injection H1 as <-.
    rewrite firstn_app, Nat.sub_diag, firstn_all, app_nil_r in Px. pose proof (predicts_fun _ _ _ _ _ v n ids _ _ Px Pd) as Ed.
    destruct (C10_partition v i Hv (R i Ii)) as (c & Hc & _ & U). pose proof (proj1 (U k wc Hk) Ii) as ->.
    assert (Ek : c = dr_class x) by (rewrite Hc in H2; congruence). subst c. assert (wc' = wc) as -> by congruence.
    unfold class_chance, word_chance. rewrite Ed, (nth_error_nth _ _ _ Hq). f_equal. rewrite H4.
    rewrite nth_error_map in H5. destruct (nth_error (wc_probs wc) (dr_word x)) as [[i' m']|] eqn:Ew; [|discriminate]. cbn [option_map fst] in H5. injection H5 as ->.
    rewrite (nth_error_nth _ (dr_word x) 0%Qc (x := m')) by now rewrite nth_error_map, Ew.
    apply nth_error_In in Ew. pose proof (keys_value_unique _ _ _ _ N Hi Ew). now subst. }
  unfold keys in E. rewrite E. assert (M : qsum (map (fun im : nat * Qc => (q * snd im)%Qc) (wc_probs wc)) = (q * qsum (dict_values (wc_probs wc)))%Qc) by apply (qsum_map_mult snd q).
  rewrite M, T. ring.
Qed.

(** If the distributions that the network predicts add up to one, the probabilities that
    generation gives to all the continuations of some length add up to one. *)
Theorem C73_all_texts default exclude_unk a v n : build default exclude_unk a v = Ok n ->
  Forall (connected a) (a_layers a) -> Forall (placed_well default) (a_layers a) -> reachable_vocab v ->
  Forall stepwise_type (a_layers a) -> (forall ids d, predicts n v ids d -> qsum d = 1%Qc) ->
  forall m seed p, seed <> [] -> Forall (fun id => id < num_shortlist_words v) seed ->
  (forall ids, In ids (sequences_of (num_shortlist_words v) m) ->
     exists xs, draws_of n v (length seed) (seed ++ ids) xs /\ p ids = chance xs) ->
  qsum (map p (sequences_of (num_shortlist_words v) m)) = 1%Qc.
Proof.
  intros B CN PW Hv SW ONE. set (size := num_shortlist_words v).
  induction m as [|m IH]; intros seed p NE F H; cbn [sequences_of].
  - destruct (H [] ltac:(now left)) as (xs & D & E). cbn [map]. rewrite qsum_cons, qsum_nil, E. unfold SampleScoreSpec.draws_of in D.
    rewrite app_nil_r, Nat.sub_diag in D. inversion D. cbn. reflexivity.
  - rewrite qsum_flat_map.
    assert (W : forall w, w < size -> exists x, draw_of n v (seed ++ [w]) (length seed) x /\
      qsum (map p (map (cons w) (sequences_of size m))) = (class_chance x * word_chance x)%Qc).
    { intros w Hw. assert (Fw : Forall (fun id => id < num_shortlist_words v) (seed ++ [w])) by (apply Forall_app; split; [exact F|now constructor]).
      destruct (draw_exists _ _ _ _ _ _ _ _ _ _ _ _ _ B CN PW Hv SW (seed ++ [w]) (length seed) w Fw) as (x & Dx).
      { destruct seed; [congruence|cbn; lia]. }
      { now rewrite nth_error_app2, Nat.sub_diag. }
      exists x. split; [exact Dx|]. rewrite map_map. set (c := (class_chance x * word_chance x)%Qc).
      assert (K : forall ids, In ids (sequences_of size m) -> exists xs, draws_of n v (length (seed ++ [w])) ((seed ++ [w]) ++ ids) xs /\ p (w :: ids) = (c * chance xs)%Qc).
      { intros ids Hi. destruct (H (w :: ids)) as (xs & D & E).
        { cbn [sequences_of]. apply in_flat_map. exists w. split; [apply in_seq; lia|]. now apply in_map. }
        unfold SampleScoreSpec.draws_of in *. rewrite app_length in D. cbn [length] in D.
        replace (length seed + S (length ids) - length seed) with (S (length ids)) in D by lia. cbn [seq] in D.
        inversion D as [|? y ? ys Dy D']; subst. exists ys. split.
        - rewrite <- app_assoc. cbn [app]. rewrite !app_length. cbn [length].
          replace (length seed + 1) with (S (length seed)) by lia. replace (length seed + S (length ids) - S (length seed)) with (length ids) by lia. exact D'.
        - rewrite E. cbn [chance fold_right]. f_equal. apply (same_chance _ _ _ _ _ v n Hv (seed ++ w :: ids) (seed ++ [w]) (length seed)); [| |exact Dy|exact Dx].
          + rewrite !firstn_app, Nat.sub_diag. reflexivity.
          + now rewrite !nth_error_app2, Nat.sub_diag. }
      destruct (Qc_eq_dec c 0%Qc) as [Z|NZ].
      - rewrite Z. rewrite (map_ext_in _ (fun _ => 0%Qc)); [apply qsum_map_const0|]. intros ids Hi. destruct (K ids Hi) as (xs & _ & ->). rewrite Z. ring.
      - assert (S1 : qsum (map (fun ids => (p (w :: ids) / c)%Qc) (sequences_of size m)) = 1%Qc).
        { apply (IH (seed ++ [w])); [now destruct seed|exact Fw|]. intros ids Hi. destruct (K ids Hi) as (xs & D & E). exists xs. split; [exact D|]. rewrite E. now field. }
        rewrite qsum_map_div in S1. transitivity (qsum (map (fun ids => p (w :: ids)) (sequences_of size m)) / c * c)%Qc; [now field|]. rewrite S1. ring. }
    destruct (predicts_exists _ _ _ _ _ _ _ _ _ _ _ _ _ B CN PW Hv SW seed NE F) as (d & Pd & _). rewrite <- (ONE seed d Pd).
    apply (C73_next_word default exclude_unk a v n B CN PW Hv SW seed d _ NE F Pd W).
Qed.

(** With a softmax output layer they do. *)
Theorem C73_softmax default exclude_unk a v n : build default exclude_unk a v = Ok n ->
  Forall (connected a) (a_layers a) -> Forall (placed_well default) (a_layers a) -> reachable_vocab v ->
  Forall stepwise_type (a_layers a) -> (forall x, (0 < qexp x)%Qc) -> n_kind n = Softmax ->
  (exists c, c < VocabModel.num_classes v /\ (n_exclude_unk n = true -> c <> n_unk_class n)) ->
  forall ids d, predicts n v ids d -> qsum d = 1%Qc.
Proof.
  intros B CN PW Hv SW POS KS (c & Lc & Nc) ids d (inputs & ps & st & C & R).
  destruct (built_output _ _ _ _ _ _ _ _ B PW) as (ds & out & CR & OW & OS & OD).
  destruct (created_network _ _ _ CR) as (ls & _ & EN & _).
  assert (SD : softmax_dimensions out). { destruct OD as [D|(l1 & l2 & _ & K & _)]; [exact D|]. rewrite EN in KS. cbn [n_kind] in KS. congruence. }
  destruct (last_step _ _ _ _ _ _ R) as (w & cl & s1 & s2 & E). unfold step_network in E.
  destruct (eval_network n (Step s1) _) as [[p st']|] eqn:EE; cbn [bind] in E; [|discriminate].
  destruct (softmax_rows ds out n _ _ p st' CR SD OW EE) as (x & -> & L). unfold py_index in E. rewrite nth_error_map in E.
  destruct (nth_error x 0) as [x0|] eqn:E0; cbn [option_map bind] in E; [|discriminate]. injection E as E _.
  destruct x0 as [|row [|? ?]]; try discriminate. injection E as <-.
  specialize (L 0 0 row). unfold NetSpec.cell in L. rewrite E0 in L. specialize (L eq_refl). rewrite OS in L.
  rewrite EN in Nc. cbn [n_exclude_unk n_unk_class] in Nc. clear - POS Nc L Lc. unfold softmax_row.
  assert (Hy : exists y, nth_error (if o_exclude_unk out then set_log_zero (o_unk_class out) (map Some row) else map Some row) c = Some (Some y)).
  { destruct (nth_error row c) as [y|] eqn:Er; [|apply nth_error_None in Er; lia]. exists y. destruct (o_exclude_unk out).
    - unfold set_log_zero. rewrite nth_mapi, nth_error_map, Er. cbn [option_map]. destruct (Nat.eqb_spec c (o_unk_class out)) as [->|]; [now destruct (Nc eq_refl)|reflexivity].
    - now rewrite nth_error_map, Er. }
  destruct Hy as [y Hy]. revert Hy. generalize (if o_exclude_unk out then set_log_zero (o_unk_class out) (map Some row) else map Some row) as l. intros l Hy.
  exact (softmax_one _ _ _ _ _ POS l c y Hy).
Qed.
End Props.
Print Assumptions C73_generated.
Print Assumptions C73_word_scores.
Print Assumptions C73_total.
Print Assumptions C73_line.
Print Assumptions C73_next_word.
Print Assumptions C73_all_texts.
Print Assumptions C73_softmax.

(** ** A concrete case: the network of C62, with a softmax output layer *)

(** A rational function that has the product law: the exponent of two in the prime
    factorization *)
Fixpoint twos (p : positive) : Z := match p with xO q => (1 + twos q)%Z | _ => 0%Z end.
Lemma twos_mult p q : twos (p * q) = (twos p + twos q)%Z.
Proof.
  induction p as [p IH|p IH|]; [|change ((p~0 * q)%positive) with ((p * q)~0%positive); cbn [twos]; rewrite IH; ring|reflexivity].
  clear IH. cbn [twos]. rewrite Z.add_0_l. induction q as [q IH|q IH|]; [reflexivity| |reflexivity].
  rewrite Pos.mul_xO_r. cbn [twos]. now rewrite IH.
Qed.
Definition ex_log2 (x : Qc) : Qc := match Qnum x with Zpos p => Q2Qc (inject_Z (twos p - twos (Qden x))) | _ => 0%Qc end.
Lemma ex_log2_frac (q : Q) (x : Qc) p : (x == q)%Q -> Qnum q = Zpos p -> ex_log2 x = Q2Qc (inject_Z (twos p - twos (Qden q))).
Proof.
  destruct x as [[a b] C], q as [c d]. unfold ex_log2, Qeq. cbn [this Qnum Qden]. intros H ->.
  destruct a as [|a|a]; [discriminate H| |discriminate H]. rewrite <- !Pos2Z.inj_mul in H. injection H as H. apply (f_equal twos) in H. rewrite !twos_mult in H.
  do 2 f_equal. lia.
Qed.
Lemma qc_positive (x : Qc) : (0 < x)%Qc -> exists p, Qnum x = Zpos p.
Proof. destruct x as [[a b] C]. unfold Qclt, Qlt. cbn. rewrite Z.mul_1_r. destruct a as [|a|a]; intros H; [discriminate|now exists a|discriminate]. Qed.
Example C73_example_log x y : (0 < x)%Qc -> (0 < y)%Qc -> ex_log2 (x * y)%Qc = (ex_log2 x + ex_log2 y)%Qc.
Proof.
  intros Hx Hy. destruct (qc_positive x Hx) as [a Ea]. destruct (qc_positive y Hy) as [b Eb].
  rewrite (ex_log2_frac (x * y)%Q (x * y)%Qc (a * b)) by (first [apply Qred_correct|cbn [Qmult Qnum]; now rewrite Ea, Eb]).
  unfold ex_log2. rewrite Ea, Eb. apply Qc_is_canon. cbn [Qcplus Q2Qc this]. rewrite !Qred_correct, <- inject_Z_plus. cbn [Qmult Qden].
  rewrite !twos_mult. replace (twos a + twos b - (twos (Qden x) + twos (Qden y)))%Z with (twos a - twos (Qden x) + (twos b - twos (Qden y)))%Z by ring. reflexivity.
Qed.
Example C73_example_log_values : ex_log2 (Q2Qc (1 # 8)) = Q2Qc (-3 # 1) /\ ex_log2 (Q2Qc (1 # 4)) = Q2Qc (-2 # 1).
Proof. split; apply Qc_is_canon; reflexivity. Qed.

(** Words a and b are in one class, c is in another. *)
Definition ex_classes : vocabulary := get_vocab (from_file ex_int ex_float Classes [str "a 0"; str "b 0"; str "c 1"] []).
Definition ex_cbuild : result (network ex_q) := build ex_parse_int ex_qscale ex_value None false (ex_described ex_qlines) ex_classes.
Definition ex_distributions : result (list (list (list Qc))) :=
  do n <- ex_cbuild; do '(ps, _) <- run_steps n [([3], [2]); ([1], [0])] (initial_state n 1); Ok ps.
Definition ex_shown : result (list (list (list Q))) := do ps <- ex_distributions; Ok (map (map (map this)) ps).
Definition ex_members (c : nat) : list Qc := map snd (wc_probs (nth c (v_classes ex_classes) (mkClass 0 []))).
(** The sentence "b": the choice of the class of a and b, of the second word of it, of the
    class of </s>, and of its only word. The network reads <s> and b. *)
Definition ex_draws (ps : list (list (list Qc))) : list draw :=
  [mkDraw 1 (nth 0 (nth 0 ps []) []) 0 (ex_members 0) 1; mkDraw 2 (nth 0 (nth 1 ps []) []) 3 (ex_members 3) 0].
Example C73_example_values :
  (do ps <- ex_distributions; Ok (map (map (map this)) ps, this (chance (ex_draws ps)), map (map this) [ex_members 0; ex_members 3])) =
  Ok ([[[1170 # 4157; 860 # 4157; 755 # 4157; 702 # 4157; 670 # 4157]]; [[615 # 2147; 445 # 2147; 775 # 4294; 717 # 4294; 341 # 2147]]],
      419445 # 17850158, [[1 # 2; 1 # 2]; [1]])%Q.
Proof. vm_compute. reflexivity. Qed.
Lemma ex_classes_reachable : reachable_vocab ex_classes.
Proof. apply (rv_file ex_int ex_float Classes [str "a 0"; str "b 0"; str "c 1"] []). unfold ex_classes. destruct (from_file _ _ _ _ _) eqn:E; [reflexivity|]. vm_compute in E. discriminate. Qed.
Lemma ex_qexp_positive x : (0 < ex_qexp x)%Qc.
Proof.
  unfold ex_qexp. destruct (Qclt_le_dec x 0) as [H|H].
  - assert (P : (0 < 1 - x)%Qc). { apply (Qclt_trans _ 1); [reflexivity|]. apply Qclt_minus_iff. apply Qclt_minus_iff in H. replace (1 - x + - (1))%Qc with (0 + - x)%Qc by ring. exact H. }
    unfold Qcdiv. rewrite Qcmult_1_l. apply Qcnot_le_lt. intros L.
    apply (Qcmult_le_compat_r _ _ (1 - x) L) in P as Q || pose proof (Qcmult_le_compat_r _ _ (1 - x) L (Qclt_le_weak _ _ P)) as Q.
    rewrite Qcmult_0_l, Qcmult_comm, Qcmult_inv_r in Q; [|intros Z; rewrite Z in P; discriminate P]. exact (Qclt_not_le 0 1 eq_refl Q).
  - apply (Qclt_le_trans _ 1); [reflexivity|]. replace 1%Qc with (1 + 0)%Qc at 1 by ring. apply Qcplus_le_compat; [apply Qcle_refl|exact H].
Qed.
Example C73_example : exists n xs, ex_cbuild = Ok n /\
  Forall (connected (ex_described ex_qlines)) (a_layers (ex_described ex_qlines)) /\ Forall (placed_well None) (a_layers (ex_described ex_qlines)) /\
  reachable_vocab ex_classes /\ Forall stepwise_type (a_layers (ex_described ex_qlines)) /\
  tokens [] [] /\ printable 4 [str "b"; EOS] /\ utterance_of (str "b") (SOS :: [str "b"; EOS]) /\
  Forall2 (fun w id => word_to_id ex_classes w = Some id /\ id < num_shortlist_words ex_classes) (SOS :: [] ++ [str "b"; EOS]) [3; 1; 4] /\
  draws_of _ _ _ _ _ n ex_classes 1 [3; 1; 4] xs /\ Forall possible xs /\ this (chance xs) = (419445 # 17850158)%Q /\
  chooses (fun _ _ _ => 0) /\ (forall x, (0 < ex_qexp x)%Qc) /\ n_kind n = Softmax /\
  (exists c, c < VocabModel.num_classes ex_classes /\ (n_exclude_unk n = true -> c <> n_unk_class n)).
Proof.
  destruct C62_example as (_ & _ & CN & PW & SW & _). pose proof C73_example_values as V.
  destruct ex_distributions as [ps|] eqn:D; cbn [bind] in V; [|discriminate]. unfold ex_distributions in D.
  assert (KK : match ex_cbuild with Ok n => n_kind n = Softmax /\ n_exclude_unk n = false | Err _ => True end) by (vm_compute; split; reflexivity).
  destruct ex_cbuild as [n|] eqn:B; cbn [bind] in D; [|discriminate]. destruct KK as [K1 K2].
  destruct (run_steps n _ _) as [[ps' st]|] eqn:RS; cbn [bind] in D; [|discriminate]. injection D as ->. apply run_steps_runs in RS.
  assert (V1 := f_equal (fun r => match r with Ok x => fst (fst x) | Err _ => [] end) V). assert (V2 := f_equal (fun r => match r with Ok x => snd (fst x) | Err _ => 0%Q end) V). cbv beta iota in V1, V2. cbn [fst snd] in V1, V2. clear V. exists n, (ex_draws ps). split; [reflexivity|]. split; [exact CN|]. split; [exact PW|]. split; [exact ex_classes_reachable|]. split; [exact SW|].
  assert (NS : no_space (str "b")) by (intros c [<-|[]]; reflexivity).
  split; [constructor; intros ? []|]. split; [left; exists [str "b"]; split; [reflexivity|split; [intros [E|[]]; discriminate|cbn; lia]]|]. 
  split; [apply (utterance_text_line (str "b") [str "b"]); [apply (tokens_last []); [intros ? []|discriminate|exact NS]|discriminate|apply (framed_intro [str "b"] [SOS] [EOS]); right; (split; [|reflexivity]); [intros [r E]; discriminate|intros [[|? [|? ?]] E]; discriminate]]|].
  split; [repeat (constructor; [split; [vm_compute; reflexivity|vm_compute; lia]|]); constructor|].
  destruct ps as [|[|d0 []] [|[|d1 []] []]]; try discriminate.
  split; [|split; [|split; [exact V2|split; [intros t j [|] H; [congruence|cbn; lia]|split; [exact ex_qexp_positive|split; [exact K1|exists 0; split; [vm_compute; lia|congruence]]]]]]].
  - unfold SampleScoreSpec.draws_of, ex_draws. cbn [length Nat.sub seq nth]. constructor; [|constructor; [|constructor]].
    + split; [reflexivity|]. split.
      * exists [(3, 2)]. destruct (runs_prefix _ [([3], [2])] [([1], [0])] _ _ _ RS) as [s1 R1]. exists [], s1. split; [repeat constructor|exact R1].
      * exists 1. eexists. repeat split.
    + split; [reflexivity|]. split.
      * exists [(3, 2); (1, 0)], [[d0]], st. split; [repeat constructor|exact RS].
      * exists 4. eexists. repeat split.
  - cbn [map] in V1. injection V1 as E0 E1. unfold ex_draws, possible, class_chance, word_chance. cbn [dr_class dr_distribution dr_word dr_members nth].
    assert (G : forall (d : list Qc) l k q, map this d = l -> nth_error l k = Some q -> (0 < q)%Q -> (0 < nth k d 0)%Qc).
    { clear. intros d l k q <- H P. rewrite nth_error_map in H. destruct (nth_error d k) as [x|] eqn:E; [|discriminate]. injection H as <-. rewrite (nth_error_nth _ _ _ E). exact P. }
    repeat constructor; (eapply G; [eassumption || (vm_compute; reflexivity)|reflexivity|reflexivity]).
Qed.
