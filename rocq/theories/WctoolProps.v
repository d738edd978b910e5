(** C72: the class files that wctool writes, and reading them. *)
From Coq Require Import String QArith Qcanon Lia Permutation List.
From Verif Require Import Base ListLib BaseLib QcLib Dict Strings NetModel TextModel TextSpec TextProofs VocabModel VocabSpec VocabProofs VocabBuild VocabStats VocabProps
  LatticeSpec LatticeExamples SlfModel IterSpec TrainCommandModel TrainCommandSpec TrainCommandProofs TrainCommandVocab
  BigramModel BigramSpec BigramProofs BigramGain BigramRuns BigramStats WctoolModel WctoolSpec WctoolProofs WctoolSetup WctoolRead.
From Verif Require BigramProps.
From Coq Require Rdefinitions RMicromega Qreals RIneq.
Local Open Scope nat_scope.

(** The probability that is written is that of the optimizer's get_word_prob (C43). *)
Theorem C72_written_probability p st w : Rdefinitions.Q2R (this (word_prob p st w)) = BigramModel.get_word_prob p st w.
Proof.
  unfold word_prob, BigramModel.get_word_prob. destruct (_ =? 0)%Z eqn:E; [apply RMicromega.Q2R_0|]. apply Z.eqb_neq in E.
  set (x := word_counts p w). set (y := class_counts st _) in *. unfold Qcdiv, Qcinv, Qcmult. cbn [this Q2Qc].
  assert (I : forall z, Rdefinitions.Q2R (inject_Z z) = Rdefinitions.IZR z) by (intros z; unfold Rdefinitions.Q2R, inject_Z; cbn; rewrite RIneq.Rinv_1; apply RIneq.Rmult_1_r).
  assert (R : forall q, Rdefinitions.Q2R (Qred q) = Rdefinitions.Q2R q) by (intros q; apply Qreals.Qeq_eqR, Qred_correct).
  rewrite R, Qreals.Q2R_mult, !R, Qreals.Q2R_inv, R, !I; [reflexivity|].
  rewrite (Qred_correct (inject_Z y)). unfold Qeq, inject_Z. cbn. lia.
Qed.

Print Assumptions C72_written_probability.

Section Wctool.
Variable parse_int : pystr -> result Z.
Variable parse_float : pystr -> result Qc.
Variable show_num : Qc -> pystr.
Hypothesis text : number_text parse_int parse_float show_num.

Lemma run_inv passes args out : wctool parse_int parse_float show_num passes args = Ok out ->
  exists v b p st0 st sts, wctool_start parse_int parse_float args = Ok (v, b, p, st0) /\ optimize passes b p st0 = Ok st /\
    out = save show_num args p st (fold_left (fun o s => save show_num args p s o) sts []) /\ some_save args (BigramModel.num_words p) sts.
Proof.
  unfold wctool. destruct (wctool_start parse_int parse_float args) as [[[[v b] p] st0]|] eqn:E; [|discriminate]. cbn [bind].
  intros H. apply loop_saves in H as (st & sts & H1 & H2 & H3). exists v, b, p, st0, st, sts. auto.
Qed.

(** When wctool finishes: a known method, a vocabulary that can be made, and some words in
    the training data. It then needs only so many passes over the words. *)
Theorem C72_runs args us : sentences (wt_training_set args) us ->
  (exists passes out, wctool parse_int parse_float show_num passes args = Ok out) <->
  wt_method args <> None /\ (exists u, In u us /\ u <> []) /\
  match wt_vocabulary args with
  | None => wt_num_classes args <> 0 \/ forall w, In w (concat us) -> is_special w
  | Some lines => exists es, entries parse_int parse_float (wt_vocabulary_format args) lines es /\ NoDup (map e_word es) /\
                    forall i, i < length es -> class_weight es i <> 0%Qc
  end.
Proof.
  intros Hus.
  assert (V : (exists v, wctool_vocabulary parse_int parse_float args = Ok v) <->
    match wt_vocabulary args with
    | None => wt_num_classes args <> 0 \/ forall w, In w (concat us) -> is_special w
    | Some lines => exists es, entries parse_int parse_float (wt_vocabulary_format args) lines es /\ NoDup (map e_word es) /\
                    forall i, i < length es -> class_weight es i <> 0%Qc
    end).
  { unfold wctool_vocabulary. destruct (wt_vocabulary args) as [lines|]; [apply C09_file_accepted|].
    destruct (word_counts_of _ _ Hus) as (wc & Ew & N & C & K). rewrite Ew. cbn [bind]. split.
    - intros (v & E). destruct (wt_num_classes args) as [|n]; [right|left; discriminate]. intros w Hw.
      destruct (in_dec pystr_eq_dec w specials) as [I|I]; [exact I|exfalso]. apply K in Hw. unfold dict_keys in Hw. apply in_map_iff in Hw as ([w' c] & <- & Hw).
      rewrite C12_zero_classes in E; [discriminate|]. exists w', c. auto.
    - intros H. assert (H' : wt_num_classes args <> 0 \/ drop_specials wc = []).
      { destruct H as [H|H]; [now left|right]. destruct (drop_specials wc) as [|[w c] l] eqn:D; [reflexivity|exfalso].
        assert (I : In (w, c) (drop_specials wc)) by (rewrite D; now left). apply drop_specials_in in I as [I J]. apply J. cbn [fst]. apply H, K. now apply (in_map fst) in I. }
      destruct (wt_num_classes args) as [|n] eqn:En.
      + destruct H' as [H'|H']; [congruence|]. rewrite counts_class_zero by exact H'.
        destruct (C12_frequency_classes wc (Some 1) N) as (v & o & E & _); [intros m [= <-]; lia|eauto].
      + destruct (C12_frequency_classes wc (Some (S n)) N) as (v & o & E & _); [intros m [= <-]; lia|eauto]. }
  rewrite <- V. clear V. split.
  - intros (passes & out & E). apply run_inv in E as (v & b & p & st0 & st & sts & Es & Eo & _ & _).
    destruct (start_spec _ _ _ _ Hus _ _ _ _ Es) as (Ev & Em & _). destruct (problem_facts _ _ _ _ Hus _ _ _ _ Es) as (_ & _ & _ & _ & _ & _ & Nu).
    split; [congruence|]. split; [exact Nu|eauto].
  - intros (Hm & Nu & v & Ev). destruct (wt_method args) as [b|] eqn:Em; [|congruence].
    destruct (vocabulary_shape _ _ _ _ Hus _ Ev) as (R & G & L). destruct (C09_special_tokens_present v UNK R) as (unk & U & _); [cbn; auto|].
    pose proof (corpus_fine _ _ Hus v unk R L U Nu) as F. set (corpus := map (sequence_ids v unk) us) in *.
    assert (A : assignment (wctool_problem v corpus) (v_w2c v)) by (apply vocab_assignment; [exact R|reflexivity..]).
    destruct (BigramProps.C43_terminates b _ (VocabModel.num_classes v) (v_num_normal v) _ corpus (v_w2c v) _ F (proj1 (C10_normal_classes v R)) A (le_n _)) as (st0 & st & E1 & E2).
    change (corpus_problem _ _ _ _ _) with (wctool_problem v corpus) in E1, E2.
    set (passes := VocabModel.num_classes v ^ num_shortlist_words v) in *. exists passes.
    destruct (loop_succeeds show_num args b _ passes st0 [] st E2) as (out & Eo). exists out.
    unfold wctool, wctool_start. rewrite Ev. cbn [bind]. rewrite (corpus_ids _ _ Hus _ _ U). cbn [bind]. cbv zeta. rewrite Em. fold corpus. rewrite E1. cbn [bind]. exact Eo.
Qed.

(** The output, when it is a file, is what the last save writes: one line for each word, in
    the order of the word IDs. *)
Lemma seekable_output passes args us out : sentences (wt_training_set args) us -> wt_seekable args = true ->
  wctool parse_int parse_float show_num passes args = Ok out ->
  exists v b p st0 st, wctool_start parse_int parse_float args = Ok (v, b, p, st0) /\ optimize passes b p st0 = Ok st /\
    out = concat (map (class_line show_num (wt_output_format args)) (file_rows (v_id_to_word v) (word_to_class st) (word_prob p st))).
Proof.
  intros Hus Hk E. apply run_inv in E as (v & b & p & st0 & st & sts & Es & Eo & -> & _). exists v, b, p, st0, st. split; [exact Es|]. split; [exact Eo|].
  rewrite saves_seekable by exact Hk. unfold body. now rewrite (words_rows _ _ _ _ Hus _ _ _ _ st Es).
Qed.

Lemma same_number names a v v' : reachable_vocab v' -> (forall c, In c a <-> c < VocabModel.num_classes v) -> length a = length names ->
  same_classes names a v' -> VocabModel.num_classes v' = VocabModel.num_classes v.
Proof.
  intros R F L [_ Sl K]. destruct (reachable_wf v' R) as (fn & n & W). destruct (wf_valid v' fn n W) as [V1 V2].
  assert (En : VocabModel.num_classes v' = n) by (unfold VocabModel.num_classes; rewrite (wf_classes v' fn n W); unfold classes_of; now rewrite map_length, seq_length).
  rewrite En. unfold num_shortlist_words in Sl. apply Nat.le_antisymm.
  - apply (kernel_le (v_w2c v') a); [congruence|exact V2|intros c Hc; now apply F|].
    intros i j c d Hc Hd E. assert (Li : i < length a) by (rewrite L, <- Sl; apply nth_error_Some; congruence). assert (Lj : j < length a) by (rewrite L, <- Sl; apply nth_error_Some; congruence).
    destruct (nth_error a i) as [x|] eqn:Ex; [|apply nth_error_None in Ex; lia]. destruct (nth_error a j) as [y|] eqn:Ey; [|apply nth_error_None in Ey; lia].
    injection E as E. apply (K i j x y Ex Ey) in E. congruence.
  - apply (kernel_le a (v_w2c v')); [congruence|intros k Hk; now apply F|exact V1|]. intros i j c d Hc Hd E. now apply (K i j c d Hc Hd).
Qed.

(** Format "classes": whatever the training data is, the file can be read, and gives back
    the classes. The membership probabilities are uniform. *)
Theorem C72_read_classes passes args us out : sentences (wt_training_set args) us ->
  wctool parse_int parse_float show_num passes args = Ok out -> wt_seekable args = true -> wt_output_format args = ClassIds ->
  exists v a, optimized parse_int parse_float passes args v a /\ length a = length (v_id_to_word v) /\
    forall oos, exists v', from_file parse_int parse_float Classes (lines_in out) oos = Ok v' /\
      same_classes (v_id_to_word v) a v' /\ VocabModel.num_classes v' = VocabModel.num_classes v /\
      forall i c, nth_error a i = Some c -> VocabModel.get_word_prob v' i = Ok (1 / qc_of_nat (length (class_members a c)))%Qc.
Proof.
  intros Hus E Hk Hfm. destruct (seekable_output _ _ _ _ Hus Hk E) as (v & b & p & st0 & st & Es & Eo & ->). rewrite Hfm.
  destruct (vocab_facts _ _ _ _ Hus _ _ _ _ Es) as (R & G & L & N & Sp). destruct (final_facts _ _ _ _ Hus _ _ _ _ _ _ Es Eo) as (La & F & _).
  assert (Hf : ClassIds <> OtherIds) by discriminate.
  exists v, (word_to_class st). split; [exists b, p, st0, st; auto|]. split; [exact La|]. intros oos.
  assert (Wt : forall i c, nth_error (word_to_class st) i = Some c -> i < length (v_id_to_word v) ->
    class_weight (map (row_entry ClassIds) (file_rows (v_id_to_word v) (word_to_class st) (word_prob p st))) i = qc_of_nat (length (class_members (word_to_class st) c))).
  { intros i c Hi Li. rewrite es_weight by assumption. unfold BigramModel.class_of. rewrite (nth_error_nth _ _ _ Hi). rewrite qsum_const. apply Qcmult_1_r. }
  destruct (proj2 (file_accepted parse_int parse_float show_num text ClassIds Hf _ (word_to_class st) (word_prob p st) G N La oos)) as (v' & Ev').
  { intros i Li. destruct (nth_error (word_to_class st) i) as [c|] eqn:Hi; [|apply nth_error_None in Hi; lia]. rewrite (Wt i c Hi Li). apply qc_of_nat_neq.
    assert (I : In i (class_members (word_to_class st) c)) by (now apply members_in). destruct (class_members _ c); [destruct I|cbn; lia]. }
  exists v'. split; [exact Ev'|].
  pose proof (file_same parse_int parse_float show_num text ClassIds Hf _ _ _ G La Sp oos v' Ev') as Sc. split; [exact Sc|]. split.
  - eapply same_number; [eapply rv_file; exact Ev'|exact F|exact La|exact Sc].
  - intros i c Hi. assert (Li : i < length (v_id_to_word v)) by (rewrite <- La; apply nth_error_Some; congruence).
    rewrite (file_prob parse_int parse_float show_num text ClassIds Hf _ _ _ G La oos v' i Ev' Li), (Wt i c Hi Li). reflexivity.
Qed.

(** Format "srilm-classes": the file can be read exactly if every class is seen in the
    training data, and gives back the classes and the membership probabilities. *)
Theorem C72_read_srilm passes args us out : sentences (wt_training_set args) us ->
  wctool parse_int parse_float show_num passes args = Ok out -> wt_seekable args = true -> wt_output_format args = SrilmIds ->
  exists v a, optimized parse_int parse_float passes args v a /\ length a = length (v_id_to_word v) /\
    forall oos,
      ((exists v', from_file parse_int parse_float SrilmClasses (lines_in out) oos = Ok v') <->
       forall c, In c a -> class_seen (v_id_to_word v) us a c <> 0) /\
      forall v', from_file parse_int parse_float SrilmClasses (lines_in out) oos = Ok v' ->
        same_classes (v_id_to_word v) a v' /\ VocabModel.num_classes v' = VocabModel.num_classes v /\
        forall i c w, nth_error a i = Some c -> nth_error (v_id_to_word v) i = Some w ->
          VocabModel.get_word_prob v' i = Ok (qc_of_nat (seen (v_id_to_word v) us w) / qc_of_nat (class_seen (v_id_to_word v) us a c))%Qc.
Proof.
  intros Hus E Hk Hfm. destruct (seekable_output _ _ _ _ Hus Hk E) as (v & b & p & st0 & st & Es & Eo & ->). rewrite Hfm.
  destruct (vocab_facts _ _ _ _ Hus _ _ _ _ Es) as (R & G & L & N & Sp). destruct (final_facts _ _ _ _ Hus _ _ _ _ _ _ Es Eo) as (La & F & _).
  assert (Hf : SrilmIds <> OtherIds) by discriminate. set (a := word_to_class st) in *. set (names := v_id_to_word v) in *.
  exists v, a. split; [exists b, p, st0, st; auto|]. split; [exact La|]. intros oos.
  assert (Wt : forall i c, nth_error a i = Some c -> i < length names ->
    class_weight (map (row_entry SrilmIds) (file_rows names a (word_prob p st))) i = if class_seen names us a c =? 0 then 0%Qc else 1%Qc).
  { intros i c Hi Li. rewrite es_weight by assumption. unfold BigramModel.class_of. rewrite (nth_error_nth _ _ _ Hi).
    exact (weights _ _ _ _ Hus _ _ _ _ _ _ Es Eo i c Hi). }
  pose proof (file_accepted parse_int parse_float show_num text SrilmIds Hf names a (word_prob p st) G N La oos) as Acc. cbn [read_format] in Acc.
  assert (Ac : (exists v', from_file parse_int parse_float SrilmClasses (lines_in (concat (map (class_line show_num SrilmIds) (file_rows names a (word_prob p st))))) oos = Ok v') <->
       forall c, In c a -> class_seen names us a c <> 0).
  { rewrite Acc. split.
    - intros H c Hc. apply In_nth_error in Hc as [i Hi]. assert (Li : i < length names) by (rewrite <- La; apply nth_error_Some; congruence).
      specialize (H i Li). rewrite (Wt i c Hi Li) in H. intros Z. rewrite Z in H. now apply H.
    - intros H i Li. destruct (nth_error a i) as [c|] eqn:Hi; [|apply nth_error_None in Hi; lia]. rewrite (Wt i c Hi Li).
      destruct (Nat.eqb_spec (class_seen names us a c) 0) as [Z|Z]; [exfalso; eapply H; [eapply nth_error_In; exact Hi|exact Z]|discriminate]. }
  split; [exact Ac|]. intros v' Ev'.
  pose proof (file_same parse_int parse_float show_num text SrilmIds Hf _ _ _ G La Sp oos v' Ev') as Sc. split; [exact Sc|]. split.
  - eapply same_number; [eapply rv_file; exact Ev'|exact F|exact La|exact Sc].
  - intros i c w Hi Hw. assert (Li : i < length names) by (rewrite <- La; apply nth_error_Some; congruence).
    rewrite (file_prob parse_int parse_float show_num text SrilmIds Hf _ _ _ G La oos v' i Ev' Li), (Wt i c Hi Li).
    rewrite (final_prob _ _ _ _ Hus _ _ _ _ _ _ Es Eo i c w Hi Hw). fold a names.
    pose proof (proj1 Ac (ex_intro _ v' Ev') c (nth_error_In _ _ Hi)) as Z. apply Nat.eqb_neq in Z. rewrite Z. now rewrite qc_div_1.
Qed.

(** *** Without a vocabulary file *)
Lemma seen_in names us w : In w names -> (seen names us w <> 0 <-> In w (concat us) \/ (w = UNK /\ exists t, In t (concat us) /\ ~ In t names)).
Proof.
  intros Hw. unfold seen. rewrite <- TrainCommandProofs.occurrences_in, in_map_iff. split.
  - intros (t & E & I). destruct (in_dec pystr_eq_dec t names) as [J|J]; [left; now subst|right; eauto].
  - intros [I|(-> & t & I & J)].
    + exists w. destruct (in_dec pystr_eq_dec w names); [auto|contradiction].
    + exists t. destruct (in_dec pystr_eq_dec t names); [contradiction|auto].
Qed.

Theorem C72_read_default passes args us out oos : sentences (wt_training_set args) us -> wt_vocabulary args = None ->
  wctool parse_int parse_float show_num passes args = Ok out -> wt_seekable args = true -> wt_output_format args = SrilmIds ->
  ((exists v', from_file parse_int parse_float SrilmClasses (lines_in out) oos = Ok v') <-> In UNK (concat us)).
Proof.
  intros Hus Hv E Hk Hfm. destruct (C72_read_srilm _ _ _ _ Hus E Hk Hfm) as (v & a & (b & p & st0 & st & Es & Eo & Ea) & La & H). destruct (H oos) as [Ac _]. rewrite Ac. clear H Ac.
  destruct (vocab_facts _ _ _ _ Hus _ _ _ _ Es) as (R & G & L & N & Sp). destruct (final_facts _ _ _ _ Hus _ _ _ _ _ _ Es Eo) as (_ & F & _). rewrite <- Ea in F.
  destruct (start_spec _ _ _ _ Hus _ _ _ _ Es) as (Ev & _). unfold wctool_vocabulary in Ev. rewrite Hv in Ev.
  destruct (word_counts_of _ _ Hus) as (wc & Ew & Nw & C & K). rewrite Ew in Ev. cbn [bind] in Ev.
  destruct (training_new wc _ v us Nw C K Ev) as [_ S O _ _].
  assert (Sh : shortlist v = v_id_to_word v) by (unfold shortlist; rewrite L; apply firstn_all). rewrite Sh in S.
  assert (Kn : forall t, In t (concat us) -> In t (v_id_to_word v)) by (intros t Ht; apply S; now left).
  destruct (problem_facts _ _ _ _ Hus _ _ _ _ Es) as (unk & U & Ep & P & A & Ec & (u & Iu & Nu)).
  destruct (C09_inverse_maps v R) as [_ I].
  assert (Hunk : nth_error (v_id_to_word v) unk = Some UNK) by (now apply I).
  assert (Lu : unk < length a) by (rewrite La; apply nth_error_Some; congruence).
  destruct (nth_error a unk) as [cu|] eqn:Hcu; [|apply nth_error_None in Hcu; lia].
  split.
  - intros H. specialize (H cu (nth_error_In _ _ Hcu)).
    assert (Z : exists n, nth_error (v_w2c v) unk = Some n /\ v_num_normal v <= n /\ forall j, nth_error (v_w2c v) j = Some n -> j = unk).
    { assert (Hn : exists nc, (forall m, nc = Some m -> 1 <= m) /\ from_word_counts wc nc = Ok v).
      { destruct (wt_num_classes args) as [|n] eqn:En; [|exists (Some (Datatypes.S n)); split; [intros m [= <-]; lia|exact Ev]].
        destruct (drop_specials wc) as [|x l] eqn:D; [|rewrite from_word_counts_fails in Ev by congruence; discriminate].
        exists (Some 1). split; [intros m [= <-]; lia|]. now rewrite <- counts_class_zero. }
      destruct Hn as (nc & Hn & Ev1). destruct (counts_vocab wc nc Nw Hn) as (v1 & order & Ev2 & _ & _ & Hw & Hc & Hk' & _). rewrite Ev1 in Ev2. injection Ev2 as <-.
      set (N0 := match nc with Some N => N | None => length order end) in *. set (k := Nat.min N0 (length order)) in *.
      assert (Eu : unk = length order + 2).
      { assert (X : nth_error (v_id_to_word v) (length order + 2) = Some UNK).
        { rewrite Hw, nth_error_app2 by (rewrite map_length; lia). rewrite map_length. replace (length order + 2 - length order) with 2 by lia. reflexivity. }
        apply I in X. congruence. }
      assert (Nth : forall j, nth_error (v_w2c v) (length order + j) = nth_error [k; k + 1; k + 2] j).
      { intros j. rewrite Hc, nth_error_app2 by (rewrite map_length, seq_length; lia). rewrite map_length, seq_length. f_equal. lia. }
      assert (Own : forall j, j < 3 -> forall i, nth_error (v_w2c v) i = Some (k + j) -> i = length order + j).
      { intros j Hj i Hi. destruct (Nat.lt_ge_cases i (length order)) as [Li|Li].
        - rewrite Hc, nth_error_app1 in Hi by (rewrite map_length, seq_length; lia).
          rewrite (map_nth_error _ _ _ (d := i)) in Hi by (rewrite nth_error_seq; apply Nat.ltb_lt in Li; now rewrite Li). injection Hi as Hi.
          exfalso. assert (i mod N0 < k); [|lia]. unfold k. apply Nat.min_glb_lt.
          + apply Nat.mod_upper_bound. unfold N0. destruct nc as [m|]; [specialize (Hn m eq_refl)|]; lia.
          + eapply Nat.le_lt_trans; [apply Nat.mod_le|exact Li]. unfold N0. destruct nc as [m|]; [specialize (Hn m eq_refl)|]; lia.
        - replace i with (length order + (i - length order)) in Hi by lia. rewrite Nth in Hi. destruct (i - length order) as [|[|[|x]]] eqn:D; cbn in Hi; [injection Hi as Hi; lia..|].
          destruct x; discriminate. }
      exists (k + 2). rewrite Eu. split; [exact (Nth 2)|]. split; [|intros j Hj; exact (Own 2 ltac:(lia) j Hj)].
      destruct (C10_normal_classes v R) as (B1 & _ & B3). destruct (Nat.le_gt_cases (v_num_normal v) (k + 2)) as [|Gt]; [assumption|exfalso].
      assert (Em : v_num_normal v - 1 = k + 2) by (rewrite Hk' in B1; lia). rewrite Em in B3.
      assert (Lk : k + 2 < length (v_classes v)) by (unfold VocabModel.num_classes in Hk'; lia).
      destruct (nth_error (v_classes v) (k + 2)) as [cl|] eqn:Ecl; [|apply nth_error_None in Ecl; lia].
      apply (B3 cl); [lia|reflexivity|]. destruct (C10_class_shape v (k + 2) cl R Ecl) as (_ & Ne & Nd & Bd & _).
      assert (Mem : forall i, In i (dict_keys (wc_probs cl)) -> i = length order + 2).
      { intros i Hi. destruct (C10_partition v i R (Bd i Hi)) as (k0 & Ek0 & _ & Hk0). apply (Hk0 (k + 2) cl Ecl) in Hi. subst k0. exact (Own 2 ltac:(lia) i Ek0). }
      destruct (wc_probs cl) as [|[i x] [|[j y] l]]; [congruence| |].
      - exists i, x, UNK. split; [reflexivity|]. rewrite (Mem i) by now left. rewrite <- Eu. split; [exact Hunk|reflexivity].
      - exfalso. cbn [dict_keys map fst] in Nd, Mem. inversion Nd as [|? ? Nn _]; subst. apply Nn. left. rewrite (Mem j), (Mem i); cbn [In]; auto. }
    destruct Z as (n & Hn & Ln & Own).
    assert (En : cu = n).
    { destruct (BigramProps.C43_result _ _ _ _ _ _ P A Ec Eo) as (_ & _ & Ks & _). rewrite Ep in Ks. cbn [BigramModel.num_words word_name wctool_problem] in Ks.
      specialize (Ks unk). rewrite L, (nth_error_nth _ _ _ Hunk) in Ks. specialize (Ks ltac:(congruence) eq_refl). rewrite <- Ea in Ks.
      unfold BigramModel.class_of in Ks. rewrite (nth_error_nth _ _ _ Hcu), (nth_error_nth _ _ _ Hn) in Ks. exact Ks. }
    subst cu. unfold class_seen in H.
    assert (Hs : seen (v_id_to_word v) us UNK <> 0).
    { intros Z. apply H. apply list_sum_zero. intros x Hx. apply in_map_iff in Hx as (i & <- & Hi). apply members_in in Hi.
      rewrite Ea in Hi. apply (special_members _ _ _ _ Hus _ _ _ _ _ _ Es Eo n i Ln) in Hi. apply Own in Hi. subst i. now rewrite (nth_error_nth _ _ _ Hunk). }
    apply seen_in in Hs; [|apply Sp; cbn; auto]. destruct Hs as [Hs|(_ & t & Ht & Hn')]; [exact Hs|]. contradiction Hn'. auto.
  - intros Hu c Hc. apply In_nth_error in Hc as [i Hi]. assert (Li : i < length (v_id_to_word v)) by (rewrite <- La; apply nth_error_Some; congruence).
    intros Z. unfold class_seen in Z. rewrite list_sum_zero in Z. specialize (Z (seen (v_id_to_word v) us (nth i (v_id_to_word v) []))).
    assert (Hw : In (nth i (v_id_to_word v) []) (v_id_to_word v)) by (now apply nth_In).
    assert (Hin : In (nth i (v_id_to_word v) []) (concat us)).
    { apply S in Hw as [Hw|Hw]; [exact Hw|]. destruct Hus as (lss & _ & Hu2). unfold utterances in Hu2.
      assert (Sent : In SOS (concat us) /\ In EOS (concat us)).
      { assert (X : In SOS u /\ In EOS u).
        { clear - Hu2 Iu Nu. induction Hu2 as [|l x ls xs Hx Hu2 IH]; [destruct Iu|]. destruct Iu as [->|Iu]; [|auto].
          destruct Hx as [|line toks u Ht Hne Ff]; [congruence|]. destruct (framed_shape _ _ Hne Ff) as (mid & ->). split; [now left|]. right. apply in_or_app. right. now left. }
        split; apply in_concat; exists u; split; try exact Iu; apply X. }
      destruct Hw as [<-|[<-|[<-|[]]]]; [apply Sent|apply Sent|exact Hu]. }
    apply (proj2 (seen_in (v_id_to_word v) us _ Hw)); [now left|]. apply Z. apply in_map_iff. exists i. split; [reflexivity|]. now apply members_in.
Qed.

(** *** Output that cannot be rewound *)
Lemma row_names p s : map (fun r => fst (fst r)) (words p s) = map (word_name p) (seq 0 (BigramModel.num_words p)).
Proof. unfold words. rewrite map_map. apply map_ext. reflexivity. Qed.

Lemma nodup_twice {X} (l k : list X) x : NoDup (l ++ k) -> In x l -> In x k -> False.
Proof.
  induction l as [|y l IH]; [intros _ []|]. cbn [app]. intros Nd I1 I2. inversion Nd as [|? ? N1 N2]; subst.
  destruct I1 as [->|I1]; [apply N1; apply in_or_app; now right|auto].
Qed.

(** Each save adds another copy, so that the output cannot be read if there is a save in
    each pass. If not, the output is what it would be in a file. *)
Theorem C72_stream passes args us out format : sentences (wt_training_set args) us ->
  wctool parse_int parse_float show_num passes args = Ok out -> wt_seekable args = false ->
  wt_output_format args = ClassIds /\ format = Classes \/ wt_output_format args = SrilmIds /\ format = SrilmClasses ->
  ((1 <= wt_output_frequency args)%Z -> forall oos, exists e, from_file parse_int parse_float format (lines_in out) oos = Err e) /\
  ((wt_output_frequency args <= 0)%Z -> wctool parse_int parse_float show_num passes (to_file args) = Ok out).
Proof.
  intros Hus E Hk Hfm. assert (Ef : wt_output_format args <> OtherIds /\ format = read_format (wt_output_format args)) by (destruct Hfm as [[-> ->]|[-> ->]]; split; [discriminate|reflexivity|discriminate|reflexivity]).
  destruct Ef as [Hf ->]. clear Hfm. apply run_inv in E as (v & b & p & st0 & st & sts & Es & Eo & -> & [S1 S2]).
  destruct (vocab_facts _ _ _ _ Hus _ _ _ _ Es) as (R & G & L & N & Sp). destruct (problem_facts _ _ _ _ Hus _ _ _ _ Es) as (unk & U & Ep & _).
  assert (En : BigramModel.num_words p = length (v_id_to_word v)) by (rewrite Ep; exact L).
  assert (Pos : 0 < BigramModel.num_words p) by (rewrite En; specialize (Sp SOS (or_introl eq_refl)); destruct (v_id_to_word v); [destruct Sp|cbn; lia]).
  assert (Nm : forall s, map (fun r => fst (fst r)) (words p s) = v_id_to_word v).
  { intros s. rewrite (words_rows _ _ _ _ Hus _ _ _ _ s Es). unfold file_rows. rewrite map_map. cbn [fst]. apply nth_error_ext. intros i.
    destruct (Nat.lt_ge_cases i (length (v_id_to_word v))) as [H|H].
    - rewrite (map_nth_error _ _ _ (d := i)) by (rewrite nth_error_seq; apply Nat.ltb_lt in H; now rewrite H). symmetry. now apply nth_error_nth'.
    - rewrite (proj2 (nth_error_None (v_id_to_word v) i) H). apply nth_error_None. now rewrite map_length, seq_length. }
  split.
  - intros Hq oos. specialize (S1 Hq Pos). destruct sts as [|s1 sts]; [congruence|].
    destruct (from_file _ _ _ _ oos) as [v'|e] eqn:Ev; [exfalso|eauto].
    assert (Eout : save show_num args p st (fold_left (fun o s => save show_num args p s o) (s1 :: sts) []) =
      concat (map (class_line show_num (wt_output_format args)) (concat (map (words p) ((s1 :: sts) ++ [st]))))).
    { change (save show_num args p st (fold_left (fun o s => save show_num args p s o) (s1 :: sts) [])) with (fold_left (fun o s => save show_num args p s o) [st] (fold_left (fun o s => save show_num args p s o) (s1 :: sts) [])).
      rewrite <- fold_left_app, (saves_stream show_num args p Hk). rewrite app_nil_l. clear. generalize ((s1 :: sts) ++ [st]). intros l. induction l as [|s l IH]; [reflexivity|].
      cbn [map concat]. rewrite map_app, concat_app, IH. reflexivity. }
    rewrite Eout in Ev. set (rows := concat (map (words p) ((s1 :: sts) ++ [st]))) in *.
    assert (Hr : map (fun r => fst (fst r)) rows = concat (map (fun _ => v_id_to_word v) ((s1 :: sts) ++ [st]))).
    { unfold rows. clear - Nm. generalize ((s1 :: sts) ++ [st]). intros l. induction l as [|s l IH]; [reflexivity|]. cbn [map concat]. rewrite map_app, Nm, IH. reflexivity. }
    assert (Gr : Forall (fun r : pystr * nat * Qc => good_word (fst (fst r))) rows).
    { rewrite <- Forall_map, Hr. apply Forall_concat. apply Forall_forall. intros x Hx. apply in_map_iff in Hx as (_ & <- & _). exact G. }
    destruct (proj1 (C09_file_accepted _ _ _ _ _) (ex_intro _ _ Ev)) as (es & He & Nd & _).
    rewrite (entries_unique _ _ _ _ _ _ He (rows_entries parse_int parse_float show_num text _ rows Hf Gr)) in Nd.
    assert (Ew : map e_word (map (row_entry (wt_output_format args)) rows) = map (fun r => fst (fst r)) rows) by (rewrite map_map; apply map_ext; intros r; now apply row_word).
    rewrite Ew, Hr in Nd. rewrite map_app in Nd. cbn [map] in Nd. rewrite concat_app in Nd. cbn [concat] in Nd. rewrite app_nil_r in Nd.
    specialize (Sp SOS (or_introl eq_refl)). rewrite <- app_assoc in Nd.
    apply (nodup_twice _ _ SOS Nd Sp). apply in_or_app. now right.
  - intros Hq. rewrite (S2 Hq Pos). cbn [fold_left].
    destruct (loop_succeeds show_num (to_file args) b p passes st0 [] st Eo) as (out' & El).
    unfold wctool. change (wctool_start parse_int parse_float (to_file args)) with (wctool_start parse_int parse_float args). rewrite Es. cbn [bind]. rewrite El.
    apply loop_saves in El as (st' & sts' & Eo' & -> & _). rewrite Eo in Eo'. injection Eo' as <-.
    unfold save. cbn [wt_seekable to_file wt_output_format]. now rewrite Hk.
Qed.

(** *** The train command *)
Theorem C72_train_fails {A : arith} {accum : Type} passes args us out (targs : train_args) (f : train_file A accum) :
  sentences (wt_training_set args) us -> wt_vocabulary args = None ->
  wctool parse_int parse_float show_num passes args = Ok out -> wt_seekable args = true -> wt_output_format args = SrilmIds ->
  ~ In UNK (concat us) ->
  has_keys f = false -> ta_vocabulary targs = Some (lines_in out) -> ta_vocabulary_format targs = SrilmClasses ->
  exists e, read_vocabulary parse_int parse_float targs f = (Err e, f).
Proof.
  intros Hus Hv E Hk Hfm Hu Kf Tv Tf. unfold read_vocabulary. cbv zeta. rewrite Kf, Tv, Tf.
  destruct (compute_word_counts _) as [wc|e]; cbn [bind]; [|eauto].
  destruct (from_file parse_int parse_float SrilmClasses (lines_in out) (dict_keys wc)) as [v'|e] eqn:Ev; cbn [bind]; [|eauto].
  exfalso. apply Hu. apply (C72_read_default passes args us out (dict_keys wc) Hus Hv E Hk Hfm). eauto.
Qed.

End Wctool.
Print Assumptions C72_runs.
Print Assumptions C72_read_classes.
Print Assumptions C72_read_srilm.
Print Assumptions C72_read_default.
Print Assumptions C72_stream.
Print Assumptions C72_train_fails.

(** *** Cases *)
Definition ex_wctool (text : string) (format : class_format) (frequency : Z) (seekable : bool) : wctool_args :=
  mkWctool [str text] None Words 2000 (Some Theano) format frequency seekable.

(** With the default options, the classes of "a b a" are written to a file that the train
    command cannot read, although every word of the text has a line in it. *)
Theorem C72_default_options_refuted parse_int parse_float show_num :
  number_text parse_int parse_float show_num ->
  ~ (forall args passes us out, wt_vocabulary args = None -> wt_seekable args = true -> wt_output_format args = SrilmIds ->
       sentences (wt_training_set args) us -> wctool parse_int parse_float show_num passes args = Ok out ->
       exists v', from_file parse_int parse_float SrilmClasses (lines_in out) [] = Ok v').
Proof.
  intros text H. set (args := ex_wctool "a b a" SrilmIds 1 true).
  assert (Hus : sentences (wt_training_set args) [[SOS; str "a"; str "b"; str "a"; EOS]]).
  { exists [[str "a b a"]]. split.
    - constructor; [|constructor]. apply lines_last; [discriminate|]. intros I. cbn in I. repeat (destruct I as [E|I]; [discriminate|]). exact I.
    - cbn [concat app]. constructor; [|constructor]. apply utterance_of_iff. reflexivity. }
  destruct (proj2 (C72_runs parse_int parse_float show_num args _ Hus)) as (passes & out & E).
  { split; [discriminate|]. split; [eexists; split; [now left|discriminate]|left; discriminate]. }
  pose proof (H args passes _ out eq_refl eq_refl eq_refl Hus E) as R.
  apply (C72_read_default parse_int parse_float show_num text passes args _ out [] Hus eq_refl E eq_refl eq_refl) in R.
  cbn in R. repeat (destruct R as [D|R]; [discriminate|]). exact R.
Qed.
Print Assumptions C72_default_options_refuted.

(** The two formats. The words are in classes of their own, and <unk> is not seen. *)
Definition ex_out (format : class_format) (seekable : bool) : result pystr :=
  wctool ex_parse_int ex_parse_float ex_show_num 1 (ex_wctool "a b a" format 1 seekable).
Example C72_example_classes : ex_out ClassIds true = Ok (concat (map (fun l => l ++ [newline]) [str "b 0"; str "a 1"; str "<s> 2"; str "</s> 3"; str "<unk> 4"])).
Proof. vm_compute. reflexivity. Qed.
Example C72_example_srilm : ex_out SrilmIds true = Ok (concat (map (fun l => l ++ [newline])
  [str "CLASS-00000 1/1 b"; str "CLASS-00001 1/1 a"; str "CLASS-00002 1/1 <s>"; str "CLASS-00003 1/1 </s>"; str "CLASS-00004 0/1 <unk>"])).
Proof. vm_compute. reflexivity. Qed.
Example C72_example_stream : match ex_out ClassIds true, ex_out ClassIds false with Ok a, Ok b => b = a ++ a | _, _ => False end.
Proof. vm_compute. reflexivity. Qed.
(** A vocabulary file with two words in one class; the probabilities are read back *)
Definition ex_two : wctool_args := mkWctool [str "a b a c <unk>"] (Some [str "a 1"; str "b 1"; str "c 1"]) Classes 2000 (Some Numpy) SrilmIds 1 true.
Example C72_example_probs :
  match wctool_start ex_parse_int ex_parse_float ex_two with
  | Ok (v, _, p, st) => map (fun w => this (word_prob p st w)) (seq 0 6) = [1 # 2; 1 # 4; 1 # 4; 1 # 1; 1 # 1; 1 # 1]%Q
  | Err _ => False end.
Proof. vm_compute. reflexivity. Qed.
(** With <unk> in the text, the file can be read *)
Example C72_example_read :
  match wctool ex_parse_int ex_parse_float ex_show_num 1 (ex_wctool "a b a <unk>" SrilmIds 1 true) with
  | Ok out => match from_file ex_parse_int ex_parse_float SrilmClasses (lines_in out) [str "q"] with
              | Ok v => v_id_to_word v = [str "b"; str "a"; SOS; EOS; UNK; str "q"] /\ v_w2c v = [0; 1; 2; 3; 4]
              | Err _ => False end
  | Err _ => False end.
Proof. vm_compute. auto. Qed.
