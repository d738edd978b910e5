(** Proofs about wctool: the vocabulary, the counts and the optimizer. *)
From Coq Require Import QArith Qcanon Lia.
From Verif Require Import Base ListLib BaseLib QcLib Dict Strings TextModel TextSpec TextProofs VocabModel VocabSpec VocabProofs VocabBuild VocabStats VocabProps
  LatticeSpec IterSpec TrainCommandModel TrainCommandSpec TrainCommandProofs TrainCommandVocab
  BigramModel BigramSpec BigramProofs BigramGain BigramRuns BigramStats WctoolModel WctoolSpec WctoolProofs.
From Verif Require BigramProps.
Local Open Scope nat_scope.

Lemma special_good w : is_special w -> good_word w.
Proof.
  intros [<-|[<-|[<-|[]]]]; (split; [discriminate|]); intros c H; cbn in H; repeat (destruct H as [<-|H]; [reflexivity|]); destruct H.
Qed.
Lemma utterance_words line u : utterance_of line u -> Forall good_word u.
Proof.
  intros H. destruct H as [|line toks u Ht Hne F]; [constructor|]. inversion F as [toks' pre post Hpre Hpost E1 E2]; subst.
  apply Forall_app. split; [|apply Forall_app; split].
  - destruct Hpre as [[_ ->]|[_ ->]]; repeat constructor; apply words_SOS.
  - eapply tokens_words. exact Ht.
  - destruct Hpost as [[_ ->]|[_ ->]]; repeat constructor; apply words_EOS.
Qed.
Lemma entries_words pi pf format lines es : entries pi pf format lines es -> Forall (fun e => good_word (e_word e)) es.
Proof.
  induction 1 as [|line lines es A H IH|line lines e es A H IH]; [constructor|exact IH|]. constructor; [|exact IH].
  destruct A as [line word T|line word id z T E|line id prob word p T E]; cbn [e_word]; apply tokens_words in T; rewrite Forall_forall in T; apply T; cbn [In]; auto.
Qed.

Section Setup.
Variable parse_int : pystr -> result Z.
Variable parse_float : pystr -> result Qc.
Variable args : wctool_args.
Variable us : list (list pystr).
Hypothesis Hus : sentences (wt_training_set args) us.

Lemma sentence_words : Forall good_word (concat us).
Proof using Hus.
  destruct Hus as (lss & _ & U). unfold utterances in U. apply Forall_concat. apply Forall_forall. intros u Hu.
  clear - U Hu. induction U as [|l u' ls us H U IH]; [destruct Hu|]. destruct Hu as [->|Hu]; [eapply utterance_words; exact H|auto].
Qed.

Lemma vocabulary_shape v : wctool_vocabulary parse_int parse_float args = Ok v ->
  reachable_vocab v /\ Forall good_word (v_id_to_word v) /\ num_shortlist_words v = length (v_id_to_word v).
Proof using Hus.
  unfold wctool_vocabulary. destruct (wt_vocabulary args) as [lines|].
  - intros E. assert (R : reachable_vocab v) by (eapply rv_file; exact E). split; [exact R|].
    destruct (proj1 (C09_file_accepted _ _ _ _ _) (ex_intro _ _ E)) as (es & Hes & _ & _).
    destruct (C09_file_layout _ _ _ _ _ _ _ E Hes) as (ms & extra & Hw & Hs & Hms & Hx).
    assert (extra = []) as -> by (destruct extra as [|x extra]; [reflexivity|destruct (proj1 (Hx x)) as [[] _]; now left]).
    rewrite app_nil_r in Hw. rewrite Hw, Hs, app_length, map_length. split; [|reflexivity].
    apply Forall_app. split; [apply Forall_map; now apply entries_words in Hes|]. apply Forall_forall. intros t Ht. apply special_good, Hms, Ht.
  - destruct (word_counts_of _ _ Hus) as (wc & Ew & N & C & K). rewrite Ew. cbn [bind]. intros E.
    assert (R : reachable_vocab v) by (eapply rv_counts; eauto). split; [exact R|].
    destruct (training_new wc _ v us N C K E) as [_ S O _ _].
    assert (L : num_shortlist_words v = length (v_id_to_word v)).
    { pose proof (firstn_skipn (num_shortlist_words v) (v_id_to_word v)) as F. fold (shortlist v) (out_of_shortlist v) in F. rewrite O, app_nil_r in F.
      destruct (reachable_wf v R) as (fn & n & W). pose proof (wf_short v fn n W) as Le. fold (num_shortlist_words v) in Le.
      apply (f_equal (@length _)) in F. unfold shortlist in F. rewrite firstn_length in F. lia. }
    split; [|exact L]. apply Forall_forall. intros w Hw. assert (I : In w (shortlist v)) by (unfold shortlist; rewrite L, firstn_all; exact Hw).
    apply S in I as [I|I]; [|now apply special_good]. pose proof sentence_words as G. rewrite Forall_forall in G. auto.
Qed.

(** The training data *)
Lemma mapM_utterances v unk ls us' : Forall2 utterance_of ls us' ->
  mapM (fun line => do words <- utterance_from_line line; Ok (sequence_ids v unk words)) ls = Ok (map (sequence_ids v unk) us').
Proof.
  induction 1 as [|l u ls us' H U IH]; [reflexivity|]. cbn [mapM map]. apply utterance_of_iff in H. rewrite H. cbn [bind]. rewrite IH. reflexivity.
Qed.
Lemma corpus_ids v unk : word_to_id v UNK = Some unk -> wctool_corpus args v = Ok (map (sequence_ids v unk) us).
Proof using Hus.
  intros E. destruct Hus as (lss & Hl & U). unfold wctool_corpus. rewrite E, (lines_in_all _ _ Hl). now apply mapM_utterances.
Qed.

Lemma over_concat f corpus : (forall l m, f (l ++ m) = f l + f m) -> f [] = 0 -> over f corpus = f (concat corpus).
Proof. intros H H0. induction corpus as [|l corpus IH]; cbn [over fold_right concat]; [now rewrite H0|]. rewrite H. unfold over in IH. now rewrite IH. Qed.
Lemma occ_app w l m : BigramStats.occurrences w (l ++ m) = BigramStats.occurrences w l + BigramStats.occurrences w m.
Proof. induction l as [|x l IH]; cbn [app BigramStats.occurrences]; [reflexivity|]. rewrite IH. lia. Qed.

Lemma corpus_count v unk i w : reachable_vocab v -> word_to_id v UNK = Some unk -> nth_error (v_id_to_word v) i = Some w ->
  unigram_counts (BigramModel.bigram_statistics (map (sequence_ids v unk) us)) i = Z.of_nat (seen (v_id_to_word v) us w).
Proof using.
  intros R U Hw. rewrite (proj1 (statistics_spec _)). f_equal. rewrite over_concat by (try apply occ_app; reflexivity).
  unfold seen, sequence_ids. rewrite <- concat_map.
  destruct (C09_inverse_maps v R) as [N I].
  induction (concat us) as [|t l IH]; [reflexivity|]. cbn [map BigramStats.occurrences VocabSpec.occurrences]. rewrite IH. f_equal.
  destruct (in_dec pystr_eq_dec t (v_id_to_word v)) as [J|J].
  - apply In_nth_error in J as [j Hj]. rewrite (proj2 (I j t) Hj). destruct (Nat.eqb_spec j i) as [->|D]; destruct (pystr_eq_dec w t) as [->|D']; try reflexivity; [congruence|].
    exfalso. apply D. apply I in Hj, Hw. congruence.
  - destruct (word_to_id v t) as [j|] eqn:Ej; [apply I in Ej; apply nth_error_In in Ej; contradiction|].
    destruct (Nat.eqb_spec unk i) as [->|D]; destruct (pystr_eq_dec w UNK) as [->|D']; try reflexivity; [apply I in U; congruence|].
    exfalso. apply D. apply I in Hw. congruence.
Qed.

Lemma corpus_fine v unk : reachable_vocab v -> num_shortlist_words v = length (v_id_to_word v) -> word_to_id v UNK = Some unk ->
  (exists u, In u us /\ u <> []) ->
  corpus_ok (num_shortlist_words v) (fun w => nth w (v_id_to_word v) []) (map (sequence_ids v unk) us).
Proof using Hus.
  intros R L U (u & Iu & Nu). destruct (C09_inverse_maps v R) as [_ I]. split; [|split].
  - intros line w Hl Hw. apply in_map_iff in Hl as (x & <- & _). unfold sequence_ids in Hw. apply in_map_iff in Hw as (t & <- & _).
    rewrite L. destruct (word_to_id v t) as [j|] eqn:Ej; [apply I in Ej|apply I in U]; apply nth_error_Some; congruence.
  - exists (sequence_ids v unk u). split; [now apply in_map|]. destruct u; [congruence|discriminate].
  - destruct (C09_special_tokens_present v SOS R) as (sos & Es & _); [cbn; auto|]. destruct (C09_special_tokens_present v EOS R) as (eos & Ee & _); [cbn; auto|].
    exists sos, eos. rewrite (nth_error_nth _ _ _ (proj1 (I _ _) Es)), (nth_error_nth _ _ _ (proj1 (I _ _) Ee)). split; [reflexivity|]. split; [reflexivity|].
    destruct Hus as (lss & _ & H). unfold utterances in H. clear - H Es Ee. apply Forall_map.
    induction H as [|l x ls xs H F IH]; constructor; [|exact IH]. destruct H as [|line toks x Ht Hne F']; [now left|]. right.
    destruct (framed_shape _ _ Hne F') as (mid & ->). exists (sequence_ids v unk mid). unfold sequence_ids. cbn [map]. rewrite map_app, Es. cbn [map]. now rewrite Ee.
Qed.

(** The optimizer *)
Lemma start_spec v b p st0 : wctool_start parse_int parse_float args = Ok (v, b, p, st0) ->
  wctool_vocabulary parse_int parse_float args = Ok v /\ wt_method args = Some b /\
  (exists unk, word_to_id v UNK = Some unk /\ p = wctool_problem v (map (sequence_ids v unk) us)) /\ create p (v_w2c v) = Ok st0.
Proof using Hus.
  unfold wctool_start. destruct (wctool_vocabulary _ _ args) as [v0|] eqn:Ev; [|discriminate]. cbn [bind].
  destruct (wctool_corpus args v0) as [c|] eqn:Ec; [|discriminate]. cbn [bind]. cbv zeta. destruct (wt_method args) as [b0|]; [|discriminate].
  destruct (create _ _) as [s|] eqn:Es; [|discriminate]. cbn [bind]. intros [= <- <- <- <-]. split; [reflexivity|]. split; [reflexivity|]. split; [|exact Es].
  destruct (word_to_id v0 UNK) as [unk|] eqn:U; [|unfold wctool_corpus in Ec; rewrite U in Ec; discriminate].
  exists unk. split; [reflexivity|]. rewrite (corpus_ids _ _ U) in Ec. injection Ec as <-. reflexivity.
Qed.

Lemma vocab_assignment v p : reachable_vocab v -> BigramModel.num_words p = num_shortlist_words v -> BigramModel.num_classes p = VocabModel.num_classes v ->
  assignment p (v_w2c v).
Proof using.
  intros R E1 E2. split; [now rewrite E1|]. rewrite E2. apply Forall_forall. intros c Hc. apply In_nth_error in Hc as [i Hi].
  assert (Li : i < num_shortlist_words v) by (apply nth_error_Some; congruence).
  destruct (C10_partition v i R Li) as (k & Ek & Lk & _). rewrite Hi in Ek. injection Ek as ->. exact Lk.
Qed.

Lemma nonempty_sentence v unk : reachable_vocab v -> create (wctool_problem v (map (sequence_ids v unk) us)) (v_w2c v) <> Err ValueError ->
  exists u, In u us /\ u <> [].
Proof using.
  intros R H. destruct (Exists_dec (fun u : list pystr => u <> []) us) as [E|E]; [intros []; [right; congruence|left; congruence]|now apply Exists_exists in E|].
  exfalso. apply H. assert (Z : forall u, In u us -> u = []).
  { intros u Hu. destruct u; [reflexivity|]. exfalso. apply E. apply Exists_exists. eexists. split; [exact Hu|discriminate]. }
  unfold create. replace (forallb _ _) with true; [reflexivity|]. symmetry. apply forallb_forall. intros w _. cbn [word_counts wctool_problem].
  rewrite (proj1 (statistics_spec _)). apply Z.eqb_eq. change 0%Z with (Z.of_nat 0). f_equal. clear - Z.
  induction us as [|u l IH]; [reflexivity|]. cbn [map over fold_right]. rewrite (Z u) by now left. cbn. apply IH. intros x Hx. apply Z. now right.
Qed.
End Setup.
