(** The vocabulary of a train command. *)
From Coq Require Import QArith Qcanon Permutation.
From Verif Require Import Base ListLib BaseLib QcLib Dict Strings TextModel TextSpec TextProofs VocabModel VocabSpec VocabProofs VocabBuild VocabStats VocabProps
  NetModel SavedModel IterModel IterSpec TrainerModel TrainCommandModel TrainCommandSpec TrainCommandProofs.
Local Open Scope nat_scope.

(** ** A new vocabulary *)
Lemma from_counts_unigram wc nc v : NoDup (map fst wc) -> from_word_counts wc nc = Ok v ->
  v_unigram v = Some (unigram_of (map (count_of (drop_specials wc)) (v_id_to_word v))).
Proof.
  intros N E. assert (R : reachable_vocab v) by (eapply rv_counts; eauto). pose proof (proj1 (C09_inverse_maps v R)) as Nv.
  unfold from_word_counts in E. fold (drop_specials wc) in E. cbv zeta in E.
  destruct (foldM _ _ _) as [[[[a b] c] d]|]; [|discriminate]. cbn [bind] in E.
  destruct (add_special_tokens _) as [[[a' b'] c']|]; [|discriminate]. cbn [bind] in E.
  destruct (make_vocab a' b' c') as [v0|]; [|discriminate]. cbn [bind] in E.
  assert (G : v_id_to_word v0 = v_id_to_word v /\ v_unigram v = Some (unigram_of (count_array v0 (drop_specials wc)))).
  { unfold compute_probs in E. destruct (word_to_id v0 SOS), (word_to_id v0 EOS), (word_to_id v0 UNK); try discriminate.
    destruct (mapM _ _); [|discriminate]. cbn [bind] in E. injection E as <-. split; reflexivity. }
  destruct G as [G1 G2]. rewrite G2. do 2 f_equal. rewrite <- G1 in Nv |- *.
  apply nth_ext with 0 0; [now rewrite count_array_length, map_length|].
  intros i Hi. rewrite count_array_length in Hi. pose proof Hi as Hi'.
  apply nth_error_Some in Hi. destruct (nth_error (v_id_to_word v0) i) as [w|] eqn:Ew; [|congruence].
  rewrite (count_array_nth v0 _ i w Nv (drop_specials_nodup _ N) Ew). symmetry. erewrite nth_error_nth; [reflexivity|]. now apply map_nth_error.
Qed.

Lemma unigram_frequency tokens words (wc : dict pystr nat) : NoDup words -> incl tokens words ->
  (forall w, In w words -> count_of wc w = occurrences w tokens) ->
  unigram_of (map (count_of wc) words) = map (frequency tokens) words.
Proof.
  intros N I H. rewrite <- (counts_frequency tokens words wc N I H). unfold unigram_of. cbv zeta. now destruct (0 <? _).
Qed.

Lemma counts_class_zero wc : drop_specials wc = [] -> from_word_counts wc (Some 0) = from_word_counts wc (Some 1).
Proof. intros E. unfold from_word_counts. fold (drop_specials wc). rewrite E. reflexivity. Qed.

Lemma training_new wc nc v us : NoDup (map fst wc) -> (forall w, count_of wc w = occurrences w (concat us)) ->
  (forall w, In w (dict_keys wc) <-> In w (concat us)) -> from_word_counts wc nc = Ok v -> training_vocabulary nc us v.
Proof.
  intros N C K E. assert (R : reachable_vocab v) by (eapply rv_counts; eauto).
  assert (G : exists order, Permutation order (filter (fun x => if in_dec pystr_eq_dec (fst x) specials then false else true) wc) /\
    v_id_to_word v = map fst order ++ specials /\ num_shortlist_words v = length (v_id_to_word v) /\
    num_classes v = match nc with Some k => Nat.min k (length order) | None => length order end + 3).
  { assert (H : exists nc', (forall n, nc' = Some n -> 1 <= n) /\ from_word_counts wc nc' = Ok v /\ (nc' = nc \/ (nc' = Some 1 /\ nc = Some 0 /\ drop_specials wc = []))).
    { destruct nc as [[|n]|].
      - destruct (drop_specials wc) as [|x l] eqn:D; [|rewrite from_word_counts_fails in E by congruence; discriminate].
        exists (Some 1). split; [intros n [= <-]; lia|]. split; [now rewrite <- counts_class_zero|auto].
      - exists (Some (S n)). split; [intros m [= <-]; lia|auto].
      - exists None. split; [discriminate|auto]. }
    destruct H as (nc' & Hn & E' & Hc'). destruct (counts_vocab wc nc' N Hn) as (v' & order & Ev & Hp & _ & Hw & Hc & Hk & _).
    rewrite E' in Ev. injection Ev as <-. exists order. split; [exact Hp|]. split; [exact Hw|]. unfold num_shortlist_words. rewrite Hc, Hw.
    rewrite !app_length, !map_length, seq_length. split; [reflexivity|]. rewrite Hk. f_equal. destruct Hc' as [->|(-> & -> & D)].
    - destruct nc; [reflexivity|apply Nat.min_id].
    - destruct order as [|x o]; [reflexivity|]. exfalso. assert (I : In x (drop_specials wc)); [|now rewrite D in I].
      apply drop_specials_in. assert (J : In x (x :: o)) by now left. apply (Permutation_in _ Hp) in J. apply filter_In in J as [J1 J2]. split; [exact J1|].
      destruct (in_dec pystr_eq_dec (fst x) specials); [discriminate|assumption]. }
  destruct G as (order & Hp & Hw & Hs & Hk).
  assert (Hin : forall w, In w (v_id_to_word v) <-> In w (concat us) \/ is_special w).
  { intros w. rewrite Hw, in_app_iff, <- K. unfold dict_keys.
    assert (Hm : In w (map fst order) <-> In w (map fst wc) /\ ~ is_special w).
    { rewrite !in_map_iff. split.
      - intros ([x c] & <- & I). apply (Permutation_in _ Hp) in I. apply filter_In in I as [I J]. cbn [fst] in *.
        destruct (in_dec pystr_eq_dec x specials); [discriminate|]. split; [now exists (x, c)|assumption].
      - intros ((x & <- & I) & J). exists x. split; [reflexivity|]. apply (Permutation_in _ (Permutation_sym Hp)). apply filter_In. split; [exact I|].
        destruct (in_dec pystr_eq_dec (fst x) specials); [contradiction|reflexivity]. }
    rewrite Hm. unfold is_special. destruct (in_dec pystr_eq_dec w specials); tauto. }
  constructor.
  - exact (proj1 (C09_inverse_maps v R)).
  - intros w. unfold shortlist. rewrite Hs, firstn_all. apply Hin.
  - unfold out_of_shortlist. rewrite Hs. apply skipn_all.
  - exists (map fst order). rewrite map_length. auto.
  - rewrite (from_counts_unigram _ _ _ N E). f_equal. apply unigram_frequency.
    + exact (proj1 (C09_inverse_maps v R)).
    + intros w I. apply filter_In in I as [I _]. apply Hin. now left.
    + intros w _. rewrite (drop_counts wc w N), C, occurrences_filter. reflexivity.
Qed.

Lemma probs_fields v wc b v' : compute_probs v wc b = Ok v' -> v_id_to_word v' = v_id_to_word v /\ v_w2c v' = v_w2c v.
Proof.
  unfold compute_probs. destruct (word_to_id v SOS), (word_to_id v EOS), (word_to_id v UNK); try discriminate. destruct b.
  - destruct (mapM _ _); [|discriminate]. cbn [bind]. intros [= <-]. auto.
  - intros [= <-]. auto.
Qed.

Section New.
Variable parse_int : pystr -> result Z.
Variable parse_float : pystr -> result Qc.

Lemma file_new format lines es wc v0 b v us : NoDup (map fst wc) -> (forall w, count_of wc w = occurrences w (concat us)) ->
  (forall w, In w (dict_keys wc) <-> In w (concat us)) -> entries parse_int parse_float format lines es ->
  VocabModel.from_file parse_int parse_float format lines (dict_keys wc) = Ok v0 -> compute_probs v0 wc b = Ok v -> (format <> Classes -> b = false) ->
  file_vocabulary format es us v.
Proof.
  intros N C K He E0 E Hb. assert (R0 : reachable_vocab v0) by (eapply rv_file; eauto). assert (R : reachable_vocab v) by (eapply rv_probs; eauto).
  destruct (C09_file_layout _ _ _ _ _ _ _ E0 He) as (ms & extra & Hw & Hs & Hms & Hx). destruct (probs_fields _ _ _ _ E) as [F1 F2].
  assert (Sh : shortlist v = map e_word es ++ ms).
  { unfold shortlist, num_shortlist_words. rewrite F1, F2. unfold num_shortlist_words in Hs. rewrite Hs, Hw, app_assoc.
    rewrite firstn_app. rewrite app_length, map_length, Nat.sub_diag. cbn [firstn]. rewrite app_nil_r. apply firstn_all2. rewrite app_length, map_length. lia. }
  assert (Oo : out_of_shortlist v = extra).
  { unfold out_of_shortlist, num_shortlist_words. rewrite F1, F2. unfold num_shortlist_words in Hs. rewrite Hs, Hw, app_assoc.
    rewrite skipn_app. rewrite app_length, map_length, Nat.sub_diag. cbn [skipn]. rewrite skipn_all2; [reflexivity|]. rewrite app_length, map_length. lia. }
  assert (Nv : NoDup (v_id_to_word v)) by exact (proj1 (C09_inverse_maps v R)).
  constructor.
  - exact Nv.
  - exists ms. auto.
  - intros w. rewrite Oo, Sh, in_app_iff, Hx, K, Hms. destruct (in_dec pystr_eq_dec w (map e_word es)); [tauto|].
    unfold is_special. destruct (in_dec pystr_eq_dec w specials); tauto.
  - destruct (C11_unigram_probs v0 wc b R0 N) as (v' & Ev & Hu & _). rewrite E in Ev. injection Ev as <-. rewrite Hu. f_equal. rewrite F1.
    apply counts_frequency.
    + now rewrite <- F1.
    + intros w I. rewrite Hw, !in_app_iff, Hx, Hms, K. destruct (in_dec pystr_eq_dec w (map e_word es)); [tauto|].
      unfold is_special. destruct (in_dec pystr_eq_dec w specials); tauto.
    + intros w _. apply C.
  - intros i j Hi Hj. rewrite F2. exact (C10_file_classes _ _ _ _ _ _ _ _ _ E0 He Hi Hj).
  - intros Hf i e Hi. rewrite (Hb Hf) in E. destruct (C11_unigram_probs v0 wc false R0 N) as (v' & Ev & _ & Hc). rewrite E in Ev. injection Ev as <-.
    specialize (Hc eq_refl). rewrite <- (C11_file_values _ _ _ _ _ _ _ _ _ E0 He Hi). unfold get_word_prob. now rewrite F2, Hc.
Qed.

Context {A : arith} {accum : Type}.
Notation train_file := (@TrainCommandModel.train_file A accum).
Notation read_vocabulary := (@TrainCommandModel.read_vocabulary A accum parse_int parse_float).
Notation no_file := (@TrainCommandModel.no_file A accum).

Lemma store_new v : reachable_vocab v -> exists vs,
  store v no_file = (Ok v, mkTrainFile (SavedModel.mkFile (Some vs) None []) None None None) /\ vocab_from_state (Some vs) = Ok v.
Proof.
  intros R. destruct (C14_saving_succeeds v R) as (vs & Ev). exists vs. unfold store, write_vocabulary. cbn [no_file tf_model empty_file f_vocabulary].
  rewrite Ev. cbn [bind]. split; [reflexivity|]. eapply C14_state_round_trip; [exact R|exact Ev|reflexivity].
Qed.

Lemma read_new args us : sentences (ta_training_set args) us ->
  (no_vocabulary parse_int parse_float args us /\ exists e, read_vocabulary args no_file = (Err e, no_file)) \/
  (~ no_vocabulary parse_int parse_float args us /\ exists v vs,
     read_vocabulary args no_file = (Ok v, mkTrainFile (SavedModel.mkFile (Some vs) None []) None None None) /\
     vocab_from_state (Some vs) = Ok v /\ reachable_vocab v /\ v_unigram v <> None /\ describes parse_int parse_float args us v).
Proof.
  intros Hs. destruct (word_counts_of _ _ Hs) as (wc & Ew & N & C & K).
  unfold TrainCommandModel.read_vocabulary, no_vocabulary, describes. cbv zeta.
  change (has_keys no_file) with false. cbv iota. rewrite Ew. cbn [bind]. destruct (ta_vocabulary args) as [lines|].
  - pose proof (C09_file_accepted parse_int parse_float (ta_vocabulary_format args) lines (dict_keys wc)) as Acc.
    destruct (VocabModel.from_file parse_int parse_float (ta_vocabulary_format args) lines (dict_keys wc)) as [v0|e] eqn:E0.
    + right. split; [intros H; apply H, Acc; eauto|]. cbn [bind]. assert (R0 : reachable_vocab v0) by (eapply rv_file; eauto).
      set (b := match ta_vocabulary_format args with Classes => true | _ => false end).
      destruct (C11_unigram_probs v0 wc b R0 N) as (v & Ev & Hu & _). rewrite Ev. assert (R : reachable_vocab v) by (eapply rv_probs; eauto).
      destruct (store_new v R) as (vs & Es & Hv). exists v, vs. split; [exact Es|]. split; [exact Hv|]. split; [exact R|]. split; [rewrite Hu; discriminate|].
      assert (Hv0 : exists v, Ok v0 = Ok v) by eauto. apply Acc in Hv0 as (es & He & _). exists es. split; [exact He|]. eapply file_new; try eassumption. unfold b. destruct (ta_vocabulary_format args); congruence.
    + left. split; [|cbn [bind]; eauto]. intros H. apply Acc in H as [v H]. discriminate.
  - destruct (from_word_counts wc (ta_num_classes args)) as [v|e] eqn:E.
    + right. assert (R : reachable_vocab v) by (eapply rv_counts; eauto). split.
      * intros (En & w & I & J). rewrite En in E. rewrite C12_zero_classes in E; [discriminate|].
        apply K in I. apply in_map_iff in I as ([x c] & <- & I). now exists x, c.
      * destruct (store_new v R) as (vs & Es & Hv). exists v, vs. split; [exact Es|]. split; [exact Hv|]. split; [exact R|].
        assert (T : training_vocabulary (ta_num_classes args) us v) by (eapply training_new; eauto). split; [rewrite (tv_unigram _ _ _ T); discriminate|exact T].
    + left. split; [|eauto]. destruct (ta_num_classes args) as [[|n]|].
      * split; [reflexivity|]. destruct (drop_specials wc) as [|x l] eqn:D.
        { rewrite (counts_class_zero _ D) in E. destruct (C12_frequency_classes wc (Some 1) N) as (v & ? & E' & _); [intros n [= <-]; lia|congruence]. }
        exists (fst x). assert (I : In x (drop_specials wc)) by (rewrite D; now left). apply drop_specials_in in I as [I J]. split; [|exact J].
        apply K. now apply in_map.
      * destruct (C12_frequency_classes wc (Some (S n)) N) as (v & ? & E' & _); [intros m [= <-]; lia|congruence].
      * destruct (C12_frequency_classes wc None N) as (v & ? & E' & _); [discriminate|congruence].
Qed.
End New.

(** ** A file without unigram probabilities *)
Lemma py_index_app {X} (l r : list X) i x : py_index l i = Ok x -> py_index (l ++ r) i = Ok x.
Proof.
  unfold py_index. destruct (nth_error l i) as [y|] eqn:E; [|discriminate]. intros [= ->].
  rewrite nth_error_app1 by (apply nth_error_Some; congruence). now rewrite E.
Qed.
Lemma num_normal_app words more cs n : num_normal words cs = Ok n -> num_normal (words ++ more) cs = Ok n.
Proof.
  revert n. induction cs as [|c cs IH]; intros n; cbn [num_normal]; [auto|]. destruct (wc_probs c) as [|[i p] [|]]; [auto| |auto].
  destruct (py_index words i) as [w|] eqn:E; [|discriminate]. rewrite (py_index_app _ more _ _ E). cbn [bind]. destruct (starts_with_lt w); [apply IH|auto].
Qed.

Lemma extended_wf v f n wc : wf v f n -> v_unigram v = None -> NoDup (map fst wc) -> wf (extended v wc) f n.
Proof.
  intros H U N. constructor; unfold extended; cbv zeta; cbn [v_id_to_word v_w2c v_classes v_num_normal v_unigram]; try apply H.
  - apply NoDup_app_iff. split; [apply H|]. split; [now apply NoDup_filter|].
    intros w I J. apply filter_In in J as [_ J]. apply contains_iff in I. now rewrite I in J.
  - rewrite app_length. pose proof (wf_short _ _ _ H). lia.
  - intros t T. destruct (wf_special _ _ _ H t T) as (i & Hi & Hl). exists i. split; [|exact Hl].
    rewrite nth_error_app1; [exact Hi|]. apply nth_error_Some. congruence.
  - apply num_normal_app, H.
  - rewrite U. discriminate.
Qed.

Section Old.
Variable parse_int : pystr -> result Z.
Variable parse_float : pystr -> result Qc.
Context {A : arith} {accum : Type}.
Notation read_vocabulary := (@TrainCommandModel.read_vocabulary A accum parse_int parse_float).

Lemma read_old args us (f : @train_file A accum) v vs : sentences (ta_training_set args) us -> reachable_vocab v -> v_unigram v = None ->
  f_vocabulary (tf_model f) = Some vs -> vocab_get_state v empty_vocab_state = Ok vs ->
  exists v' vs' extra, read_vocabulary args f =
    (Ok v', mkTrainFile (SavedModel.mkFile (Some vs') (f_architecture (tf_model f)) (f_arrays (tf_model f))) (tf_trainer f) (tf_iter f) (tf_optimizer f)) /\
    vocab_from_state (Some vs') = Ok v' /\ NoDup (v_id_to_word v') /\
    v_id_to_word v' = v_id_to_word v ++ extra /\ (forall w, In w extra <-> In w (concat us) /\ ~ In w (v_id_to_word v)) /\
    v_w2c v' = v_w2c v /\ v_classes v' = v_classes v /\ v_unigram v' = Some (map (frequency (concat us)) (v_id_to_word v')).
Proof.
  intros Hs R U Hf Hg. destruct (word_counts_of _ _ Hs) as (wc & Ew & N & C & K). destruct (reachable_wf v R) as (fn & n & W).
  pose proof (extended_wf v fn n wc W U N) as We. pose proof (compute_probs_spec _ _ _ wc false We) as Ep.
  pose proof (compute_probs_wf _ _ _ _ _ _ We Ep) as Wp. cbv iota in Wp. set (v' := mkVocab _ _ _ _ _) in Ep, Wp.
  assert (Lv : vocab_from_state (Some vs) = Ok v) by (eapply C14_state_round_trip; [exact R|exact Hg|reflexivity]).
  set (extra := filter (fun w => negb (contains (v_id_to_word v) w)) (dict_keys wc)).
  assert (Ex : forall w, In w extra <-> In w (concat us) /\ ~ In w (v_id_to_word v)).
  { intros w. unfold extra. rewrite filter_In, K, negb_true_iff. rewrite <- (contains_iff (v_id_to_word v) w). now rewrite not_true_iff_false. }
  assert (Gs : exists vs', vocab_get_state v' vs = Ok vs').
  { unfold vocab_get_state in Hg |- *. cbn [h_classes h_probs h_unigram empty_vocab_state assign_dataset bind] in Hg.
    rewrite (VocabBuild.get_state_probs _ _ _ W) in Hg. cbn [bind] in Hg. rewrite U in Hg. cbn [bind] in Hg. injection Hg as <-.
    cbn [h_classes h_probs h_unigram]. rewrite (VocabBuild.get_state_probs _ _ _ Wp). cbn [assign_dataset bind].
    change (v_w2c v') with (v_w2c v). rewrite Nat.eqb_refl. cbn [bind]. rewrite Nat.eqb_refl. cbn [bind]. eexists. reflexivity. }
  destruct Gs as (vs' & Gs). exists v', vs', extra.
  assert (Lv' : vocab_from_state (Some vs') = Ok v') by (eapply wf_state_roundtrip; [exact Wp|exact Gs|discriminate]).
  split; [|split; [exact Lv'|]].
  - unfold TrainCommandModel.read_vocabulary. cbv zeta. replace (has_keys f) with true by (unfold has_keys; now rewrite Hf). rewrite Hf, Lv. cbv iota.
    rewrite U, Ew. cbn [bind]. rewrite Ep. unfold store, write_vocabulary. rewrite Hf, Gs. reflexivity.
  - split; [apply Wp|]. split; [reflexivity|]. split; [exact Ex|]. split; [reflexivity|]. split; [symmetry; apply W|].
    unfold v'. cbn [v_unigram v_id_to_word]. f_equal.
    replace (count_array (extended v wc) wc) with (map (count_of wc) (v_id_to_word (extended v wc))).
    + apply unigram_frequency; [apply We| |].
      * intros w I. change (v_id_to_word (extended v wc)) with (v_id_to_word v ++ extra). rewrite in_app_iff, Ex.
        destruct (in_dec pystr_eq_dec w (v_id_to_word v)); tauto.
      * intros w _. apply C.
    + symmetry. apply nth_ext with 0 0; [now rewrite count_array_length, map_length|].
      intros i Hi. rewrite count_array_length in Hi. pose proof Hi as Hi'.
      apply nth_error_Some in Hi. destruct (nth_error (v_id_to_word (extended v wc)) i) as [w|] eqn:E; [|congruence].
      rewrite (count_array_nth _ wc i w (wf_nodup _ _ _ We) N E). symmetry. erewrite nth_error_nth; [reflexivity|]. now apply map_nth_error.
Qed.
End Old.
