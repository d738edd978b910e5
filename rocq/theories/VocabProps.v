(** C09-C15 and C52: vocabularies and corpus statistics. *)
From Coq Require Import QArith Qcanon Permutation.
From Verif Require Import Base ListLib QcLib Strings Dict TextModel TextSpec TextProofs
  VocabModel VocabSpec VocabProofs VocabBuild VocabStats CorpusProofs.
Local Open Scope nat_scope.

(** ** A concrete vocabulary for the examples *)
Definition ex_int (s : pystr) : result Z :=
  match s with [c] => Ok (Z.of_N c - 48)%Z | _ => Err ValueError end.
Definition ex_float (s : pystr) : result Qc :=
  match s with [c] => Ok (Q2Qc (inject_Z (Z.of_N c - 48)))%Z | _ => Err ValueError end.
Definition ex_lines : list pystr :=
  [str "a 1"; str " b 2"; str ""; str "c 1"; str "<unk> 2"].
Definition ex_srilm : list pystr := [str "X 1 a"; str "Y 2 b"; str "X 3 c"].
Definition empty_vocab := mkVocab [] [] [] 0 None.
Definition get_vocab (r : result vocabulary) : vocabulary :=
  match r with Ok v => v | Err _ => empty_vocab end.
Definition ex_vocab := get_vocab (from_file ex_int ex_float Classes ex_lines [str "x"; str "a"; str "y"]).
Example ex_vocab_ok : from_file ex_int ex_float Classes ex_lines [str "x"; str "a"; str "y"] = Ok ex_vocab.
Proof.
  unfold ex_vocab. destruct (from_file _ _ _ _ _) eqn:E; [reflexivity|]. vm_compute in E. discriminate.
Qed.
Lemma ex_vocab_reachable : reachable_vocab ex_vocab.
Proof. eapply rv_file. apply ex_vocab_ok. Qed.
Example ex_vocab_content :
  v_id_to_word ex_vocab = [str "a"; str "b"; str "c"; UNK; SOS; EOS; str "x"; str "y"] /\
  v_w2c ex_vocab = [0; 1; 0; 1; 2; 3] /\ v_num_normal ex_vocab = 2.
Proof. vm_compute. auto. Qed.
Definition ex_counts : dict pystr nat :=
  [(str "a", 3); (SOS, 7); (str "x", 1); (str "c", 1); (str "y", 2); (str "zz", 9)].
Example ex_counts_nodup : NoDup (map fst ex_counts).
Proof. repeat constructor; cbn; intuition discriminate. Qed.
Definition ex_vocab_probs := get_vocab (compute_probs ex_vocab ex_counts true).
Example ex_vocab_probs_ok : compute_probs ex_vocab ex_counts true = Ok ex_vocab_probs.
Proof. unfold ex_vocab_probs. destruct (compute_probs _ _ _) eqn:E; [reflexivity|]. vm_compute in E. discriminate. Qed.
Lemma ex_vocab_probs_reachable : reachable_vocab ex_vocab_probs.
Proof. eapply rv_probs; [apply ex_vocab_reachable|apply ex_vocab_probs_ok]. Qed.

(** ** C09 *)

(** Words and IDs correspond one to one. *)
Theorem C09_inverse_maps : forall v, reachable_vocab v ->
  NoDup (v_id_to_word v) /\
  forall i w, word_to_id v w = Some i <-> nth_error (v_id_to_word v) i = Some w.
Proof. exact vocab_inverse. Qed.
Print Assumptions C09_inverse_maps.

(** The special tokens are in the shortlist of every vocabulary. *)
Theorem C09_special_tokens_present : forall v t, reachable_vocab v -> In t [SOS; EOS; UNK] ->
  exists i, word_to_id v t = Some i /\ i < num_shortlist_words v.
Proof. exact vocab_specials. Qed.
Print Assumptions C09_special_tokens_present.

(** Known words are mapped to their IDs and all the others to that of <unk>. *)
Theorem C09_words_to_ids : forall v words, reachable_vocab v ->
  exists unk ids, word_to_id v UNK = Some unk /\ words_to_ids v words = Ok ids /\
    Forall2 (fun w i => nth_error (v_id_to_word v) i = Some w \/
                        ~ In w (v_id_to_word v) /\ i = unk) words ids.
Proof. exact words_to_ids_spec. Qed.
Print Assumptions C09_words_to_ids.

(** The words of a vocabulary file get the IDs 0, 1, ... in file order, missing
    special tokens follow, then the out-of-shortlist words. IDs below the shortlist
    size are those of the file words and the special tokens. *)
Theorem C09_file_layout : forall parse_int parse_float format lines oos v es,
  from_file parse_int parse_float format lines oos = Ok v ->
  entries parse_int parse_float format lines es ->
  exists ms extra,
    v_id_to_word v = map e_word es ++ ms ++ extra /\
    num_shortlist_words v = length es + length ms /\
    (forall t, In t ms <-> is_special t /\ ~ In t (map e_word es)) /\
    (forall w, In w extra <-> In w oos /\ ~ In w (map e_word es) /\ ~ is_special w).
Proof. exact file_layout. Qed.
Print Assumptions C09_file_layout.

(** Exactly the well-formed files without repeated words are accepted (and whose
    class weights can be normalised). *)
Theorem C09_file_accepted : forall parse_int parse_float format lines oos,
  (exists v, from_file parse_int parse_float format lines oos = Ok v) <->
  (exists es, entries parse_int parse_float format lines es /\ NoDup (map e_word es) /\
              forall i, i < length es -> class_weight es i <> 0%Qc).
Proof. exact from_file_accepts. Qed.
Print Assumptions C09_file_accepted.

Example C09_example :
  word_to_id ex_vocab (str "c") = Some 2 /\ word_to_id ex_vocab (str "x") = Some 6 /\
  words_to_ids ex_vocab [str "y"; str "q"; UNK] = Ok [7; 3; 3] /\ num_shortlist_words ex_vocab = 6.
Proof. vm_compute. auto. Qed.
Example C09_entries_example :
  entries ex_int ex_float Classes ex_lines
    [mkEntry (str "a") (Some (KInt 1)) 1; mkEntry (str "b") (Some (KInt 2)) 1;
     mkEntry (str "c") (Some (KInt 1)) 1; mkEntry UNK (Some (KInt 2)) 1].
Proof.
  unfold ex_lines.
  apply entries_cons; [apply entry_classes with (id := str "1"); [exact (split_tokens (str "a 1"))|reflexivity]|].
  apply entries_cons; [apply entry_classes with (id := str "2"); [exact (split_tokens (str " b 2"))|reflexivity]|].
  apply entries_blank; [apply tokens_nil_iff; exact (split_tokens (str ""))|].
  apply entries_cons; [apply entry_classes with (id := str "1"); [exact (split_tokens (str "c 1"))|reflexivity]|].
  apply entries_cons; [apply entry_classes with (id := str "2"); [exact (split_tokens (str "<unk> 2"))|reflexivity]|].
  apply entries_nil.
Qed.

(** ** C10 *)

(** Every shortlist word is in exactly one class, the one the table names. *)
Theorem C10_partition : forall v i, reachable_vocab v -> i < num_shortlist_words v ->
  exists k, nth_error (v_w2c v) i = Some k /\ k < num_classes v /\
    forall k' c, nth_error (v_classes v) k' = Some c ->
      (In i (dict_keys (wc_probs c)) <-> k' = k).
Proof. exact vocab_partition. Qed.
Print Assumptions C10_partition.

(** Class IDs are positions, no class is empty, classes contain only shortlist words. *)
Theorem C10_class_shape : forall v k c, reachable_vocab v -> nth_error (v_classes v) k = Some c ->
  wc_id c = k /\ wc_probs c <> [] /\ NoDup (dict_keys (wc_probs c)) /\
  (forall i, In i (dict_keys (wc_probs c)) -> i < num_shortlist_words v) /\
  qsum (dict_values (wc_probs c)) = 1%Qc.
Proof. exact vocab_class_shape. Qed.
Print Assumptions C10_class_shape.

(** Two words of a file get the same class exactly if the file says so. *)
Theorem C10_file_classes : forall parse_int parse_float format lines oos v es i j,
  from_file parse_int parse_float format lines oos = Ok v ->
  entries parse_int parse_float format lines es ->
  i < length es -> j < length es ->
  (nth_error (v_w2c v) i = nth_error (v_w2c v) j <-> same_class es i j).
Proof. exact file_classes. Qed.
Print Assumptions C10_file_classes.

(** A special token that the file does not define is alone in its class. *)
Theorem C10_special_own_class : forall parse_int parse_float format lines oos v es t i,
  from_file parse_int parse_float format lines oos = Ok v ->
  entries parse_int parse_float format lines es ->
  is_special t -> ~ In t (map e_word es) -> word_to_id v t = Some i ->
  exists k, nth_error (v_w2c v) i = Some k /\
            forall j, nth_error (v_w2c v) j = Some k -> j = i.
Proof. exact file_special_class. Qed.
Print Assumptions C10_special_own_class.

(** The normal classes are those before the final run of single-word classes whose
    word starts with "<". *)
Theorem C10_normal_classes : forall v, reachable_vocab v ->
  v_num_normal v <= num_classes v /\
  (forall k c, v_num_normal v <= k -> nth_error (v_classes v) k = Some c ->
     exists i p w, wc_probs c = [(i, p)] /\ nth_error (v_id_to_word v) i = Some w /\ starts_with_lt w = true) /\
  (forall c, 0 < v_num_normal v -> nth_error (v_classes v) (v_num_normal v - 1) = Some c ->
     ~ exists i p w, wc_probs c = [(i, p)] /\ nth_error (v_id_to_word v) i = Some w /\ starts_with_lt w = true).
Proof. exact vocab_normal_classes. Qed.
Print Assumptions C10_normal_classes.

(** Class and probability looked up for the network: out-of-shortlist words are
    replaced by <unk>. *)
Theorem C10_class_membership : forall v i, reachable_vocab v ->
  exists unk, word_to_id v UNK = Some unk /\
    let j := if i <? num_shortlist_words v then i else unk in
    exists k p, get_class_membership v i = Ok (k, p) /\ nth_error (v_w2c v) j = Some k /\
      get_word_prob v j = Ok p.
Proof. exact class_membership_spec. Qed.
Print Assumptions C10_class_membership.

Example C10_example : map (fun c => dict_keys (wc_probs c)) (v_classes ex_vocab) = [[0; 2]; [1; 3]; [4]; [5]].
Proof. vm_compute. reflexivity. Qed.

(** ** C11 *)

(** After reading a file with non-negative weights. *)
Theorem C11_file_distributions : forall parse_int parse_float format lines oos v es c,
  from_file parse_int parse_float format lines oos = Ok v ->
  entries parse_int parse_float format lines es ->
  (forall e, In e es -> (0 <= e_weight e)%Qc) ->
  In c (v_classes v) -> distribution (dict_values (wc_probs c)).
Proof. exact file_distributions. Qed.
Print Assumptions C11_file_distributions.

(** The probability of a word is its weight divided by the weight of its class. *)
Theorem C11_file_values : forall parse_int parse_float format lines oos v es i e,
  from_file parse_int parse_float format lines oos = Ok v ->
  entries parse_int parse_float format lines es ->
  nth_error es i = Some e -> get_word_prob v i = Ok (e_weight e / class_weight es i)%Qc.
Proof. exact file_probs. Qed.
Print Assumptions C11_file_values.

(** After recomputing from any table of counts: relative frequencies within the
    class, uniform if no word of the class has been counted. *)
Theorem C11_recomputed : forall v wc, reachable_vocab v -> NoDup (map fst wc) ->
  exists v', compute_probs v wc true = Ok v' /\
    v_id_to_word v' = v_id_to_word v /\ v_w2c v' = v_w2c v /\
    (forall i w k, nth_error (v_id_to_word v) i = Some w -> nth_error (v_w2c v) i = Some k ->
       let total := list_sum (map (fun j => match nth_error (v_id_to_word v) j with
                                            | Some w => member_count wc w | None => 0 end)
                         (filter (fun j => match nth_error (v_w2c v) j with Some c => c =? k | None => false end)
                                 (seq 0 (num_shortlist_words v)))) in
       get_word_prob v' i =
       Ok (if 0 <? total then (qc_of_nat (member_count wc w) / qc_of_nat total)%Qc
           else (1 / qc_of_nat (length (filter (fun j => match nth_error (v_w2c v) j with Some c => c =? k | None => false end)
                                 (seq 0 (num_shortlist_words v)))))%Qc)) /\
    (forall c, In c (v_classes v') -> distribution (dict_values (wc_probs c))).
Proof. exact recomputed_probs. Qed.
Print Assumptions C11_recomputed.

(** Word unigram probabilities are relative frequencies, and membership
    probabilities stay unless their update is requested. *)
Theorem C11_unigram_probs : forall v wc b, reachable_vocab v -> NoDup (map fst wc) ->
  let counts := map (count_of wc) (v_id_to_word v) in
  exists v', compute_probs v wc b = Ok v' /\
    v_unigram v' = Some (map (fun c => if 0 <? list_sum counts
                                       then (qc_of_nat c / qc_of_nat (list_sum counts))%Qc
                                       else qc_of_nat c) counts) /\
    (b = false -> v_classes v' = v_classes v).
Proof. exact recomputed_unigrams. Qed.
Print Assumptions C11_unigram_probs.

Example C11_example :
  map (fun i => match get_word_prob ex_vocab_probs i with Ok p => this p | Err _ => 0%Q end) (seq 0 6)
  = [3 # 4; 0 # 1; 1 # 4; 1 # 1; 1 # 1; 1 # 1]%Q.
Proof. vm_compute. reflexivity. Qed.

Example C11_srilm_example :
  let v := get_vocab (from_file ex_int ex_float SrilmClasses ex_srilm []) in
  map (fun i => match get_word_prob v i with Ok p => this p | Err _ => 0%Q end) (seq 0 6)
  = [1 # 4; 1 # 1; 3 # 4; 1 # 1; 1 # 1; 1 # 1]%Q.
Proof. vm_compute. reflexivity. Qed.

(** ** C12 *)

Theorem C12_frequency_classes : forall wc num_classes,
  NoDup (map fst wc) -> (forall n, num_classes = Some n -> 1 <= n) ->
  exists v order, from_word_counts wc num_classes = Ok v /\
    Permutation order (filter (fun x => if in_dec pystr_eq_dec (fst x) specials then false else true) wc) /\
    Sorting.Sorted.StronglySorted (fun x y => snd x <= snd y) order /\
    v_id_to_word v = map fst order ++ specials /\
    let n := length order in
    let N := match num_classes with Some N => N | None => n end in
    let k := Nat.min N n in
    v_w2c v = map (fun i => i mod N) (seq 0 n) ++ [k; k + 1; k + 2] /\
    VocabModel.num_classes v = k + 3 /\
    (forall a b ca cb, a < k -> b < k ->
       nth_error (v_classes v) a = Some ca -> nth_error (v_classes v) b = Some cb ->
       class_len ca <= class_len cb + 1).
Proof. exact counts_vocab. Qed.
Print Assumptions C12_frequency_classes.

(** Zero classes are refused as soon as there is a word. *)
Theorem C12_zero_classes : forall wc, (exists w c, In (w, c) wc /\ ~ is_special w) ->
  from_word_counts wc (Some 0) = Err ZeroDivisionError.
Proof.
  intros wc (w & c & Hi & Hs). apply from_word_counts_fails. intros E.
  assert (H : In (w, c) (drop_specials wc)) by (apply drop_specials_in; auto). rewrite E in H. exact H.
Qed.
Print Assumptions C12_zero_classes.

Example C12_example :
  let v := get_vocab (from_word_counts ex_counts (Some 2)) in
  v_id_to_word v = [str "x"; str "c"; str "y"; str "a"; str "zz"; SOS; EOS; UNK] /\
  v_w2c v = [0; 1; 0; 1; 0; 2; 3; 4].
Proof. vm_compute. auto. Qed.

(** ** C13 *)

(** The weights: one in the shortlist, relative unigram frequency outside. *)
Theorem C13_oos_weights : forall v u, reachable_vocab v -> v_unigram v = Some u ->
  qsum (skipn (num_shortlist_words v) u) <> 0%Qc ->
  exists ws, get_oos_probs v = Ok (map Some ws) /\ length ws = num_words v /\
    (forall i, i < num_shortlist_words v -> nth i ws 0%Qc = 1%Qc) /\
    (forall i, num_shortlist_words v <= i ->
       nth i ws 0%Qc = (nth i u 0%Qc / qsum (skipn (num_shortlist_words v) u))%Qc) /\
    qsum (skipn (num_shortlist_words v) ws) = 1%Qc.
Proof. exact oos_probs. Qed.
Print Assumptions C13_oos_weights.

(** A distribution over the shortlist becomes one over the shortlist words other
    than <unk> and the out-of-shortlist words. *)
Theorem C13_completes_distribution : forall v u ws unk p, reachable_vocab v -> v_unigram v = Some u ->
  qsum (skipn (num_shortlist_words v) u) <> 0%Qc ->
  get_oos_probs v = Ok (map Some ws) -> word_to_id v UNK = Some unk ->
  length p = num_shortlist_words v -> qsum p = 1%Qc ->
  qsum (map (fun i => ((if in_shortlist v i then nth i p 0%Qc else nth unk p 0%Qc) * nth i ws 0%Qc)%Qc)
            (filter (fun i => negb (i =? unk)) (seq 0 (num_words v)))) = 1%Qc.
Proof. exact oos_completes. Qed.
Print Assumptions C13_completes_distribution.

(** Without any counted out-of-shortlist word the weights are not numbers. *)
Theorem C13_zero_mass_undefined : forall v u, v_unigram v = Some u ->
  qsum (skipn (num_shortlist_words v) u) = 0%Qc ->
  exists ws, get_oos_probs v = Ok ws /\
    forall i, num_shortlist_words v <= i -> i < length u -> nth_error ws i = Some None.
Proof. exact oos_zero_mass. Qed.
Print Assumptions C13_zero_mass_undefined.

Example C13_example :
  match get_oos_probs ex_vocab_probs with
  | Ok ws => map (fun w => match w with Some q => this q | None => 0%Q end) ws
  | Err _ => [] end = [1 # 1; 1 # 1; 1 # 1; 1 # 1; 1 # 1; 1 # 1; 1 # 3; 2 # 3]%Q.
Proof. vm_compute. reflexivity. Qed.

(** ** C14 *)

(** Loading what has been saved, into a new state or over an old one, gives the
    same vocabulary. *)
Theorem C14_state_round_trip : forall v state state', reachable_vocab v ->
  vocab_get_state v state = Ok state' ->
  (v_unigram v = None -> h_unigram state = None) ->
  vocab_from_state (Some state') = Ok v.
Proof.
  intros v state state' H. apply reachable_wf in H as (f & n & H). now apply (wf_state_roundtrip v f n).
Qed.
Print Assumptions C14_state_round_trip.

Theorem C14_saving_succeeds : forall v, reachable_vocab v ->
  exists state, vocab_get_state v empty_vocab_state = Ok state.
Proof. intros v H. apply reachable_wf in H as (f & n & H). eapply get_state_total; eauto. Qed.
Print Assumptions C14_saving_succeeds.

(** An old state with unigram probabilities is not cleared by a vocabulary without. *)
Theorem C14_stale_unigrams_survive : exists v state state' v',
  reachable_vocab v /\ vocab_get_state v state = Ok state' /\
  vocab_from_state (Some state') = Ok v' /\ v_unigram v = None /\ v_unigram v' <> None.
Proof.
  destruct (C14_saving_succeeds _ ex_vocab_probs_reachable) as (st & Es).
  exists ex_vocab, st.
  pose proof Es as Es'. unfold vocab_get_state in Es'.
  assert (E : exists st', vocab_get_state ex_vocab st = Ok st' /\
      exists v', vocab_from_state (Some st') = Ok v' /\ v_unigram v' <> None).
  { clear Es'. 
    assert (L : exists a b c d, st = mkVocabState (Some a) (Some b) (Some c) (Some d) /\
                length b = 6 /\ length c = 6 /\ length d = 8).
    { exists (match h_words st with Some x => x | None => [] end), (match h_classes st with Some x => x | None => [] end),
        (match h_probs st with Some x => x | None => [] end), (match h_unigram st with Some x => x | None => [] end).
      remember (vocab_get_state ex_vocab_probs empty_vocab_state) as r eqn:Er. destruct r as [s|]; [|discriminate].
      injection Es as ->.
      assert (X : match vocab_get_state ex_vocab_probs empty_vocab_state with
                  | Ok (mkVocabState (Some a) (Some b) (Some c) (Some d)) =>
                    length b = 6 /\ length c = 6 /\ length d = 8
                  | _ => False end) by (vm_compute; auto).
      rewrite <- Er in X. destruct st as [[a|] [b|] [c|] [d|]]; try contradiction. cbn. auto. }
    destruct L as (a & b & c & d & -> & Lb & Lc & Ld).
    pose proof (reachable_wf _ ex_vocab_reachable) as (f & n & H).
    assert (W : length (v_w2c ex_vocab) = 6) by (vm_compute; reflexivity).
    assert (N : length (v_id_to_word ex_vocab) = 8) by (vm_compute; reflexivity).
    assert (U : v_unigram ex_vocab = None) by (vm_compute; reflexivity).
    assert (G1 : vocab_get_state ex_vocab (mkVocabState (Some a) (Some b) (Some c) (Some d)) =
      Ok (mkVocabState (Some (v_id_to_word ex_vocab)) (Some (v_w2c ex_vocab))
            (Some (map f (seq 0 (length (v_w2c ex_vocab))))) (Some d))).
    { unfold vocab_get_state. cbn [h_classes h_probs h_unigram assign_dataset].
      rewrite W, Lb. cbn [Nat.eqb bind]. rewrite <- W. rewrite (get_state_probs _ _ _ H). cbn [bind].
      unfold assign_dataset. rewrite map_length, seq_length, W, Lc. cbn [Nat.eqb bind]. rewrite U. reflexivity. }
    eexists. split; [exact G1|].
    assert (G2 : vocab_from_state (Some (mkVocabState (Some (v_id_to_word ex_vocab)) (Some (v_w2c ex_vocab))
            (Some (map f (seq 0 (length (v_w2c ex_vocab))))) None)) = Ok ex_vocab).
    { apply (wf_state_roundtrip ex_vocab f n empty_vocab_state); [exact H| |reflexivity].
      unfold vocab_get_state. cbn [h_classes h_probs h_unigram empty_vocab_state assign_dataset bind].
      rewrite (get_state_probs _ _ _ H). cbn [bind]. now rewrite U. }
    unfold vocab_from_state in G2 |- *. cbn [h_words h_classes h_probs h_unigram] in *.
    destruct (v_w2c ex_vocab) as [|x l] eqn:Ew; [discriminate|]. rewrite <- Ew in *.
    destruct (foldM _ _ _) as [cls|]; cbn [bind] in *; [|discriminate].
    destruct (mapM _ cls) as [cls'|]; cbn [bind] in *; [|discriminate].
    destruct (make_vocab _ _ cls') as [v|] eqn:Ev; cbn [bind] in *; [|discriminate]. injection G2 as ->.
    rewrite N, Ld. cbn [Nat.eqb]. eexists. split; [reflexivity|]. discriminate. }
  destruct E as (st' & E1 & v' & E2 & E3). exists st', v'.
  split; [apply ex_vocab_reachable|]. split; [exact E1|]. split; [exact E2|]. split; [vm_compute; reflexivity|exact E3].
Qed.
Print Assumptions C14_stale_unigrams_survive.

(** ** C15 *)

(** Word counts are numbers of occurrences in the utterances of all the files. *)
Theorem C15_word_counts : forall files us, utterances files us ->
  exists d, compute_word_counts files = Ok d /\ NoDup (map fst d) /\
    forall w, dict_get pystr_eq_dec d w =
              match occurrences w (concat us) with 0 => None | n => Some n end.
Proof. exact word_counts_spec. Qed.
Print Assumptions C15_word_counts.

Theorem C15_utterances_exist : forall files, exists us, utterances files us.
Proof. exact utterances_exist. Qed.
Print Assumptions C15_utterances_exist.

(** Unigram and bigram counts over word IDs. *)
Theorem C15_bigram_statistics : forall v files us ids,
  reachable_vocab v -> utterances files us -> id_lists v us ids ->
  exists s, compute_bigram_statistics v files = Ok s /\
    length (bs_unigram s) = num_words v /\
    (forall i, nth i (bs_unigram s) 0 = total (occurs i) ids) /\
    (forall i j, bigram_get (bs_bigram s) i j = total (adjacent i j) ids).
Proof. exact bigram_statistics_spec. Qed.
Print Assumptions C15_bigram_statistics.

(** Row sums lack the sentence-final occurrences, column sums the sentence-initial. *)
Theorem C15_row_column_sums : forall v files us ids s,
  reachable_vocab v -> utterances files us -> id_lists v us ids ->
  compute_bigram_statistics v files = Ok s ->
  (forall i, sum_upto (num_words v) (fun j => bigram_get (bs_bigram s) i j) + total (ends_in i) ids
             = nth i (bs_unigram s) 0) /\
  (forall j, sum_upto (num_words v) (fun i => bigram_get (bs_bigram s) i j) + total (begins_with j) ids
             = nth j (bs_unigram s) 0).
Proof. exact statistics_sums. Qed.
Print Assumptions C15_row_column_sums.

Example C15_example :
  compute_word_counts [[str "a b a"; str ""]; [str "b"]]
  = Ok [(SOS, 2); (str "a", 2); (str "b", 2); (EOS, 2)] /\
  match compute_bigram_statistics ex_vocab [[str "a b a"; str ""]; [str "q"]] with
  | Ok s => bs_unigram s = [2; 1; 0; 1; 2; 2; 0; 0] /\ bigram_get (bs_bigram s) 0 1 = 1
  | Err _ => False
  end.
Proof. vm_compute. auto. Qed.

(** ** C52 *)

(** The class unigram distribution: the sum of the unigram probabilities of the
    words in the class, normalised. *)
Theorem C52_class_probs : forall v u, reachable_vocab v -> v_unigram v = Some u ->
  exists probs, get_class_probs v = Ok probs /\ length probs = num_classes v /\
    let mass k := qsum (map (fun i => nth i u 0%Qc)
                   (filter (fun i => match nth_error (v_w2c v) i with Some c => c =? k | None => false end)
                           (seq 0 (num_shortlist_words v)))) in
    let total := qsum (map mass (seq 0 (num_classes v))) in
    total = qsum (firstn (num_shortlist_words v) u) /\
    (forall k, k < num_classes v ->
       nth k probs 0%Qc = if Qc_eq_dec total 0%Qc then 0%Qc else (mass k / total)%Qc) /\
    (total <> 0%Qc -> distribution probs).
Proof. intros v u H Hu. apply class_probs_spec; [exact H|exact Hu|]. eapply reachable_unigram; eauto. Qed.
Print Assumptions C52_class_probs.

Example C52_example :
  match get_class_probs ex_vocab_probs with Ok ps => map this ps | Err _ => [] end
  = [4 # 11; 0 # 1; 7 # 11; 0 # 1]%Q.
Proof. vm_compute. reflexivity. Qed.
