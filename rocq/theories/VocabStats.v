(** Proofs: values of the probabilities, corpus statistics. *)
From Coq Require Import QArith Qcanon Permutation.
From Verif Require Import Base ListLib QcLib Strings Dict TextModel TextSpec TextProofs
  VocabModel VocabSpec VocabProofs VocabBuild.
Local Open Scope nat_scope.

(** ** C09 *)

Lemma vocab_inverse v : reachable_vocab v ->
  NoDup (v_id_to_word v) /\
  forall i w, word_to_id v w = Some i <-> nth_error (v_id_to_word v) i = Some w.
Proof.
  intros H. apply reachable_wf in H as (f & n & H). split; [apply H|].
  intros i w. apply word_to_id_iff. apply H.
Qed.

Lemma vocab_specials v t : reachable_vocab v -> is_special t ->
  exists i, word_to_id v t = Some i /\ i < num_shortlist_words v.
Proof. intros H Ht. apply reachable_wf in H as (f & n & H). eapply wf_special_id; eauto. Qed.

Lemma words_to_ids_spec v words : reachable_vocab v ->
  exists unk ids, word_to_id v UNK = Some unk /\ words_to_ids v words = Ok ids /\
    Forall2 (fun w i => nth_error (v_id_to_word v) i = Some w \/
                        ~ In w (v_id_to_word v) /\ i = unk) words ids.
Proof.
  intros H. destruct (vocab_specials v UNK H) as (unk & E & _); [apply special_cases|].
  apply vocab_inverse in H as [_ Hi].
  unfold words_to_ids. rewrite E. exists unk. eexists. split; [reflexivity|]. split; [reflexivity|].
  induction words as [|w words IH]; cbn [map]; constructor; [|exact IH].
  destruct (word_to_id v w) as [i|] eqn:Ew; [left; now apply Hi|].
  right. split; [|reflexivity]. now apply last_index_none in Ew.
Qed.

(** ** Files *)

Section File.
Variable parse_int : pystr -> result Z.
Variable parse_float : pystr -> result Qc.
Notation entries := (entries parse_int parse_float).
Notation from_file := (from_file parse_int parse_float).

Lemma same_key_true a b : same_key a b = true <-> exists k, a = Some k /\ b = Some k.
Proof.
  unfold same_key. destruct a as [a|], b as [b|]; try (split; [discriminate|intros (k & ? & ?); discriminate]).
  destruct (class_key_eq_dec a b) as [->|Hn]; split; eauto; try discriminate.
  intros (k & E1 & E2). congruence.
Qed.

Lemma qsum_map_filter {A} (f : A -> Qc) (b : A -> bool) l :
  qsum (map (fun x => if b x then f x else 0%Qc) l) = qsum (map f (filter b l)).
Proof.
  induction l as [|x l IH]; cbn [map filter]; [reflexivity|]. rewrite qsum_cons, IH.
  destruct (b x); cbn [map]; rewrite ?qsum_cons; ring.
Qed.

Lemma wsum_class_weight es w2c i :
  length w2c = length es ->
  (forall i j c, nth_error w2c i = Some c -> nth_error w2c j = Some c -> same_class es i j) ->
  (forall i j, i < length es -> same_class es i j -> nth_error w2c i = nth_error w2c j) ->
  i < length es ->
  wsum w2c (wt (map e_weight es)) (class_idx w2c i) = class_weight es i.
Proof.
  intros Hl H1 H2 Hi. unfold class_weight.
  pose proof Hi as Hi'. apply nth_error_Some in Hi'. destruct (nth_error es i) as [e|] eqn:Ee; [|congruence].
  assert (Hci : exists c, nth_error w2c i = Some c).
  { rewrite <- Hl in Hi. apply nth_error_Some in Hi. destruct (nth_error w2c i); [eauto|congruence]. }
  destruct Hci as (c & Hc). unfold wsum, class_idx. rewrite (nth_error_nth _ _ 0 Hc).
  unfold members. rewrite <- qsum_map_filter, Hl. f_equal. apply map_ext_in. intros j Hj. apply in_seq in Hj.
  assert (Hje : exists e', nth_error es j = Some e').
  { destruct (nth_error es j) eqn:E; [eauto|]. apply nth_error_None in E. lia. }
  destruct Hje as (e' & Ej). rewrite Ej.
  assert (Hcj : exists d, nth_error w2c j = Some d).
  { destruct (nth_error w2c j) eqn:E; [eauto|]. apply nth_error_None in E. lia. }
  destruct Hcj as (d & Hd). rewrite Hd.
  assert (Hw : wt (map e_weight es) j = e_weight e').
  { unfold wt. erewrite nth_error_nth; [reflexivity|]. now apply map_nth_error. }
  rewrite Hw.
  destruct (d =? c) eqn:Edc.
  - apply Nat.eqb_eq in Edc. subst d. specialize (H1 i j c Hc Hd).
    destruct H1 as [->|(ei & ej & k & X1 & X2 & X3 & X4)]; [now rewrite Nat.eqb_refl|].
    rewrite Ee in X1. rewrite Ej in X2. injection X1 as <-. injection X2 as <-.
    rewrite (proj2 (same_key_true _ _)) by eauto. now rewrite orb_true_r.
  - apply Nat.eqb_neq in Edc. destruct ((j =? i) || same_key (e_key e) (e_key e')) eqn:Es; [|reflexivity].
    exfalso. apply Edc. apply orb_true_iff in Es as [Es|Es].
    + apply Nat.eqb_eq in Es. subst j. congruence.
    + apply same_key_true in Es as (k & K1 & K2).
      assert (Hs : same_class es i j) by (right; exists e, e', k; auto).
      apply H2 in Hs; [|exact Hi]. congruence.
Qed.

(** Which files are accepted. *)
Lemma from_file_accepts format lines oos :
  (exists v, from_file format lines oos = Ok v) <->
  (exists es, entries format lines es /\ NoDup (map e_word es) /\
              forall i, i < length es -> class_weight es i <> 0%Qc).
Proof.
  pose proof (from_file_spec parse_int parse_float format lines oos) as H. split.
  - intros (v & E). rewrite E in H. destruct H as (es & w2c & n & extra & H). cbn zeta in H.
    destruct H as (He & Hn & Hids & Hw & Hl & Hv & S1 & S2 & _ & Hwf & _ & Hk).
    exists es. split; [exact He|]. split; [exact Hn|]. intros i Hi.
    rewrite <- (wsum_class_weight es w2c i) by assumption.
    assert (Hci : exists c, nth_error w2c i = Some c).
    { destruct (nth_error w2c i) eqn:Ec; [eauto|]. apply nth_error_None in Ec. lia. }
    destruct Hci as (c & Hc). unfold class_idx. rewrite (nth_error_nth _ _ 0 Hc).
    assert (Hcn : c < n) by (apply Hv; now apply nth_error_In in Hc).
    specialize (Hk c). intros Hz. apply Hk; [lia|]. rewrite <- Hz. rewrite Hw.
    unfold wsum.
    assert (Hm : forall l, members (w2c ++ seq n l) c = members w2c c).
    { induction l as [|l IH]; [cbn [seq]; now rewrite app_nil_r|].
      rewrite seq_S, app_assoc, members_snoc, IH.
      rewrite (proj2 (Nat.eqb_neq (n + l) c)) by lia. apply app_nil_r. }
    rewrite Hm. f_equal. apply map_ext_in. intros j Hj. apply in_members in Hj.
    assert (j < length w2c) by (apply nth_error_Some; congruence).
    unfold wt, file_weights. rewrite app_nth1; [reflexivity|]. rewrite map_length. lia.
  - intros (es & He & Hn & Hz). destruct (from_file format lines oos) as [v|ex]; [eauto|].
    exfalso. destruct (H es He Hn) as (i & ei & Hi & w2c & Hl & S1 & S2 & Hs).
    assert (Hil : i < length es) by (apply nth_error_Some; congruence).
    rewrite (wsum_class_weight es w2c i) in Hs; auto.
    + now apply (Hz i Hil).
    + intros a b c Ha Hb. apply S1; [congruence|]. rewrite <- Hl. apply nth_error_Some. congruence.
Qed.

Lemma file_layout format lines oos v es :
  from_file format lines oos = Ok v -> entries format lines es ->
  exists ms extra,
    v_id_to_word v = map e_word es ++ ms ++ extra /\
    num_shortlist_words v = length es + length ms /\
    (forall t, In t ms <-> is_special t /\ ~ In t (map e_word es)) /\
    (forall w, In w extra <-> In w oos /\ ~ In w (map e_word es) /\ ~ is_special w).
Proof.
  intros E He. pose proof (from_file_spec parse_int parse_float format lines oos) as H.
  rewrite E in H. destruct H as (es' & w2c & n & extra & H). cbn zeta in H.
  destruct H as (He' & Hn & Hids & Hw & Hl & Hv & S1 & S2 & Hex & Hwf & _ & Hk).
  rewrite (entries_unique _ _ _ _ _ _ He' He) in *. clear He'.
  exists (missing (map e_word es)), extra. split; [now rewrite Hids, <- app_assoc|].
  split; [unfold num_shortlist_words; rewrite Hw, app_length, seq_length; lia|].
  split; [intros t; apply missing_in|].
  intros w. rewrite Hex, in_app_iff, missing_in.
  destruct (in_dec pystr_eq_dec w (map e_word es)); tauto.
Qed.

Lemma file_classes format lines oos v es i j :
  from_file format lines oos = Ok v -> entries format lines es ->
  i < length es -> j < length es ->
  (nth_error (v_w2c v) i = nth_error (v_w2c v) j <-> same_class es i j).
Proof.
  intros E He Hi Hj. pose proof (from_file_spec parse_int parse_float format lines oos) as H.
  rewrite E in H. destruct H as (es' & w2c & n & extra & H). cbn zeta in H.
  destruct H as (He' & Hn & Hids & Hw & Hl & Hv & S1 & S2 & Hex & Hwf & _ & Hk).
  rewrite (entries_unique _ _ _ _ _ _ He' He) in *. clear He'.
  rewrite Hw, !nth_error_app1 by lia. split; [|now apply S2].
  intros Eq. destruct (nth_error w2c i) as [c|] eqn:Ec.
  - apply (S1 i j c); congruence.
  - apply nth_error_None in Ec. lia.
Qed.

(** Special tokens that the file does not define form classes of their own. *)
Lemma file_special_class format lines oos v es t i :
  from_file format lines oos = Ok v -> entries format lines es ->
  is_special t -> ~ In t (map e_word es) -> word_to_id v t = Some i ->
  exists k, nth_error (v_w2c v) i = Some k /\
            forall j, nth_error (v_w2c v) j = Some k -> j = i.
Proof.
  intros E He Ht Hn Hi. pose proof (from_file_spec parse_int parse_float format lines oos) as H.
  rewrite E in H. destruct H as (es' & w2c & n & extra & H). cbn zeta in H.
  destruct H as (He' & Hnd & Hids & Hw & Hl & Hv & S1 & S2 & Hex & Hwf & _ & Hk).
  rewrite (entries_unique _ _ _ _ _ _ He' He) in *. clear He'.
  apply (word_to_id_iff v) in Hi; [|apply Hwf].
  destruct (wf_special _ _ _ Hwf t Ht) as (i' & Hi' & Hlt).
  assert (i' = i) as ->.
  { pose proof (wf_nodup _ _ _ Hwf) as Hnn. rewrite NoDup_nth_error in Hnn. apply Hnn; [apply nth_error_Some|]; congruence. }
  rewrite Hw in Hlt |- *. rewrite app_length, seq_length in Hlt.
  assert (Hge : length es <= i).
  { destruct (Nat.lt_ge_cases i (length es)) as [Hc|Hc]; [|exact Hc]. exfalso. apply Hn.
    rewrite Hids, <- app_assoc, nth_error_app1 in Hi by (now rewrite map_length).
    now apply nth_error_In in Hi. }
  exists (n + (i - length es)). split.
  - rewrite nth_error_app2, nth_error_seq, Hl by lia.
    rewrite (proj2 (Nat.ltb_lt _ _)) by lia. reflexivity.
  - intros j Hj. destruct (Nat.lt_ge_cases j (length w2c)) as [Hc|Hc].
    + rewrite nth_error_app1 in Hj by exact Hc. apply nth_error_In in Hj. apply Hv in Hj. lia.
    + rewrite nth_error_app2, nth_error_seq in Hj by exact Hc.
      destruct (j - length w2c <? length (missing (map e_word es))); [|discriminate]. injection Hj as Hj. lia.
Qed.

Lemma file_probs format lines oos v es i e :
  from_file format lines oos = Ok v -> entries format lines es ->
  nth_error es i = Some e -> get_word_prob v i = Ok (e_weight e / class_weight es i)%Qc.
Proof.
  intros E He Hi. pose proof (from_file_spec parse_int parse_float format lines oos) as H.
  rewrite E in H. destruct H as (es' & w2c & n & extra & H). cbn zeta in H.
  destruct H as (He' & Hnd & Hids & Hw & Hl & Hv & S1 & S2 & Hex & Hwf & _ & Hk).
  rewrite (entries_unique _ _ _ _ _ _ He' He) in *. clear He'.
  assert (Hil : i < length es) by (apply nth_error_Some; congruence).
  assert (Hci : exists c, nth_error w2c i = Some c).
  { destruct (nth_error w2c i) eqn:Ec; [eauto|]. apply nth_error_None in Ec. lia. }
  destruct Hci as (c & Hc).
  assert (Hcn : c < n) by (apply Hv; now apply nth_error_In in Hc).
  assert (Hcv : nth_error (v_w2c v) i = Some c) by (rewrite Hw, nth_error_app1 by lia; exact Hc).
  unfold get_word_prob. rewrite (py_index_ok _ _ _ Hcv). cbn [bind].
  rewrite (wf_classes _ _ _ Hwf). unfold py_index. rewrite classes_of_nth.
  rewrite (proj2 (Nat.ltb_lt _ _)) by lia. cbn [bind]. rewrite class_get_of by exact Hcv. f_equal.
  unfold normalized. f_equal.
  - unfold wt, file_weights. rewrite app_nth1 by (rewrite map_length; lia).
    erewrite nth_error_nth; [reflexivity|]. now apply map_nth_error.
  - rewrite <- (wsum_class_weight es w2c i) by assumption.
    unfold class_idx. rewrite (nth_error_nth _ _ 0 Hcv), (nth_error_nth _ _ 0 Hc). unfold wsum. rewrite Hw.
    assert (Hm : forall l, members (w2c ++ seq n l) c = members w2c c).
    { induction l as [|l IH]; [cbn [seq]; now rewrite app_nil_r|].
      rewrite seq_S, app_assoc, members_snoc, IH.
      rewrite (proj2 (Nat.eqb_neq (n + l) c)) by lia. apply app_nil_r. }
    rewrite Hm. f_equal. apply map_ext_in. intros j Hj. apply in_members in Hj.
    assert (j < length w2c) by (apply nth_error_Some; congruence).
    unfold wt, file_weights. rewrite app_nth1; [reflexivity|]. rewrite map_length. lia.
Qed.

Lemma qsum_zero_nonneg l : (forall p, In p l -> (0 <= p)%Qc) -> qsum l = 0%Qc -> forall p, In p l -> p = 0%Qc.
Proof.
  induction l as [|a l IH]; intros H Hz p Hp; [destruct Hp|].
  rewrite qsum_cons in Hz.
  assert (Ha : (0 <= a)%Qc) by (apply H; now left).
  assert (Hl : (0 <= qsum l)%Qc) by (apply qsum_nonneg; intros q Hq; apply H; now right).
  assert (Ea : a = 0%Qc).
  { apply Qcle_antisym; [|exact Ha]. rewrite <- Hz. rewrite <- (Qcplus_0_r a) at 1.
    apply Qcplus_le_compat; [apply Qcle_refl|exact Hl]. }
  subst a. destruct Hp as [<-|Hp]; [reflexivity|]. apply IH; [intros q Hq; apply H; now right| |exact Hp].
  rewrite Qcplus_0_l in Hz. exact Hz.
Qed.

Lemma normalized_nonneg w2c ws i :
  (forall p, In p ws -> (0 <= p)%Qc) -> (0 <= normalized w2c (wt ws) i)%Qc.
Proof.
  intros H. assert (Hw : forall j, (0 <= wt ws j)%Qc).
  { intros j. unfold wt. destruct (Nat.lt_ge_cases j (length ws)) as [Hj|Hj]; [apply H, nth_In, Hj|].
    rewrite nth_overflow by exact Hj. apply Qcle_refl. }
  unfold normalized. apply qc_div_nonneg; [apply Hw|]. unfold wsum. apply qsum_nonneg.
  intros p Hp. apply in_map_iff in Hp as (j & <- & _). apply Hw.
Qed.

Lemma file_distributions format lines oos v es c :
  from_file format lines oos = Ok v -> entries format lines es ->
  (forall e, In e es -> (0 <= e_weight e)%Qc) ->
  In c (v_classes v) -> distribution (dict_values (wc_probs c)).
Proof.
  intros E He Hnn Hc. pose proof (from_file_spec parse_int parse_float format lines oos) as H.
  rewrite E in H. destruct H as (es' & w2c & n & extra & H). cbn zeta in H.
  destruct H as (He' & Hnd & Hids & Hw & Hl & Hv & S1 & S2 & Hex & Hwf & _ & Hk).
  rewrite (entries_unique _ _ _ _ _ _ He' He) in *. clear He'.
  rewrite (wf_classes _ _ _ Hwf) in Hc. apply in_map_iff in Hc as (k & <- & Hk'). apply in_seq in Hk'.
  rewrite class_values. split; [|apply (wf_sums _ _ _ Hwf); lia].
  intros p Hp. apply in_map_iff in Hp as (i & <- & _). apply normalized_nonneg.
  intros q Hq. unfold file_weights in Hq. apply in_app_iff in Hq as [Hq|Hq].
  - apply in_map_iff in Hq as (e & <- & Hq). auto.
  - apply in_map_iff in Hq as (x & <- & _). discriminate.
Qed.

End File.

(** ** Partition *)

Lemma vocab_partition v i : reachable_vocab v -> i < num_shortlist_words v ->
  exists k, nth_error (v_w2c v) i = Some k /\ k < num_classes v /\
    forall k' c, nth_error (v_classes v) k' = Some c ->
      (In i (dict_keys (wc_probs c)) <-> k' = k).
Proof.
  intros H Hi. apply reachable_wf in H as (f & n & H). unfold num_shortlist_words in Hi.
  apply nth_error_Some in Hi. destruct (nth_error (v_w2c v) i) as [k|] eqn:Ek; [|congruence].
  exists k. split; [reflexivity|]. unfold num_classes. rewrite (wf_classes _ _ _ H), classes_of_length.
  split; [apply (wf_valid _ _ _ H); now apply nth_error_In in Ek|].
  intros k' c Hc. rewrite classes_of_nth in Hc. destruct (k' <? n); [|discriminate]. injection Hc as <-.
  rewrite class_keys, in_members. split; congruence.
Qed.

Lemma vocab_class_shape v k c : reachable_vocab v -> nth_error (v_classes v) k = Some c ->
  wc_id c = k /\ wc_probs c <> [] /\ NoDup (dict_keys (wc_probs c)) /\
  (forall i, In i (dict_keys (wc_probs c)) -> i < num_shortlist_words v) /\
  qsum (dict_values (wc_probs c)) = 1%Qc.
Proof.
  intros H Hc. apply reachable_wf in H as (f & n & H). rewrite (wf_classes _ _ _ H), classes_of_nth in Hc.
  destruct (k <? n) eqn:Hk; [|discriminate]. injection Hc as <-. apply Nat.ltb_lt in Hk.
  split; [reflexivity|]. rewrite class_keys, class_values.
  assert (Hne : members (v_w2c v) k <> []) by (apply members_nonempty; now apply (wf_valid _ _ _ H)).
  split; [unfold class_of; cbn; destruct (members (v_w2c v) k); [congruence|discriminate]|].
  split; [apply members_nodup|]. split.
  - intros i Hi. apply in_members in Hi. unfold num_shortlist_words. apply nth_error_Some. congruence.
  - now apply (wf_sums _ _ _ H).
Qed.

(** ** Values computed from counts *)

Lemma nth_upd (l : list nat) i a j :
  nth j (upd l i a) 0 = if (j =? i) && (i <? length l) then a else nth j l 0.
Proof.
  destruct (nth_error (upd l i a) j) as [x|] eqn:E.
  - rewrite (nth_error_nth _ _ 0 E). rewrite nth_error_upd in E.
    destruct (j =? i) eqn:Ej; cbn [andb].
    + destruct (i <? length l) eqn:Ei; [congruence|]. discriminate.
    + now rewrite (nth_error_nth _ _ 0 E).
  - rewrite nth_overflow by (now apply nth_error_None). apply nth_error_None in E. rewrite upd_length in E.
    destruct (j =? i) eqn:Ej; cbn [andb].
    + apply Nat.eqb_eq in Ej. subst j. rewrite (proj2 (Nat.ltb_ge _ _) E). now rewrite nth_overflow.
    + now rewrite nth_overflow.
Qed.

Lemma count_array_nth v wc i w :
  NoDup (v_id_to_word v) -> NoDup (map fst wc) -> nth_error (v_id_to_word v) i = Some w ->
  nth i (count_array v wc) 0 = count_of wc w.
Proof.
  intros Hn Hk Hi. unfold count_array, count_of.
  assert (Hil : i < length (v_id_to_word v)) by (apply nth_error_Some; congruence).
  assert (G : forall l, length l = length (v_id_to_word v) ->
    nth i (fold_left (fun counts wc => match word_to_id v (fst wc) with
       | Some word_id => upd counts word_id (snd wc) | None => counts end) wc l) 0 =
    match dict_get pystr_eq_dec wc w with Some n => n | None => nth i l 0 end).
  { induction wc as [|[w' c] wc IH]; intros l Hl; cbn [fold_left dict_get fst snd]; [reflexivity|].
    inversion Hk as [|x y Hx Hy]; subst. cbn [fst] in *.
    rewrite IH; [|exact Hy|destruct (word_to_id v w'); [now rewrite upd_length|exact Hl]].
    destruct (pystr_eq_dec w w') as [<-|Hne].
    - rewrite (proj2 (dict_get_none pystr_eq_dec wc w) Hx).
      rewrite (proj2 (word_to_id_iff v w i Hn) Hi). rewrite nth_upd, Nat.eqb_refl.
      rewrite (proj2 (Nat.ltb_lt _ _)) by lia. reflexivity.
    - destruct (dict_get pystr_eq_dec wc w); [reflexivity|].
      destruct (word_to_id v w') as [i'|] eqn:E'; [|reflexivity].
      rewrite nth_upd. destruct (i =? i') eqn:Ei; [|reflexivity]. exfalso. apply Nat.eqb_eq in Ei. subst i'.
      apply word_to_id_iff in E'; [|exact Hn]. congruence. }
  rewrite G by apply repeat_length. destruct (dict_get pystr_eq_dec wc w); [reflexivity|].
  apply nth_repeat.
Qed.

Lemma floor_special_nth v f n counts i w :
  wf v f n -> length counts = length (v_id_to_word v) -> nth_error (v_id_to_word v) i = Some w ->
  nth i (floor_special v counts) 0 =
  if in_dec pystr_eq_dec w specials then Nat.max (nth i counts 0) 1 else nth i counts 0.
Proof.
  intros H Hl Hi. unfold floor_special.
  assert (Hil : i < length (v_id_to_word v)) by (apply nth_error_Some; congruence).
  assert (G : forall ts l, NoDup ts -> (forall t, In t ts -> is_special t) -> length l = length (v_id_to_word v) ->
    nth i (fold_left (fun counts t => match word_to_id v t with
       | Some i => upd counts i (Nat.max (nth i counts 0) 1) | None => counts end) ts l) 0 =
    if in_dec pystr_eq_dec w ts then Nat.max (nth i l 0) 1 else nth i l 0).
  { induction ts as [|t ts IH]; intros l Hnd Hts Hll; cbn [fold_left]; [reflexivity|].
    inversion Hnd as [|x y Hx Hy]; subst.
    destruct (wf_special_id _ _ _ t H) as (j & Hj & _); [apply Hts; now left|].
    rewrite IH; [|exact Hy|intros u Hu; apply Hts; now right|rewrite Hj, upd_length; exact Hll].
    rewrite Hj, nth_upd. apply word_to_id_iff in Hj; [|apply H].
    destruct (i =? j) eqn:Eij.
    - apply Nat.eqb_eq in Eij. subst j. assert (w = t) as -> by congruence.
      rewrite (proj2 (Nat.ltb_lt _ _)) by lia. cbn [andb].
      destruct (in_dec pystr_eq_dec t ts) as [Hc|_]; [contradiction|].
      destruct (in_dec pystr_eq_dec t (t :: ts)) as [_|Hc]; [reflexivity|exfalso; apply Hc; now left].
    - cbn [andb]. assert (w <> t).
      { intros ->. apply Nat.eqb_neq in Eij. apply Eij.
        pose proof (wf_nodup _ _ _ H) as Hnn. rewrite NoDup_nth_error in Hnn. apply Hnn; congruence. }
      destruct (in_dec pystr_eq_dec w ts) as [Hc|Hc], (in_dec pystr_eq_dec w (t :: ts)) as [Hd|Hd]; try reflexivity; exfalso.
      + apply Hd. now right.
      + destruct Hd; [congruence|contradiction]. }
  apply G; [apply specials_nodup|auto|exact Hl].
Qed.

(** The membership probability of every shortlist word after recomputation. *)
Definition member_total (v : vocabulary) (wc : dict pystr nat) (k : nat) : nat :=
  list_sum (map (fun i => match nth_error (v_id_to_word v) i with
                          | Some w => member_count wc w | None => 0 end)
                (members (v_w2c v) k)).

Lemma csum_member_total v f n wc k : wf v f n -> NoDup (map fst wc) ->
  csum (v_w2c v) (floor_special v (count_array v wc)) k = member_total v wc k.
Proof.
  intros H Hn. unfold csum, member_total. f_equal. apply map_ext_in. intros i Hi. apply in_members in Hi.
  assert (Hil : i < length (v_id_to_word v)).
  { pose proof (wf_short _ _ _ H). assert (i < length (v_w2c v)) by (apply nth_error_Some; congruence). lia. }
  apply nth_error_Some in Hil. destruct (nth_error (v_id_to_word v) i) as [w|] eqn:Ew; [|congruence].
  rewrite (floor_special_nth v f n _ i w) by (auto using count_array_length).
  rewrite (count_array_nth v wc i w) by (auto; apply H). unfold member_count. reflexivity.
Qed.

Lemma get_word_prob_wf v f n i : wf v f n -> i < num_shortlist_words v -> get_word_prob v i = Ok (f i).
Proof.
  intros H Hi. unfold get_word_prob. unfold num_shortlist_words in Hi. apply nth_error_Some in Hi.
  destruct (nth_error (v_w2c v) i) as [k|] eqn:Ek; [|congruence]. rewrite (py_index_ok _ _ _ Ek). cbn [bind].
  assert (Hk : k < n) by (apply (wf_valid _ _ _ H); now apply nth_error_In in Ek).
  rewrite (wf_classes _ _ _ H). unfold py_index. rewrite classes_of_nth, (proj2 (Nat.ltb_lt _ _) Hk).
  cbn [bind]. now apply class_get_of.
Qed.

Lemma recomputed_probs v wc : reachable_vocab v -> NoDup (map fst wc) ->
  exists v', compute_probs v wc true = Ok v' /\
    v_id_to_word v' = v_id_to_word v /\ v_w2c v' = v_w2c v /\
    (forall i w k, nth_error (v_id_to_word v) i = Some w -> nth_error (v_w2c v) i = Some k ->
       let total := list_sum (map (fun j => match nth_error (v_id_to_word v) j with
                                            | Some w => member_count wc w | None => 0 end)
                         (filter (fun j => match nth_error (v_w2c v) j with Some c => c =? k | None => false end)
                                 (seq 0 (num_shortlist_words v)))) in
       get_word_prob v' i =
       Ok (if 0 <? total then (qc_of_nat (member_count wc w) / qc_of_nat total)%Qc
           else (1 / qc_of_nat (length (filter (fun j => match nth_error (v_w2c v) j with Some c => c =? k | None => false end)
                                 (seq 0 (num_shortlist_words v)))))%Qc)) /\
    (forall c, In c (v_classes v') -> distribution (dict_values (wc_probs c))).
Proof.
  intros Hr Hn. apply reachable_wf in Hr as (f & n & H).
  pose proof (compute_probs_spec _ _ _ wc true H) as E. eexists. split; [exact E|].
  pose proof (compute_probs_wf _ _ _ _ _ _ H E) as H'.
  split; [reflexivity|]. split; [reflexivity|]. split.
  - intros i w k Hi Hk. cbn zeta.
    change (filter (fun j => match nth_error (v_w2c v) j with Some c => c =? k | None => false end)
                   (seq 0 (num_shortlist_words v))) with (members (v_w2c v) k).
    fold (member_total v wc k). rewrite <- (csum_member_total v f n wc k H Hn).
    rewrite (get_word_prob_wf _ _ _ _ H').
    + f_equal. unfold count_prob. cbn zeta.
      assert (Hc : class_idx (v_w2c v) i = k) by (unfold class_idx; now rewrite (nth_error_nth _ _ 0 Hk)).
      rewrite Hc. destruct (0 <? csum _ _ k); [|reflexivity]. do 2 f_equal.
      rewrite (floor_special_nth v f n _ i w) by (auto using count_array_length).
      rewrite (count_array_nth v wc i w) by (auto; apply H). reflexivity.
    + cbn [v_w2c num_shortlist_words]. unfold num_shortlist_words. cbn [v_w2c]. apply nth_error_Some. congruence.
  - intros c Hc. rewrite (wf_classes _ _ _ H') in Hc. apply in_map_iff in Hc as (k & <- & Hk). apply in_seq in Hk.
    rewrite class_values. split; [|apply (wf_sums _ _ _ H'); lia].
    intros p Hp. apply in_map_iff in Hp as (i & <- & _). apply count_prob_nonneg.
Qed.

(** Word unigram probabilities are relative frequencies. *)
Lemma recomputed_unigrams v wc b : reachable_vocab v -> NoDup (map fst wc) ->
  let counts := map (count_of wc) (v_id_to_word v) in
  exists v', compute_probs v wc b = Ok v' /\
    v_unigram v' = Some (map (fun c => if 0 <? list_sum counts
                                       then (qc_of_nat c / qc_of_nat (list_sum counts))%Qc
                                       else qc_of_nat c) counts) /\
    (b = false -> v_classes v' = v_classes v).
Proof.
  intros Hr Hn counts. apply reachable_wf in Hr as (f & n & H).
  pose proof (compute_probs_spec _ _ _ wc b H) as E. eexists. split; [exact E|]. cbn [v_unigram v_classes].
  assert (Hc : count_array v wc = counts).
  { apply nth_ext with 0 0; [unfold counts; now rewrite count_array_length, map_length|].
    intros i Hi. rewrite count_array_length in Hi. pose proof Hi as Hi'.
    apply nth_error_Some in Hi. destruct (nth_error (v_id_to_word v) i) as [w|] eqn:Ew; [|congruence].
    rewrite (count_array_nth v wc i w) by (auto; apply H). unfold counts.
    erewrite nth_error_nth; [reflexivity|]. now apply map_nth_error. }
  rewrite Hc. split.
  - unfold unigram_of. now destruct (0 <? list_sum counts).
  - intros ->. symmetry. apply H.
Qed.

(** ** C12 *)

Lemma round_robin_sizes N n k k' : 1 <= N -> k < N -> k' < N ->
  length (members (round_robin N n) k) <= length (members (round_robin N n) k') + 1.
Proof.
  intros HN. revert k k'.
  assert (G : forall k, k < N -> length (members (round_robin N n) k) = n / N + (if k <? n mod N then 1 else 0)).
  { induction n as [|n IH]; intros k Hk.
    - rewrite Nat.div_0_l, Nat.mod_0_l by lia. reflexivity.
    - unfold round_robin. rewrite seq_S, map_app. cbn [map Nat.add]. fold (round_robin N n).
      rewrite members_snoc, app_length, IH by exact Hk.
      pose proof (Nat.div_mod n N ltac:(lia)) as D. pose proof (Nat.mod_upper_bound n N ltac:(lia)) as M.
      destruct (Nat.eq_dec (S (n mod N)) N) as [Ew|Ew].
      + assert (D1 : S n / N = n / N + 1).
        { symmetry. apply (Nat.div_unique _ _ _ 0); [lia|]. nia. }
        assert (D2 : S n mod N = 0).
        { symmetry. apply (Nat.mod_unique _ _ (n / N + 1)); [lia|]. nia. }
        rewrite D1, D2. destruct (n mod N =? k) eqn:E1.
        * apply Nat.eqb_eq in E1. rewrite (proj2 (Nat.ltb_ge _ _)) by lia. cbn. lia.
        * apply Nat.eqb_neq in E1. rewrite (proj2 (Nat.ltb_lt _ _)) by lia. cbn. lia.
      + assert (D1 : S n / N = n / N).
        { symmetry. apply (Nat.div_unique _ _ _ (S (n mod N))); [lia|]. nia. }
        assert (D2 : S n mod N = S (n mod N)).
        { symmetry. apply (Nat.mod_unique _ _ (n / N)); [lia|]. nia. }
        rewrite D1, D2. destruct (n mod N =? k) eqn:E1.
        * apply Nat.eqb_eq in E1. rewrite (proj2 (Nat.ltb_ge k (n mod N))) by lia.
          rewrite (proj2 (Nat.ltb_lt _ _)) by lia. cbn. lia.
        * apply Nat.eqb_neq in E1. destruct (k <? n mod N) eqn:E2.
          -- apply Nat.ltb_lt in E2. rewrite (proj2 (Nat.ltb_lt _ _)) by lia. cbn. lia.
          -- apply Nat.ltb_ge in E2. rewrite (proj2 (Nat.ltb_ge _ _)) by lia. cbn. lia. }
  intros k k' Hk Hk'. rewrite !G by assumption. destruct (k <? _), (k' <? _); lia.
Qed.

Lemma members_app_out w2c l k : (forall c, In c l -> c <> k) -> members (w2c ++ l) k = members w2c k.
Proof.
  induction l as [|x l IH] using rev_ind; intros H; [now rewrite app_nil_r|].
  rewrite app_assoc, members_snoc, IH by (intros c Hc; apply H; apply in_or_app; now left).
  rewrite (proj2 (Nat.eqb_neq x k)); [apply app_nil_r|]. apply H. apply in_or_app. right. now left.
Qed.

Lemma counts_vocab wc num_classes :
  NoDup (map fst wc) -> (forall n, num_classes = Some n -> 1 <= n) ->
  exists v order, from_word_counts wc num_classes = Ok v /\
    Permutation order (filter (fun x => if in_dec pystr_eq_dec (fst x) specials then false else true) wc) /\
    Sorting.Sorted.StronglySorted (fun x y => snd x <= snd y) order /\
    v_id_to_word v = map fst order ++ specials /\
    let n := length order in
    let N := match num_classes with Some N => N | None => n end in
    let k := Nat.min N n in
    v_w2c v = map (fun i => i mod N) (seq 0 n) ++ [k; k + 1; k + 2] /\
    VocabModel.num_classes v = k + 3 /\
    (forall a b ca cb, a < k -> b < k ->
       nth_error (v_classes v) a = Some ca -> nth_error (v_classes v) b = Some cb ->
       class_len ca <= class_len cb + 1).
Proof.
  intros Hn HN.
  set (wc' := drop_specials wc).
  set (N := match num_classes with Some n => n | None => length wc' end).
  assert (HN' : 1 <= N \/ wc' = []).
  { unfold N. destruct num_classes as [n0|]; [left; now apply HN|].
    destruct wc'; [now right|left; cbn; lia]. }
  destruct (from_word_counts_spec wc num_classes Hn HN') as (v & E & Hids & Hw & Hu & Hwf).
  fold wc' in Hids, Hw, Hu, Hwf. fold N in Hids, Hw, Hu, Hwf.
  exists v, (sort_counts wc'). split; [exact E|]. split.
  { rewrite sort_counts_perm. unfold wc'.
    replace (drop_specials wc) with (filter (fun x => if in_dec pystr_eq_dec (fst x) specials then false else true) wc); [reflexivity|].
    unfold drop_specials, dict_del. clear. induction wc as [|x wc IH]; [reflexivity|]. cbn [filter].
    destruct (in_dec pystr_eq_dec (fst x) specials) as [Hi|Hi].
    - rewrite IH. destruct Hi as [Hi|[Hi|[Hi|[]]]].
      + destruct (pystr_eq_dec SOS (fst x)); [reflexivity|congruence].
      + destruct (pystr_eq_dec SOS (fst x)); [reflexivity|]. cbn [filter].
        destruct (pystr_eq_dec EOS (fst x)); [reflexivity|congruence].
      + destruct (pystr_eq_dec SOS (fst x)); [reflexivity|]. cbn [filter].
        destruct (pystr_eq_dec EOS (fst x)); [reflexivity|]. cbn [filter].
        destruct (pystr_eq_dec UNK (fst x)); [reflexivity|congruence].
    - destruct (pystr_eq_dec SOS (fst x)) as [E|_]; [exfalso; apply Hi; rewrite <- E; unfold specials; cbn [In]; tauto|]. cbn [filter].
      destruct (pystr_eq_dec EOS (fst x)) as [E|_]; [exfalso; apply Hi; rewrite <- E; unfold specials; cbn [In]; tauto|]. cbn [filter].
      destruct (pystr_eq_dec UNK (fst x)) as [E|_]; [exfalso; apply Hi; rewrite <- E; unfold specials; cbn [In]; tauto|]. now rewrite IH. }
  split; [apply sort_counts_sorted|]. split; [exact Hids|]. cbn zeta.
  assert (HlN : match num_classes with Some N => N | None => length (sort_counts wc') end = N).
  { unfold N. destruct num_classes; [reflexivity|]. apply Permutation_length, sort_counts_perm. }
  rewrite HlN. rewrite map_length in Hw, Hwf. fold (round_robin N (length (sort_counts wc'))).
  split; [exact Hw|]. split.
  { unfold VocabModel.num_classes. now rewrite (wf_classes _ _ _ Hwf), classes_of_length. }
  intros a b ca cb Ha Hb Hca Hcb.
  rewrite (wf_classes _ _ _ Hwf), classes_of_nth in Hca, Hcb.
  rewrite (proj2 (Nat.ltb_lt _ _)) in Hca by lia. rewrite (proj2 (Nat.ltb_lt _ _)) in Hcb by lia.
  injection Hca as <-. injection Hcb as <-. unfold class_len, class_of. cbn [wc_probs]. rewrite !map_length.
  rewrite Hw. rewrite !members_app_out.
  - apply round_robin_sizes; lia.
  - intros c [<-|[<-|[<-|[]]]]; lia.
  - intros c [<-|[<-|[<-|[]]]]; lia.
Qed.

(** ** C13 *)

Lemma qsum_nth l : qsum l = qsum (map (fun i => nth i l 0%Qc) (seq 0 (length l))).
Proof.
  rewrite <- (map_id l) at 1. f_equal. rewrite map_id.
  apply nth_ext with 0%Qc 0%Qc; [now rewrite map_length, seq_length|].
  intros i Hi. erewrite (nth_error_nth (map _ _)); [reflexivity|]. rewrite nth_error_map_seq.
  now rewrite (proj2 (Nat.ltb_lt _ _) Hi).
Qed.

Lemma oos_probs v u : reachable_vocab v -> v_unigram v = Some u ->
  qsum (skipn (num_shortlist_words v) u) <> 0%Qc ->
  exists ws, get_oos_probs v = Ok (map Some ws) /\ length ws = num_words v /\
    (forall i, i < num_shortlist_words v -> nth i ws 0%Qc = 1%Qc) /\
    (forall i, num_shortlist_words v <= i ->
       nth i ws 0%Qc = (nth i u 0%Qc / qsum (skipn (num_shortlist_words v) u))%Qc) /\
    qsum (skipn (num_shortlist_words v) ws) = 1%Qc.
Proof.
  intros Hr Hu Hs. apply reachable_wf in Hr as (f & n & H). pose proof (wf_unigram _ _ _ H u Hu) as Hl.
  pose proof (wf_short _ _ _ H) as Hsh. unfold get_oos_probs. rewrite Hu. set (m := num_shortlist_words v) in *.
  assert (Hm : length (firstn m u) = m) by (rewrite firstn_length; unfold m, num_shortlist_words in *; lia).
  rewrite Hm.
  exists (repeat 1%Qc m ++ map (fun p => (p / qsum (skipn m u))%Qc) (skipn m u)).
  split; [|split; [|split; [|split]]].
  - f_equal. rewrite map_app, map_map, map_repeat. f_equal. apply map_ext. intros p.
    destruct (Qc_eq_dec (qsum (skipn m u)) 0); [contradiction|reflexivity].
  - rewrite app_length, repeat_length, map_length, skipn_length. unfold num_words, m, num_shortlist_words in *. lia.
  - intros i Hi. rewrite app_nth1 by (now rewrite repeat_length).
    rewrite (nth_indep _ _ 1%Qc) by (now rewrite repeat_length). apply nth_repeat.
  - intros i Hi. rewrite app_nth2 by (now rewrite repeat_length). rewrite repeat_length.
    rewrite <- (firstn_skipn m u) at 2. rewrite app_nth2 by lia. rewrite Hm.
    assert (E0 : (0 / qsum (skipn m u))%Qc = 0%Qc) by (unfold Qcdiv; ring).
    rewrite <- E0 at 1. apply (map_nth (fun p => (p / qsum (skipn m u))%Qc)).
  - replace m with (length (repeat 1%Qc m)) at 1 by apply repeat_length. rewrite skipn_app_exact.
    rewrite qsum_map_div, map_id. now apply qc_div_self.
Qed.

Lemma qsum_remove (f : nat -> Qc) n i : i < n ->
  qsum (map f (filter (fun j => negb (j =? i)) (seq 0 n))) = (qsum (map f (seq 0 n)) - f i)%Qc.
Proof.
  induction n as [|n IH]; intros Hi; [lia|]. rewrite seq_S, filter_app, !map_app, !qsum_app. cbn [filter Nat.add].
  destruct (Nat.eq_dec i n) as [->|Hne].
  - rewrite Nat.eqb_refl. cbn [negb map]. rewrite qsum_nil, qsum_cons, qsum_nil.
    rewrite filter_all; [ring|]. intros j Hj. apply in_seq in Hj. apply negb_true_iff, Nat.eqb_neq. lia.
  - rewrite IH by lia. rewrite (proj2 (Nat.eqb_neq n i)) by lia. cbn [negb map]. rewrite qsum_cons, qsum_nil. ring.
Qed.

Lemma oos_completes v u ws unk p : reachable_vocab v -> v_unigram v = Some u ->
  qsum (skipn (num_shortlist_words v) u) <> 0%Qc ->
  get_oos_probs v = Ok (map Some ws) -> word_to_id v UNK = Some unk ->
  length p = num_shortlist_words v -> qsum p = 1%Qc ->
  qsum (map (fun i => ((if in_shortlist v i then nth i p 0%Qc else nth unk p 0%Qc) * nth i ws 0%Qc)%Qc)
            (filter (fun i => negb (i =? unk)) (seq 0 (num_words v)))) = 1%Qc.
Proof.
  intros Hr Hu Hs Hg Hk Hlp Hp.
  destruct (oos_probs v u Hr Hu Hs) as (ws' & E & Hl & Hw1 & Hw2 & Hsum).
  assert (ws' = ws) as ->.
  { rewrite Hg in E. injection E as E. clear -E. revert ws E. induction ws' as [|a l IH]; intros [|b m] E; try discriminate; [reflexivity|].
    cbn in E. injection E as -> E. f_equal. now apply IH. }
  destruct (vocab_specials v UNK Hr) as (unk' & E' & Hlt); [apply special_cases|].
  rewrite Hk in E'. injection E' as <-.
  pose proof Hr as Hr'. apply reachable_wf in Hr' as (f & n & H). pose proof (wf_short _ _ _ H) as Hsh.
  set (m := num_shortlist_words v) in *.
  assert (Hnm : num_words v = m + (num_words v - m)) by (unfold num_words, m, num_shortlist_words in *; lia).
  rewrite qsum_remove by lia.
  assert (Hunk : in_shortlist v unk = true) by (apply Nat.ltb_lt; exact Hlt).
  rewrite Hunk, Hw1 by exact Hlt.
  rewrite Hnm, seq_app, map_app, qsum_app. cbn [Nat.add].
  assert (S1 : qsum (map (fun i => ((if in_shortlist v i then nth i p 0 else nth unk p 0) * nth i ws 0)%Qc) (seq 0 m)) = 1%Qc).
  { rewrite <- Hp. rewrite (qsum_nth p), Hlp. f_equal. apply map_ext_in. intros i Hi. apply in_seq in Hi.
    rewrite Hw1 by lia. assert (E1 : in_shortlist v i = true) by (apply Nat.ltb_lt; unfold m, num_shortlist_words in *; lia).
    rewrite E1. ring. }
  rewrite S1.
  assert (S2 : qsum (map (fun i => ((if in_shortlist v i then nth i p 0 else nth unk p 0) * nth i ws 0)%Qc) (seq m (num_words v - m)))
               = nth unk p 0%Qc).
  { rewrite (map_ext_in _ (fun i => (nth unk p 0 * nth i ws 0)%Qc)).
    - rewrite qsum_map_mult. rewrite <- (Qcmult_1_r (nth unk p 0%Qc)) at 2. f_equal. rewrite <- Hsum.
      rewrite (qsum_nth (skipn m ws)), skipn_length, Hl. f_equal.
      rewrite <- (Nat.add_0_r m) at 1. generalize (num_words v - m) 0. intros l. induction l as [|l IH]; intros s; cbn [seq map]; [reflexivity|].
      f_equal.
      + rewrite <- (firstn_skipn m ws) at 1. rewrite app_nth2; rewrite firstn_length, Nat.min_l by lia; [f_equal; lia|lia].
      + rewrite <- (IH (S s)). rewrite Nat.add_succ_r. reflexivity.
    - intros i Hi. apply in_seq in Hi. assert (E1 : in_shortlist v i = false) by (apply Nat.ltb_ge; unfold m, num_shortlist_words in *; lia).
      now rewrite E1. }
  rewrite S2. ring.
Qed.

Lemma oos_zero_mass v u : v_unigram v = Some u ->
  qsum (skipn (num_shortlist_words v) u) = 0%Qc ->
  exists ws, get_oos_probs v = Ok ws /\
    forall i, num_shortlist_words v <= i -> i < length u -> nth_error ws i = Some None.
Proof.
  intros Hu Hs. unfold get_oos_probs. rewrite Hu, Hs. eexists. split; [reflexivity|].
  intros i Hi Hl. assert (Hf : length (firstn (num_shortlist_words v) u) = num_shortlist_words v) by (rewrite firstn_length; lia).
  rewrite nth_error_app2 by (rewrite repeat_length; lia). rewrite repeat_length, Hf, nth_error_map.
  destruct (nth_error (skipn (num_shortlist_words v) u) (i - num_shortlist_words v)) as [x|] eqn:E.
  - cbn. reflexivity.
  - apply nth_error_None in E. rewrite skipn_length in E. lia.
Qed.

(** ** C52: class probabilities *)

Lemma class_sums_loop (w2c : list nat) (ps : list Qc) n : forall acc,
  length acc = n -> (forall c, In c w2c -> c < n) ->
  foldM (fun acc cp => do x <- py_index acc (fst cp); Ok (upd acc (fst cp) (x + snd cp)%Qc))
        (combine w2c ps) acc
  = Ok (map (fun k => (nth k acc 0 + qsum (map snd (filter (fun cp => Nat.eqb (fst cp) k) (combine w2c ps))))%Qc) (seq 0 n)).
Proof.
  revert ps; induction w2c as [|c w2c IH]; intros ps acc Hl Hc; cbn [combine foldM].
  - cbn [filter map]. apply f_equal. apply nth_ext with 0%Qc 0%Qc; [now rewrite map_length, seq_length|].
    intros i Hi. erewrite (nth_error_nth (map _ _)); [|rewrite nth_error_map_seq, (proj2 (Nat.ltb_lt _ _)); [reflexivity|lia]].
    rewrite qsum_nil. ring.
  - destruct ps as [|p ps]; cbn [foldM].
    + cbn [filter map]. apply f_equal. apply nth_ext with 0%Qc 0%Qc; [now rewrite map_length, seq_length|].
      intros i Hi. erewrite (nth_error_nth (map _ _)); [|rewrite nth_error_map_seq, (proj2 (Nat.ltb_lt _ _)); [reflexivity|lia]].
      rewrite qsum_nil. ring.
    + cbn [fst snd]. assert (Hcn : c < length acc) by (rewrite Hl; apply Hc; now left).
      unfold py_index. rewrite (nth_error_nth' acc 0%Qc Hcn). cbn [bind].
      rewrite IH; [|now rewrite upd_length|intros d Hd; apply Hc; now right].
      f_equal. apply map_ext_in. intros k Hk. apply in_seq in Hk. cbn [filter fst].
      destruct (Nat.eq_dec c k) as [->|Hne].
      * rewrite Nat.eqb_refl. cbn [map snd]. rewrite qsum_cons.
        erewrite (nth_error_nth (upd _ _ _)); [|rewrite nth_error_upd, Nat.eqb_refl, (proj2 (Nat.ltb_lt _ _) Hcn); reflexivity].
        ring.
      * rewrite (proj2 (Nat.eqb_neq c k) Hne). f_equal.
        destruct (nth_error acc k) as [x|] eqn:Ex.
        -- rewrite (nth_error_nth acc k 0%Qc Ex). erewrite nth_error_nth; [reflexivity|].
           rewrite nth_error_upd, (proj2 (Nat.eqb_neq k c)) by congruence. exact Ex.
        -- apply nth_error_None in Ex. lia.
Qed.

Lemma filter_combine_members w2c (u : list Qc) k : length w2c <= length u ->
  map snd (filter (fun cp => Nat.eqb (fst cp) k) (combine w2c (firstn (length w2c) u)))
  = map (fun i => nth i u 0%Qc) (members w2c k).
Proof.
  induction w2c as [|c w2c IH] using rev_ind; intros Hl; [reflexivity|].
  rewrite app_length in *. cbn [length] in *. rewrite Nat.add_1_r in *.
  assert (Hx : exists x, nth_error u (length w2c) = Some x).
  { destruct (nth_error u (length w2c)) eqn:E; [eauto|]. apply nth_error_None in E. lia. }
  destruct Hx as (x & Hx). rewrite (firstn_S_nth _ _ _ Hx).
  assert (Hc : forall (l1 : list nat) (l2 : list Qc) a b, length l1 = length l2 ->
            combine (l1 ++ [a]) (l2 ++ [b]) = combine l1 l2 ++ [(a, b)]).
  { clear. induction l1 as [|y l1 IHl]; intros [|z l2] a b Hl; try discriminate; [reflexivity|].
    cbn. f_equal. apply IHl. now injection Hl. }
  rewrite Hc by (rewrite firstn_length; lia).
  rewrite filter_app, map_app, members_snoc, map_app, IH by lia. f_equal. cbn [filter fst].
  destruct (c =? k); cbn [map snd]; [|reflexivity]. now rewrite (nth_error_nth _ _ 0%Qc Hx).
Qed.

Lemma class_probs_spec v u : reachable_vocab v -> v_unigram v = Some u ->
  (forall p, In p u -> (0 <= p)%Qc) ->
  exists probs, get_class_probs v = Ok probs /\ length probs = num_classes v /\
    let mass k := qsum (map (fun i => nth i u 0%Qc) (members (v_w2c v) k)) in
    let total := qsum (map mass (seq 0 (num_classes v))) in
    total = qsum (firstn (num_shortlist_words v) u) /\
    (forall k, k < num_classes v ->
       nth k probs 0%Qc = if Qc_eq_dec total 0%Qc then 0%Qc else (mass k / total)%Qc) /\
    (total <> 0%Qc -> distribution probs).
Proof.
  intros Hr Hu Hnn. apply reachable_wf in Hr as (f & n & H).
  pose proof (wf_unigram _ _ _ H u Hu) as Hl. pose proof (wf_short _ _ _ H) as Hsh.
  assert (Hn : num_classes v = n) by (unfold num_classes; rewrite (wf_classes _ _ _ H); apply classes_of_length).
  unfold get_class_probs. rewrite Hu, Hn. unfold num_shortlist_words.
  rewrite (class_sums_loop _ _ n); [|apply repeat_length|apply (wf_valid _ _ _ H)]. cbn [bind].
  set (mass := fun k => qsum (map (fun i => nth i u 0%Qc) (members (v_w2c v) k))).
  rewrite (map_ext_in _ mass).
  2:{ intros k Hk. apply in_seq in Hk. rewrite filter_combine_members by lia. fold (mass k).
      rewrite nth_repeat. ring. }
  set (total := qsum (map mass (seq 0 n))).
  assert (Hmass : forall k, (0 <= mass k)%Qc).
  { intros k. apply qsum_nonneg. intros p Hp. apply in_map_iff in Hp as (i & <- & Hi). apply in_members in Hi.
    apply Hnn, nth_In. assert (i < length (v_w2c v)) by (apply nth_error_Some; congruence). lia. }
  assert (Htn : (0 <= total)%Qc).
  { apply qsum_nonneg. intros p Hp. apply in_map_iff in Hp as (k & <- & _). apply Hmass. }
  eexists. split; [reflexivity|].
  split; [destruct (Qclt_le_dec 0 total); rewrite ?map_length, ?seq_length; reflexivity|]. cbn zeta.
  split.
  { unfold total, mass. pose proof (proj1 (wf_valid _ _ _ H)) as V.
    clear -V Hl Hsh. revert V Hsh. generalize (v_w2c v) as w2c. induction w2c as [|c w2c IH] using rev_ind; intros V Hsh.
    - cbn [length firstn]. rewrite (map_ext _ (fun _ => 0%Qc)); [apply qsum_map_const0|reflexivity].
    - rewrite app_length in *. cbn [length] in *. rewrite Nat.add_1_r in *.
      assert (Hx : exists x, nth_error u (length w2c) = Some x).
      { destruct (nth_error u (length w2c)) eqn:E; [eauto|]. apply nth_error_None in E. lia. }
      destruct Hx as (x & Hx). rewrite (firstn_S_nth _ _ _ Hx), qsum_app, <- IH; [|intros d Hd; apply V; apply in_or_app; now left|lia].
      rewrite (map_ext _ (fun k => (qsum (map (fun i => nth i u 0%Qc) (members w2c k)) + (if c =? k then x else 0%Qc))%Qc)).
      + rewrite qsum_map_plus. f_equal. rewrite qsum_cons, qsum_nil, Qcplus_0_r.
        assert (Hc : c < n) by (apply V; apply in_or_app; right; now left).
        rewrite (qsum_map_filter (fun _ => x) (fun k => c =? k)).
        assert (Ef : filter (fun k => c =? k) (seq 0 n) = [c]).
        { clear -Hc. induction n as [|n IH]; [lia|]. rewrite seq_S, filter_app. cbn [Nat.add filter].
          destruct (Nat.eq_dec c n) as [->|Hne].
          - rewrite Nat.eqb_refl, filter_none; [reflexivity|]. intros j Hj. apply in_seq in Hj. apply Nat.eqb_neq. lia.
          - rewrite (proj2 (Nat.eqb_neq c n) Hne), app_nil_r. apply IH. lia. }
        rewrite Ef. cbn [map]. rewrite qsum_cons, qsum_nil. ring.
      + intros k. rewrite members_snoc, map_app, qsum_app. f_equal. destruct (c =? k); cbn [map]; [|apply qsum_nil].
        rewrite qsum_cons, qsum_nil, Qcplus_0_r. now rewrite (nth_error_nth _ _ 0%Qc Hx). }
  split.
  - intros k Hk. destruct (Qc_eq_dec total 0) as [Ez|Ez].
    + destruct (Qclt_le_dec 0 total) as [Hc|_]; [rewrite Ez in Hc; discriminate|].
      erewrite nth_error_nth; [|rewrite nth_error_map_seq, (proj2 (Nat.ltb_lt _ _) Hk); reflexivity].
      unfold total in Ez.
      apply (qsum_zero_nonneg (map mass (seq 0 n))); [|exact Ez|].
      * intros p Hp. apply in_map_iff in Hp as (j & <- & _). apply Hmass.
      * apply in_map. apply in_seq. lia.
    + destruct (Qclt_le_dec 0 total) as [_|Hc].
      * erewrite nth_error_nth; [reflexivity|].
        rewrite map_map, nth_error_map_seq, (proj2 (Nat.ltb_lt _ _) Hk). reflexivity.
      * exfalso. apply Ez. now apply Qcle_antisym.
  - intros Ez. destruct (Qclt_le_dec 0 total) as [_|Hc]; [|exfalso; apply Ez; now apply Qcle_antisym].
    split.
    + intros p Hp. rewrite map_map in Hp. apply in_map_iff in Hp as (k & <- & _). apply qc_div_nonneg; auto.
    + rewrite qsum_map_div, map_id. now apply qc_div_self.
Qed.

Lemma reachable_unigram v u : reachable_vocab v -> v_unigram v = Some u -> forall p, In p u -> (0 <= p)%Qc.
Proof.
  assert (G : forall counts p, In p (unigram_of counts) -> (0 <= p)%Qc).
  { intros counts p Hp. unfold unigram_of in Hp. destruct (0 <? list_sum counts);
      apply in_map_iff in Hp as (c & <- & _); [apply qc_div_nonneg|]; apply qc_of_nat_nonneg. }
  intros Hr. revert u. induction Hr as [pi pf format lines oos v E|wc n v Hn E|v wc b v' Hr IH E|v st v' Hr IH E1 E2]; intros u Hu.
  - pose proof (from_file_spec pi pf format lines oos) as Hs. rewrite E in Hs.
    destruct Hs as (es & w2c & n & extra & Hs). cbn zeta in Hs.
    destruct Hs as (_ & _ & _ & _ & _ & _ & _ & _ & _ & _ & Hun & _). congruence.
  - destruct (Nat.eq_dec (match n with Some n => n | None => length (drop_specials wc) end) 0) as [E0|E0].
    + destruct (drop_specials wc) as [|x l] eqn:Ed.
      * destruct (from_word_counts_spec wc n Hn) as (v' & E' & _ & _ & Hun & _); [right; exact Ed|].
        rewrite E in E'. injection E' as <-. rewrite Hu in Hun. injection Hun as ->. apply G.
      * destruct n as [n|]; [|cbn in E0; lia]. subst n. rewrite from_word_counts_fails in E; [discriminate|congruence].
    + destruct (from_word_counts_spec wc n Hn) as (v' & E' & _ & _ & Hun & _); [left; lia|].
      rewrite E in E'. injection E' as <-. rewrite Hu in Hun. injection Hun as ->. apply G.
  - apply reachable_wf in Hr as (f & n & H). rewrite (compute_probs_spec _ _ _ _ _ H) in E. injection E as <-.
    cbn in Hu. injection Hu as <-. apply G.
  - apply reachable_wf in Hr as (f & n & H).
    assert (E3 : vocab_from_state (Some st) = Ok v) by (eapply wf_state_roundtrip; eauto).
    rewrite E3 in E2. injection E2 as <-. now apply IH.
Qed.

(** ** Normal classes *)

Lemma num_normal_spec words cs n : num_normal words (rev cs) = Ok n ->
  n <= length cs /\
  (forall k c, n <= k -> nth_error cs k = Some c ->
     exists i p w, wc_probs c = [(i, p)] /\ nth_error words i = Some w /\ starts_with_lt w = true) /\
  (forall c, 0 < n -> nth_error cs (n - 1) = Some c ->
     ~ exists i p w, wc_probs c = [(i, p)] /\ nth_error words i = Some w /\ starts_with_lt w = true).
Proof.
  revert n; induction cs as [|c cs IH] using rev_ind; intros n H.
  - cbn in H. injection H as <-. split; [cbn; lia|]. split; [|lia]. intros k c _ Hk. destruct k; discriminate.
  - rewrite rev_app_distr in H. cbn [rev app num_normal] in H.
    assert (Hlast : length (c :: rev cs) = length (cs ++ [c])) by (rewrite app_length; cbn; rewrite rev_length; lia).
    assert (Hstop : (~ exists i p w, wc_probs c = [(i, p)] /\ nth_error words i = Some w /\ starts_with_lt w = true) ->
                    n = length (cs ++ [c]) -> 
      n <= length (cs ++ [c]) /\
      (forall k c0, n <= k -> nth_error (cs ++ [c]) k = Some c0 ->
        exists i p w, wc_probs c0 = [(i, p)] /\ nth_error words i = Some w /\ starts_with_lt w = true) /\
      (forall c0, 0 < n -> nth_error (cs ++ [c]) (n - 1) = Some c0 ->
        ~ exists i p w, wc_probs c0 = [(i, p)] /\ nth_error words i = Some w /\ starts_with_lt w = true)).
    { intros Hno ->. split; [lia|]. split.
      - intros k c0 Hk Hc. exfalso. assert (k < length (cs ++ [c])) by (apply nth_error_Some; congruence). lia.
      - intros c0 _ Hc. replace (length (cs ++ [c]) - 1) with (length cs) in Hc by (rewrite app_length; cbn; lia).
        rewrite nth_error_app2, Nat.sub_diag in Hc by lia. cbn in Hc. injection Hc as <-. exact Hno. }
    destruct (wc_probs c) as [|[i p] [|x l]] eqn:Ep.
    + apply Hstop; [|congruence]. intros (i & p & w & X & _). congruence.
    + unfold py_index in H. destruct (nth_error words i) as [w|] eqn:Ew; cbn [bind] in H; [|discriminate].
      destruct (starts_with_lt w) eqn:Es.
      * destruct (IH n H) as (H1 & H2 & H3). rewrite app_length; cbn [length]. split; [lia|]. split.
        -- intros k c0 Hk Hc. apply nth_error_snoc in Hc as [[_ Hc]|[_ ->]]; [eauto|]. exists i, p, w. auto.
        -- intros c0 Hn Hc. apply nth_error_snoc in Hc as [[_ Hc]|[Hc _]]; [eauto|lia].
      * apply Hstop; [|congruence]. intros (i' & p' & w' & X1 & X2 & X3). congruence.
    + apply Hstop; [|congruence]. intros (i' & p' & w & X & _). congruence.
Qed.

Lemma vocab_normal_classes v : reachable_vocab v ->
  v_num_normal v <= num_classes v /\
  (forall k c, v_num_normal v <= k -> nth_error (v_classes v) k = Some c ->
     exists i p w, wc_probs c = [(i, p)] /\ nth_error (v_id_to_word v) i = Some w /\ starts_with_lt w = true) /\
  (forall c, 0 < v_num_normal v -> nth_error (v_classes v) (v_num_normal v - 1) = Some c ->
     ~ exists i p w, wc_probs c = [(i, p)] /\ nth_error (v_id_to_word v) i = Some w /\ starts_with_lt w = true).
Proof.
  intros H. apply reachable_wf in H as (f & n & H). pose proof (wf_normal _ _ _ H) as Hn.
  unfold num_classes. rewrite (wf_classes _ _ _ H). now apply num_normal_spec.
Qed.

(** ** Class memberships *)

Lemma class_membership_spec v i : reachable_vocab v ->
  exists unk, word_to_id v UNK = Some unk /\
    let j := if i <? num_shortlist_words v then i else unk in
    exists k p, get_class_membership v i = Ok (k, p) /\ nth_error (v_w2c v) j = Some k /\
      get_word_prob v j = Ok p.
Proof.
  intros Hr. destruct (vocab_specials v UNK Hr) as (unk & E & Hlt); [apply special_cases|].
  exists unk. split; [exact E|]. cbn zeta. unfold get_class_membership. rewrite E.
  apply reachable_wf in Hr as (f & n & H).
  set (j := if i <? num_shortlist_words v then i else unk).
  replace (if num_shortlist_words v <=? i then unk else i) with j.
  2:{ unfold j. destruct (i <? num_shortlist_words v) eqn:E1.
      - apply Nat.ltb_lt in E1. now rewrite (proj2 (Nat.leb_gt _ _) E1).
      - apply Nat.ltb_ge in E1. now rewrite (proj2 (Nat.leb_le _ _) E1). }
  assert (Hj : j < num_shortlist_words v).
  { unfold j. destruct (i <? num_shortlist_words v) eqn:E1; [now apply Nat.ltb_lt|exact Hlt]. }
  pose proof (get_word_prob_wf _ _ _ j H Hj) as Hp. unfold get_word_prob in *.
  pose proof Hj as Hj'. unfold num_shortlist_words in Hj'. apply nth_error_Some in Hj'.
  destruct (nth_error (v_w2c v) j) as [k|] eqn:Ek; [|congruence]. rewrite (py_index_ok _ _ _ Ek) in *. cbn [bind] in *.
  destruct (py_index (v_classes v) k) as [c|] eqn:Ec; cbn [bind] in *; [|discriminate].
  rewrite Hp. exists k, (f j). cbn [bind]. auto.
Qed.
