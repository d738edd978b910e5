(** Proofs: reading vocabularies from files, building them from counts, saving and
    loading. *)
From Coq Require Import QArith Qcanon Permutation.
From Verif Require Import Base ListLib QcLib Strings Dict TextModel TextSpec TextProofs
  VocabModel VocabSpec VocabProofs.
Local Open Scope nat_scope.

(** ** Lines of a vocabulary file *)

Lemma split_strip s : split (strip s) = split s.
Proof.
  unfold strip. rewrite split_rstrip.
  destruct (lstrip_decomp s) as (sp & E & Hsp & _). unfold split. rewrite E at 2.
  now rewrite split_aux_spaces.
Qed.

Section File.
Variable parse_int : pystr -> result Z.
Variable parse_float : pystr -> result Qc.
Notation entry_on := (entry_on parse_int parse_float).
Notation entries := (entries parse_int parse_float).

Lemma parse_line_blank format line :
  parse_vocab_line parse_int parse_float format line = Ok None <-> all_space line.
Proof.
  unfold parse_vocab_line. rewrite split_strip. rewrite <- tokens_nil_iff.
  pose proof (split_tokens line) as Ht. split.
  - destruct (split line) as [|a l] eqn:E; [intros _; exact Ht|].
    destruct format; [destruct l|destruct l as [|b [|c l]]|destruct l as [|b [|c [|d l]]]|];
      try discriminate.
    + destruct (parse_int b); discriminate.
    + destruct (parse_float b); discriminate.
  - intros H. rewrite (tokens_split _ _ H). reflexivity.
Qed.

Lemma parse_line_entry format line w k p :
  parse_vocab_line parse_int parse_float format line = Ok (Some (w, k, p)) <->
  entry_on format line (mkEntry w k p).
Proof.
  unfold parse_vocab_line. rewrite split_strip.
  pose proof (split_tokens line) as Ht. split.
  - destruct (split line) as [|a l] eqn:E; [discriminate|].
    destruct format; [destruct l|destruct l as [|b [|c l]]|destruct l as [|b [|c [|d l]]]|];
      try discriminate.
    + intros H. injection H as <- <- <-. now constructor.
    + destruct (parse_int b) eqn:Eb; cbn [bind]; [|discriminate].
      intros H. injection H as <- <- <-. econstructor; eassumption.
    + destruct (parse_float b) eqn:Eb; cbn [bind]; [|discriminate].
      intros H. injection H as <- <- <-. econstructor; eassumption.
  - intros H. inversion H as [? ? Hl|? ? ? ? Hl Hi|? ? ? ? ? Hl Hi]; subst;
      rewrite (tokens_split _ _ Hl); rewrite ?Hi; reflexivity.
Qed.

Lemma entry_not_blank format line e : entry_on format line e -> ~ all_space line.
Proof.
  intros H Hb. destruct e as [w k p]. apply parse_line_entry in H. apply (parse_line_blank format) in Hb.
  congruence.
Qed.

Lemma entries_unique format lines es1 es2 :
  entries format lines es1 -> entries format lines es2 -> es1 = es2.
Proof.
  intros H. revert es2. induction H as [|line lines es Hb H IH|line lines e es He H IH]; intros es2 H2.
  - inversion H2. reflexivity.
  - inversion H2 as [|? ? ? ? H3|? ? e' ? He' H3]; subst; [now apply IH|].
    exfalso. now apply (entry_not_blank _ _ _ He').
  - inversion H2 as [|? ? ? Hb' H3|? ? e' ? He' H3]; subst; [exfalso; now apply (entry_not_blank _ _ _ He)|].
    destruct e as [w k p], e' as [w' k' p']. apply parse_line_entry in He, He'. rewrite He in He'.
    injection He' as <- <- <-. f_equal. now apply IH.
Qed.

(** The state of the reading loop after the entries [es]. *)
Record reads (es : list entry) (n : nat) (st : reading) : Prop := mkReads {
  rd_words : r_words st = map e_word es;
  rd_built : built (r_id_to_word st) (r_w2c st) (map e_weight es) n (r_classes st);
  rd_ids : r_id_to_word st = map e_word es;
  rd_nodup : NoDup (map e_word es);
  rd_keys : forall k c, dict_get class_key_eq_dec (r_keys st) k = Some c <->
      exists i e, nth_error es i = Some e /\ e_key e = Some k /\ nth_error (r_w2c st) i = Some c;
  rd_same : forall i j c, nth_error (r_w2c st) i = Some c -> nth_error (r_w2c st) j = Some c ->
      same_class es i j
}.

Lemma reads_nil : reads [] 0 (mkReading [] [] [] [] []).
Proof.
  split; cbn; auto using built_nil, NoDup_nil.
  - intros k c. split; [discriminate|]. intros (i & e & H & _). destruct i; discriminate.
  - intros i j c H. destruct i; discriminate.
Qed.

Lemma nth_error_snoc {A} (l : list A) a i x :
  nth_error (l ++ [a]) i = Some x <->
  (i < length l /\ nth_error l i = Some x) \/ (i = length l /\ x = a).
Proof.
  destruct (Nat.lt_trichotomy i (length l)) as [H|[->|H]].
  - rewrite nth_error_app1 by exact H. intuition lia.
  - rewrite nth_error_app2, Nat.sub_diag by lia. cbn. split; [intros E; right; split; congruence|].
    intros [[H _]|[_ ->]]; [lia|reflexivity].
  - rewrite nth_error_app2 by lia. destruct (i - length l) as [|d] eqn:E; [lia|]. cbn.
    split; [destruct d; discriminate|]. intuition lia.
Qed.

Lemma same_class_snoc es e i j : same_class es i j -> same_class (es ++ [e]) i j.
Proof.
  intros [->|(ei & ej & k & Hi & Hj & Hk)]; [now left|]. right. exists ei, ej, k.
  assert (i < length es) by (apply nth_error_Some; congruence).
  assert (j < length es) by (apply nth_error_Some; congruence).
  rewrite !nth_error_app1 by lia. auto.
Qed.

Lemma read_vocab_line_spec format es n st line :
  reads es n st ->
  match read_vocab_line parse_int parse_float format st line with
  | Ok st' => (all_space line /\ st' = st) \/
      (exists e n', entry_on format line e /\ ~ In (e_word e) (map e_word es) /\
                    reads (es ++ [e]) n' st')
  | Err _ => ~ all_space line /\ forall e, entry_on format line e -> In (e_word e) (map e_word es)
  end.
Proof.
  intros H. unfold read_vocab_line.
  destruct (parse_vocab_line parse_int parse_float format line) as [[[[w k] p]|]|ex] eqn:Ep; cbn [bind].
  2:{ left. split; [|reflexivity]. now apply parse_line_blank in Ep. }
  2:{ split.
      - intros Hb. apply (parse_line_blank format) in Hb. congruence.
      - intros [w k p] He. apply parse_line_entry in He. congruence. }
  apply parse_line_entry in Ep.
  destruct (contains (r_words st) w) eqn:Ew.
  { apply contains_iff in Ew. rewrite (rd_words _ _ _ H) in Ew. split; [now apply entry_not_blank in Ep|].
    intros e He. destruct e as [w' k' p']. apply parse_line_entry in He, Ep. rewrite Ep in He.
    injection He as <- <- <-. exact Ew. }
  apply contains_false in Ew. rewrite (rd_words _ _ _ H) in Ew.
  assert (Hl : length (r_id_to_word st) = length (r_w2c st)) by (symmetry; apply (bu_w2c _ _ _ _ _ (rd_built _ _ _ H))).
  assert (Hle : length (r_w2c st) = length es) by (rewrite <- Hl, (rd_ids _ _ _ H), map_length; reflexivity).
  rewrite Hl, Nat.eqb_refl. rewrite <- Hl.
  assert (Hnd : NoDup (map e_word (es ++ [mkEntry w k p]))).
  { rewrite map_app. cbn. apply NoDup_app_iff. split; [apply H|]. split; [repeat constructor; cbn; tauto|].
    intros x Hx [<-|[]]. tauto. }
  set (e := mkEntry w k p) in *.
  destruct (match k with Some k0 => dict_get class_key_eq_dec (r_keys st) k0 | None => None end) as [c|] eqn:Ek.
  - (* an existing class *)
    destruct k as [k|]; [|discriminate].
    apply (rd_keys _ _ _ H) in Ek as Ek'. destruct Ek' as (i & ei & Hi & Hki & Hci).
    pose proof (rd_built _ _ _ H) as HB.
    assert (Hc : exists cl, nth_error (r_classes st) c = Some cl).
    { apply nth_error_In in Hci. apply (bu_valid _ _ _ _ _ HB) in Hci.
      destruct (nth_error (r_classes st) c) eqn:E; [eauto|]. apply nth_error_None in E.
      rewrite (built_length _ _ _ _ _ HB) in E. lia. }
    destruct Hc as (cl & Hcl). rewrite (py_index_ok _ _ _ Hcl). cbn [bind].
    right. exists e, n. split; [exact Ep|]. split; [exact Ew|].
    split; cbn [r_words r_id_to_word r_w2c r_classes r_keys].
    + rewrite map_app, (rd_words _ _ _ H). reflexivity.
    + rewrite map_app. cbn [map e_weight]. apply built_add; assumption.
    + rewrite map_app, (rd_ids _ _ _ H). reflexivity.
    + exact Hnd.
    + intros k1 c1. rewrite (rd_keys _ _ _ H). split.
      * intros (i1 & e1 & A1 & A2 & A3). exists i1, e1. rewrite !nth_error_snoc.
        split; [left; split; [apply nth_error_Some; congruence|exact A1]|]. split; [exact A2|].
        left. split; [apply nth_error_Some; congruence|exact A3].
      * intros (i1 & e1 & A1 & A2 & A3). rewrite nth_error_snoc in A1; rewrite nth_error_snoc in A3.
        destruct A1 as [[L1 A1]|[-> ->]], A3 as [[L3 A3]|[E3 ->]]; try lia; [eauto|].
        cbn in A2. injection A2 as <-. eauto.
    + intros i1 j1 c1 H1 H2. rewrite nth_error_snoc in H1; rewrite nth_error_snoc in H2.
      assert (Hlast : forall j, nth_error (r_w2c st) j = Some c -> same_class (es ++ [e]) j (length es)).
      { intros j Hj. right.
        assert (Hx : exists ej, nth_error es j = Some ej /\ e_key ej = Some k).
        { destruct (rd_same _ _ _ H j i c Hj Hci) as [->|(ej & ei' & k' & X1 & X2 & X3 & X4)]; [eauto|].
          exists ej. split; [exact X1|]. congruence. }
        destruct Hx as (ej & X1 & X2). exists ej, e, k. rewrite !nth_error_snoc.
        split; [left; split; [apply nth_error_Some; congruence|exact X1]|]. split; [right; auto|]. auto. }
      destruct H1 as [[L1 H1]|[E1 F1]], H2 as [[L2 H2]|[E2 F2]]; try subst i1; try subst j1; try subst c1.
      * apply same_class_snoc. now apply (rd_same _ _ _ H) with c1.
      * rewrite Hle. now apply Hlast.
      * rewrite Hle. destruct (Hlast _ H2) as [E|(ea & eb & kk & X1 & X2 & X3 & X4)]; [left; congruence|].
        right. exists eb, ea, kk. auto.
      * now left.
  - (* a new class *)
    pose proof (rd_built _ _ _ H) as HB. rewrite (built_length _ _ _ _ _ HB).
    right. exists e, (S n). split; [exact Ep|]. split; [exact Ew|].
    assert (Hnew : forall i c, nth_error (r_w2c st) i = Some c -> c <> n).
    { intros i c Hi. apply nth_error_In in Hi. apply (bu_valid _ _ _ _ _ HB) in Hi. lia. }
    split; cbn [r_words r_id_to_word r_w2c r_classes r_keys].
    + rewrite map_app, (rd_words _ _ _ H). reflexivity.
    + rewrite map_app. cbn [map e_weight]. apply built_new; assumption.
    + rewrite map_app, (rd_ids _ _ _ H). reflexivity.
    + exact Hnd.
    + intros k1 c1. split.
      * intros A. assert (A' : (exists i e0, nth_error es i = Some e0 /\ e_key e0 = Some k1 /\ nth_error (r_w2c st) i = Some c1)
                               \/ k = Some k1 /\ c1 = n).
        { destruct k as [k0|]; [|left; now apply (rd_keys _ _ _ H)].
          destruct (class_key_eq_dec k0 k1) as [<-|Hne].
          - rewrite dict_get_set_same in A. right. split; congruence.
          - rewrite dict_get_set_other in A by exact Hne. left. now apply (rd_keys _ _ _ H). }
        destruct A' as [(i1 & e1 & A1 & A2 & A3)|[-> ->]].
        -- exists i1, e1. rewrite !nth_error_snoc.
           split; [left; split; [apply nth_error_Some; congruence|exact A1]|]. split; [exact A2|].
           left. split; [apply nth_error_Some; congruence|exact A3].
        -- exists (length es), e. rewrite !nth_error_snoc. auto.
      * intros (i1 & e1 & A1 & A2 & A3). rewrite nth_error_snoc in A1; rewrite nth_error_snoc in A3.
        destruct A1 as [[L1 A1]|[-> ->]], A3 as [[L3 A3]|[E3 ->]]; try lia.
        -- assert (A : dict_get class_key_eq_dec (r_keys st) k1 = Some c1) by (apply (rd_keys _ _ _ H); eauto).
           destruct k as [k0|]; [|exact A]. destruct (class_key_eq_dec k0 k1) as [<-|Hne]; [congruence|].
           now rewrite dict_get_set_other.
        -- cbn in A2. rewrite A2. apply dict_get_set_same.
    + intros i1 j1 c1 H1 H2. rewrite nth_error_snoc in H1; rewrite nth_error_snoc in H2.
      destruct H1 as [[L1 H1]|[E1 F1]], H2 as [[L2 H2]|[E2 F2]]; try subst i1; try subst j1; try subst c1.
      * apply same_class_snoc. now apply (rd_same _ _ _ H) with c1.
      * exfalso. now apply (Hnew _ _ H1).
      * exfalso. now apply (Hnew _ _ H2).
      * now left.
Qed.

Lemma read_vocab_lines format lines : forall es n st,
  reads es n st ->
  match foldM (read_vocab_line parse_int parse_float format) lines st with
  | Ok st' => exists es' n', entries format lines es' /\ reads (es ++ es') n' st'
  | Err _ => forall es', entries format lines es' -> ~ NoDup (map e_word (es ++ es'))
  end.
Proof.
  induction lines as [|line lines IH]; intros es n st H; cbn [foldM].
  - exists [], n. split; [constructor|]. now rewrite app_nil_r.
  - pose proof (read_vocab_line_spec format _ _ _ line H) as Hl.
    destruct (read_vocab_line parse_int parse_float format st line) as [st1|ex]; cbn [bind].
    + destruct Hl as [[Hb ->]|(e & n' & He & Hn & H1)].
      * specialize (IH _ _ _ H). destruct (foldM _ lines st) as [st'|].
        -- destruct IH as (es' & n' & E & R). exists es', n'. split; [now apply entries_blank|exact R].
        -- intros es' E. inversion E as [|? ? ? ? E'|? ? e1 ? He E']; subst; [now apply IH|].
           exfalso. now apply (entry_not_blank _ _ _ He).
      * specialize (IH _ _ _ H1). destruct (foldM _ lines st1) as [st'|].
        -- destruct IH as (es' & n2 & E & R). exists (e :: es'), n2. split; [now apply entries_cons|].
           rewrite <- app_assoc in R. exact R.
        -- intros es' E. inversion E as [|? ? ? Hb E'|? ? e2 ? He2 E']; subst; [exfalso; now apply (entry_not_blank _ _ _ He)|].
           destruct e as [w k p], e2 as [w2 k2 p2]. apply parse_line_entry in He, He2. rewrite He in He2.
           injection He2 as <- <- <-. specialize (IH _ E'). rewrite <- app_assoc in IH. exact IH.
    + destruct Hl as [Hb Hd]. intros es' E. inversion E as [|? ? ? Hb' E'|? ? e ? He E']; subst; [contradiction|].
      apply Hd in He. intros Hn. rewrite map_app in Hn. cbn in Hn. apply NoDup_remove_2 in Hn.
      apply Hn. apply in_or_app. now left.
Qed.

(** ** Out-of-shortlist words *)

Lemma add_oos_spec oos : forall words ids,
  NoDup words ->
  exists extra, add_oos words ids oos = ids ++ extra /\ NoDup (words ++ extra) /\
    forall w, In w extra <-> In w oos /\ ~ In w words.
Proof.
  induction oos as [|w oos IH]; intros words ids Hn; cbn [add_oos].
  - exists []. rewrite !app_nil_r. split; [reflexivity|]. split; [exact Hn|]. cbn. tauto.
  - destruct (contains words w) eqn:E.
    + apply contains_iff in E. destruct (IH words ids Hn) as (extra & E1 & E2 & E3).
      exists extra. split; [exact E1|]. split; [exact E2|]. intros x. rewrite E3. cbn.
      split; [tauto|]. intros [[<-|H] H2]; tauto.
    + apply contains_false in E.
      destruct (IH (words ++ [w]) (ids ++ [w])) as (extra & E1 & E2 & E3).
      { apply NoDup_app_iff. split; [exact Hn|]. split; [repeat constructor; cbn; tauto|].
        intros x Hx [<-|[]]. tauto. }
      exists (w :: extra). split; [rewrite E1, <- app_assoc; reflexivity|].
      split; [rewrite <- app_assoc in E2; exact E2|].
      intros x. cbn. rewrite E3, in_app_iff. cbn.
      destruct (pystr_eq_dec w x) as [->|Hne]; tauto.
Qed.

Lemma nodup_add_oos_set (w1 w2 : list pystr) (ids oos : list pystr) :
  (forall w, In w w1 <-> In w w2) -> add_oos w1 ids oos = add_oos w2 ids oos.
Proof.
  revert w1 w2 ids; induction oos as [|w oos IH]; intros w1 w2 ids H; cbn [add_oos]; [reflexivity|].
  replace (contains w1 w) with (contains w2 w).
  - destruct (contains w2 w); [now apply IH|]. apply IH. intros x. rewrite !in_app_iff, H. reflexivity.
  - destruct (contains w2 w) eqn:E.
    + apply contains_iff in E. apply H in E. symmetry. now apply contains_iff.
    + apply contains_false in E. rewrite <- H in E. symmetry. now apply contains_false.
Qed.

(** ** from_file *)

Lemma nth_ones (l : list pystr) i : i < length l -> nth i (map (fun _ => 1%Qc) l) 0%Qc = 1%Qc.
Proof.
  revert i; induction l as [|x l IH]; intros [|i] H; cbn [length map nth] in *; try lia; [reflexivity|].
  apply IH. lia.
Qed.

Definition file_weights (es : list entry) : list Qc :=
  map e_weight es ++ map (fun _ => 1%Qc) (missing (map e_word es)).

Lemma from_file_spec format lines oos :
  match from_file parse_int parse_float format lines oos with
  | Ok v =>
    exists es w2c n extra, let ms := missing (map e_word es) in
      entries format lines es /\ NoDup (map e_word es) /\
      v_id_to_word v = (map e_word es ++ ms) ++ extra /\
      v_w2c v = w2c ++ seq n (length ms) /\ length w2c = length es /\
      valid w2c n /\
      (forall i j c, nth_error w2c i = Some c -> nth_error w2c j = Some c -> same_class es i j) /\
      (forall i j, i < length es -> same_class es i j -> nth_error w2c i = nth_error w2c j) /\
      (forall w, In w extra <-> In w oos /\ ~ In w (map e_word es ++ ms)) /\
      wf v (normalized (v_w2c v) (wt (file_weights es))) (n + length ms) /\
      v_unigram v = None /\
      (forall k, k < n + length ms -> wsum (v_w2c v) (wt (file_weights es)) k <> 0%Qc)
  | Err _ => forall es, entries format lines es -> NoDup (map e_word es) ->
      exists i ei, nth_error es i = Some ei /\
        (* the weights of the class of an entry add up to zero *)
        exists w2c, length w2c = length es /\
         (forall i j, nth_error w2c i = nth_error w2c j -> i < length es -> same_class es i j) /\
         (forall i j, i < length es -> same_class es i j -> nth_error w2c i = nth_error w2c j) /\
         wsum w2c (wt (map e_weight es)) (class_idx w2c i) = 0%Qc
  end.
Proof.
  unfold from_file.
  pose proof (read_vocab_lines format lines [] 0 _ reads_nil) as Hr.
  destruct (foldM (read_vocab_line parse_int parse_float format) lines (mkReading [] [] [] [] [])) as [st|ex];
    cbn [bind].
  2:{ intros es He Hn. exfalso. now apply (Hr es He). }
  destruct Hr as (es & n & He & R). cbn [app] in R.
  destruct (add_special_tokens_spec _ _ _ _ _ (rd_built _ _ _ R)) as (classes & E & HB). cbn zeta in E, HB.
  rewrite E. cbn [bind]. rewrite (rd_ids _ _ _ R) in *. rewrite (rd_words _ _ _ R) in *.
  set (ms := missing (map e_word es)) in *.
  rewrite (nodup_add_oos_set _ (map e_word es ++ ms)).
  2:{ intros w. rewrite !in_app_iff. unfold ms. rewrite missing_in. unfold is_special, specials.
      destruct (in_dec pystr_eq_dec w (map e_word es)); tauto. }
  destruct (add_oos_spec oos (map e_word es ++ ms) (map e_word es ++ ms)) as (extra & Ex & Hnd & Hex).
  { apply with_missing_nodup. apply R. }
  rewrite Ex. pose proof HB as [HB1 HB2 HB3 HB4]. rewrite HB3.
  change (map e_weight es ++ map (fun _ => 1%Qc) ms) with (file_weights es) in *.
  assert (Hlong : length (r_w2c st ++ seq n (length ms)) <= length ((map e_word es ++ ms) ++ extra)).
  { rewrite (app_length (map e_word es ++ ms) extra). lia. }
  assert (Hlen : length (r_w2c st) = length es).
  { pose proof (bu_w2c _ _ _ _ _ (rd_built _ _ _ R)) as X. rewrite X, (rd_ids _ _ _ R). apply map_length. }
  assert (Hsame : forall i j, i < length es -> same_class es i j -> nth_error (r_w2c st) i = nth_error (r_w2c st) j).
  { intros i j Hi [->|(ei & ej & k & X1 & X2 & X3 & X4)]; [reflexivity|].
    assert (Hj : j < length es) by (apply nth_error_Some; congruence).
    rewrite <- Hlen in Hi, Hj. apply nth_error_Some in Hi, Hj.
    destruct (nth_error (r_w2c st) i) as [c|] eqn:Ec; [|congruence].
    destruct (nth_error (r_w2c st) j) as [d|] eqn:Ed; [|congruence].
    assert (K1 : dict_get class_key_eq_dec (r_keys st) k = Some c) by (apply (rd_keys _ _ _ R); eauto).
    assert (K2 : dict_get class_key_eq_dec (r_keys st) k = Some d) by (apply (rd_keys _ _ _ R); eauto).
    congruence. }
  destruct (make_vocab ((map e_word es ++ ms) ++ extra) (r_w2c st ++ seq n (length ms))
             (classes_of (r_w2c st ++ seq n (length ms)) (wt (file_weights es)) (n + length ms))) as [v|ex] eqn:Ev.
  - pose proof Ev as Ev'. apply make_vocab_spec in Ev'; [|exact Hlong].
    destruct Ev' as (_ & Hk & nn & _ & Hv).
    exists es, (r_w2c st), n, extra. fold ms. cbn zeta.
    split; [exact He|]. split; [apply R|]. split; [now rewrite Hv|]. split; [now rewrite Hv|].
    split; [exact Hlen|]. split; [apply (rd_built _ _ _ R)|]. split; [apply R|]. split; [exact Hsame|].
    split; [exact Hex|]. 
    replace (v_w2c v) with (r_w2c st ++ seq n (length ms)) by (now rewrite Hv).
    split; [|split; [now rewrite Hv|exact Hk]].
    eapply make_vocab_wf; eauto. intros t Ht. now apply with_missing_specials.
  - intros es' He' _. rewrite (entries_unique _ _ _ _ He' He). clear es' He'.
    assert (Hz : exists k, k < n + length ms /\ wsum (r_w2c st ++ seq n (length ms)) (wt (file_weights es)) k = 0%Qc).
    { assert (Hd : forall m, (exists k, k < m /\ wsum (r_w2c st ++ seq n (length ms)) (wt (file_weights es)) k = 0%Qc) \/
                  (forall k, k < m -> wsum (r_w2c st ++ seq n (length ms)) (wt (file_weights es)) k <> 0%Qc)).
      { induction m as [|m [(k & Hk & Hz)|Hm]]; [right; lia|left; exists k; auto|].
        destruct (Qc_eq_dec (wsum (r_w2c st ++ seq n (length ms)) (wt (file_weights es)) m) 0%Qc) as [Hz|Hz].
        - left. exists m. auto.
        - right. intros k Hk. destruct (Nat.eq_dec k m) as [->|]; [exact Hz|]. apply Hm. lia. }
      destruct (Hd (n + length ms)) as [Hz|Hz]; [exact Hz|]. exfalso.
      destruct (num_normal_ok ((map e_word es ++ ms) ++ extra)
        (rev (classes_of (r_w2c st ++ seq n (length ms)) (wt (file_weights es)) (n + length ms)))) as (nn & En & _).
      { intros c i Hc Hi. apply in_rev, in_map_iff in Hc as (k & <- & _). rewrite class_keys in Hi.
        apply in_members in Hi.
        assert (i < length (r_w2c st ++ seq n (length ms))) by (apply nth_error_Some; congruence). lia. }
      match type of Ev with ?m = Err _ => assert (Ev2 : exists v, m = Ok v) end; [|destruct Ev2; congruence].
      eexists. apply make_vocab_spec; [exact Hlong|].
      split; [|split; [exact Hz|exists nn; split; [exact En|reflexivity]]].
      intros t Ht. apply in_or_app. left. now apply with_missing_specials. }
    destruct Hz as (k & Hk & Hz).
    assert (Hws : forall k i, In i (members (r_w2c st) k) -> wt (file_weights es) i = wt (map e_weight es) i).
    { intros k0 i Hi. apply in_members in Hi. assert (i < length (r_w2c st)) by (apply nth_error_Some; congruence).
      unfold wt, file_weights. apply app_nth1. rewrite map_length. lia. }
    assert (Hms : forall l, members (r_w2c st ++ seq n l) k = members (r_w2c st) k ++
        (if (n <=? k) && (k <? n + l) then [length (r_w2c st) + (k - n)] else [])).
    { induction l as [|l IH]; [cbn [seq]; rewrite app_nil_r, Nat.add_0_r|].
      - destruct ((n <=? k) && (k <? n)) eqn:Eb; [|now rewrite app_nil_r].
        apply andb_true_iff in Eb as [E1 E2]. apply Nat.leb_le in E1. apply Nat.ltb_lt in E2. lia.
      - rewrite seq_S, app_assoc, members_snoc, IH, <- app_assoc. f_equal.
        rewrite app_length, seq_length.
        destruct (n + l =? k) eqn:E1.
        + apply Nat.eqb_eq in E1. subst k.
          rewrite (proj2 (Nat.leb_le n (n + l))) by lia.
          rewrite (proj2 (Nat.ltb_ge (n + l) (n + l))) by lia.
          rewrite (proj2 (Nat.ltb_lt (n + l) (n + S l))) by lia. cbn. do 2 f_equal. lia.
        + apply Nat.eqb_neq in E1. rewrite app_nil_r. destruct (n <=? k) eqn:E2; [|reflexivity]. cbn [andb].
          destruct (k <? n + l) eqn:E3; destruct (k <? n + S l) eqn:E4; try reflexivity; exfalso.
          * apply Nat.ltb_lt in E3. apply Nat.ltb_ge in E4. lia.
          * apply Nat.ltb_ge in E3. apply Nat.ltb_lt in E4. lia. }
    unfold wsum in Hz. rewrite Hms, map_app, qsum_app in Hz.
    destruct (rd_built _ _ _ R) as [B1 B2 B3 [V1 V2]].
    destruct (Nat.lt_ge_cases k n) as [Hkn|Hkn].
    2:{ exfalso. rewrite (proj2 (Nat.leb_le _ _) Hkn), (proj2 (Nat.ltb_lt _ _) Hk) in Hz. cbn [andb] in Hz.
        rewrite members_empty in Hz by (intros Hc; apply V1 in Hc; lia).
        cbn [map] in Hz. rewrite qsum_nil, qsum_cons, qsum_nil in Hz.
        assert (X : wt (file_weights es) (length (r_w2c st) + (k - n)) = 1%Qc).
        { unfold wt, file_weights. rewrite app_nth2 by (rewrite map_length; lia).
          rewrite map_length. apply nth_ones. fold ms. lia. }
        rewrite X in Hz. discriminate. }
    rewrite (proj2 (Nat.leb_gt n k)) in Hz by lia. cbn [andb map] in Hz. rewrite qsum_nil, Qcplus_0_r in Hz.
    apply V2 in Hkn. apply In_nth_error in Hkn as [i Hi].
    assert (Hil : i < length es) by (rewrite <- Hlen; apply nth_error_Some; congruence).
    pose proof Hil as Hil'. apply nth_error_Some in Hil'. destruct (nth_error es i) as [ei|] eqn:Ei; [|congruence].
    exists i, ei. split; [exact Ei|]. exists (r_w2c st). split; [exact Hlen|]. split; [|split; [exact Hsame|]].
    + intros a b Hab Ha. rewrite <- Hlen in Ha. apply nth_error_Some in Ha.
      destruct (nth_error (r_w2c st) a) as [c|] eqn:Ec; [|congruence].
      now apply (rd_same _ _ _ R) with c.
    + unfold class_idx. rewrite (nth_error_nth _ _ 0 Hi). unfold wsum.
      rewrite <- Hz. f_equal. apply map_ext_in. intros j Hj. symmetry. now apply Hws with k.
Qed.

End File.

(** ** from_word_counts *)

Lemma insert_count_perm x l : Permutation (insert_count x l) (x :: l).
Proof.
  induction l as [|y l IH]; cbn; [reflexivity|]. destruct (snd x <=? snd y); [reflexivity|].
  rewrite IH. apply perm_swap.
Qed.
Lemma sort_counts_perm l : Permutation (sort_counts l) l.
Proof. induction l as [|x l IH]; cbn; [reflexivity|]. now rewrite insert_count_perm, IH. Qed.

Definition count_le (x y : pystr * nat) : Prop := snd x <= snd y.
Lemma insert_count_sorted x l : Sorting.Sorted.StronglySorted count_le l ->
  Sorting.Sorted.StronglySorted count_le (insert_count x l).
Proof.
  induction 1 as [|y l Hs IH Hall]; cbn; [repeat constructor|].
  destruct (snd x <=? snd y) eqn:E.
  - apply Nat.leb_le in E. constructor; [now constructor|]. constructor; [exact E|].
    eapply Forall_impl; [|exact Hall]. unfold count_le. intros z Hz. lia.
  - apply Nat.leb_gt in E. constructor; [exact IH|].
    rewrite insert_count_perm. constructor; [unfold count_le; lia|exact Hall].
Qed.
Lemma sort_counts_sorted l : Sorting.Sorted.StronglySorted count_le (sort_counts l).
Proof. induction l as [|x l IH]; cbn; [constructor|]. now apply insert_count_sorted. Qed.

Definition round_robin (N n : nat) : list nat := map (fun i => i mod N) (seq 0 n).

Lemma assign_classes N l : forall done,
  let n := length done in
  1 <= N ->
  built (map fst done) (round_robin N n) (repeat 1%Qc n) (Nat.min N n)
        (classes_of (round_robin N n) (wt (repeat 1%Qc n)) (Nat.min N n)) ->
  exists classes,
    foldM (assign_class N) l (map fst done, round_robin N n,
                              classes_of (round_robin N n) (wt (repeat 1%Qc n)) (Nat.min N n), n mod N)
    = Ok (map fst (done ++ l), round_robin N (n + length l), classes, (n + length l) mod N) /\
    built (map fst (done ++ l)) (round_robin N (n + length l)) (repeat 1%Qc (n + length l))
          (Nat.min N (n + length l)) classes.
Proof.
  induction l as [|x l IH]; intros done n HN HB.
  - eexists. cbn [foldM length]. rewrite Nat.add_0_r, app_nil_r. split; [reflexivity|exact HB].
  - cbn [foldM]. set (cls := classes_of _ _ _) in *.
    pose proof (built_length _ _ _ _ _ HB) as Hl.
    assert (Hrr : round_robin N n ++ [n mod N] = round_robin N (S n)).
    { unfold round_robin. rewrite seq_S, map_app. reflexivity. }
    assert (Hrep : repeat 1%Qc n ++ [1%Qc] = repeat 1%Qc (S n)).
    { clear. induction n as [|n IH]; [reflexivity|]. cbn [repeat app]. now rewrite IH. }
    assert (Hstep : exists classes',
      assign_class N (map fst done, round_robin N n, cls, n mod N) x =
        Ok (map fst done ++ [fst x], round_robin N (S n), classes', (S n) mod N) /\
      built (map fst done ++ [fst x]) (round_robin N (S n)) (repeat 1%Qc (S n)) (Nat.min N (S n)) classes').
    { unfold assign_class. rewrite Hl. rewrite map_length. fold n.
      assert (Hrl : length (round_robin N n) = n) by (unfold round_robin; now rewrite map_length, seq_length).
      assert (Hmod : (n mod N + 1) mod N = S n mod N).
      { rewrite Nat.add_mod_idemp_l by lia. f_equal. lia. }
      destruct (Nat.lt_ge_cases n N) as [Hn|Hn].
      - rewrite (Nat.mod_small n N Hn). rewrite (Nat.min_r N n) in * by lia.
        rewrite Nat.ltb_irrefl, Nat.eqb_refl. cbn [bind]. rewrite Hrl, Nat.eqb_refl.
        eexists. split.
        + destruct N as [|N']; [lia|].
          rewrite <- Hmod, (Nat.mod_small n (S N') Hn), <- Hrr, (Nat.mod_small n (S N') Hn). reflexivity.
        + rewrite (Nat.min_r N (S n)) by lia. rewrite <- Hrr, <- Hrep, (Nat.mod_small n N Hn).
          pose proof (built_new _ _ _ _ _ (fst x) 1%Qc HB) as HB2.
          rewrite map_length in HB2. exact HB2.
      - assert (Hmn : n mod N < N) by (apply Nat.mod_upper_bound; lia).
        rewrite (Nat.min_l N n) in * by lia. rewrite (proj2 (Nat.ltb_lt _ _) Hmn).
        assert (Hc : exists cl, nth_error cls (n mod N) = Some cl).
        { destruct (nth_error cls (n mod N)) eqn:E; [eauto|]. apply nth_error_None in E. lia. }
        destruct Hc as (cl & Hcl). rewrite (py_index_ok _ _ _ Hcl). cbn [bind]. rewrite Hrl, Nat.eqb_refl.
        eexists. split.
        + destruct N as [|N']; [lia|]. rewrite <- Hmod, <- Hrr. reflexivity.
        + rewrite (Nat.min_l N (S n)) by lia. rewrite <- Hrr, <- Hrep.
          pose proof (built_add _ _ _ _ _ (fst x) (n mod N) 1%Qc cl HB Hcl) as HB2.
          rewrite map_length in HB2. exact HB2. }
    destruct Hstep as (classes' & E & HB'). rewrite E. cbn [bind].
    pose proof (bu_classes _ _ _ _ _ HB') as Ecl. rewrite Ecl in HB' |- *.
    specialize (IH (done ++ [x])). cbn zeta in IH. rewrite map_app, app_length in IH. cbn [map length] in IH.
    fold n in IH. rewrite Nat.add_1_r in IH. destruct (IH HN HB') as (classes & E' & HB'').
    exists classes. rewrite E'. cbn [length]. rewrite Nat.add_succ_r, <- app_assoc in *. cbn [app Nat.add] in *.
    split; [reflexivity|exact HB''].
Qed.

Definition drop_specials (wc : dict pystr nat) : dict pystr nat :=
  dict_del pystr_eq_dec (dict_del pystr_eq_dec (dict_del pystr_eq_dec wc SOS) EOS) UNK.

Lemma drop_specials_in wc x : In x (drop_specials wc) <-> In x wc /\ ~ is_special (fst x).
Proof.
  destruct x as [w c]. unfold drop_specials. rewrite !dict_del_in. cbn [fst]. unfold is_special, specials. cbn [In].
  intuition congruence.
Qed.
Lemma drop_specials_nodup wc : NoDup (map fst wc) -> NoDup (map fst (drop_specials wc)).
Proof. intros H. unfold drop_specials. now repeat apply dict_del_nodup. Qed.

Lemma valid_round_robin N n : 1 <= N -> valid (round_robin N n) (Nat.min N n).
Proof.
  intros HN. unfold round_robin. split.
  - intros c Hc. apply in_map_iff in Hc as (i & <- & Hi). apply in_seq in Hi.
    pose proof (Nat.mod_upper_bound i N). pose proof (Nat.mod_le i N). lia.
  - intros k Hk. apply in_map_iff. exists k. split; [apply Nat.mod_small; lia|]. apply in_seq. lia.
Qed.

Lemma missing_all words : (forall t, is_special t -> ~ In t words) -> missing words = specials.
Proof.
  intros H. unfold missing. apply filter_all. intros t Ht. apply negb_true_iff, contains_false. now apply H.
Qed.

Lemma wsum_ones w2c (ws : list Qc) k :
  (forall i, i < length w2c -> wt ws i = 1%Qc) -> In k w2c -> wsum w2c (wt ws) k <> 0%Qc.
Proof.
  intros H Hk. unfold wsum. rewrite (map_ext_in _ (fun _ => 1%Qc)).
  - rewrite qsum_const, Qcmult_1_r. apply qc_of_nat_neq. apply members_nonempty in Hk.
    destruct (members w2c k); [congruence|cbn; lia].
  - intros i Hi. apply in_members in Hi. apply H. apply nth_error_Some. congruence.
Qed.

Lemma from_word_counts_spec wc num_classes :
  NoDup (map fst wc) ->
  let wc' := drop_specials wc in
  let N := match num_classes with Some n => n | None => length wc' end in
  (1 <= N \/ wc' = []) ->
  let words := map fst (sort_counts wc') in
  let n := length words in
  let w2c := round_robin N n ++ [Nat.min N n; Nat.min N n + 1; Nat.min N n + 2] in
  exists v, from_word_counts wc num_classes = Ok v /\
    v_id_to_word v = words ++ specials /\ v_w2c v = w2c /\
    v_unigram v = Some (unigram_of (count_array v wc')) /\
    wf v (count_prob w2c (floor_special v (count_array v wc'))) (Nat.min N n + 3).
Proof.
  intros Hn wc' N HN words n w2c. unfold from_word_counts. fold (drop_specials wc). fold wc'. cbn zeta. fold N.
  assert (Hfold : exists classes cid,
    foldM (assign_class N) (sort_counts wc') ([], [], [], 0) = Ok (words, round_robin N n, classes, cid) /\
    built words (round_robin N n) (repeat 1%Qc n) (Nat.min N n) classes).
  { destruct HN as [HN|He].
    - destruct (assign_classes N (sort_counts wc') [] HN) as (classes & E & HB).
      { cbn [map length repeat]. rewrite Nat.min_0_r. apply built_nil. }
      cbn [map length app repeat round_robin seq] in E. rewrite Nat.min_0_r in E.
      rewrite Nat.mod_0_l in E by lia.
      cbn [Nat.add length app] in E, HB.
      assert (En : length (sort_counts wc') = n) by (unfold n, words; now rewrite map_length).
      rewrite En in E, HB. exists classes, (n mod N). split; [exact E|exact HB].
    - exists [], 0. assert (Ew : words = []) by (unfold words; now rewrite He).
      rewrite He. unfold n. rewrite Ew. cbn. rewrite Nat.min_0_r. split; [reflexivity|]. apply built_nil. }
  destruct Hfold as (classes & cid & E & HB). rewrite E. cbn [bind].
  assert (Hperm : Permutation words (map fst wc')) by (unfold words; now rewrite sort_counts_perm).
  assert (Hms : missing words = specials).
  { apply missing_all. intros t Ht Hin. rewrite Hperm in Hin. apply in_map_iff in Hin as ([w c] & <- & Hin).
    apply drop_specials_in in Hin. tauto. }
  destruct (add_special_tokens_spec _ _ _ _ _ HB) as (classes2 & E2 & HB2). cbn zeta in E2, HB2.
  rewrite E2. cbn [bind]. rewrite Hms in HB2 |- *.
  assert (Hw2c : round_robin N n ++ seq (Nat.min N n) (length specials) = w2c).
  { unfold w2c. f_equal. cbn [length specials seq].
    rewrite Nat.add_1_r. replace (Nat.min N n + 2) with (S (S (Nat.min N n))) by lia. reflexivity. }
  rewrite Hw2c in *. cbn [length specials] in HB2.
  assert (Hnd : NoDup (words ++ specials)).
  { rewrite <- Hms. apply with_missing_nodup. rewrite Hperm. now apply drop_specials_nodup. }
  pose proof HB2 as [B1 B2 B3 B4]. rewrite B3.
  match type of B3 with _ = classes_of _ (wt ?w) _ => set (ws := w) in * end.
  assert (Hones : forall i, i < length w2c -> wt ws i = 1%Qc).
  { intros i Hi. unfold wt. assert (Hall : Forall (fun p => p = 1%Qc) ws).
    { apply Forall_app. split; [apply Forall_forall; intros p Hp; now apply repeat_spec in Hp|repeat constructor]. }
    rewrite Forall_forall in Hall. apply Hall. apply nth_In. lia. }
  assert (Hmk : exists v0, make_vocab ((words ++ specials) ++ []) w2c (classes_of w2c (wt ws) (Nat.min N n + 3)) = Ok v0).
  { destruct (num_normal_ok ((words ++ specials) ++ []) (rev (classes_of w2c (wt ws) (Nat.min N n + 3)))) as (nn & En & _).
    { intros c i Hc Hi. apply in_rev, in_map_iff in Hc as (k & <- & _). rewrite class_keys in Hi.
      apply in_members in Hi. rewrite app_nil_r, <- B1. apply nth_error_Some. congruence. }
    eexists. apply make_vocab_spec; [rewrite app_nil_r; lia|].
    split; [intros t Ht; rewrite app_nil_r; apply in_or_app; right; exact Ht|].
    split; [|exists nn; split; [exact En|reflexivity]].
    intros k Hk. apply wsum_ones; [exact Hones|]. now apply B4. }
  destruct Hmk as (v0 & Ev0).
  assert (Hwf : wf v0 (normalized w2c (wt ws)) (Nat.min N n + 3)).
  { eapply make_vocab_wf; eauto; rewrite ?app_nil_r; auto.
    intros t Ht. apply in_or_app. right. exact Ht. }
  pose proof Ev0 as Ev0'. apply make_vocab_spec in Ev0'; [|rewrite app_nil_r; lia].
  destruct Ev0' as (_ & _ & nn & _ & Hv0).
  rewrite app_nil_r in Ev0. rewrite Ev0. cbn [bind].
  pose proof (compute_probs_spec _ _ _ wc' true Hwf) as Ec.
  assert (Hc1 : v_w2c v0 = w2c) by (now rewrite Hv0).
  assert (Hc2 : v_id_to_word v0 = words ++ specials) by (rewrite Hv0; cbn; apply app_nil_r).
  rewrite Hc1, Hc2 in Ec.
  eexists. split; [exact Ec|].
  pose proof (compute_probs_wf _ _ _ _ _ _ Hwf (compute_probs_spec _ _ _ wc' true Hwf)) as Hwf'.
  rewrite Hc1, Hc2 in Hwf'.
  assert (Hca : forall a b c d, count_array (mkVocab (words ++ specials) a b c d) wc' = count_array v0 wc').
  { intros. unfold count_array, word_to_id. cbn [v_id_to_word]. now rewrite Hc2. }
  split; [reflexivity|]. split; [reflexivity|]. split; [cbn [v_unigram]; now rewrite Hca|].
  rewrite Hca.
  match goal with |- wf ?v' (count_prob _ (floor_special ?v' _)) _ =>
    replace (floor_special v' (count_array v0 wc')) with (floor_special v0 (count_array v0 wc')) end.
  - exact Hwf'.
  - unfold floor_special, word_to_id. cbn [v_id_to_word]. now rewrite Hc2.
Qed.

Lemma from_word_counts_fails wc :
  drop_specials wc <> [] -> from_word_counts wc (Some 0) = Err ZeroDivisionError.
Proof.
  intros H. unfold from_word_counts. fold (drop_specials wc). cbn zeta.
  assert (Hs : sort_counts (drop_specials wc) <> []).
  { intros E. pose proof (sort_counts_perm (drop_specials wc)) as P. rewrite E in P.
    apply Permutation_nil in P. congruence. }
  destruct (sort_counts (drop_specials wc)) as [|x l]; [congruence|]. reflexivity.
Qed.

(** ** Saving and loading *)

Lemma combine_seq_in {A} (l : list A) i a : In (i, a) (combine (seq 0 (length l)) l) <-> nth_error l i = Some a.
Proof.
  assert (H : forall s, In (i, a) (combine (seq s (length l)) l) <-> s <= i /\ nth_error l (i - s) = Some a).
  { induction l as [|x l IH]; intros s; cbn [length seq combine].
    - cbn. split; [tauto|]. intros [_ H]. destruct (i - s); discriminate.
    - cbn [In]. rewrite IH. split.
      + intros [E|[H1 H2]].
        * injection E as -> ->. split; [lia|]. now rewrite Nat.sub_diag.
        * split; [lia|]. replace (i - s) with (S (i - S s)) by lia. exact H2.
      + intros [H1 H2]. destruct (Nat.eq_dec i s) as [->|Hne].
        * left. rewrite Nat.sub_diag in H2. cbn in H2. congruence.
        * right. split; [lia|]. replace (i - s) with (S (i - S s)) in H2 by lia. exact H2. }
  rewrite H, Nat.sub_0_r. intuition lia.
Qed.

Lemma map_combine_seq {A B} (l : list A) (g : nat -> B) :
  map (fun wc => g (fst wc)) (combine (seq 0 (length l)) l) = map g (seq 0 (length l)).
Proof.
  rewrite <- (map_map fst g). f_equal. generalize 0. induction l as [|x l IH]; intros s; cbn; [reflexivity|].
  now rewrite IH.
Qed.

Lemma get_state_probs v f n : wf v f n ->
  mapM (fun wc => do c <- py_index (v_classes v) (snd wc); class_get c (fst wc))
       (combine (seq 0 (length (v_w2c v))) (v_w2c v)) = Ok (map f (seq 0 (length (v_w2c v)))).
Proof.
  intros H. rewrite (mapM_ok _ (fun wc => f (fst wc))).
  - now rewrite map_combine_seq.
  - intros [i k] Hi. apply combine_seq_in in Hi. cbn [fst snd].
    assert (Hk : k < n) by (apply (wf_valid _ _ _ H); now apply nth_error_In in Hi).
    rewrite (py_index_ok _ _ (class_of (v_w2c v) f k)).
    + cbn [bind]. now apply class_get_of.
    + rewrite (wf_classes _ _ _ H), classes_of_nth. apply Nat.ltb_lt in Hk. now rewrite Hk.
Qed.

Definition opt_class (w2c : list nat) (f : nat -> Qc) (k : nat) : option wclass :=
  match members w2c k with [] => None | _ => Some (class_of w2c f k) end.

Lemma firstn_S_nth {A} (l : list A) j a : nth_error l j = Some a -> firstn (S j) l = firstn j l ++ [a].
Proof.
  revert j; induction l as [|x l IH]; intros [|j] H; try discriminate.
  - cbn in *. congruence.
  - cbn [firstn app]. f_equal. now apply IH.
Qed.

Lemma load_probs_spec w2c f n : valid w2c n -> forall j, j <= length w2c ->
  foldM (load_prob w2c) (combine (seq 0 j) (map f (seq 0 j))) (repeat None n)
  = Ok (map (opt_class (firstn j w2c) f) (seq 0 n)).
Proof.
  intros [V1 V2]. induction j as [|j IH]; intros Hj.
  - cbn. f_equal. clear. generalize 0. induction n as [|n IH]; intros s; cbn [repeat seq map]; [reflexivity|].
    now rewrite (IH (S s)).
  - rewrite seq_S, map_app. cbn [map Nat.add].
    assert (Hc : forall (l1 : list nat) (l2 : list Qc) a b, length l1 = length l2 ->
              combine (l1 ++ [a]) (l2 ++ [b]) = combine l1 l2 ++ [(a, b)]).
    { induction l1 as [|x l1 IHl]; intros [|y l2] a b Hl; try discriminate; [reflexivity|].
      cbn. f_equal. apply IHl. now injection Hl. }
    rewrite Hc by (now rewrite map_length). rewrite foldM_app, IH by lia. cbn [bind foldM load_prob].
    assert (Hjl : j < length w2c) by lia.
    apply nth_error_Some in Hjl. destruct (nth_error w2c j) as [c|] eqn:Ec; [|congruence].
    rewrite (py_index_ok _ _ _ Ec). cbn [bind].
    assert (Hcn : c < n) by (apply V1; now apply nth_error_In in Ec).
    assert (E1 : py_index (map (opt_class (firstn j w2c) f) (seq 0 n)) c = Ok (opt_class (firstn j w2c) f c)).
    { apply py_index_ok. rewrite nth_error_map_seq. apply Nat.ltb_lt in Hcn. now rewrite Hcn. }
    rewrite E1. cbn [bind]. rewrite (firstn_S_nth _ _ _ Ec).
    assert (Hlen : length (firstn j w2c) = j) by (rewrite firstn_length; lia).
    assert (Hother : forall k, k <> c -> opt_class (firstn j w2c ++ [c]) f k = opt_class (firstn j w2c) f k).
    { intros k Hk. unfold opt_class, class_of. rewrite members_snoc.
      apply Nat.neq_sym, Nat.eqb_neq in Hk. now rewrite Hk, app_nil_r. }
    assert (Hsame : opt_class (firstn j w2c ++ [c]) f c =
                    Some (mkClass c (map (fun i => (i, f i)) (members (firstn j w2c) c) ++ [(j, f j)]))).
    { unfold opt_class, class_of. rewrite members_snoc, Nat.eqb_refl, Hlen, map_app.
      destruct (members (firstn j w2c) c ++ [j]) eqn:E; [|reflexivity].
      apply app_eq_nil in E as [_ E]. discriminate. }
    unfold opt_class at 1. destruct (members (firstn j w2c) c) as [|m ms] eqn:Em; cbn [bind]; f_equal.
    + apply upd_map_seq; [exact Hcn| |].
      * rewrite Hsame. reflexivity.
      * intros k Hk Hne. now apply Hother.
    + apply upd_map_seq; [exact Hcn| |].
      * rewrite Hsame. apply f_equal. rewrite <- Em.
        pose proof (class_set_new (firstn j w2c) f c (f j)) as X. rewrite Hlen in X. symmetry. exact X.
      * intros k Hk Hne. now apply Hother.
Qed.

Lemma valid_max w2c n : w2c <> [] -> valid w2c n -> list_max w2c + 1 = n.
Proof.
  intros Hne [V1 V2]. destruct n as [|n].
  { destruct w2c as [|c w2c]; [congruence|]. specialize (V1 c (or_introl eq_refl)). lia. }
  assert (H1 : list_max w2c <= n).
  { apply list_max_le. apply Forall_forall. intros c Hc. apply V1 in Hc. lia. }
  assert (H2 : n <= list_max w2c).
  { specialize (V2 n (Nat.lt_succ_diag_r n)).
    pose proof (proj1 (list_max_le w2c (list_max w2c)) (le_n _)) as Hm. rewrite Forall_forall in Hm. auto. }
  lia.
Qed.

Lemma wf_state_roundtrip v f n state state' :
  wf v f n -> vocab_get_state v state = Ok state' ->
  (v_unigram v = None -> h_unigram state = None) ->
  vocab_from_state (Some state') = Ok v.
Proof.
  intros H Hg Hu. unfold vocab_get_state in Hg.
  destruct (assign_dataset (h_classes state) (v_w2c v)) as [w2c'|] eqn:E1; cbn [bind] in Hg; [|discriminate].
  assert (w2c' = v_w2c v) as ->.
  { unfold assign_dataset in E1. destruct (h_classes state); [destruct (_ =? _)|]; congruence. }
  rewrite (get_state_probs _ _ _ H) in Hg. cbn [bind] in Hg.
  destruct (assign_dataset (h_probs state) _) as [ps|] eqn:E2; cbn [bind] in Hg; [|discriminate].
  assert (ps = map f (seq 0 (length (v_w2c v)))) as ->.
  { unfold assign_dataset in E2. destruct (h_probs state); [destruct (_ =? _)|]; congruence. }
  assert (Hst : state' = mkVocabState (Some (v_id_to_word v)) (Some (v_w2c v))
                           (Some (map f (seq 0 (length (v_w2c v))))) (v_unigram v)).
  { destruct (v_unigram v) as [u|] eqn:Eu; cbn [bind] in Hg.
    - destruct (assign_dataset (h_unigram state) u) as [u'|] eqn:E3; cbn [bind] in Hg; [|discriminate].
      assert (u' = u) as -> by (unfold assign_dataset in E3; destruct (h_unigram state); [destruct (_ =? _)|]; congruence).
      congruence.
    - rewrite Hu in Hg by reflexivity. congruence. }
  rewrite Hst. unfold vocab_from_state. cbn [h_words h_classes h_probs h_unigram].
  assert (Hne : v_w2c v <> []).
  { destruct (wf_special _ _ _ H SOS) as (i & _ & Hi); [apply special_cases|].
    destruct (v_w2c v); [cbn in Hi; lia|discriminate]. }
  rewrite map_length, seq_length.
  destruct (v_w2c v) as [|c0 w2c0] eqn:Ew; [congruence|]. rewrite <- Ew in *. clear Ew c0 w2c0.
  rewrite (valid_max _ n Hne (wf_valid _ _ _ H)).
  rewrite (load_probs_spec _ _ _ (wf_valid _ _ _ H) _ (le_n _)). cbn [bind]. rewrite firstn_all.
  assert (Hm : mapM (fun c : option wclass => match c with Some c => Ok c | None => Err TypeError end)
                    (map (opt_class (v_w2c v) f) (seq 0 n)) = Ok (classes_of (v_w2c v) f n)).
  { unfold classes_of.
    assert (Hlt : forall k, In k (seq 0 n) -> k < n) by (intros k Hin; apply in_seq in Hin; lia).
    revert Hlt. generalize (seq 0 n). intros l. induction l as [|k l IH]; intros Hlt; [reflexivity|].
    cbn [map mapM]. assert (Hk : members (v_w2c v) k <> []).
    { apply members_nonempty. apply (wf_valid _ _ _ H). apply Hlt. now left. }
    unfold opt_class at 1. destruct (members (v_w2c v) k); [congruence|]. cbn [bind].
    rewrite IH; [reflexivity|]. intros k' Hk'. apply Hlt. now right. }
  rewrite Hm. cbn [bind].
  assert (Hmk : make_vocab (v_id_to_word v) (v_w2c v) (classes_of (v_w2c v) f n)
                = Ok (mkVocab (v_id_to_word v) (v_w2c v) (v_classes v) (v_num_normal v) None)).
  { apply make_vocab_spec; [apply H|]. split; [|split].
    - intros t Ht. destruct (wf_special _ _ _ H t Ht) as (i & Hi & _). now apply nth_error_In in Hi.
    - intros k Hk. rewrite (wf_sums _ _ _ H k Hk). discriminate.
    - exists (v_num_normal v). split; [apply H|]. f_equal. rewrite (wf_classes _ _ _ H).
      apply classes_of_ext. intros i Hi. unfold normalized.
      assert (Hki : class_idx (v_w2c v) i < n).
      { apply (wf_valid _ _ _ H). unfold class_idx. now apply nth_In. }
      rewrite (wf_sums _ _ _ H _ Hki). symmetry. apply qc_div_1. }
  rewrite Hmk. cbn [bind v_id_to_word v_w2c v_classes v_num_normal].
  destruct (v_unigram v) as [u|] eqn:Eu.
  - rewrite (wf_unigram _ _ _ H u Eu), Nat.eqb_refl. destruct v; cbn in *. congruence.
  - destruct v; cbn in *. congruence.
Qed.

Lemma get_state_total v f n : wf v f n ->
  exists state, vocab_get_state v empty_vocab_state = Ok state.
Proof.
  intros H. unfold vocab_get_state. cbn [h_classes h_probs h_unigram empty_vocab_state assign_dataset bind].
  rewrite (get_state_probs _ _ _ H). cbn [bind]. destruct (v_unigram v); eexists; reflexivity.
Qed.

(** ** Reachable vocabularies are well-formed *)

Lemma reachable_wf v : reachable_vocab v -> exists f n, wf v f n.
Proof.
  induction 1 as [pi pf format lines oos v E|wc n v Hn E|v wc b v' Hr (f & n & IH) E|v st v' Hr (f & n & IH) E1 E2].
  - pose proof (from_file_spec pi pf format lines oos) as Hs. rewrite E in Hs.
    destruct Hs as (es & w2c & n & extra & _ & _ & _ & _ & _ & _ & _ & _ & _ & Hwf & _). eauto.
  - destruct (Nat.eq_dec (match n with Some n => n | None => length (drop_specials wc) end) 0) as [E0|E0].
    + destruct (drop_specials wc) as [|x l] eqn:Ed.
      * destruct (from_word_counts_spec wc n Hn) as (v' & E' & _ & _ & _ & Hwf); [right; exact Ed|].
        rewrite E in E'. injection E' as <-. eauto.
      * destruct n as [n|]; [|cbn in E0; lia]. subst n. rewrite from_word_counts_fails in E; [discriminate|congruence].
    + destruct (from_word_counts_spec wc n Hn) as (v' & E' & _ & _ & _ & Hwf); [left; lia|].
      rewrite E in E'. injection E' as <-. eauto.
  - eexists _, n. eapply compute_probs_wf; eauto.
  - assert (E3 : vocab_from_state (Some st) = Ok v) by (eapply wf_state_roundtrip; eauto).
    rewrite E3 in E2. injection E2 as <-. eauto.
Qed.
