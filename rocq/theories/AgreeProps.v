(** Lattice decoding and text scoring. *)
From Coq Require Import QArith Qcanon.
From Verif Require Import Base BaseLib ListLib QcLib Strings Dict VocabModel VocabSpec VocabProofs VocabBuild VocabStats VocabProps
     ScoreModel ScoreSpec ScoreProofs ScoreProps SubwordProofs LatticeModel LatticeSpec LatticeExamples
     DecoderModel DecoderSpec DecoderProofs DecoderExamples DecoderProps AgreeSpec AgreeProofs.
Local Open Scope nat_scope.

(** The score of each word, in the decoder and in text scoring: both contain the log
    probability of the class of the word given the words before it, and the share of an
    out-of-shortlist word; text scoring adds the log probability of the word in its class,
    the decoder that of the previous word. *)
Theorem C31_words state (initial : state) f F ln v o exclude_unk sos ws xs last_ st ids scores bs :
  reachable_vocab v -> same_network v initial f F ->
  network_scores state initial f ln v o sos ws xs last_ st ->
  Forall2 (text_id v) (map fst ws) (tl ids) -> hd_error ids = Some sos ->
  sequence_scores ln F v (o_use_shortlist o) exclude_unk ids scores ->
  Forall (scored_by_both v (o_use_shortlist o) exclude_unk) ws ->
  Forall2 (membership ln v) ids bs ->
  exists ss, scores = map Some ss /\ length ss = length xs /\
    forall i x s b0 b1, nth_error xs i = Some x -> nth_error ss i = Some s ->
      nth_error bs i = Some b0 -> nth_error bs (S i) = Some b1 ->
      ladd (Fin x) b1 = ladd s b0.
Proof.
  intros Hv (next & N1 & N2) H1 H2 H3 H4 H5 H6. eapply same_scores; eauto.
Qed.
Print Assumptions C31_words.

Lemma membership_exists ln v id : reachable_vocab v -> exists b, membership ln v id b.
Proof.
  intros Hv. destruct (vocab_specials v UNK Hv) as (unk & Hu & _); [unfold is_special, specials; cbn; auto|].
  pose proof (seen_kp v Hv unk Hu id) as S.
  destruct (log_of_exists ln (snd (kp v id))) as [b Hb]. exists b, (shown v unk id), (fst (kp v id)), (snd (kp v id)). auto.
Qed.
Lemma memberships_exist ln v ids : reachable_vocab v -> exists bs, Forall2 (membership ln v) ids bs.
Proof.
  intros Hv. induction ids as [|id ids [bs IH]]; [exists []; constructor|].
  destruct (membership_exists ln v id Hv) as [b Hb]. exists (b :: bs). now constructor.
Qed.
Lemma total_some ss : total_score (map Some ss) = Some (lsum ss).
Proof. induction ss as [|s ss IH]; [reflexivity|]. cbn [map total_score]. rewrite IH. reflexivity. Qed.

(** The total of a sequence: what the decoder has, with the membership of the last word
    added, is what text scoring gives, with the membership of <s> added. *)
Theorem C31_totals state (initial : state) f F ln v o exclude_unk sos ws xs last_ st ids scores last_id b_first b_last :
  reachable_vocab v -> same_network v initial f F ->
  network_scores state initial f ln v o sos ws xs last_ st ->
  Forall2 (text_id v) (inl sos :: map fst ws) ids ->
  sequence_scores ln F v (o_use_shortlist o) exclude_unk ids scores ->
  Forall (scored_by_both v (o_use_shortlist o) exclude_unk) ws ->
  text_id v last_ last_id -> membership ln v sos b_first -> membership ln v last_id b_last ->
  exists total, total_score scores = Some total /\ ladd (Fin (qsum xs)) b_last = ladd total b_first.
Proof.
  intros Hv Hsame H1 H2 H4 H5 Hl Hf Hb. inversion H2 as [|? id0 ? ids' T0 T]; subst. cbn in T0. subst id0.
  destruct (memberships_exist ln v ids' Hv) as [bs Hm].
  assert (Hm' : Forall2 (membership ln v) (sos :: ids') (b_first :: bs)) by (constructor; assumption).
  destruct (C31_words _ _ _ _ _ _ _ _ _ _ _ _ _ (sos :: ids') _ _ Hv Hsame H1 T eq_refl H4 H5 Hm') as (ss & -> & L & W).
  exists (lsum ss). split; [apply total_some|].
  destruct Hsame as (next & N1 & _). destruct (scores_states initial f ln v o next N1 _ _ _ _ _ H1) as (_ & _ & _ & (hs & E) & L' & _).
  assert (Lb : length bs = length xs).
  { apply forall2_len in Hm. apply forall2_len in T. rewrite map_length in T. lia. }
  rewrite <- (telescope xs ss b_first bs L Lb).
  - f_equal. assert (Eb : exists bs0, b_first :: bs = bs0 ++ [last (b_first :: bs) b_first]) by apply last_of_cons.
    destruct Eb as [bs0 Eb]. rewrite Eb in Hm'.
    rewrite E in H2. apply Forall2_app_inv_l in H2 as (i1 & i2 & F1 & F2 & Ei). inversion F2 as [|? lid ? i3 TL F3]; subst. inversion F3; subst.
    rewrite Ei in Hm'. apply Forall2_app_inv_l in Hm' as (m1 & m2 & G1 & G2 & Em). inversion G2 as [|? lb ? m3 ML G3]; subst. inversion G3; subst.
    apply app_inj_tail in Em as [_ Em]. rewrite Em.
    assert (lid = last_id) as -> by (destruct last_; cbn in *; congruence).
    destruct ML as (? & ? & ? & S1 & S2). destruct Hb as (? & ? & ? & S3 & S4).
    destruct (seen_unique v last_id _ _ _ _ _ _ S1 S3) as (-> & -> & ->). eapply log_unique; eauto.
  - intros i x s b0 b1 Hx Hs H0 H1'. exact (W i x s b0 b1 Hx Hs H0 H1').
Qed.
Print Assumptions C31_totals.

Lemma text_ids_of state (v : vocabulary) (t : token state) words ids : reachable_vocab v ->
  history_words state v t = Ok words ->
  (forall s, In (inr s) (tk_history _ t) -> word_to_id v s = None) ->
  ids_of v words ids -> Forall2 (text_id v) (tk_history _ t) ids.
Proof.
  intros Hv E Hs (unk & Hu & H). unfold history_words in E. revert words ids E H Hs.
  induction (tk_history state t) as [|w h IH]; intros words ids E H Hs; cbn [mapM] in E.
  - injection E as <-. inversion H; subst. constructor.
  - destruct (match w with inl i => py_index (v_id_to_word v) i | inr s => Ok s end) as [x|] eqn:Ex; cbn [bind] in E; [|discriminate].
    match type of E with context [mapM ?g ?l] => destruct (mapM g l) as [xs|] eqn:Em end; cbn [bind] in E; [|discriminate]. injection E as <-.
    inversion H as [|? id ? ids' Hw H']; subst. constructor; [|eapply (IH xs ids' eq_refl H'); intros s0 H0; apply Hs; now right].
    destruct w as [i|s]; cbn.
    + unfold py_index in Ex. destruct (nth_error (v_id_to_word v) i) as [y|] eqn:Ey; [|discriminate]. injection Ex as ->.
      pose proof (proj2 (proj2 (C09_inverse_maps v Hv) i x) Ey) as Ei. destruct Hw as [Hw|[Hw _]]; congruence.
    + injection Ex as ->. specialize (Hs x (or_introl eq_refl)). destruct Hw as [Hw|[_ ->]]; congruence.
Qed.

(** The complete hypotheses that decoding returns, and the text of the same words *)
Theorem C31_decoded state (initial : state) net_step f F ln lin hash v o exclude_unk a tokens dropped t :
  reachable_vocab v -> step_independent v net_step f -> lattice_ok a -> same_network v initial f F ->
  decode state initial net_step ln lin hash v o a = Ok (tokens, dropped) -> In t tokens ->
  exists p, hypothesis_at state initial f ln lin v o a None p t /\
    (Forall (scored_by_both v (o_use_shortlist o) exclude_unk) (path_words v o p) ->
     forall words ids scores sos eos b_sos b_eos,
       history_words state v t = Ok words -> ids_of v words ids ->
       sequence_scores ln F v (o_use_shortlist o) exclude_unk ids scores ->
       word_to_id v SOS = Some sos -> word_to_id v EOS = Some eos ->
       membership ln v sos b_sos -> membership ln v eos b_eos ->
       exists total, total_score scores = Some total /\ ladd (Fin (tk_nn _ t)) b_eos = ladd total b_sos).
Proof.
  intros Hv Hi Ha Hsame E Ht. destruct (proj1 (C26_hypotheses_are_paths _ _ _ _ _ _ _ _ _ _ _ _ Hv Hi Ha E) t Ht) as (p & Hp).
  exists p. split; [exact Hp|]. intros Hb words ids scores sos eos b_sos b_eos Hw Hids Hs Es Ee Ms Me.
  destruct Hp as [_ Hp]. destruct (hy_words _ _ _ _ _ _ _ _ _ _ _ Hp) as (sos' & eos' & Es' & Ee' & Hh & xs & last_ & N & En).
  assert (sos' = sos) as -> by congruence. assert (eos' = eos) as -> by congruence.
  assert (Hlast : last_ = inl eos).
  { destruct Hsame as (next & N1 & _). destruct (scores_states initial f ln v o next N1 _ _ _ _ _ N) as (_ & _ & _ & (hs & Eh) & _).
    rewrite map_app in Eh. cbn [map fst] in Eh. rewrite app_comm_cons in Eh. apply app_inj_tail in Eh as [_ <-]. reflexivity. }
  subst last_. rewrite En.
  eapply (C31_totals state initial f F ln v o exclude_unk sos _ xs (inl eos) _ ids scores eos b_sos b_eos Hv Hsame N); eauto.
  - rewrite <- Hh. eapply text_ids_of; eauto. intros s Hin. rewrite Hh in Hin. destruct Hin as [Hin|Hin]; [discriminate|].
    rewrite map_app in Hin. apply in_app_or in Hin as [Hin|[Hin|[]]]; [|discriminate].
    apply in_map_iff in Hin as ([w oov] & Ew & Hin). cbn [fst] in Ew. subst w.
    unfold path_words in Hin. apply in_concat in Hin as (l0 & Hl0 & Hin). apply in_map_iff in Hl0 as (l & <- & _).
    unfold link_words in Hin. destruct (k_word l) as [w|]; [|destruct Hin]. destruct Hin as [Hin|[]].
    destruct (word_to_id v w) eqn:Ew; [discriminate|]. injection Hin as -> _. exact Ew.
  - apply Forall_app. split; [exact Hb|]. constructor; [|constructor].
    destruct (vocab_specials v EOS Hv) as (e & Ee1 & He); [unfold is_special, specials; cbn; auto|].
    assert (e = eos) as -> by congruence. destruct (vocab_specials v UNK Hv) as (u & Eu & Hu); [unfold is_special, specials; cbn; auto|].
    split; cbn [fst snd]; [|now left]. intros id -> Ex.
    assert (NE : u <> eos).
    { intros ->. pose proof (proj1 (proj2 (C09_inverse_maps v Hv) eos EOS) Ee1) as A1. pose proof (proj1 (proj2 (C09_inverse_maps v Hv) eos UNK) Eu) as A2.
      assert (EOS = UNK) as A3 by congruence. discriminate A3. }
    destruct Ex as [[_ Ex]|(_ & _ & [Ex|Ex])]; try congruence. lia.
  - reflexivity.
Qed.
Print Assumptions C31_decoded.

(** If <s> and </s> have the same probability in their classes, for example if each is
    alone in its class, the scores are equal. *)
Theorem C31_same_total state (initial : state) net_step f F ln lin hash v o exclude_unk a tokens dropped t :
  reachable_vocab v -> step_independent v net_step f -> lattice_ok a -> same_network v initial f F ->
  decode state initial net_step ln lin hash v o a = Ok (tokens, dropped) -> In t tokens ->
  forall sos eos prob, word_to_id v SOS = Some sos -> word_to_id v EOS = Some eos ->
  get_word_prob v sos = Ok prob -> get_word_prob v eos = Ok prob -> (0 < prob)%Qc ->
  exists p, hypothesis_at state initial f ln lin v o a None p t /\
    (Forall (scored_by_both v (o_use_shortlist o) exclude_unk) (path_words v o p) ->
     forall words ids scores,
       history_words state v t = Ok words -> ids_of v words ids ->
       sequence_scores ln F v (o_use_shortlist o) exclude_unk ids scores ->
       total_score scores = Some (Fin (tk_nn _ t))).
Proof.
  intros Hv Hi Ha Hsame E Ht sos eos prob Es Ee Ps Pe Hpos.
  destruct (C31_decoded _ _ _ _ F _ _ _ _ _ exclude_unk _ _ _ _ Hv Hi Ha Hsame E Ht) as (p & Hp & H). exists p. split; [exact Hp|].
  intros Hb words ids scores Hw Hids Hs.
  assert (M : forall id, is_special id -> forall i, word_to_id v id = Some i -> get_word_prob v i = Ok prob -> membership ln v i (Fin (ln prob))).
  { intros id Hsp i Ei Hp'. destruct (vocab_specials v id Hv Hsp) as (i' & Ei' & Hlt). assert (i' = i) as -> by congruence.
    destruct (nth_error (v_w2c v) i) as [k|] eqn:Ek; [|apply nth_error_None in Ek; unfold num_shortlist_words in Hlt; lia].
    exists i, k, prob. split; [split; [left; auto|auto]|]. right. left. auto. }
  destruct (H Hb words ids scores sos eos (Fin (ln prob)) (Fin (ln prob)) Hw Hids Hs Es Ee) as (total & -> & T).
  - apply (M SOS); auto. unfold is_special, specials. cbn. auto.
  - apply (M EOS); auto. unfold is_special, specials. cbn. auto.
  - f_equal. destruct total as [q| |]; cbn [ladd] in T; try discriminate. f_equal.
    assert (T' : (q + ln prob + - ln prob = tk_nn _ t + ln prob + - ln prob)%Qc) by (apply (f_equal (fun x => Qcplus x (- ln prob))); congruence).
    rewrite <- !Qcplus_assoc, !Qcplus_opp_r, !Qcplus_0_r in T'. congruence.
Qed.
Print Assumptions C31_same_total.
Theorem C31_own_class v id k c p : reachable_vocab v ->
  nth_error (v_w2c v) id = Some k -> nth_error (v_classes v) k = Some c -> wc_probs c = [(id, p)] ->
  get_word_prob v id = Ok 1%Qc.
Proof.
  intros Hv Ek Ec Ep. destruct (vocab_class_shape v k c Hv Ec) as (_ & _ & _ & _ & S). rewrite Ep in S. cbn in S. rewrite Qcplus_0_r in S. subst p.
  unfold get_word_prob, py_index. rewrite Ek. cbn [bind]. rewrite Ec. cbn [bind]. unfold class_get. rewrite Ep. cbn. 
  destruct (Nat.eq_dec id id); [reflexivity|contradiction].
Qed.
Print Assumptions C31_own_class.

(** ** Cases *)

Definition ex_next (st : nat) (x : nat * nat) : nat := st + fst x + 1.
(** The network of DecoderExamples on whole sequences *)
Definition ex_whole (inputs : list (nat * nat)) (t target : nat) : Qc :=
  match nth_error inputs t with
  | Some (w, c) => fst (ex_step (w, c, target, fold_left ex_next (firstn t inputs) 0))
  | None => 0%Qc
  end.
Lemma ex_same_network v : same_network v 0 ex_step ex_whole.
Proof.
  exists ex_next. split; [reflexivity|]. intros inputs t w c target _ E _. unfold ex_whole. now rewrite E.
Qed.
(** Without a penalty for unknown words, and if text scoring includes them, all words are
    scored by both. *)
Lemma ex_scored_by_both v o p : o_use_shortlist o = false -> o_unk_penalty o = None -> o_unk_from_lattice o = false ->
  Forall (scored_by_both v (o_use_shortlist o) false) (path_words v o p).
Proof.
  intros H1 H2 H3. apply Forall_forall. intros [w oov] Hin. unfold path_words in Hin. apply in_concat in Hin as (l0 & Hl0 & Hin).
  apply in_map_iff in Hl0 as (l & <- & _). unfold link_words in Hin. rewrite H2, H3 in Hin. destruct (k_word l); [|destruct Hin].
  destruct Hin as [Hin|[]]. assert (oov = None) as -> by congruence. rewrite H1. split; cbn [fst snd].
  - intros id _ [[[S _] _]|(_ & S & _)]; discriminate.
  - destruct w; auto.
Qed.
Example C31_example :
  reachable_vocab ex_vocab /\ step_independent ex_vocab ex_net_step ex_step /\ lattice_ok ex_lattice /\ same_network ex_vocab 0 ex_step ex_whole /\
  word_to_id ex_vocab SOS = Some 4 /\ word_to_id ex_vocab EOS = Some 5 /\
  get_word_prob ex_vocab 4 = Ok 1%Qc /\ get_word_prob ex_vocab 5 = Ok 1%Qc /\
  match decode nat 0 ex_net_step ex_ln ex_lin ex_hash ex_vocab ex_options ex_lattice with
  | Ok (tokens, _) =>
    map (fun t => (tk_history _ t, this (tk_nn _ t))) tokens = [([inl 4; inl 2; inl 5], (-43 # 20)%Q); ([inl 4; inl 1; inl 5], (-243 # 110)%Q); ([inl 4; inl 0; inl 5], (-43 # 20)%Q)]
  | Err _ => False
  end.
Proof.
  split; [apply ex_vocab_reachable|]. split; [apply ex_step_independent|]. split; [apply ex_lattice_ok|]. split; [apply ex_same_network|].
  vm_compute. repeat split; reflexivity.
Qed.

(** What text scoring gives to the same sentences *)
Lemma scores_exist ln f v us eu ids : reachable_vocab v -> (forall x, In x ids -> x < num_words v) ->
  exists scores, sequence_scores ln f v us eu ids scores.
Proof.
  intros Hv Hids. destruct (vocab_specials v UNK Hv) as (unk & Hu & _); [unfold is_special, specials; cbn; auto|].
  exists (pscores ln f v us eu unk ids). unfold sequence_scores, pscores.
  assert (G : forall l, (forall i, In i l -> i < length ids) -> Forall2 (word_score ln f v us eu ids) l (map (pscore ln f v us eu unk ids) l)).
  { induction l as [|i l IH]; intros H; cbn [map]; constructor; [|apply IH; intros; apply H; now right].
    apply pscore_spec; auto. apply H. now left. }
  apply G. intros i Hi. apply in_seq in Hi. lia.
Qed.
Example C31_text_example :
  match total_score (pscores ex_ln ex_whole ex_vocab false false 3 [4; 1; 5]) with Some (Fin x) => this x = (-243 # 110)%Q | _ => False end.
Proof. vm_compute. reflexivity. Qed.

(** Scores of incomplete hypotheses are different: the probability of the last word in its
    class is missing. *)
Theorem C31_incomplete_hypotheses_refuted :
  ~ forall state (initial : state) f F ln v o exclude_unk sos ws xs last_ st ids scores,
    reachable_vocab v -> same_network v initial f F ->
    network_scores state initial f ln v o sos ws xs last_ st ->
    Forall2 (text_id v) (inl sos :: map fst ws) ids ->
    sequence_scores ln F v (o_use_shortlist o) exclude_unk ids scores ->
    Forall (scored_by_both v (o_use_shortlist o) exclude_unk) ws ->
    total_score scores = Some (Fin (qsum xs)).
Proof.
  intros H.
  assert (S4 : seen_as ex_vocab 4 4 2 1%Qc) by (split; [left; split; [vm_compute; lia|reflexivity]|vm_compute; split; reflexivity]).
  assert (S0 : seen_as ex_vocab 0 0 0 (Q2Qc (1 # 2))) by (split; [left; split; [vm_compute; lia|reflexivity]|vm_compute; split; reflexivity]).
  assert (L1 : log_of ex_ln 1%Qc (Fin (ex_ln 1%Qc))) by (right; left; split; [reflexivity|reflexivity]).
  assert (L2 : log_of ex_ln (Q2Qc (1 # 2)) (Fin (ex_ln (Q2Qc (1 # 2))))) by (right; left; split; [reflexivity|reflexivity]).
  assert (L4 : log_of ex_ln (Q2Qc (1 # 4)) (Fin (ex_ln (Q2Qc (1 # 4))))) by (right; left; split; [reflexivity|reflexivity]).
  assert (N : network_scores nat 0 ex_step ex_ln ex_vocab ex_options 4 [(inl 0, None)] [(ex_ln (Q2Qc (1 # 4)) + ex_ln 1 + 0)%Qc] (inl 0) 5).
  { apply (ns_snoc nat 0 ex_step ex_ln ex_vocab ex_options 4 [] [] (inl 4) 0 (inl 0) None _ 5); [constructor|].
    eapply (next_word_intro nat ex_step ex_ln ex_vocab ex_options (inl 4) (inl 0) None 0 4 2 1%Qc 0 0 (Q2Qc (1 # 2)) (Q2Qc (1 # 4)) 5); [exact S4|exact S0|reflexivity|exact L4|exact L1|].
    right. split; [auto|]. exists (Fin 0%Qc). split; [left; split; [intros [X _]; discriminate|reflexivity]|reflexivity]. }
  assert (T : Forall2 (text_id ex_vocab) (inl 4 :: map fst [(inl 0 : hword, @None Qc)]) [4; 0]) by repeat (constructor || reflexivity).
  destruct (scores_exist ex_ln ex_whole ex_vocab false false [4; 0] ex_vocab_reachable) as (scores & Hs).
  { intros x [<-|[<-|[]]]; vm_compute; lia. }
  assert (B : Forall (scored_by_both ex_vocab false false) [(inl 0 : hword, @None Qc)]).
  { constructor; [|constructor]. split; cbn [fst snd]; [|auto]. intros id _ [[[X _] _]|(_ & X & _)]; discriminate. }
  specialize (H nat 0 ex_step ex_whole ex_ln ex_vocab ex_options false 4 _ _ _ _ _ scores ex_vocab_reachable (ex_same_network _) N T Hs B).
  destruct (C31_totals nat 0 ex_step ex_whole ex_ln ex_vocab ex_options false 4 _ _ _ _ _ scores 0 (Fin (ex_ln 1%Qc)) (Fin (ex_ln (Q2Qc (1 # 2)))) ex_vocab_reachable (ex_same_network _) N T Hs B eq_refl) as (total & E & E').
  - exists 4, 2, 1%Qc. auto.
  - exists 0, 0, (Q2Qc (1 # 2)). auto.
  - rewrite H in E. injection E as <-. vm_compute in E'. discriminate.
Qed.
Print Assumptions C31_incomplete_hypotheses_refuted.

(** If </s> is in a class with another word, complete hypotheses have different scores, too. *)
Definition ex_eos_class := get_vocab (from_file ex_int ex_float Classes [str "a 1"; str "</s> 1"] []).
Example ex_eos_class_ok : from_file ex_int ex_float Classes [str "a 1"; str "</s> 1"] [] = Ok ex_eos_class.
Proof. unfold ex_eos_class. destruct (from_file _ _ _ _ _) eqn:E; [reflexivity|]. vm_compute in E. discriminate. Qed.
Lemma ex_eos_class_reachable : reachable_vocab ex_eos_class.
Proof. eapply rv_file. apply ex_eos_class_ok. Qed.
Theorem C31_class_of_sentence_end_refuted :
  ~ forall state (initial : state) net_step f F ln lin hash v o exclude_unk a tokens dropped t,
    reachable_vocab v -> step_independent v net_step f -> lattice_ok a -> same_network v initial f F ->
    decode state initial net_step ln lin hash v o a = Ok (tokens, dropped) -> In t tokens ->
    (forall p, Forall (scored_by_both v (o_use_shortlist o) exclude_unk) (path_words v o p)) ->
    forall words ids scores,
      history_words state v t = Ok words -> ids_of v words ids ->
      sequence_scores ln F v (o_use_shortlist o) exclude_unk ids scores ->
      total_score scores = Some (Fin (tk_nn _ t)).
Proof.
  intros H. destruct (decode nat 0 ex_net_step ex_ln ex_lin ex_hash ex_eos_class ex_options ex_lattice) as [[tokens dropped]|] eqn:E.
  2: { vm_compute in E. discriminate. }
  destruct tokens as [|t tokens]; [vm_compute in E; discriminate|].
  assert (Ht : exists words, history_words nat ex_eos_class t = Ok words /\ match words with [a; w; b] => In w [str "a"; str "b"; str "c"] /\ a = SOS /\ b = EOS | _ => False end).
  { assert (G : match decode nat 0 ex_net_step ex_ln ex_lin ex_hash ex_eos_class ex_options ex_lattice with
       | Ok (t :: _, _) => match history_words nat ex_eos_class t with Ok [a; w; b] => In w [str "a"; str "b"; str "c"] /\ a = SOS /\ b = EOS | _ => False end | _ => False end).
    { vm_compute. tauto. }
    rewrite E in G. destruct (history_words _ _ t) as [words|]; [|contradiction]. exists words. auto. }
  destruct Ht as (words & Hw & Hin).
  assert (Hids : exists ids, ids_of ex_eos_class words ids /\ forall x, In x ids -> x < num_words ex_eos_class).
  { destruct words as [|a [|w [|b [|? ?]]]]; try contradiction. destruct Hin as (Hin & -> & ->).
    assert (U : word_to_id ex_eos_class UNK = Some 3) by reflexivity.
    destruct Hin as [<-|[<-|[<-|[]]]]; [exists [2; 0; 1]|exists [2; 3; 1]|exists [2; 3; 1]]; (split; [exists 3; split; [exact U|]|]).
    all: try (intros x [<-|[<-|[<-|[]]]]; vm_compute; lia).
    all: constructor; [left; reflexivity|]; constructor; [first [left; reflexivity|right; split; reflexivity]|]; constructor; [left; reflexivity|constructor]. }
  destruct Hids as (ids & Hids & Hnum).
  destruct (scores_exist ex_ln ex_whole ex_eos_class false false ids ex_eos_class_reachable Hnum) as (scores & Hs).
  assert (Hb : forall p, Forall (scored_by_both ex_eos_class (o_use_shortlist ex_options) false) (path_words ex_eos_class ex_options p)) by (intro p; now apply ex_scored_by_both).
  specialize (H nat 0 ex_net_step ex_step ex_whole ex_ln ex_lin ex_hash ex_eos_class ex_options false ex_lattice _ _ t
    ex_eos_class_reachable (ex_step_independent _) ex_lattice_ok (ex_same_network _) E (or_introl eq_refl) Hb words ids scores Hw Hids Hs).
  destruct (C31_decoded nat 0 ex_net_step ex_step ex_whole ex_ln ex_lin ex_hash ex_eos_class ex_options false ex_lattice _ _ t
    ex_eos_class_reachable (ex_step_independent _) ex_lattice_ok (ex_same_network _) E (or_introl eq_refl)) as (p & _ & D).
  destruct (D (Hb p) words ids scores 2 1 (Fin 0%Qc) (Fin (ex_ln (Q2Qc (1 # 2)))) Hw Hids Hs) as (total & T & T'); try reflexivity.
  - exists 2, 1, 1%Qc. split; [split; [left; split; [vm_compute; lia|reflexivity]|vm_compute; split; reflexivity]|]. right. left. split; reflexivity.
  - exists 1, 0, (Q2Qc (1 # 2)). split; [split; [left; split; [vm_compute; lia|reflexivity]|vm_compute; split; reflexivity]|]. right. left. split; reflexivity.
  - rewrite H in T. injection T as <-. cbn [ladd] in T'.
    assert (T2 : (tk_nn nat t + ex_ln (Q2Qc (1 # 2)) = tk_nn nat t + 0)%Qc) by congruence.
    apply (f_equal (fun x => (- tk_nn nat t + x)%Qc)) in T2. rewrite !Qcplus_assoc, (Qcplus_comm (- _)), Qcplus_opp_r, !Qcplus_0_l in T2.
    vm_compute in T2. discriminate.
Qed.
Print Assumptions C31_class_of_sentence_end_refuted.
