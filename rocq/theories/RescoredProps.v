(** Properties of rescored lattices. *)
From Coq Require Import QArith Qcanon Sorting.Sorted Sorting.Permutation.
From Verif Require Import Base ListLib BaseLib QcLib Strings Dict VocabModel VocabSpec VocabProofs VocabBuild VocabStats VocabProps
     ScoreModel ScoreSpec ScoreProofs ScoreProps LatticeModel LatticeSpec SortProofs GraphProofs SlfProofs LatticeExamples LatticeProps
     DecoderModel DecoderSpec DecoderProofs PruneProofs DecodeProofs DecodeTotal DecoderExamples DecoderProps
     RescoredModel RescoredSpec FollowProofs RescoredProofs.
Local Open Scope nat_scope.

Section Hypotheses.
Variable state : Type.
Variable initial_state : state.
Variable f : nat * nat * nat * state -> Qc * state.
Variable ln : Qc -> Qc.
Variable lin : Qc -> Qc -> Qc -> Qc.
Variable v : vocabulary.
Variable o : options.
Variable a : lattice.
Hypothesis Hv : reachable_vocab v.
Notation hypothesis_on := (hypothesis_on state initial_state f ln lin v o a).
Notation hypothesis_at := (hypothesis_at state initial_state f ln lin v o a).

Lemma path_words_text p : Forall2 (word_is v) (map fst (path_words v o p)) (words_of p).
Proof.
  induction p as [|l p IH]; [constructor|]. unfold path_words. cbn [map concat]. rewrite map_app, words_of_cons.
  apply Forall2_app; [|exact IH]. unfold link_words. destruct (k_word l) as [w|]; [|constructor].
  cbn [map fst]. constructor; [|constructor]. unfold word_is. destruct (word_to_id v w) as [i|] eqn:E; [|reflexivity].
  now apply (proj2 (vocab_inverse v Hv)).
Qed.

Lemma hypothesis_words p c t : hypothesis_on p c t ->
  exists sos hs, tk_history _ t = inl sos :: hs /\ Forall2 (word_is v) hs (words_of p ++ if c then [EOS] else []) /\
    word_is v (inl sos) SOS.
Proof.
  intros H. destruct (hy_words _ _ _ _ _ _ _ _ _ _ _ H) as (sos & eos & E1 & E2 & E3 & _). cbv zeta in E3.
  exists sos, (map fst (path_words v o p ++ if c then [(inl eos, None)] else [])). split; [exact E3|]. split.
  - rewrite map_app. apply Forall2_app; [apply path_words_text|]. destruct c; [|constructor]. cbn [map fst].
    constructor; [|constructor]. cbn. now apply (proj2 (vocab_inverse v Hv)).
  - cbn. now apply (proj2 (vocab_inverse v Hv)).
Qed.

Lemma hypothesis_texts place p t : hypothesis_at place p t -> texts v (tk_history _ t).
Proof.
  intros H. assert (G : exists c, hypothesis_on p c t) by (destruct place; destruct H; eauto). destruct G as [c G].
  destruct (hypothesis_words _ _ _ G) as (sos & hs & -> & W & S). intros x [<-|Hx]; [eauto|].
  destruct (Forall2_left _ _ _ _ W Hx) as (w & _ & Hw). eauto.
Qed.

Lemma final_tok_path p t : hypothesis_at None p t -> exists j, tok_path state v a t p j.
Proof.
  intros [(i & Hp & Hf) H]. exists i. split; [now apply path_rp|]. split; [exact Hf|].
  destruct (hypothesis_words _ _ _ H) as (sos & hs & E & W & _). exists (inl sos), hs. auto.
Qed.

Hypothesis Hdet : determinized a.

Lemma null_path_words p : words_of p = [] -> path_words v o p = [].
Proof.
  induction p as [|l p IH]; [reflexivity|]. rewrite words_of_cons. unfold path_words. cbn [map concat].
  unfold link_words at 1. destruct (k_word l); [discriminate|]. cbn [app]. exact IH.
Qed.
Lemma path_words_app p q : path_words v o (p ++ q) = path_words v o p ++ path_words v o q.
Proof. unfold path_words. now rewrite map_app, concat_app. Qed.
Lemma same_words ws : forall i p q j k, rp (a_links a) i p j -> rp (a_links a) i q k ->
  words_of p = ws -> words_of q = ws -> path_words v o p = path_words v o q.
Proof.
  induction ws as [|w ws IH]; intros i p q j k Hp Hq Ep Eq; [now rewrite !null_path_words|].
  destruct (rp_first_word a _ _ _ _ _ Hp Ep) as (q1 & p1 & -> & L1 & R1 & W1).
  destruct (rp_first_word a _ _ _ _ _ Hq Eq) as (q2 & p2 & -> & L2 & R2 & W2).
  assert (q2 = q1) by (eapply Hdet; eassumption). subst q2. rewrite !path_words_app. f_equal. eapply IH; eassumption.
Qed.
Lemma same_network_score p q t u : hypothesis_at None p t -> hypothesis_at None q u -> words_of p = words_of q ->
  tk_nn _ t = tk_nn _ u.
Proof.
  intros [(i & Hp & _) H] [(j & Hq & _) G] E.
  assert (Ew : path_words v o p = path_words v o q).
  { eapply same_words; [apply path_rp; exact Hp|apply path_rp; exact Hq|exact E|reflexivity]. }
  destruct (hy_words _ _ _ _ _ _ _ _ _ _ _ H) as (s1 & e1 & A1 & A2 & A3 & xs & l1 & A4 & ->).
  destruct (hy_words _ _ _ _ _ _ _ _ _ _ _ G) as (s2 & e2 & B1 & B2 & B3 & ys & l2 & B4 & ->).
  assert (s2 = s1) by congruence. assert (e2 = e1) by congruence. subst s2 e2. cbv zeta in A4, B4. rewrite Ew in A4.
  now destruct (network_scores_unique _ _ _ _ lin _ _ _ _ _ _ _ _ _ _ A4 B4) as (-> & _).
Qed.
End Hypotheses.

Lemma path_last a i p j : path a i p j -> (p = [] /\ j = i) \/
  exists p' l, p = p' ++ [l] /\ path a i p' (k_start l) /\ In l (a_links a) /\ k_end l = j.
Proof. inversion 1; subst; [auto|]. right. eauto 6. Qed.

Lemma sum_merged_ac qs p' : Forall2 merged qs p' -> path_ac p' = path_ac (concat qs).
Proof.
  induction 1 as [|q l qs p' (_ & H & _) _ IH]; [reflexivity|]. unfold path_ac in *. cbn [concat map].
  rewrite map_app, qsum_cons, qsum_app, IH, H. reflexivity.
Qed.
Lemma sum_merged_lm qs p' : Forall2 merged qs p' -> path_lm p' = path_lm (concat qs).
Proof.
  induction 1 as [|q l qs p' (_ & _ & H & _) _ IH]; [reflexivity|]. unfold path_lm in *. cbn [concat map].
  rewrite map_app, qsum_cons, qsum_app, IH, H. reflexivity.
Qed.

(** What the rescored lattice is made of *)
Lemma rescored_parts state v a tokens dropped r : rescored_lattice state v a tokens dropped = Ok r ->
  exists maps st1 st2, add_word_maps (a_nodes a) (a_links a) = Ok maps /\
    foldM (add_final_token state v a maps) tokens (mkRstate [mkRnode [] []] []) = Ok st1 /\
    foldM (add_recombined state v a maps) (rev dropped) st1 = Ok st2 /\
    a_initial r = 0 /\ length (a_nodes r) = S (length (r_nodes st2)) /\
    (forall i, is_final_node r i = true <-> i = length (r_nodes st2)) /\
    forall l, In l (a_links r) <-> In (l, false) (r_links st2) \/
      exists l', In (l', true) (r_links st2) /\
        l = mkLink (k_start l') (length (r_nodes st2)) (k_word l') (k_ac l') (k_lm l') (k_transitions l').
Proof.
  unfold rescored_lattice. destruct (add_word_maps _ _) as [maps|] eqn:Em; cbn [bind]; [|discriminate].
  destruct (foldM (add_final_token _ _ _ _) _ _) as [st1|] eqn:E1; cbn [bind]; [|discriminate].
  destruct (foldM (add_recombined _ _ _ _) _ _) as [st2|] eqn:E2; cbn [bind]; [|discriminate].
  intros [= <-]. exists maps, st1, st2. cbn [a_initial a_nodes a_links].
  split; [reflexivity|]. split; [exact E1|]. split; [exact E2|]. split; [reflexivity|]. split; [|split].
  - rewrite app_length, map_length. cbn [length]. lia.
  - intros i. unfold is_final_node. cbn [a_nodes].
    destruct (Nat.lt_trichotomy i (length (r_nodes st2))) as [H|[->|H]].
    + rewrite nth_error_app1 by (now rewrite map_length). rewrite nth_error_map.
      destruct (nth_error (r_nodes st2) i); cbn; split; intros; (discriminate || lia).
    + rewrite nth_error_app2 by (rewrite map_length; lia). rewrite map_length, Nat.sub_diag. cbn. tauto.
    + rewrite nth_error_app2 by (rewrite map_length; lia). rewrite map_length.
      destruct (i - length (r_nodes st2)) as [|[|z]] eqn:E; [lia|..]; cbn; split; intros; (discriminate || lia).
  - intros l. rewrite in_map_iff. split.
    + intros ([x b] & E & H). cbn in E. destruct b; [right|left]; [exists x; auto|now subst x].
    + intros [H|(l' & H & ->)]; [exists (l, false)|exists (l', true)]; auto.
Qed.

(** ** C30: rescored lattices *)

(** If each next word can be reached in only one way and no link has the word </s>,
    the lattice created from the decoded tokens contains the path of every returned
    token. Null links are merged to the following word. The link to the final node
    has no word; its language model score is the network score of the whole path.
    The total scores of the path are those of the token: acoustic, and language
    model score of the original lattice plus network score, except for null links
    at the end. *)
Theorem C30_paths_kept :
  forall state (initial_state : state) net_step f ln lin hash v o a tokens dropped r,
  reachable_vocab v -> step_independent v net_step f -> lattice_ok a ->
  determinized a -> (forall l, In l (a_links a) -> k_word l <> Some EOS) ->
  decode state initial_state net_step ln lin hash v o a = Ok (tokens, dropped) ->
  rescored_lattice state v a tokens dropped = Ok r ->
  forall t, In t tokens -> exists p, hypothesis_at state initial_state f ln lin v o a None p t /\
  exists qs nulls p' l, p = concat qs ++ nulls /\ words_of nulls = [] /\
    Forall2 merged qs p' /\ path r (a_initial r) (p' ++ [l]) (k_end l) /\ is_final_node r (k_end l) = true /\
    k_word l = None /\ k_ac l = Some 0%Qc /\ k_lm l = Some (tk_nn _ t) /\
    words_of (p' ++ [l]) = words_of p /\
    (path_ac (p' ++ [l]) + path_ac nulls)%Qc = tk_ac _ t /\
    (path_lm (p' ++ [l]) + path_lm nulls)%Qc = (tk_lat _ t + tk_nn _ t)%Qc.
Proof.
  intros state initial_state net_step f ln lin hash v o a tokens dropped r Hv Hnet Ha Hdet Heos E Er t Ht.
  destruct (C26_hypotheses_are_paths state initial_state net_step f ln lin hash v o a tokens dropped Hv Hnet Ha E) as [Hy _].
  destruct (Hy t Ht) as [p Hp]. exists p. split; [exact Hp|].
  destruct (rescored_parts _ _ _ _ _ _ Er) as (maps & st1 & st2 & Em & E1 & E2 & Ei & _ & Ef & El).
  assert (I0 : inv1 state v a [] (fun _ => a_initial a) (fun _ => []) (mkRstate [mkRnode [] []] [])).
  { constructor; [apply initial_core; apply Ha|intros l []|intros t0 p0 j []]. }
  destruct (add_finals_inv1 state v a Ha Hdet maps Em Heos tokens _ _ _ _ st1 I0) as (og & sq & I1); [|exact E1|].
  { intros t' Ht'. destruct (Hy t' Ht') as [p' Hp']. exists p'. eapply final_tok_path; eassumption. }
  cbn [app] in I1. destruct (final_tok_path state initial_state f ln lin v o a Hv p t Hp) as [j Tp].
  destruct (i1_kept _ _ _ _ _ _ _ I1 t p j Ht Tp) as (qs & nulls & p' & l0 & H1 & H2 & H3 & H4 & H5 & H6 & H7).
  destruct (i1_final _ _ _ _ _ _ _ I1 l0 H5) as (A1 & _ & t' & p2 & j2 & T1 & T2 & T3 & T4).
  destruct (c_final _ _ _ _ _ (i1_core _ _ _ _ _ _ _ I1) l0 H5) as (_ & Wn).
  destruct (recombined_all_extends state v a maps _ _ _ E2) as [ys Ey].
  set (l := mkLink (k_start l0) (length (r_nodes st2)) (k_word l0) (k_ac l0) (k_lm l0) (k_transitions l0)).
  exists qs, nulls, p', l.
  assert (Nn : tk_nn _ t' = tk_nn _ t).
  { destruct (Hy t' T1) as [p3 Hp3]. destruct (final_tok_path state initial_state f ln lin v o a Hv p3 t' Hp3) as [j3 (_ & _ & S3)].
    destruct T3 as (_ & _ & S2). assert (words_of p3 = words_of p2).
    { destruct S3 as (x & hs & X1 & X2). destruct S2 as (y & hs' & Y1 & Y2). rewrite X1 in Y1. injection Y1 as <- <-.
      pose proof (words_unique v _ _ _ X2 Y2) as W. now apply app_inj_tail in W. }
    eapply same_network_score; [exact Hdet|exact Hp3|exact Hp|congruence]. }
  assert (Ac : k_ac l = Some 0%Qc) by exact A1.
  assert (Lm : k_lm l = Some (tk_nn _ t)) by (cbn [k_lm l]; congruence).
  assert (Pp : path r (a_initial r) (p' ++ [l]) (k_end l)).
  { apply path_snoc.
    - rewrite Ei. apply rp_path. eapply rp_mono; [|exact H4]. intros x Hx. apply plain_In in Hx.
      apply El. left. rewrite Ey. apply in_or_app. now left.
    - apply El. right. exists l0. split; [|reflexivity]. rewrite Ey. apply in_or_app. now left. }
  assert (Hh : hypothesis_on state initial_state f ln lin v o a p true t) by apply Hp.
  split; [exact H1|]. split; [exact H2|]. split; [exact H3|]. split; [exact Pp|].
  split; [now apply Ef|]. split; [exact Wn|]. split; [exact Ac|]. split; [exact Lm|]. split; [|split].
  - rewrite words_of_app, words_of_cons. cbn [k_word l]. rewrite Wn. cbn [app words_of map concat]. rewrite app_nil_r.
    exact H7.
  - rewrite (hy_ac _ _ _ _ _ _ _ _ _ _ _ Hh). fold (path_ac p). rewrite H1. unfold path_ac at 1. rewrite map_app, qsum_app.
    cbn [map]. rewrite qsum_cons, qsum_nil, Ac. cbn [score_or_zero]. fold (path_ac p'). rewrite (sum_merged_ac _ _ H3).
    unfold path_ac. rewrite map_app, qsum_app. ring.
  - rewrite (hy_lat _ _ _ _ _ _ _ _ _ _ _ Hh). fold (path_lm p). rewrite H1. unfold path_lm at 1. rewrite map_app, qsum_app.
    cbn [map]. rewrite qsum_cons, qsum_nil, Lm. cbn [score_or_zero]. fold (path_lm p'). rewrite (sum_merged_lm _ _ H3).
    unfold path_lm. rewrite map_app, qsum_app. ring.
Qed.
Print Assumptions C30_paths_kept.

(** Where the links of the rescored lattice come from: a link with a word is either
    merged from original links that lead to the word, with their total scores, or it
    belongs to a dropped token. Then it goes to the same node as another link with
    the same word, from which it takes the acoustic score and transitions, and its
    language model score differs from the other by the difference of the network
    scores of the dropped and the kept token. A link without a word goes to the final
    node. *)
Theorem C30_links : forall state v a (tokens : list (token state)) dropped r l,
  lattice_ok a -> rescored_lattice state v a tokens dropped = Ok r -> In l (a_links r) ->
  is_final_node r (k_end l) = true \/
  (exists w i q, k_word l = Some w /\ leads a w i q /\ merged q l) \/
  (exists t h nn l' x, In (t, h, nn) dropped /\ In l' (a_links r) /\ k_end l = k_end l' /\ k_word l = k_word l' /\
     k_ac l = k_ac l' /\ k_transitions l = k_transitions l' /\ k_lm l' = Some x /\
     k_lm l = Some (x + (tk_nn _ t - nn))%Qc).
Proof.
  intros state v a tokens dropped r l Ha Er Hl.
  destruct (rescored_parts _ _ _ _ _ _ Er) as (maps & st1 & st2 & Em & E1 & E2 & _ & _ & Ef & El).
  pose proof (rescored_sinv state v a Ha maps Em tokens dropped st1 st2 E1 E2) as [S _].
  apply El in Hl as [Hl|(l' & _ & ->)]; [right|left; now apply Ef].
  destruct (S l Hl) as [H|(t & h & nn & l' & x & A & B & C)]; [now left|right].
  exists t, h, nn, l', x. split; [exact A|]. split; [apply El; now left|exact C].
Qed.
Print Assumptions C30_links.

(** If there are no null links either, and no <s> in the lattice, a path to the
    final node of the rescored lattice always has the words of a path to a final
    node in the original lattice, even though links are added for recombined tokens. *)
Theorem C30_no_new_word_sequences :
  forall state (initial_state : state) net_step f ln lin hash v o a tokens dropped r,
  reachable_vocab v -> step_independent v net_step f -> lattice_ok a ->
  determinized a -> null_free a -> (forall l, In l (a_links a) -> k_word l <> Some EOS /\ k_word l <> Some SOS) ->
  decode state initial_state net_step ln lin hash v o a = Ok (tokens, dropped) ->
  rescored_lattice state v a tokens dropped = Ok r ->
  forall p i, path r (a_initial r) p i -> is_final_node r i = true ->
  exists p0 i0, path a (a_initial a) p0 i0 /\ is_final_node a i0 = true /\ words_of p = words_of p0.
Proof.
  intros state initial_state net_step f ln lin hash v o a tokens dropped r Hv Hnet Ha Hdet Hnf Hse E Er p i Hp Hi.
  assert (Heos : forall l, In l (a_links a) -> k_word l <> Some EOS) by (intros; now apply Hse).
  assert (Hsos : forall l, In l (a_links a) -> k_word l <> Some SOS) by (intros; now apply Hse).
  destruct (C26_hypotheses_are_paths state initial_state net_step f ln lin hash v o a tokens dropped Hv Hnet Ha E) as [Hy _].
  destruct (C28_decoded_tokens state initial_state net_step f ln lin hash v o a tokens dropped Hv Hnet Ha E) as (_ & _ & _ & Hd).
  destruct (rescored_parts _ _ _ _ _ _ Er) as (maps & st1 & st2 & Em & E1 & E2 & Ei & _ & Ef & El).
  assert (I0 : inv1 state v a [] (fun _ => a_initial a) (fun _ => []) (mkRstate [mkRnode [] []] [])).
  { constructor; [apply initial_core; apply Ha|intros l []|intros t0 p0 j []]. }
  destruct (add_finals_inv1 state v a Ha Hdet maps Em Heos tokens _ _ _ _ st1 I0) as (og & sq & I1); [|exact E1|].
  { intros t' Ht'. destruct (Hy t' Ht') as [p' Hp']. exists p'. eapply final_tok_path; eassumption. }
  assert (J1 : inv2 a og sq st1).
  { split; [apply core_weaken; apply (i1_core _ _ _ _ _ _ _ I1)|]. intros l Hl.
    now apply (i1_final _ _ _ _ _ _ _ I1 l Hl). }
  destruct (recombined_all_inv2 state v a Ha Hdet maps Em Hnf (rev dropped) og sq st1 st2 J1) as (og2 & sq2 & C2 & F2); [|exact E2|].
  { intros t h nn Hx. apply in_rev in Hx. destruct (Hd t h nn Hx) as (place & p1 & q1 & k & _ & _ & H1 & H2 & Eh & _).
    destruct place as [j|].
    - destruct H1 as [P1 H1], H2 as [P2 H2].
      destruct (hypothesis_words state initial_state f ln lin v o a Hv _ _ _ H1) as (s1 & hs1 & X1 & W1 & S1).
      destruct (hypothesis_words state initial_state f ln lin v o a Hv _ _ _ H2) as (s2 & hs2 & X2 & W2 & S2).
      cbv iota in W1, W2. rewrite app_nil_r in W1, W2. rewrite X2 in Eh.
      destruct (path_last a _ p1 j P1) as [[-> ->]|(p1' & l1 & -> & Q1 & I1' & <-)].
      + right. left. inversion W1; subst. exists [], (inl s1), SOS. rewrite X1. auto.
      + assert (Hw1 : exists w1, k_word l1 = Some w1) by (destruct (k_word l1) eqn:Ew; [eauto|exfalso; exact (Hnf _ I1' Ew)]).
        destruct Hw1 as [w1 Ew1]. rewrite words_of_app, words_of_cons, Ew1 in W1. cbn [app words_of map concat] in W1.
        apply snoc_parts in W1 as W1'. destruct W1' as (hs1' & x1 & -> & W1' & Wx1).
        destruct (path_last a _ q1 _ P2) as [[-> E0]|(q1' & l2 & -> & Q2 & I2' & E0)].
        * right. right. inversion W2; subst. exists (inl s1 :: hs1'), x1, [], (inl s2). split; [exact X1|]. split; [reflexivity|].
          intros ->. apply (Hsos _ I1'). unfold word_is in Wx1, S2. congruence.
        * assert (Hw2 : exists w2, k_word l2 = Some w2) by (destruct (k_word l2) eqn:Ew; [eauto|exfalso; exact (Hnf _ I2' Ew)]).
          destruct Hw2 as [w2 Ew2]. rewrite words_of_app, words_of_cons, Ew2 in W2. cbn [app words_of map concat] in W2.
          apply snoc_parts in W2 as W2'. destruct W2' as (hs2' & x2 & -> & W2' & Wx2).
          destruct (list_eq_dec N.eq_dec w1 w2) as [<-|Hne].
          -- left. exists (k_end l1), p1', l1, q1', l2, (inl s1), (hs1' ++ [x1]), (inl s2), (hs2' ++ [x2]), w1.
             repeat (split; [eauto; fail|]). split; [now apply path_rp|]. split; [now apply path_rp|].
             split; [exact X1|]. split; [now symmetry|]. auto.
          -- right. right. exists (inl s1 :: hs1'), x1, (inl s2 :: hs2'), x2. split; [exact X1|]. split; [now symmetry|].
             intros ->. apply Hne. unfold word_is in *. destruct x2; congruence.
    - destruct H1 as [_ H1]. destruct (hypothesis_words state initial_state f ln lin v o a Hv _ _ _ H1) as (s1 & hs1 & X1 & W1 & S1).
      cbv iota in W1. apply snoc_parts in W1 as (hs1' & x1 & -> & _ & Wx). right. left.
      exists (inl s1 :: hs1'), x1, EOS. split; [exact X1|]. auto. }
  apply Ef in Hi. rewrite Ei in Hp.
  (* paths of ordinary links follow the original lattice *)
  assert (G : forall x p j, rp (a_links r) x p j -> x < length (r_nodes st2) -> j = length (r_nodes st2) ->
     exists p0 i0, rp (a_links a) (og2 x) p0 i0 /\ is_final_node a i0 = true /\ words_of p = words_of p0).
  { clear p i Hp Hi. induction 1 as [x|l p j Hl Hp IH]; intros Hx Hj; [lia|]. apply El in Hl as [Hl|(l' & Hl & ->)].
    - destruct (c_link _ _ _ _ _ C2 _ Hl) as (_ & He & w & q & Ew & L & Eo & _).
      destruct (IH He Hj) as (p0 & i0 & H1 & H2 & H3). exists (q ++ p0), i0. split; [|split; [exact H2|]].
      + eapply rp_app; [exact (leads_rp _ _ _ _ L)|]. now rewrite <- Eo.
      + rewrite words_of_cons, words_of_app, Ew, (leads_words _ _ _ _ L), H3. reflexivity.
    - cbn [k_start k_end] in *. destruct (c_final _ _ _ _ _ C2 _ Hl) as [_ Wn].
      exists [], (og2 (k_start l')). split; [constructor|]. split; [now apply F2|].
      rewrite words_of_cons. cbn [k_word]. rewrite Wn. inversion Hp as [|l2 p2 j2 Hl2]; subst; [reflexivity|].
      exfalso. apply El in Hl2 as [Hl2|(l3 & Hl2 & ->)].
      + destruct (c_link _ _ _ _ _ C2 _ Hl2) as (X & _). lia.
      + destruct (c_final _ _ _ _ _ C2 _ Hl2) as (X & _). cbn [k_start] in *. lia. }
  destruct (G 0 p i (path_rp _ _ _ _ Hp) (c_pos _ _ _ _ _ C2) Hi) as (p0 & i0 & H1 & H2 & H3).
  rewrite (c_og _ _ _ _ _ C2) in H1. exists p0, i0. split; [now apply rp_path|]. auto.
Qed.
Print Assumptions C30_no_new_word_sequences.

(** Decoding an acyclic lattice whose nodes are all reachable, with a hash that tells
    recent histories apart and no negative recombination order: the rescored
    lattice can be created. *)
Fixpoint position (x : nat) (l : list nat) : nat :=
  match l with [] => 0 | y :: l' => if x =? y then 0 else S (position x l') end.
Lemma position_app x p t : ~ In x p -> position x (p ++ x :: t) = length p.
Proof.
  induction p as [|y p IH]; intros H; cbn; [now rewrite Nat.eqb_refl|]. destruct (Nat.eqb_spec x y) as [->|_].
  - exfalso. apply H. now left.
  - rewrite IH; [reflexivity|]. intros G. apply H. now right.
Qed.
Lemma position_lt x p t : In x p -> position x (p ++ t) < length p.
Proof.
  induction p as [|y p IH]; intros H; [destruct H|]. cbn. destruct (Nat.eqb_spec x y); [lia|].
  destruct H as [->|H]; [congruence|]. specialize (IH H). lia.
Qed.

Lemma acyclic_rank a : lattice_ok a -> ~ cyclic a -> (forall i, i < length (a_nodes a) -> reachable_node a i) ->
  exists rank : nat -> nat, (forall l, In l (a_links a) -> rank (k_end l) < rank (k_start l)) /\
    forall i, i < length (a_nodes a) -> rank i < length (a_nodes a).
Proof.
  intros Ha Hc Hr. destruct (acyclic_sorted a Ha Hc Hr) as (R & E & L).
  destruct (sorted_nodes_ok a Ha R E) as (N & (t0 & ER) & Rg & Ho & Hp & _).
  assert (Hin : forall i, i < length (a_nodes a) -> In i R) by (intros i Hi; apply Ho; now apply acyclic_orderable).
  assert (Hini : forall u, ~ edge a u (a_initial a)).
  { intros u He. apply Hc. destruct (Hr u) as [->|Hw].
    - destruct He as (l & Hl & <- & _). now apply (go_range _ _ (proj1 Ha)).
    - exists (a_initial a). now apply walk_edge.
    - exists (a_initial a). eapply walk_trans; [exact Hw|]. now apply walk_edge. }
  exists (fun i => length (a_nodes a) - 1 - position i R). split.
  - intros l Hl. destruct (go_range _ _ (proj1 Ha) l Hl) as [H1 H2].
    destruct (in_split _ _ (Hin _ H2)) as (p & t & Ep).
    assert (Hnp : ~ In (k_end l) p).
    { rewrite Ep in N. apply NoDup_remove_2 in N. intros G. apply N. apply in_or_app. now left. }
    assert (Hu : In (k_start l) p).
    { destruct p as [|x p].
      - exfalso. rewrite Ep in ER. cbn in ER. injection ER as E0 _. apply (Hini (k_start l)). exists l. auto.
      - destruct (Hp _ _ _ Ep ltac:(discriminate)) as [X _]. apply X. exists l. auto. }
    rewrite Ep. rewrite (position_app _ _ _ Hnp). pose proof (position_lt _ _ (k_end l :: t) Hu).
    assert (length p < length (a_nodes a)) by (rewrite <- L, Ep, app_length; cbn [length]; lia). lia.
  - intros i Hi. lia.
Qed.

Lemma recent_last o h h' r : recent o h r -> recent o h' r -> h <> [] -> h' <> [] ->
  (forall n, o_order o = Some n -> (0 <= n)%Z) -> exists h1 h2 x, h = h1 ++ [x] /\ h' = h2 ++ [x].
Proof.
  intros R R' Hh Hh' Ho.
  assert (G : forall g, recent o g r -> g <> [] -> exists old, g = old ++ r /\ r <> []).
  { unfold recent. intros g. destruct (o_order o) as [n|].
    - intros (old & -> & H) Hg. exists old. split; [reflexivity|]. specialize (Ho n eq_refl).
      intros ->. rewrite app_nil_r in *. cbn [length] in *. destruct H as [[Hn [H|[-> H]]]|[Hn [H|[_ H]]]]; [lia|congruence| |lia].
      assert (length old = 0) by lia. destruct old; [congruence|discriminate].
    - intros -> Hg. exists []. auto. }
  destruct (G _ R Hh) as (o1 & -> & Hr). destruct (G _ R' Hh') as (o2 & -> & _).
  destruct (exists_last Hr) as (r0 & x & ->). exists (o1 ++ r0), (o2 ++ r0), x. now rewrite !app_assoc.
Qed.

Theorem C30_rescoring_succeeds :
  forall state (initial_state : state) net_step f ln lin hash v o a tokens dropped,
  reachable_vocab v -> step_independent v net_step f -> lattice_ok a ->
  ~ cyclic a -> (forall i, i < length (a_nodes a) -> reachable_node a i) ->
  (forall n, o_order o = Some n -> (0 <= n)%Z) ->
  no_recent_collisions initial_state f ln lin v o hash a ->
  decode state initial_state net_step ln lin hash v o a = Ok (tokens, dropped) ->
  exists r, rescored_lattice state v a tokens dropped = Ok r.
Proof.
  intros state initial_state net_step f ln lin hash v o a tokens dropped Hv Hnet Ha Hc Hr Ho Hno E.
  destruct (acyclic_rank a Ha Hc Hr) as (rank & K1 & K2).
  destruct (C26_hypotheses_are_paths state initial_state net_step f ln lin hash v o a tokens dropped Hv Hnet Ha E) as [Hy _].
  destruct (C28_decoded_tokens state initial_state net_step f ln lin hash v o a tokens dropped Hv Hnet Ha E) as (_ & _ & _ & Hd).
  destruct (add_word_maps_total a Ha rank K1 K2) as [maps Em]. unfold rescored_lattice. rewrite Em. cbn [bind].
  assert (W0 : wf (mkRstate [mkRnode [] []] [])).
  { constructor; cbn [r_nodes r_links length]; [lia| |].
    - intros i n w k H. destruct i as [|[|i]]; cbn in H; try discriminate. injection H as <-. discriminate.
    - intros i n k H. destruct i as [|[|i]]; cbn in H; try discriminate. injection H as <-. intros []. }
  assert (F1 : forall ts st, wf st -> (forall t, In t ts -> In t tokens) ->
     exists st', foldM (add_final_token state v a maps) ts st = Ok st' /\ wf st').
  { induction ts as [|t ts IH]; intros st W Hs; cbn [foldM]; [eauto|].
    destruct (Hy t (Hs t (or_introl eq_refl))) as [p Hp].
    destruct (add_final_total state v a Ha (proj2 Ha) rank K1 K2 maps Em st t W) as (st1 & -> & W1).
    - eapply hypothesis_texts; eassumption.
    - cbn [bind]. apply IH; [exact W1|]. intros; apply Hs; now right. }
  destruct (F1 tokens _ W0 (fun t H => H)) as (st1 & -> & W1). cbn [bind].
  assert (F2 : forall xs st, wf st -> (forall x, In x xs -> In x dropped) ->
     exists st', foldM (add_recombined state v a maps) xs st = Ok st' /\ wf st').
  { induction xs as [|[[t h] nn] xs IH]; intros st W Hs; cbn [foldM]; [eauto|].
    destruct (Hd t h nn (Hs _ (or_introl eq_refl))) as (place & p & q & k & x & y & H1 & H2 & H3 & _ & _ & H4 & H5 & H6).
    assert (Th : texts v (tk_history _ t)) by (eapply hypothesis_texts; eassumption).
    assert (Tk : texts v h) by (rewrite <- H3; eapply hypothesis_texts; eassumption).
    assert (Ne : forall place p (t : token state), hypothesis_at state initial_state f ln lin v o a place p t -> tk_history _ t <> []).
    { intros pl p0 t0 H. assert (G : exists c, hypothesis_on state initial_state f ln lin v o a p0 c t0) by (destruct pl; destruct H; eauto).
      destruct G as [c G]. destruct (hypothesis_words state initial_state f ln lin v o a Hv _ _ _ G) as (s0 & hs & -> & _). discriminate. }
    assert (x = y).
    { apply (Hno (tk_history _ t) h x y); [exists place, p, t; auto|exists place, q, k; auto|exact H4|exact H5|exact H6]. }
    subst y.
    destruct (add_recombined_total state v a Ha (proj2 Ha) rank K1 K2 maps Em st t h nn W Th Tk) as (st2 & -> & W2).
    - apply (recent_last o _ _ x H4 H5); [exact (Ne _ _ _ H1)|rewrite <- H3; exact (Ne _ _ _ H2)|exact Ho].
    - cbn [bind]. apply IH; [exact W2|]. intros; apply Hs; now right. }
  destruct (F2 (rev dropped) _ W1) as (st2 & -> & _); [intros x Hx; now apply in_rev|]. cbn [bind]. eauto.
Qed.
Print Assumptions C30_rescoring_succeeds.

(** A lattice without null links, decoded with recombination order 1: the paths
    "a c a" and "b c a" are recombined after c. *)
Definition ex_plain_links : list link :=
  [mkLink 0 1 (Some (str "a")) (Some (q (-1) 1)) (Some (q (-1) 1)) [];
   mkLink 0 2 (Some (str "b")) (Some (q (-2) 1)) (Some (q (-1) 3)) [];
   mkLink 1 3 (Some (str "c")) (Some (q (-1) 2)) (Some (q (-1) 5)) [];
   mkLink 2 3 (Some (str "c")) (Some (q (-1) 2)) (Some (q (-1) 7)) [];
   mkLink 3 4 (Some (str "a")) (Some (q (-1) 9)) (Some (q 0 1)) []].
Definition ex_plain : lattice :=
  mkLattice [mkNode [0; 1] [] None false; mkNode [2] [0] None false; mkNode [3] [1] None false;
             mkNode [4] [2; 3] None false; mkNode [] [4] None true] ex_plain_links 0 (Some (str "u")) None None.
Definition ex_order : options :=
  mkOptions (q 1 2) None None None false false false None None (Some 1%Z) None 0%Qc 0%Z.

Definition rescored (o : options) (a : lattice) : result lattice :=
  do '(tokens, dropped) <- decode nat 0 ex_net_step ex_ln ex_lin ex_hash ex_vocab o a;
  rescored_lattice nat ex_vocab a tokens dropped.
Definition shape (r : result lattice) : option (list (nat * nat * option pystr)) :=
  match r with Ok a => Some (map (fun l => (k_start l, k_end l, k_word l)) (a_links a)) | Err _ => None end.

Lemma ex_plain_ok : lattice_ok ex_plain.
Proof.
  split; [split|cbn; lia].
  - intros l Hl. cbn in Hl. repeat destruct Hl as [<-|Hl]; try contradiction; cbn; lia.
  - intros i n H. do 5 (destruct i as [|i]; [injection H as <-; reflexivity|]). destruct i; discriminate.
  - intros i n H. do 5 (destruct i as [|i]; [injection H as <-; reflexivity|]). destruct i; discriminate.
Qed.
Lemma plain_determinized a : null_free a ->
  (forall l l', In l (a_links a) -> In l' (a_links a) -> k_start l = k_start l' -> k_word l = k_word l' -> l = l') -> determinized a.
Proof.
  intros Hn H i w q1 q2 L1 L2.
  destruct L1 as [l I1 E1|l q1 I1 E1 _]; [|exfalso; exact (Hn _ I1 E1)].
  inversion L2 as [l2 I2 E2 Es|l2 q' I2 E2 _]; subst; [|exfalso; exact (Hn _ I2 E2)].
  f_equal. apply H; congruence.
Qed.
Ltac in_links H := cbn in H; repeat (destruct H as [<-|H]); try contradiction H.
Example C30_example : lattice_ok ex_plain /\ null_free ex_plain /\ determinized ex_plain /\
  (forall l, In l (a_links ex_plain) -> k_word l <> Some EOS /\ k_word l <> Some SOS) /\
  shape (rescored ex_order ex_plain) =
    Some [(0, 1, Some (str "a")); (1, 2, Some (str "c")); (2, 3, Some (str "a")); (3, 5, None);
          (0, 4, Some (str "b")); (4, 2, Some (str "c"))].
Proof.
  split; [apply ex_plain_ok|]. assert (Hn : null_free ex_plain) by (intros l Hl; in_links Hl; discriminate).
  split; [exact Hn|]. split; [|split].
  - apply plain_determinized; [exact Hn|]. intros l l' Hl Hl'. in_links Hl; in_links Hl'; cbn; intros; congruence.
  - intros l Hl. in_links Hl; split; discriminate.
  - vm_compute. reflexivity.
Qed.

(** With null links there can be new word sequences: "a c" and "b c" are recombined
    at node 5, after null links, although "a c" can also be followed by "b". The
    rescored lattice contains "b c b", which the original lattice does not. *)
Definition ex_null_links : list link :=
  [mkLink 0 1 (Some (str "a")) (Some (q (-1) 1)) (Some (q (-1) 1)) [];
   mkLink 0 2 (Some (str "b")) (Some (q (-2) 1)) (Some (q (-1) 3)) [];
   mkLink 1 3 (Some (str "c")) (Some (q (-1) 2)) (Some (q (-1) 5)) [];
   mkLink 2 4 (Some (str "c")) (Some (q (-1) 2)) (Some (q (-1) 7)) [];
   mkLink 3 5 None (Some (q 0 1)) (Some (q 0 1)) [];
   mkLink 4 5 None (Some (q 0 1)) (Some (q 0 1)) [];
   mkLink 3 6 (Some (str "b")) (Some (q 0 1)) (Some (q 0 1)) [];
   mkLink 5 6 (Some (str "a")) (Some (q (-9) 1)) (Some (q 0 1)) []].
Definition ex_null : lattice :=
  mkLattice [mkNode [0; 1] [] None false; mkNode [2] [0] None false; mkNode [3] [1] None false;
             mkNode [4; 6] [2] None false; mkNode [5] [3] None false; mkNode [7] [4; 5] None false;
             mkNode [] [6; 7] None true] ex_null_links 0 (Some (str "u")) None None.
Lemma ex_null_ok : lattice_ok ex_null.
Proof.
  split; [split|cbn; lia].
  - intros l Hl. in_links Hl; cbn; lia.
  - intros i n H. do 7 (destruct i as [|i]; [injection H as <-; reflexivity|]). destruct i; discriminate.
  - intros i n H. do 7 (destruct i as [|i]; [injection H as <-; reflexivity|]). destruct i; discriminate.
Qed.
Definition nl (k : nat) : link := nth k ex_null_links (mkLink 0 0 None None None []).
Lemma ex_null_leads w i q : leads ex_null w i q ->
  In (w, i, q) [(str "a", 0, [nl 0]); (str "b", 0, [nl 1]); (str "c", 1, [nl 2]); (str "c", 2, [nl 3]); (str "b", 3, [nl 6]);
                (str "a", 5, [nl 7]); (str "a", 3, [nl 4; nl 7]); (str "a", 4, [nl 5; nl 7])].
Proof.
  induction 1 as [l Hl E|l q0 Hl E _ IH].
  - in_links Hl; cbn in E; try discriminate; injection E as <-; cbn [k_start]; cbn [In]; tauto.
  - in_links Hl; cbn in E; try discriminate; cbn [k_end k_start] in *; cbn [In] in *;
      repeat destruct IH as [IH|IH]; try discriminate IH; try contradiction; injection IH as <- <-; tauto.
Qed.
Lemma ex_null_determinized : determinized ex_null.
Proof.
  intros i w q q' H H'. apply ex_null_leads in H, H'. cbn [In] in H, H'.
  repeat destruct H as [H|H]; try contradiction; injection H as <- <- <-;
    (repeat destruct H' as [H'|H']; try contradiction; try discriminate H'; injection H'; intros; subst; reflexivity).
Qed.
Theorem C30_null_links_refuted : exists r p i,
  lattice_ok ex_null /\ determinized ex_null /\
  (forall l, In l (a_links ex_null) -> k_word l <> Some EOS /\ k_word l <> Some SOS) /\
  (do '(tokens, dropped) <- decode nat 0 ex_net_step ex_ln ex_lin ex_hash ex_vocab ex_order ex_null;
   rescored_lattice nat ex_vocab ex_null tokens dropped) = Ok r /\
  path r (a_initial r) p i /\ is_final_node r i = true /\ words_of p = [str "b"; str "c"; str "b"] /\
  forall p0 i0, path ex_null (a_initial ex_null) p0 i0 -> words_of p0 <> words_of p.
Proof.
  destruct (rescored ex_order ex_null) as [r|] eqn:E; [|vm_compute in E; discriminate].
  assert (X : forall k x, nth_error (a_links r) k = Some x -> In x (a_links r)) by (intros; eapply nth_error_In; eassumption).
  assert (Ew : map (fun l => (k_start l, k_end l, k_word l)) (a_links r) =
     [(0, 1, Some (str "a")); (1, 2, Some (str "c")); (2, 3, Some (str "b")); (3, 5, None);
          (0, 4, Some (str "b")); (4, 2, Some (str "c"))] /\ a_initial r = 0 /\ is_final_node r 5 = true).
  { assert (G : match rescored ex_order ex_null with
      | Ok r => map (fun l => (k_start l, k_end l, k_word l)) (a_links r) =
     [(0, 1, Some (str "a")); (1, 2, Some (str "c")); (2, 3, Some (str "b")); (3, 5, None);
          (0, 4, Some (str "b")); (4, 2, Some (str "c"))] /\ a_initial r = 0 /\ is_final_node r 5 = true
      | Err _ => False end) by (vm_compute; auto).
    rewrite E in G. exact G. }
  destruct Ew as (Ew & Ei & Ef).
  destruct (a_links r) as [|l0 [|l1 [|l2 [|l3 [|l4 [|l5 [|l6 ls]]]]]]] eqn:El; try discriminate Ew.
  cbn [map] in Ew. injection Ew as _ _ _ _ _ _ A1 A2 A3 A4 A5 A6 A7 A8 A9 A10 A11 A12.
  exists r, [l4; l5; l2; l3], 5. split; [apply ex_null_ok|]. split; [apply ex_null_determinized|].
  split; [intros l Hl; in_links Hl; split; discriminate|]. split; [exact E|].
  assert (Hw : words_of [l4; l5; l2; l3] = [str "b"; str "c"; str "b"]).
  { rewrite !words_of_cons, A3, A6, A9, A12. reflexivity. }
  split; [|split; [exact Ef|split; [exact Hw|]]].
  - apply rp_path. rewrite Ei, El.
    assert (Go : forall ls l p i m j, k_start l = i -> k_end l = m -> In l ls -> rp ls m p j -> rp ls i (l :: p) j)
      by (intros ls l p i m j <- <- H1 H2; now constructor).
    apply (Go _ l4 _ 0 4 5 A7 A8); [cbn; tauto|]. apply (Go _ l5 _ 4 2 5 A10 A11); [cbn; tauto|].
    apply (Go _ l2 _ 2 3 5 A1 A2); [cbn; tauto|]. apply (Go _ l3 _ 3 5 5 A4 A5); [cbn; tauto|]. constructor.
  - rewrite Hw. intros p0 i0 Hp Hq. apply path_rp in Hp.
    destruct (rp_first_word ex_null _ _ _ _ _ Hp Hq) as (q1 & p1 & -> & L1 & R1 & W1).
    destruct (rp_first_word ex_null _ _ _ _ _ R1 W1) as (q2 & p2 & -> & L2 & R2 & W2).
    destruct (rp_first_word ex_null _ _ _ _ _ R2 W2) as (q3 & p3 & -> & L3 & _ & _).
    apply ex_null_leads in L1. cbn [In] in L1. repeat destruct L1 as [L1|L1]; try contradiction; try discriminate L1.
    injection L1 as <-. apply ex_null_leads in L2. cbn [In] in L2. cbn in L2.
    repeat destruct L2 as [L2|L2]; try contradiction; try discriminate L2.
    injection L2 as <-. apply ex_null_leads in L3. cbn in L3.
    repeat destruct L3 as [L3|L3]; try contradiction; try discriminate L3.
Qed.
Print Assumptions C30_null_links_refuted.
