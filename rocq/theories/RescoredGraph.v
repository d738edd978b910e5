(** The graph of a rescored lattice: the links connect existing nodes, every node but
    the final one has an outgoing link, and the words are words of the lattice. *)
From Coq Require Import QArith Qcanon.
From Verif Require Import Base BaseLib Strings ListLib Dict VocabModel LatticeModel LatticeSpec GraphProofs SlfModel
     DecoderModel RescoredModel RescoredSpec FollowProofs RescoredProofs.
Local Open Scope nat_scope.

Section Graph.
Variable state : Type.
Variable v : vocabulary.
Variable a : lattice.
Hypothesis Ha : lattice_ok a.
Variable maps : list word_map.
Hypothesis Hmaps : add_word_maps (a_nodes a) (a_links a) = Ok maps.

(** A word of the lattice, or none *)
Definition known (w : option pystr) : Prop := w = None \/ exists l, In l (a_links a) /\ k_word l = w.

Record rg (st : rstate) : Prop := {
  rg_pos : 0 < length (r_nodes st);
  rg_links : forall l b, In (l, b) (r_links st) -> k_start l < length (r_nodes st) /\
    (b = false -> k_end l < length (r_nodes st)) /\ known (k_word l);
  rg_out : forall i n, nth_error (r_nodes st) i = Some n -> r_out n = links_from (map fst (r_links st)) i;
  rg_map : forall i n w k, nth_error (r_nodes st) i = Some n -> dict_get pystr_eq_dec (r_map n) w = Some k ->
    exists l, nth_error (r_links st) k = Some (l, false) /\ k_start l = i /\ k_word l = Some w
}.
(** Every node has an outgoing link, maybe except [d]. *)
Definition live_but (d : nat) (st : rstate) : Prop :=
  forall j n, nth_error (r_nodes st) j = Some n -> r_out n = [] -> j = d.
Definition live (st : rstate) : Prop := forall j n, nth_error (r_nodes st) j = Some n -> r_out n <> [].

Lemma rg_add st i l b wd st' : rg st -> k_start l = i -> i < length (r_nodes st) ->
  (b = false -> k_end l < length (r_nodes st)) -> (forall w, wd = Some w -> b = false /\ k_word l = Some w) -> known (k_word l) ->
  r_add st i l b wd = Ok st' ->
  rg st' /\ length (r_nodes st') = length (r_nodes st) /\
  forall j n, nth_error (r_nodes st') j = Some n -> r_out n = [] -> j <> i /\ nth_error (r_nodes st) j = Some n.
Proof.
  intros [P L O M] Hs Hi He Hw Hk. unfold r_add, py_index. destruct (nth_error (r_nodes st) i) as [n|] eqn:En; cbn [bind]; [|discriminate].
  intros [= <-]. cbn [r_nodes r_links]. rewrite upd_length. split; [|split; [reflexivity|]].
  - constructor; cbn [r_nodes r_links]; rewrite ?upd_length; [exact P| | |].
    + intros l' b' Hin. apply in_app_or in Hin as [Hin|[E|[]]]; [now apply L|]. injection E as <- <-. rewrite Hs. auto.
    + intros j m Hj. rewrite nth_error_upd in Hj. rewrite map_app. cbn [map fst]. rewrite links_from_snoc, map_length, Hs.
      destruct (Nat.eqb_spec j i) as [->|D].
      * destruct (i <? _); [|discriminate]. injection Hj as <-. cbn [r_out]. rewrite Nat.eqb_refl. f_equal. now apply O.
      * destruct (Nat.eqb_spec i j); [congruence|]. rewrite app_nil_r. now apply O.
    + intros j m w k Hj Hd. rewrite nth_error_upd in Hj.
      assert (K : forall m', nth_error (r_nodes st) j = Some m' -> dict_get pystr_eq_dec (r_map m') w = Some k ->
                exists l0, nth_error (r_links st ++ [(l, b)]) k = Some (l0, false) /\ k_start l0 = j /\ k_word l0 = Some w).
      { intros m' Hm Hd'. destruct (M _ _ _ _ Hm Hd') as (l0 & E0 & E1). exists l0. split; [|exact E1].
        rewrite nth_error_app1; [exact E0|]. apply nth_error_Some. congruence. }
      destruct (Nat.eqb_spec j i) as [->|D]; [|eauto]. destruct (i <? _); [|discriminate]. injection Hj as <-. cbn [r_map] in Hd.
      destruct wd as [u|]; [|eauto]. destruct (pystr_eq_dec w u) as [->|D]; [rewrite dict_get_set_same in Hd|rewrite dict_get_set_other in Hd by congruence; eauto].
      injection Hd as <-. exists l. destruct (Hw u eq_refl) as [-> Eu]. rewrite nth_error_app2 by lia. now rewrite Nat.sub_diag.
  - intros j m Hj Eo. rewrite nth_error_upd in Hj. destruct (Nat.eqb_spec j i) as [->|D]; [|auto].
    destruct (i <? _); [|discriminate]. injection Hj as <-. cbn [r_out] in Eo. apply app_eq_nil in Eo as [_ Eo]. discriminate.
Qed.

Lemma rg_new_node st : rg st -> rg (mkRstate (r_nodes st ++ [mkRnode [] []]) (r_links st)).
Proof.
  intros [P L O M].
  assert (N : forall j n, nth_error (r_nodes st ++ [mkRnode [] []]) j = Some n ->
            nth_error (r_nodes st) j = Some n \/ (j = length (r_nodes st) /\ n = mkRnode [] [])).
  { intros j n Hj. destruct (Nat.lt_ge_cases j (length (r_nodes st))) as [Hl|Hl].
    - rewrite nth_error_app1 in Hj by exact Hl. auto.
    - rewrite nth_error_app2 in Hj by exact Hl. destruct (j - _) as [|[|z]] eqn:E; cbn in Hj; try discriminate. injection Hj as <-. right. split; [lia|reflexivity]. }
  constructor; cbn [r_nodes r_links]; rewrite ?app_length; cbn [length]; [lia| | |].
  - intros l b H. destruct (L l b H) as (H1 & H2 & H3). split; [lia|]. split; [intros E; specialize (H2 E); lia|exact H3].
  - intros j n Hj. apply N in Hj as [Hj|[-> ->]]; [now apply O|]. cbn [r_out]. symmetry.
    destruct (links_from (map fst (r_links st)) (length (r_nodes st))) as [|k ks] eqn:E; [reflexivity|].
    assert (Hk : In k (links_from (map fst (r_links st)) (length (r_nodes st)))) by (rewrite E; now left).
    apply links_from_In in Hk as (l & Hl & Es). apply nth_error_In in Hl. apply in_map_iff in Hl as ([l' b] & <- & Hin). cbn [fst] in Es.
    destruct (L l' b Hin). lia.
  - intros j n w k Hj Hd. apply N in Hj as [Hj|[-> ->]]; [eauto|discriminate].
Qed.

Lemma leads_known w i q : leads a w i q -> known (Some w).
Proof. intros H. right. eapply leads_link, H. Qed.

Lemma follow_rg ws : forall st node orig st' e, rg st -> live_but node st -> node < length (r_nodes st) ->
  follow_words a maps true ws st node orig = Ok (Some (st', e)) -> rg st' /\ live_but e st' /\ e < length (r_nodes st').
Proof.
  induction ws as [|w ws IH]; intros st node orig st' e I D Hn; cbn [RescoredModel.follow_words].
  - intros [= <- <-]. auto.
  - destruct (follow_word _ _ _ orig w) as [x|] eqn:Ef; cbn [bind]; [|discriminate].
    pose proof (follow_spec a Ha maps Hmaps w _ _ _ Ef) as F. destruct x as [[[[oe ac] lm] tr]|]; [|now apply IH].
    destruct F as (q & F1 & _). unfold py_index at 1.
    destruct (nth_error (r_nodes st) node) as [n|] eqn:En; cbn [bind]; [|discriminate].
    destruct (dict_get _ _ _) as [k|] eqn:Ed.
    + destruct (rg_map _ I _ _ _ _ En Ed) as (l & El & Es & Ew). unfold py_index at 1. rewrite El. cbn [bind fst].
      assert (Hin : In (l, false) (r_links st)) by (eapply nth_error_In, El). destruct (rg_links _ I _ _ Hin) as (_ & He & _).
      apply IH; [exact I| |auto]. intros j m Hj Em. assert (j = node) as -> by eauto. exfalso.
      rewrite (rg_out _ I _ _ Hj) in Em. assert (Hk : In k (links_from (map fst (r_links st)) node)).
      { apply links_from_In. exists l. split; [|exact Es]. now rewrite (map_nth_error fst _ _ El). }
      rewrite Em in Hk. destruct Hk.
    + set (st1 := mkRstate (r_nodes st ++ [mkRnode [] []]) (r_links st)).
      set (l := mkLink node (length (r_nodes st)) (Some w) (Some ac) (Some lm) tr).
      destruct (r_add st1 node l false (Some w)) as [st2|] eqn:Ea; cbn [bind]; [|discriminate].
      assert (I1 := rg_new_node st I). fold st1 in I1.
      assert (L1 : length (r_nodes st1) = S (length (r_nodes st))) by (unfold st1; cbn [r_nodes]; rewrite app_length; cbn [length]; lia).
      destruct (rg_add st1 node l false (Some w) st2 I1 eq_refl) as (I2 & L2 & E2); [lia|cbn [l k_end]; lia|intros u [= <-]; auto|eapply leads_known, F1|exact Ea|].
      apply IH; [exact I2| |lia]. intros j m Hj Em. destruct (E2 j m Hj Em) as [Dj Hj']. unfold st1 in Hj'; cbn [r_nodes] in Hj'.
      destruct (Nat.lt_ge_cases j (length (r_nodes st))) as [Hl|Hl].
      * rewrite nth_error_app1 in Hj' by exact Hl. now pose proof (D _ _ Hj' Em).
      * rewrite nth_error_app2 in Hj' by exact Hl. destruct (j - _) as [|[|z]] eqn:E; cbn in Hj'; try discriminate. lia.
Qed.
Lemma follow_same ws : forall st node orig st' e,
  follow_words a maps false ws st node orig = Ok (Some (st', e)) -> st' = st.
Proof.
  induction ws as [|w ws IH]; intros st node orig st' e; cbn [RescoredModel.follow_words].
  - intros [= <- _]. reflexivity.
  - destruct (follow_word _ _ _ orig w) as [[[[[oe ac] lm] tr]|]|]; cbn [bind]; try discriminate; [|now apply IH].
    destruct (py_index _ _) as [n|]; cbn [bind]; [|discriminate]. destruct (dict_get _ _ _) as [k|]; [|discriminate].
    destruct (py_index (r_links st) k) as [l|]; cbn [bind]; [|discriminate]. now apply IH.
Qed.

Lemma final_rg st t st' : rg st -> live_but 0 st -> add_final_token state v a maps st t = Ok st' -> rg st' /\ live st'.
Proof.
  intros I D. unfold add_final_token, follow_word_ids. destruct (mapM _ _) as [ws|]; cbn [bind]; [|discriminate].
  destruct (follow_words a maps true _ _ _ _) as [[[st1 e1]|]|] eqn:E1; cbn [bind]; try discriminate.
  destruct (follow_rg _ _ _ _ _ _ I D (rg_pos _ I) E1) as (I1 & D1 & H1). unfold py_index at 1.
  destruct (nth_error (r_nodes st1) e1) as [n|] eqn:En; cbn [bind]; [|discriminate]. destruct (mapM _ (r_out n)) as [outs|] eqn:Eo; cbn [bind]; [|discriminate].
  destruct (existsb snd outs) eqn:Ex.
  - intros [= <-]. split; [exact I1|]. intros j m Hj Em. assert (j = e1) as -> by eauto. assert (m = n) by congruence. subst m.
    rewrite Em in Eo. cbn [mapM] in Eo. injection Eo as <-. discriminate.
  - intros Ea. eapply rg_add in Ea as (I2 & _ & E2); [|exact I1|reflexivity|exact H1|discriminate|discriminate|now left].
    split; [exact I2|]. intros j m Hj Em. destruct (E2 j m Hj Em) as [Dj Hj']. apply Dj. eauto.
Qed.
Lemma recombined_rg st x st' : rg st -> live st -> add_recombined state v a maps st x = Ok st' -> rg st' /\ live st'.
Proof.
  intros I D. destruct x as [[t h] nn]. unfold add_recombined. destruct (rev h) as [|l' r']; [discriminate|].
  destruct (rev (tk_history _ t)) as [|l r]; [discriminate|].
  destruct (match l' with inl _ => _ | inr _ => _ end); [|discriminate].
  destruct (word_text v l) as [w|]; cbn [bind]; [|discriminate].
  unfold follow_word_ids. destruct (mapM _ _) as [ws'|]; cbn [bind]; [|discriminate].
  destruct (follow_words a maps false _ _ _ _) as [[[st1 e1]|]|] eqn:E1; cbn [bind]; try discriminate; [|intros [= <-]; auto].
  apply follow_same in E1. subst st1. unfold py_index at 1.
  destruct (nth_error (r_nodes st) e1) as [n|] eqn:En; cbn [bind]; [|discriminate].
  destruct (dict_get _ _ _) as [k|] eqn:Ed; [|intros [= <-]; auto].
  destruct (rg_map _ I _ _ _ _ En Ed) as (rl & Erl & _ & Ew). unfold py_index at 1. rewrite Erl. cbn [bind].
  destruct (mapM _ (tl (rev r))) as [ws|]; cbn [bind]; [|discriminate].
  destruct (follow_words a maps true _ _ _ _) as [[[st2 e2]|]|] eqn:E2; cbn [bind]; try discriminate.
  destruct (follow_extends a maps _ _ _ _ _ _ _ E2) as [ys Ey].
  assert (Hrl : In (rl, false) (r_links st2)) by (rewrite Ey; apply in_or_app; left; eapply nth_error_In; exact Erl).
  eapply follow_rg in E2 as (I2 & D2 & H2); [|exact I|intros j m Hj Em; exfalso; eapply D; eassumption|apply (rg_pos _ I)].
  destruct (rg_links _ I2 _ _ Hrl) as (_ & He & Hk). rewrite Ew in Hk.
  intros Ea. eapply rg_add in Ea as (I3 & _ & E3);
    [|exact I2|reflexivity|exact H2|intros _; cbn [k_end]; auto|intros u [= <-]; auto|exact Hk].
  split; [exact I3|]. intros j m Hj Em. destruct (E3 j m Hj Em) as [Dj Hj']. apply Dj. eauto.
Qed.

Lemma rescored_rg tokens xs st1 st2 : tokens <> [] ->
  foldM (add_final_token state v a maps) tokens (mkRstate [mkRnode [] []] []) = Ok st1 ->
  foldM (add_recombined state v a maps) xs st1 = Ok st2 -> rg st2 /\ live st2.
Proof.
  intros Hne E1 E2.
  assert (I0 : rg (mkRstate [mkRnode [] []] [])).
  { constructor; cbn [r_nodes r_links length map]; [lia|intros l b []| |].
    - intros i n Hi. destruct i as [|[|i]]; cbn in Hi; try discriminate. injection Hi as <-. reflexivity.
    - intros i n w k Hi. destruct i as [|[|i]]; cbn in Hi; try discriminate. injection Hi as <-. discriminate. }
  assert (D0 : live_but 0 (mkRstate [mkRnode [] []] [])).
  { intros j n Hj _. destruct j as [|[|j]]; cbn in Hj; try discriminate. reflexivity. }
  assert (G1 : rg st1 /\ live st1).
  { destruct tokens as [|t ts]; [congruence|]. cbn [foldM] in E1.
    destruct (add_final_token _ _ _ _ _ t) as [st|] eqn:E; cbn [bind] in E1; [|discriminate].
    destruct (final_rg _ _ _ I0 D0 E) as [I D]. clear E I0 D0 Hne. revert st I D E1.
    induction ts as [|t' ts IH]; intros st I D E1; cbn [foldM] in E1; [injection E1 as <-; auto|].
    destruct (add_final_token _ _ _ _ st t') as [st'|] eqn:E; cbn [bind] in E1; [|discriminate].
    eapply final_rg in E as [I' D']; [|exact I|intros j m Hj Em; exfalso; eapply D; eassumption]. eapply IH; eassumption. }
  destruct G1 as [I D]. clear E1 I0 D0. revert st1 I D E2.
  induction xs as [|x xs IH]; intros st I D E2; cbn [foldM] in E2; [injection E2 as <-; auto|].
  destruct (add_recombined _ _ _ _ st x) as [st'|] eqn:E; cbn [bind] in E2; [|discriminate].
  destruct (recombined_rg _ _ _ I D E) as [I' D']. eapply IH; eassumption.
Qed.
End Graph.

(** The same lattice with the lists of incoming links, which rescored lattices do not have *)
Definition with_incoming (a : lattice) : lattice :=
  mkLattice (map (fun x => mkNode (n_out (snd x)) (links_to (a_links a) (fst x)) (n_time (snd x)) (n_final (snd x)))
                 (combine (seq 0 (length (a_nodes a))) (a_nodes a)))
            (a_links a) (a_initial a) (a_utterance a) (a_lm_scale a) (a_wi_penalty a).

Lemma nth_combine_seq {A} (l : list A) i x : nth_error (combine (seq 0 (length l)) l) i = Some x ->
  fst x = i /\ nth_error l i = Some (snd x).
Proof.
  assert (G : forall s j x, nth_error (combine (seq s (length l)) l) j = Some x -> fst x = s + j /\ nth_error l j = Some (snd x)).
  { induction l as [|y l IH]; intros s j z; cbn [length seq combine]; [destruct j; discriminate|].
    destruct j as [|j]; cbn [nth_error].
    - intros [= <-]. cbn [fst snd]. split; [lia|reflexivity].
    - intros H. apply IH in H as [H1 H2]. split; [lia|exact H2]. }
  intros H. apply G in H. exact H.
Qed.

Lemma rescored_graph state v a tokens dropped r : lattice_ok a -> tokens <> [] ->
  rescored_lattice state v a tokens dropped = Ok r ->
  lattice_ok (with_incoming r) /\ a_utterance r = a_utterance a /\
  (forall l, In l (a_links r) -> known a (k_word l)) /\
  exists f, f < length (a_nodes r) /\ forall i n, nth_error (a_nodes r) i = Some n ->
    (n_final n = true <-> i = f) /\ (n_out n = [] <-> i = f) /\ n_time n = None.
Proof.
  intros Ha Hne. unfold rescored_lattice. destruct (add_word_maps _ _) as [maps|] eqn:Em; cbn [bind]; [|discriminate].
  destruct (foldM (add_final_token _ _ _ _) _ _) as [st1|] eqn:E1; cbn [bind]; [|discriminate].
  destruct (foldM (add_recombined _ _ _ _) _ _) as [st2|] eqn:E2; cbn [bind]; [|discriminate].
  destruct (rescored_rg state v a Ha maps Em tokens _ st1 st2 Hne E1 E2) as [I D].
  set (fin := length (r_nodes st2)).
  set (ls := map (fun lf : link * bool => let l : link := fst lf in if snd lf : bool
                   then mkLink (k_start l) fin (k_word l) (k_ac l) (k_lm l) (k_transitions l) else l) (r_links st2)).
  set (ns := map (fun n => mkNode (r_out n) [] None false) (r_nodes st2) ++ [mkNode [] [] None true]).
  intros [= <-]. cbn [a_utterance a_links a_nodes].
  assert (Ln : length ns = S fin) by (unfold ns; rewrite app_length, map_length; cbn [length]; unfold fin; lia).
  assert (Hl : forall l, In l ls -> k_start l < fin /\ k_end l < S fin /\ known a (k_word l)).
  { intros l Hin. unfold ls in Hin. apply in_map_iff in Hin as ([l0 b] & <- & Hin). destruct (rg_links _ _ I _ _ Hin) as (H1 & H2 & H3).
    cbn [fst snd]. fold fin in H1, H2. destruct b; cbn [k_start k_end k_word]; repeat split; try lia; auto. }
  assert (Hs : map k_start ls = map k_start (map fst (r_links st2))).
  { unfold ls. rewrite !map_map. apply map_ext. intros [l0 []]; reflexivity. }
  assert (Ho : forall i n, nth_error ns i = Some n ->
             (i < fin /\ exists m, nth_error (r_nodes st2) i = Some m /\ n = mkNode (r_out m) [] None false) \/ (i = fin /\ n = mkNode [] [] None true)).
  { intros i n Hi. unfold ns in Hi. destruct (Nat.lt_ge_cases i fin) as [H|H].
    - left. split; [exact H|]. rewrite nth_error_app1 in Hi by (now rewrite map_length). rewrite nth_error_map in Hi.
      destruct (nth_error (r_nodes st2) i) as [m|]; cbn [option_map] in Hi; [|discriminate]. injection Hi as <-. eauto.
    - right. rewrite nth_error_app2 in Hi by (now rewrite map_length). rewrite map_length in Hi. fold fin in Hi.
      destruct (i - fin) as [|[|z]] eqn:E; cbn in Hi; try discriminate. injection Hi as <-. split; [lia|reflexivity]. }
  split; [|split; [reflexivity|split; [intros l Hin; now apply Hl|]]].
  - unfold with_incoming. cbn [a_nodes a_links a_initial a_utterance a_lm_scale a_wi_penalty].
    assert (Lc : length (combine (seq 0 (length ns)) ns) = length ns) by (rewrite combine_length, seq_length; lia).
    split; cbn [a_nodes a_links a_initial]; rewrite ?map_length, ?Lc; [|lia]. split.
    + intros l Hin. rewrite map_length, Lc, Ln. destruct (Hl l Hin). lia.
    + intros i n Hi. rewrite nth_error_map in Hi. destruct (nth_error (combine _ ns) i) as [x|] eqn:Ex; cbn [option_map] in Hi; [|discriminate].
      injection Hi as <-. cbn [n_out]. apply nth_combine_seq in Ex as [Ei Ex].
      rewrite (links_from_same _ _ _ Hs). destruct (Ho _ _ Ex) as [(Hi & m & Hm & ->)|[-> ->]]; cbn [n_out].
      * now apply (rg_out _ _ I).
      * symmetry. destruct (links_from (map fst (r_links st2)) fin) as [|k ks] eqn:E; [reflexivity|].
        assert (Hk : In k (links_from (map fst (r_links st2)) fin)) by (rewrite E; now left).
        apply links_from_In in Hk as (l & Hl' & Es). apply nth_error_In in Hl'. apply in_map_iff in Hl' as ([l' b] & <- & Hin). cbn [fst] in Es.
        destruct (rg_links _ _ I _ _ Hin). unfold fin in Es. lia.
    + intros i n Hi. rewrite nth_error_map in Hi. destruct (nth_error (combine _ ns) i) as [x|] eqn:Ex; cbn [option_map] in Hi; [|discriminate].
      injection Hi as <-. cbn [n_in]. apply nth_combine_seq in Ex as [<- _]. reflexivity.
  - exists fin. split; [rewrite Ln; lia|]. intros i n Hi. destruct (Ho _ _ Hi) as [(H & m & Hm & ->)|[-> ->]]; cbn [n_final n_out n_time].
    + split; [|split; [|reflexivity]]; (split; [|lia]); [discriminate|]. intros E. exfalso. eapply D; eassumption.
    + tauto.
Qed.
