(** Lemmas about lattice decoding. *)
From Coq Require Import QArith Qcanon Sorting.Sorted Sorting.Permutation.
From Verif Require Import Base ListLib BaseLib QcLib Strings VocabModel VocabSpec VocabProofs VocabBuild VocabStats
     ScoreModel ScoreSpec ScoreProofs LatticeModel LatticeSpec SortProofs SlfProofs DecoderModel DecoderSpec.
Local Open Scope nat_scope.

Lemma combine_Forall2 {A B} (R : A -> B -> Prop) l l' : Forall2 R l l' ->
  forall C (g : A * B -> C), Forall2 (fun a c => exists b, R a b /\ c = g (a, b)) l (map g (combine l l')).
Proof.
  induction 1 as [|x y l l' H _ IH]; intros C g; cbn [combine map]; constructor; [eauto|apply IH].
Qed.

Section Step.
Variable state : Type.
Variable initial_state : state.
Variable net_step : list (nat * nat * nat * state) -> list (Qc * state).
Variable f : nat * nat * nat * state -> Qc * state.
Variable ln : Qc -> Qc.
Variable lin : Qc -> Qc -> Qc -> Qc.
Variable hash : list hword -> Z.
Variable v : vocabulary.
Variable o : options.
Hypothesis Hv : reachable_vocab v.
Hypothesis Hnet : step_independent v net_step f.
Variable unk : nat.
Hypothesis Hunk : word_to_id v UNK = Some unk.

Notation shown_word w := (limit_to_shortlist v unk w).
Notation token := (token state).
Notation next_word := (next_word state f ln v o).

Lemma limit_seen w : exists k p,
  get_class_membership v (shown_word w) = Ok (k, p) /\ seen_word v w (shown_word w) k p /\
  py_index (v_w2c v) (shown_word w) = Ok k.
Proof.
  assert (G : forall i, exists k p,
    get_class_membership v (shown_word (inl i)) = Ok (k, p) /\ seen_as v i (shown_word (inl i)) k p /\
    py_index (v_w2c v) (shown_word (inl i)) = Ok k).
  { intros i. cbn [limit_to_shortlist]. unfold in_shortlist.
    destruct (class_membership_spec v (if i <? length (v_w2c v) then i else unk) Hv)
      as (u & Eu & k & p & E & Ek & Ep).
    assert (u = unk) by congruence. subst u. exists k, p. split; [exact E|].
    assert (J : (if (if i <? length (v_w2c v) then i else unk) <? num_shortlist_words v
                 then (if i <? length (v_w2c v) then i else unk) else unk)
                = (if i <? length (v_w2c v) then i else unk)).
    { unfold num_shortlist_words. destruct (i <? length (v_w2c v)) eqn:E1; [now rewrite E1|].
      now destruct (unk <? length (v_w2c v)). }
    rewrite J in Ek, Ep. split; [|unfold py_index; now rewrite Ek].
    unfold seen_as, num_shortlist_words. split; [|auto].
    destruct (Nat.ltb_spec i (length (v_w2c v))); auto. }
  destruct w as [i|s]; [exact (G i)|].
  destruct (G unk) as (k & p & E1 & E2 & E3).
  assert (J : shown_word (inl unk) = shown_word (inr s)).
  { cbn [limit_to_shortlist]. now destruct (in_shortlist v unk). }
  rewrite J in *. exists k, p. split; [exact E1|]. split; [|exact E3]. cbn. eauto.
Qed.
Lemma seen_word_unique w a b k k' p p' :
  seen_word v w a k p -> seen_word v w b k' p' -> a = b /\ k = k' /\ p = p'.
Proof.
  destruct w as [i|s]; cbn.
  - apply seen_unique.
  - intros (u & E & H) (u' & E' & H'). assert (u = u') by congruence. subst u'. revert H H'. apply seen_unique.
Qed.

Lemma ladd_0_r x : ladd x (Fin 0%Qc) = x.
Proof. destruct x; cbn; [now rewrite Qcplus_0_r|reflexivity|reflexivity]. Qed.

(** ** Unknown words *)
Lemma oos_cases oos : decoder_oos ln v o = Ok oos ->
  (~ shares v (o_use_shortlist o) /\ oos = None) \/
  (shares v (o_use_shortlist o) /\ exists table, oos = Some table /\
   forall i x, py_index table i = Ok x -> share_of ln v (o_use_shortlist o) i x).
Proof.
  unfold decoder_oos, shares. destruct (o_use_shortlist o) eqn:U.
  - destruct (oos_logprobs_ok ln v Hv) as [E L]. rewrite E. intros [= <-].
    destruct (v_unigram v) as [u|] eqn:Eu.
    + right. split; [split; congruence|]. exists (share_list ln v). split; [reflexivity|].
      intros i x Hx. destruct (L ltac:(congruence)) as [L1 (ws & L2)].
      unfold py_index in Hx. destruct (nth_error (share_list ln v) i) as [y|] eqn:Ey; [|discriminate].
      injection Hx as <-. unfold share_list in Ey. rewrite L2, nth_error_map in Ey.
      destruct (nth_error ws i) as [w|] eqn:Ew; [|discriminate]. cbn in Ey. injection Ey as <-.
      right. split; [split; congruence|]. exists ws, w. split; [exact L2|]. split; [exact Ew|].
      destruct w; [apply tlog_log_of|reflexivity].
    + left. split; [intros [_ H]; congruence|reflexivity].
  - intros [= <-]. left. split; [intros [H _]; congruence|reflexivity].
Qed.

Lemma handle_unk_spec oos w a b oov x :
  decoder_oos ln v o = Ok oos -> handle_unk_logprob v oos w (ladd a b) oov = Ok x ->
  match w with
  | inl i => num_shortlist_words v <= i /\ ~ shares v (o_use_shortlist o) /\
             (exists y, oov = Some y /\ x = Fin y) \/
             (i < num_shortlist_words v \/ shares v (o_use_shortlist o) \/ oov = None) /\
             exists c, share_of ln v (o_use_shortlist o) i c /\ x = ladd (ladd a b) c
  | inr _ => match oov with Some y => x = Fin y | None => x = ladd a b end
  end.
Proof.
  intros Ho E. destruct (oos_cases _ Ho) as [[Hs ->]|[Hs (table & -> & Ht)]]; unfold handle_unk_logprob in E.
  - assert (S0 : forall i, share_of ln v (o_use_shortlist o) i (Fin 0%Qc)) by (intros i; left; auto).
    destruct w as [i|s].
    + unfold in_shortlist in E. destruct (Nat.ltb_spec i (length (v_w2c v))) as [L|L].
      * right. split; [left; exact L|]. exists (Fin 0%Qc). split; [apply S0|]. rewrite ladd_0_r.
        destruct oov; congruence.
      * destruct oov as [y|].
        -- left. split; [exact L|]. split; [exact Hs|]. exists y. split; congruence.
        -- right. split; [auto|]. exists (Fin 0%Qc). split; [apply S0|]. rewrite ladd_0_r. congruence.
    + destruct oov; congruence.
  - destruct w as [i|s].
    + right. split; [auto|]. destruct (py_index table i) as [c|] eqn:Ec; [|discriminate]. cbn [bind] in E.
      exists c. split; [now apply Ht|congruence].
    + destruct oov; congruence.
Qed.

(** ** One word *)
Lemma next_word_unique last w oov st x x' st1 st2 :
  next_word last w oov st x st1 -> next_word last w oov st x' st2 -> x = x' /\ st1 = st2.
Proof.
  intros [s k p s' k' p' q t a b y H1 H2 H3 H4 H5 H6] [r l m r' l' m' q2 t2 a2 b2 y2 G1 G2 G3 G4 G5 G6].
  destruct (seen_word_unique _ _ _ _ _ _ _ H1 G1) as (<- & <- & <-).
  destruct (seen_word_unique _ _ _ _ _ _ _ H2 G2) as (_ & <- & _).
  rewrite H3 in G3. injection G3 as <- <-. split; [|reflexivity].
  rewrite (log_of_unique _ _ _ _ H4 G4) in H6. rewrite (log_of_unique _ _ _ _ H5 G5) in H6.
  destruct w as [i|w].
  - destruct H6 as [(A & B & (z & C & D))|(A & (c & B & C))], G6 as [(A' & B' & (z' & C' & D'))|(A' & (c' & B' & C'))].
    + congruence.
    + exfalso. destruct A' as [A'|[A'|A']]; [lia|tauto|congruence].
    + exfalso. destruct A as [A|[A|A]]; [lia|tauto|congruence].
    + rewrite (share_unique _ _ _ _ _ _ B B') in C. congruence.
  - destruct oov; congruence.
Qed.

(** The inputs of the network are those it is asked about. *)
Lemma network_inputs tokens ins w wc :
  mapM (fun t => match rev (tk_history state t) with
                 | [] => Err IndexError
                 | last :: _ => do '(class_id, prob) <- get_class_membership v (shown_word last);
                                Ok (shown_word last, class_id, prob)
                 end) tokens = Ok ins ->
  py_index (v_w2c v) (shown_word w) = Ok wc ->
  let l := map (fun x => let '((input, class_id, _), t) := x in (input, class_id, wc, tk_state state t)) (combine ins tokens) in
  net_step l = map f l.
Proof.
  intros Ei Ew l. apply Hnet. intros x c target st Hin. unfold l in Hin.
  apply in_map_iff in Hin as ([[[i k] p] t] & E & Hin). injection E as -> -> -> _. split.
  - apply mapM_inv in Ei. induction Ei as [|t' y ts is Hy _ IH]; cbn [combine] in Hin; [destruct Hin|].
    destruct Hin as [Hin|Hin]; [|now apply IH]. injection Hin as -> ->.
    destruct (rev _) as [|last pre]; [discriminate|].
    destruct (limit_seen last) as (k' & p' & Em & _ & Ek). rewrite Em in Hy. cbn [bind] in Hy. injection Hy as <- <- _.
    unfold py_index in Ek. destruct (nth_error _ _); congruence.
  - exists (shown_word w). unfold py_index in Ew. destruct (nth_error _ _); congruence.
Qed.

Lemma append_word_spec oos tokens w oov new : decoder_oos ln v o = Ok oos ->
  append_word state net_step ln v unk oos tokens w oov = Ok new ->
  Forall2 (fun t x => let '(h, st, nn) := x in
     h = tk_history _ t ++ [w] /\
     exists pre last y, tk_history _ t = pre ++ [last] /\
       next_word last w oov (tk_state _ t) (Fin y) st /\ nn = (tk_nn _ t + y)%Qc) tokens new.
Proof.
  intros Ho. unfold append_word.
  destruct (mapM _ tokens) as [ins|] eqn:Ei; cbn [bind]; [|discriminate].
  destruct (limit_seen w) as (wc & wp & _ & Sw & Ew). rewrite Ew. cbn [bind]. rewrite (network_inputs _ _ _ _ Ei Ew).
  apply mapM_inv in Ei.
  intros E. apply mapM_inv in E. revert new E.
  induction Ei as [|t i ts is Hi _ IH]; intros new E; cbn [combine map] in E.
  { inversion E; subst. constructor. }
  destruct i as [[input class_id] prob].
  cbn [map combine] in E. inversion E as [|? x ? new' Hx E']; subst. constructor; [|now apply IH].
  clear IH E E'. destruct (rev (tk_history state t)) as [|last pre] eqn:Er; [discriminate|].
  destruct (limit_seen last) as (k & p & Em & Sl & _). rewrite Em in Hi. cbn [bind] in Hi. injection Hi as <- <- <-.
  destruct (f (shown_word last, k, wc, tk_state _ t)) as [q st] eqn:Ef.
  destruct (handle_unk_logprob _ _ _ _ _) as [y|] eqn:Eh; cbn [bind] in Hx; [|discriminate].
  destruct (finite _) as [z|] eqn:Ez; cbn [bind] in Hx; [|discriminate]. injection Hx as <-.
  split; [reflexivity|].
  destruct y as [y| |]; cbn in Ez; try discriminate. injection Ez as <-.
  exists (rev pre), last, y. split.
  { rewrite <- (rev_involutive (tk_history _ t)), Er. reflexivity. }
  split; [|reflexivity].
  econstructor; [exact Sl|exact Sw|exact Ef|apply tlog_log_of|apply tlog_log_of|].
  eapply handle_unk_spec; eassumption.
Qed.

(** ** One link *)
Variable a : lattice.
Notation scale := (scale_of o a).
Notation penalty := (penalty_of o a).
Notation hypothesis_on := (hypothesis_on state initial_state f ln lin v o a).

(** Totals and hash as they should be *)
Definition finished (t : token) : Prop :=
  tk_graph _ t = (given (o_lm_scale o) (a_lm_scale a) 1 * interpolated lin o (tk_nn _ t) (tk_lat _ t)
                  + given (o_wi_penalty o) (a_wi_penalty a) 0 * qc_of_nat (length (tk_history _ t) - 1))%Qc /\
  tk_total _ t = (tk_ac _ t + tk_graph _ t)%Qc /\
  tk_hash _ t = recombination_hash hash o (tk_history _ t).

Lemma loglinear_eq x y p q : interpolate_loglinear x y p q = (p * x + q * y)%Qc.
Proof.
  unfold interpolate_loglinear. destruct (Qc_eq_dec p 0%Qc) as [->|_], (Qc_eq_dec q 0%Qc) as [->|_]; ring.
Qed.
Lemma qc_of_nat_pred n : 0 < n -> (qc_of_nat n - 1)%Qc = qc_of_nat (n - 1).
Proof.
  intros H. destruct n as [|n]; [lia|]. cbn [Nat.sub]. rewrite Nat.sub_0_r.
  change (S n) with (1 + n). rewrite qc_of_nat_add, qc_of_nat_1. ring.
Qed.
Lemma finish_finished h st ac lat nn : h <> [] ->
  finished (finish_token state lin hash o scale penalty h st ac lat nn).
Proof.
  intros Hh. unfold finished, finish_token. cbn [tk_graph tk_total tk_hash tk_history tk_nn tk_lat tk_ac].
  split; [|auto]. unfold graph_logprob. rewrite qc_of_nat_pred by (destruct h; [congruence|cbn; lia]).
  unfold interpolated, scale_of, penalty_of, given. rewrite loglinear_eq.
  destruct (o_linear o); ring.
Qed.

(** The step of a token over a link, or to the end of the sentence *)
Definition steps (words : list (hword * option Qc)) (ac lat : Qc) (t t' : token) : Prop :=
  tk_ac _ t' = (tk_ac _ t + ac)%Qc /\ tk_lat _ t' = (tk_lat _ t + lat)%Qc /\
  finished t' /\
  match words with
  | [] => tk_history _ t' = tk_history _ t /\ tk_state _ t' = tk_state _ t /\ tk_nn _ t' = tk_nn _ t
  | [(w, oov)] => tk_history _ t' = tk_history _ t ++ [w] /\
      exists pre last y, tk_history _ t = pre ++ [last] /\
        next_word last w oov (tk_state _ t) (Fin y) (tk_state _ t') /\ tk_nn _ t' = (tk_nn _ t + y)%Qc
  | _ => False
  end.
Definition link_ac (l : link) : Qc := score_or_zero (k_ac l).
Definition link_lm (l : link) : Qc := score_or_zero (k_lm l).
Definition step_of (eos : nat) (l : option link) : token -> token -> Prop :=
  match l with
  | Some l => steps (link_words v o l) (link_ac l) (link_lm l)
  | None => steps [(inl eos, None)] 0 0
  end.

Lemma plus_option_eq x y : plus_option x y = (x + score_or_zero y)%Qc.
Proof. destruct y; cbn; [reflexivity|ring]. Qed.

Lemma Forall2_impl {A B} (R S : A -> B -> Prop) l l' :
  (forall x y, In x l -> R x y -> S x y) -> Forall2 R l l' -> Forall2 S l l'.
Proof.
  intros H F. induction F as [|x y l l' Hxy _ IH]; constructor.
  - apply H; [now left|exact Hxy].
  - apply IH. intros. apply H; [now right|assumption].
Qed.

Lemma propagate_spec oos eos tokens l new : decoder_oos ln v o = Ok oos ->
  (forall t, In t tokens -> tk_history _ t <> []) ->
  propagate state net_step ln lin hash v o unk eos oos scale penalty tokens l = Ok new ->
  Forall2 (step_of eos l) tokens new.
Proof.
  intros Ho Hne E. destruct l as [l|]; cbn [propagate] in E; cbn [step_of].
  - unfold link_words. destruct (k_word l) as [w|] eqn:Ew.
    + destruct (append_word _ _ _ _ _ _ _ _ _) as [xs|] eqn:Ea; cbn [bind] in E; [|discriminate].
      injection E as <-. apply (append_word_spec _ _ _ _ _ Ho) in Ea.
      eapply Forall2_impl; [|apply combine_Forall2; exact Ea].
      intros t t' Ht (x & Hx & ->). destruct x as [[h st] nn]. destruct Hx as (-> & pre & last & y & E1 & E2 & ->).
      unfold steps. cbn [finish_token tk_ac tk_lat tk_history tk_state tk_nn].
      rewrite !plus_option_eq. split; [reflexivity|]. split; [reflexivity|].
      split; [apply finish_finished; destruct (tk_history _ t); discriminate|].
      split; [reflexivity|]. eauto 10.
    + cbn [bind] in E. injection E as <-.
      assert (F : Forall2 (fun t x => x = (tk_history _ t, tk_state _ t, tk_nn _ t)) tokens
                          (map (fun t => (tk_history _ t, tk_state _ t, tk_nn _ t)) tokens)).
      { clear. induction tokens; constructor; auto. }
      eapply Forall2_impl; [|apply combine_Forall2; exact F].
      intros t t' Ht (x & -> & ->).
      unfold steps. cbn [finish_token tk_ac tk_lat tk_history tk_state tk_nn].
      rewrite !plus_option_eq. split; [reflexivity|]. split; [reflexivity|].
      split; [apply finish_finished; now apply Hne|]. auto.
  - destruct (append_word _ _ _ _ _ _ _ _ _) as [xs|] eqn:Ea; cbn [bind] in E; [|discriminate].
    injection E as <-. apply (append_word_spec _ _ _ _ _ Ho) in Ea.
    eapply Forall2_impl; [|apply combine_Forall2; exact Ea].
    intros t t' Ht (x & Hx & ->). destruct x as [[h st] nn]. destruct Hx as (-> & pre & last & y & E1 & E2 & ->).
    unfold steps. cbn [finish_token tk_ac tk_lat tk_history tk_state tk_nn].
    split; [ring|]. split; [ring|].
    split; [apply finish_finished; destruct (tk_history _ t); discriminate|].
    split; [reflexivity|]. eauto 10.
Qed.

Lemma network_scores_last sos ws xs last st :
  network_scores state initial_state f ln v o sos ws xs last st ->
  exists pre, inl sos :: map fst ws = pre ++ [last].
Proof.
  destruct 1 as [|ws xs last st w oov x st' _ _]; [exists []; reflexivity|].
  rewrite map_app. exists (inl sos :: map fst ws). reflexivity.
Qed.

Lemma network_scores_unique sos ws xs last st ys last' st' :
  network_scores state initial_state f ln v o sos ws xs last st ->
  network_scores state initial_state f ln v o sos ws ys last' st' -> xs = ys /\ last = last' /\ st = st'.
Proof.
  intros H. revert ys last' st'. induction H as [|ws xs last st w oov x st1 H IH Hn]; intros ys last' st' G.
  - inversion G; [auto|]. now destruct ws.
  - inversion G as [E|ws2 xs2 last2 st2 w2 oov2 x2 st3 G2 Gn E]; subst; [now destruct ws|].
    apply app_inj_tail in E as [-> [= -> ->]].
    destruct (IH _ _ _ G2) as (-> & -> & ->).
    destruct (next_word_unique _ _ _ _ _ _ _ _ Hn Gn) as [[= ->] ->]. auto.
Qed.

Lemma hypothesis_finished p c t : hypothesis_on p c t ->
  tk_hash _ t = recombination_hash hash o (tk_history _ t) -> finished t.
Proof. intros H E. split; [apply (hy_graph _ _ _ _ _ _ _ _ _ _ _ H)|]. split; [apply (hy_total _ _ _ _ _ _ _ _ _ _ _ H)|exact E]. Qed.

Lemma path_words_snoc p l : path_words v o (p ++ [l]) = path_words v o p ++ link_words v o l.
Proof. unfold path_words. rewrite map_app, concat_app. cbn [map concat]. now rewrite app_nil_r. Qed.

Lemma map_snoc_sum (g : link -> Qc) p l : qsum (map g (p ++ [l])) = (qsum (map g p) + g l)%Qc.
Proof. rewrite map_app, qsum_app. cbn [map]. rewrite qsum_cons, qsum_nil. ring. Qed.

(** Extension by a word *)
Lemma scores_step sos ws xs lastw t w oov pre last y st' :
  network_scores state initial_state f ln v o sos ws xs lastw (tk_state _ t) ->
  tk_history _ t = inl sos :: map fst ws -> tk_history _ t = pre ++ [last] ->
  next_word last w oov (tk_state _ t) (Fin y) st' ->
  network_scores state initial_state f ln v o sos (ws ++ [(w, oov)]) (xs ++ [y]) w st'.
Proof.
  intros H E1 E2 Hn. destruct (network_scores_last _ _ _ _ _ H) as [pre' E3].
  assert (E4 : pre ++ [last] = pre' ++ [lastw]) by congruence.
  apply app_inj_tail in E4 as [_ ->]. econstructor; eassumption.
Qed.

Lemma hypothesis_link p t l t' : hypothesis_on p false t ->
  steps (link_words v o l) (link_ac l) (link_lm l) t t' -> hypothesis_on (p ++ [l]) false t'.
Proof.
  intros [(sos & eos & Es & Ee & Hw & xs & last & Hx & Hnn) Hac Hlat Hg Ht] (Sac & Slat & (Fg & Ft & _) & Sw).
  cbv zeta in *. rewrite app_nil_r in *.
  constructor; [|rewrite Sac, map_snoc_sum, Hac; reflexivity|rewrite Slat, map_snoc_sum, Hlat; reflexivity|exact Fg|exact Ft].
  exists sos, eos. split; [exact Es|]. split; [exact Ee|]. rewrite app_nil_r, path_words_snoc.
  unfold link_words in *. destruct (k_word l) as [w|].
  - destruct Sw as (S1 & pre & lst & y & S2 & S3 & S4). split.
    + rewrite S1, Hw, map_app. reflexivity.
    + exists (xs ++ [y]), (match word_to_id v w with Some i => inl i | None => inr w end). split.
      * eapply scores_step; eassumption.
      * rewrite S4, Hnn, qsum_app, qsum_cons, qsum_nil. ring.
  - destruct Sw as (S1 & S2 & S3). rewrite app_nil_r. split; [congruence|]. exists xs, last. split; congruence.
Qed.

Lemma hypothesis_end p t t' eos : hypothesis_on p false t -> word_to_id v EOS = Some eos ->
  steps [(inl eos, None)] 0 0 t t' -> hypothesis_on p true t'.
Proof.
  intros [(sos & eos' & Es & Ee & Hw & xs & last & Hx & Hnn) Hac Hlat Hg Ht] Heos (Sac & Slat & (Fg & Ft & _) & Sw).
  cbv zeta in *. rewrite app_nil_r in *. assert (eos' = eos) by congruence. subst eos'.
  constructor; [|rewrite Sac, Hac; ring|rewrite Slat, Hlat; ring|exact Fg|exact Ft].
  exists sos, eos. split; [exact Es|]. split; [exact Ee|].
  destruct Sw as (S1 & pre & lst & y & S2 & S3 & S4). split.
  - rewrite S1, Hw, map_app. reflexivity.
  - exists (xs ++ [y]), (inl eos). split.
    + eapply scores_step; eassumption.
    + rewrite S4, Hnn, qsum_app, qsum_cons, qsum_nil. ring.
Qed.
End Step.
