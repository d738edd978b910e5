(** Proofs about validations. *)
From Coq Require Import QArith Qcanon Lia.
From Verif Require Import Base BaseLib ListLib QcLib Strings TextModel TextSpec TextProofs VocabModel VocabSpec VocabProofs
  VocabBuild VocabStats CorpusProofs IterModel IterSpec IterProofs BatchProofs
  ScoreModel ScoreSpec SubwordProofs MatrixProofs ScoreProofs ScoreText ValidationModel ValidationSpec.
Local Open Scope nat_scope.

(** ** Sentences that fit *)
Lemma cut_into_short X m (l : list X) ps : 1 <= m -> length l <= m -> cut_into m l ps -> ps = match l with [] => [] | _ => [l] end.
Proof.
  intros Hm L C. inversion C as [|l' Hne Hl|a l' ps' Ha Hne C']; subst.
  - reflexivity.
  - destruct l; [congruence|reflexivity].
  - rewrite app_length in L. destruct l' as [|x l']; [congruence|]. cbn [length] in L. lia.
Qed.
Lemma fits_sequences max_len ls ss : valid_max max_len -> fits max_len ls -> lines_sequences max_len ls ss -> lines_sequences None ls ss.
Proof.
  intros Vm F H. induction H as [|line file_id s lines rest H1 H2 IH]; [constructor|].
  constructor.
  - destruct max_len as [m|]; [|exact H1]. inversion H1 as [line' u pieces Hu Hp]; subst. cbn [fits valid_max] in *.
    assert (L : length u <= m) by (eapply F; [left; reflexivity|exact Hu]).
    apply cut_into_short in Hp; [|exact Vm|exact L]. subst pieces.
    replace (filter (fun p => 2 <=? length p) match u with [] => [] | _ => [u] end) with (filter (fun p : list pystr => 2 <=? length p) [u]) by (destruct u; reflexivity).
    econstructor; [exact Hu|reflexivity].
  - apply IH. destruct max_len as [m|]; [|exact I]. intros l k w Hi. apply (F l k w). now right.
Qed.
Lemma sequences_long max_len ls ss : lines_sequences max_len ls ss -> forall s, In s ss -> 2 <= length s.
Proof.
  intros Hs s Hin. induction Hs as [|line fid s0 lines rest Hl _ IH]; [destruct Hin|].
  apply in_app_iff in Hin as [Hin|Hin]; [|auto]. inversion Hl; subst.
  apply in_map_iff in Hin as (p & <- & Hp). apply filter_In in Hp as [_ Hp]. rewrite map_length. now apply Nat.leb_le.
Qed.

(** ** The mini-batches *)
Lemma prepare_of_scoring view b w x m : prepare_scoring_batch view false b = Ok (w, x, m) -> exists fi, prepare_batch view false b = Ok (w, fi, m).
Proof. unfold prepare_scoring_batch. destruct (prepare_batch view false b) as [[[w' fi] m']|]; cbn [bind]; [|discriminate]. intros [= <- _ <-]. eauto. Qed.

Section Validation.
Variable ln : Qc -> Qc.
Variable qexp : lp -> lp.
Variable f : list (nat * nat) -> nat -> nat -> Qc.
Variable v : vocabulary.
Hypothesis Hv : reachable_vocab v.
Variable unk : nat.
Hypothesis Hunk : word_to_id v UNK = Some unk.
Notation view := (mkView (word_to_id v) (in_shortlist v) unk).
Notation code := (code v unk).
Notation words_in := (map (@fst pystr nat)).
Notation codes s := (map code (words_in s)).
Notation contributions us eu s := (contributions ln f v us eu unk (codes s)).

Lemma matrices_ok us eu (batches : list (list sequence)) : Forall (fun b => b <> []) batches ->
  exists ms, mapM (prepare_batch view false) batches = Ok ms /\
    scored_batches ln f v us eu (map (fun '(w, _, m) => (w, m)) ms) (map (fun b => concat (map (fun s => contributions us eu s) b)) batches).
Proof using Hv Hunk.
  intros H. induction H as [|b batches Hb H (ms & E & unk' & Hu & IH)].
  - exists []. split; [reflexivity|]. exists unk. split; [exact Hunk|constructor].
  - destruct (prepare_ok v unk Hunk b Hb) as (w & m & E1 & M). destruct (prepare_of_scoring _ _ _ _ _ E1) as (fi & E2).
    exists ((w, fi, m) :: ms). cbn [mapM]. rewrite E2. cbn [bind]. rewrite E. split; [reflexivity|]. exists unk. split; [exact Hunk|].
    assert (unk' = unk) by congruence. subst unk'. cbn [map]. constructor; [|exact IH].
    exists (map (fun s => codes s) b), (map (fun s => contributions us eu s) b). cbn [fst snd]. split; [exact M|]. split; [|split; [|reflexivity]].
    + intros ids x Hi Hx. apply in_map_iff in Hi as (s & <- & _). eapply codes_range; eauto.
    + clear -Hv Hunk. induction b as [|s b IH]; cbn [map]; constructor; [|exact IH]. apply contributions_included; [exact Hv|exact Hunk|].
      intros x Hx. eapply codes_range; eauto.
Qed.
Lemma contributions_sentence us eu s : sentence_included ln f v us eu (words_in s) (contributions us eu s).
Proof using Hv Hunk.
  destruct (contributions_included ln f v us eu Hv unk (codes s) Hunk) as (scores & S & I).
  - intros x Hx. eapply codes_range; eauto.
  - exists (codes s), scores. split; [apply codes_ids; assumption|]. split; assumption.
Qed.

Variable net : list (list nat) -> list (list nat) -> list (list nat) -> list (list nat) -> list (list Qc).
Hypothesis Hnet : batch_independent v net f.

(** What a successful computation of perplexity means *)
Lemma cross_entropy_ok us eu batches lss h : scored_batches ln f v us eu batches lss ->
  cross_entropy ln net v us eu batches = Ok h ->
  Forall finite (concat lss) /\ 0 < length (concat lss) /\ h = negative_mean (lsum (concat lss)) (length (concat lss)).
Proof using Hv Hnet.
  intros (u & Hu & Hs). unfold cross_entropy.
  assert (G : forall st st', (exists q, fst st = Fin q) -> foldM (perplexity_step ln net v us eu) batches st = Ok st' ->
              Forall finite (concat lss) /\ st' = (ladd (fst st) (lsum (concat lss)), snd st + length (concat lss))).
  { clear h. induction Hs as [|[w m] l batches lss (idss & ls & A1 & A2 & A3 & ->) Hs IH]; intros [x n] st' (q0 & Eq); cbn [fst snd] in *.
    - subst x. cbn [foldM concat length]. intros [= <-]. split; [constructor|]. unfold lsum; cbn [fold_right]. now rewrite ladd_0_r, Nat.add_0_r.
    - cbn [foldM concat]. rewrite (perplexity_step_ok ln net f v us eu Hv Hnet _ (x, n) w m idss ls Hu A1 A2 A3).
      destruct (lsum (concat ls)) as [q| |] eqn:E; [|discriminate|discriminate].
      destruct (Qclt_le_dec 0%Qc q) as [|_]; [discriminate|]. cbn [bind fst snd]. intros F.
      subst x. destruct (IH (ladd (Fin q0) (Fin q), n + length (concat ls)) st' (ex_intro _ (q0 + q)%Qc eq_refl) F) as [F1 F2]. split.
      + apply Forall_app. split; [|exact F1]. apply Forall_forall. intros y Hy. destruct y as [r| |]; [now exists r| |];
          exfalso; (eapply not_finite_sum; [exact Hy| |exact E]); discriminate.
      + rewrite F2. cbn [fst snd]. rewrite lsum_app, E, ladd_assoc, app_length, Nat.add_assoc. reflexivity. }
  destruct (foldM _ batches _) as [[x n]|] eqn:F; [|discriminate]. cbn [bind]. apply G in F; [|cbn; eauto]. destruct F as [F1 F2]. cbn [fst snd] in F2.
  rewrite ladd_0_l in F2. cbn [Nat.add] in F2. injection F2 as -> ->. destruct (length (concat lss)) as [|n] eqn:En; [discriminate|].
  intros [= <-]. split; [exact F1|]. split; [lia|]. symmetry. apply eq_sym, ldiv_negative_mean. lia.
Qed.

(** ** A validation *)
Section Text.
Variable exclude_unk : bool.
Variable batch_size : nat.
Variable max_len : option nat.
Variable data : pystr.
Variable ls : list (pystr * nat).
Variable ss : list sequence.
Hypothesis Hb : 1 <= batch_size.
Hypothesis Hm : valid_max max_len.
Hypothesis Hl : tagged_lines 0 [data] ls.
Hypothesis Hs : lines_sequences max_len ls ss.

Lemma validation_spec : exists fuel0, forall fuel, fuel0 <= fuel -> exists st pairs lss,
  validation_iter data = Ok st /\ scored_batches ln f v true exclude_unk pairs lss /\
  concat lss = concat (map (fun s => contributions true exclude_unk s) ss) /\
  forall net, validation ln qexp v exclude_unk batch_size max_len fuel net st =
    (do h <- cross_entropy ln net v true exclude_unk pairs; Ok (qexp h, st)).
Proof using Hv Hunk Hb Hm Hl Hs.
  clear Hnet net. destruct (linear_init [data]) as [s|] eqn:Ei; [|discriminate].
  destruct (linear_epoch_spec [data] s batch_size max_len ls ss Ei Hb Hm Hl Hs) as (fuel0 & H).
  exists fuel0. intros fuel Hf. destruct (H fuel Hf) as (batches & E & Hc).
  destruct (matrices_ok true exclude_unk batches) as (ms & E1 & E2).
  { destruct (cut_into_sizes _ _ _ Hb Hc) as [_ X]. eapply Forall_impl; [|exact X]. intros a Ha ->. cbn in Ha. lia. }
  exists (batch_init s), (map (fun '(w, _, m) => (w, m)) ms), (map (fun b => concat (map (fun s => contributions true exclude_unk s) b)) batches).
  split; [unfold validation_iter; now rewrite Ei|]. split; [exact E2|]. split.
  - rewrite <- (cut_into_concat _ _ _ Hc). clear. induction batches as [|b batches IH]; cbn [map concat]; [reflexivity|].
    rewrite map_app, concat_app. now f_equal.
  - intros net. unfold validation, unk_id. rewrite Hunk. cbn [bind].
    rewrite E. cbn [bind]. rewrite E1. cbn [bind]. unfold compute_perplexity.
    destruct (cross_entropy ln net v true exclude_unk _); reflexivity.
Qed.

Lemma validations_spec : exists fuel0, forall fuel, fuel0 <= fuel -> exists st, validation_iter data = Ok st /\
  forall nets, validations ln qexp v exclude_unk batch_size max_len fuel nets st =
    (do ps <- mapM (fun net => validated ln qexp v exclude_unk batch_size max_len fuel net data) nets; Ok (ps, st)).
Proof using f Hv Hunk Hb Hm Hl Hs.
  clear Hnet net. destruct validation_spec as (fuel0 & H). exists fuel0. intros fuel Hf. destruct (H fuel Hf) as (st & pairs & lss & E & _ & _ & V).
  exists st. split; [exact E|]. induction nets as [|net nets IH]; cbn [validations mapM]; [reflexivity|].
  unfold validated at 1. rewrite E. cbn [bind]. rewrite !V.
  destruct (cross_entropy ln net v true exclude_unk pairs) as [h|]; cbn [bind]; [|reflexivity]. rewrite IH.
  destruct (mapM _ nets); reflexivity.
Qed.

Lemma validated_spec : exists fuel0, forall fuel, fuel0 <= fuel -> exists pairs lss,
  scored_batches ln f v true exclude_unk pairs lss /\ concat lss = concat (map (fun s => contributions true exclude_unk s) ss) /\
  forall net, validated ln qexp v exclude_unk batch_size max_len fuel net data =
    (do h <- cross_entropy ln net v true exclude_unk pairs; Ok (qexp h)).
Proof using Hv Hunk Hb Hm Hl Hs.
  clear Hnet net. destruct validation_spec as (fuel0 & H). exists fuel0. intros fuel Hf. destruct (H fuel Hf) as (st & pairs & lss & E & S & C & V).
  exists pairs, lss. split; [exact S|]. split; [exact C|]. intros net. unfold validated. rewrite E. cbn [bind]. rewrite V.
  destruct (cross_entropy ln net v true exclude_unk pairs); reflexivity.
Qed.
End Text.
End Validation.

(** ** Scores *)
Lemma word_score_any ln f v e e' ids i x : v_unigram v <> None -> word_score ln f v true e ids i x -> word_score ln f v true e' ids i x.
Proof.
  intros U H. assert (S : shares v true) by (split; [reflexivity|exact U]).
  assert (X : forall id, excluded v true e id <-> excluded v true e' id) by (intro id; unfold excluded; tauto).
  destruct H as [id E X1|id s k p xs a b c E X1 Sn F A B C].
  - eapply word_excluded; [exact E|]. now apply X.
  - eapply word_scored; eauto. intros X2. apply X1. now apply X.
Qed.
Lemma sequence_scores_any ln f v e e' ids scores : v_unigram v <> None -> sequence_scores ln f v true e ids scores -> sequence_scores ln f v true e' ids scores.
Proof.
  intros U H. unfold sequence_scores in *. induction H as [|i x l scores H1 H2 IH]; constructor; [|exact IH]. eapply word_score_any; eauto.
Qed.

(** The score of a word with membership probability zero *)
Lemma zero_score ln f v us e ids i id y : word_score ln f v us e ids i (Some y) -> nth_error ids i = Some id -> zero_member v id ->
  y = NegInf \/ y = NaN.
Proof.
  intros H E (s & k & Z). inversion H as [|id' s' k' p xs a b c E' X Sn F A B C]; subst. assert (id' = id) by congruence. subst id'.
  destruct (seen_unique _ _ _ _ _ _ _ _ Sn Z) as (_ & _ & ->).
  destruct B as [[_ ->]|[[B _]|[B _]]]; [|exfalso; exact (Qclt_not_eq _ _ B eq_refl)..].
  destruct a, c; cbn; auto.
Qed.

Lemma included_known ln f v us e ids scores l : sequence_scores ln f v us e ids scores -> included v (tl ids) scores l ->
  Forall not_nan scores -> Forall finite l -> known_scores scores = l.
Proof.
  intros S I N F.
  assert (G : forall k t, (forall j, nth_error t j = nth_error ids (k + j)) -> forall sc l, Forall2 (word_score ln f v us e ids) (seq k (length t)) sc ->
    included v t sc l -> Forall not_nan sc -> Forall finite l -> known_scores sc = l).
  { clear. intros k t. revert k. induction t as [|id t IH]; intros k Ht sc l S I N F.
    - inversion I; subst. reflexivity.
    - cbn [length seq] in S. inversion S as [|? x ? sc' W S']; subst. inversion N as [|? ? N1 N2]; subst.
      assert (Ht' : forall j, nth_error t j = nth_error ids (Datatypes.S k + j)) by (intro j; rewrite Nat.add_succ_comm; apply (Ht (Datatypes.S j))).
      assert (E : nth_error ids k = Some id) by (rewrite <- (Nat.add_0_r k); now rewrite <- (Ht 0)).
      inversion I as [|? ? ? ? ? Hx I'|? ? y ? l' Hx I']; subst.
      + unfold known_scores. cbn [map concat]. fold (known_scores sc'). rewrite (IH _ Ht' _ _ S' I' N2 F).
        destruct x as [y|]; [|reflexivity]. destruct Hx as [Hx|Hx]; [discriminate|].
        destruct (zero_score _ _ _ _ _ _ _ _ _ W E Hx) as [->| ->]; [reflexivity|]. now elim N1.
      + inversion F as [|? ? (q & ->) F2]; subst. unfold known_scores. cbn [map concat app]. f_equal. exact (IH _ Ht' _ _ S' I' N2 F2). }
  unfold sequence_scores in S. destruct ids as [|id ids]; [inversion I; subst; reflexivity|]. cbn [length Nat.sub tl] in *. rewrite Nat.sub_0_r in S.
  exact (G 1 ids (fun j => eq_refl) _ _ S I N F).
Qed.
Lemma number_known l : number is_known l = length (known_scores l).
Proof.
  unfold number, known_scores. induction l as [|x l IH]; [reflexivity|]. cbn [filter map concat]. rewrite app_length, <- IH.
  destruct x as [[| |]|]; reflexivity.
Qed.

(** ** The same text in the score command *)
Section Agree.
Variable ln : Qc -> Qc.
Variable f : list (nat * nat) -> nat -> nat -> Qc.
Variable v : vocabulary.
Hypothesis Hv : reachable_vocab v.
Variable unk : nat.
Hypothesis Hunk : word_to_id v UNK = Some unk.
Variables exclude exclude' : bool.
Hypothesis He : v_unigram v <> None \/ exclude' = exclude.
Notation words_in := (map (@fst pystr nat)).
Notation contributions s := (contributions ln f v true exclude unk (map (code v unk) (words_in s))).
Definition no_nan (s : sequence) : Prop :=
  forall scores, sentence_scores ln f v true exclude (words_in s) scores -> Forall not_nan scores.

Lemma result_scores words r : words <> [] -> sequence_result ln f v true exclude' None words r ->
  fst r = map (code v unk) words /\ sequence_scores ln f v true exclude (fst r) (snd (snd r)).
Proof using Hv Hunk He.
  intros Hne H. inversion H as [first rest ids scores mw ms Hi S M]; subst. cbn [fst snd].
  pose proof (ids_of_codes _ _ _ _ Hunk Hi) as E. split; [exact E|].
  assert (S' : sequence_scores ln f v true exclude ids scores).
  { destruct He as [U| ->]; [|exact S]. eapply sequence_scores_any; eauto. }
  inversion M; subst. replace (map snd (combine rest scores)) with scores; [exact S'|].
  assert (L : length rest = length scores).
  { assert (L : length (seq 1 (length (map (code v unk) (first :: rest)) - 1)) = length scores) by (clear -S; unfold sequence_scores in S; induction S; cbn [length]; congruence). rewrite seq_length, map_length in L. cbn [length] in L. lia. }
  clear -L. revert scores L. induction rest as [|w rest IH]; intros [|x scores] L; try discriminate; [reflexivity|]. cbn [combine map snd]. f_equal. apply IH. now injection L.
Qed.

Lemma results_known (ss : list sequence) rs : (forall s, In s ss -> 2 <= length s) ->
  Forall2 (sequence_result ln f v true exclude' None) (map words_in ss) rs ->
  Forall no_nan ss -> Forall finite (concat (map (fun s => contributions s) ss)) ->
  known_scores (concat (map (fun r => snd (snd r)) rs)) = concat (map (fun s => contributions s) ss).
Proof using Hv Hunk He.
  revert rs. induction ss as [|s ss IH]; intros rs L H N F; inversion H as [|? r ? rs' H1 H2]; subst; [reflexivity|].
  cbn [map concat] in *. inversion N as [|? ? N1 N2]; subst. apply Forall_app in F as [F1 F2].
  rewrite known_scores_app. f_equal; [|apply IH; auto; intros x Hx; apply L; now right].
  apply result_scores in H1; [|intros E; specialize (L s (or_introl eq_refl)); apply (f_equal (@length _)) in E; rewrite map_length in E; cbn in E; lia].
  destruct H1 as [E S]. destruct (contributions_included ln f v true exclude Hv unk (map (code v unk) (words_in s)) Hunk) as (scores & S0 & I).
  { intros x Hx. eapply codes_range; eauto. }
  rewrite E in S. assert (scores = snd (snd r)) by (eapply sequence_scores_unique; eauto). subst scores.
  eapply included_known; eauto. apply N1. exists (map (code v unk) (words_in s)). split; [apply codes_ids; assumption|exact S].
Qed.

Lemma text_result_known (ss : list sequence) rs : (forall s, In s ss -> 2 <= length s) ->
  Forall2 (sequence_result ln f v true exclude' None) (map words_in ss) rs ->
  Forall no_nan ss -> let l := concat (map (fun s => contributions s) ss) in Forall finite l ->
  text_result rs [] = match rs with [] => Ok (totals rs, [], None) | _ =>
    match length l with 0 => Err ZeroDivisionError | n => Ok (totals rs, [], Some (negative_mean (lsum l) n)) end end.
Proof using Hv Hunk He.
  intros L H N l F. unfold text_result. destruct rs as [|r rs']; [reflexivity|]. set (rs := r :: rs') in *.
  change (t_probs (totals rs)) with (number is_known (concat (map (fun r => snd (snd r)) rs))).
  change (t_logprob (totals rs)) with (lsum (known_scores (concat (map (fun r => snd (snd r)) rs)))).
  rewrite number_known, (results_known ss rs L H N F). reflexivity.
Qed.

(** Sentences in which every probability is possible *)
Lemma possible_finite (s : sequence) : sentence_possible ln f v true exclude (words_in s) -> Forall finite_nonpos (contributions s).
Proof using Hv Hunk.
  intros (ids & scores & Hi & S & P). rewrite (ids_of_codes _ _ _ _ Hunk Hi) in *.
  destruct (contributions_included ln f v true exclude Hv unk (map (code v unk) (words_in s)) Hunk) as (scores' & S0 & I).
  { intros x Hx. eapply codes_range; eauto. }
  assert (scores' = scores) by (eapply sequence_scores_unique; eauto). subst scores'. clear -I P.
  induction I as [|id ids x scores l Hx I IH|id ids x scores l Hx I IH]; inversion P as [|? ? ? ? P1 P2]; subst; [constructor|auto|].
  constructor; [|auto]. destruct P1 as [P1|[P1|(y & P1 & Y)]]; [discriminate|contradiction|]. now injection P1 as <-.
Qed.
End Agree.
