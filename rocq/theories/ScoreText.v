(** Lemmas about scoring texts and lines. *)
From Coq Require Import QArith Qcanon.
From Verif Require Import Base ListLib QcLib Strings TextModel TextSpec TextProofs VocabModel VocabSpec VocabProofs
  VocabBuild VocabStats CorpusProofs IterModel IterSpec IterProofs BatchProofs
  ScoreModel ScoreSpec SubwordProofs MatrixProofs ScoreProofs.
Local Open Scope nat_scope.

Section Text.
Variable ln : Qc -> Qc.
Variable net : list (list nat) -> list (list nat) -> list (list nat) -> list (list nat) ->
               list (list Qc).
Variable f : list (nat * nat) -> nat -> nat -> Qc.
Variable v : vocabulary.
Variable use_shortlist exclude_unk : bool.
Hypothesis Hv : reachable_vocab v.
Hypothesis Hnet : batch_independent v net f.

Notation PSC := (pscores ln f v use_shortlist exclude_unk).

(** ** Mini-batches *)
Lemma batch_scores unk idss w m :
  word_to_id v UNK = Some unk -> batch_matrices unk idss w m ->
  (forall ids x, In ids idss -> In x ids -> x < num_words v) ->
  (exists ids, In ids idss /\ 2 <= length ids) ->
  exists ks ps scores,
    get_class_memberships v w = Ok (ks, ps) /\
    score_batch ln net v use_shortlist exclude_unk w ks ps m = Ok scores /\
    Forall2 (sequence_scores ln f v use_shortlist exclude_unk) idss scores.
Proof.
  intros Hunk (rows & Hlong & Hw & Hm & Hc) Hb (ids & Hi & H2).
  eexists _, _, _. split; [apply memberships_ok; exact Hv|]. split.
  - eapply score_batch_ok; eauto. destruct Hlong as [H _]. specialize (H _ Hi). lia.
  - clear -Hb Hv Hunk. induction idss as [|ids idss IH]; constructor.
    + apply pscores_spec; [exact Hv|exact Hunk|]. intros x. apply Hb. now left.
    + apply IH. intros i x Hin. apply Hb. now right.
Qed.

Lemma contributions_included unk ids :
  word_to_id v UNK = Some unk -> (forall x, In x ids -> x < num_words v) -> 
  exists scores, sequence_scores ln f v use_shortlist exclude_unk ids scores /\
    included v (tl ids) scores (contributions ln f v use_shortlist exclude_unk unk ids).
Proof.
  intros Hunk Hb. exists (PSC unk ids). split; [now apply pscores_spec|].
  unfold pscores, contributions.
  assert (E : tl ids = map (fun i => nth i ids unk) (seq 1 (length ids - 1))).
  { destruct ids as [|x l]; [reflexivity|]. cbn [tl length]. rewrite Nat.sub_succ, Nat.sub_0_r, <- seq_shift, map_map.
    clear. induction l as [|y l IH]; [reflexivity|]. cbn [length seq map nth]. f_equal.
    rewrite <- seq_shift, map_map. rewrite IH at 1. apply map_ext_in. intros i Hi. cbn [nth]. reflexivity. }
  rewrite E. clear E Hb. induction (seq 1 (length ids - 1)) as [|i l IH]; [constructor|].
  cbn [map concat]. unfold pscore at 1. cbn zeta.
  destruct (excl v use_shortlist exclude_unk unk (nth i ids unk)) eqn:Ex; cbn [orb app].
  - apply included_skip; [now left|exact IH].
  - destruct (Qc_eq_dec (snd (kp v (nth i ids unk))) 0%Qc) as [E0|E0]; cbn [app].
    + apply included_skip; [|exact IH]. right. pose proof (seen_kp v Hv unk Hunk (nth i ids unk)) as S.
      rewrite E0 in S. now exists (shown v unk (nth i ids unk)), (fst (kp v (nth i ids unk))).
    + apply included_take; [|exact IH]. intros (s & k & S).
      destruct (seen_unique _ _ _ _ _ _ _ _ S (seen_kp v Hv unk Hunk (nth i ids unk))) as (_ & _ & S'). congruence.
Qed.

Lemma included_unique ids scores a b : included v ids scores a -> included v ids scores b -> a = b.
Proof.
  intros H. revert b. induction H as [|id ids x scores l Hx H IH|id ids x scores l Hx H IH]; intros b Hb.
  - now inversion Hb.
  - inversion Hb as [|? ? ? ? ? Hx' H'|? ? ? ? l' Hx' H']; subst; [auto|].
    destruct Hx as [Hx|Hx]; [discriminate|contradiction].
  - inversion Hb as [|? ? ? ? ? Hx' H'|? ? ? ? l' Hx' H']; subst; [|f_equal; auto].
    destruct Hx' as [Hx'|Hx']; [discriminate|contradiction].
Qed.

Lemma batch_total unk idss w m :
  word_to_id v UNK = Some unk -> batch_matrices unk idss w m ->
  (forall ids x, In ids idss -> In x ids -> x < num_words v) ->
  exists ks ps ls,
    get_class_memberships v w = Ok (ks, ps) /\
    Forall2 (fun ids l => exists scores, sequence_scores ln f v use_shortlist exclude_unk ids scores /\
                          included v (tl ids) scores l) idss ls /\
    total_logprob ln net v use_shortlist exclude_unk w ks (tl ps) (tl m) =
      Ok (lsum (concat ls), length (concat ls)).
Proof.
  intros Hunk (rows & Hlong & Hw & Hm & Hc) Hb.
  eexists _, _, _. split; [apply memberships_ok; exact Hv|]. split.
  2:{ eapply total_logprob_ok; eauto. }
  clear -Hb Hv Hunk. induction idss as [|ids idss IH]; constructor.
  - apply contributions_included; [exact Hunk|]. intros x. apply Hb. now left.
  - apply IH. intros i x Hin. apply Hb. now right.
Qed.

(** ** Perplexity *)

Lemma finite_nonpos_sum l : Forall finite_nonpos l -> finite_nonpos (lsum l).
Proof.
  induction 1 as [|x l (q & -> & Hq) _ (p & E & Hp)].
  - exists 0%Qc. split; [reflexivity|apply Qcle_refl].
  - exists (q + p)%Qc. unfold lsum in *. cbn [fold_right]. rewrite E. split; [reflexivity|].
    replace 0%Qc with (0 + 0)%Qc by ring. now apply Qcplus_le_compat.
Qed.
Lemma not_finite_sum l x : In x l -> (forall q, x <> Fin q) -> forall q, lsum l <> Fin q.
Proof.
  induction l as [|y l IH]; intros Hi Hx q; [destruct Hi|]. unfold lsum. cbn [fold_right]. fold (lsum l).
  destruct Hi as [->|Hi].
  - destruct x; [congruence| |]; destruct (lsum l); discriminate.
  - specialize (IH Hi Hx). destruct y, (lsum l); cbn; try discriminate; exfalso; eapply IH; reflexivity.
Qed.

Lemma sequence_included_unique unk ids a b : word_to_id v UNK = Some unk ->
  (exists scores, sequence_scores ln f v use_shortlist exclude_unk ids scores /\ included v (tl ids) scores a) ->
  (exists scores, sequence_scores ln f v use_shortlist exclude_unk ids scores /\ included v (tl ids) scores b) -> a = b.
Proof.
  intros Hunk (s & A1 & A2) (s' & B1 & B2).
  assert (s = s') by (eapply sequence_scores_unique; eauto). subst s'. eapply included_unique; eauto.
Qed.

Lemma perplexity_step_ok unk st w m idss ls :
  word_to_id v UNK = Some unk -> batch_matrices unk idss w m ->
  (forall ids x, In ids idss -> In x ids -> x < num_words v) ->
  Forall2 (fun ids l => exists scores, sequence_scores ln f v use_shortlist exclude_unk ids scores /\
                          included v (tl ids) scores l) idss ls ->
  perplexity_step ln net v use_shortlist exclude_unk st (w, m) =
  match lsum (concat ls) with
  | Fin q => if Qclt_le_dec 0%Qc q then Err NumberError
             else Ok (ladd (fst st) (Fin q), snd st + length (concat ls))
  | _ => Err NumberError
  end.
Proof.
  intros Hunk Hm Hb Hl. destruct (batch_total _ _ _ _ Hunk Hm Hb) as (ks & ps & ls' & E1 & E2 & E3).
  assert (ls' = ls).
  { clear -Hl E2 Hunk Hv. revert ls Hl. induction E2 as [|ids l idss ls' H1 H2 IH]; intros ls Hl; inversion Hl; subst; [reflexivity|].
    f_equal; [eapply sequence_included_unique; eauto|now apply IH]. }
  subst ls'. unfold perplexity_step. rewrite E1. cbn [bind]. rewrite E3. cbn [bind].
  destruct (lsum (concat ls)); reflexivity.
Qed.

Lemma cross_entropy_spec batches lss :
  scored_batches ln f v use_shortlist exclude_unk batches lss -> Forall finite_nonpos (concat lss) ->
  cross_entropy ln net v use_shortlist exclude_unk batches =
  match length (concat lss) with
  | 0 => Err ValueError
  | n => Ok (negative_mean (lsum (concat lss)) n)
  end.
Proof.
  intros (unk & Hunk & Hs) Hf. unfold cross_entropy.
  assert (G : forall st, (exists q, fst st = Fin q) -> foldM (perplexity_step ln net v use_shortlist exclude_unk) batches st =
              Ok (ladd (fst st) (lsum (concat lss)), snd st + length (concat lss))).
  { induction Hs as [|[w m] l batches lss (idss & ls & A1 & A2 & A3 & ->) Hs IH]; intros [x n] (q0 & Eq); cbn [fst snd] in *.
    - subst x. cbn [foldM concat length]. unfold lsum; cbn [fold_right]. now rewrite ladd_0_r, Nat.add_0_r.
    - cbn [concat] in Hf. apply Forall_app in Hf as [Hf1 Hf2]. cbn [foldM].
      rewrite (perplexity_step_ok _ (x, n) w m idss ls Hunk A1 A2 A3).
      destruct (finite_nonpos_sum _ Hf1) as (q & E & Hq). rewrite E.
      destruct (Qclt_le_dec 0%Qc q) as [Hlt|_]; [exfalso; apply (Qcle_not_lt _ _ Hq Hlt)|]. cbn [bind fst snd].
      rewrite IH; [|exact Hf2|subst x; cbn; eauto]. cbn [fst snd concat].
      rewrite lsum_app, E, ladd_assoc, app_length, Nat.add_assoc. reflexivity. }
  rewrite G by (cbn; eauto). cbn [bind fst snd]. rewrite ladd_0_l.
  destruct (length (concat lss)) as [|n] eqn:En; [reflexivity|]. cbn [Nat.add]. f_equal.
  unfold negative_mean, ldiv. destruct (lsum (concat lss)); try reflexivity. f_equal.
  pose proof (qc_of_nat_neq (S n) ltac:(lia)) as Hn. field. split; [exact Hn|].
  intros E. apply Hn. rewrite <- (Qcopp_involutive (qc_of_nat (S n))), E. reflexivity.
Qed.

Lemma cross_entropy_error batches lss :
  scored_batches ln f v use_shortlist exclude_unk batches lss ->
  Forall (fun x => finite_nonpos x \/ x = NegInf \/ x = NaN) (concat lss) ->
  Exists (fun x => x = NegInf \/ x = NaN) (concat lss) ->
  cross_entropy ln net v use_shortlist exclude_unk batches = Err NumberError.
Proof.
  intros (unk & Hunk & Hs) Hf He. unfold cross_entropy.
  assert (G : forall st, foldM (perplexity_step ln net v use_shortlist exclude_unk) batches st = Err NumberError).
  { induction Hs as [|[w m] l batches lss (idss & ls & A1 & A2 & A3 & ->) Hs IH]; intros st; [inversion He|].
    cbn [concat] in Hf, He. apply Forall_app in Hf as [Hf1 Hf2]. cbn [foldM].
    rewrite (perplexity_step_ok _ st w m idss ls Hunk A1 A2 A3).
    destruct (lsum (concat ls)) as [q| |] eqn:E; [|reflexivity|reflexivity].
    destruct (Qclt_le_dec 0%Qc q) as [Hlt|_]; [reflexivity|]. cbn [bind]. apply IH; [exact Hf2|].
    apply Exists_app in He as [He|He]; [exfalso|exact He].
    apply Exists_exists in He as (x & Hx & Hi). apply (not_finite_sum _ _ Hx) with q; [|exact E].
    intros q'. destruct Hi as [->| ->]; discriminate. }
  rewrite G. reflexivity.
Qed.

(** ** One sequence *)

Section Merging.
Variable mark : option marking.
Variable log_scale : Qc.
Variable unk : nat.
Hypothesis Hunk : word_to_id v UNK = Some unk.
Hypothesis Hmark : mark <> Some OtherMarking.

Definition code (w : pystr) : nat := match word_to_id v w with Some i => i | None => unk end.
Definition result_of (words : list pystr) : list nat * (list (list pystr) * list (option lp)) :=
  let ids := map code words in
  (ids, match merge_subwords words (PSC unk ids) mark with Ok x => x | Err _ => ([], []) end).

Lemma code_range w : code w < num_words v.
Proof.
  unfold code. destruct (vocab_inverse v Hv) as [_ H]. unfold num_words. destruct (word_to_id v w) as [i|] eqn:E.
  - apply H in E. apply nth_error_Some. congruence.
  - apply H in Hunk. apply nth_error_Some. congruence.
Qed.
Lemma codes_ids words : ids_of v words (map code words).
Proof.
  exists unk. split; [exact Hunk|]. induction words as [|w words IH]; cbn [map]; constructor; [|exact IH].
  unfold code. destruct (word_to_id v w); auto.
Qed.
Lemma codes_range words x : In x (map code words) -> x < num_words v.
Proof. intros H. apply in_map_iff in H as (w & <- & _). apply code_range. Qed.

Lemma pscores_length ids : length (PSC unk ids) = length ids - 1.
Proof. unfold pscores. now rewrite map_length, seq_length. Qed.

Lemma result_ok words : words <> [] ->
  merge_subwords words (PSC unk (map code words)) mark = Ok (snd (result_of words)) /\ sequence_result ln f v use_shortlist exclude_unk mark words (result_of words).
Proof.
  intros Hne. destruct words as [|first rest]; [congruence|].
  destruct (merge_spec mark first rest (PSC unk (map code (first :: rest))) Hmark) as (mw & ms & E & Hm).
  { rewrite pscores_length, map_length. cbn [length]. lia. }
  unfold result_of. rewrite E. cbn [snd]. split; [reflexivity|].
  eapply sequence_result_intro; [apply codes_ids|apply pscores_spec; [exact Hv|exact Hunk|apply codes_range]|exact Hm].
Qed.

Lemma result_lengths words : words <> [] ->
  length (fst (snd (result_of words))) = S (length (snd (snd (result_of words)))).
Proof.
  intros Hne. destruct (result_ok words Hne) as [_ H].
  destruct (result_of words) as [ids [mw ms]]. inversion H; subst. cbn [fst snd].
  eapply merged_lengths; eauto.
Qed.

Lemma Some_inj {A} (x y : A) : Some x = Some y -> x = y.
Proof. congruence. Qed.

Lemma Ok_fst {A B} (a a' : A) (b b' : B) : Ok (a, b) = Ok (a', b') -> a = a'.
Proof. congruence. Qed.

(** ** Word reports *)
Lemma word_scores_ok words scores : length words = S (length scores) ->
  exists entries, word_scores v words scores log_scale = Ok entries /\   reported v log_scale words scores entries.
Proof.
  intros Hl. unfold word_scores. rewrite <- Hl, Nat.eqb_refl.
  set (g := fun il : nat * option lp => let (index, logprob) := il in
     mkEntryLine (nth (index + 1) words [])
       (if 2 <? index then firstn 3 (skipn (index - 2) words) else firstn (index + 1) words)
       (2 <? index) (option_map (fun x => ldiv x log_scale) logprob)
       (map (word_info v) (nth (index + 1) words []))).
  rewrite (mapM_ok _ g).
  2:{ intros [i x] Hi. apply in_combine_l in Hi. apply in_seq in Hi. unfold py_index.
      destruct (nth_error words (i + 1)) as [w|] eqn:E; [|apply nth_error_None in E; lia].
      cbn [bind]. unfold g. now rewrite (nth_error_nth _ _ _ E). }
  eexists. split; [reflexivity|]. split.
  { rewrite map_length, combine_length, seq_length. lia. }
  intros i e He. rewrite nth_error_map in He.
  destruct (nth_error (combine (seq 0 (length scores)) scores) i) as [[i' x]|] eqn:E; [|discriminate].
  cbn [option_map] in He. apply Some_inj in He. subst e.
  assert (Hi : i < length scores).
  { assert (H : i < length (combine (seq 0 (length scores)) scores)) by (apply nth_error_Some; congruence).
    rewrite combine_length, seq_length in H. lia. }
  assert (Ex : i' = i /\ nth_error scores i = Some x).
  { clear -E Hi. assert (H : forall (l : list (option lp)) k n, nth_error (combine (seq k (length l)) l) n = Some (i', x) -> i' = k + n /\ nth_error l n = Some x).
    { induction l as [|y l IH]; intros k n; [destruct n; discriminate|]. cbn [length seq combine]. destruct n; cbn [nth_error].
      - intros [= <- <-]. split; [lia|reflexivity].
      - intros H. apply IH in H as [-> H]. split; [lia|exact H]. }
    apply H in E. exact E. }
  destruct Ex as [-> Ex]. clear E. unfold g; cbn [se_word se_history se_cut se_logprob se_info].
  replace (i + 1) with (S i) by lia.
  destruct (nth_error words (S i)) as [w|] eqn:Ew; [|apply nth_error_None in Ew; lia].
  rewrite (nth_error_nth _ _ _ Ew).
  split; [reflexivity|]. split.
  { destruct (Nat.ltb_spec 2 i) as [H|H]; [|exists []; reflexivity].
    exists (firstn (i - 2) words). rewrite <- (firstn_skipn (i - 2) words) at 1.
    rewrite firstn_app. rewrite firstn_length, Nat.min_l by lia. replace (S i - (i - 2)) with 3 by lia.
    f_equal. rewrite firstn_firstn. f_equal. lia. }
  split.
  { destruct (Nat.ltb_spec 2 i) as [H|H]; cbv beta iota; rewrite firstn_length; [rewrite skipn_length|]; lia. }
  split; [rewrite Nat.ltb_lt; lia|]. split.
  { exists x. split; [exact Ex|]. destruct x as [[| |]|]; reflexivity. }
  clear. induction w as [|p w IH]; cbn [map]; constructor; [|exact IH].
  unfold word_info. destruct (word_to_id v p) as [id|]; [|reflexivity]. unfold in_shortlist, num_shortlist_words.
  destruct (Nat.ltb_spec id (length (v_w2c v))); auto.
Qed.

(** ** Statistics *)
Definition add_stats (a b : text_stats) : text_stats :=
  mkStats (ladd (t_logprob a) (t_logprob b)) (t_sentences a + t_sentences b) (t_tokens a + t_tokens b)
          (t_words a + t_words b) (t_probs a + t_probs b) (t_unks a + t_unks b) (t_zeroprobs a + t_zeroprobs b).
Lemma add_stats_assoc a b c : add_stats a (add_stats b c) = add_stats (add_stats a b) c.
Proof. unfold add_stats; cbn. rewrite ladd_assoc, !Nat.add_assoc. reflexivity. Qed.
Lemma known_scores_app a b : known_scores (a ++ b) = known_scores a ++ known_scores b.
Proof. unfold known_scores. now rewrite map_app, concat_app. Qed.
Lemma number_app {A} (P : A -> bool) a b : number P (a ++ b) = number P a + number P b.
Proof. unfold number. now rewrite filter_app, app_length. Qed.
Lemma totals_cons r rs : totals (r :: rs) = add_stats (totals [r]) (totals rs).
Proof.
  unfold totals, add_stats. cbn [map concat t_logprob t_sentences t_tokens t_words t_probs t_unks t_zeroprobs].
  rewrite !known_scores_app, !number_app, !lsum_app. cbn [map concat length list_sum fold_right].
  change (lsum (known_scores [])) with (Fin 0%Qc). rewrite ladd_0_r.
  change (number is_known []) with 0. change (number is_excluded []) with 0. change (number is_zero_prob []) with 0.
  unfold list_sum; cbn [fold_right]. f_equal; lia.
Qed.
Lemma totals_nil_r s : add_stats s (totals []) = s.
Proof. unfold add_stats, totals. cbn. rewrite !Nat.add_0_r, ladd_0_r. now destruct s. Qed.

Definition item (words : list pystr) : list (option lp) * (list nat * list pystr) :=
  (PSC unk (map code words), (map code words, words)).

Lemma count_if_number {A} (P Q : A -> bool) l : (forall x, P x = Q x) -> count_if P l = number Q l.
Proof. intros H. unfold count_if, number. f_equal. induction l as [|x l IH]; cbn; [reflexivity|]. rewrite H, IH. reflexivity. Qed.

Lemma text_sequence_stats st words : words <> [] ->
  score_text_sequence v mark false log_scale st (item words) =
  Ok (add_stats (fst st) (totals [result_of words]), snd st).
Proof.
  intros Hne. unfold score_text_sequence, item. destruct (result_ok words Hne) as [E _]. rewrite E.
  destruct (result_of words) as [ids [mw ms]] eqn:Er. cbn [snd bind]. cbn zeta. f_equal. f_equal.
  assert (ids = map code words) by (unfold result_of in Er; congruence). subst ids.
  unfold add_stats, totals. cbn [map concat length list_sum fold_right fst snd t_logprob t_sentences t_tokens t_words t_probs t_unks t_zeroprobs].
  rewrite app_nil_r, counted_sum_known, !Nat.add_0_r.
  f_equal; f_equal; apply count_if_number; intros [[| |]|]; reflexivity.
Qed.

Lemma text_fold_stats wordss : (forall ws, In ws wordss -> ws <> []) -> forall st,
  foldM (score_text_sequence v mark false log_scale) (map item wordss) st =
  Ok (add_stats (fst st) (totals (map result_of wordss)), snd st).
Proof.
  induction wordss as [|ws wordss IH]; intros Hne st; cbn [map foldM].
  - rewrite totals_nil_r. now destruct st.
  - rewrite text_sequence_stats by (apply Hne; now left). cbn [bind].
    rewrite IH by (intros; apply Hne; now right). cbn [fst snd]. rewrite (totals_cons (result_of ws) (map result_of wordss)), add_stats_assoc. reflexivity.
Qed.

(** With word reports. *)
Definition has_known (ws : list pystr) : Prop := 0 < number is_known (snd (snd (result_of ws))).
Definition report_of (ws : list pystr) (r : report) : Prop :=
  reported v log_scale (fst (snd (result_of ws))) (snd (snd (result_of ws))) (fst r) /\ snd r = negative_mean (lsum (known_scores (snd (snd (result_of ws)))))
                        (number is_known (snd (snd (result_of ws)))).

Lemma text_sequence_report words : words <> [] ->
  (has_known words -> exists r, report_of words r /\ forall st,
     score_text_sequence v mark true log_scale st (item words) =
     Ok (add_stats (fst st) (totals [result_of words]), snd st ++ [r])) /\
  (~ has_known words -> forall st, score_text_sequence v mark true log_scale st (item words) = Err ZeroDivisionError).
Proof.
  intros Hne. pose proof (fun st => text_sequence_stats st words Hne) as Hs. revert Hs.
  unfold score_text_sequence, item, has_known, report_of. destruct (result_ok words Hne) as [E _]. rewrite E.
  pose proof (result_lengths words Hne) as Hl.
  destruct (result_of words) as [ids [mw ms]] eqn:Er. cbn [snd fst bind] in *. cbn zeta.
  destruct (word_scores_ok mw ms Hl) as (entries & Ee & Hr). rewrite Ee. cbn [bind].
  rewrite (count_if_number counted is_known) by (intros [[| |]|]; reflexivity).
  rewrite counted_sum_known.
  intros Hs. destruct (number is_known ms) as [|n] eqn:En.
  - split; [lia|reflexivity].
  - split; [|lia]. intros _. exists (entries, ldiv (lsum (known_scores ms)) (- qc_of_nat (S n))%Qc). split.
    2:{ intros st. specialize (Hs st). apply Ok_fst in Hs. rewrite Hs. reflexivity. }
    split; [exact Hr|]. cbn [snd].
    unfold negative_mean, ldiv. destruct (lsum (known_scores ms)); try reflexivity. f_equal.
    pose proof (qc_of_nat_neq (S n) ltac:(lia)) as Hn. field. split; [exact Hn|].
    intros E0. apply Hn. rewrite <- (Qcopp_involutive (qc_of_nat (S n))), E0. reflexivity.
Qed.

Lemma text_fold_report wordss : (forall ws, In ws wordss -> ws <> []) ->
  (forall ws, In ws wordss -> has_known ws) -> exists rs, Forall2 report_of wordss rs /\ forall st,
  foldM (score_text_sequence v mark true log_scale) (map item wordss) st =
  Ok (add_stats (fst st) (totals (map result_of wordss)), snd st ++ rs).
Proof.
  induction wordss as [|ws wordss IH]; intros Hne Hk; cbn [map foldM].
  - exists []. split; [constructor|]. intros st. rewrite totals_nil_r, app_nil_r. now destruct st.
  - destruct IH as (rs & H1 & H2); [intros; apply Hne; now right|intros; apply Hk; now right|].
    destruct (text_sequence_report ws) as [(r & R1 & R2) _]; [apply Hne; now left|apply Hk; now left|].
    exists (r :: rs). split; [constructor; assumption|]. intros st.
    rewrite R2. cbn [bind]. rewrite H2. cbn [fst snd].
    rewrite (totals_cons (result_of ws) (map result_of wordss)), add_stats_assoc, <- app_assoc. reflexivity.
Qed.

Lemma text_fold_report_error wordss : (forall ws, In ws wordss -> ws <> []) ->
  Exists (fun ws => ~ has_known ws) wordss -> forall st,
  foldM (score_text_sequence v mark true log_scale) (map item wordss) st = Err ZeroDivisionError.
Proof.
  induction wordss as [|ws wordss IH]; intros Hne He st; [inversion He|]. cbn [map foldM].
  destruct (text_sequence_report ws) as [A B]; [apply Hne; now left|].
  destruct (Nat.lt_ge_cases 0 (number is_known (snd (snd (result_of ws))))) as [H|H].
  - destruct (A H) as (r & _ & E). rewrite E. cbn [bind]. apply IH; [intros; apply Hne; now right|].
    inversion He as [? ? H0|? ? H0]; subst; [contradiction|exact H0].
  - rewrite B; [reflexivity|]. unfold has_known. lia.
Qed.

(** ** Mini-batches of a text *)
Notation view := (mkView (word_to_id v) (in_shortlist v) unk).

Lemma prepare_ok (seqs : list (list (pystr * nat))) : seqs <> [] -> exists w m,
  prepare_scoring_batch view false seqs = Ok (w, map (map fst) seqs, m) /\ batch_matrices unk (map (fun s => map code (map fst s)) seqs) w m.
Proof.
  intros Hne. destruct (prepare_batch_total view false seqs Hne) as ([[w fi] m] & E).
  exists w, m. unfold prepare_scoring_batch. rewrite E. cbn [bind]. split; [reflexivity|].
  destruct (prepare_batch_spec _ _ _ _ _ _ E) as (rows & [L1 (s0 & L2 & L3)] & Mw & _ & Mm & H1 & H2).
  exists rows. rewrite map_length. split; [|split; [exact Mw|split; [exact Mm|]]].
  - split.
    + intros s Hs. apply in_map_iff in Hs as (s' & <- & Hs). rewrite !map_length. now apply L1.
    + exists (map code (map fst s0)). split; [apply in_map_iff; eauto|now rewrite !map_length].
  - intros j ids t Hj Ht. rewrite nth_error_map in Hj. destruct (nth_error seqs j) as [s|] eqn:Ej; [|discriminate].
    injection Hj as <-. rewrite !map_length. destruct (Nat.ltb_spec t (length s)) as [Hl|Hl].
    + destruct (nth_error s t) as [[word file]|] eqn:Et; [|apply nth_error_None in Et; lia].
      destruct (H1 j s t word file Ej Et) as ((c & C1 & C2) & C3 & _). split; [|exact C3].
      rewrite C1. f_equal. symmetry. erewrite nth_error_nth by (rewrite !nth_error_map, Et; reflexivity).
      cbn [fst]. unfold code. cbn [vv_word_to_id vv_unk_id] in C2.
      inversion C2 as [id I1 I2|id I1 I2 I3|I1]; subst; [now rewrite I1|discriminate|now rewrite I1].
    + destruct (H2 j s t Ej (conj Hl Ht)) as (C1 & C3 & _). split; [|exact C3].
      rewrite nth_overflow by (rewrite !map_length; lia). exact C1.
Qed.

Lemma select_column idss w m j ids rows :
  is_matrix rows (length idss) w -> is_matrix rows (length idss) m ->
  (forall j ids t, nth_error idss j = Some ids -> t < rows ->
      cell w t j = Some (nth t ids unk) /\ cell m t j = Some (if t <? length ids then 1 else 0)) ->
  nth_error idss j = Some ids -> length ids <= rows ->
  select (column j m) (column j w) = ids.
Proof.
  intros Mw Mm Hc Ej Hl. assert (Hj : j < length idss) by (apply nth_error_Some; congruence).
  rewrite (select_prefix (length ids)).
  - apply nth_error_ext. intros i. destruct (Nat.lt_ge_cases i (length ids)) as [Hi|Hi].
    + rewrite nth_error_firstn_lt by exact Hi. rewrite (column_nth _ _ _ _ _ Mw Hj).
      destruct (Hc j ids i Ej ltac:(lia)) as [-> _]. symmetry. now apply nth_error_nth'.
    + rewrite (proj2 (nth_error_None ids i)) by exact Hi. apply nth_error_None. rewrite firstn_length. lia.
  - now rewrite (column_length _ _ _ _ Mm Hj), (column_length _ _ _ _ Mw Hj).
  - rewrite (column_length _ _ _ _ Mw Hj). lia.
  - intros i Hi. rewrite (column_length _ _ _ _ Mm Hj) in Hi. rewrite (column_nth _ _ _ _ _ Mm Hj).
    now apply Hc.
Qed.

Lemma text_batch_ok word_level st (seqs : list (list (pystr * nat))) w m :
  seqs <> [] -> (forall s, In s seqs -> 2 <= length s) ->
  batch_matrices unk (map (fun s => map code (map fst s)) seqs) w m ->
  score_text_batch ln net v use_shortlist exclude_unk mark word_level log_scale st (w, map (map fst) seqs, m) =
  foldM (score_text_sequence v mark word_level log_scale) (map item (map (map fst) seqs)) st.
Proof.
  intros Hne H2 (rows & Hlong & Mw & Mm & Hc). unfold score_text_batch.
  set (idss := map (fun s => map code (map fst s)) seqs) in *.
  assert (Hb : forall ids x, In ids idss -> In x ids -> x < num_words v).
  { intros ids x Hi Hx. apply in_map_iff in Hi as (s & <- & _). eapply codes_range; eauto. }
  rewrite (memberships_ok v Hv). cbn [bind].
  assert (Hr : 2 <= rows).
  { destruct seqs as [|s seqs']; [congruence|]. destruct Hlong as [L _].
    specialize (L (map code (map fst s)) (or_introl eq_refl)). rewrite !map_length in L. specialize (H2 s (or_introl eq_refl)). lia. }
  rewrite (score_batch_ok ln net f v use_shortlist exclude_unk Hv Hnet unk Hunk idss w m rows Hlong Mw Mm Hc Hb Hr). cbn [bind].
  f_equal. apply nth_error_ext. intros j.
  assert (Cmb : forall A B (a : list A) (b : list B) i, nth_error (combine a b) i =
     match nth_error a i, nth_error b i with Some x, Some y => Some (x, y) | _, _ => None end).
  { clear. intros A B a. induction a as [|x a IH]; intros [|y b] [|i]; cbn; try reflexivity; [|apply IH].
    destruct (nth_error a i); reflexivity. }
  rewrite !Cmb, !nth_error_map, nth_error_seq, map_length. unfold idss at 1. rewrite nth_error_map.
  destruct (Nat.ltb_spec j (length idss)) as [Hj|Hj].
  - destruct (nth_error seqs j) as [s|] eqn:Es; [|apply nth_error_None in Es; unfold idss in Hj; rewrite map_length in Hj; lia].
    cbn [option_map Nat.add]. unfold item. do 3 f_equal.
    eapply select_column; eauto; [unfold idss; rewrite nth_error_map, Es; reflexivity|].
    apply (proj1 Hlong). apply in_map_iff. exists s. split; [reflexivity|]. eapply nth_error_In; eauto.
  - assert (nth_error seqs j = None) as ->; [|reflexivity]. apply nth_error_None. unfold idss in Hj. now rewrite map_length in Hj.
Qed.

Lemma text_batches_ok word_level (batches : list (list (list (pystr * nat)))) :
  Forall (fun b => b <> []) batches -> (forall b s, In b batches -> In s b -> 2 <= length s) ->
  exists ms, mapM (prepare_scoring_batch view false) batches = Ok ms /\ forall st, foldM (score_text_batch ln net v use_shortlist exclude_unk mark word_level log_scale) ms st =
             foldM (score_text_sequence v mark word_level log_scale) (map item (map (map fst) (concat batches))) st.
Proof.
  induction 1 as [|b batches Hb _ IH]; intros H2.
  - exists []. split; reflexivity.
  - destruct IH as (ms & E & H); [intros b' s Hb'; apply H2; now right|].
    destruct (prepare_ok b Hb) as (w & m & E1 & E2). cbn [mapM]. rewrite E1. cbn [bind]. rewrite E. cbn [bind].
    eexists. split; [reflexivity|]. intros st. cbn [foldM concat].
    rewrite text_batch_ok; [|exact Hb|intros s; apply H2; now left|exact E2].
    rewrite !map_app, foldM_app. destruct (foldM _ _ st); cbn [bind]; [apply H|reflexivity].
Qed.

Lemma score_text_reduce word_level data ls ss batch_size :
  tagged_lines 0 [data] ls -> lines_sequences None ls ss -> 1 <= batch_size ->
  exists fuel0, forall fuel, fuel0 <= fuel ->
  score_text ln net v use_shortlist exclude_unk mark word_level log_scale batch_size fuel data =
  (do '(stats, reports) <- foldM (score_text_sequence v mark word_level log_scale)
                                 (map item (map (map fst) ss)) (zero_stats, []);
   match t_words stats with
   | 0 => Ok (stats, reports, None)
   | _ => match t_probs stats with
          | 0 => Err ZeroDivisionError
          | _ => Ok (stats, reports, Some (ldiv (t_logprob stats) (- qc_of_nat (t_probs stats))%Qc))
          end
   end).
Proof.
  intros Hl Hs Hb. destruct (linear_init [data]) as [s|] eqn:Ei; [|discriminate].
  destruct (linear_epoch_spec [data] s batch_size None ls ss Ei Hb I Hl Hs) as (fuel0 & H).
  exists fuel0. intros fuel Hf. destruct (H fuel Hf) as (batches & E & Hc).
  unfold score_text, unk_id. rewrite Hunk. cbn [bind]. rewrite Ei. cbn [bind]. rewrite E. cbn [bind].
  pose proof (cut_into_concat _ _ _ Hc) as Ec.
  destruct (text_batches_ok word_level batches) as (ms & E1 & E2).
  - destruct (cut_into_sizes _ _ _ Hb Hc) as [_ X]. eapply Forall_impl; [|exact X]. intros a Ha ->. cbn in Ha. lia.
  - intros b q Hb' Hq. assert (Hin : In q ss) by (rewrite <- Ec; apply in_concat; eauto).
    clear -Hs Hin. induction Hs as [|line fid s0 lines rest Hl _ IH]; [destruct Hin|].
    apply in_app_iff in Hin as [Hin|Hin]; [|auto]. inversion Hl; subst.
    apply in_map_iff in Hin as (p & <- & Hp). apply filter_In in Hp as [_ Hp]. rewrite map_length. now apply Nat.leb_le.
  - rewrite E1. cbn [bind]. rewrite E2, Ec. reflexivity.
Qed.
End Merging.

(** ** The text *)
Lemma ldiv_negative_mean x n : 0 < n -> ldiv x (- qc_of_nat n)%Qc = negative_mean x n.
Proof.
  intros Hp. unfold negative_mean, ldiv. destruct x; try reflexivity. f_equal.
  pose proof (qc_of_nat_neq n Hp) as Hn. field. split; [exact Hn|].
  intros E0. apply Hn. rewrite <- (Qcopp_involutive (qc_of_nat n)), E0. reflexivity.
Qed.

Lemma sequences_nonempty ls ss : lines_sequences None ls ss -> forall s, In s (map (map fst) ss) -> s <> [].
Proof.
  intros Hs s Hin. apply in_map_iff in Hin as (q & <- & Hin).
  assert (2 <= length q).
  { clear -Hs Hin. induction Hs as [|line fid s0 lines rest Hl _ IH]; [destruct Hin|].
    apply in_app_iff in Hin as [Hin|Hin]; [|auto]. inversion Hl; subst.
    apply in_map_iff in Hin as (p & <- & Hp). apply filter_In in Hp as [_ Hp]. rewrite map_length. now apply Nat.leb_le. }
  intros E. apply (f_equal (@length _)) in E. rewrite map_length in E. cbn in E. lia.
Qed.

Lemma totals_words mark unk wordss : word_to_id v UNK = Some unk -> mark <> Some OtherMarking ->
  (forall s, In s wordss -> s <> []) -> (t_words (totals (map (result_of mark unk) wordss)) = 0 <-> wordss = []).
Proof.
  intros Hunk Hmark Hne. split; [|now intros ->]. destruct wordss as [|ws wordss]; [reflexivity|].
  cbn [map]. rewrite totals_cons. unfold add_stats; cbn [t_words].
  change (t_words (totals [result_of mark unk ws])) with (length (fst (snd (result_of mark unk ws))) + 0).
  rewrite (result_lengths mark unk Hunk Hmark ws) by (apply Hne; now left). lia.
Qed.

Lemma text_result_ok mark unk wordss reports : word_to_id v UNK = Some unk -> mark <> Some OtherMarking ->
  (forall s, In s wordss -> s <> []) -> let rs := map (result_of mark unk) wordss in
  match t_words (totals rs) with
   | 0 => Ok (totals rs, reports, None)
   | _ => match t_probs (totals rs) with
          | 0 => Err ZeroDivisionError
          | _ => Ok (totals rs, reports, Some (ldiv (t_logprob (totals rs)) (- qc_of_nat (t_probs (totals rs)))%Qc))
          end
   end = text_result rs reports.
Proof.
  intros Hunk Hmark Hne rs. pose proof (totals_words mark unk wordss Hunk Hmark Hne) as H. fold rs in H.
  unfold text_result. destruct (t_words (totals rs)) as [|n].
  - assert (wordss = []) by now apply H. subst wordss. reflexivity.
  - assert (Hrs : rs <> []). { intros E. unfold rs in E. apply map_eq_nil in E. apply H in E. discriminate. }
    destruct rs as [|r rs'] eqn:Er; [congruence|].
    destruct (t_probs (totals (r :: rs'))) as [|k] eqn:Ek; [reflexivity|].
    rewrite ldiv_negative_mean by lia. reflexivity.
Qed.

Lemma result_of_spec mark unk wordss : word_to_id v UNK = Some unk -> mark <> Some OtherMarking ->
  (forall s, In s wordss -> s <> []) ->
  Forall2 (sequence_result ln f v use_shortlist exclude_unk mark) wordss (map (result_of mark unk) wordss).
Proof.
  intros Hunk Hmark Hne. induction wordss as [|ws wordss IH]; constructor.
  - apply result_ok; auto. apply Hne. now left.
  - apply IH. intros s Hs. apply Hne. now right.
Qed.

Lemma score_text_spec mark log_scale data ls ss :
  mark <> Some OtherMarking -> tagged_lines 0 [data] ls -> lines_sequences None ls ss ->
  exists rs, Forall2 (sequence_result ln f v use_shortlist exclude_unk mark) (map (map fst) ss) rs /\
  forall batch_size, 1 <= batch_size -> exists fuel0, forall fuel, fuel0 <= fuel ->
    score_text ln net v use_shortlist exclude_unk mark false log_scale batch_size fuel data = text_result rs [].
Proof.
  intros Hmark Hl Hs. destruct (vocab_specials v UNK Hv) as (unk & Hunk & _); [apply special_cases|].
  pose proof (sequences_nonempty _ _ Hs) as Hne.
  exists (map (result_of mark unk) (map (map fst) ss)). split; [now apply result_of_spec|].
  intros b Hb. destruct (score_text_reduce mark log_scale unk Hunk false data ls ss b Hl Hs Hb) as (fuel0 & H).
  exists fuel0. intros fuel Hf. rewrite (H fuel Hf), text_fold_stats by auto. cbn [bind fst snd].
  replace (add_stats zero_stats (totals (map (result_of mark unk) (map (map fst) ss)))) with (totals (map (result_of mark unk) (map (map fst) ss))).
  2:{ unfold add_stats, zero_stats. cbn [t_logprob t_sentences t_tokens t_words t_probs t_unks t_zeroprobs Nat.add]. rewrite ladd_0_l. now destruct (totals _). }
  now apply text_result_ok.
Qed.

Lemma score_text_reports mark log_scale data ls ss :
  mark <> Some OtherMarking -> tagged_lines 0 [data] ls -> lines_sequences None ls ss ->
  exists rs, Forall2 (sequence_result ln f v use_shortlist exclude_unk mark) (map (map fst) ss) rs /\
  (Forall (fun r => 0 < number is_known (snd (snd r))) rs ->
     exists reports,
       Forall2 (fun r rep => reported v log_scale (fst (snd r)) (snd (snd r)) (fst rep) /\
                  snd rep = negative_mean (lsum (known_scores (snd (snd r)))) (number is_known (snd (snd r)))) rs reports /\
       forall batch_size, 1 <= batch_size -> exists fuel0, forall fuel, fuel0 <= fuel ->
         score_text ln net v use_shortlist exclude_unk mark true log_scale batch_size fuel data = text_result rs reports) /\
  (Exists (fun r => number is_known (snd (snd r)) = 0) rs ->
     forall batch_size, 1 <= batch_size -> exists fuel0, forall fuel, fuel0 <= fuel ->
       score_text ln net v use_shortlist exclude_unk mark true log_scale batch_size fuel data = Err ZeroDivisionError).
Proof.
  intros Hmark Hl Hs. destruct (vocab_specials v UNK Hv) as (unk & Hunk & _); [apply special_cases|].
  pose proof (sequences_nonempty _ _ Hs) as Hne.
  exists (map (result_of mark unk) (map (map fst) ss)). split; [now apply result_of_spec|]. split.
  - intros Hk. destruct (text_fold_report mark log_scale unk Hunk Hmark (map (map fst) ss) Hne) as (reports & R1 & R2).
    { intros ws Hws. rewrite Forall_map, Forall_forall in Hk. now apply Hk. }
    exists reports. split.
    { clear -R1. induction R1 as [|ws r wordss reports H _ IH]; constructor; [exact H|exact IH]. }
    intros b Hb. destruct (score_text_reduce mark log_scale unk Hunk true data ls ss b Hl Hs Hb) as (fuel0 & H).
    exists fuel0. intros fuel Hf. rewrite (H fuel Hf), R2. cbn [bind fst snd app].
    replace (add_stats zero_stats (totals (map (result_of mark unk) (map (map fst) ss)))) with (totals (map (result_of mark unk) (map (map fst) ss))).
    2:{ unfold add_stats, zero_stats. cbn [t_logprob t_sentences t_tokens t_words t_probs t_unks t_zeroprobs Nat.add]. rewrite ladd_0_l. now destruct (totals _). }
    now apply text_result_ok.
  - intros He b Hb. destruct (score_text_reduce mark log_scale unk Hunk true data ls ss b Hl Hs Hb) as (fuel0 & H).
    exists fuel0. intros fuel Hf. rewrite (H fuel Hf), text_fold_report_error; [reflexivity|exact Hunk|exact Hmark|exact Hne|].
    apply Exists_exists in He as (r & Hr & E). apply in_map_iff in Hr as (ws & <- & Hw).
    apply Exists_exists. exists ws. split; [exact Hw|]. unfold has_known. lia.
Qed.

(** ** Lines *)
Lemma ids_of_codes unk words ids : word_to_id v UNK = Some unk -> ids_of v words ids -> ids = map (code unk) words.
Proof.
  intros Hunk (u & Hu & H). assert (u = unk) by congruence. subst u.
  induction H as [|w i words ids H _ IH]; [reflexivity|]. cbn [map]. rewrite IH. f_equal. unfold code.
  destruct H as [->|[-> ->]]; reflexivity.
Qed.
Lemma words_to_ids_codes unk words : word_to_id v UNK = Some unk -> words_to_ids v words = Ok (map (code unk) words).
Proof. intros Hunk. unfold words_to_ids. rewrite Hunk. reflexivity. Qed.

Lemma one_sequence_matrices unk ids : batch_matrices unk [ids] (map (fun x => [x]) ids) (map (fun _ => [1]) ids).
Proof.
  exists (length ids). split; [|split; [|split]].
  - split; [|exists ids; split; [now left|reflexivity]]. intros s [<-|[]]. lia.
  - split; [apply map_length|]. apply Forall_forall. intros r Hr. apply in_map_iff in Hr as (x & <- & _). reflexivity.
  - split; [apply map_length|]. apply Forall_forall. intros r Hr. apply in_map_iff in Hr as (x & <- & _). reflexivity.
  - intros j i t Hj Ht. destruct j as [|[|j]]; try discriminate. injection Hj as <-.
    unfold cell. rewrite !nth_error_map. rewrite (nth_error_nth' ids unk Ht). cbn [option_map nth_error].
    rewrite (proj2 (Nat.ltb_lt _ _) Ht). auto.
Qed.

Lemma score_sequence_ok unk ids l scores :
  word_to_id v UNK = Some unk -> (forall x, In x ids -> x < num_words v) ->
  sequence_scores ln f v use_shortlist exclude_unk ids scores -> included v (tl ids) scores l ->
  score_sequence ln net v use_shortlist exclude_unk ids (map (fun i => fst (kp v i)) ids) (map (fun i => snd (kp v i)) ids) =
  match lsum l with
  | Fin q => if Qclt_le_dec 0%Qc q then Err NumberError else Ok q
  | _ => Err NumberError
  end.
Proof.
  intros Hunk Hb Hs Hl. unfold score_sequence.
  destruct (batch_total unk [ids] _ _ Hunk (one_sequence_matrices unk ids)) as (ks & ps & ls & E1 & E2 & E3).
  { intros i x [<-|[]]. apply Hb. }
  rewrite (memberships_ok v Hv) in E1. injection E1 as <- <-.
  assert (K : mmap (fun i => fst (kp v i)) (map (fun x => [x]) ids) = map (fun x => [x]) (map (fun i => fst (kp v i)) ids)).
  { unfold mmap. rewrite !map_map. reflexivity. }
  assert (P : mmap (fun i => snd (kp v i)) (map (fun x => [x]) ids) = map (fun x => [x]) (map (fun i => snd (kp v i)) ids)).
  { unfold mmap. rewrite !map_map. reflexivity. }
  rewrite K, P in E3. rewrite (map_map (fun x : nat => [x]) (fun _ => [1]) ids). rewrite E3. cbn [bind].
  inversion E2 as [|? l' ? ? H1 H2]; subst. inversion H2; subst.
  assert (l' = l) by (eapply sequence_included_unique; eauto). subst l'.
  cbn [concat]. rewrite app_nil_r. destruct (lsum l); reflexivity.
Qed.

Lemma line_ids_shortlist unk ids : word_to_id v UNK = Some unk -> (forall x, In x ids -> x < num_shortlist_words v) ->
  mapM (py_index (v_w2c v)) ids = Ok (map (fun i => fst (kp v i)) ids) /\
  mapM (get_word_prob v) ids = Ok (map (fun i => snd (kp v i)) ids).
Proof.
  intros Hunk Hs. assert (G : forall i, In i ids -> nth_error (v_w2c v) i = Some (fst (kp v i)) /\ get_word_prob v i = Ok (snd (kp v i))).
  { intros i Hi. destruct (seen_kp v Hv unk Hunk i) as ([[_ E]|[E _]] & H1 & H2).
    - rewrite E in H1, H2. auto.
    - specialize (Hs i Hi). lia. }
  split; apply mapM_ok; intros i Hi; destruct (G i Hi) as [A B]; [unfold py_index; now rewrite A|exact B].
Qed.

Lemma score_line_ok line words ids scores l counters :
  utterance_of line words -> words <> [] -> ids_of v words ids ->
  (forall x, In x ids -> x < num_shortlist_words v) ->
  sequence_scores ln f v use_shortlist exclude_unk ids scores -> included v (tl ids) scores l ->
  exists unk, word_to_id v UNK = Some unk /\
  score_line ln net v use_shortlist exclude_unk counters line =
  match lsum l with
  | Fin q => if Qclt_le_dec 0%Qc q then Err NumberError
             else Ok (Some q, (fst counters + length words, snd counters + number (Nat.eqb unk) ids))
  | _ => Err NumberError
  end.
Proof.
  intros Hu Hne Hi Hsl Hs Hl. destruct (vocab_specials v UNK Hv) as (unk & Hunk & _); [apply special_cases|].
  exists unk. split; [exact Hunk|]. pose proof (ids_of_codes _ _ _ Hunk Hi) as ->.
  unfold score_line. apply utterance_of_iff in Hu. rewrite Hu. cbn [bind].
  destruct words as [|w words]; [congruence|].
  rewrite (words_to_ids_codes unk _ Hunk). cbn [bind]. unfold unk_id. rewrite Hunk. cbn [bind]. cbn zeta.
  destruct (line_ids_shortlist unk _ Hunk Hsl) as [E1 E2]. rewrite E1. cbn [bind]. rewrite E2. cbn [bind].
  erewrite score_sequence_ok; [|exact Hunk|apply codes_range; auto|exact Hs|exact Hl].
  destruct (lsum l); try reflexivity. destruct (Qclt_le_dec 0%Qc q); [reflexivity|]. cbn [bind].
  rewrite map_length. reflexivity.
Qed.

Lemma score_line_oos line words ids counters :
  utterance_of line words -> ids_of v words ids ->
  (exists x, In x ids /\ num_shortlist_words v <= x) ->
  score_line ln net v use_shortlist exclude_unk counters line = Err IndexError.
Proof.
  intros Hu Hi (x & Hx & Hs). destruct (vocab_specials v UNK Hv) as (unk & Hunk & _); [apply special_cases|].
  pose proof (ids_of_codes _ _ _ Hunk Hi) as ->.
  unfold score_line. apply utterance_of_iff in Hu. rewrite Hu. cbn [bind].
  destruct words as [|w words]; [destruct Hx|].
  rewrite (words_to_ids_codes unk _ Hunk). cbn [bind]. unfold unk_id. rewrite Hunk. cbn [bind]. cbn zeta.
  assert (E : mapM (py_index (v_w2c v)) (map (code unk) (w :: words)) = Err IndexError); [|rewrite E; reflexivity].
  revert Hx. generalize (map (code unk) (w :: words)) as ids. induction ids as [|i ids IH]; intros Hx; [destruct Hx|].
  cbn [mapM]. unfold py_index at 1. destruct (nth_error (v_w2c v) i) as [k|] eqn:E; cbn [bind]; [|reflexivity].
  destruct Hx as [->|Hx]; [|rewrite (IH Hx); reflexivity].
  exfalso. assert (x < length (v_w2c v)) by (apply nth_error_Some; congruence). unfold num_shortlist_words in Hs. lia.
Qed.

Lemma score_line_blank line counters : utterance_of line [] ->
  score_line ln net v use_shortlist exclude_unk counters line = Ok (None, counters).
Proof. intros Hu. unfold score_line. apply utterance_of_iff in Hu. rewrite Hu. reflexivity. Qed.
End Text.

(** ** Policies for unknown words *)
Section Policy.
Variable ln : Qc -> Qc.
Variable f : list (nat * nat) -> nat -> nat -> Qc.
Variable v : vocabulary.
Hypothesis Hv : reachable_vocab v.

Lemma policy_excluded us eu ids scores i x :
  sequence_scores ln f v us eu ids scores -> nth_error scores i = Some x ->
  exists id, nth_error ids (S i) = Some id /\ (x = None <-> excluded v us eu id).
Proof.
  intros H Hx. unfold sequence_scores in H.
  assert (G : forall k n l, Forall2 (word_score ln f v us eu ids) (seq k n) l -> forall i x, nth_error l i = Some x ->
     word_score ln f v us eu ids (k + i) x).
  { clear. intros k n. revert k. induction n as [|n IH]; intros k l Hl; inversion Hl as [|? y ? l' H1 H2]; subst; intros [|i] x E; try discriminate.
    - injection E as <-. now rewrite Nat.add_0_r.
    - cbn in E. replace (k + S i) with (S k + i) by lia. eapply IH; eauto. }
  apply (G _ _ _ H) in Hx. cbn [Nat.add] in Hx. inversion Hx as [id E1 E2|id s k p xs a b c E1 E2]; subst.
  - exists id. split; [exact E1|]. split; auto.
  - exists id. split; [exact E1|]. split; [discriminate|contradiction].
Qed.

Lemma policy_same_score us eu eu' ids scores scores' i x y :
  sequence_scores ln f v us eu ids scores -> sequence_scores ln f v us eu' ids scores' ->
  nth_error scores i = Some (Some x) -> nth_error scores' i = Some (Some y) -> x = y.
Proof.
  intros H H' Hx Hy. unfold sequence_scores in H, H'.
  assert (G : forall eu k n l, Forall2 (word_score ln f v us eu ids) (seq k n) l -> forall i x, nth_error l i = Some x ->
     word_score ln f v us eu ids (k + i) x).
  { clear. intros eu k n. revert k. induction n as [|n IH]; intros k l Hl; inversion Hl as [|? y ? l' H1 H2]; subst; intros [|i] x E; try discriminate.
    - injection E as <-. now rewrite Nat.add_0_r.
    - cbn in E. replace (k + S i) with (S k + i) by lia. eapply IH; eauto. }
  apply (G _ _ _ _ H) in Hx. apply (G _ _ _ _ H') in Hy.
  inversion Hx as [|w s k p xs a b c Hw He Hs Hi Ha Hb Hc]; subst.
  inversion Hy as [|w' s' k' p' xs' a' b' c' Hw' He' Hs' Hi' Ha' Hb' Hc']; subst.
  assert (w = w') by congruence. subst w'.
  destruct (vocab_specials v UNK Hv) as (unk & Hunk & _); [apply special_cases|].
  apply (inputs_unique v Hv unk Hunk) in Hi. apply (inputs_unique v Hv unk Hunk) in Hi'. subst xs xs'.
  destruct (seen_unique _ _ _ _ _ _ _ _ Hs Hs') as (_ & <- & <-).
  rewrite (log_of_unique _ _ _ _ Ha Ha'), (log_of_unique _ _ _ _ Hb Hb'), (share_unique _ _ _ _ _ _ Hc Hc'). reflexivity.
Qed.
End Policy.
