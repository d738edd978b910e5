(** Proofs: word counts and bigram statistics of a corpus. *)
From Coq Require Import QArith Qcanon Permutation.
From Verif Require Import Base ListLib QcLib Strings Dict TextModel TextSpec TextProofs
  VocabModel VocabSpec VocabProofs VocabBuild VocabStats.
Local Open Scope nat_scope.

Lemma foldM_concat {S A} (f : S -> A -> result S) ls : forall s,
  foldM (fun s l => foldM f l s) ls s = foldM f (concat ls) s.
Proof.
  induction ls as [|l ls IH]; intros s; cbn [foldM concat]; [reflexivity|].
  rewrite foldM_app. destruct (foldM f l s); cbn [bind]; [apply IH|reflexivity].
Qed.

Lemma occurrences_app w a b : occurrences w (a ++ b) = occurrences w a + occurrences w b.
Proof. induction a as [|x a IH]; cbn; [reflexivity|]. rewrite IH. lia. Qed.

Lemma dict_get_pos_set (d : dict pystr nat) w : (forall x, dict_get pystr_eq_dec d x <> Some 0) ->
  forall x, dict_get pystr_eq_dec (count_word d w) x <> Some 0.
Proof.
  intros H x. unfold count_word. destruct (dict_get pystr_eq_dec d w) as [n|].
  - destruct (pystr_eq_dec w x) as [<-|Hne]; [rewrite dict_get_set_same|rewrite dict_get_set_other by exact Hne; apply H].
    intros E. injection E. lia.
  - destruct (pystr_eq_dec w x) as [<-|Hne]; [rewrite dict_get_set_same; discriminate|].
    rewrite dict_get_set_other by exact Hne. apply H.
Qed.

Lemma count_word_get d w x :
  count_of (count_word d w) x = count_of d x + (if pystr_eq_dec x w then 1 else 0).
Proof.
  unfold count_of, count_word. destruct (dict_get pystr_eq_dec d w) as [n|] eqn:E.
  - destruct (pystr_eq_dec x w) as [->|Hne].
    + now rewrite dict_get_set_same, E.
    + rewrite dict_get_set_other by congruence. lia.
  - destruct (pystr_eq_dec x w) as [->|Hne].
    + now rewrite dict_get_set_same, E.
    + rewrite dict_get_set_other by congruence. lia.
Qed.

Lemma count_words_spec ws : forall d,
  NoDup (map fst d) -> (forall x, dict_get pystr_eq_dec d x <> Some 0) ->
  let d' := fold_left count_word ws d in
  NoDup (map fst d') /\ (forall x, dict_get pystr_eq_dec d' x <> Some 0) /\
  forall x, count_of d' x = count_of d x + occurrences x ws.
Proof.
  induction ws as [|w ws IH]; intros d Hn Hp; cbn [fold_left occurrences].
  - split; [exact Hn|]. split; [exact Hp|]. intros x. lia.
  - destruct (IH (count_word d w)) as (H1 & H2 & H3).
    + unfold count_word. destruct (dict_get pystr_eq_dec d w); now apply dict_set_nodup.
    + now apply dict_get_pos_set.
    + split; [exact H1|]. split; [exact H2|]. intros x. rewrite H3, count_word_get. lia.
Qed.

Lemma count_lines_spec lines us : Forall2 utterance_of lines us -> forall d,
  NoDup (map fst d) -> (forall x, dict_get pystr_eq_dec d x <> Some 0) ->
  exists d', foldM count_line lines d = Ok d' /\
    NoDup (map fst d') /\ (forall x, dict_get pystr_eq_dec d' x <> Some 0) /\
    forall x, count_of d' x = count_of d x + occurrences x (concat us).
Proof.
  induction 1 as [|line u lines us Hl H IH]; intros d Hn Hp; cbn [foldM concat].
  - exists d. split; [reflexivity|]. split; [exact Hn|]. split; [exact Hp|]. cbn. lia.
  - unfold count_line at 1. apply utterance_of_iff in Hl. rewrite Hl. cbn [bind].
    destruct (count_words_spec u d Hn Hp) as (H1 & H2 & H3).
    destruct (IH _ H1 H2) as (d' & E & H4 & H5 & H6). exists d'. split; [exact E|].
    split; [exact H4|]. split; [exact H5|]. intros x. rewrite H6, H3, occurrences_app. lia.
Qed.

Lemma word_counts_spec files us : utterances files us ->
  exists d, compute_word_counts files = Ok d /\ NoDup (map fst d) /\
    forall w, dict_get pystr_eq_dec d w =
              match occurrences w (concat us) with 0 => None | n => Some n end.
Proof.
  intros H. unfold compute_word_counts. rewrite foldM_concat.
  destruct (count_lines_spec _ _ H [] (NoDup_nil _)) as (d & E & Hn & Hp & Hc); [discriminate|].
  exists d. split; [exact E|]. split; [exact Hn|]. intros w. specialize (Hc w). specialize (Hp w).
  unfold count_of in Hc. cbn [dict_get Nat.add] in Hc.
  destruct (dict_get pystr_eq_dec d w) as [n|].
  - rewrite <- Hc. destruct n; [congruence|reflexivity].
  - now rewrite <- Hc.
Qed.

Lemma utterances_exist files : exists us, utterances files us.
Proof.
  unfold utterances. induction (concat files) as [|line lines (us & IH)]; [exists []; constructor|].
  destruct (utterance_spec line) as [[Hb E]|(toks & mid & Hb & Ht & Hne & Hf & E)];
    apply utterance_of_iff in E; eexists; constructor; eauto.
Qed.

(** ** Bigram statistics *)

Lemma unigram_loop l : forall u, (forall i, In i l -> i < length u) ->
  let u' := fold_left (fun u i => upd u i (nth i u 0 + 1)) l u in
  length u' = length u /\ forall i, nth i u' 0 = nth i u 0 + occurs i l.
Proof.
  induction l as [|a l IH]; intros u Hu; cbn [fold_left].
  - split; [reflexivity|]. intros i. unfold occurs. cbn. lia.
  - destruct (IH (upd u a (nth a u 0 + 1))) as [H1 H2].
    { intros i Hi. rewrite upd_length. apply Hu. now right. }
    rewrite upd_length in H1. split; [exact H1|]. intros i. rewrite H2, nth_upd.
    unfold occurs. cbn [count_occ]. assert (Ha : a < length u) by (apply Hu; now left).
    rewrite (proj2 (Nat.ltb_lt _ _) Ha), andb_true_r.
    destruct (Nat.eq_dec a i) as [->|Hne].
    + rewrite Nat.eqb_refl. lia.
    + rewrite (proj2 (Nat.eqb_neq i a)) by congruence. lia.
Qed.

Lemma bigram_loop ps : forall b i j,
  bigram_get (fold_left (fun b lr => dict_set pair_eq_dec b lr (bigram_get b (fst lr) (snd lr) + 1)) ps b) i j
  = bigram_get b i j + count_occ pair_eq_dec ps (i, j).
Proof.
  induction ps as [|[x y] ps IH]; intros b i j; cbn [fold_left count_occ]; [lia|].
  rewrite IH. cbn [fst snd]. destruct (pair_eq_dec (x, y) (i, j)) as [E|Hne].
  - injection E as -> ->. unfold bigram_get at 1. rewrite dict_get_set_same. lia.
  - unfold bigram_get at 1. rewrite dict_get_set_other by exact Hne. fold (bigram_get b i j). lia.
Qed.

Lemma adjacent_pairs i j l :
  count_occ pair_eq_dec (combine (removelast l) (tl l)) (i, j) = adjacent i j l.
Proof.
  induction l as [|a l IH]; [reflexivity|]. destruct l as [|b l]; [reflexivity|].
  change (removelast (a :: b :: l)) with (a :: removelast (b :: l)).
  change (tl (a :: b :: l)) with (b :: l).
  assert (E : combine (a :: removelast (b :: l)) (b :: l) = (a, b) :: combine (removelast (b :: l)) (tl (b :: l))) by reflexivity.
  rewrite E. cbn [count_occ].
  change (adjacent i j (a :: b :: l)) with ((if (a =? i) && (b =? j) then 1 else 0) + adjacent i j (b :: l)).
  rewrite <- IH. destruct (pair_eq_dec (a, b) (i, j)) as [E2|Hne].
  - injection E2 as -> ->. rewrite !Nat.eqb_refl. reflexivity.
  - destruct (a =? i) eqn:E1, (b =? j) eqn:E2; cbn [andb]; try reflexivity.
    apply Nat.eqb_eq in E1, E2. subst. congruence.
Qed.

Lemma bigram_statistics_spec v files us ids :
  reachable_vocab v -> utterances files us -> id_lists v us ids ->
  exists s, compute_bigram_statistics v files = Ok s /\
    length (bs_unigram s) = num_words v /\
    (forall i, nth i (bs_unigram s) 0 = total (occurs i) ids) /\
    (forall i j, bigram_get (bs_bigram s) i j = total (adjacent i j) ids).
Proof.
  intros Hr Hu Hi. destruct (vocab_specials v UNK Hr) as (unk & Eu & Hlt); [apply special_cases|].
  pose proof Hr as Hr'. apply reachable_wf in Hr' as (f & n & H).
  unfold compute_bigram_statistics. rewrite Eu, foldM_concat.
  assert (G : forall lines us ids, Forall2 utterance_of lines us -> id_lists v us ids -> forall s,
    length (bs_unigram s) = num_words v ->
    exists s', foldM (bigram_line v unk) lines s = Ok s' /\
      length (bs_unigram s') = num_words v /\
      (forall i, nth i (bs_unigram s') 0 = nth i (bs_unigram s) 0 + total (occurs i) ids) /\
      (forall i j, bigram_get (bs_bigram s') i j = bigram_get (bs_bigram s) i j + total (adjacent i j) ids)).
  { clear Hu Hi us ids. intros lines us ids Hu. revert ids.
    induction Hu as [|line u lines us Hl Hu IH]; intros ids Hi s Hs.
    - inversion Hi; subst. exists s. cbn [foldM]. split; [reflexivity|]. split; [exact Hs|].
      unfold total. cbn. split; intros; lia.
    - inversion Hi as [|? l ? ids' Hw Hi']; subst. cbn [foldM]. unfold bigram_line at 1.
      apply utterance_of_iff in Hl. rewrite Hl. cbn [bind].
      assert (El : sequence_ids v unk u = l).
      { unfold words_to_ids in Hw. rewrite Eu in Hw. injection Hw as <-. reflexivity. }
      rewrite El. destruct (unigram_loop l (bs_unigram s)) as [U1 U2].
      { intros i Hin. rewrite Hs. subst l. unfold sequence_ids in Hin. apply in_map_iff in Hin as (w & Ei & _).
        destruct (word_to_id v w) as [i'|] eqn:Ew.
        - apply word_to_id_iff in Ew; [|apply H]. subst i'. unfold num_words. apply nth_error_Some. congruence.
        - subst i. pose proof (wf_short _ _ _ H). unfold num_shortlist_words, num_words in *. lia. }
      match goal with |- exists s', foldM _ _ ?s1 = _ /\ _ => destruct (IH ids' Hi' s1) as (s' & E & L & A & B) end.
      { cbn [bs_unigram]. rewrite U1. exact Hs. }
      exists s'. split; [exact E|]. split; [exact L|]. split.
      + intros i. rewrite A. cbn [bs_unigram]. rewrite U2. unfold total. cbn [map]. unfold list_sum; cbn [fold_right]. lia.
      + intros i j. rewrite B. cbn [bs_bigram]. rewrite bigram_loop, adjacent_pairs.
        unfold total. cbn [map]. unfold list_sum; cbn [fold_right]. lia. }
  destruct (G _ _ _ Hu Hi (mkBigram (repeat 0 (length (v_id_to_word v))) [])) as (s & E & L & A & B).
  { apply repeat_length. }
  exists s. split; [exact E|]. split; [exact L|]. cbn [bs_unigram bs_bigram] in A, B. split.
  - intros i. rewrite A. cbn [Nat.add].
    destruct (Nat.lt_ge_cases i (length (v_id_to_word v))) as [Hl|Hl].
    + rewrite nth_repeat. lia.
    + rewrite nth_overflow by (now rewrite repeat_length). lia.
  - intros i j. rewrite B. reflexivity.
Qed.

(** Row and column sums. *)
Lemma adjacent_row n i l : (forall x, In x l -> x < n) ->
  sum_upto n (fun j => adjacent i j l) + ends_in i l = occurs i l.
Proof.
  unfold sum_upto, occurs, ends_in.
  assert (Z : forall m, list_sum (map (fun _ => 0) (seq 0 m)) = 0).
  { intros m. generalize 0 at 2. induction m as [|m IH]; intros s; cbn [seq map]; [reflexivity|]. apply (IH (S s)). }
  induction l as [|a l IH]; intros Hl; [cbn [rev adjacent count_occ]; now rewrite Z|].
  destruct l as [|b l].
  - cbn [rev app adjacent count_occ]. rewrite Z. destruct (Nat.eq_dec a i) as [->|Hne].
    + now rewrite Nat.eqb_refl.
    + now rewrite (proj2 (Nat.eqb_neq a i) Hne).
  - assert (Hr : exists x r, rev (b :: l) = x :: r).
    { destruct (rev (b :: l)) as [|x r] eqn:E; [|eauto].
      apply (f_equal (@rev nat)) in E. rewrite rev_involutive in E. discriminate. }
    destruct Hr as (x & r & Er).
    assert (Er2 : rev (a :: b :: l) = x :: (r ++ [a])) by (change (rev (a :: b :: l)) with (rev (b :: l) ++ [a]); now rewrite Er).
    rewrite Er2. rewrite Er in IH. specialize (IH (fun y Hy => Hl y (or_intror Hy))).
    cbn [count_occ] in *.
    assert (Hb : b < n) by (apply Hl; right; now left).
    assert (Es : list_sum (map (fun j => adjacent i j (a :: b :: l)) (seq 0 n)) =
                 (if Nat.eq_dec a i then 1 else 0) + list_sum (map (fun j => adjacent i j (b :: l)) (seq 0 n))).
    { clear IH Er Er2 Hl. revert Hb. induction n as [|n IHn]; intros Hb; [lia|].
      rewrite seq_S, !map_app, !list_sum_app. cbn [map Nat.add]. unfold list_sum at 2 4; cbn [fold_right].
      change (adjacent i n (a :: b :: l)) with ((if (a =? i) && (b =? n) then 1 else 0) + adjacent i n (b :: l)).
      destruct (Nat.eq_dec b n) as [->|Hne].
      - rewrite Nat.eqb_refl, andb_true_r.
        assert (Ez : map (fun j => adjacent i j (a :: n :: l)) (seq 0 n) = map (fun j => adjacent i j (n :: l)) (seq 0 n)).
        { apply map_ext_in. intros j Hj. apply in_seq in Hj.
          change (adjacent i j (a :: n :: l)) with ((if (a =? i) && (n =? j) then 1 else 0) + adjacent i j (n :: l)).
          rewrite (proj2 (Nat.eqb_neq n j)) by lia. rewrite andb_false_r. reflexivity. }
        rewrite Ez. destruct (Nat.eq_dec a i) as [->|Hna].
        + rewrite Nat.eqb_refl. lia.
        + rewrite (proj2 (Nat.eqb_neq a i) Hna). lia.
      - rewrite IHn by lia. rewrite (proj2 (Nat.eqb_neq b n) Hne), andb_false_r. lia. }
    rewrite Es. destruct (Nat.eq_dec a i); lia.
Qed.

Lemma sum_upto_add n f g : sum_upto n (fun j => f j + g j) = sum_upto n f + sum_upto n g.
Proof.
  unfold sum_upto. generalize 0. induction n as [|n IH]; intros s; cbn [seq map]; [reflexivity|].
  unfold list_sum in *; cbn [fold_right]. rewrite IH. lia.
Qed.

Lemma sum_total n (F : nat -> list nat -> nat) ls :
  sum_upto n (fun j => total (F j) ls) = total (fun l => sum_upto n (fun j => F j l)) ls.
Proof.
  induction ls as [|l ls IH].
  - unfold total, sum_upto. cbn [map]. generalize 0. induction n as [|n IHn]; intros s; cbn [seq map]; [reflexivity|].
    unfold list_sum in *; cbn [fold_right]. now rewrite IHn.
  - change (total (fun l => sum_upto n (fun j => F j l)) (l :: ls)) with
      (sum_upto n (fun j => F j l) + total (fun l => sum_upto n (fun j => F j l)) ls).
    rewrite <- IH, <- sum_upto_add. reflexivity.
Qed.

Lemma total_row n i ls : (forall l x, In l ls -> In x l -> x < n) ->
  sum_upto n (fun j => total (adjacent i j) ls) + total (ends_in i) ls = total (occurs i) ls.
Proof.
  intros H. rewrite sum_total. induction ls as [|l ls IH]; [reflexivity|].
  unfold total in *; cbn [map]; unfold list_sum in *; cbn [fold_right].
  rewrite <- (adjacent_row n i l) by (intros x Hx; apply (H l); [now left|exact Hx]).
  rewrite <- IH by (intros l' x Hl' Hx; apply (H l'); [now right|exact Hx]). lia.
Qed.

Lemma adjacent_col n j l : (forall x, In x l -> x < n) ->
  sum_upto n (fun i => adjacent i j l) + begins_with j l = occurs j l.
Proof.
  unfold sum_upto, occurs.
  assert (Z : forall m, list_sum (map (fun _ => 0) (seq 0 m)) = 0).
  { intros m. generalize 0 at 2. induction m as [|m IH]; intros s; cbn [seq map]; [reflexivity|]. apply (IH (S s)). }
  induction l as [|a l IH]; intros Hl; [cbn; now rewrite Z|].
  destruct l as [|b l].
  - cbn [begins_with adjacent count_occ]. rewrite Z. destruct (Nat.eq_dec a j) as [->|Hne].
    + now rewrite Nat.eqb_refl.
    + now rewrite (proj2 (Nat.eqb_neq a j) Hne).
  - specialize (IH (fun y Hy => Hl y (or_intror Hy))).
    assert (Ha : a < n) by (apply Hl; now left).
    assert (Es : list_sum (map (fun i => adjacent i j (a :: b :: l)) (seq 0 n)) =
                 (if b =? j then 1 else 0) + list_sum (map (fun i => adjacent i j (b :: l)) (seq 0 n))).
    { clear IH Hl. revert Ha. induction n as [|n IHn]; intros Ha; [lia|].
      rewrite seq_S, !map_app, !list_sum_app. cbn [map Nat.add]. unfold list_sum at 2 4; cbn [fold_right].
      change (adjacent n j (a :: b :: l)) with ((if (a =? n) && (b =? j) then 1 else 0) + adjacent n j (b :: l)).
      destruct (Nat.eq_dec a n) as [->|Hne].
      - rewrite Nat.eqb_refl. cbn [andb].
        assert (Ez : map (fun i => adjacent i j (n :: b :: l)) (seq 0 n) = map (fun i => adjacent i j (b :: l)) (seq 0 n)).
        { apply map_ext_in. intros i Hi. apply in_seq in Hi.
          change (adjacent i j (n :: b :: l)) with ((if (n =? i) && (b =? j) then 1 else 0) + adjacent i j (b :: l)).
          rewrite (proj2 (Nat.eqb_neq n i)) by lia. reflexivity. }
        rewrite Ez. lia.
      - rewrite IHn by lia. rewrite (proj2 (Nat.eqb_neq a n) Hne). cbn [andb]. lia. }
    rewrite Es. cbn [begins_with] in *. change (count_occ Nat.eq_dec (a :: b :: l) j) with
      (if Nat.eq_dec a j then S (count_occ Nat.eq_dec (b :: l) j) else count_occ Nat.eq_dec (b :: l) j).
    destruct (Nat.eq_dec a j) as [->|Hne].
    + rewrite Nat.eqb_refl. lia.
    + rewrite (proj2 (Nat.eqb_neq a j) Hne). lia.
Qed.

Lemma total_col n j ls : (forall l x, In l ls -> In x l -> x < n) ->
  sum_upto n (fun i => total (adjacent i j) ls) + total (begins_with j) ls = total (occurs j) ls.
Proof.
  intros H. rewrite (sum_total n (fun i l => adjacent i j l)). induction ls as [|l ls IH]; [reflexivity|].
  unfold total in *; cbn [map]; unfold list_sum in *; cbn [fold_right].
  rewrite <- (adjacent_col n j l) by (intros x Hx; apply (H l); [now left|exact Hx]).
  rewrite <- IH by (intros l' x Hl' Hx; apply (H l'); [now right|exact Hx]). lia.
Qed.

Lemma id_lists_bound v us ids : reachable_vocab v -> id_lists v us ids ->
  forall l x, In l ids -> In x l -> x < num_words v.
Proof.
  intros Hr H. induction H as [|u l us ids Hw H IH]; intros l' x Hl Hx; [destruct Hl|].
  destruct Hl as [<-|Hl]; [|eauto].
  destruct (vocab_specials v UNK Hr) as (unk & Eu & Hlt); [apply special_cases|].
  apply reachable_wf in Hr as (f & n & Hwf). unfold words_to_ids in Hw. rewrite Eu in Hw. injection Hw as <-.
  apply in_map_iff in Hx as (w & Ei & _). destruct (word_to_id v w) as [i'|] eqn:Ew.
  - apply word_to_id_iff in Ew; [|apply Hwf]. subst i'. unfold num_words. apply nth_error_Some. congruence.
  - subst x. pose proof (wf_short _ _ _ Hwf). unfold num_shortlist_words, num_words in *. lia.
Qed.

Lemma statistics_sums v files us ids s :
  reachable_vocab v -> utterances files us -> id_lists v us ids ->
  compute_bigram_statistics v files = Ok s ->
  (forall i, sum_upto (num_words v) (fun j => bigram_get (bs_bigram s) i j) + total (ends_in i) ids
             = nth i (bs_unigram s) 0) /\
  (forall j, sum_upto (num_words v) (fun i => bigram_get (bs_bigram s) i j) + total (begins_with j) ids
             = nth j (bs_unigram s) 0).
Proof.
  intros Hr Hu Hi E. destruct (bigram_statistics_spec v files us ids Hr Hu Hi) as (s' & E' & L & A & B).
  rewrite E in E'. injection E' as <-. pose proof (id_lists_bound v us ids Hr Hi) as Hb. split.
  - intros i. rewrite A, <- (total_row (num_words v) i ids Hb). f_equal. unfold sum_upto. f_equal.
    apply map_ext. intros j. apply B.
  - intros j. rewrite A, <- (total_col (num_words v) j ids Hb). f_equal. unfold sum_upto. f_equal.
    apply map_ext. intros i. apply B.
Qed.
