(** Lemmas about subword merging (commands/score.py). *)
From Coq Require Import QArith Qcanon.
From Verif Require Import Base ListLib QcLib Strings VocabModel ScoreModel ScoreSpec.
Local Open Scope nat_scope.

Arguments pystr_eq_dec : simpl never.
Arguments BOUNDARY : simpl never.
Arguments UNK : simpl never.

(** ** Sums *)

Lemma ladd_0_l x : ladd (Fin 0%Qc) x = x.
Proof. destruct x; cbn; [now rewrite Qcplus_0_l|reflexivity|reflexivity]. Qed.
Lemma ladd_0_r x : ladd x (Fin 0%Qc) = x.
Proof. destruct x; cbn; [now rewrite Qcplus_0_r|reflexivity|reflexivity]. Qed.
Lemma ladd_comm x y : ladd x y = ladd y x.
Proof. destruct x, y; cbn; try reflexivity. now rewrite Qcplus_comm. Qed.
Lemma ladd_assoc x y z : ladd x (ladd y z) = ladd (ladd x y) z.
Proof. destruct x, y, z; cbn; try reflexivity. now rewrite Qcplus_assoc. Qed.
Lemma lsum_app a b : lsum (a ++ b) = ladd (lsum a) (lsum b).
Proof.
  induction a as [|x a IH]; [now rewrite ladd_0_l|].
  change (ladd x (lsum (a ++ b)) = ladd (ladd x (lsum a)) (lsum b)). now rewrite IH, ladd_assoc.
Qed.

Lemma oadd_assoc x y z : oadd x (oadd y z) = oadd (oadd x y) z.
Proof. destruct x, y, z; cbn [oadd]; try reflexivity. now rewrite ladd_assoc. Qed.
Lemma oadd_0_l x : oadd (Some (Fin 0%Qc)) x = x.
Proof. destruct x; cbn [oadd]; [now rewrite ladd_0_l|reflexivity]. Qed.
Lemma oadd_0_r x : oadd x (Some (Fin 0%Qc)) = x.
Proof. destruct x; cbn [oadd]; [now rewrite ladd_0_r|reflexivity]. Qed.
Lemma total_score_cons x l : total_score (x :: l) = oadd x (total_score l).
Proof. cbn. destruct x, (total_score l); reflexivity. Qed.
Lemma total_score_app a b : total_score (a ++ b) = oadd (total_score a) (total_score b).
Proof.
  induction a as [|x a IH]; [now rewrite oadd_0_l|].
  cbn [app]. now rewrite !total_score_cons, IH, oadd_assoc.
Qed.
Lemma total_score_snoc a x : total_score (a ++ [x]) = oadd (total_score a) x.
Proof. rewrite total_score_app, total_score_cons. change (total_score []) with (Some (Fin 0%Qc)). now rewrite oadd_0_r. Qed.
Lemma total_score_concat gs : total_score (map total_score gs) = total_score (concat gs).
Proof.
  induction gs as [|g gs IH]; [reflexivity|]. cbn [map concat]. now rewrite total_score_cons, IH, total_score_app.
Qed.
Lemma total_score_known l : (forall x, In x l -> exists q, x = Some (Fin q)) ->
  total_score l = Some (lsum (known_scores l)).
Proof.
  induction l as [|x l IH]; intros H; [reflexivity|].
  rewrite total_score_cons, IH by (intros y Hy; apply H; right; exact Hy).
  destruct (H x) as (q & ->); [left; reflexivity|]. reflexivity.
Qed.
Lemma total_score_none l : total_score l = None <-> In None l.
Proof.
  induction l as [|x l IH]; [cbn; split; [discriminate|tauto]|].
  rewrite total_score_cons. cbn [In]. rewrite <- IH. destruct x, (total_score l); cbn.
  all: split; try tauto; try discriminate.
  intros [H|H]; discriminate.
Qed.

(** ** Prefix and affix markers *)

Lemma starts_plus_iff s : starts_plus s = true <-> exists q, s = plus_sign :: q.
Proof.
  destruct s as [|c s]; cbn; [split; [discriminate|intros (q & [=])]|].
  rewrite N.eqb_eq. split; [intros ->; eauto|intros (q & [= -> _]); reflexivity].
Qed.
Lemma ends_plus_iff s : ends_plus s = true <-> exists q, s = q ++ [plus_sign].
Proof.
  unfold ends_plus. rewrite starts_plus_iff. split.
  - intros (q & H). exists (rev q). rewrite <- (rev_involutive s), H. reflexivity.
  - intros (q & ->). rewrite rev_app_distr. cbn. eauto.
Qed.
Lemma joined_iff a b : ends_plus a && starts_plus b = true <-> joined a b.
Proof. unfold joined. now rewrite andb_true_iff, ends_plus_iff, starts_plus_iff. Qed.

(** State of the merging loop: finished groups and the current group. *)
Definition affix_state (first : pystr) (gs : list (list stoken)) (g : list stoken) : merging :=
  mkMerging ([first] :: map (map fst) gs) (map (fun g => total_score (map snd g)) gs)
            (map fst g) (total_score (map snd g)).

Lemma app_cons_inj_last {A} (p : list A) g q gs l :
  gs ++ [g] = p ++ l :: q :: [] -> g = q /\ gs = p ++ [l].
Proof.
  intros H. change (p ++ l :: q :: []) with (p ++ [l] ++ [q]) in H. rewrite app_assoc in H.
  apply app_inj_tail in H as [-> ->]. auto.
Qed.

Lemma snoc_cases {A} (l : list A) : l = [] \/ exists l' a, l = l' ++ [a].
Proof. induction l as [|a l _] using rev_ind; [left; reflexivity|right; eauto]. Qed.

Lemma affix_extend toks gs g a x :
  affix_words toks (gs ++ [g ++ [a]]) -> joined (fst a) (fst x) ->
  affix_words (toks ++ [x]) (gs ++ [g ++ [a; x]]).
Proof.
  intros [H1 H2 H3 H4] Hj. constructor.
  - rewrite concat_app in *. cbn in *. rewrite app_nil_r in *. rewrite <- H1.
    rewrite <- !app_assoc. reflexivity.
  - intros g' Hg. apply in_app_iff in Hg as [Hg|[<-|[]]]; [apply H2, in_app_iff; auto|].
    destruct g; discriminate.
  - intros g' p b c q Hg E. apply in_app_iff in Hg as [Hg|[<-|[]]].
    { eapply H3; [apply in_app_iff; left; exact Hg|exact E]. }
    destruct (snoc_cases q) as [->|(q' & z & ->)].
    + change (g ++ [a; x]) with (g ++ [a] ++ [x]) in E. change (p ++ [b; c]) with (p ++ [b] ++ [c]) in E.
      rewrite !app_assoc in E. apply app_inj_tail in E as [E ->]. apply app_inj_tail in E as [_ ->]. exact Hj.
    + change (g ++ [a; x]) with (g ++ [a] ++ [x]) in E.
      change (p ++ b :: c :: q' ++ [z]) with (p ++ (b :: c :: q') ++ [z]) in E.
      rewrite !app_assoc in E. apply app_inj_tail in E as [E _].
      eapply H3; [apply in_app_iff; right; left; reflexivity|exact E].
  - intros p g1 b c g2 q E. destruct (snoc_cases q) as [->|(q' & z & ->)].
    + apply app_cons_inj_last in E as [E ->].
      apply (H4 p g1 b c (match g with [] => [] | _ :: g' => g' ++ [a] end) []).
      destruct g as [|d g]; cbn in *.
      * injection E as -> _. rewrite <- app_assoc. reflexivity.
      * injection E as -> _. rewrite <- app_assoc. reflexivity.
    + change (p ++ (g1 ++ [b]) :: (c :: g2) :: q' ++ [z]) with (p ++ ((g1 ++ [b]) :: (c :: g2) :: q') ++ [z]) in E.
      rewrite app_assoc in E. apply app_inj_tail in E as [E _]. 
      apply (H4 p g1 b c g2 (q' ++ [g ++ [a]])). rewrite E, <- app_assoc. reflexivity.
Qed.

Lemma affix_new toks gs g a x :
  affix_words toks (gs ++ [g ++ [a]]) -> ~ joined (fst a) (fst x) ->
  affix_words (toks ++ [x]) ((gs ++ [g ++ [a]]) ++ [[x]]).
Proof.
  intros [H1 H2 H3 H4] Hj. constructor.
  - rewrite concat_app, H1. reflexivity.
  - intros g' Hg. apply in_app_iff in Hg as [Hg|[<-|[]]]; [now apply H2|discriminate].
  - intros g' p b c q Hg E. apply in_app_iff in Hg as [Hg|[<-|[]]]; [now apply (H3 g' p b c q)|].
    destruct p as [|? [|? ?]]; discriminate.
  - intros p g1 b c g2 q E. destruct (snoc_cases q) as [->|(q' & z & ->)].
    + apply app_cons_inj_last in E as [E E']. injection E as <- _.
      apply app_inj_tail in E' as [_ E']. apply app_inj_tail in E' as [_ ->]. exact Hj.
    + change (p ++ (g1 ++ [b]) :: (c :: g2) :: q' ++ [z]) with (p ++ ((g1 ++ [b]) :: (c :: g2) :: q') ++ [z]) in E.
      rewrite (app_assoc p) in E. apply app_inj_tail in E as [E _].
      now apply (H4 p g1 b c g2 q').
Qed.

Lemma affix_words_one x : affix_words [x] [[x]].
Proof.
  constructor.
  - reflexivity.
  - intros g [<-|[]]. discriminate.
  - intros g p a b q [<-|[]] E. destruct p as [|? [|? ?]]; discriminate.
  - intros p g1 a b g2 q E. destruct p as [|? [|? ?]]; discriminate.
Qed.

Lemma affix_words_nil : affix_words [] [].
Proof.
  constructor; [reflexivity| | |].
  - intros g [].
  - intros g p a b q [].
  - intros p g1 a b g2 q E. destruct p; discriminate.
Qed.

Lemma affix_fold first toks : forall done gs g a,
  affix_words done (gs ++ [g ++ [a]]) ->
  exists gs' g' a', affix_words (done ++ toks) (gs' ++ [g' ++ [a']]) /\
    fold_left merge_affix toks (affix_state first gs (g ++ [a])) = affix_state first gs' (g' ++ [a']).
Proof.
  induction toks as [|x toks IH]; intros done gs g a H.
  - rewrite app_nil_r. eauto.
  - cbn [fold_left]. unfold merge_affix at 2. destruct x as [w s] eqn:Ex.
    unfold affix_state at 1. cbn [g_word g_words g_logprobs g_logprob].
    rewrite map_app. cbn [map]. rewrite rev_app_distr. cbn [rev app].
    destruct (ends_plus (fst a) && starts_plus w) eqn:E.
    + apply joined_iff in E. rewrite <- Ex. 
      assert (H' : affix_words (done ++ [x]) (gs ++ [(g ++ [a]) ++ [x]])).
      { rewrite <- app_assoc. apply affix_extend; [exact H|]. now rewrite Ex. }
      specialize (IH _ _ _ _ H') as (gs' & g' & a' & A1 & A2).
      exists gs', g', a'. split; [now rewrite <- app_assoc in A1|]. rewrite <- A2. f_equal.
      unfold affix_state. rewrite !map_app. cbn [map]. rewrite (total_score_snoc _ (snd x)). subst x. reflexivity.
    + assert (Hn : ~ joined (fst a) w) by (rewrite <- joined_iff; congruence).
      assert (H' : affix_words (done ++ [x]) ((gs ++ [g ++ [a]]) ++ [[] ++ [x]])).
      { apply affix_new; [exact H|]. now rewrite Ex. }
      specialize (IH _ _ _ _ H') as (gs' & g' & a' & A1 & A2).
      rewrite <- Ex. exists gs', g', a'. split; [now rewrite <- app_assoc in A1|]. rewrite <- A2. f_equal.
      unfold affix_state. rewrite !map_app. cbn [map app]. rewrite !map_app. cbn [map]. subst x. cbn [fst snd].
      rewrite total_score_cons. change (total_score []) with (Some (Fin 0%Qc)). rewrite oadd_0_r. reflexivity.
Qed.

(** ** Word boundary tokens *)

Definition keeps (g : list stoken) : bool := match content g with [] => false | _ => true end.
Definition boundary_state (first : pystr) (gs : list (list stoken)) (g : list stoken) : merging :=
  let kept := filter keeps gs in
  mkMerging ([first] :: map group_word kept) (map (fun g => total_score (map snd g)) kept)
            (group_word g) (total_score (map snd g)).

Lemma content_app a b : content (a ++ b) = content a ++ content b.
Proof. unfold content. now rewrite map_app, filter_app. Qed.
Lemma content_no_boundary g : ~ In BOUNDARY (map fst g) -> content g = map fst g.
Proof.
  intros H. apply filter_all. intros x Hx. destruct (pystr_eq_dec x BOUNDARY) as [->|]; [tauto|reflexivity].
Qed.
Lemma group_word_empty g : group_word g = [] <-> content g = [].
Proof.
  unfold group_word. destruct (in_dec _ _ _) as [H|H]; [|reflexivity].
  split; [discriminate|]. intros E. rewrite E in H. destruct H.
Qed.
Lemma group_word_unk g : In UNK (group_word g) <-> In UNK (content g).
Proof. unfold group_word. destruct (in_dec _ _ _); cbn; tauto. Qed.

Lemma contains_iff l w : contains l w = true <-> In w l.
Proof. unfold contains. destruct (in_dec _ _ _); split; auto; discriminate. Qed.

Lemma boundary_fold first toks : forall gs g,
  ~ In BOUNDARY (map fst g) ->
  exists gs' g', boundary_groups (g ++ toks) (gs' ++ [g']) /\ ~ In BOUNDARY (map fst g') /\
    fold_left merge_boundary toks (boundary_state first gs g) = boundary_state first (gs ++ gs') g'.
Proof.
  induction toks as [|x toks IH]; intros gs g H.
  - rewrite app_nil_r. exists [], g. rewrite app_nil_r. split; [now apply bg_last|]. auto.
  - cbn [fold_left]. unfold merge_boundary at 2. destruct x as [w s].
    destruct (pystr_eq_dec w BOUNDARY) as [->|Hw].
    + destruct (IH (gs ++ [g ++ [(BOUNDARY, s)]]) []) as (gs' & g' & A1 & A2 & A3); [cbn; tauto|].
      exists ((g ++ [(BOUNDARY, s)]) :: gs'), g'. split; [now apply bg_cut|]. split; [exact A2|].
      rewrite <- app_assoc in A3. cbn [app] in A3. etransitivity; [|exact A3]. f_equal.
      assert (Ec : content (g ++ [(BOUNDARY, s)]) = content g).
      { rewrite content_app. cbn. now rewrite app_nil_r. }
      assert (Ek : keeps (g ++ [(BOUNDARY, s)]) = match content g with [] => false | _ => true end).
      { unfold keeps. now rewrite Ec. }
      unfold boundary_state. cbn [g_word g_words g_logprobs g_logprob]. rewrite filter_app. cbn [filter]. rewrite Ek.
      destruct (group_word g) as [|y l] eqn:Eg.
      * apply group_word_empty in Eg. rewrite Eg. rewrite app_nil_r. reflexivity.
      * destruct (content g) eqn:Eg'; [apply group_word_empty in Eg'; congruence|].
        rewrite !map_app. cbn [map]. rewrite map_app. cbn [map snd]. rewrite total_score_snoc.
        replace (group_word (g ++ [(BOUNDARY, s)])) with (y :: l). { reflexivity. }
        rewrite <- Eg. unfold group_word. now rewrite Ec, Eg'.
    + assert (Hg : ~ In BOUNDARY (map fst (g ++ [(w, s)]))).
      { rewrite map_app, in_app_iff. cbn [map fst In]. intros [X|[X|[]]]; [tauto|congruence]. }
      destruct (IH gs (g ++ [(w, s)]) Hg) as (gs' & g' & A1 & A2 & A3).
      exists gs', g'. rewrite <- app_assoc in A1. split; [exact A1|]. split; [exact A2|]. etransitivity; [|exact A3]. f_equal.
      unfold boundary_state. cbn [g_word g_words g_logprobs g_logprob]. rewrite map_app. cbn [map snd]. rewrite total_score_snoc.
      assert (Ec : content (g ++ [(w, s)]) = content g ++ [w]).
      { rewrite content_app. cbn. destruct (pystr_eq_dec w BOUNDARY); [congruence|reflexivity]. }
      unfold pystr_eqb.
      destruct (contains (group_word g) UNK) eqn:Ek; cbn [orb].
      * apply contains_iff, group_word_unk in Ek. f_equal. unfold group_word. rewrite Ec.
        destruct (in_dec _ _ _) as [|Hn]; [reflexivity|]. exfalso. apply Hn, in_app_iff. auto.
      * assert (Hn : ~ In UNK (content g)).
        { intros Hi. apply group_word_unk, contains_iff in Hi. congruence. }
        destruct (pystr_eq_dec w UNK) as [->|Hu].
        -- f_equal. unfold group_word. rewrite Ec. destruct (in_dec _ _ _) as [|Hn']; [reflexivity|].
           exfalso. apply Hn', in_app_iff. right; left; reflexivity.
        -- f_equal. unfold group_word. rewrite Ec.
           destruct (in_dec _ _ (content g)) as [|_]; [tauto|].
           destruct (in_dec _ _ _) as [Hi|_]; [|reflexivity].
           apply in_app_iff in Hi as [Hi|[Hi|[]]]; [tauto|congruence].
Qed.

(** ** Merging *)

Lemma merge_spec mark first rest logprobs :
  mark <> Some OtherMarking -> length logprobs = length rest ->
  exists words scores,
    merge_subwords (first :: rest) logprobs mark = Ok (words, scores) /\
    merged mark first (combine rest logprobs) words scores.
Proof.
  intros Hm Hl. unfold merge_subwords. cbn [length]. rewrite Hl, Nat.eqb_refl.
  set (toks := combine rest logprobs).
  destruct mark as [[| |]|].
  - destruct (boundary_fold first toks [] []) as (gs & g & A1 & A2 & A3); [cbn; tauto|].
    cbn [app] in A1, A3. change (boundary_state first [] []) with (mkMerging [[first]] [] [] (Some (Fin 0%Qc))) in A3.
    rewrite A3. unfold merge_end, boundary_state. cbn [g_word g_words g_logprobs g_logprob].
    assert (E : merged (Some WordBoundary) first toks 
        ([first] :: map group_word (filter keeps (gs ++ [g]))) (map (fun g => total_score (map snd g)) (filter keeps (gs ++ [g])))).
    { eapply merged_boundary; [exact A1|reflexivity]. }
    rewrite filter_app in E. cbn [filter] in E. unfold keeps at 2 4 in E.
    destruct (group_word g) as [|y l] eqn:Eg.
    + apply group_word_empty in Eg. rewrite Eg, app_nil_r in E. eexists _, _. split; [reflexivity|exact E].
    + destruct (content g) eqn:Ec; [apply group_word_empty in Ec; congruence|].
      rewrite !map_app in E. cbn [map] in E. rewrite Eg in E. eexists _, _. split; [reflexivity|exact E].
  - clearbody toks. clear Hl Hm. destruct toks as [|x toks].
    + cbn. eexists _, _. split; [reflexivity|].
      exact (merged_affix first [] [] affix_words_nil).
    + cbn [fold_left]. unfold merge_affix at 2. destruct x as [w s]. cbn [g_word rev g_words g_logprobs].
      destruct (affix_fold first toks [(w, s)] [] [] (w, s) (affix_words_one _)) as (gs & g & a & A1 & A2).
      replace (mkMerging [[first]] [] [w] s) with (affix_state first [] ([] ++ [(w, s)])).
      2:{ unfold affix_state. cbn [map app fst snd]. rewrite total_score_cons.
          change (total_score []) with (Some (Fin 0%Qc)). now rewrite oadd_0_r. }
      rewrite A2. unfold merge_end, affix_state. cbn [g_word g_words g_logprobs g_logprob].
      destruct (map fst (g ++ [a])) as [|y l] eqn:Eg; [destruct g; discriminate|]. rewrite <- Eg.
      eexists _, _. split; [reflexivity|].
      pose proof (merged_affix first _ _ A1) as E. rewrite !map_app in E. exact E.
  - congruence.
  - eexists _, _. split; [reflexivity|]. pose proof (merged_none first toks) as E.
    replace (map (fun w => [w]) (first :: rest)) with ([first] :: map (fun x : stoken => [fst x]) toks).
    2:{ cbn [map]. f_equal. unfold toks. clear -Hl. revert logprobs Hl.
        induction rest as [|r rest IH]; intros [|l logprobs] Hl; try discriminate; [reflexivity|].
        cbn. f_equal. apply IH. cbn in Hl. lia. }
    replace logprobs with (map snd toks); [exact E|].
    unfold toks. clear -Hl. revert logprobs Hl.
    induction rest as [|r rest IH]; intros [|l logprobs] Hl; try discriminate; [reflexivity|].
    cbn. f_equal. apply IH. cbn in Hl. lia.
Qed.

Lemma merge_fails subwords logprobs mark :
  (length subwords <> S (length logprobs) \/ mark = Some OtherMarking) ->
  merge_subwords subwords logprobs mark = Err ValueError.
Proof.
  intros H. unfold merge_subwords. destruct (Nat.eqb_spec (S (length logprobs)) (length subwords)) as [E|E]; [|reflexivity].
  destruct H as [H| ->]; [congruence|]. destruct subwords; [discriminate|reflexivity].
Qed.

(** ** Consequences *)

Lemma merged_lengths mark first toks words scores :
  merged mark first toks words scores -> length words = S (length scores).
Proof. destruct 1; cbn [length]; rewrite !map_length; reflexivity. Qed.

Lemma merged_affix_tokens first toks words scores :
  merged (Some PrefixAffix) first toks words scores -> concat words = first :: map fst toks.
Proof.
  inversion 1 as [|? ? gs [H1 _ _ _]|]; subst. cbn. f_equal. symmetry; apply concat_map.
Qed.
Lemma merged_affix_total first toks words scores :
  merged (Some PrefixAffix) first toks words scores -> total_score scores = total_score (map snd toks).
Proof.
  inversion 1 as [|? ? gs [H1 _ _ _]|]; subst.
  rewrite concat_map, <- total_score_concat, map_map. reflexivity.
Qed.

Lemma boundary_groups_concat toks gs : boundary_groups toks gs -> concat gs = toks.
Proof.
  induction 1 as [g H|g s rest gs H _ IH]; cbn; [apply app_nil_r|]. rewrite IH, <- app_assoc. reflexivity.
Qed.

Lemma boundary_groups_kept toks gs : boundary_groups toks gs -> no_empty_words toks ->
  exists gs' g, gs = gs' ++ [g] /\ (forall g, In g gs' -> keeps g = true) /\ (content g = [] -> g = []).
Proof.
  induction 1 as [g H|g s rest gs H _ IH]; intros Hn.
  - exists [], g. split; [reflexivity|]. split; [intros ? []|]. intros E.
    rewrite content_no_boundary in E by exact H. destruct g; [reflexivity|discriminate].
  - destruct IH as (gs' & g' & -> & A1 & A2).
    { intros p s' q E. destruct (Hn (g ++ (BOUNDARY, s) :: p) s' q) as (p' & w & s'' & E' & Hw).
      { rewrite E, <- app_assoc. reflexivity. }
      destruct (snoc_cases p) as [->|(p1 & [w1 s1] & ->)].
      - change (g ++ [(BOUNDARY, s)] = p' ++ [(w, s'')]) in E'. apply app_inj_tail in E' as [_ E']. congruence.
      - change (g ++ (BOUNDARY, s) :: p1 ++ [(w1, s1)]) with (g ++ ((BOUNDARY, s) :: p1) ++ [(w1, s1)]) in E'.
        rewrite app_assoc in E'. apply app_inj_tail in E' as [_ E']. injection E' as -> ->. eauto. }
    exists ((g ++ [(BOUNDARY, s)]) :: gs'), g'. split; [reflexivity|]. split; [|exact A2].
    intros h [<-|Hh]; [|now apply A1].
    destruct (Hn g s rest eq_refl) as (p' & w & s' & -> & Hw).
    unfold keeps. rewrite !content_app. cbn.
    destruct (pystr_eq_dec w BOUNDARY); [congruence|]. destruct (content p'); reflexivity.
Qed.

Lemma merged_boundary_total first toks words scores :
  merged (Some WordBoundary) first toks words scores -> no_empty_words toks ->
  total_score scores = total_score (map snd toks).
Proof.
  inversion 1 as [| |? ? gs kept Hg ->]; subst. intros Hn.
  destruct (boundary_groups_kept _ _ Hg Hn) as (gs' & g & -> & A1 & A2).
  apply boundary_groups_concat in Hg. subst toks.
  change (fun g => match content g with [] => false | _ :: _ => true end) with keeps.
  rewrite filter_app, (filter_all _ gs' A1). cbn [filter]. unfold keeps.
  rewrite concat_map, <- total_score_concat, !map_app, map_map. cbn [map].
  rewrite !total_score_app. f_equal.
  destruct (content g) eqn:E; [|reflexivity]. rewrite (A2 eq_refl). reflexivity.
Qed.

Lemma merged_boundary_tokens first toks words scores :
  merged (Some WordBoundary) first toks words scores -> ~ In UNK (map fst toks) ->
  concat words = first :: filter (fun w => if pystr_eq_dec w BOUNDARY then false else true) (map fst toks).
Proof.
  inversion 1 as [| |? ? gs kept Hg ->]; subst. intros Hu. cbn. f_equal.
  apply boundary_groups_concat in Hg. subst toks. clear H.
  induction gs as [|g gs IH]; [reflexivity|]. cbn [concat filter map]. rewrite map_app, filter_app.
  cbn [concat] in Hu. rewrite map_app, in_app_iff in Hu.
  fold (content g). rewrite <- IH by tauto.
  destruct (content g) as [|y l] eqn:E; [reflexivity|]. cbn [map concat]. f_equal.
  unfold group_word. destruct (in_dec _ _ _) as [Hi|_]; [|exact E].
  unfold content in Hi. apply filter_In in Hi as [Hi _]. tauto.
Qed.

(** The scores lost with word boundaries: those of groups without content. *)
Lemma merged_boundary_lost first toks words scores :
  merged (Some WordBoundary) first toks words scores ->
  exists gs, boundary_groups toks gs /\
    total_score (map snd toks) =
    oadd (total_score scores)
         (total_score (map (fun g => total_score (map snd g)) (filter (fun g => negb (keeps g)) gs))).
Proof.
  inversion 1 as [| |? ? gs kept Hg ->]; subst. exists gs. split; [exact Hg|].
  apply boundary_groups_concat in Hg. subst toks.
  rewrite concat_map, <- total_score_concat, map_map. clear H.
  change (fun g => match content g with [] => false | _ :: _ => true end) with keeps.
  induction gs as [|g gs IH]; [reflexivity|]. cbn [map filter]. rewrite total_score_cons, IH.
  destruct (keeps g); cbn [negb map]; rewrite total_score_cons; [apply oadd_assoc|].
  set (a := total_score (map snd g)). set (b := total_score _). set (c := total_score _).
  rewrite !oadd_assoc. f_equal. clear. destruct a, b; cbn; try reflexivity. now rewrite ladd_comm.
Qed.

(** Reported totals. *)
Lemma counted_sum_known l : counted_sum l = lsum (known_scores l).
Proof.
  unfold counted_sum, known_scores. apply f_equal, f_equal. apply map_ext.
  intros [[ | | ]|]; reflexivity.
Qed.
Lemma finite_lsum l : (forall x, In x l -> exists q, x = Some (Fin q)) ->
  exists q, total_score l = Some (Fin q).
Proof.
  induction l as [|x l IH]; intros H; [eexists; reflexivity|].
  destruct IH as (q & E); [intros y Hy; apply H; right; exact Hy|].
  destruct (H x) as (p & ->); [left; reflexivity|]. rewrite total_score_cons, E. cbn. eauto.
Qed.

Lemma merged_values_finite mark first toks words scores :
  merged mark first toks words scores -> (forall x, In x (map snd toks) -> exists q, x = Some (Fin q)) ->
  forall x, In x scores -> exists q, x = Some (Fin q).
Proof.
  intros H Hf. destruct H as [first toks|first toks gs [H1 _ _ _]|first toks gs kept Hg ->].
  - exact Hf.
  - intros x Hx. apply in_map_iff in Hx as (g & <- & Hg). apply finite_lsum. intros y Hy. apply Hf.
    subst toks. rewrite concat_map. apply in_concat. exists (map snd g). split; [now apply in_map|exact Hy].
  - intros x Hx. apply in_map_iff in Hx as (g & <- & Hi). apply filter_In in Hi as [Hi _].
    apply finite_lsum. intros y Hy. apply Hf. apply boundary_groups_concat in Hg.
    subst toks. rewrite concat_map. apply in_concat. exists (map snd g). split; [now apply in_map|exact Hy].
Qed.

Lemma merged_reported_total mark first toks words scores :
  merged mark first toks words scores ->
  (mark = Some WordBoundary -> no_empty_words toks) ->
  (forall x, In x (map snd toks) -> exists q, x = Some (Fin q)) ->
  lsum (known_scores scores) = lsum (known_scores (map snd toks)).
Proof.
  intros H Hb Hf.
  assert (E : total_score scores = total_score (map snd toks)).
  { destruct mark as [[| |]|].
    - eapply merged_boundary_total; eauto.
    - eapply merged_affix_total; eauto.
    - inversion H.
    - inversion H; subst; reflexivity. }
  rewrite total_score_known in E by (eapply merged_values_finite; eauto).
  rewrite total_score_known in E by exact Hf. congruence.
Qed.
