(** Lattice decoding fails only for infinite scores, and what pruning does. *)
From Coq Require Import QArith Qcanon Sorting.Sorted Sorting.Permutation.
From Verif Require Import Base ListLib BaseLib QcLib Strings VocabModel VocabSpec VocabProofs VocabBuild VocabStats
     ScoreModel ScoreSpec ScoreProofs LatticeModel LatticeSpec SortProofs GraphProofs SlfProofs DecoderModel DecoderSpec
     DecoderProofs PruneProofs DecodeProofs.
Local Open Scope nat_scope.

Definition ok_or_number {A} (r : result A) (P : A -> Prop) : Prop :=
  (exists x, r = Ok x /\ P x) \/ r = Err NumberError.

Lemma mapM_total {A B} (g : A -> result B) l :
  (forall x, In x l -> ok_or_number (g x) (fun _ => True)) ->
  ok_or_number (mapM g l) (fun ys => length ys = length l).
Proof.
  induction l as [|x l IH]; intros H; cbn [mapM]; [left; exists []; auto|].
  destruct (H x (or_introl eq_refl)) as [(y & -> & _)| ->]; cbn [bind]; [|right; reflexivity].
  destruct IH as [(ys & -> & L)| ->]; cbn [bind]; [intros; apply H; now right| |right; reflexivity].
  left. exists (y :: ys). cbn. auto.
Qed.

Lemma first_position_spec {A} (g : A -> bool) l : forall i,
  match first_position g l i with
  | Some p => i <= p < i + length l /\ (exists x, nth_error l (p - i) = Some x /\ g x = true) /\
              forall c x, c < p - i -> nth_error l c = Some x -> g x = false
  | None => forall x, In x l -> g x = false
  end.
Proof.
  induction l as [|x l IH]; intros i; cbn [first_position]; [intros ? []|].
  destruct (g x) eqn:E.
  - split; [cbn; lia|]. rewrite Nat.sub_diag. split; [exists x; auto|lia].
  - specialize (IH (S i)). destruct (first_position g l (S i)) as [p|].
    + destruct IH as (L & (y & H1 & H2) & H3). split; [cbn; lia|]. replace (p - i) with (S (p - S i)) by lia.
      split; [exists y; auto|]. intros [|c] z Hc; cbn [nth_error]; [congruence|]. apply H3. lia.
    + intros y [<-|Hy]; auto.
Qed.

Lemma nth_error_skipn {A} (l : list A) : forall b c, nth_error (skipn b l) c = nth_error l (b + c).
Proof. induction l as [|x l IH]; intros [|b] c; cbn [skipn nth_error plus]; auto. now destruct c. Qed.

Lemma time_begin_spec nodes sorted i b :
  time_begin nodes sorted i = Ok b -> b < length sorted -> beam_begins nodes sorted i b.
Proof.
  unfold time_begin, beam_begins. intros E L. split; [exact L|]. destruct (node_time nodes i) as [t|].
  - match type of E with match first_position ?g _ _ with _ => _ end = _ =>
      pose proof (first_position_spec g sorted 0) as H; set (p := g) in * end.
    destruct (first_position p sorted 0) as [b'|].
    + injection E as ->. rewrite Nat.sub_0_r in H. destruct H as (_ & (j & H1 & H2) & H3). unfold p in H2, H3. split.
      * right. exists j. destruct (node_time nodes j) as [x|]; [|discriminate]. exists x. split; [exact H1|]. split; [reflexivity|].
        destruct (Qclt_le_dec x t); [discriminate|assumption].
      * intros c k x Hc Hk Hx. specialize (H3 c k Hc Hk). cbv beta in H3. rewrite Hx in H3.
        destruct (Qclt_le_dec x t); [assumption|discriminate].
    + injection E as <-. split; [now left|]. intros c k x Hc Hk Hx. specialize (H k (nth_error_In _ _ Hk)).
      unfold p in H. rewrite Hx in H. destruct (Qclt_le_dec x t); [assumption|discriminate].
  - pose proof (first_position_spec (Nat.eqb i) sorted 0) as H.
    destruct (first_position _ _ _) as [b'|]; [|discriminate]. injection E as ->. rewrite Nat.sub_0_r in H.
    destruct H as (_ & (j & H1 & H2) & H3). apply Nat.eqb_eq in H2. subst j. split; [exact H1|].
    intros c Hc Hn. specialize (H3 c i Hc Hn). rewrite Nat.eqb_refl in H3. discriminate.
Qed.

Lemma time_begin_In nodes sorted i c : nth_error sorted c = Some i ->
  exists b, time_begin nodes sorted i = Ok b /\ b <= c.
Proof.
  intros Hc. assert (Lc : c < length sorted) by (apply nth_error_Some; congruence).
  unfold time_begin. destruct (node_time nodes i) as [t|] eqn:Et.
  - match goal with |- context [first_position ?g _ _] =>
      pose proof (first_position_spec g sorted 0) as H; set (p := g) in * end.
    assert (Hp : p i = true).
    { unfold p. rewrite Et. destruct (Qclt_le_dec t t) as [L|L]; [|reflexivity].
      exfalso. exact (Qclt_not_eq _ _ L eq_refl). }
    destruct (first_position p sorted 0) as [b|].
    + exists b. split; [reflexivity|]. destruct H as (_ & _ & H3). rewrite Nat.sub_0_r in H3.
      destruct (Nat.le_gt_cases b c) as [L|L]; [exact L|]. specialize (H3 c i L Hc). congruence.
    + specialize (H i (nth_error_In _ _ Hc)). congruence.
  - pose proof (first_position_spec (Nat.eqb i) sorted 0) as H.
    destruct (first_position _ _ _) as [b|].
    + exists b. split; [reflexivity|]. destruct H as (_ & _ & H3). rewrite Nat.sub_0_r in H3.
      destruct (Nat.le_gt_cases b c) as [L|L]; [exact L|]. specialize (H3 c i L Hc). rewrite Nat.eqb_refl in H3. discriminate.
    + specialize (H i (nth_error_In _ _ Hc)). rewrite Nat.eqb_refl in H. discriminate.
Qed.

Definition max_step (m x : option Qc) : option Qc :=
  match m, x with
  | None, _ => x
  | Some _, None => m
  | Some a, Some b => if Qclt_le_dec a b then Some b else m
  end.
Lemma fold_max l : forall m, match fold_left max_step l m with
  | None => m = None /\ forall x, In x l -> x = None
  | Some y => (m = Some y \/ In (Some y) l) /\ (forall x, m = Some x \/ In (Some x) l -> (x <= y)%Qc)
  end.
Proof.
  induction l as [|x l IH]; intros m; cbn [fold_left].
  - destruct m as [y|]; [|split; [reflexivity|intros ? []]].
    split; [now left|]. intros x [[= <-]|[]]. apply Qcle_refl.
  - specialize (IH (max_step m x)). destruct (fold_left max_step l (max_step m x)) as [y|].
    + destruct IH as [H1 H2]. unfold max_step in *. destruct m as [a|], x as [b|].
      * destruct (Qclt_le_dec a b) as [L|L].
        -- split; [destruct H1 as [[= <-]|H1]; cbn; auto|]. intros z [[= <-]|[[= <-]|Hz]].
           ++ eapply Qcle_trans; [apply Qclt_le_weak; exact L|]. auto.
           ++ auto.
           ++ auto.
        -- split; [destruct H1 as [[= <-]|H1]; cbn; auto|]. intros z [[= <-]|[[= <-]|Hz]]; [auto| |auto].
           eapply Qcle_trans; [exact L|auto].
      * split; [destruct H1; cbn; auto|]. intros z [Hz|[Hz|Hz]]; [auto|discriminate|auto].
      * split; [destruct H1; cbn; auto|]. intros z [Hz|[Hz|Hz]]; [discriminate|auto|auto].
      * split; [destruct H1; cbn; auto|]. intros z [Hz|[Hz|Hz]]; [discriminate|discriminate|auto].
    + destruct IH as [H1 H2]. unfold max_step in H1. destruct m as [a|], x as [b|]; try discriminate.
      * destruct (Qclt_le_dec a b); discriminate.
      * split; [reflexivity|]. intros z [<-|Hz]; auto.
Qed.
Lemma max_best_spec l m : max_best l = Ok m -> In (Some m) l /\ forall x, In (Some x) l -> (x <= m)%Qc.
Proof.
  unfold max_best. change (fun m x => match m with _ => _ end) with max_step.
  pose proof (fold_max l None) as H. destruct (fold_left _ l None) as [y|]; [|discriminate].
  intros [= ->]. destruct H as [[H|H] H2]; [discriminate|]. auto.
Qed.
Lemma max_best_ok l x : In (Some x) l -> exists m, max_best l = Ok m.
Proof.
  intros Hx. unfold max_best. change (fun m x => match m with _ => _ end) with max_step.
  pose proof (fold_max l None) as H. destruct (fold_left _ l None) as [y|]; [eauto|].
  destruct H as [_ H]. specialize (H _ Hx). discriminate.
Qed.

Section Total.
Variable state : Type.
Variable o : options.
Notation total := (tk_total state).

(** The tokens that pruning a node keeps. *)
Lemma prune_exact nodes sorted i st st' :
  prune state o nodes sorted i st = Ok st' ->
  exists tokens recombined kept gone divider,
    nth_error (d_tokens _ st) i = Some tokens /\
    nth_error (d_tokens _ st') i = Some kept /\
    sorted_recombined state tokens (d_recomb _ st) = (recombined, d_recomb _ st') /\
    recombined = kept ++ gone /\ limit_divider o (length sorted) = Ok divider /\
    (forall m, o_max_tokens o = Some m -> let limit := Z.max (m / divider) (abs_min_max_tokens o) in
       (0 <= limit)%Z -> (Z.of_nat (length kept) <= limit)%Z) /\
    match o_beam o with
    | None => (gone = [] \/ exists m, o_max_tokens o = Some m /\
                let limit := Z.max (m / divider) (abs_min_max_tokens o) in
                ((0 <= limit)%Z -> Z.of_nat (length kept) = limit))
    | Some beam => exists b best threshold,
        beam_begins nodes sorted i b /\ is_best_from (d_best _ st) sorted b best /\
        (let width := (beam / Q2Qc (inject_Z divider))%Qc in
         threshold = (best - (if Qclt_le_dec width (abs_min_beam o) then abs_min_beam o else width))%Qc) /\
        (forall t, In t (tl kept) -> (threshold < total t)%Qc) /\
        forall t, In t gone -> (total t <= threshold)%Qc \/
          exists m, o_max_tokens o = Some m /\
            let limit := Z.max (m / divider) (abs_min_max_tokens o) in
            ((0 <= limit)%Z -> Z.of_nat (length kept) = limit)
    end.
Proof.
  unfold prune. unfold py_index at 1. destruct (nth_error (d_tokens _ st) i) as [tokens|] eqn:Et; cbn [bind]; [|discriminate].
  assert (Li : i < length (d_tokens _ st)) by (apply nth_error_Some; congruence).
  destruct tokens as [|t0 ts] eqn:Ets; [discriminate|]. rewrite <- Ets in *. clear Ets t0 ts.
  destruct (limit_divider o (length sorted)) as [divider|] eqn:Ed; cbn [bind]; [|discriminate].
  destruct (sorted_recombined state tokens (d_recomb _ st)) as [rec rc'] eqn:Er.
  destruct (match o_beam o with None => _ | Some _ => _ end) as [after|] eqn:Eb; cbn [bind]; [|discriminate].
  intros E.
  assert (B : exists gone1, rec = after ++ gone1 /\
     match o_beam o with
     | None => gone1 = []
     | Some beam => exists b best threshold,
        beam_begins nodes sorted i b /\ is_best_from (d_best _ st) sorted b best /\
        (let width := (beam / Q2Qc (inject_Z divider))%Qc in
         threshold = (best - (if Qclt_le_dec width (abs_min_beam o) then abs_min_beam o else width))%Qc) /\
        (forall t, In t (tl after) -> (threshold < total t)%Qc) /\
        forall t, In t gone1 -> (total t <= threshold)%Qc
     end).
  { destruct (o_beam o) as [beam|].
    - destruct (time_begin nodes sorted i) as [b|] eqn:Etb; cbn [bind] in Eb; [|discriminate].
      destruct (b <? length sorted) eqn:Lb; [|discriminate]. apply Nat.ltb_lt in Lb.
      destruct (mapM _ _) as [bests|] eqn:Em; cbn [bind] in Eb; [|discriminate].
      destruct (max_best bests) as [best|] eqn:Ebest; cbn [bind] in Eb; [|discriminate].
      match type of Eb with Ok (rev (drop_worst state ?th (rev rec))) = _ => set (thr := th) in * end.
      injection Eb as <-. destruct (beam_spec state thr rec) as (g & E1 & E2 & _).
      exists g. split; [exact E1|]. exists b, best, thr. split; [now apply time_begin_spec|]. split; [|split; [reflexivity|split; [|exact E2]]].
      + apply mapM_inv in Em. apply max_best_spec in Ebest as [M1 M2].
        assert (Hs : forall c j, nth_error (skipn b sorted) c = Some j <-> nth_error sorted (b + c) = Some j)
          by (intros c j; now rewrite nth_error_skipn).
        split.
        * destruct (Forall2_right _ _ _ _ Em M1) as (j & Hj & Ej). apply In_nth_error in Hj as [c Hc].
          exists (b + c), j. split; [lia|]. split; [now apply Hs|]. unfold py_index in Ej.
          destruct (nth_error (d_best _ st) j); congruence.
        * intros c j x Hbc Hc Hj. apply M2.
          assert (Hin : In j (skipn b sorted)).
          { apply (nth_error_In _ (c - b)). apply Hs. now replace (b + (c - b)) with c by lia. }
          destruct (Forall2_left _ _ _ _ Em Hin) as (y & Hy & Ey). unfold py_index in Ey. rewrite Hj in Ey. congruence.
      + apply sorted_recombined_spec in Er as (new & _ & S & _). intros t Ht. eapply beam_keeps; eassumption.
    - injection Eb as <-. exists []. rewrite app_nil_r. auto. }
  destruct B as (g1 & E1 & B).
  destruct (o_max_tokens o) as [m|] eqn:Em.
  - set (limit := Z.max (m / divider) (abs_min_max_tokens o)) in *.
    destruct (py_prefix_spec after limit) as (g2 & E2 & H2).
    exists tokens, rec, (py_prefix after limit), (g2 ++ g1), divider.
    injection E as <-. cbn [d_tokens d_recomb]. rewrite nth_error_upd, Nat.eqb_refl, (proj2 (Nat.ltb_lt _ _) Li).
    refine (conj eq_refl (conj eq_refl (conj Er (conj _ (conj eq_refl (conj _ _)))))).
    + rewrite app_assoc, <- E2. exact E1.
    + intros m' [= <-]. cbv zeta. fold limit. intros Hl. now apply H2.
    + assert (H3 : g2 <> [] -> exists m0, Some m = Some m0 /\
         let limit := Z.max (m0 / divider) (abs_min_max_tokens o) in
         ((0 <= limit)%Z -> Z.of_nat (length (py_prefix after (Z.max (m / divider) (abs_min_max_tokens o)))) = limit)).
      { intros Hg. exists m. split; [reflexivity|]. cbv zeta. fold limit. intros Hl. now apply H2. }
      destruct (o_beam o) as [beam|].
      * destruct B as (b & best & thr & B1 & B2 & B3 & B4 & B5). exists b, best, thr.
        split; [exact B1|]. split; [exact B2|]. split; [exact B3|]. split.
        -- intros t Ht. apply B4. rewrite E2. destruct (py_prefix after limit); [destruct Ht|]. cbn [tl app] in *.
           apply in_or_app. now left.
        -- intros t Ht. apply in_app_or in Ht as [Ht|Ht]; [|left; auto]. right. apply H3. intros ->. destruct Ht.
      * subst g1. rewrite app_nil_r. destruct g2 as [|x g2]; [now left|right]. apply H3. discriminate.
  - exists tokens, rec, after, g1, divider.
    injection E as <-. cbn [d_tokens d_recomb]. rewrite nth_error_upd, Nat.eqb_refl, (proj2 (Nat.ltb_lt _ _) Li).
    refine (conj eq_refl (conj eq_refl (conj Er (conj E1 (conj eq_refl (conj _ _)))))).
    + discriminate.
    + destruct (o_beam o) as [beam|]; [|now left].
      destruct B as (b & best & thr & B1 & B2 & B3 & B4 & B5). exists b, best, thr.
      repeat (split; [assumption|]). intros t Ht. left. auto.
Qed.

(** Pruning succeeds. *)
Lemma prune_total nodes sorted i st tokens y divider :
  nth_error (d_tokens _ st) i = Some tokens -> tokens <> [] -> In i sorted ->
  nth_error (d_best _ st) i = Some (Some y) ->
  (forall j, In j sorted -> j < length (d_best _ st)) ->
  limit_divider o (length sorted) = Ok divider ->
  exists st', prune state o nodes sorted i st = Ok st'.
Proof.
  intros Et Hne Hi Hb Hr Hd. unfold prune. unfold py_index at 1. rewrite Et. cbn [bind].
  destruct tokens as [|t0 ts]; [congruence|]. rewrite Hd. cbn [bind].
  destruct (sorted_recombined state (t0 :: ts) (d_recomb _ st)) as [rec rc'].
  destruct (o_beam o) as [beam|]; [|cbn [bind]; eauto].
  apply In_nth_error in Hi as [c Hc].
  destruct (time_begin_In nodes sorted i c Hc) as (b & -> & Lb). cbn [bind].
  assert (Lc : c < length sorted) by (apply nth_error_Some; congruence).
  rewrite (proj2 (Nat.ltb_lt b (length sorted)) ltac:(lia)).
  assert (Es : mapM (py_index (d_best _ st)) (skipn b sorted) =
               Ok (map (fun j => nth j (d_best _ st) None) (skipn b sorted))).
  { apply mapM_ok. intros j Hj. unfold py_index.
    rewrite (nth_error_nth' _ None); [reflexivity|]. apply Hr.
    rewrite <- (firstn_skipn b sorted). apply in_or_app. now right. }
  rewrite Es. cbn [bind].
  destruct (max_best_ok (map (fun j => nth j (d_best _ st) None) (skipn b sorted)) y) as [m ->]; [|cbn [bind]; eauto].
  apply in_map_iff. exists i. split; [now apply nth_error_nth|].
  apply (nth_error_In _ (c - b)). rewrite nth_error_skipn. now replace (b + (c - b)) with c by lia.
Qed.
End Total.

Section DecodeTotal.
Variable state : Type.
Variable initial_state : state.
Variable net_step : list (nat * nat * nat * state) -> list (Qc * state).
Variable f : nat * nat * nat * state -> Qc * state.
Variable ln : Qc -> Qc.
Variable lin : Qc -> Qc -> Qc -> Qc.
Variable hash : list hword -> Z.
Variable v : vocabulary.
Variable o : options.
Hypothesis Hv : reachable_vocab v.
Hypothesis Hnet : step_independent v net_step f.
Variables sos eos unk : nat.
Hypothesis Hsos : word_to_id v SOS = Some sos.
Hypothesis Heos : word_to_id v EOS = Some eos.
Hypothesis Hunk : word_to_id v UNK = Some unk.
Variable oos : option (list lp).
Hypothesis Hoos : decoder_oos ln v o = Ok oos.
Variable a : lattice.
Hypothesis Ha : lattice_ok a.
Variable sorted : list nat.
Hypothesis Hsorted : sorted_nodes a = Ok sorted.
Hypothesis Hall : length sorted = length (a_nodes a).
Variable divider : Z.
Hypothesis Hdiv : limit_divider o (length sorted) = Ok divider.
Hypothesis Hlimit : forall m, o_max_tokens o = Some m -> (1 <= Z.max (m / divider) (abs_min_max_tokens o))%Z.

Notation token := (token state).
Notation dstate := (dstate state).
Notation nodes := (a_nodes a).
Notation links := (a_links a).
Notation ini := (a_initial a).
Notation scale := (scale_of o a).
Notation penalty := (penalty_of o a).
Notation inv := (inv state initial_state f ln lin hash v o a).
Notation good := (good state initial_state f ln lin hash v o a).
Notation prune := (prune state o nodes sorted).
Notation propagate := (propagate state net_step ln lin hash v o unk eos oos scale penalty).
Notation decode_link := (decode_link state net_step ln lin hash v o nodes links sorted unk eos oos scale penalty).
Notation decode_node := (decode_node state net_step ln lin hash v o nodes links sorted unk eos oos scale penalty).

Lemma word_id_bound w i : word_to_id v w = Some i -> i < num_words v.
Proof.
  unfold word_to_id, num_words. intros H.
  assert (G : forall ws s j, last_index ws s w = Some j -> s <= j < s + length ws).
  { induction ws as [|x ws IH]; intros s j; cbn [last_index length]; [discriminate|].
    destruct (last_index ws (S s) w) as [k|] eqn:E.
    - intros [= <-]. apply IH in E. lia.
    - destruct (pystr_eq_dec w x); [|discriminate]. intros [= <-]. lia. }
  apply G in H. lia.
Qed.

Lemma table_total table i : oos = Some table -> i < num_words v -> exists x, py_index table i = Ok x.
Proof.
  intros E Hi. subst oos. unfold decoder_oos in Hoos. destruct (o_use_shortlist o); [|discriminate].
  destruct (oos_logprobs_ok ln v Hv) as [E L]. rewrite E in Hoos.
  destruct (v_unigram v) as [u|]; [|discriminate]. injection Hoos as <-.
  destruct (L ltac:(discriminate)) as [L1 _]. unfold py_index.
  destruct (nth_error (share_list ln v) i) eqn:En; [eauto|]. apply nth_error_None in En. lia.
Qed.

Lemma append_word_total tokens w oov :
  (forall t, In t tokens -> tk_history state t <> []) ->
  (forall i, w = inl i -> i < num_words v) ->
  ok_or_number (append_word state net_step ln v unk oos tokens w oov) (fun new => length new = length tokens).
Proof.
  intros Hh Hw. unfold append_word.
  match goal with |- context [mapM ?g tokens] => destruct (mapM g tokens) as [ins|e] eqn:Ei end; cbn [bind].
  2:{ exfalso. revert e Ei. clear -Hh Hv Hunk. induction tokens as [|t ts IH]; cbn [mapM]; [discriminate|]. intros e.
      destruct (rev (tk_history state t)) as [|last pre] eqn:Er.
      - exfalso. apply (Hh t (or_introl eq_refl)). rewrite <- (rev_involutive (tk_history state t)), Er. reflexivity.
      - destruct (limit_seen v Hv unk Hunk last) as (k & p & -> & _). cbn [bind].
        match goal with |- context [mapM ?g ts] => destruct (mapM g ts) eqn:E end; cbn [bind]; [discriminate|].
        intros _. eapply IH; [|reflexivity]. intros; apply Hh; now right. }
  assert (Li : length ins = length tokens).
  { apply mapM_inv in Ei. clear -Ei. induction Ei; cbn; auto. }
  destruct (limit_seen v Hv unk Hunk w) as (wc & wp & _ & _ & Ew). rewrite Ew. cbn [bind].
  rewrite (network_inputs _ _ _ _ Hv Hnet _ Hunk _ _ _ _ Ei Ew).
  match goal with |- ok_or_number (mapM ?g ?l) _ => set (L := l); set (G := g) end.
  assert (HL : length L = length tokens).
  { unfold L. rewrite !combine_length, !map_length, !combine_length. lia. }
  rewrite <- HL. apply mapM_total. unfold G. clear G. intros [[[input cl] prob] [t [p st]]] _.
  unfold handle_unk_logprob.
  assert (T : forall r, ok_or_number (do logprob <- Ok r; do nn <- finite (ladd (Fin (tk_nn state t)) logprob);
                                      Ok (tk_history state t ++ [w], st, nn)) (fun _ => True)).
  { intros r. cbn [bind]. destruct (ladd _ r); cbn [finite bind]; [left; eauto|right; reflexivity|right; reflexivity]. }
  pose proof table_total as TT. destruct oos as [table|] eqn:Eo; [|apply T].
  destruct w as [i|s]; [|apply T].
  destruct (TT table i) as [x Ex]; [reflexivity|now apply Hw|]. rewrite Ex. cbn [bind]. apply T.
Qed.

Lemma propagate_total tokens l : (forall t, In t tokens -> tk_history state t <> []) ->
  ok_or_number (propagate tokens l) (fun new => length new = length tokens).
Proof.
  intros Hh. destruct l as [l|]; cbn [DecoderModel.propagate].
  - destruct (k_word l) as [w|].
    + destruct (append_word_total tokens (history_word v w) (link_oov o l) Hh) as [(new & -> & L)| ->]; cbn [bind].
      * intros i. unfold history_word. destruct (word_to_id v w) as [j|] eqn:E; [|discriminate].
        intros [= <-]. eapply word_id_bound; eassumption.
      * left. eexists. split; [reflexivity|]. rewrite map_length, combine_length. lia.
      * right. reflexivity.
    + cbn [bind]. left. eexists. split; [reflexivity|]. rewrite map_length, combine_length, map_length. lia.
  - destruct (append_word_total tokens (inl eos) None Hh) as [(new & -> & L)| ->]; cbn [bind].
    + intros i [= <-]. eapply word_id_bound; eassumption.
    + left. eexists. split; [reflexivity|]. rewrite map_length, combine_length. lia.
    + right. reflexivity.
Qed.

Record tinv (st : dstate) : Prop := {
  ti_inv : inv st;
  ti_best : length (d_best _ st) = length nodes;
  ti_some : forall i tokens, nth_error (d_tokens _ st) i = Some tokens -> tokens <> [] ->
            exists y, nth_error (d_best _ st) i = Some (Some y)
}.
Definition filled (st : dstate) (i : nat) : Prop :=
  exists tokens, nth_error (d_tokens _ st) i = Some tokens /\ tokens <> [].

Lemma all_sorted i : i < length nodes -> In i sorted.
Proof.
  intros Hi. destruct (sorted_nodes_ok a Ha sorted Hsorted) as (N & _ & R & _).
  assert (H : incl (seq 0 (length nodes)) sorted).
  { apply NoDup_length_incl; [exact N| |].
    - rewrite seq_length. lia.
    - intros x Hx. apply in_seq. specialize (R x Hx). lia. }
  apply H. apply in_seq. lia.
Qed.

Lemma prune_tinv i st : tinv st -> filled st i -> exists st', prune i st = Ok st' /\ tinv st' /\
  forall j, filled st j -> filled st' j.
Proof.
  intros T (ts & Et & Hne). pose proof (ti_inv _ T) as I.
  assert (Li : i < length nodes).
  { rewrite <- (in_length _ _ _ _ _ _ _ _ _ _ I). apply nth_error_Some. congruence. }
  destruct (ti_some _ T i ts Et Hne) as [y Hy].
  destruct (prune_total state o nodes sorted i st ts y divider Et Hne (all_sorted i Li) Hy) as [st' E]; [|exact Hdiv|].
  { intros j Hj. rewrite (ti_best _ T). now apply (sorted_nodes_ok a Ha sorted Hsorted). }
  exists st'. split; [exact E|].
  pose proof (prune_inv _ _ _ _ _ _ _ _ _ _ _ _ _ I E) as I'.
  apply prune_spec in E as (tokens & rec & new & kept & gone & dv & Et' & _ & _ & _ & Ed & -> & _ & Hk).
  assert (dv = divider) by congruence. subst dv.
  assert (Hkept : kept <> []).
  { apply Hk. destruct (o_max_tokens o) as [m|] eqn:Em; [right|now left]. exists m. split; [reflexivity|]. now apply Hlimit. }
  split.
  - constructor; cbn [d_best d_tokens]; [exact I'|apply (ti_best _ T)|].
    intros j ts' Hj Hne'. rewrite nth_error_upd in Hj. destruct (Nat.eqb_spec j i) as [->|Hji]; [eauto|].
    eapply (ti_some _ T); eassumption.
  - intros j (ts' & Hj & Hne'). unfold filled. cbn [d_tokens]. rewrite nth_error_upd.
    destruct (Nat.eqb_spec j i) as [->|Hji]; [|eauto].
    assert (L : i < length (d_tokens _ st)) by (apply nth_error_Some; congruence).
    rewrite (proj2 (Nat.ltb_lt _ _) L). eauto.
Qed.

Lemma better_some new best : new <> [] -> exists y, fold_left (better state) new best = Some y.
Proof.
  assert (G : forall new y, exists z, fold_left (better state) new (Some y) = Some z).
  { clear. induction new as [|t new IH]; intros y; cbn [fold_left]; [eauto|].
    unfold better at 2. destruct (Qclt_le_dec y (tk_total state t)); apply IH. }
  destruct new as [|t new]; [congruence|]. intros _. cbn [fold_left]. unfold better at 2.
  destruct best as [b|]; [destruct (Qclt_le_dec b (tk_total state t))|]; apply G.
Qed.
Lemma better_keeps new y : exists z, fold_left (better state) new (Some y) = Some z.
Proof.
  revert y. induction new as [|t new IH]; intros y; cbn [fold_left]; [eauto|].
  unfold better at 2. destruct (Qclt_le_dec y (tk_total state t)); apply IH.
Qed.

Lemma link_tinv i node_tokens st k : tinv st -> node_tokens <> [] ->
  (forall t, In t node_tokens -> good (Some i) t) ->
  k < length links -> (forall l, nth_error links k = Some l -> k_start l = i) ->
  ok_or_number (decode_link node_tokens st k) (fun st' => tinv st' /\
    (forall j, filled st j -> filled st' j) /\
    forall l, nth_error links k = Some l -> filled st' (k_end l)).
Proof.
  intros T Hnt G Hk Hks. pose proof (ti_inv _ T) as I.
  destruct (decode_link node_tokens st k) as [st'|e] eqn:E.
  - left. exists st'. split; [reflexivity|]. revert E. unfold DecoderModel.decode_link. unfold py_index at 1.
    destruct (nth_error links k) as [l|] eqn:El; cbn [bind]; [|discriminate].
    destruct (propagate_total node_tokens (Some l)) as [(new & Ep & Ln)|Ep].
    { intros t Ht. eapply good_history. apply G. exact Ht. }
    2:{ rewrite Ep. discriminate. }
    rewrite Ep. cbn [bind].
    unfold py_index at 1. destruct (nth_error (d_tokens _ st) (k_end l)) as [old|] eqn:Eo; cbn [bind]; [|discriminate].
    unfold py_index. destruct (nth_error (d_best _ st) (k_end l)) as [best|] eqn:Eb; cbn [bind]; [|discriminate].
    set (st1 := mkDstate state (upd (d_tokens _ st) (k_end l) (old ++ new))
                     (upd (d_best _ st) (k_end l) (fold_left (better state) new best)) (d_recomb _ st)).
    assert (Hnew : new <> []) by (destruct new, node_tokens; try discriminate; congruence).
    assert (L : k_end l < length (d_tokens _ st)) by (apply nth_error_Some; congruence).
    assert (Lb : k_end l < length (d_best _ st)) by (apply nth_error_Some; congruence).
    assert (F1 : forall j, filled st j -> filled st1 j).
    { intros j (ts & Hj & Hne). unfold filled. cbn [st1 d_tokens]. rewrite nth_error_upd.
      destruct (Nat.eqb_spec j (k_end l)) as [->|]; [|eauto]. rewrite (proj2 (Nat.ltb_lt _ _) L).
      exists (old ++ new). split; [reflexivity|]. now destruct old. }
    assert (F2 : filled st1 (k_end l)).
    { unfold filled. cbn [st1 d_tokens]. rewrite nth_error_upd, Nat.eqb_refl, (proj2 (Nat.ltb_lt _ _) L).
      exists (old ++ new). split; [reflexivity|]. now destruct old. }
    assert (T1 : tinv st1).
    { unfold st1; constructor; cbn [d_tokens d_best].
      - apply propagate_steps with (initial_state := initial_state) (f := f) in Ep; try assumption; [|eauto].
        constructor; cbn [d_tokens d_recomb].
        + rewrite upd_length. apply (in_length _ _ _ _ _ _ _ _ _ _ I).
        + intros j ts t Hj Ht. rewrite nth_error_upd in Hj. destruct (Nat.eqb_spec j (k_end l)) as [->|Hne].
          * rewrite (proj2 (Nat.ltb_lt _ _) L) in Hj. injection Hj as <-.
            apply in_app_or in Ht as [Ht|Ht]; [eapply (in_good _ _ _ _ _ _ _ _ _ _ I); eassumption|].
            destruct (Forall2_right _ _ _ _ Ep Ht) as (t1 & Ht1 & S).
            eapply good_link; [apply Hks; reflexivity|eapply nth_error_In; exact El|apply G; exact Ht1|exact S].
          * eapply (in_good _ _ _ _ _ _ _ _ _ _ I); eassumption.
        + apply (in_dropped _ _ _ _ _ _ _ _ _ _ I).
      - rewrite upd_length. apply (ti_best _ T).
      - intros j ts Hj Hne. rewrite nth_error_upd in Hj. rewrite nth_error_upd. destruct (Nat.eqb_spec j (k_end l)) as [->|Hjl].
        + rewrite (proj2 (Nat.ltb_lt _ _) Lb). destruct (better_some new best Hnew) as [y ->]. eauto.
        + exact (ti_some _ T j ts Hj Hne). }
    assert (Done : st' = st1 -> tinv st' /\ (forall j, filled st j -> filled st' j) /\
                   forall l0, Some l = Some l0 -> filled st' (k_end l0)).
    { intros ->. split; [exact T1|]. split; [exact F1|]. intros l0 [= <-]. exact F2. }
    pose proof (prune_tinv (k_end l) st1 T1 F2) as PT.
    destruct (o_max_tokens o) as [m|]; [|intros [= <-]; now apply Done].
    destruct (2 * m <? _)%Z; [|intros [= <-]; now apply Done].
    destruct PT as (st2 & E2 & T2 & F3). fold st1. rewrite E2. intros [= <-].
    split; [exact T2|]. split; [auto|]. intros l0 [= <-]. auto.
  - right. revert E. unfold DecoderModel.decode_link. unfold py_index at 1.
    destruct (nth_error links k) as [l|] eqn:El; cbn [bind]; [|apply nth_error_None in El; lia].
    destruct (propagate_total node_tokens (Some l)) as [(new & Ep & Ln)|Ep].
    { intros t Ht. eapply good_history. apply G. exact Ht. }
    2:{ rewrite Ep. cbn [bind]. congruence. }
    rewrite Ep. cbn [bind].
    pose proof (proj2 (go_range _ _ (proj1 Ha) l (nth_error_In _ _ El))) as Le.
    unfold py_index at 1. destruct (nth_error (d_tokens _ st) (k_end l)) as [old|] eqn:Eo; cbn [bind].
    2:{ apply nth_error_None in Eo. rewrite (in_length _ _ _ _ _ _ _ _ _ _ I) in Eo. lia. }
    unfold py_index. destruct (nth_error (d_best _ st) (k_end l)) as [best|] eqn:Eb; cbn [bind].
    2:{ apply nth_error_None in Eb. rewrite (ti_best _ T) in Eb. lia. }
    destruct (o_max_tokens o) as [m|]; [|discriminate].
    destruct (2 * m <? _)%Z; [|discriminate].
    set (st1 := mkDstate state (upd (d_tokens _ st) (k_end l) (old ++ new))
                     (upd (d_best _ st) (k_end l) (fold_left (better state) new best)) (d_recomb _ st)).
    assert (Hnew : new <> []) by (destruct new, node_tokens; try discriminate; congruence).
    intros E. exfalso.
    assert (L : k_end l < length (d_tokens _ st)) by (apply nth_error_Some; congruence).
    assert (Lb : k_end l < length (d_best _ st)) by (apply nth_error_Some; congruence).
    destruct (better_some new best Hnew) as [y Hy].
    destruct (prune_total state o nodes sorted (k_end l) st1 (old ++ new) y divider) as [st' E']; [| | | | |exact Hdiv|].
    + cbn [st1 d_tokens]. now rewrite nth_error_upd, Nat.eqb_refl, (proj2 (Nat.ltb_lt _ _) L).
    + now destruct old.
    + now apply all_sorted.
    + cbn [st1 d_best]. now rewrite nth_error_upd, Nat.eqb_refl, (proj2 (Nat.ltb_lt _ _) Lb), Hy.
    + intros j Hj. cbn [st1 d_best]. rewrite upd_length, (ti_best _ T). now apply (sorted_nodes_ok a Ha sorted Hsorted).
    + congruence.
Qed.

Lemma links_tinv i node_tokens ks : node_tokens <> [] ->
  (forall t, In t node_tokens -> good (Some i) t) ->
  (forall k, In k ks -> k < length links) -> (forall k l, In k ks -> nth_error links k = Some l -> k_start l = i) ->
  forall st, tinv st ->
  ok_or_number (foldM (decode_link node_tokens) ks st) (fun st' => tinv st' /\
    (forall j, filled st j -> filled st' j) /\
    forall k l, In k ks -> nth_error links k = Some l -> filled st' (k_end l)).
Proof.
  intros Hnt G. induction ks as [|k ks IH]; intros Hk Hks st T; cbn [foldM].
  - left. exists st. split; [reflexivity|]. split; [exact T|]. split; [auto|intros ? ? []].
  - destruct (link_tinv i node_tokens st k T Hnt G (Hk k (or_introl eq_refl)) (fun l => Hks k l (or_introl eq_refl)))
      as [(st1 & -> & T1 & A & B)| ->]; cbn [bind]; [|right; reflexivity].
    destruct (IH (fun k' H => Hk k' (or_intror H)) (fun k' l H => Hks k' l (or_intror H)) st1 T1)
      as [(st2 & -> & T2 & C & D)| ->]; [|right; reflexivity].
    left. exists st2. split; [reflexivity|]. split; [exact T2|]. split; [auto|].
    intros k' l [<-|Hk'] El; [apply C; now apply B|now apply (D k' l)].
Qed.

Lemma node_tinv st final i : tinv st -> filled st i ->
  ok_or_number (decode_node (st, final) i) (fun x => tinv (fst x) /\
    (forall j, filled st j -> filled (fst x) j) /\ (forall j, edge a i j -> filled (fst x) j) /\
    (final <> [] -> snd x <> []) /\ (is_final_node a i = true -> snd x <> [])).
Proof.
  intros T F. destruct (prune_tinv i st T F) as (st1 & E & T1 & F1).
  unfold DecoderModel.decode_node. rewrite E. cbn [bind]. destruct (F1 i F) as (ts & Et & Hne).
  unfold py_index at 1. rewrite Et. cbn [bind].
  destruct ts as [|t0 ts0] eqn:Ets; [congruence|]. rewrite <- Ets in *. clear Ets t0 ts0.
  pose proof (ti_inv _ T1) as I1.
  assert (Li : i < length nodes).
  { rewrite <- (in_length _ _ _ _ _ _ _ _ _ _ I1). apply nth_error_Some. congruence. }
  unfold py_index at 1. destruct (nth_error nodes i) as [n|] eqn:En; cbn [bind]; [|apply nth_error_None in En; lia].
  assert (G : forall t, In t ts -> good (Some i) t) by (intros t Ht; eapply (in_good _ _ _ _ _ _ _ _ _ _ I1); eassumption).
  assert (Hout : forall k, In k (n_out n) <-> exists l, nth_error links k = Some l /\ k_start l = i).
  { intros k. rewrite (go_out _ _ (proj1 Ha) _ _ En). apply links_from_In. }
  assert (P : ok_or_number (if n_final n then propagate ts None else Ok [])
                (fun new => n_final n = true -> new <> [])).
  { destruct (n_final n); [|left; exists []; split; [reflexivity|discriminate]].
    destruct (propagate_total ts None) as [(new & -> & L)| ->]; [|left; exists new; split; [reflexivity|]|right; reflexivity].
    - intros t Ht. eapply good_history. apply G. exact Ht.
    - intros _ ->. destruct ts; [congruence|discriminate]. }
  destruct P as [(new & -> & Hnew)| ->]; cbn [bind]; [|right; reflexivity].
  destruct (links_tinv i ts (n_out n) Hne G) with (st := st1) as [(st2 & -> & T2 & A & B)| ->]; cbn [bind].
  - intros k Hk. apply Hout in Hk as (l & El & _). apply nth_error_Some. congruence.
  - intros k l Hk El. apply Hout in Hk as (l' & El' & Es). congruence.
  - exact T1.
  - left. exists (st2, final ++ new). split; [reflexivity|]. cbn [fst snd]. split; [exact T2|]. split; [auto|].
    split; [|split].
    + intros j (l & Hl & Es & <-). apply In_nth_error in Hl as [k El]. apply (B k l); [|exact El]. apply Hout. eauto.
    + intros Hf G'. apply app_eq_nil in G'. tauto.
    + intros Hf G'. apply app_eq_nil in G' as [_ G']. unfold is_final_node in Hf. rewrite En in Hf. now apply Hnew.
  - right. reflexivity.
Qed.

Lemma nodes_tinv l : forall done st final, sorted = done ++ l -> tinv st ->
  (forall i, i = ini \/ (exists u, In u done /\ edge a u i) -> filled st i) ->
  (forall i, In i done -> is_final_node a i = true -> final <> []) ->
  ok_or_number (foldM decode_node l (st, final)) (fun x =>
    forall i, In i sorted -> is_final_node a i = true -> snd x <> []).
Proof.
  induction l as [|i l IH]; intros done st final E T F1 F2; cbn [foldM].
  - left. exists (st, final). split; [reflexivity|]. rewrite app_nil_r in E. subst. cbn [snd]. exact F2.
  - destruct (sorted_nodes_ok a Ha sorted Hsorted) as (_ & [t Et] & _ & Ho & Hp & _).
    assert (Fi : filled st i).
    { apply F1. destruct done as [|d done]; [left; cbn [app] in E; congruence|].
      destruct (Nat.eq_dec i ini) as [->|Hne]; [now left|right].
      assert (Oi : orderable a i) by (apply Ho; rewrite E; apply in_or_app; right; now left).
      destruct Oi as [|i [u Hu] _]; [congruence|]. exists u. split; [|exact Hu].
      apply (Hp (d :: done) i l E); [discriminate|exact Hu]. }
    destruct (node_tinv st final i T Fi) as [([st1 final1] & -> & T1 & A & B & C & D)| ->]; cbn [bind fst snd] in *; [|right; reflexivity].
    apply (IH (done ++ [i])).
    + now rewrite <- app_assoc.
    + exact T1.
    + intros j [->|(u & Hu & He)]; [apply A, F1; now left|].
      apply in_app_or in Hu as [Hu|[<-|[]]]; [apply A, F1; right; eauto|now apply B].
    + intros j Hj Hf. apply in_app_or in Hj as [Hj|[<-|[]]]; [apply C; eapply F2; eassumption|now apply D].
Qed.

Lemma initial_tinv : tinv (initial_dstate state initial_state lin hash o sos a) /\
  filled (initial_dstate state initial_state lin hash o sos a) ini.
Proof.
  split.
  - constructor.
    + eapply initial_inv; eassumption.
    + cbn [initial_dstate d_best]. now rewrite upd_length, repeat_length.
    + intros i ts Hi Hne. apply initial_nth in Hi. destruct (Nat.eqb_spec i ini) as [->|Hn]; [|congruence].
      cbn [initial_dstate d_best]. rewrite nth_error_upd, Nat.eqb_refl, repeat_length.
      rewrite (proj2 (Nat.ltb_lt _ _) (proj2 Ha)). eauto.
  - unfold filled. cbn [initial_dstate d_tokens]. rewrite nth_error_upd, Nat.eqb_refl, repeat_length.
    rewrite (proj2 (Nat.ltb_lt _ _) (proj2 Ha)). eexists. split; [reflexivity|discriminate].
Qed.

Lemma decode_total :
  (exists tokens dropped, decode state initial_state net_step ln lin hash v o a = Ok (tokens, dropped)) \/
  decode state initial_state net_step ln lin hash v o a = Err NumberError \/
  (decode state initial_state net_step ln lin hash v o a = Err InputError /\ forall i, is_final_node a i = false).
Proof.
  unfold decode. rewrite Hoos. cbn [bind]. unfold required_id. rewrite Hsos, Heos, Hunk. cbn [bind].
  rewrite Hsorted. cbn [bind]. fold (initial_token state initial_state lin hash o sos a).
  fold (initial_dstate state initial_state lin hash o sos a).
  destruct initial_tinv as [T0 F0].
  destruct (nodes_tinv sorted [] (initial_dstate state initial_state lin hash o sos a) [] eq_refl T0)
    as [([st final] & -> & H)| ->]; cbn [bind snd] in *.
  - intros i [->|(u & [] & _)]. exact F0.
  - intros i [].
  - destruct final as [|t ts].
    + right. right. split; [reflexivity|]. intros i. destruct (is_final_node a i) eqn:Ef; [|reflexivity].
      exfalso. refine (H i _ Ef eq_refl). apply all_sorted. unfold is_final_node in Ef.
      apply nth_error_Some. destruct (nth_error nodes i); [discriminate|discriminate].
    + left. destruct (sorted_recombined state (t :: ts) (d_recomb state st)) as [ts' dr]. eauto.
  - right. left. reflexivity.
Qed.
End DecodeTotal.
