(** Lemmas about following words in the original lattice. *)
From Coq Require Import QArith Qcanon.
From Verif Require Import Base ListLib BaseLib QcLib Strings Dict VocabModel LatticeModel LatticeSpec SortProofs GraphProofs SlfProofs
     DecoderModel DecoderSpec RescoredModel RescoredSpec.
Local Open Scope nat_scope.

Definition end_of (i : nat) (q : list link) : nat := last (map k_end q) i.
Definition sum_ac (q : list link) : Qc := qsum (map (fun x => score_or_zero (k_ac x)) q).
Definition sum_lm (q : list link) : Qc := qsum (map (fun x => score_or_zero (k_lm x)) q).

Lemma Forall2_nth_right {A B} (R : A -> B -> Prop) l l' : Forall2 R l l' ->
  forall i y, nth_error l' i = Some y -> exists x, nth_error l i = Some x /\ R x y.
Proof.
  induction 1 as [|x y l l' H _ IH]; intros [|i] z; cbn [nth_error]; try discriminate.
  - intros [= <-]. eauto.
  - apply IH.
Qed.

Section Follow.
Variable a : lattice.
Hypothesis Ha : lattice_ok a.
Notation nodes := (a_nodes a).
Notation links := (a_links a).

Lemma leads_cons w i q : leads a w i q -> exists l q', q = l :: q' /\ In l links /\ k_start l = i.
Proof. intros H. inversion H; subst; eauto 6. Qed.

Lemma out_In i n k : nth_error nodes i = Some n ->
  (In k (n_out n) <-> exists l, nth_error links k = Some l /\ k_start l = i).
Proof. intros H. rewrite (go_out _ _ (proj1 Ha) _ _ H). apply links_from_In. Qed.

Lemma next_words_spec : forall fuel k ws, next_words nodes links fuel k = Ok ws ->
  forall w, In w ws <-> exists l q, nth_error links k = Some l /\ leads a w (k_start l) (l :: q).
Proof.
  induction fuel as [|fuel IH]; intros k ws; cbn [next_words]; [discriminate|].
  unfold py_index at 1. destruct (nth_error links k) as [l|] eqn:El; cbn [bind]; [|discriminate].
  assert (Hl : In l links) by (eapply nth_error_In; exact El).
  destruct (k_word l) as [w0|] eqn:Ew.
  - intros [= <-] w. split.
    + intros [<-|[]]. exists l, []. split; [reflexivity|]. now constructor.
    + intros (l' & q & [= <-] & H). inversion H; subst; [left|]; congruence.
  - unfold py_index at 1. destruct (nth_error nodes (k_end l)) as [n|] eqn:En; cbn [bind]; [|discriminate].
    destruct (mapM _ (n_out n)) as [wss|] eqn:Em; cbn [bind]; [|discriminate]. intros [= <-] w.
    apply mapM_inv in Em. split.
    + intros Hw. apply in_concat in Hw as (ws' & Hws & Hw).
      assert (X : exists k', In k' (n_out n) /\ next_words nodes links fuel k' = Ok ws').
      { clear -Em Hws. induction Em as [|x y xs ys H _ IH]; [destruct Hws|].
        destruct Hws as [<-|Hws]; [exists x; split; [now left|exact H]|].
        destruct (IH Hws) as (k' & H1 & H2). exists k'. split; [now right|exact H2]. }
      destruct X as (k' & Hk' & E'). destruct (proj1 (IH _ _ E' w) Hw) as (l' & q & El' & Hq).
      exists l, (l' :: q). split; [reflexivity|]. constructor; [exact Hl|exact Ew|].
      apply (out_In _ _ _ En) in Hk' as (l2 & E2 & <-). assert (l2 = l') by congruence. now subst l2.
    + intros (l' & q & [= <-] & H). inversion H as [|? ? _ _ Hq]; subst; [congruence|].
      destruct (leads_cons _ _ _ Hq) as (l2 & q2 & -> & Hl2 & Es).
      apply In_nth_error in Hl2 as [k' Ek'].
      assert (Hk' : In k' (n_out n)) by (apply (out_In _ _ _ En); eauto).
      apply in_concat.
      assert (X : exists ws', In ws' wss /\ next_words nodes links fuel k' = Ok ws').
      { clear -Em Hk'. induction Em as [|x y xs ys H _ IH]; [destruct Hk'|].
        destruct Hk' as [<-|Hk']; [exists y; split; [now left|exact H]|].
        destruct (IH Hk') as (ws' & H1 & H2). exists ws'. split; [now right|exact H2]. }
      destruct X as (ws' & Hws' & E'). exists ws'. split; [exact Hws'|].
      apply (proj2 (IH _ _ E' w)). exists l2, q2. split; [exact Ek'|]. now rewrite Es.
Qed.

Lemma set_all_get ws (k : nat) : forall (d : word_map) w,
  dict_get pystr_eq_dec (fold_left (fun d w => dict_set pystr_eq_dec d w k) ws d) w =
  if in_dec pystr_eq_dec w ws then Some k else dict_get pystr_eq_dec d w.
Proof.
  induction ws as [|x ws IH]; intros d w; cbn [fold_left]; [reflexivity|]. rewrite IH.
  destruct (in_dec pystr_eq_dec w ws) as [H|H]; destruct (in_dec pystr_eq_dec w (x :: ws)) as [G|G]; cbn in G.
  - reflexivity.
  - exfalso. tauto.
  - destruct G as [->|G]; [|tauto]. apply dict_get_set_same.
  - apply dict_get_set_other. intros ->. tauto.
Qed.

Definition first_of (w : pystr) (k : nat) : Prop :=
  exists l q, nth_error links k = Some l /\ leads a w (k_start l) (l :: q).

Lemma word_map_fold ks : forall d m,
  foldM (fun d k => do ws <- next_words nodes links (S (length nodes)) k;
                    Ok (fold_left (fun d w => dict_set pystr_eq_dec d w k) ws d)) ks d = Ok m ->
  forall w, (forall k, dict_get pystr_eq_dec m w = Some k -> dict_get pystr_eq_dec d w = Some k \/ (In k ks /\ first_of w k)) /\
            (dict_get pystr_eq_dec d w <> None -> dict_get pystr_eq_dec m w <> None) /\
            (forall k, In k ks -> first_of w k -> dict_get pystr_eq_dec m w <> None).
Proof.
  induction ks as [|k ks IH]; intros d m E w; cbn [foldM] in E.
  - injection E as <-. split; [auto|]. split; [auto|intros ? []].
  - destruct (next_words _ _ _ k) as [ws|] eqn:En; cbn [bind] in E; [|discriminate].
    destruct (IH _ _ E w) as (A & B & C). pose proof (set_all_get ws k d w) as G.
    pose proof (next_words_spec _ _ _ En w) as N. fold (first_of w k) in N. split; [|split].
    + intros k' Hk'. destruct (A k' Hk') as [H|[H1 H2]]; [|right; split; [now right|exact H2]].
      rewrite G in H. destruct (in_dec pystr_eq_dec w ws) as [Hw|Hw]; [|now left].
      injection H as <-. right. split; [now left|]. now apply N.
    + intros H. apply B. rewrite G. destruct (in_dec pystr_eq_dec w ws); [discriminate|exact H].
    + intros k' [<-|Hk'] F; [|now apply (C k')]. apply B. rewrite G. apply N in F.
      destruct (in_dec pystr_eq_dec w ws); [discriminate|tauto].
Qed.

Variable maps : list word_map.
Hypothesis Hmaps : add_word_maps nodes links = Ok maps.

Lemma maps_spec i m w : nth_error maps i = Some m ->
  match dict_get pystr_eq_dec m w with
  | Some k => exists l q, nth_error links k = Some l /\ k_start l = i /\ leads a w i (l :: q)
  | None => forall q, ~ leads a w i q
  end.
Proof.
  intros Hm. apply mapM_inv in Hmaps.
  assert (X : exists n, nth_error nodes i = Some n /\ word_map_of nodes links n = Ok m).
  { exact (Forall2_nth_right _ _ _ Hmaps _ _ Hm). }
  destruct X as (n & En & E). unfold word_map_of in E.
  destruct (word_map_fold _ _ _ E w) as (A & _ & C).
  destruct (dict_get pystr_eq_dec m w) as [k|].
  - destruct (A k eq_refl) as [H|[H (l & q & El & Hq)]]; [discriminate|].
    apply (out_In _ _ _ En) in H as (l' & El' & Es). assert (l' = l) by congruence. subst l'.
    exists l, q. split; [exact El|]. split; [exact Es|]. now rewrite <- Es.
  - intros q Hq. destruct (leads_cons _ _ _ Hq) as (l & q' & -> & Hl & Es).
    apply In_nth_error in Hl as [k Ek]. apply (C k).
    + apply (out_In _ _ _ En). eauto.
    + exists l, q'. split; [exact Ek|]. now rewrite Es.
    + reflexivity.
Qed.

Notation follow := (follow_word links maps).

Lemma follow_spec w : forall fuel i x, follow fuel i w = Ok x ->
  match x with
  | None => forall q, ~ leads a w i q
  | Some (e, ac, lm, tr) => exists q, leads a w i q /\ e = end_of i q /\ ac = sum_ac q /\ lm = sum_lm q /\
                                      tr = concat (rev (map k_transitions q))
  end.
Proof.
  induction fuel as [|fuel IH]; intros i x; cbn [follow_word]; [discriminate|].
  unfold py_index at 1. destruct (nth_error maps i) as [m|] eqn:Em; cbn [bind]; [|discriminate].
  pose proof (maps_spec i m w Em) as M. destruct (dict_get pystr_eq_dec m w) as [k|].
  2:{ intros [= <-]. exact M. }
  destruct M as (l & q & El & Es & Hq). unfold py_index at 1. rewrite El. cbn [bind].
  assert (S0 : forall z, (0 + z = z)%Qc) by (intros; ring).
  assert (S1 : forall z, (z + 0 = z)%Qc) by (intros; ring).
  destruct (k_word l) as [w'|] eqn:Ew.
  - intros [= <-]. exists [l]. inversion Hq as [? ? Hw|]; subst; [|congruence]. split; [exact Hq|].
    unfold end_of, sum_ac, sum_lm. cbn [map last rev app concat]. rewrite !qsum_cons, qsum_nil, !S1, app_nil_r.
    unfold or_zero, score_or_zero. auto.
  - destruct (follow fuel (k_end l) w) as [y|] eqn:Ef; cbn [bind]; [|discriminate]. intros [= <-].
    specialize (IH _ _ Ef). inversion Hq as [|? ? Hl _ Hq']; subst; [congruence|].
    destruct y as [[[[e ac] lm] tr]|].
    + destruct IH as (q2 & H1 & -> & -> & -> & ->). exists (l :: q2). split; [now constructor|].
      destruct (leads_cons _ _ _ H1) as (l2 & q3 & E2 & _). split; [|split; [|split]].
      * unfold end_of. cbn [map]. rewrite E2. cbn [map]. destruct (map k_end q3); [reflexivity|]. cbn [last].
        clear. revert n. induction l0 as [|y l0 IH]; intros n; [reflexivity|]. cbn [last] in *. apply IH.
      * unfold sum_ac. cbn [map]. rewrite qsum_cons. unfold plus_option. destruct (k_ac l); cbn [score_or_zero]; ring.
      * unfold sum_lm. cbn [map]. rewrite qsum_cons. unfold plus_option. destruct (k_lm l); cbn [score_or_zero]; ring.
      * cbn [map rev]. rewrite concat_app. cbn [concat]. now rewrite app_nil_r.
    + intros q2 _. exact (IH _ Hq').
Qed.

(** In an acyclic lattice there is enough fuel. *)
Variable rank : nat -> nat.
Hypothesis Hrank : forall l, In l links -> rank (k_end l) < rank (k_start l).
Hypothesis Hrank_max : forall i, i < length nodes -> rank i < length nodes.

Lemma maps_length : length maps = length nodes.
Proof. pose proof (mapM_inv _ _ _ Hmaps) as F. remember (word_map_of nodes links) as g. clear -F. induction F; cbn [length]; auto. Qed.

Lemma follow_total w : forall fuel i, i < length nodes -> rank i < fuel -> exists x, follow fuel i w = Ok x.
Proof.
  induction fuel as [|fuel IH]; intros i Hi Hr; [lia|]. cbn [follow_word]. unfold py_index at 1.
  destruct (nth_error maps i) as [m|] eqn:Em; cbn [bind]; [|apply nth_error_None in Em; rewrite maps_length in Em; lia].
  pose proof (maps_spec i m w Em) as M. destruct (dict_get pystr_eq_dec m w) as [k|]; [|eauto].
  destruct M as (l & q & El & Es & Hq). unfold py_index at 1. rewrite El. cbn [bind].
  destruct (k_word l); [eauto|]. assert (Hl : In l links) by (eapply nth_error_In; exact El).
  pose proof (Hrank l Hl) as Hlt. rewrite Es in Hlt. destruct (IH (k_end l)) as [x ->]; [now apply (go_range _ _ (proj1 Ha))|lia|].
  cbn [bind]. eauto.
Qed.
End Follow.

Section FollowTotal.
Variable a : lattice.
Hypothesis Ha : lattice_ok a.
Notation nodes := (a_nodes a).
Notation links := (a_links a).
Variable rank : nat -> nat.
Hypothesis Hrank : forall l, In l links -> rank (k_end l) < rank (k_start l).
Hypothesis Hrank_max : forall i, i < length nodes -> rank i < length nodes.

Lemma mapM_exists {A B} (g : A -> result B) l : (forall x, In x l -> exists y, g x = Ok y) -> exists ys, mapM g l = Ok ys.
Proof.
  induction l as [|x l IH]; intros H; cbn [mapM]; [eauto|].
  destruct (H x (or_introl eq_refl)) as [y ->]. destruct IH as [ys ->]; [intros; apply H; now right|]. cbn [bind]. eauto.
Qed.
Lemma foldM_exists {A B} (g : B -> A -> result B) l : (forall d x, In x l -> exists y, g d x = Ok y) ->
  forall d, exists y, foldM g l d = Ok y.
Proof.
  induction l as [|x l IH]; intros H d; cbn [foldM]; [eauto|].
  destruct (H d x (or_introl eq_refl)) as [y ->]. cbn [bind]. apply IH. intros; apply H; now right.
Qed.

Lemma next_words_total : forall fuel k l, nth_error links k = Some l -> rank (k_start l) < fuel ->
  exists ws, next_words nodes links fuel k = Ok ws.
Proof.
  induction fuel as [|fuel IH]; intros k l El Hr; [lia|]. cbn [next_words]. unfold py_index at 1. rewrite El. cbn [bind].
  destruct (k_word l); [eauto|]. assert (Hl : In l links) by (eapply nth_error_In; exact El).
  pose proof (Hrank l Hl). pose proof (proj2 (go_range _ _ (proj1 Ha) l Hl)) as He.
  unfold py_index at 1. destruct (nth_error nodes (k_end l)) as [n|] eqn:En; cbn [bind]; [|apply nth_error_None in En; lia].
  destruct (mapM_exists (next_words nodes links fuel) (n_out n)) as [wss ->]; [|cbn [bind]; eauto].
  intros k' Hk'. apply (out_In a Ha _ _ _ En) in Hk' as (l' & El' & Es). apply (IH k' l' El'). rewrite Es. lia.
Qed.
Lemma add_word_maps_total : exists maps, add_word_maps nodes links = Ok maps.
Proof.
  apply mapM_exists. intros n Hn. apply In_nth_error in Hn as [i En]. apply foldM_exists. intros d k Hk.
  apply (out_In a Ha _ _ _ En) in Hk as (l & El & Es).
  assert (Hi : i < length nodes) by (apply nth_error_Some; congruence).
  destruct (next_words_total (S (length nodes)) k l El) as [ws ->]; [|cbn [bind]; eauto].
  rewrite Es. specialize (Hrank_max i Hi). lia.
Qed.
End FollowTotal.
