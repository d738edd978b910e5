(** C40: the training cost is about the data and not about padding. *)
From Coq Require Import Reals Lra Lia Bool.
From Verif Require Import Base CostModel CostSpec CostProofs.
Open Scope R_scope.

(** When every log probability is finite and some position is counted, the cost is the
    mean of the negative log probabilities of the counted positions plus the penalty,
    and the number of words is the number of counted positions. *)
Theorem C40_cost o params b l s n :
  objective o b l s n -> (0 < n)%nat -> get_tensor o params b l = (Fin (s / INR n + penalty o params), n).
Proof. exact (objective_cost o params b l s n). Qed.
Print Assumptions C40_cost.

(** Every mini-batch with finite log probabilities is of that form. *)
Theorem C40_cost_exists o b l : length l = length b -> Forall finite l -> exists s n, objective o b l s n.
Proof. exact (objective_total o b l). Qed.
Print Assumptions C40_cost_exists.

(** The cost and the number of words depend only on the counted positions: padding may
    be added, removed, or have any word IDs and any finite log probabilities. *)
Theorem C40_padding o params b l b' l' :
  same_data o b l b' l' -> get_tensor o params b l = get_tensor o params b' l'.
Proof. exact (same_cost o params b l b' l'). Qed.
Print Assumptions C40_padding.

(** Exactly when the cross entropy cost is a number, when it is infinite, and when it is
    not a number, for all the probabilities that a network may give. *)
Theorem C40_cross_entropy o params b q :
  length q = length b -> Forall (fun x => 0 <= x) q ->
  let cost := fst (get_tensor o params b (cross_entropy_logprobs q)) in
  let some_counted := exists p, In p b /\ counted o p in
  let zero := exists p, In (p, 0) (combine b q) in
  let ignored_zero := exists p, In (p, 0) (combine b q) /\ ~ counted o p in
  (finite cost <-> some_counted /\ ~ zero) /\
  (cost = PosInf <-> some_counted /\ zero /\ ~ ignored_zero) /\
  (cost = NaN <-> ~ some_counted \/ ignored_zero) /\
  cost <> NegInf.
Proof.
  intros L F cost some_counted zero ignored_zero. unfold cost. rewrite get_tensor_eq. cbn [fst].
  destruct (cross_entropy_masked o b q L F) as [X1 X2].
  assert (Hdec : ignored_zero \/ ~ ignored_zero).
  { unfold ignored_zero. generalize (combine b q) as l. induction l as [|[p x] l IH]; [right; intros (? & [] & _)|].
    destruct IH as [(p' & A & B)|IH]; [left; exists p'; split; [right; exact A|exact B]|].
    destruct (Req_EM_T x 0) as [->|N].
    - destruct (countedb o p) eqn:E.
      + right. intros (p' & [A|A] & B); [|apply IH; exists p'; auto]. injection A as ->. apply B, countedb_iff; exact E.
      + left. exists p. split; [left; reflexivity|apply countedb_false; exact E].
    - right. intros (p' & [A|A] & B); [injection A; auto|apply IH; exists p'; auto]. }
  assert (Hz : zero \/ ~ zero).
  { unfold zero. generalize (combine b q) as l. induction l as [|[p x] l IH]; [right; intros (? & [])|].
    destruct IH as [(p' & A)|IH]; [left; exists p'; right; exact A|].
    destruct (Req_EM_T x 0) as [->|N]; [left; exists p; left; reflexivity|].
    right. intros (p' & [A|A]); [injection A; auto|apply IH; exists p'; auto]. }
  assert (Hc : (count o b = 0%nat /\ ~ some_counted) \/ (count o b <> 0%nat /\ some_counted)).
  { destruct (count o b) eqn:E; [left|right].
    - split; [reflexivity|]. intros (p & I & C). apply (proj1 (count_zero o b) E p I C).
    - split; [discriminate|]. clear - E. unfold some_counted. revert n E. induction b as [|c b IH]; intros n E; [discriminate|].
      unfold count in *. cbn [map filter] in E. destruct (countedb o c) eqn:Ec.
      + exists c. split; [left; reflexivity|apply countedb_iff; exact Ec].
      + destruct (IH n E) as (p & I & C). exists p. split; [right; exact I|exact C]. }
  assert (Hin : forall p, In (p, 0) (combine b q) -> ~ ignored_zero -> counted o p).
  { intros p I N. destruct (countedb o p) eqn:E; [apply countedb_iff; exact E|]. exfalso. apply N. exists p. split; [exact I|apply countedb_false; exact E]. }
  assert (G : forall p, In (p, 0) (combine b q) -> counted o p -> some_counted).
  { intros p I C. exists p. split; [eapply in_combine_l; exact I|exact C]. }
  destruct Hdec as [D|D].
  - rewrite (X1 D). assert (E : regularized o params (ext_div (ext_opp NaN) (count o b)) = NaN).
    { rewrite regularized_inf; destruct (count o b); cbn; auto. }
    rewrite E. assert (Hzz : zero) by (destruct D as (p & A & _); exists p; exact A).
    split; [split; [intros (r & H); discriminate|tauto]|]. split; [split; [discriminate|tauto]|]. split; [tauto|discriminate].
  - assert (Q : forall p, In (p, 0) (combine b q) -> counted o p) by (intros p I; apply Hin; auto).
    destruct (X2 Q) as [Y1 Y2]. destruct Hz as [Z|Z].
    + rewrite (Y1 Z). assert (S : some_counted) by (destruct Z as (p & A); apply (G p A (Q p A))).
      assert (E : regularized o params (ext_div (ext_opp NegInf) (count o b)) = PosInf).
      { rewrite regularized_inf; destruct (count o b); cbn; auto. }
      rewrite E. split; [split; [intros (r & H); discriminate|tauto]|]. split; [tauto|]. split; [split; [discriminate|tauto]|discriminate].
    + destruct (Y2 Z) as [r Er]. destruct Hc as [[C1 C2]|[C1 C2]].
      * assert (E0 : r = 0).
        { assert (N : Forall (fun y => y = Fin 0 \/ ~ finite y) (masked o b (cross_entropy_logprobs q))).
          { apply Forall_forall. intros y Hy. unfold masked in Hy. apply in_map_iff in Hy. destruct Hy as ([x m] & <- & Hy).
            apply in_combine_r in Hy. apply in_map_iff in Hy. destruct Hy as (p & <- & Hp).
            assert (C := proj1 (count_zero o b) C1 p Hp). apply countedb_false in C. rewrite C.
            destruct x; cbn [ext_mask]; [left; reflexivity| | |]; right; intros (? & ?); discriminate. }
          revert Er N. generalize (masked o b (cross_entropy_logprobs q)) as ys. intros ys; revert r. induction ys as [|y ys IH]; intros r E N.
          - injection E; auto.
          - inversion N as [|? ? [->|Ny] N']; subst; cbn [ext_sum fold_right] in E.
            + rewrite ext_add_0 in E. apply IH; auto.
            + exfalso. destruct y as [y| | |]; [apply Ny; eexists; reflexivity| | |]; destruct (fold_right ext_add (Fin 0) ys); discriminate. }
        rewrite Er, E0, C1. cbn [ext_opp ext_div]. destruct (Req_EM_T (- 0) 0) as [_|X]; [|lra].
        rewrite regularized_inf by auto.
        split; [split; [intros (r0 & H); discriminate|tauto]|]. split; [split; [discriminate|tauto]|]. split; [tauto|discriminate].
      * rewrite Er. destruct (count o b) as [|n]; [congruence|]. cbn [ext_opp ext_div]. rewrite regularized_fin.
        split; [split; [tauto|intros _; eexists; reflexivity]|]. split; [split; [discriminate|tauto]|]. split; [split; [discriminate|tauto]|discriminate].
Qed.
Print Assumptions C40_cross_entropy.

(** A lower bound: with probabilities between zero and one and penalty weights that are
    not negative, the cross entropy cost is not negative. *)
Lemma objective_nonneg o q : forall b s n,
  Forall (fun x => 0 < x <= 1) q -> objective o b (cross_entropy_logprobs q) s n -> 0 <= s.
Proof.
  induction q as [|x q IH]; intros b s n F H; inversion H as [|p y b' l' s' n' C H' |p y b' l' s' n' C H']; subst; try lra.
  - inversion F as [|? ? [A B] F']; subst.
    assert (E : ext_ln x = Fin (ln x)) by (unfold ext_ln; destruct (Rlt_dec 0 x); [reflexivity|lra]).
    assert (Ey : y = ln x) by congruence. assert (I := IH _ _ _ F' H'). subst y.
    assert (ln x <= 0); [|lra]. rewrite <- ln_1. destruct (Req_EM_T x 1) as [->|N]; [lra|]. left. apply ln_increasing; lra.
  - inversion F; subst. eapply IH; eauto.
Qed.

Lemma total_nonneg f params : (forall x, 0 <= f x) -> 0 <= total f params.
Proof. intros H. unfold total. induction (concat params) as [|x t IH]; cbn [map fold_right]; [lra|]. specialize (H x). lra. Qed.

Theorem C40_lower_bound o params b q x n :
  Forall (fun x => 0 < x <= 1) q -> length q = length b ->
  0 <= weight (l1_weight o) -> 0 <= weight (l2_weight o) ->
  get_tensor o params b (cross_entropy_logprobs q) = (Fin x, n) -> 0 <= x.
Proof.
  intros F L W1 W2 E.
  destruct (objective_total o b (cross_entropy_logprobs q)) as (s & m & H).
  { unfold cross_entropy_logprobs. rewrite map_length. exact L. }
  { apply Forall_forall. intros y Hy. unfold cross_entropy_logprobs in Hy. apply in_map_iff in Hy. destruct Hy as (z & <- & Hz).
    rewrite Forall_forall in F. specialize (F z Hz). unfold ext_ln. destruct (Rlt_dec 0 z); [eexists; reflexivity|lra]. }
  destruct m as [|m].
  - destruct (objective_masked _ _ _ _ _ H) as [E1 E2]. rewrite get_tensor_eq, E1, E2 in E. exfalso.
    cbn [ext_opp ext_div] in E.
    assert (Hs : s = 0).
    { clear -H. remember 0%nat as k. induction H; [reflexivity|discriminate|auto]. }
    rewrite Ropp_involutive, Hs in E. destruct (Req_EM_T 0 0) as [_|X]; [|congruence]. rewrite regularized_inf in E by auto. discriminate.
  - rewrite (objective_cost o params b _ s (S m) H) in E by lia.
    assert (Hs := objective_nonneg o q b s (S m) F H).
    assert (P1 := total_nonneg Rabs params Rabs_pos). assert (P2 := total_nonneg Rsqr params Rle_0_sqr).
    assert (P : 0 <= penalty o params) by (unfold penalty; apply Rplus_le_le_0_compat; apply Rmult_le_pos; auto).
    assert (D : 0 <= s / INR (S m)) by (apply Rmult_le_pos; [exact Hs|left; apply Rinv_0_lt_compat, lt_0_INR; lia]).
    assert (Ex : x = s / INR (S m) + penalty o params) by congruence. lra.
Qed.
Print Assumptions C40_lower_bound.

(** Cases *)
Definition plain := mkCostOptions None None None.
Definition two_words := [mkPosition true 5; mkPosition true 3; mkPosition false 0].

Example C40_cost_example :
  get_tensor (mkCostOptions (Some 3%nat) (Some 2) None) [[1; -1]] two_words [Fin (-4); Fin (-6); Fin (-7)] = (Fin (4 / INR 1 + penalty (mkCostOptions (Some 3%nat) (Some 2) None) [[1; -1]]), 1%nat).
Proof.
  apply C40_cost; [|lia]. replace 4 with (0 - -4) by lra. constructor; [split; [reflexivity|discriminate]|].
  constructor; [intros [_ H]; apply H; reflexivity|]. constructor; [intros [H _]; discriminate|]. constructor.
Qed.

Example C40_padding_example x y :
  get_tensor plain [] two_words [Fin (-4); Fin (-6); Fin x] = get_tensor plain [] [mkPosition true 5; mkPosition false 9; mkPosition true 3] [Fin (-4); Fin y; Fin (-6)].
Proof.
  apply C40_padding. apply same_counted; [split; [reflexivity|discriminate]|split; [reflexivity|discriminate]|].
  apply same_right; [intros [H _]; discriminate|]. apply same_counted; [split; [reflexivity|discriminate]|split; [reflexivity|discriminate]|].
  apply same_left; [intros [H _]; discriminate|]. constructor.
Qed.

(** The expectation that padding never matters is false: a zero probability at a padded
    position makes the cost of the whole mini-batch NaN. *)
Theorem C40_padding_refuted :
  exists b q q',
    length q = length b /\ length q' = length b /\
    (forall i p, nth_error b i = Some p -> in_mask p = true -> nth_error q i = nth_error q' i) /\
    finite (fst (get_tensor plain [] b (cross_entropy_logprobs q))) /\
    fst (get_tensor plain [] b (cross_entropy_logprobs q')) = NaN.
Proof.
  exists [mkPosition true 1; mkPosition false 0], [1/2; 1/2], [1/2; 0].
  split; [reflexivity|]. split; [reflexivity|]. split; [|split].
  - intros [|[|i]] p H M; cbn [nth_error] in *; [reflexivity| |reflexivity]. injection H as <-. discriminate.
  - apply C40_cross_entropy; [reflexivity|repeat constructor; lra|]. split.
    + exists (mkPosition true 1). split; [left; reflexivity|split; [reflexivity|discriminate]].
    + intros (p & [H|[H|[]]]); injection H as _ H; lra.
  - apply C40_cross_entropy; [reflexivity|repeat constructor; lra|]. right. exists (mkPosition false 0).
    split; [right; left; reflexivity|]. intros [H _]; discriminate.
Qed.
Print Assumptions C40_padding_refuted.

(** The expectation that a mini-batch without any words to learn from is harmless is
    false: its cost is NaN, so when "<unk>" is excluded a mini-batch where every word is
    unknown gives NaN. *)
Theorem C40_nothing_counted_refuted :
  exists o b q,
    b <> [] /\ length q = length b /\ Forall (fun x => 0 < x <= 1) q /\ Forall (fun p => in_mask p = true) b /\
    get_tensor o [] b (cross_entropy_logprobs q) = (NaN, 0%nat).
Proof.
  exists (mkCostOptions (Some 2%nat) None None), [mkPosition true 2], [1/2].
  split; [discriminate|]. split; [reflexivity|]. split; [repeat constructor; lra|]. split; [repeat constructor|].
  apply injective_projections; [|reflexivity]. apply C40_cross_entropy; [reflexivity|repeat constructor; lra|].
  left. intros (p & [<-|[]] & [_ H]). apply H. reflexivity.
Qed.
Print Assumptions C40_nothing_counted_refuted.
