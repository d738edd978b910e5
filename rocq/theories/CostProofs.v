(** Proofs about the training objective. *)
From Coq Require Import Reals Lra Lia Bool.
From Verif Require Import Base CostModel CostSpec.
Open Scope R_scope.

Definition countedb (o : cost_options) (p : position) : bool :=
  match exclude_id o with None => in_mask p | Some i => in_mask p && negb (target_id p =? i)%nat end.

Lemma countedb_iff o p : countedb o p = true <-> counted o p.
Proof.
  unfold countedb, counted. destruct (exclude_id o) as [i|].
  - rewrite andb_true_iff, negb_true_iff, Nat.eqb_neq. split; intros [A B]; split; auto; congruence.
  - split; [split; [auto|discriminate]|intros [A _]; auto].
Qed.
Lemma countedb_false o p : countedb o p = false <-> ~ counted o p.
Proof. rewrite <- countedb_iff. destruct (countedb o p); split; congruence. Qed.

Definition masked (o : cost_options) (b : list position) (l : list ext) : list ext :=
  map (fun '(x, b) => ext_mask x b) (combine l (map (countedb o) b)).
Definition count (o : cost_options) (b : list position) : nat := length (filter (fun b => b) (map (countedb o) b)).

Lemma total_app f a b : total f (a :: b) = fold_right Rplus 0 (map f a) + total f b.
Proof.
  unfold total. cbn [concat]. rewrite map_app. induction (map f a) as [|x t IH]; cbn [app fold_right]; [lra|].
  rewrite IH. lra.
Qed.
Lemma l1_total params : l1_norm params = total Rabs params.
Proof. induction params as [|a b IH]; [reflexivity|]. rewrite total_app, <- IH. reflexivity. Qed.
Lemma l2_total params : sum_squares params = total Rsqr params.
Proof. induction params as [|a b IH]; [reflexivity|]. rewrite total_app, <- IH. reflexivity. Qed.

Definition regularized (o : cost_options) (params : list (list R)) (cost : ext) : ext :=
  let cost := match l1_weight o with Some w => ext_add cost (Fin (w * l1_norm params)) | None => cost end in
  match l2_weight o with Some w => ext_add cost (Fin (w * sum_squares params)) | None => cost end.

Lemma get_tensor_eq o params b l :
  get_tensor o params b l = (regularized o params (ext_div (ext_opp (ext_sum (masked o b l))) (count o b)), count o b).
Proof. reflexivity. Qed.

Lemma regularized_fin o params x : regularized o params (Fin x) = Fin (x + penalty o params).
Proof.
  unfold regularized, penalty, weight. rewrite l1_total, l2_total.
  destruct (l1_weight o), (l2_weight o); cbn [ext_add]; f_equal; lra.
Qed.
Lemma regularized_inf o params x : (x = PosInf \/ x = NegInf \/ x = NaN) -> regularized o params x = x.
Proof.
  intros H. unfold regularized. destruct (l1_weight o), (l2_weight o); cbn [ext_add];
    destruct H as [->|[->| ->]]; reflexivity.
Qed.

Lemma objective_masked o b l s n : objective o b l s n -> ext_sum (masked o b l) = Fin (- s) /\ count o b = n.
Proof.
  induction 1 as [|p x b l s n C H [IH1 IH2]|p x b l s n C H [IH1 IH2]].
  - split; [cbn; f_equal; lra|reflexivity].
  - apply countedb_iff in C. unfold masked, count in *. cbn [map combine filter length ext_sum fold_right]. rewrite C.
    fold (ext_sum (map (fun '(x, b) => ext_mask x b) (combine l (map (countedb o) b)))). rewrite IH1.
    cbn [ext_mask ext_add filter length]. split; [f_equal; lra|rewrite IH2; reflexivity].
  - apply countedb_false in C. unfold masked, count in *. cbn [map combine filter length ext_sum fold_right]. rewrite C.
    fold (ext_sum (map (fun '(x, b) => ext_mask x b) (combine l (map (countedb o) b)))). rewrite IH1.
    cbn [ext_mask ext_add filter length]. split; [f_equal; lra|exact IH2].
Qed.

Lemma objective_cost o params b l s n :
  objective o b l s n -> (0 < n)%nat -> get_tensor o params b l = (Fin (s / INR n + penalty o params), n).
Proof.
  intros H L. destruct (objective_masked _ _ _ _ _ H) as [E1 E2]. rewrite get_tensor_eq, E1, E2.
  destruct n as [|n]; [lia|]. cbn [ext_opp ext_div]. rewrite regularized_fin, Ropp_involutive. reflexivity.
Qed.

Lemma ext_add_0 x : ext_add (Fin 0) x = x.
Proof. destruct x; cbn [ext_add]; try reflexivity. f_equal. lra. Qed.

Lemma same_masked o b l b' l' : same_data o b l b' l' ->
  ext_sum (masked o b l) = ext_sum (masked o b' l') /\ count o b = count o b'.
Proof.
  assert (Hout : forall p x b l, ~ counted o p -> ext_sum (masked o (p :: b) (Fin x :: l)) = ext_sum (masked o b l) /\
                                                 count o (p :: b) = count o b).
  { intros p x b0 l0 C. apply countedb_false in C. unfold masked, count. cbn [map combine filter ext_sum fold_right]. rewrite C.
    cbn [ext_mask]. rewrite ext_add_0. split; reflexivity. }
  induction 1 as [|p p' x b l b' l' C C' H [IH1 IH2]|p x b l b' l' C H [IH1 IH2]|p x b l b' l' C H [IH1 IH2]].
  - split; reflexivity.
  - apply countedb_iff in C. apply countedb_iff in C'. unfold masked, count in *.
    cbn [map combine filter ext_sum fold_right]. rewrite C, C'. cbn [length]. rewrite IH2. split; [|reflexivity].
    unfold ext_sum in IH1. rewrite IH1. reflexivity.
  - destruct (Hout p x b l C) as [-> ->]. auto.
  - destruct (Hout p x b' l' C) as [-> ->]. auto.
Qed.

Lemma same_cost o params b l b' l' : same_data o b l b' l' -> get_tensor o params b l = get_tensor o params b' l'.
Proof. intros H. destruct (same_masked _ _ _ _ _ H) as [E1 E2]. rewrite !get_tensor_eq, E1, E2. reflexivity. Qed.

(** Cross entropy *)
Lemma ext_sum_nan l : In NaN l -> ext_sum l = NaN.
Proof.
  induction l as [|x l IH]; [intros []|]. intros [->|H]; cbn [ext_sum fold_right]; [reflexivity|].
  fold (ext_sum l). rewrite (IH H). destruct x; reflexivity.
Qed.

Definition no_pos (x : ext) : Prop := x <> PosInf /\ x <> NaN.
Lemma ext_sum_shape l : Forall no_pos l ->
  (In NegInf l -> ext_sum l = NegInf) /\ (~ In NegInf l -> exists r, ext_sum l = Fin r).
Proof.
  induction l as [|x l IH]; intros F.
  - split; [intros []|]. intros _. exists 0. reflexivity.
  - inversion F as [|? ? [P1 P2] F']; subst. destruct (IH F') as [I1 I2].
    cbn [ext_sum fold_right]. fold (ext_sum l).
    assert (D : In NegInf l \/ ~ In NegInf l).
    { clear. induction l as [|y l IH]; [right; intros []|]. destruct IH as [H|H]; [left; right; exact H|].
      destruct y; try (right; intros [E|E]; [discriminate|exact (H E)]). left; left; reflexivity. }
    split.
    + intros [->|H].
      * destruct D as [D|D]; [rewrite (I1 D); reflexivity|]. destruct (I2 D) as [r ->]. reflexivity.
      * rewrite (I1 H). destruct x; try reflexivity; congruence.
    + intros H. assert (H' : ~ In NegInf l) by (intros C; apply H; right; exact C).
      destruct (I2 H') as [r ->]. destruct x as [x| | |]; try congruence.
      * exists (x + r). reflexivity.
      * exfalso; apply H; left; reflexivity.
Qed.

Lemma ext_ln_cases x : 0 <= x -> (0 < x /\ ext_ln x = Fin (ln x)) \/ (x = 0 /\ ext_ln x = NegInf).
Proof.
  intros H. unfold ext_ln. destruct (Rlt_dec 0 x) as [L|L]; [left; auto|]. right. split; [lra|].
  destruct (Req_EM_T x 0); [reflexivity|lra].
Qed.

Lemma cross_entropy_masked o : forall b q,
  length q = length b -> Forall (fun x => 0 <= x) q ->
  (* a zero at an ignored position *)
  ((exists p, In (p, 0) (combine b q) /\ ~ counted o p) -> ext_sum (masked o b (cross_entropy_logprobs q)) = NaN) /\
  ((forall p, In (p, 0) (combine b q) -> counted o p) ->
   ((exists p, In (p, 0) (combine b q)) -> ext_sum (masked o b (cross_entropy_logprobs q)) = NegInf) /\
   ((~ exists p, In (p, 0) (combine b q)) -> exists r, ext_sum (masked o b (cross_entropy_logprobs q)) = Fin r)).
Proof.
  intros b q L F.
  assert (In1 : forall p, In (p, 0) (combine b q) -> In (if countedb o p then NegInf else NaN) (masked o b (cross_entropy_logprobs q))).
  { revert q L F. induction b as [|c b IH]; intros [|x q] L F p H; try discriminate; [destruct H|].
    inversion F; subst. unfold masked, cross_entropy_logprobs in *. cbn [map combine] in *. destruct H as [H|H].
    - injection H as -> ->. left. destruct (ext_ln_cases 0) as [[A _]|[_ ->]]; [lra|lra|]. destruct (countedb o p); reflexivity.
    - right. apply IH; auto. }
  assert (In2 : forall y, In y (masked o b (cross_entropy_logprobs q)) ->
                (exists r, y = Fin r) \/ exists p, In (p, 0) (combine b q) /\ y = (if countedb o p then NegInf else NaN)).
  { clear In1. revert q L F. induction b as [|c b IH]; intros [|x q] L F y H; try discriminate; [destruct H|].
    inversion F; subst. unfold masked, cross_entropy_logprobs in *. cbn [map combine] in *. destruct H as [H|H].
    - destruct (ext_ln_cases x) as [[A E]|[-> E]]; [assumption| |]; rewrite E in H.
      + left. destruct (countedb o c); cbn [ext_mask] in H; eauto.
      + right. exists c. split; [left; reflexivity|]. destruct (countedb o c); cbn [ext_mask] in H; auto.
    - destruct (IH q ltac:(cbn in L; lia) ltac:(assumption) y H) as [A|(p & A & B)]; [left; exact A|]. right. exists p. split; [right; exact A|exact B]. }
  split.
  - intros (p & H & C). apply ext_sum_nan. apply countedb_false in C. specialize (In1 p H). rewrite C in In1. exact In1.
  - intros H.
    assert (N : Forall no_pos (masked o b (cross_entropy_logprobs q))).
    { apply Forall_forall. intros y Hy. destruct (In2 y Hy) as [(r & ->)|(p & A & ->)]; [split; discriminate|].
      assert (C := H p A). apply countedb_iff in C. rewrite C. split; discriminate. }
    destruct (ext_sum_shape _ N) as [S1 S2]. split.
    + intros (p & A). apply S1. assert (C := H p A). apply countedb_iff in C. specialize (In1 p A). rewrite C in In1. exact In1.
    + intros Z. apply S2. intros A. destruct (In2 _ A) as [(r & E)|(p & B & _)]; [discriminate|]. apply Z. exists p; exact B.
Qed.

Lemma count_zero o b : count o b = 0%nat <-> (forall p, In p b -> ~ counted o p).
Proof.
  unfold count. induction b as [|c b IH]; cbn [map filter length In].
  - split; [intros _ p []|reflexivity].
  - destruct (countedb o c) eqn:E; cbn [length].
    + split; [discriminate|]. intros H. exfalso. apply (H c); [left; reflexivity|]. apply countedb_iff; exact E.
    + rewrite IH. split.
      * intros H p [<-|I]; [apply countedb_false; exact E|apply H; exact I].
      * intros H p I. apply H; right; exact I.
Qed.

Lemma objective_total o : forall b l, length l = length b -> Forall finite l -> exists s n, objective o b l s n.
Proof.
  induction b as [|c b IH]; intros [|x l] L F; try discriminate.
  - exists 0, 0%nat. constructor.
  - inversion F as [|? ? [r ->] F']; subst. destruct (IH l ltac:(cbn in L; lia) F') as (s & n & H).
    destruct (countedb o c) eqn:E.
    + exists (s - r), (S n). constructor; [apply countedb_iff; exact E|exact H].
    + exists s, n. constructor; [apply countedb_false; exact E|exact H].
Qed.
