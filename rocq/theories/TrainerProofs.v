(** Proofs about the training process. *)
From Coq Require Import QArith Qcanon Permutation Sorting.Sorted.
From Verif Require Import Base ListLib BaseLib QcLib TrainerModel TrainerSpec.
Local Open Scope nat_scope.

(** ** Scheduling *)

Lemma scheduled_mod n f u : is_scheduled n f 0 u = true <-> (u * f) mod n < f \/ n <= (u * f) mod n.
Proof.
  unfold is_scheduled. rewrite orb_true_iff, Nat.ltb_lt, Nat.leb_le. cbn [Nat.mul]. lia.
Qed.
Lemma scheduled_now n f u : n <> 0 -> is_scheduled n f 0 u = true <-> (u * f) mod n < f.
Proof. intros Hn. rewrite scheduled_mod. pose proof (Nat.mod_upper_bound (u * f) n Hn). lia. Qed.

Lemma scheduled_completes n f u : n <> 0 -> f <> 0 ->
  is_scheduled n f 0 u = true <-> exists k, completes n f k u.
Proof.
  intros Hn Hf. rewrite (scheduled_now n f u Hn).
  pose proof (Nat.div_mod (u * f) n Hn) as D. pose proof (Nat.mod_upper_bound (u * f) n Hn) as B.
  split.
  - intros H. exists (u * f / n). split; [nia|]. intros u' Hu'. nia.
  - intros (k & H1 & H2). destruct u as [|u]; [cbn in *; rewrite Nat.mod_0_l by exact Hn; lia|].
    assert (u * f < k * n) by (destruct (Nat.lt_ge_cases (u * f) (k * n)) as [H|H]; [exact H|apply H2 in H; lia]).
    rewrite (Nat.mul_comm k n) in *. rewrite <- (Nat.mod_add (S u * f) 0 n Hn).
    assert (E : S u * f = (S u * f - n * k) + k * n) by (rewrite (Nat.mul_comm k n); lia).
    rewrite Nat.mul_0_l, Nat.add_0_r, E, Nat.mod_add by exact Hn.
    pose proof (Nat.mod_le (S u * f - n * k) n Hn). nia.
Qed.

Lemma scheduled_within n f w u : n <> 0 ->
  is_scheduled n f w u = true <-> exists d, d <= w /\ is_scheduled n f 0 (u + d) = true.
Proof.
  intros Hn. unfold is_scheduled at 1. rewrite orb_true_iff, Nat.ltb_lt, Nat.leb_le.
  pose proof (Nat.mod_upper_bound (u * f) n Hn) as B.
  set (m := (u * f) mod n) in *.
  assert (S : forall d, is_scheduled n f 0 (u + d) = true <-> (m + d * f) mod n < f).
  { intros d. rewrite (scheduled_now n f _ Hn), Nat.mul_add_distr_r.
    rewrite <- Nat.add_mod_idemp_l by exact Hn. fold m. reflexivity. }
  split.
  - intros [H|H]; [exists 0; rewrite S, Nat.mul_0_l, Nat.add_0_r, Nat.mod_small by exact B; split; [lia|exact H]|].
    assert (Hf : f <> 0) by (intros ->; lia).
    destruct (Nat.lt_ge_cases m f) as [Hm|Hm].
    { exists 0. rewrite S, Nat.mul_0_l, Nat.add_0_r, Nat.mod_small by exact B. split; [lia|exact Hm]. }
    (* the first d with n <= m + d * f *)
    set (d := (n - m + f - 1) / f).
    assert (D1 : n <= m + d * f).
    { pose proof (Nat.div_mod (n - m + f - 1) f Hf). pose proof (Nat.mod_upper_bound (n - m + f - 1) f Hf). unfold d. nia. }
    assert (D2 : m + d * f < n + f).
    { pose proof (Nat.div_mod (n - m + f - 1) f Hf). unfold d. nia. }
    exists d. split.
    + destruct (Nat.le_gt_cases d w) as [H1|H1]; [exact H1|]. exfalso.
      assert (w + 1 <= d) by lia. assert ((w + 1) * f <= d * f) by nia. nia.
    + rewrite S. replace (m + d * f) with ((m + d * f - n) + 1 * n) by lia. rewrite Nat.mod_add by exact Hn.
      rewrite Nat.mod_small; lia.
  - intros (d & Hd & H). apply S in H. destruct (Nat.lt_ge_cases m f) as [Hm|Hm]; [now left|right].
    destruct (Nat.lt_ge_cases (m + d * f) n) as [Hl|Hl]; [rewrite Nat.mod_small in H by exact Hl; lia|]. nia.
Qed.

(** The number of scheduled updates *)
Lemma scheduled_step n f u : n <> 0 -> f <= n ->
  (S u * f) / n = u * f / n + if is_scheduled n f 0 (S u) then 1 else 0.
Proof.
  intros Hn Hf. pose proof (scheduled_now n f (S u) Hn) as S1.
  pose proof (Nat.div_mod (u * f) n Hn) as D1. pose proof (Nat.mod_upper_bound (u * f) n Hn) as B1.
  pose proof (Nat.div_mod (S u * f) n Hn) as D2. pose proof (Nat.mod_upper_bound (S u * f) n Hn) as B2.
  set (a := u * f / n) in *. set (b := S u * f / n) in *. set (x := (u * f) mod n) in *. set (y := (S u * f) mod n) in *.
  assert (E : n * b + y = n * a + x + f) by (cbn in D2; nia).
  destruct (is_scheduled n f 0 (S u)).
  - assert (y < f) by (apply S1; reflexivity). nia.
  - assert (~ y < f) by (intros H; apply S1 in H; discriminate). nia.
Qed.
Lemma scheduled_count n f m : n <> 0 -> f <= n ->
  length (filter (is_scheduled n f 0) (seq 1 m)) = m * f / n.
Proof.
  intros Hn Hf. induction m as [|m IH].
  - cbn. now rewrite Nat.div_0_l.
  - rewrite seq_S, filter_app, app_length, IH, (scheduled_step n f m Hn Hf). cbn [filter Nat.add].
    destruct (is_scheduled n f 0 (S m)); cbn [length]; lia.
Qed.
Lemma scheduled_all n f u : n <> 0 -> n <= f -> is_scheduled n f 0 u = true.
Proof. intros Hn Hf. apply scheduled_now; [exact Hn|]. pose proof (Nat.mod_upper_bound (u * f) n Hn). lia. Qed.

(** ** Median *)
Lemma qc_leb_le a b : qc_leb a b = true <-> (a <= b)%Qc.
Proof.
  unfold qc_leb. destruct (Qclt_le_dec b a) as [H|H]; split; try easy.
  intros H1. exfalso. exact (Qclt_not_le _ _ H H1).
Qed.
Lemma qc_ltb_lt a b : qc_ltb a b = true <-> (a < b)%Qc.
Proof.
  unfold qc_ltb. destruct (Qclt_le_dec a b) as [H|H]; split; try easy.
  intros H1. exfalso. exact (Qclt_not_le _ _ H1 H).
Qed.
Lemma qinsert_perm x l : Permutation (qinsert x l) (x :: l).
Proof.
  induction l as [|y l IH]; cbn [qinsert]; [reflexivity|]. destruct (qc_leb x y); [reflexivity|].
  rewrite IH. apply perm_swap.
Qed.
Lemma qsorted_perm l : Permutation (qsorted l) l.
Proof.
  unfold qsorted. induction l as [|x l IH]; [reflexivity|]. cbn [fold_right].
  rewrite qinsert_perm. now apply perm_skip.
Qed.
Lemma qinsert_sorted x l : StronglySorted Qcle l -> StronglySorted Qcle (qinsert x l).
Proof.
  induction 1 as [|y l H IH Hy]; cbn [qinsert]; [constructor; constructor|].
  destruct (qc_leb x y) eqn:E.
  - apply qc_leb_le in E. constructor; [constructor; assumption|]. constructor; [exact E|].
    eapply Forall_impl; [|exact Hy]. intros z Hz. eapply Qcle_trans; eassumption.
  - assert (y <= x)%Qc.
    { unfold qc_leb in E. destruct (Qclt_le_dec y x) as [G|G]; [now apply Qclt_le_weak|discriminate]. }
    constructor; [exact IH|]. rewrite qinsert_perm. constructor; [assumption|exact Hy].
Qed.
Lemma qsorted_sorted l : StronglySorted Qcle (qsorted l).
Proof. unfold qsorted. induction l as [|x l IH]; [constructor|]. cbn [fold_right]. now apply qinsert_sorted. Qed.

Lemma sorted_nth l : StronglySorted Qcle l -> forall i j, i <= j -> j < length l -> (nth i l 0 <= nth j l 0)%Qc.
Proof.
  induction 1 as [|x l H IH Hx]; intros i j Hij Hj; [cbn in Hj; lia|].
  destruct j as [|j].
  - assert (i = 0) as -> by lia. apply Qcle_refl.
  - cbn [length] in Hj. destruct i as [|i]; [|cbn [nth]; apply IH; lia].
    cbn [nth]. rewrite Forall_forall in Hx. apply Hx, nth_In. lia.
Qed.
Lemma filter_perm_length {A} (f : A -> bool) l l' : Permutation l l' -> length (filter f l) = length (filter f l').
Proof.
  induction 1 as [|x l l' _ IH|x y l|l l' l'' _ IH1 _ IH2]; cbn [filter]; [reflexivity| | |congruence].
  - destruct (f x); cbn; congruence.
  - destruct (f x), (f y); reflexivity.
Qed.
Lemma filter_app_length {A} (f : A -> bool) a b : length (filter f (a ++ b)) = length (filter f a) + length (filter f b).
Proof. now rewrite filter_app, app_length. Qed.
(** In a sorted list, at least k elements are not larger than one in a later place *)
Lemma sorted_below l k m : StronglySorted Qcle l -> k <= length l -> (forall i, i < k -> (nth i l 0 <= m)%Qc) ->
  k <= length (filter (fun x => qc_leb x m) l).
Proof.
  intros _ Hk H. rewrite <- (firstn_skipn k l), filter_app_length.
  rewrite filter_all; [rewrite firstn_length; lia|].
  intros x Hx. apply qc_leb_le. destruct (In_nth _ _ 0%Qc Hx) as (i & Hi & <-). rewrite firstn_length in Hi.
  replace (nth i (firstn k l) 0%Qc) with (nth i l 0%Qc); [apply H; lia|].
  rewrite <- (firstn_skipn k l) at 1. rewrite app_nth1; [reflexivity|]. rewrite firstn_length. lia.
Qed.
Lemma sorted_above l k m : StronglySorted Qcle l -> k <= length l -> (forall i, length l - k <= i < length l -> (m <= nth i l 0)%Qc) ->
  k <= length (filter (fun x => qc_leb m x) l).
Proof.
  intros _ Hk H. rewrite <- (firstn_skipn (length l - k) l), filter_app_length.
  rewrite (filter_all _ (skipn _ l)); [rewrite skipn_length; lia|].
  intros x Hx. apply qc_leb_le. destruct (In_nth _ _ 0%Qc Hx) as (i & Hi & <-). rewrite skipn_length in Hi.
  replace (nth i (skipn (length l - k) l) 0%Qc) with (nth (length l - k + i) l 0%Qc); [apply H; lia|].
  assert (G : nth (length l - k + i) (firstn (length l - k) l ++ skipn (length l - k) l) 0%Qc = nth i (skipn (length l - k) l) 0%Qc)
    by (rewrite app_nth2; rewrite firstn_length; [f_equal; lia|lia]). now rewrite firstn_skipn in G.
Qed.

Lemma half_between a b : (a <= b)%Qc -> (a <= (a + b) / (1 + 1) <= b)%Qc.
Proof.
  intros H. assert (T : (0 < / (1 + 1))%Qc) by reflexivity.
  assert (E : forall x : Qc, ((x + x) / (1 + 1) = x)%Qc) by (intros x; field; discriminate).
  split.
  - rewrite <- (E a) at 1. unfold Qcdiv. apply Qcmult_le_compat_r; [|now apply Qclt_le_weak].
    apply Qcplus_le_compat; [apply Qcle_refl|exact H].
  - rewrite <- (E b) at 2. unfold Qcdiv. apply Qcmult_le_compat_r; [|now apply Qclt_le_weak].
    apply Qcplus_le_compat; [exact H|apply Qcle_refl].
Qed.

Lemma median_spec l : l <> [] -> is_median l (median l).
Proof.
  intros Hl. assert (L : length l <> 0) by (destruct l; [congruence|discriminate]).
  pose proof (qsorted_sorted l) as So. pose proof (Permutation_length (qsorted_perm l)) as Le.
  unfold is_median. rewrite <- !(filter_perm_length _ _ _ (qsorted_perm l)). set (s := qsorted l) in *.
  unfold median. fold s. cbv zeta. destruct (Nat.even (length l)) eqn:Ev.
  - apply Nat.even_spec in Ev as [h Eh]. rewrite Eh, Nat.mul_comm, Nat.div_mul by lia. rewrite Nat.mul_comm.
    assert (Hh : h <> 0) by lia.
    destruct (half_between (nth (h - 1) s 0%Qc) (nth h s 0%Qc)) as [B1 B2]; [apply sorted_nth; [exact So|lia|lia]|].
    split.
    + apply Nat.mul_le_mono_l, sorted_below; [exact So|lia|]. intros i Hi. eapply Qcle_trans; [|exact B1].
      apply sorted_nth; [exact So|lia|lia].
    + apply Nat.mul_le_mono_l, sorted_above; [exact So|lia|]. intros i Hi. eapply Qcle_trans; [exact B2|].
      apply sorted_nth; [exact So|lia|lia].
  - assert (Od : Nat.odd (length l) = true) by (unfold Nat.odd; now rewrite Ev). apply Nat.odd_spec in Od as [h Eh].
    replace (length l / 2) with h by (apply (Nat.div_unique _ 2 h 1); lia).
    assert (length l <= 2 * (h + 1)) by lia.
    split; apply (Nat.le_trans _ (2 * (h + 1))); try assumption; apply Nat.mul_le_mono_l.
    + apply sorted_below; [exact So|lia|]. intros i Hi. apply sorted_nth; [exact So|lia|lia].
    + apply sorted_above; [exact So|lia|]. intros i Hi. apply sorted_nth; [exact So|lia|lia].
Qed.

Lemma median_ge l x : l <> [] -> (forall y, In y l -> (x <= y)%Qc) -> (x <= median l)%Qc.
Proof.
  intros Hl H. destruct (median_spec l Hl) as [M _]. destruct (filter (fun y => qc_leb y (median l)) l) as [|y r] eqn:E.
  - destruct l; [congruence|cbn in M; lia].
  - assert (I : In y (filter (fun y => qc_leb y (median l)) l)) by (rewrite E; now left).
    apply filter_In in I as [I1 I2]. apply qc_leb_le in I2. eapply Qcle_trans; [apply H, I1|exact I2].
Qed.
Lemma median_gt l x : l <> [] -> (forall y, In y l -> (x < y)%Qc) -> (x < median l)%Qc.
Proof.
  intros Hl H. destruct (median_spec l Hl) as [M _]. destruct (filter (fun y => qc_leb y (median l)) l) as [|y r] eqn:E.
  - destruct l; [congruence|cbn in M; lia].
  - assert (I : In y (filter (fun y => qc_leb y (median l)) l)) by (rewrite E; now left).
    apply filter_In in I as [I1 I2]. apply qc_leb_le in I2. eapply Qclt_le_trans; [apply H, I1|exact I2].
Qed.

(** ** The rule of validation *)

Fixpoint vstate (patience : Z) (best : option Qc) (bad : nat) (costs : list Qc) : option Qc * nat :=
  match costs with
  | [] => (best, bad)
  | c :: cs =>
    if is_improvement best c then vstate patience (Some c) 0 cs
    else if (0 <=? patience)%Z && (patience <? Z.of_nat (S bad))%Z then vstate patience best 0 cs
    else vstate patience best (S bad) cs
  end.
Definition verdict_of (patience : Z) (x : option Qc * nat) (c : Qc) : verdict :=
  if is_improvement (fst x) c then Improved
  else if (0 <=? patience)%Z && (patience <? Z.of_nat (S (snd x)))%Z then Annealed else Waited.
Definition vnext (x : option Qc * nat) (c : Qc) (v : verdict) : option Qc * nat :=
  match v with Improved => (Some c, 0) | Waited => (fst x, S (snd x)) | Annealed => (fst x, 0) end.

Lemma verdicts_snoc P : forall cs b k c,
  verdicts P b k (cs ++ [c]) = verdicts P b k cs ++ [(c, verdict_of P (vstate P b k cs) c)].
Proof.
  induction cs as [|x cs IH]; intros b k c; cbn [app verdicts vstate].
  - unfold verdict_of. cbn [fst snd]. destruct (is_improvement b c); [reflexivity|].
    destruct (_ && _); reflexivity.
  - destruct (is_improvement b x); [now rewrite IH|]. destruct (_ && _); now rewrite IH.
Qed.
Lemma vstate_snoc P : forall cs b k c,
  vstate P b k (cs ++ [c]) = vnext (vstate P b k cs) c (verdict_of P (vstate P b k cs) c).
Proof.
  induction cs as [|x cs IH]; intros b k c; cbn [app vstate].
  - unfold verdict_of. cbn [fst snd]. destruct (is_improvement b c); [reflexivity|].
    destruct (_ && _); reflexivity.
  - destruct (is_improvement b x); [now rewrite IH|]. destruct (_ && _); now rewrite IH.
Qed.
Lemma verdicts_costs P : forall cs b k, map fst (verdicts P b k cs) = cs.
Proof.
  induction cs as [|x cs IH]; intros b k; cbn [verdicts]; [reflexivity|].
  destruct (is_improvement b x); [|destruct (_ && _)]; cbn [map fst]; now rewrite IH.
Qed.

Lemma is_improvement_spec b c : is_improvement (Some b) c = qc_ltb c (improvement_factor * b)%Qc.
Proof. reflexivity. Qed.

Lemma set_last_snoc h c v w : set_last (h ++ [(c, w)]) v = h ++ [(c, v)].
Proof. unfold set_last. rewrite rev_app_distr. cbn [rev app]. now rewrite rev_involutive. Qed.

Section Training.
Context {params accum iter isaved batch : Type}.
Variable next_batch : iter -> option batch * iter.
Variable update : params -> accum -> Qc -> batch -> params * accum.
Variable perplexity : params -> Qc.
Variable isave : iter -> isaved.
Variable irestore : iter -> isaved -> result iter.
Variable o : toptions.
Notation tstate := (@tstate params accum iter isaved batch).
Notation file := (@file params accum isaved).
Notation event := (@event batch).
Notation step := (step next_batch update perplexity isave irestore o).
Notation steps := (steps next_batch update perplexity isave irestore o).
Notation validate := (validate perplexity isave irestore o).
Notation finish_validation := (finish_validation irestore o).
Notation get_state := (get_state isave).
Notation reset_state := (reset_state irestore).

Lemma history_app (l l' : list event) : history (l ++ l') = fold_left history_event l' (history l).
Proof. unfold history. apply fold_left_app. Qed.
Lemma history_snoc (l : list event) e : history (l ++ [e]) = history_event (history l) e.
Proof. now rewrite history_app. Qed.

(** Events that do not tell about costs *)
Definition quiet (e : event) : Prop :=
  match e with EvUpdate _ | EvSample _ | EvCenter | EvIgnored _ => True | _ => False end.
Lemma history_quiet l l' : Forall quiet l' -> history (l ++ l') = history l.
Proof.
  intros H. rewrite history_app. induction H as [|e l' He _ IH]; [reflexivity|]. cbn [fold_left].
  destruct e; try contradiction; exact IH.
Qed.

(** What [validate] does when it is not the end of a validation *)
Record looks (t t' : tstate) : Prop := {
  l_params : t_params t' = t_params t; l_accum : t_accum t' = t_accum t; l_lr : t_lr t' = t_lr t;
  l_iter : t_iter t' = t_iter t; l_epoch : t_epoch t' = t_epoch t; l_update : t_update t' = t_update t;
  l_costs : t_costs t' = t_costs t; l_candidate : t_candidate t' = t_candidate t; l_file : t_file t' = t_file t;
  l_stopper : t_stopper t' = t_stopper t; l_log : exists es, t_log t' = t_log t ++ es /\ Forall quiet es
}.
Lemma looks_refl t : looks t t.
Proof. constructor; try reflexivity. exists []. now rewrite app_nil_r. Qed.
Lemma looks_trans a b c : looks a b -> looks b c -> looks a c.
Proof.
  intros [A1 A2 A3 A4 A5 A6 A7 A8 A9 A10 (e & A11 & A12)] [B1 B2 B3 B4 B5 B6 B7 B8 B9 B10 (e' & B11 & B12)].
  constructor; try congruence. exists (e ++ e'). rewrite app_assoc, <- A11. split; [exact B11|]. now apply Forall_app.
Qed.
Lemma looks_event e t : quiet e -> looks t (add_event e t).
Proof. intros He. constructor; try reflexivity. exists [e]. split; [reflexivity|]. now constructor. Qed.
Lemma looks_samples l c t : looks t (set_samples l c t).
Proof. constructor; try reflexivity. exists []. cbn. now rewrite app_nil_r. Qed.
Lemma get_state_looks (t t' : tstate) : looks t t' -> get_state t' = get_state t.
Proof. intros [A1 A2 A3 A4 A5 A6 A7 A8 A9 A10 _]. unfold TrainerModel.get_state. congruence. Qed.

Notation sched w t := (is_scheduled (o_updates o) (o_frequency o) w (t_update t)).

Lemma validate_cases t t' : validate t = Ok t' ->
  (looks t t' /\ (t_center t' = t_center t \/ t_center t' = None \/ t_center t' = Some (get_state t)) /\
   (t_samples t' = t_samples t \/ t_samples t' = [] \/ t_samples t' = t_samples t ++ [perplexity (t_params t)])) \/
  (exists t1 f, looks t t1 /\ t_samples t1 = t_samples t ++ [perplexity (t_params t)] /\ t_center t1 = Some f /\
    (t_center t = Some f \/ t_center t = None /\ f = get_state t) /\ o_validate o = true /\
    o_samples o <= length (t_samples t1) /\ finish_validation t1 = Ok t').
Proof.
  unfold TrainerModel.validate. destruct (o_validate o) eqn:Ev; cbn [negb]; [|intros [= <-]; left; auto using looks_refl].
  destruct (sched (o_samples o - 1) t); cbn [negb]; [|intros [= <-]; left; auto using looks_refl].
  set (t1 := add_event (EvSample (perplexity (t_params t))) _).
  assert (L1 : looks t t1).
  { eapply looks_trans; [apply looks_samples|apply looks_event; exact I]. }
  change (t_update t1) with (t_update t).
  destruct (sched (o_samples o / 2) t); cbn [negb]; [|intros [= <-]; left; split; [exact L1|]; cbn; auto].
  set (t2 := match t_center t1 with None => _ | Some _ => _ end).
  assert (L2 : looks t t2 /\ t_samples t2 = t_samples t1 /\ exists f, t_center t2 = Some f /\
    (t_center t = Some f \/ t_center t = None /\ f = get_state t)).
  { unfold t2. change (t_center t1) with (t_center t). destruct (t_center t) as [f|] eqn:Ec.
    - split; [exact L1|]. split; [reflexivity|]. exists f. cbn. auto.
    - split; [|split; [reflexivity|]].
      + eapply looks_trans; [exact L1|]. eapply looks_trans; [apply looks_samples|apply looks_event; exact I].
      + exists (get_state t). split; [|now right]. cbn. f_equal. }
  destruct L2 as (L2 & S2 & f & C2 & F2).
  replace (t_update t2) with (t_update t) by (symmetry; apply (l_update _ _ L2)).
  destruct (sched 0 t); cbn [negb].
  2:{ intros [= <-]. left. split; [exact L2|]. split; [|rewrite S2; cbn; auto]. destruct F2 as [F2|[F2 F3]]; [left|right; right]; congruence. }
  destruct (Nat.ltb_spec (length (t_samples t2)) (o_samples o)) as [Hl|Hl].
  - intros [= <-]. left. split; [|cbn; auto]. eapply looks_trans; [exact L2|].
    eapply looks_trans; [apply looks_samples|apply looks_event; exact I].
  - intros H. right. exists t2, f. rewrite S2 in *. auto 10.
Qed.

Definition full (f : file) (costs : list Qc) : Prop :=
  exists p a lr i e u, f = mkFile (Some p) (Some (mkTgroup (Some e) (Some u) (Some costs))) (Some i) (Some (Some lr, Some a)).
Lemma full_get_state (t : tstate) : full (get_state t) (t_costs t).
Proof. unfold full, TrainerModel.get_state. do 6 eexists. reflexivity. Qed.
Lemma full_with_costs f cs cs' : full f cs -> full (with_costs f cs') cs'.
Proof. intros (p & a & lr & i & e & u & ->). cbn. do 6 eexists. reflexivity. Qed.

Lemma reset_full (t t' : tstate) cs : full (t_file t) cs -> reset_state t = Ok t' ->
  t_costs t' = cs /\ t_candidate t' = last_index cs /\ t_file t' = t_file t /\ t_samples t' = t_samples t /\
  t_center t' = t_center t /\ t_stopper t' = t_stopper t /\ t_log t' = t_log t /\
  f_params (t_file t) = Some (t_params t') /\ f_optimizer (t_file t) = Some (Some (t_lr t'), Some (t_accum t')) /\
  f_trainer (t_file t) = Some (mkTgroup (Some (t_epoch t')) (Some (t_update t')) (Some cs)) /\
  exists i, f_iter (t_file t) = Some i /\ irestore (t_iter t) i = Ok (t_iter t').
Proof.
  intros (p & a & lr & i & e & u & Ef). unfold TrainerModel.reset_state. rewrite Ef. cbn [f_params f_trainer g_epoch g_update g_costs f_iter f_optimizer].
  destruct (irestore (t_iter t) i) as [it|] eqn:Ei; cbn [bind]; [|discriminate]. intros [= <-].
  cbn [t_costs t_candidate t_file t_samples t_center t_stopper t_log t_params t_lr t_accum t_epoch t_update t_iter].
  repeat (split; [reflexivity|]). exists i. auto.
Qed.

(** What the end of a validation does *)
Definition candidate_ok (t : tstate) (x : option Qc * nat) : Prop :=
  match fst x with
  | None => t_candidate t = None /\ t_costs t = [] /\ snd x = 0
  | Some b => exists i, t_candidate t = Some i /\ nth_error (t_costs t) i = Some b /\ length (t_costs t) = S (i + snd x) /\
                full (t_file t) (firstn (S i) (t_costs t))
  end.

Lemma last_index_snoc {A} (l : list A) x : last_index (l ++ [x]) = Some (length l).
Proof. destruct l; [reflexivity|]. unfold last_index. cbn [app length]. rewrite app_length. cbn [length]. f_equal. lia. Qed.
Lemma last_index_firstn {A} (l : list A) i : i < length l -> last_index (firstn (S i) l) = Some i.
Proof.
  intros Hi. pose proof (firstn_length (S i) l) as E. destruct (firstn (S i) l) as [|x r] eqn:Ef; [cbn [length] in E; lia|].
  unfold last_index. apply f_equal. cbn [length] in *. lia.
Qed.

Lemma finish_cases (t t' : tstate) f x : t_center t = Some f -> full f (t_costs t) -> candidate_ok t x -> finish_validation t = Ok t' ->
  let c := median (t_samples t) in
  let v := verdict_of (o_patience o) x c in
  candidate_ok t' (vnext x c v) /\ t_samples t' = [] /\ t_center t' = None /\
  match v with
  | Improved => t' = set_samples [] None (set_candidate_state (with_costs f (t_costs t ++ [c]))
                       (add_event (EvValidation c) (set_costs (t_costs t ++ [c]) t)))
  | Waited => t' = set_samples [] None (add_event (EvValidation c) (set_costs (t_costs t ++ [c]) t))
  | Annealed =>
    exists cs i, full (t_file t) cs /\
    t_costs t' = cs /\ t_file t' = t_file t /\ f_params (t_file t) = Some (t_params t') /\
    t_log t' = t_log t ++ [EvValidation c; EvAnneal (t_lr t) (t_lr t')] /\ t_lr t' = (t_lr t / (1 + 1))%Qc /\
    (exists lr, f_optimizer (t_file t) = Some (Some lr, Some (t_accum t'))) /\
    f_trainer (t_file t) = Some (mkTgroup (Some (t_epoch t')) (Some (t_update t')) (Some cs)) /\
    f_iter (t_file t) = Some i /\ irestore (t_iter t) i = Ok (t_iter t') /\
    t_stopper t' = improvement_ceased (t_stopper t) (candidate_cost t')
  end.
Proof.
  intros Ec Hf Hx. unfold TrainerModel.finish_validation. rewrite Ec. cbv zeta.
  set (c := median (t_samples t)). set (costs := t_costs t ++ [c]).
  set (t1 := add_event (EvValidation c) (set_costs costs t)).
  assert (H1 : has_improved t1 = Ok (is_improvement (fst x) c)).
  { unfold has_improved. cbn [t1 add_event set_costs t_costs t_candidate]. unfold costs at 1. rewrite rev_app_distr. cbn [rev app].
    unfold candidate_ok in Hx. destruct (fst x) as [b|].
    - destruct Hx as (i & -> & Hb & Hl & _). unfold py_index, costs.
      rewrite nth_error_app1 by (apply nth_error_Some; congruence). rewrite Hb. reflexivity.
    - destruct Hx as (-> & _). reflexivity. }
  rewrite H1. cbn [bind]. unfold verdict_of. destruct (is_improvement (fst x) c) eqn:Ei.
  - set (t2 := set_candidate_state _ t1).
    assert (E2 : (if (0 <=? o_patience o)%Z then
               do k <- validations_since_candidate t2;
               if (o_patience o <? k)%Z then decrease_learning_rate irestore t2 else Ok t2
             else Ok t2) = Ok t2).
    { destruct (Z.leb_spec 0 (o_patience o)) as [Hp|Hp]; [|reflexivity].
      unfold validations_since_candidate. cbn [t2 set_candidate_state add_event t_costs t_candidate t1 set_costs].
      unfold costs. rewrite last_index_snoc, app_length. cbn [length].
      destruct (t_costs t ++ [c]) eqn:E; [destruct (t_costs t); discriminate|]. cbn [bind].
      destruct (Z.ltb_spec (o_patience o) (Z.of_nat (length (t_costs t) + 1) - 1 - Z.of_nat (length (t_costs t)))); [lia|reflexivity]. }
    rewrite E2. cbn [bind]. intros [= <-]. split; [|split; [reflexivity|split; [reflexivity|reflexivity]]].
    cbn [vnext candidate_ok fst snd set_samples t_candidate t_costs t_file t2 set_candidate_state add_event t1 set_costs].
    exists (length (t_costs t)). unfold costs. rewrite last_index_snoc. split; [reflexivity|].
    split; [rewrite nth_error_app2, Nat.sub_diag by lia; reflexivity|]. split; [rewrite app_length; cbn; lia|].
    rewrite firstn_all2 by (rewrite app_length; cbn; lia). now apply full_with_costs with (cs := t_costs t).
  - unfold is_improvement in Ei. unfold candidate_ok in Hx. destruct (fst x) as [b|] eqn:Eb; [|discriminate].
    destruct Hx as (i & Hi & Hb & Hl & Hfull).
    assert (V : validations_since_candidate t1 = Ok (Z.of_nat (S (snd x)))).
    { unfold validations_since_candidate. cbn [t1 add_event set_costs t_costs t_candidate]. rewrite Hi.
      unfold costs. destruct (t_costs t ++ [c]) eqn:E; [destruct (t_costs t); discriminate|]. rewrite <- E, app_length.
      cbn [length]. f_equal. lia. }
    rewrite V. cbn [bind]. destruct (0 <=? o_patience o)%Z eqn:Hp; cbn [andb].
    + destruct (o_patience o <? Z.of_nat (S (snd x)))%Z.
      * unfold decrease_learning_rate. destruct (reset_state t1) as [t2|] eqn:Er; cbn [bind]; [|discriminate].
        intros [= <-]. destruct (reset_full t1 t2 _ Hfull Er) as (A1 & A2 & A3 & A4 & A5 & A6 & A7 & A8 & A9 & A10 & i' & A11 & A12).
        split; [|split; [reflexivity|split; [reflexivity|]]].
        -- unfold candidate_ok. cbn [vnext fst snd]. rewrite Eb.
           cbn [set_samples add_event t_candidate t_costs t_file]. exists i. rewrite A1, A2, A3.
           assert (Hil : i < length (t_costs t)) by lia.
           split; [now apply last_index_firstn|]. split.
           { rewrite <- (firstn_skipn (S i) (t_costs t)), nth_error_app1 in Hb; [exact Hb|]. rewrite firstn_length. lia. }
           split; [rewrite firstn_length; lia|]. rewrite firstn_firstn, Nat.min_id. exact Hfull.
        -- exists (firstn (S i) (t_costs t)), i'. cbn [set_samples add_event t_costs t_file t_params t_log t_lr t_accum t_epoch t_update t_iter t_stopper].
           split; [exact Hfull|]. split; [exact A1|]. split; [exact A3|]. split; [exact A8|].
           split; [rewrite A7; cbn [t1 add_event set_costs t_log]; now rewrite <- app_assoc|]. split; [reflexivity|].
           split; [eauto|]. split; [exact A10|]. split; [exact A11|]. split; [exact A12|].
           rewrite A6. reflexivity.
      * intros [= <-]. split; [|auto]. unfold candidate_ok. cbn [vnext fst snd]. rewrite Eb. exists i.
        cbn [set_samples add_event set_costs t_candidate t_costs t_file t1]. unfold costs. split; [exact Hi|].
        split; [rewrite nth_error_app1 by (apply nth_error_Some; congruence); exact Hb|]. split; [rewrite app_length; cbn; lia|].
        rewrite firstn_app. replace (S i - length (t_costs t)) with 0 by lia. cbn [firstn]. rewrite app_nil_r. exact Hfull.
    + intros [= <-]. split; [|auto]. unfold candidate_ok. cbn [vnext fst snd]. rewrite Eb. exists i.
      cbn [set_samples add_event set_costs t_candidate t_costs t_file t1]. unfold costs. split; [exact Hi|].
      split; [rewrite nth_error_app1 by (apply nth_error_Some; congruence); exact Hb|]. split; [rewrite app_length; cbn; lia|].
      rewrite firstn_app. replace (S i - length (t_costs t)) with 0 by lia. cbn [firstn]. rewrite app_nil_r. exact Hfull.
Qed.
End Training.
