(** Properties C32-C36: the training process. *)
From Coq Require Import QArith Qcanon.
From Verif Require Import Base ListLib BaseLib QcLib TrainerModel TrainerSpec TrainerProofs TrainerRuns TrainerStops TrainerSegments TrainerResume.
Local Open Scope nat_scope.

(** ** C32: validation happens as often as requested *)

(** In an epoch of [n] updates a task with frequency [f] is performed at the updates
    where a new [f]-th part of the epoch is completed. *)
Theorem C32_schedule n f : n <> 0 -> f <> 0 ->
  (forall u, is_scheduled n f 0 u = true <-> exists k, completes n f k u) /\
  length (filter (is_scheduled n f 0) (seq 1 n)) = Nat.min f n /\
  is_scheduled n f 0 n = true /\
  forall w u, is_scheduled n f w u = true <-> exists d, d <= w /\ exists k, completes n f k (u + d).
Proof.
  intros Hn Hf. split; [intros u; apply scheduled_completes; assumption|]. split; [|split].
  - destruct (Nat.le_gt_cases f n) as [H|H].
    + rewrite (scheduled_count n f n Hn H), Nat.mul_comm, Nat.div_mul by exact Hn. lia.
    + rewrite filter_all; [rewrite seq_length; lia|]. intros u _. apply scheduled_all; lia.
  - apply scheduled_now; [exact Hn|]. rewrite Nat.mul_comm, Nat.mod_mul by exact Hn. lia.
  - intros w u. rewrite (scheduled_within n f w u Hn). split; intros (d & H1 & H2); exists d; (split; [exact H1|]).
    + now apply scheduled_completes.
    + now apply scheduled_completes.
Qed.
Print Assumptions C32_schedule.

Example C32_schedule_example :
  filter (is_scheduled 9 2 0) (seq 1 9) = [5; 9] /\ completes 9 2 1 5 /\ is_scheduled 9 2 1 4 = true /\ is_scheduled 9 2 1 3 = false.
Proof. repeat split; try reflexivity. - cbn. lia. - intros u' H. cbn in H. lia. Qed.

(** ** Concrete training: the parameters are the number of updates done and the
    perplexity is found in a table; an epoch has [n] mini-batches. *)
Section Toy.
Variable table : list Z.
Variable epoch_size : nat.
Definition toy_next (i : nat) : option nat * nat := if i <? epoch_size then (Some i, S i) else (None, 0).
Definition toy_update (p : nat) (a : unit) (lr : Qc) (b : nat) : nat * unit := (S p, a).
Definition toy_perplexity (p : nat) : Qc := Q2Qc (inject_Z (nth p table 1%Z)).
Definition toy_restore (i s : nat) : result nat := Ok s.
Definition toy_file : @file nat unit nat := mkFile None None None None.
Definition toy_init c mx mn ann : result (@tstate nat unit nat nat nat) := initialize toy_restore 0 tt 1%Qc 0 (create_stopper c mx mn ann) toy_file.
Definition toy_train o fuel c mx mn ann :=
  do t <- toy_init c mx mn ann; train toy_next toy_update toy_perplexity (fun i => i) toy_restore o fuel (AtEpoch, t).
End Toy.

(** The expectation that a model is saved when validation has been requested is
    false: if there are fewer updates between validations than samples are
    collected, every validation is ignored. *)
Theorem C32_saved_refuted :
  exists t, toy_train [] 5 (mkToptions 5 1 4 7 true) 100 CEpochCount 3 0 0 = Ok t /\
    t_params t = 15 /\ history (t_log t) = [] /\ t_file t = toy_file /\ candidate_cost t = None.
Proof.
  assert (G : match toy_train [] 5 (mkToptions 5 1 4 7 true) 100 CEpochCount 3 0 0 with
    | Ok t => t_params t = 15 /\ history (t_log t) = [] /\ t_file t = toy_file /\ candidate_cost t = None
    | Err _ => False end) by (vm_compute; auto).
  destruct (toy_train _ _ _ _ _ _ _ _) as [t|]; [exists t; auto|contradiction].
Qed.
Print Assumptions C32_saved_refuted.

Section Training.
Context {params accum iter isaved batch : Type}.
Variable next_batch : iter -> option batch * iter.
Variable update : params -> accum -> Qc -> batch -> params * accum.
Variable perplexity : params -> Qc.
Variable isave : iter -> isaved.
Variable irestore : iter -> isaved -> result iter.
Variable o : toptions.
Notation tstate := (@tstate params accum iter isaved batch).
Notation file := (@file params accum isaved).
Notation step := (step next_batch update perplexity isave irestore o).
Notation steps := (steps next_batch update perplexity isave irestore o).
Notation train := (train next_batch update perplexity isave irestore o).
Notation hist t := (history (t_log t)).

(** Training has been started from [t0], a new training state or one read from [f],
    and is now in state [t]. *)
Variables (p0 : params) (a0 : accum) (r0 : Qc) (i0 : iter) (f0 : file).
Variables (crit : criterion) (mx mn : nat) (maxann : Z).
Variable t0 : tstate.
Hypothesis Hinit : initialize irestore p0 a0 r0 i0 (create_stopper crit mx mn maxann) f0 = Ok t0.

Lemma run_winv k ph t : steps k (AtEpoch, t0) = Ok (ph, t) -> winv perplexity o (candidate_cost t0) (t_lr t0) t.
Proof.
  intros E. change (winv perplexity o (candidate_cost t0) (t_lr t0) (snd (ph, t))).
  eapply (steps_inv next_batch update perplexity isave irestore o (fun x => winv perplexity o (candidate_cost t0) (t_lr t0) (snd x))); [| |exact E].
  - intros x y Hx Hy. eapply winv_step; eassumption.
  - apply (winv_initial perplexity irestore o _ _ _ _ _ _ _ Hinit).
Qed.

(** ** C33: the saved model is the best one *)

Lemma verdicts_best P : forall cs best bad b, (forall b, best = Some b -> (0 < b)%Qc) -> (forall c, In c cs -> (0 < c)%Qc) ->
  final_best best (verdicts P best bad cs) = Some b ->
  (forall b0, best = Some b0 -> (b <= b0)%Qc) /\ (best = Some b \/ In b cs) /\ forall c, In c cs -> (Q2Qc (999 # 1000) * b <= c)%Qc.
Proof.
  induction cs as [|c cs IH]; intros best bad b Hb Hc; cbn [verdicts].
  - cbn [final_best]. intros ->. split; [intros b0 [= ->]; apply Qcle_refl|]. split; [auto|contradiction].
  - assert (Pc : (0 < c)%Qc) by (apply Hc; now left). assert (Hc' : forall x, In x cs -> (0 < x)%Qc) by (intros x Hx; apply Hc; now right).
    assert (L : forall x, (0 < x)%Qc -> (Q2Qc (999 # 1000) * x <= x)%Qc) by (intros x Hx; apply Qclt_le_weak; now apply factor_lt).
    assert (Mono : forall x y, (x <= y)%Qc -> (Q2Qc (999 # 1000) * x <= Q2Qc (999 # 1000) * y)%Qc).
    { intros x y Hxy. rewrite (Qcmult_comm _ x), (Qcmult_comm _ y). apply Qcmult_le_compat_r; [exact Hxy|discriminate]. }
    destruct (is_improvement best c) eqn:Ei.
    + cbn [final_best]. intros H. apply IH in H as (I1 & I2 & I3); [|intros x [= <-]; exact Pc|exact Hc'].
      specialize (I1 c eq_refl). split; [|split].
      * intros b0 ->. cbn [is_improvement] in Ei. destruct (Qclt_le_dec c _) as [G|]; [|discriminate].
        eapply Qcle_trans; [exact I1|]. eapply Qcle_trans; [apply Qclt_le_weak; exact G|]. apply L. now apply Hb.
      * right. destruct I2 as [[= ->]|I2]; [now left|now right].
      * intros x [<-|Hx]; [|now apply I3]. eapply Qcle_trans; [apply Mono; exact I1|]. now apply L.
    + destruct best as [b0|]; [|discriminate]. cbn [is_improvement] in Ei. destruct (Qclt_le_dec c _) as [|G]; [discriminate|].
      assert (R : forall bad' b1, final_best (Some b0) (verdicts P (Some b0) bad' cs) = Some b1 -> b1 = b ->
         (forall b2, Some b0 = Some b2 -> (b <= b2)%Qc) /\ (Some b0 = Some b \/ In b (c :: cs)) /\ forall x, In x (c :: cs) -> (Q2Qc (999 # 1000) * b <= x)%Qc).
      { intros bad' b1 H ->. apply IH in H as (I1 & I2 & I3); [|exact Hb|exact Hc']. split; [exact I1|].
        split; [destruct I2; [now left|right; now right]|]. intros x [<-|Hx]; [|now apply I3].
        eapply Qcle_trans; [apply Mono; apply (I1 b0 eq_refl)|exact G]. }
      destruct (_ && _); cbn [final_best]; intros H; eapply R; eauto.
Qed.

(** The costs decide when the model is saved (improvement of more than 0.1 %) and
    when the learning rate is decreased, as the rule [verdicts] says; the candidate
    cost is the last improvement; no cost has been more than 0.1 % better. *)
Theorem C33_best k ph t : (forall p, (0 < perplexity p)%Qc) -> (forall b, candidate_cost t0 = Some b -> (0 < b)%Qc) ->
  steps k (AtEpoch, t0) = Ok (ph, t) ->
  let costs := map fst (hist t) in
  hist t = verdicts (o_patience o) (candidate_cost t0) 0 costs /\
  candidate_cost t = final_best (candidate_cost t0) (hist t) /\
  forall b, candidate_cost t = Some b ->
    (candidate_cost t0 = Some b \/ In b costs) /\ (forall b0, candidate_cost t0 = Some b0 -> (b <= b0)%Qc) /\
    forall c, In c costs -> (Q2Qc (999 # 1000) * b <= c)%Qc.
Proof.
  intros Hpos Hb0 E costs. pose proof (run_winv _ _ _ E) as W. pose proof (w_history _ _ _ _ _ W) as H1.
  destruct (winv_best _ _ _ _ _ W) as [H2 _]. split; [exact H1|]. split; [exact H2|]. intros b Hb. rewrite H2, H1 in Hb.
  apply verdicts_best in Hb as (A & B & C); [auto|exact Hb0|]. intros c Hc. eapply costs_positive; [exact Hpos|exact W|exact Hc].
Qed.

(** What is in the file: the initial contents, or a state in which the training was
    earlier, with a cost history that ends in the candidate cost. *)
Theorem C33_saved_state k ph t : steps k (AtEpoch, t0) = Ok (ph, t) ->
  (t_file t = f0 /\ candidate_cost t = candidate_cost t0) \/
  exists j ph' t' costs, j <= k /\ steps j (AtEpoch, t0) = Ok (ph', t') /\ holds isave (t_file t) t' costs /\
    (o_validate o = true -> exists pre b, costs = pre ++ [b] /\ candidate_cost t = Some b).
Proof.
  intros E. destruct (winv_initial perplexity irestore o _ _ _ _ _ _ _ Hinit) as (W & H1 & H2 & H3 & H4 & H5).
  destruct (file_source next_batch update perplexity isave irestore o _ _ (AtEpoch, t0) k W H3 ph t E) as [[[A1 A2]|(costs & A & B)] _].
  - left. cbn [snd] in *. split; [congruence|exact A2].
  - right. destruct A as (j & ph' & t' & A1 & A2 & A3). exists j, ph', t', costs. auto.
Qed.

(** A validation: [d] updates after the previous validation (or the start) comes the
    next validation point. If there are enough updates in between, the cost is the
    median of the perplexities after the last updates, and if it is an improvement,
    the file will contain the state at the center of them. Otherwise nothing
    happens. *)
Theorem C33_validation k t d ph' t' : o_validate o = true -> o_updates o <> 0 -> o_frequency o <> 0 -> o_samples o <> 0 ->
  (forall p, (0 < perplexity p)%Qc) -> (forall b, candidate_cost t0 = Some b -> (0 < b)%Qc) ->
  steps k (AtEpoch, t0) = Ok (InEpoch, t) -> t_samples t = [] -> t_center t = None ->
  next_validation (o_updates o) (o_frequency o) (t_update t) d ->
  steps d (InEpoch, t) = Ok (ph', t') -> after_updates next_batch update d t <> None ->
  t_samples t' = [] /\ t_center t' = None /\
  if d <? o_samples o
  then hist t' = hist t /\ t_file t' = t_file t /\ t_update t' = t_update t + d /\
       after_updates next_batch update d t = Some (t_params t', t_accum t', t_iter t')
  else exists c v l, hist t' = hist t ++ [(c, v)] /\ c = median l /\ is_median l c /\
       map Some l = map (fun j => match after_updates next_batch update j t with Some (p, _, _) => Some (perplexity p) | None => None end)
                        (seq (d - o_samples o + 1) (o_samples o)) /\
       match v with
       | Improved => exists tc : tstate, holds isave (t_file t') tc (t_costs t ++ [c]) /\
           after_updates next_batch update (d - o_samples o / 2) t = Some (t_params tc, t_accum tc, t_iter tc) /\
           t_lr tc = t_lr t /\ t_epoch tc = t_epoch t /\ t_update tc = t_update t + (d - o_samples o / 2)
       | _ => t_file t' = t_file t
       end.
Proof.
  intros Hv Hn Hf Hs Hpos Hb0 E C1 C2 Hd E' Ha.
  pose proof (jinv_initial perplexity irestore o crit mx mn 0 maxann _ _ _ _ _ _ Hinit ltac:(lia)) as J0.
  pose proof (jinv_steps next_batch update perplexity isave irestore o Hpos _ Hb0 _ crit mx mn 0 maxann _ _ _ J0 E) as J.
  destruct (Nat.ltb_spec d (o_samples o)) as [Hl|Hl].
  - destruct (seg_few next_batch update perplexity isave irestore o Hv Hn Hf Hs Hpos _ Hb0 _ crit mx mn 0 maxann t d J (conj C1 C2) Hd Hl Ha)
      as (t3 & E3 & D1 & D2 & D3 & D4 & D5 & D6 & D7 & D8 & D9 & D10 & D11).
    rewrite E3 in E'. injection E' as <- <-. auto 10.
  - assert (V := seg_enough next_batch update perplexity isave irestore o Hv Hn Hf Hs Hpos _ Hb0 _ crit mx mn 0 maxann
      t d J (conj C1 C2) Hd ph' t' Hl Ha E'). cbv zeta in V. destruct V as (S' & C' & v & _ & Hh & V1 & V2 & _).
    split; [exact S'|]. split; [exact C'|]. eexists _, v, _. split; [exact Hh|]. split; [reflexivity|].
    split; [apply median_spec; destruct (o_samples o); [congruence|discriminate]|]. split.
    + rewrite map_map. apply map_ext_in. intros j Hj. apply in_seq in Hj. unfold perplexity_after.
      destruct (after_updates next_batch update j t) as [[[p a] it]|] eqn:Ej; [reflexivity|].
      exfalso. eapply (after_le next_batch update t j d); [lia|exact Ha|exact Ej].
    + destruct v; [|apply V2; discriminate|apply V2; discriminate].
      destruct (V1 eq_refl) as (f & Ef & Ft). unfold file_after in Ef.
      destruct (after_updates next_batch update (d - o_samples o / 2) t) as [[[p a] it]|]; [|discriminate].
      exists (mkTstate p a (t_lr t) it (t_epoch t) (t_update t + (d - o_samples o / 2)) (t_costs t) None (t_file t) [] None (t_stopper t) []).
      rewrite Ft. assert (Ef' : f = mkFile (Some p) (Some (mkTgroup (Some (t_epoch t)) (Some (t_update t + (d - o_samples o / 2))) (Some (t_costs t))))
                               (Some (isave it)) (Some (Some (t_lr t), Some a))) by congruence. rewrite Ef'.
      split; [|auto]. unfold holds, with_costs. cbn. auto.
Qed.

(** Nothing but the iterator can fail. *)
Theorem C33_no_exception k : (forall i s, exists i', irestore i s = Ok i') -> exists ph t, steps k (AtEpoch, t0) = Ok (ph, t).
Proof.
  intros Hi. destruct (winv_initial perplexity irestore o _ _ _ _ _ _ _ Hinit) as (W & _).
  destruct (steps_ok next_batch update perplexity isave irestore o (candidate_cost t0) (t_lr t0) k Hi (AtEpoch, t0) W) as [[ph t] E]. eauto.
Qed.

(** ** C34: annealing *)

(** The learning rate has been halved once for each [Annealed] in the history, and
    the history follows the rule [verdicts]. When it is halved, the network, the
    optimizer, the iterator, the epoch and update numbers and the cost history become
    those of the saved model. *)
Theorem C34_annealing k ph t : steps k (AtEpoch, t0) = Ok (ph, t) ->
  hist t = verdicts (o_patience o) (candidate_cost t0) 0 (map fst (hist t)) /\
  t_lr t = halved (length (filter is_annealed (hist t))) (t_lr t0) /\
  forall ph' t' c, step (ph, t) = Ok (ph', t') -> hist t' = hist t ++ [(c, Annealed)] ->
    t_file t' = t_file t /\ t_lr t' = (t_lr t / (1 + 1))%Qc /\
    f_params (t_file t) = Some (t_params t') /\
    (exists lr, f_optimizer (t_file t) = Some (Some lr, Some (t_accum t'))) /\
    (exists b it i, next_batch (t_iter t) = (Some b, it) /\ f_iter (t_file t) = Some i /\ irestore it i = Ok (t_iter t')) /\
    f_trainer (t_file t) = Some (mkTgroup (Some (t_epoch t')) (Some (t_update t')) (Some (t_costs t'))).
Proof.
  intros E. pose proof (run_winv _ _ _ E) as W. split; [apply (w_history _ _ _ _ _ W)|]. split; [apply (w_lr _ _ _ _ _ W)|].
  intros ph' t' c Es Hh.
  assert (Ne : hist t' <> hist t).
  { rewrite Hh. intros H. apply (f_equal (@length _)) in H. rewrite app_length in H. cbn in H. lia. }
  destruct (step_cases _ _ _ _ _ _ _ _ _ _ Es) as [(s & -> & _)|[(it & -> & _)|[(b & it & t1 & s & _ & En & Ev & ->)|(-> & -> & H)]]].
  - now destruct Ne.
  - now destruct Ne.
  - pose proof (winv_update update perplexity o _ _ b it t W) as Wu.
    destruct (update_fields update b it t) as (U1 & U2 & U3 & U4 & U5 & U6). cbv zeta in *.
    pose proof (hist_update update b it t) as U7. cbn [set_stopper t_log t_file t_lr t_params t_accum t_iter t_epoch t_update t_costs] in *.
    destruct (validate_history _ _ _ _ _ _ _ _ Wu Ev) as [(L & H & _)|(c' & Hh' & _ & Hv & _)].
    + congruence.
    + cbv zeta in *. rewrite U7, Hh in Hh'. apply app_inv_head in Hh'. injection Hh' as <- Ev'. rewrite <- Ev' in Hv.
      destruct Hv as (_ & V1 & V2 & V3 & V4 & (i & V5 & V6) & V7 & _). rewrite U3, U6 in *.
      assert (Ui : t_iter (update_minibatch update b it t) = it) by (unfold update_minibatch; destruct (update _ _ _ b); reflexivity).
      rewrite Ui in V6. repeat (split; [assumption|]). split; [exists b, it, i; auto|assumption].
  - destruct H as (A1 & A2 & A3 & A4 & A5 & A6 & A7 & A8 & A9 & A10 & A11). exfalso. apply Ne. destruct (o_validate o) eqn:Hv.
    + destruct A11 as (_ & _ & ->). reflexivity.
    + destruct A11 as (_ & _ & ->). rewrite history_snoc, (w_off _ _ _ _ _ W Hv). reflexivity.
Qed.

(** ** C35: stopping *)

(** Training goes on with the next mini-batch only if the maximum number of epochs
    has not been reached and the stopping criterion is not met (or too few epochs
    have been done), and ends only if one of these is the case. *)
Theorem C35_stops k ph t : (forall p, (0 < perplexity p)%Qc) -> (forall b, candidate_cost t0 = Some b -> (0 < b)%Qc) ->
  steps k (AtEpoch, t0) = Ok (ph, t) ->
  match ph with
  | InEpoch => t_epoch t <= mx /\ (t_epoch t <= min_epochs crit mn \/ ~ should_stop crit maxann (candidate_cost t0) (hist t))
  | Done => mx < t_epoch t \/ (min_epochs crit mn < t_epoch t /\ should_stop crit maxann (candidate_cost t0) (hist t))
  | _ => True
  end.
Proof.
  intros Hpos Hb0 E.
  pose proof (jinv_initial perplexity irestore o crit mx mn 0 maxann _ _ _ _ _ _ Hinit ltac:(lia)) as J0.
  pose proof (jinv_steps next_batch update perplexity isave irestore o Hpos _ Hb0 _ crit mx mn 0 maxann _ _ _ J0 E) as J.
  pose proof (j_phase _ _ _ _ _ _ _ _ _ _ J) as H. cbn [fst snd] in H. destruct ph; auto.
Qed.

(** An epoch ends when the mini-batches run out, or the criterion is met. *)
Theorem C35_epoch k t t' : (forall p, (0 < perplexity p)%Qc) -> (forall b, candidate_cost t0 = Some b -> (0 < b)%Qc) ->
  steps k (AtEpoch, t0) = Ok (InEpoch, t) -> step (InEpoch, t) = Ok (EndEpoch, t') ->
  (exists it, next_batch (t_iter t) = (None, it) /\ t' = set_iter it t) \/
  (min_epochs crit mn < t_epoch t' /\ should_stop crit maxann (candidate_cost t0) (hist t')).
Proof.
  intros Hpos Hb0 E Es.
  pose proof (jinv_initial perplexity irestore o crit mx mn 0 maxann _ _ _ _ _ _ Hinit ltac:(lia)) as J0.
  pose proof (jinv_steps next_batch update perplexity isave irestore o Hpos _ Hb0 _ crit mx mn 0 maxann _ _ _ J0 E) as J.
  cbn [TrainerModel.step] in Es. destruct (next_batch (t_iter t)) as [[b|] it] eqn:En; [|injection Es as <-; left; eauto].
  right. destruct (validate _ _ _ _ _) as [t1|] eqn:Ev; cbn [bind] in Es; [|discriminate].
  destruct (start_new_minibatch _ _ _) as [s go] eqn:Est. destruct go; [discriminate|]. injection Es as <-.
  pose proof (winv_update update perplexity o _ _ b it t (j_winv _ _ _ _ _ _ _ _ _ _ J)) as W0.
  destruct (update_fields update b it t) as (U1 & U2 & U3 & U4 & U5 & U6). cbv zeta in *.
  pose proof (hist_update update b it t) as U7.
  assert (W1 : winv perplexity o (candidate_cost t0) (t_lr t0) t1) by (eapply winv_validate; eassumption).
  assert (S1 : stop_inv (candidate_cost t0) crit mx mn maxann t1).
  { eapply stop_inv_validate; [exact Hpos|exact Hb0|exact W0| |exact Ev].
    eapply stop_inv_same; [apply (j_stop _ _ _ _ _ _ _ _ _ _ J)|exact U1|exact U7]. }
  exact (proj2 (minibatch_decision perplexity o _ _ crit mx mn maxann t1 s false W1 S1 Est)).
Qed.

(** Training ends, if an epoch has finitely many mini-batches and restoring the
    iterator does not fail: always without annealing, and with annealing if the
    stopping criterion takes it into account and is not suspended by a minimum number
    of epochs. (Perplexities are at least one.) *)
Theorem C35_terminates (m : iter -> nat) :
  (forall p, (1 <= perplexity p)%Qc) -> (forall b, candidate_cost t0 = Some b -> (0 < b)%Qc) ->
  (forall it b it', next_batch it = (Some b, it') -> m it' < m it) ->
  (forall i s, exists i', irestore i s = Ok i') ->
  (o_patience o < 0)%Z \/ (crit <> CEpochCount /\ mn < t_epoch t0) ->
  exists fuel t, train fuel (AtEpoch, t0) = Ok t.
Proof.
  intros Hone Hb0 Hm Hi H.
  assert (Hpos : forall p, (0 < perplexity p)%Qc) by (intros p; eapply Qclt_le_trans; [|apply Hone]; reflexivity).
  pose proof (jinv_initial perplexity irestore o crit mx mn (t_epoch t0) maxann _ _ _ _ _ _ Hinit ltac:(lia)) as J0.
  assert (G : exists k t, steps k (AtEpoch, t0) = Ok (Done, t)).
  { destruct H as [H|[H1 H2]].
    - exact (terminates_never_annealing next_batch update perplexity isave irestore o Hpos _ Hb0 _ crit mx mn (t_epoch t0) maxann m Hm Hi _ H J0).
    - destruct crit eqn:Ec; [congruence| |].
      + exact (terminates_no_improvement next_batch update perplexity isave irestore o Hpos _ Hb0 _ CNoImprovement mx mn (t_epoch t0) maxann m Hm Hi Hone _ eq_refl H2 J0).
      + exact (terminates_annealing_count next_batch update perplexity isave irestore o Hpos _ Hb0 _ CAnnealingCount mx mn (t_epoch t0) maxann m Hm Hi _ eq_refl H2 J0). }
  destruct G as (k & t & E). exists k, t. now apply steps_train.
Qed.

(** ** C36: resuming training *)

(** A validation point with an improvement: the model is saved. Training that is
    started from the saved state (with any stopping criterion that lets it start) does
    the remaining updates, ignores the incomplete validation, and is then in the same
    state, apart from the stopping criterion. *)
Theorem C36_resume k t d ph' t' c p a lr it crit2 mx2 mn2 maxann2 t2 :
  o_validate o = true -> o_updates o <> 0 -> o_frequency o <> 0 -> o_samples o <> 0 ->
  (forall p, (0 < perplexity p)%Qc) -> (forall b, candidate_cost t0 = Some b -> (0 < b)%Qc) ->
  (forall i j, irestore j (isave i) = Ok i) ->
  steps k (AtEpoch, t0) = Ok (InEpoch, t) -> t_samples t = [] -> t_center t = None ->
  next_validation (o_updates o) (o_frequency o) (t_update t) d -> o_samples o <= d ->
  steps d (InEpoch, t) = Ok (ph', t') -> after_updates next_batch update d t <> None ->
  hist t' = hist t ++ [(c, Improved)] ->
  initialize irestore p a lr it (create_stopper crit2 mx2 mn2 maxann2) (t_file t') = Ok t2 ->
  t_epoch t <= mx2 -> (crit2 = CAnnealingCount -> (0 <= maxann2)%Z) ->
  exists t3, steps (1 + o_samples o / 2) (AtEpoch, t2) = Ok (InEpoch, t3) /\
    t_params t3 = t_params t' /\ t_accum t3 = t_accum t' /\ t_lr t3 = t_lr t' /\
    t_iter t3 = t_iter t' /\ t_epoch t3 = t_epoch t' /\ t_update t3 = t_update t' /\ t_costs t3 = t_costs t' /\
    t_candidate t3 = t_candidate t' /\ t_file t3 = t_file t' /\ t_samples t3 = t_samples t' /\ t_center t3 = t_center t' /\
    (* with the epoch count as the stopping criterion of both, the result of training is the same *)
    (crit = CEpochCount -> crit2 = CEpochCount -> mx2 = mx -> ph' = InEpoch /\
     forall fuel, match train fuel (InEpoch, t'), train fuel (InEpoch, t3) with
       | Ok x, Ok y => t_params x = t_params y /\ t_file x = t_file y /\ t_costs x = t_costs y
       | Err e, Err e' => e = e'
       | _, _ => False
       end).
Proof.
  intros Hv Hn Hf Hs Hpos Hb0 Hr E C1 C2 Hd Hl E' Ha Hh Ei He Hma.
  pose proof (jinv_initial perplexity irestore o crit mx mn 0 maxann _ _ _ _ _ _ Hinit ltac:(lia)) as J0.
  pose proof (jinv_steps next_batch update perplexity isave irestore o Hpos _ Hb0 _ crit mx mn 0 maxann _ _ _ J0 E) as J.
  destruct (resume next_batch update perplexity isave irestore o Hv Hn Hf Hs Hpos Hr _ _ crit mx mn 0 maxann t t' t2 d ph' crit2 mx2 mn2 maxann2 p a lr it c
    Hb0 J C1 C2 Hd Hl Ha E' Hh Ei He Hma) as (t3 & E3 & Ag & S1 & S2).
  exists t3. split; [exact E3|].
  destruct Ag as (A1 & A2 & A3 & A4 & A5 & A6 & A7 & A8 & A9 & A10 & A11). repeat (split; [assumption|]).
  intros G1 G2 ->. destruct (S2 G1) as [-> S3]. split; [reflexivity|]. specialize (S1 G2). intros fuel.
  assert (Es : t_stopper t = EpochCount mx).
  { pose proof (j_stop _ _ _ _ _ _ _ _ _ _ J) as K. unfold stop_inv in K. cbn [snd] in K. rewrite G1 in K.
    destruct (t_stopper t); try contradiction. congruence. }
  assert (Hsame : no_log t' = no_log t3).
  { unfold no_log, set_log. rewrite A1, A2, A3, A4, A5, A6, A7, A8, A9, A10, A11, S1, S3, Es. reflexivity. }
  pose proof (log_train next_batch update perplexity isave irestore o fuel InEpoch t' t3 Hsame) as R. unfold same in R.
  destruct (train fuel (InEpoch, t')) as [x|e], (train fuel (InEpoch, t3)) as [y|e']; try exact R.
  apply same_fields in R as (R1 & _ & _ & _ & _ & _ & R7 & _ & R9 & _). auto.
Qed.
End Training.
Print Assumptions C33_best.
Print Assumptions C33_saved_state.
Print Assumptions C33_validation.
Print Assumptions C33_no_exception.
Print Assumptions C34_annealing.
Print Assumptions C35_stops.
Print Assumptions C35_epoch.
Print Assumptions C35_terminates.
Print Assumptions C36_resume.

(** Reading what was saved gives the same training state, whatever the state of the
    new trainer; if anything is missing, the state is not accepted. *)
Theorem C36_restore {params accum iter isaved batch : Type} (isave : iter -> isaved) irestore
    (t : @tstate params accum iter isaved batch) p a lr it s :
  (forall i j, irestore j (isave i) = Ok i) ->
  exists t2, initialize irestore p a lr it s (get_state isave t) = Ok t2 /\
    t_params t2 = t_params t /\ t_accum t2 = t_accum t /\ t_lr t2 = t_lr t /\ t_iter t2 = t_iter t /\
    t_epoch t2 = t_epoch t /\ t_update t2 = t_update t /\ t_costs t2 = t_costs t /\
    candidate_cost t2 = nth_error (t_costs t) (length (t_costs t) - 1) /\ (t_log t2 : list (@event batch)) = [].
Proof.
  intros H. unfold initialize, reset_state, get_state. cbn [f_trainer f_params f_iter f_optimizer g_epoch g_update g_costs t_file t_iter].
  rewrite H. cbn [bind]. eexists. split; [reflexivity|].
  cbn [t_params t_accum t_lr t_iter t_epoch t_update t_costs t_log]. repeat (split; [reflexivity|]). split; [|reflexivity].
  unfold candidate_cost. cbn [t_candidate t_costs]. unfold last_index. destruct (t_costs t); reflexivity.
Qed.
Print Assumptions C36_restore.

Theorem C36_incompatible {params accum iter isaved batch : Type} irestore (f : @file params accum isaved) p a lr (it : iter) s g :
  (forall i j, exists k, irestore j i = Ok k) -> f_trainer f = Some g ->
  (exists t, initialize (batch := batch) irestore p a lr it s f = Ok t) \/
  (initialize (batch := batch) irestore p a lr it s f = Err IncompatibleStateError /\
   (f_params f = None \/ g_epoch g = None \/ g_update g = None \/ f_iter f = None \/ f_optimizer f = None \/
    (exists y, f_optimizer f = Some (None, y)) \/ (exists x, f_optimizer f = Some (x, None)))).
Proof.
  intros H Hg. unfold initialize, reset_state. cbn [t_file t_iter]. rewrite Hg.
  destruct (f_params f); [|auto]. destruct (g_epoch g); [|auto]. destruct (g_update g); [|auto 10].
  destruct (f_iter f) as [i|]; [|auto 10]. destruct (H i it) as [k ->]. cbn [bind].
  destruct (f_optimizer f) as [[[lr1|] [a1|]]|]; [left; eauto|right; split; [reflexivity|eauto 12]..].
Qed.
Print Assumptions C36_incompatible.

(** ** Examples *)
Definition toy_resume c mx mn ann p lr i f : result (@tstate nat unit nat nat nat) := initialize toy_restore p tt lr i (create_stopper c mx mn ann) f.
Definition toy_table : list Z := [100; 90; 80; 70; 60; 50; 40; 41; 42; 43; 44; 45; 46; 47; 48; 49]%Z.
Definition toy_opts := mkToptions 6 2 0 3 true.
Notation toy_steps := (steps (toy_next 6) toy_update (toy_perplexity toy_table) (fun i => i) toy_restore toy_opts).

Definition summary (r : result (@tstate nat unit nat nat nat)) :=
  match r with
  | Ok t => Ok (t_params t, t_epoch t, map (fun x => (Qnum (this (fst x)), snd x)) (history (t_log t)), f_params (t_file t), this (t_lr t))
  | Err e => Err e
  end.
(** Two validations in an epoch of 6 updates, with 3 samples each; perplexity decreases
    during the first epoch. In the second epoch there is no improvement, the learning
    rate is decreased twice without improvement in between, and training stops. *)
Example C33_run : summary (toy_train toy_table 6 toy_opts 1000 CNoImprovement 10 0 0) =
  Ok (8, 3, [(80, Improved); (50, Improved); (42, Improved); (45, Annealed); (45, Annealed)]%Z, Some 8, (1 # 4)%Q).
Proof. vm_compute. reflexivity. Qed.

Lemma toy_positive p : (1 <= toy_perplexity toy_table p)%Qc.
Proof.
  unfold toy_perplexity. do 16 (destruct p as [|p]; [discriminate|]).
  unfold toy_table. cbn [nth]. destruct p; discriminate.
Qed.
Lemma toy_decreases it b it' : toy_next 6 it = (Some b, it') -> 6 - it' < 6 - it.
Proof. unfold toy_next. destruct (Nat.ltb_spec it 6); [|discriminate]. intros [= <- <-]. lia. Qed.

(** The assumptions of the theorems hold in this training: at the start, three updates
    before the first validation point, and the first validation is an improvement. *)
Example C36_resume_example : exists t0 t t' t2,
  toy_init CEpochCount 3 0 0 = Ok t0 /\ toy_steps 1 (AtEpoch, t0) = Ok (InEpoch, t) /\
  t_samples t = [] /\ t_center t = None /\ next_validation 6 2 (t_update t) 3 /\
  toy_steps 3 (InEpoch, t) = Ok (InEpoch, t') /\ after_updates (toy_next 6) toy_update 3 t <> None /\
  history (t_log t') = history (t_log t) ++ [(Q2Qc 80, Improved)] /\
  toy_resume CEpochCount 3 0 0 7 (1 + 1)%Qc 5 (t_file t') = Ok t2 /\ t_params t2 = 2 /\
  (forall p, (1 <= toy_perplexity toy_table p)%Qc) /\ (forall b, candidate_cost t0 = Some b -> (0 < b)%Qc) /\
  (forall i j, toy_restore j i = Ok i) /\ (forall it b it', toy_next 6 it = (Some b, it') -> 6 - it' < 6 - it).
Proof.
  destruct (toy_init CEpochCount 3 0 0) as [t0|] eqn:E0; [|discriminate].
  assert (G : match (do t0 <- toy_init CEpochCount 3 0 0; do '(ph, t) <- toy_steps 1 (AtEpoch, t0); do '(ph', t') <- toy_steps 3 (InEpoch, t);
                     do t2 <- toy_resume CEpochCount 3 0 0 7 (1 + 1)%Qc 5 (t_file t');
                     Ok (t0, ph, t, ph', t', t2)) with
     | Ok (t0, ph, t, ph', t', t2) => ph = InEpoch /\ t_samples t = [] /\ t_center t = None /\ t_update t = 0 /\ ph' = InEpoch /\
         after_updates (toy_next 6) toy_update 3 t = Some (3, tt, 3) /\ t_log t = [] /\
         (exists c, history (t_log t') = [(c, Improved)] /\ this c = 80%Q) /\ t_params t2 = 2 /\ candidate_cost t0 = None
     | Err _ => False end).
  { vm_compute. repeat (split; [reflexivity|]). split; [|split; reflexivity]. eexists. split; reflexivity. }
  rewrite E0 in G. cbn [bind] in G. destruct (toy_steps 1 (AtEpoch, t0)) as [[ph t]|] eqn:E1; cbn [bind] in G; [|contradiction].
  destruct (toy_steps 3 (InEpoch, t)) as [[ph' t']|] eqn:E2; cbn [bind] in G; [|contradiction].
  destruct (toy_resume CEpochCount 3 0 0 7 (1 + 1)%Qc 5 (t_file t')) as [t2|] eqn:E3; cbn [bind] in G; [|contradiction].
  destruct G as (-> & G1 & G2 & G3 & -> & G4 & G5 & (c & G6 & G7) & G8 & G9).
  exists t0, t, t', t2. split; [reflexivity|]. split; [exact E1|]. split; [exact G1|]. split; [exact G2|]. split.
  { rewrite G3. split; [lia|]. split; [exists 1; split; [cbn; lia|intros u' H; cbn in H; lia]|].
    intros e He (k & H1 & H2). destruct k as [|k]; [specialize (H2 0 ltac:(cbn; lia)); lia|cbn in H1; lia]. }
  split; [exact E2|]. split; [rewrite G4; discriminate|]. split.
  { rewrite G6, G5. cbn [history fold_left app]. do 2 f_equal. apply Qc_is_canon. rewrite G7. reflexivity. }
  split; [exact E3|]. split; [exact G8|]. split; [exact toy_positive|]. split; [rewrite G9; discriminate|].
  split; [reflexivity|exact toy_decreases].
Qed.

(** The expectation that the maximum number of epochs is a bound on the length of
    training is false: resetting the training state resets the epoch number too. If
    every mini-batch is validated, the patience is zero and the model does not
    improve, training never ends with the epoch count as the stopping criterion. *)
Definition endless_opts := mkToptions 1 1 0 1 true.
Notation endless_steps := (steps (toy_next 1) toy_update (toy_perplexity []) (fun i => i) toy_restore endless_opts).
Definition one : Qc := Q2Qc 1.
Definition endless_file : @file nat unit nat := mkFile (Some 1) (Some (mkTgroup (Some 1) (Some 1) (Some [median [one]]))) (Some 1) (Some (Some 1%Qc, Some tt)).
Definition endless_state (lr : Qc) (log : list (@event nat)) : @tstate nat unit nat nat nat :=
  mkTstate 1 tt lr 1 1 1 [median [one]] (Some 0) endless_file [] None (EpochCount 2) log.

Lemma endless_start : match toy_init CEpochCount 2 0 0 with
  | Ok t0 => match endless_steps 1 (AtEpoch, t0), endless_steps 2 (AtEpoch, t0) with
             | Ok (InEpoch, _), Ok (InEpoch, t) => t = endless_state (t_lr t) (t_log t)
             | _, _ => False
             end
  | Err _ => False
  end.
Proof. vm_compute. reflexivity. Qed.
Lemma endless_cycle lr log : 
  match endless_steps 1 (InEpoch, endless_state lr log), endless_steps 2 (InEpoch, endless_state lr log),
        endless_steps 3 (InEpoch, endless_state lr log), endless_steps 4 (InEpoch, endless_state lr log) with
  | Ok (EndEpoch, _), Ok (AtEpoch, _), Ok (InEpoch, _), Ok (InEpoch, t) => t = endless_state (t_lr t) (t_log t)
  | _, _, _, _ => False
  end.
Proof. vm_compute. reflexivity. Qed.

Theorem C35_max_epochs_refuted : exists t0, toy_init CEpochCount 2 0 0 = Ok t0 /\
  forall k, exists ph t, endless_steps k (AtEpoch, t0) = Ok (ph, t) /\ ph <> Done.
Proof.
  pose proof endless_start as S0. destruct (toy_init CEpochCount 2 0 0) as [t0|]; [|contradiction]. exists t0. split; [reflexivity|].
  destruct (endless_steps 1 (AtEpoch, t0)) as [[[] t1]|] eqn:S1; try contradiction.
  destruct (endless_steps 2 (AtEpoch, t0)) as [[[] t2]|] eqn:S2; try contradiction.
  assert (G : forall n k lr log, k <= n -> exists ph t, endless_steps k (InEpoch, endless_state lr log) = Ok (ph, t) /\ ph <> Done).
  { clear. induction n as [n IH] using lt_wf_ind. intros k lr log Hk. pose proof (endless_cycle lr log) as C.
    remember (endless_state lr log) as x eqn:Ex. clear Ex.
    destruct (endless_steps 1 (InEpoch, x)) as [[[] t1]|] eqn:E1; try contradiction.
    destruct (endless_steps 2 (InEpoch, x)) as [[[] t2]|] eqn:E2; try contradiction.
    destruct (endless_steps 3 (InEpoch, x)) as [[[] t3]|] eqn:E3; try contradiction.
    destruct (endless_steps 4 (InEpoch, x)) as [[[] t4]|] eqn:E4; try contradiction.
    destruct k as [|[|[|[|k]]]].
    - exists InEpoch, x. split; [reflexivity|discriminate].
    - exists EndEpoch, t1. split; [exact E1|discriminate].
    - exists AtEpoch, t2. split; [exact E2|discriminate].
    - exists InEpoch, t3. split; [exact E3|discriminate].
    - change (S (S (S (S k)))) with (4 + k). rewrite steps_app, E4. cbn [bind]. rewrite C. apply (IH k); lia. }
  intros k. destruct k as [|[|k]].
  - exists AtEpoch, t0. split; [reflexivity|discriminate].
  - exists InEpoch, t1. split; [exact S1|discriminate].
  - change (S (S k)) with (2 + k). rewrite steps_app, S2. cbn [bind]. rewrite S0. eapply G. reflexivity.
Qed.
Print Assumptions C35_max_epochs_refuted.

(** The expectation that training that ended is not continued is false without
    validation: the state is saved before the epoch number is increased, and one more
    epoch is trained. *)
Definition novalidate_opts := mkToptions 3 1 4 7 false.
Theorem C36_repeated_epoch_refuted : exists t t2 t3,
  toy_train [] 3 novalidate_opts 100 CEpochCount 1 0 0 = Ok t /\ t_params t = 3 /\
  toy_resume CEpochCount 1 0 0 0 1%Qc 0 (t_file t) = Ok t2 /\ t_params t2 = 3 /\ t_epoch t2 = 1 /\
  train (toy_next 3) toy_update (toy_perplexity []) (fun i => i) toy_restore novalidate_opts 100 (AtEpoch, t2) = Ok t3 /\ t_params t3 = 6.
Proof.
  assert (G : match toy_train [] 3 novalidate_opts 100 CEpochCount 1 0 0 with
    | Ok t => match toy_resume CEpochCount 1 0 0 0 1%Qc 0 (t_file t) with
      | Ok t2 => match train (toy_next 3) toy_update (toy_perplexity []) (fun i => i) toy_restore novalidate_opts 100 (AtEpoch, t2) with
        | Ok t3 => t_params t = 3 /\ t_params t2 = 3 /\ t_epoch t2 = 1 /\ t_params t3 = 6
        | Err _ => False end
      | Err _ => False end
    | Err _ => False end) by (vm_compute; auto).
  destruct (toy_train _ _ _ _ _ _ _ _) as [t|]; [|contradiction].
  destruct (toy_resume CEpochCount 1 0 0 0 1%Qc 0 (t_file t)) as [t2|] eqn:E2; [|contradiction].
  destruct (train _ _ _ _ _ _ _ _) as [t3|] eqn:E3; [|contradiction].
  exists t, t2, t3. destruct G as (G1 & G2 & G3 & G4). auto 10.
Qed.
Print Assumptions C36_repeated_epoch_refuted.

(** The expectation that the decreased learning rate is saved is false: the file is
    not written when the learning rate is decreased, and training that is resumed
    uses the earlier learning rate. *)
Theorem C36_learning_rate_refuted : exists t t2,
  toy_train toy_table 6 toy_opts 1000 CNoImprovement 10 0 0 = Ok t /\ this (t_lr t) = (1 # 4)%Q /\
  toy_resume CNoImprovement 10 0 0 0 1%Qc 0 (t_file t) = Ok t2 /\ this (t_lr t2) = 1%Q.
Proof.
  assert (G : match toy_train toy_table 6 toy_opts 1000 CNoImprovement 10 0 0 with
    | Ok t => match toy_resume CNoImprovement 10 0 0 0 1%Qc 0 (t_file t) with
      | Ok t2 => this (t_lr t) = (1 # 4)%Q /\ this (t_lr t2) = 1%Q
      | Err _ => False end
    | Err _ => False end) by (vm_compute; auto).
  destruct (toy_train _ _ _ _ _ _ _ _) as [t|]; [|contradiction].
  destruct (toy_resume CNoImprovement 10 0 0 0 1%Qc 0 (t_file t)) as [t2|] eqn:E2; [|contradiction].
  exists t, t2. destruct G. auto.
Qed.
Print Assumptions C36_learning_rate_refuted.
