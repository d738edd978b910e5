(** Validations, and resuming training. *)
From Coq Require Import QArith Qcanon.
From Verif Require Import Base ListLib BaseLib QcLib TrainerModel TrainerSpec TrainerProofs TrainerRuns TrainerStops TrainerSegments.
Local Open Scope nat_scope.

Section Runs.
Context {params accum iter isaved batch : Type}.
Variable next_batch : iter -> option batch * iter.
Variable update : params -> accum -> Qc -> batch -> params * accum.
Variable perplexity : params -> Qc.
Variable isave : iter -> isaved.
Variable irestore : iter -> isaved -> result iter.
Variable o : toptions.
Notation tstate := (@tstate params accum iter isaved batch).
Notation file := (@file params accum isaved).
Notation event := (@event batch).
Notation step := (step next_batch update perplexity isave irestore o).
Notation steps := (steps next_batch update perplexity isave irestore o).
Notation train := (train next_batch update perplexity isave irestore o).
Notation validate := (validate perplexity isave irestore o).
Notation get_state := (get_state isave).
Notation winv := (winv perplexity o).
Notation P := (o_patience o).
Notation after_updates := (after_updates next_batch update).
Notation sched w u := (is_scheduled (o_updates o) (o_frequency o) w u).
Notation hist t := (history (t_log t)).
Notation NS := (o_samples o).
Notation seg := (seg next_batch update perplexity isave o).
Notation samples_after := (samples_after next_batch update perplexity o).
Notation perplexity_after := (perplexity_after next_batch update perplexity).
Notation file_after := (file_after next_batch update isave).
Notation center_number := (center_number o).

Hypothesis Hvalidate : o_validate o = true.
Hypothesis Hn : o_updates o <> 0.
Hypothesis Hf : o_frequency o <> 0.
Hypothesis Hs : NS <> 0.
Hypothesis Hpos : forall p, (0 < perplexity p)%Qc.
Variable best0 : option Qc.
Hypothesis Hbest0 : forall b, best0 = Some b -> (0 < b)%Qc.
Variable lr0 : Qc.
Variable crit : criterion.
Variables mx mn lo : nat.
Variable maxann : Z.
Notation jinv := (jinv perplexity o best0 lr0 crit mx mn lo maxann).
Variable t : tstate.
Variable d : nat.
Hypothesis J : jinv (InEpoch, t).
Hypothesis Hclean : t_samples t = [] /\ t_center t = None.
Hypothesis Hd : next_validation (o_updates o) (o_frequency o) (t_update t) d.

Lemma update_costs b it (t0 : tstate) : t_costs (update_minibatch update b it t0) = t_costs t0 /\
  t_candidate (update_minibatch update b it t0) = t_candidate t0.
Proof. unfold update_minibatch. destruct (update _ _ _ _). split; reflexivity. Qed.

Lemma seg_zero : seg t d 0 t.
Proof.
  destruct Hclean as [C1 C2]. constructor; try reflexivity; [lia|exact C1|]. rewrite C2. unfold center_after, TrainerSegments.center_number.
  destruct (Nat.leb_spec (Nat.max 1 (d - NS / 2)) 0); [lia|reflexivity].
Qed.

Lemma keeps_going (t1 : tstate) s go : winv best0 lr0 t1 -> stop_inv best0 crit mx mn maxann t1 -> hist t1 = hist t -> t_epoch t1 = t_epoch t ->
  start_new_minibatch (t_stopper t1) (t_epoch t1) (candidate_cost t1) = (s, go) -> go = true.
Proof.
  intros W1 S1 E1 E2 Es. destruct (minibatch_decision perplexity o best0 lr0 crit mx mn maxann t1 s go W1 S1 Es) as [_ D].
  destruct go; [reflexivity|]. rewrite E1, E2 in D. pose proof (j_phase _ _ _ _ _ _ _ _ _ _ J) as [_ G]. cbn [snd] in G. destruct G; [lia|tauto].
Qed.

Lemma step_updates (t' t1 : tstate) b it : jinv (InEpoch, t') -> next_batch (t_iter t') = (Some b, it) ->
  validate (update_minibatch update b it t') = Ok t1 -> hist t1 = hist t -> t_epoch t1 = t_epoch t ->
  exists s, step (InEpoch, t') = Ok (InEpoch, set_stopper s t1) /\ (t_stopper t1 = t_stopper t' -> crit = CEpochCount -> s = t_stopper t').
Proof.
  intros J' En Ev E1 E2. cbn [TrainerModel.step]. rewrite En, Ev. cbn [bind].
  destruct (start_new_minibatch _ _ _) as [s go] eqn:Es.
  pose proof (winv_update update perplexity o best0 lr0 b it t' (j_winv _ _ _ _ _ _ _ _ _ _ J')) as W0.
  destruct (update_fields update b it t') as (U1 & U2 & U3 & U4 & U5 & U6). cbv zeta in *.
  pose proof (hist_update update b it t') as U7.
  assert (S1 : stop_inv best0 crit mx mn maxann t1).
  { eapply stop_inv_validate; [exact Hpos|exact Hbest0|exact W0| |exact Ev].
    eapply stop_inv_same; [apply (j_stop _ _ _ _ _ _ _ _ _ _ J')|exact U1|exact U7]. }
  assert (go = true) as ->.
  { eapply keeps_going; [|exact S1|exact E1|exact E2|exact Es]. eapply winv_validate; [exact W0|exact Ev]. }
  exists s. split; [reflexivity|]. intros Est Ec. unfold stop_inv in S1. rewrite Ec in S1. rewrite Est in *.
  destruct (t_stopper t'); try contradiction. cbn [start_new_minibatch] in Es. congruence.
Qed.

Lemma seg_steps i : i < d -> after_updates i t <> None -> exists t', steps i (InEpoch, t) = Ok (InEpoch, t') /\ seg t d i t' /\
  (crit = CEpochCount -> t_stopper t' = t_stopper t).
Proof.
  induction i as [|i IH]; intros Hi Ha.
  - exists t. split; [reflexivity|]. split; [exact seg_zero|reflexivity].
  - destruct (after_updates (S i) t) as [x|] eqn:Ea; [|congruence]. apply after_inv in Ea as (p & a & it & b & it' & Ea & En & _).
    destruct IH as (t' & E & S & Est); [lia|congruence|]. rewrite (s_after _ _ _ _ _ _ _ _ _ S) in Ea. injection Ea as <- <- <-.
    destruct (seg_early next_batch update perplexity isave irestore o Hvalidate Hn Hf Hs t d Hd i t' b it' S En Hi) as (t1 & E1 & S1 & Es1).
    assert (J' : jinv (InEpoch, t')) by (eapply jinv_steps; [exact Hpos|exact Hbest0|exact J|exact E]).
    destruct (step_updates t' t1 b it' J' En E1 (s_hist _ _ _ _ _ _ _ _ _ S1) (s_epoch _ _ _ _ _ _ _ _ _ S1)) as (s & E2 & Ec).
    exists (set_stopper s t1). split; [rewrite steps_snoc, E; exact E2|]. split; [|intros G; cbn [set_stopper t_stopper]; rewrite (Ec Es1 G); auto].
    destruct S1 as [S1 S2 S3 S4 S5 S6 S7 S8 S9 S10]. constructor; assumption.
Qed.

(** Too few samples *)
Lemma seg_few : d < NS -> after_updates d t <> None ->
  exists t', steps d (InEpoch, t) = Ok (InEpoch, t') /\ t_samples t' = [] /\ t_center t' = None /\ hist t' = hist t /\
    after_updates d t = Some (t_params t', t_accum t', t_iter t') /\ t_lr t' = t_lr t /\ t_epoch t' = t_epoch t /\
    t_update t' = t_update t + d /\ t_costs t' = t_costs t /\ t_candidate t' = t_candidate t /\ t_file t' = t_file t /\
    (crit = CEpochCount -> t_stopper t' = t_stopper t).
Proof.
  intros Hl Ha. assert (D1 : 1 <= d) by apply Hd. assert (Hi : exists i, S i = d) by (exists (d - 1); lia). destruct Hi as [i Hi].
  rewrite <- Hi in Ha. destruct (after_updates (S i) t) as [x|] eqn:Ea; [|congruence]. apply after_inv in Ea as (p & a & it & b & it' & Ea & En & Ex).
  destruct (seg_steps i) as (t' & E & S & Est); [lia|congruence|]. rewrite (s_after _ _ _ _ _ _ _ _ _ S) in Ea. injection Ea as <- <- <-.
  destruct (seg_last next_batch update perplexity isave irestore o Hvalidate Hn Hf Hs t d Hd i t' b it' S En Hi)
    as (t2 & f & L & S2 & C2 & F2 & E2).
  rewrite (samples_few next_batch update perplexity o Hn Hf Hs t _ Hl) in E2. destruct (Nat.ltb_spec d NS) as [_|G]; [|lia].
  pose proof (seg_update next_batch update perplexity isave o Hn Hf Hs t d i t' b it' S En) as U. cbv zeta in U. destruct U as (A1 & A2 & A3 & A4).
  destruct (update_fields update b it' t') as (U1 & U2 & U3 & U4 & U5 & U6). cbv zeta in *.
  pose proof (hist_update update b it' t') as U7.
  assert (U8 : t_costs (update_minibatch update b it' t') = t_costs t' /\ t_candidate (update_minibatch update b it' t') = t_candidate t')
    by apply update_costs. destruct U8 as (U8 & U9).
  assert (J' : jinv (InEpoch, t')) by (eapply jinv_steps; [exact Hpos|exact Hbest0|exact J|exact E]).
  destruct L as [B1 B2 B3 B4 B5 B6 B7 B8 B9 B10 (es & B11 & B12)].
  assert (H2 : hist t2 = hist t) by (rewrite B11, history_quiet, U7 by exact B12; apply (s_hist _ _ _ _ _ _ _ _ _ S)).
  destruct (step_updates t' _ b it' J' En E2) as (s & E3 & Ec).
  { cbn [add_event set_samples t_log]. rewrite history_snoc. exact H2. }
  { cbn [add_event set_samples t_epoch]. rewrite B5, U2. apply (s_epoch _ _ _ _ _ _ _ _ _ S). }
  eexists. split; [rewrite <- Hi at 1; rewrite steps_snoc, E; exact E3|].
  cbn [set_stopper add_event set_samples t_samples t_center t_log t_params t_accum t_iter t_lr t_epoch t_update t_costs t_candidate t_file t_stopper].
  destruct S as [S1 S2' S3 S4 S5 S6 S7 S8 S9 S10].
  split; [reflexivity|]. split; [reflexivity|]. split; [rewrite history_snoc; exact H2|].
  rewrite B1, B2, B4, <- Hi, A1. split; [reflexivity|]. split; [congruence|]. split; [congruence|]. split; [congruence|].
  split; [congruence|]. split; [congruence|]. split; [congruence|].
  intros G. cbn [add_event set_samples t_stopper] in Ec. rewrite Ec; [auto|congruence|exact G].
Qed.

(** A validation *)
Lemma seg_enough ph' (t' : tstate) : NS <= d -> after_updates d t <> None -> steps d (InEpoch, t) = Ok (ph', t') ->
  let c := median (map (perplexity_after t) (seq (d - NS + 1) NS)) in
  t_samples t' = [] /\ t_center t' = None /\ exists v, v = verdict_of P (candidate_cost t, snd (vstate P best0 0 (costs_of t))) c /\
  hist t' = hist t ++ [(c, v)] /\
  (v = Improved -> exists f, file_after t (d - NS / 2) = Some f /\ t_file t' = with_costs f (t_costs t ++ [c])) /\
  (v <> Improved -> t_file t' = t_file t) /\
  (v <> Annealed -> after_updates d t = Some (t_params t', t_accum t', t_iter t') /\ t_lr t' = t_lr t /\ t_epoch t' = t_epoch t /\
    t_update t' = t_update t + d /\ t_costs t' = t_costs t ++ [c] /\ (crit = CEpochCount -> ph' = InEpoch /\ t_stopper t' = t_stopper t)) /\
  (v = Improved -> t_candidate t' = Some (length (t_costs t))).
Proof.
  intros Hl Ha. assert (D1 : 1 <= d) by apply Hd. assert (Hi : exists i, S i = d) by (exists (d - 1); lia). destruct Hi as [i Hi].
  rewrite <- Hi in Ha. destruct (after_updates (S i) t) as [x|] eqn:Ea; [|congruence]. apply after_inv in Ea as (p & a & it & b & it' & Ea & En & Ex).
  destruct (seg_steps i) as (t1 & E & S & Est); [lia|congruence|]. rewrite (s_after _ _ _ _ _ _ _ _ _ S) in Ea. injection Ea as <- <- <-.
  destruct (seg_last next_batch update perplexity isave irestore o Hvalidate Hn Hf Hs t d Hd i t1 b it' S En Hi)
    as (t2 & f & L & S2 & C2 & F2 & E2).
  pose proof (seg_update next_batch update perplexity isave o Hn Hf Hs t d i t1 b it' S En) as U. cbv zeta in U. destruct U as (A1 & A2 & A3 & A4).
  destruct (update_fields update b it' t1) as (U1 & U2 & U3 & U4 & U5 & U6). cbv zeta in *.
  pose proof (hist_update update b it' t1) as U7.
  assert (U8 : t_costs (update_minibatch update b it' t1) = t_costs t1 /\ t_candidate (update_minibatch update b it' t1) = t_candidate t1)
    by apply update_costs. destruct U8 as (U8 & U9).
  assert (J' : jinv (InEpoch, t1)) by (eapply jinv_steps; [exact Hpos|exact Hbest0|exact J|exact E]).
  pose proof (winv_update update perplexity o best0 lr0 b it' t1 (j_winv _ _ _ _ _ _ _ _ _ _ J')) as W0.
  rewrite (samples_all next_batch update perplexity o Hn Hf Hs t d Hl) in E2, S2.
  rewrite map_length, seq_length in E2. rewrite Nat.ltb_irrefl in E2.
  rewrite <- Hi at 1. rewrite steps_snoc, E. cbn [bind TrainerModel.step]. rewrite En, E2.
  destruct (finish_validation irestore o t2) as [t3|] eqn:E3; cbn [bind]; [|discriminate].
  destruct (start_new_minibatch _ _ _) as [s go] eqn:Es. intros [= <- <-].
  assert (W2 : winv best0 lr0 t2).
  { eapply winv_looks; [exact W0|exact L| |].
    - intros f' Hf'. rewrite C2 in Hf'. injection Hf' as <-. rewrite U8, (s_costs _ _ _ _ _ _ _ _ _ S).
      unfold TrainerSegments.file_after in F2. destruct (after_updates _ t) as [[[p1 a1] it1]|]; [|discriminate]. injection F2 as <-.
      do 6 eexists. reflexivity.
    - rewrite S2. apply Forall_forall. intros x0 Hx0. apply in_map_iff in Hx0 as (j & <- & Hj). unfold TrainerSegments.perplexity_after.
      apply in_seq in Hj. destruct (after_updates j t) as [[[p1 a1] it1]|] eqn:Eaj; [eauto|].
      exfalso. eapply (after_le next_batch update t j d); [lia| |exact Eaj]. rewrite <- Hi, A1. discriminate. }
  pose proof (w_center _ _ _ _ _ W2 f C2) as Ff.
  destruct (finish_cases irestore o t2 t3 f _ C2 Ff (w_candidate _ _ _ _ _ W2) E3) as (K & S' & C' & V). cbv zeta in K, V.
  rewrite S2 in K, V. set (c := median (map (perplexity_after t) (seq (d - NS + 1) NS))) in *.
  destruct L as [B1 B2 B3 B4 B5 B6 B7 B8 B9 B10 (es & B11 & B12)].
  assert (H2 : hist t2 = hist t) by (rewrite B11, history_quiet, U7 by exact B12; apply (s_hist _ _ _ _ _ _ _ _ _ S)).
  assert (Ec : costs_of t2 = costs_of t) by (unfold costs_of; now rewrite H2).
  assert (Ex2 : vstate P best0 0 (costs_of t2) = (candidate_cost t, snd (vstate P best0 0 (costs_of t)))).
  { pose proof (proj2 (winv_best _ _ _ _ _ (j_winv _ _ _ _ _ _ _ _ _ _ J))) as Hb. cbn [snd] in Hb. rewrite <- Hb, Ec. now destruct (vstate P best0 0 (costs_of t)). }
  rewrite Ex2 in K, V. set (v := verdict_of P _ c) in *.
  assert (Ecd : center_number d = d - NS / 2).
  { unfold TrainerSegments.center_number. pose proof (Nat.div_lt NS 2 ltac:(lia) ltac:(lia)). lia. }
  rewrite Ecd in F2.
  assert (Go : crit = CEpochCount -> go = true /\ s = t_stopper t3).
  { intros G. assert (S3 : stop_inv best0 crit mx mn maxann t3).
    { eapply stop_inv_validate; [exact Hpos|exact Hbest0|exact W0| |rewrite E2; reflexivity].
      eapply stop_inv_same; [apply (j_stop _ _ _ _ _ _ _ _ _ _ J')|exact U1|exact U7]. }
    unfold stop_inv in S3. rewrite G in S3. destruct (t_stopper t3); try contradiction. cbn [start_new_minibatch] in Es. now injection Es as <- <-. }
  destruct S as [S1 Sl S3 S4 S5 S6 S7 S8 S9 S10].
  cbn [set_stopper t_samples t_center t_log t_params t_accum t_iter t_lr t_epoch t_update t_costs t_candidate t_file t_stopper].
  split; [exact S'|]. split; [exact C'|]. exists v. split; [reflexivity|].
  destruct v.
  - rewrite V in *. cbn [set_samples set_candidate_state add_event set_costs t_log t_file t_params t_accum t_iter t_lr t_epoch t_update t_costs t_candidate t_stopper] in *.
    split; [rewrite !history_snoc; cbn [history_event]; rewrite set_last_snoc; congruence|].
    split; [intros _; exists f; split; [exact F2|congruence]|]. split; [congruence|]. split.
    + intros _. rewrite <- Hi, A1. rewrite B1, B2, B4. split; [reflexivity|]. split; [congruence|]. split; [congruence|]. split; [congruence|].
      split; [congruence|]. intros G. destruct (Go G) as [-> ->]. split; [reflexivity|]. rewrite B10, U1. auto.
    + intros _. rewrite last_index_snoc. congruence.
  - rewrite V in *. cbn [set_samples add_event set_costs t_log t_file t_params t_accum t_iter t_lr t_epoch t_update t_costs t_candidate t_stopper] in *.
    split; [rewrite !history_snoc; cbn [history_event]; congruence|].
    split; [discriminate|]. split; [congruence|]. split; [|discriminate].
    intros _. rewrite <- Hi, A1. rewrite B1, B2, B4. split; [reflexivity|]. split; [congruence|]. split; [congruence|]. split; [congruence|].
    split; [congruence|]. intros G. destruct (Go G) as [-> ->]. split; [reflexivity|]. rewrite B10, U1. auto.
  - destruct V as (cs & i' & V1 & V2 & V3 & V4 & V5 & V6 & _).
    split; [rewrite V5, history_app; cbn [fold_left history_event]; rewrite set_last_snoc; congruence|].
    split; [discriminate|]. split; [congruence|]. split; [congruence|discriminate].
Qed.
End Runs.

(** ** Initial states *)
Section Initial.
Context {params accum iter isaved batch : Type}.
Variable next_batch : iter -> option batch * iter.
Variable update : params -> accum -> Qc -> batch -> params * accum.
Variable perplexity : params -> Qc.
Variable isave : iter -> isaved.
Variable irestore : iter -> isaved -> result iter.
Variable o : toptions.
Notation tstate := (@tstate params accum iter isaved batch).
Notation file := (@file params accum isaved).
Notation hist t := (history (t_log t)).
Notation P := (o_patience o).

Lemma initialize_epoch p a lr it s (f : file) (t : tstate) : initialize irestore p a lr it s f = Ok t ->
  forall g e, f_trainer f = Some g -> g_epoch g = Some e -> e = t_epoch t.
Proof.
  unfold initialize, reset_state. cbn [t_file]. intros E g e Eg Ee. rewrite Eg in E. destruct (f_params f); [|discriminate].
  rewrite Ee in E. destruct (g_update g); [|discriminate]. destruct (f_iter f); [|discriminate].
  destruct (irestore _ _); cbn [bind] in E; [|discriminate]. destruct (f_optimizer f) as [[[] []]|]; try discriminate. now injection E as <-.
Qed.

Lemma jinv_initial crit mx mn lo maxann p a lr it (f : file) (t : tstate) :
  initialize irestore p a lr it (create_stopper crit mx mn maxann) f = Ok t -> lo <= t_epoch t ->
  jinv perplexity o (candidate_cost t) (t_lr t) crit mx mn lo maxann (AtEpoch, t).
Proof.
  intros E Hlo. destruct (winv_initial perplexity irestore o _ _ _ _ _ _ _ E) as (W & H1 & H2 & H3 & H4 & H5).
  pose proof (initialize_epoch _ _ _ _ _ _ _ E) as He.
  assert (G : forall Q : nat -> Prop, Q (t_epoch t) -> epochs Q t).
  { intros Q HQ. split; [|rewrite H3; discriminate]. rewrite H5. intros g e Eg Ee. now rewrite (He g e Eg Ee). }
  constructor; cbn [fst snd]; [exact W| |exact I| |].
  - unfold stop_inv, num_annealed. rewrite H4, H1. cbn [history fold_left annealing_costs rev filter length].
    destruct crit; cbn [create_stopper]; auto. repeat (split; [reflexivity|]). lia.
  - destruct (Nat.le_gt_cases (t_epoch t) mx) as [G1|G1]; [left; now apply G|right; auto].
  - split; [exact Hlo|]. now apply G.
Qed.
End Initial.

Section Log.
Context {params accum iter isaved batch : Type}.
Variable next_batch : iter -> option batch * iter.
Variable update : params -> accum -> Qc -> batch -> params * accum.
Variable perplexity : params -> Qc.
Variable isave : iter -> isaved.
Variable irestore : iter -> isaved -> result iter.
Variable o : toptions.
Notation tstate := (@tstate params accum iter isaved batch).
Notation file := (@file params accum isaved).
Notation event := (@event batch).
Notation step := (step next_batch update perplexity isave irestore o).
Notation steps := (steps next_batch update perplexity isave irestore o).
Notation train := (train next_batch update perplexity isave irestore o).
Notation validate := (validate perplexity isave irestore o).

(** ** The log does not affect training *)
Definition set_log (l : list event) (t : tstate) : tstate :=
  mkTstate (t_params t) (t_accum t) (t_lr t) (t_iter t) (t_epoch t) (t_update t) (t_costs t) (t_candidate t)
           (t_file t) (t_samples t) (t_center t) (t_stopper t) l.
Definition no_log (t : tstate) : tstate := set_log [] t.
Definition same (r r' : result tstate) : Prop :=
  match r, r' with Ok t, Ok t' => no_log t = no_log t' | Err e, Err e' => e = e' | _, _ => False end.

Lemma same_fields (t t' : tstate) : no_log t = no_log t' -> t_params t = t_params t' /\ t_accum t = t_accum t' /\ t_lr t = t_lr t' /\
  t_iter t = t_iter t' /\ t_epoch t = t_epoch t' /\ t_update t = t_update t' /\ t_costs t = t_costs t' /\ t_candidate t = t_candidate t' /\
  t_file t = t_file t' /\ t_samples t = t_samples t' /\ t_center t = t_center t' /\ t_stopper t = t_stopper t'.
Proof. unfold no_log, set_log. intros H. injection H. intros. repeat split; assumption. Qed.
Lemma same_set_log t l : no_log (set_log l t) = no_log t.
Proof. reflexivity. Qed.
Lemma same_inv (t t' : tstate) : no_log t = no_log t' -> exists l, t' = set_log l t.
Proof.
  intros H. apply same_fields in H as (E1 & E2 & E3 & E4 & E5 & E6 & E7 & E8 & E9 & E10 & E11 & E12).
  exists (t_log t'). destruct t'. cbn in *. subst. reflexivity.
Qed.

Lemma log_reset (t : tstate) l : same (reset_state irestore t) (reset_state irestore (set_log l t)).
Proof.
  unfold reset_state. cbn [set_log t_file t_iter]. destruct (f_params _); [|reflexivity]. destruct (f_trainer _) as [g|]; [|reflexivity].
  destruct (g_epoch g); [|reflexivity]. destruct (g_update g); [|reflexivity]. destruct (f_iter _); [|reflexivity].
  destruct (irestore _ _); cbn [bind]; [|reflexivity]. destruct (f_optimizer _) as [[[] []]|]; reflexivity.
Qed.
Lemma log_decrease (t : tstate) l : same (decrease_learning_rate irestore t) (decrease_learning_rate irestore (set_log l t)).
Proof.
  unfold decrease_learning_rate. pose proof (log_reset t l) as H.
  destruct (reset_state irestore t) as [t1|e], (reset_state irestore (set_log l t)) as [t2|e']; cbn [same bind] in *; try contradiction; [|exact H].
  apply same_inv in H as [l' ->]. reflexivity.
Qed.
Lemma log_finish (t : tstate) l : same (finish_validation irestore o t) (finish_validation irestore o (set_log l t)).
Proof.
  unfold finish_validation. change (t_center (set_log l t)) with (t_center t). destruct (t_center t) as [f|]; [|reflexivity].
  change (t_samples (set_log l t)) with (t_samples t). change (t_costs (set_log l t)) with (t_costs t). cbv zeta.
  set (c := median (t_samples t)). set (t1 := add_event _ (set_costs _ t)). set (t1' := add_event _ (set_costs _ (set_log l t))).
  assert (E1 : exists l1, t1' = set_log l1 t1) by (eexists; reflexivity). destruct E1 as [l1 ->].
  change (has_improved (set_log l1 t1)) with (has_improved t1). destruct (has_improved t1) as [b|e]; cbn [bind]; [|reflexivity].
  set (t2 := if b then _ else t1). set (t2' := if b then _ else set_log l1 t1).
  assert (E2 : exists l2, t2' = set_log l2 t2) by (unfold t2, t2'; destruct b; eexists; reflexivity). destruct E2 as [l2 E2].
  rewrite E2. change (validations_since_candidate (set_log l2 t2)) with (validations_since_candidate t2).
  destruct (0 <=? o_patience o)%Z; cbn [bind]; [|reflexivity].
  destruct (validations_since_candidate t2) as [k|e]; cbn [bind]; [|reflexivity]. destruct (o_patience o <? k)%Z; [|reflexivity].
  pose proof (log_decrease t2 l2) as H.
  destruct (decrease_learning_rate irestore t2) as [x|e], (decrease_learning_rate irestore (set_log l2 t2)) as [y|e']; cbn [same bind] in *; try contradiction; [|exact H].
  apply same_inv in H as [l' ->]. reflexivity.
Qed.
Lemma log_validate (t : tstate) l : same (validate t) (validate (set_log l t)).
Proof.
  unfold TrainerModel.validate. change (t_update (set_log l t)) with (t_update t). cbv zeta.
  destruct (o_validate o); cbn [negb]; [|reflexivity]. destruct (is_scheduled _ _ (o_samples o - 1) _); cbn [negb]; [|reflexivity].
  set (t1 := add_event _ (set_samples _ _ t)). set (t1' := add_event _ (set_samples _ _ (set_log l t))).
  assert (E1 : exists l1, t1' = set_log l1 t1) by (eexists; reflexivity). destruct E1 as [l1 ->].
  destruct (is_scheduled _ _ (o_samples o / 2) _); cbn [negb]; [|reflexivity].
  change (t_center (set_log l1 t1)) with (t_center t1).
  set (t2 := match t_center t1 with Some _ => t1 | None => _ end). set (t2' := match t_center t1 with Some _ => set_log l1 t1 | None => _ end).
  assert (E2 : exists l2, t2' = set_log l2 t2) by (unfold t2, t2'; destruct (t_center t1); eexists; reflexivity). destruct E2 as [l2 ->].
  destruct (is_scheduled _ _ 0 _); cbn [negb]; [|reflexivity].
  change (t_samples (set_log l2 t2)) with (t_samples t2). destruct (_ <? _); [reflexivity|]. apply log_finish.
Qed.

Definition same_run (r r' : result (phase * tstate)) : Prop :=
  match r, r' with
  | Ok (ph, t), Ok (ph', t') => ph = ph' /\ no_log t = no_log t'
  | Err e, Err e' => e = e'
  | _, _ => False
  end.
Lemma log_step ph (t t' : tstate) : no_log t = no_log t' -> same_run (step (ph, t)) (step (ph, t')).
Proof.
  intros H. apply same_inv in H as [l ->]. unfold TrainerModel.step. destruct ph.
  - change (start_new_epoch (t_stopper (set_log l t)) (t_epoch (set_log l t)) (candidate_cost (set_log l t)))
      with (start_new_epoch (t_stopper t) (t_epoch t) (candidate_cost t)).
    destruct (start_new_epoch _ _ _). split; reflexivity.
  - change (t_iter (set_log l t)) with (t_iter t). destruct (next_batch (t_iter t)) as [[b|] it]; [|split; reflexivity].
    assert (E : exists l1, update_minibatch update b it (set_log l t) = set_log l1 (update_minibatch update b it t)).
    { unfold update_minibatch. cbn [set_log t_params t_accum t_lr]. destruct (update _ _ _ _). eexists. reflexivity. }
    destruct E as [l1 ->]. pose proof (log_validate (update_minibatch update b it t) l1) as H.
    destruct (validate _) as [x|e], (validate (set_log _ _)) as [y|e']; cbn [same bind] in *; try contradiction; [|exact H].
    apply same_inv in H as [l2 ->].
    change (start_new_minibatch (t_stopper (set_log l2 x)) (t_epoch (set_log l2 x)) (candidate_cost (set_log l2 x)))
      with (start_new_minibatch (t_stopper x) (t_epoch x) (candidate_cost x)).
    destruct (start_new_minibatch _ _ _). split; reflexivity.
  - destruct (o_validate o); split; reflexivity.
  - split; reflexivity.
Qed.
Lemma log_steps k : forall ph (t t' : tstate), no_log t = no_log t' -> same_run (steps k (ph, t)) (steps k (ph, t')).
Proof.
  induction k as [|k IH]; intros ph t t' H; [split; [reflexivity|exact H]|]. cbn [TrainerModel.steps].
  pose proof (log_step ph t t' H) as G. destruct (step (ph, t)) as [[p1 t1]|e], (step (ph, t')) as [[p2 t2]|e']; cbn [same_run bind] in *; try contradiction; [|exact G].
  destruct G as [-> G]. now apply IH.
Qed.
Lemma log_train k : forall ph (t t' : tstate), no_log t = no_log t' -> same (train k (ph, t)) (train k (ph, t')).
Proof.
  induction k as [|k IH]; intros ph t t' H; cbn [TrainerModel.train]; [destruct ph; [reflexivity|reflexivity|reflexivity|exact H]|].
  pose proof (log_step ph t t' H) as G.
  destruct (step (ph, t)) as [[p1 t1]|e], (step (ph, t')) as [[p2 t2]|e']; cbn [same_run bind] in *; try contradiction.
  - destruct G as [-> G]. destruct ph; try (apply IH; exact G). exact H.
  - destruct ph; try exact G. exact H.
Qed.
End Log.

(** ** Resuming *)
Section Updated.
Context {params accum iter batch : Type}.
Variable next_batch : iter -> option batch * iter.
Variable update : params -> accum -> Qc -> batch -> params * accum.
Lemma updated_add lr x j : forall i y, updated next_batch update i lr x = Some y ->
  updated next_batch update (i + j) lr x = updated next_batch update j lr y.
Proof.
  induction j as [|j IH]; intros i y H; [rewrite Nat.add_0_r; exact H|].
  rewrite Nat.add_succ_r. cbn [updated]. rewrite (IH i y H). reflexivity.
Qed.
Lemma next_validation_later n f u d i : next_validation n f u d -> i < d -> next_validation n f (u + i) (d - i).
Proof.
  intros (H1 & H2 & H3) Hi. split; [lia|]. split; [now replace (u + i + (d - i)) with (u + d) by lia|].
  intros e He. rewrite <- Nat.add_assoc. apply H3. lia.
Qed.
End Updated.

(** Resuming in another process, where the iterator gives mini-batches by [next2]
    (the random generators differ). [Q] relates the iterator of the first process to
    that of the second. *)
Section Resume2.
Context {params accum iter isaved batch : Type}.
Variables next_batch next2 : iter -> option batch * iter.
Variable update : params -> accum -> Qc -> batch -> params * accum.
Variable perplexity : params -> Qc.
Variable isave : iter -> isaved.
Variable irestore : iter -> isaved -> result iter.
Variable o : toptions.
Notation tstate := (@tstate params accum iter isaved batch).
Notation file := (@file params accum isaved).
Notation event := (@event batch).
Notation step := (step next_batch update perplexity isave irestore o).
Notation steps := (steps next_batch update perplexity isave irestore o).
Notation step2 := (TrainerModel.step next2 update perplexity isave irestore o).
Notation steps2 := (TrainerModel.steps next2 update perplexity isave irestore o).
Notation after_updates2 := (TrainerSpec.after_updates next2 update).
Notation after_updates := (after_updates next_batch update).
Notation hist t := (history (t_log t)).
Notation NS := (o_samples o).

(** All that the two states have in common, besides the iterators being related *)
Definition agrees2 (t t' : tstate) : Prop :=
  t_params t = t_params t' /\ t_accum t = t_accum t' /\ t_lr t = t_lr t' /\
  t_epoch t = t_epoch t' /\ t_update t = t_update t' /\ t_costs t = t_costs t' /\ t_candidate t = t_candidate t' /\
  t_file t = t_file t' /\ t_samples t = t_samples t' /\ t_center t = t_center t'.

Hypothesis Hvalidate : o_validate o = true.
Hypothesis Hn : o_updates o <> 0.
Hypothesis Hf : o_frequency o <> 0.
Hypothesis Hs : NS <> 0.
Hypothesis Hpos : forall p, (0 < perplexity p)%Qc.
Variable Q : iter -> iter -> Prop.
Hypothesis Hnext : forall i j b i', Q i j -> next_batch i = (Some b, i') -> exists j', next2 j = (Some b, j') /\ Q i' j'.

Lemma updated_related k lr : forall p a i j p' a' i', Q i j -> updated next_batch update k lr (p, a, i) = Some (p', a', i') ->
  exists j', updated next2 update k lr (p, a, j) = Some (p', a', j') /\ Q i' j'.
Proof.
  induction k as [|k IH]; intros p a i j p' a' i' Hq E; cbn [updated] in *.
  - injection E as <- <- <-. eauto.
  - destruct (updated next_batch update k lr (p, a, i)) as [[[p1 a1] i1]|] eqn:E1; [|discriminate].
    destruct (IH _ _ _ _ _ _ _ Hq E1) as (j1 & -> & Hq1).
    destruct (next_batch i1) as [[b|] i2] eqn:En; [|discriminate].
    destruct (Hnext _ _ _ _ Hq1 En) as (j2 & -> & Hq2).
    destruct (update p1 a1 lr b) as [p2 a2]. injection E as <- <- <-. eauto.
Qed.

Lemma resume2 best0 lr0 crit mx mn lo maxann (t t' t2 : tstate) d ph' crit2 mx2 mn2 maxann2 p a lr it c :
  (forall b, best0 = Some b -> (0 < b)%Qc) ->
  jinv perplexity o best0 lr0 crit mx mn lo maxann (InEpoch, t) -> t_samples t = [] -> t_center t = None ->
  next_validation (o_updates o) (o_frequency o) (t_update t) d -> NS <= d -> after_updates d t <> None ->
  steps d (InEpoch, t) = Ok (ph', t') -> hist t' = hist t ++ [(c, Improved)] ->
  (forall p1 a1 it1, after_updates (d - NS / 2) t = Some (p1, a1, it1) -> exists j, irestore it (isave it1) = Ok j /\ Q it1 j) ->
  initialize irestore p a lr it (create_stopper crit2 mx2 mn2 maxann2) (t_file t') = Ok t2 ->
  t_epoch t <= mx2 -> (crit2 = CAnnealingCount -> (0 <= maxann2)%Z) ->
  exists t3, steps2 (1 + NS / 2) (AtEpoch, t2) = Ok (InEpoch, t3) /\ agrees2 t3 t' /\ Q (t_iter t') (t_iter t3) /\
    (crit2 = CEpochCount -> t_stopper t3 = EpochCount mx2) /\ (crit = CEpochCount -> ph' = InEpoch /\ t_stopper t' = t_stopper t).
Proof.
  intros Hb0 J C1 C2 Hd Hl Ha E Hh Hrestore Ei He Hma.
  assert (V := seg_enough next_batch update perplexity isave irestore o Hvalidate Hn Hf Hs Hpos best0 Hb0 lr0 crit mx mn lo maxann
    t d J (conj C1 C2) Hd ph' t' Hl Ha E). cbv zeta in V. destruct V as (S' & C' & v & _ & Hh' & V1 & _ & V3 & V4).
  assert (Hh2 : NS / 2 < NS) by (apply Nat.div_lt; lia). set (h := NS / 2) in *. clearbody h.
  set (c' := median _) in *. rewrite Hh' in Hh. apply app_inv_head in Hh. injection Hh as Ec ->.
  destruct (V1 eq_refl) as (f & Ff & Ef). destruct (V3 ltac:(discriminate)) as (A1 & A2 & A3 & A4 & A5 & A6). specialize (V4 eq_refl).
  unfold file_after in Ff. destruct (after_updates (d - h) t) as [[[p1 a1] it1]|] eqn:Ea; [|discriminate]. injection Ff as <-.
  unfold with_costs in Ef. cbn [f_params f_trainer f_iter f_optimizer g_epoch g_update] in Ef.
  assert (Ei0 := Ei). unfold initialize, reset_state in Ei. rewrite Ef in Ei.
  cbn [f_params f_trainer f_iter f_optimizer g_epoch g_update g_costs t_file t_iter] in Ei. destruct (Hrestore _ _ _ eq_refl) as (jt & Hr1 & Hr2). rewrite Hr1 in Ei. cbn [bind] in Ei.
  rewrite last_index_snoc in Ei. injection Ei as E2.
  cbn [t_samples t_center t_stopper t_log] in E2.
  assert (Bt : candidate_cost t2 = Some c').
  { rewrite <- E2. unfold candidate_cost. cbn [t_candidate t_costs]. rewrite nth_error_app2, Nat.sub_diag by lia. reflexivity. }
  assert (Cpos : (0 < c')%Qc).
  { apply median_gt; [destruct NS; [congruence|discriminate]|]. intros y Hy. apply in_map_iff in Hy as (j & <- & Hj). apply in_seq in Hj.
    unfold perplexity_after. destruct (after_updates j t) as [[[p2 a2] it2]|] eqn:Eaj; [apply Hpos|].
    exfalso. eapply (after_le next_batch update t j d); [lia|exact Ha|exact Eaj]. }
  pose proof (jinv_initial perplexity irestore o crit2 mx2 mn2 0 maxann2 _ _ _ _ _ _ Ei0 ltac:(lia)) as J2.
  assert (Hb2 : forall b, candidate_cost t2 = Some b -> (0 < b)%Qc) by (intros b Eb; rewrite Bt in Eb; injection Eb as <-; exact Cpos).
  (* the first step *)
  assert (S1 : exists s, step2 (AtEpoch, t2) = Ok (InEpoch, set_stopper s t2) /\ (crit2 = CEpochCount -> s = EpochCount mx2)).
  { cbn [TrainerModel.step]. destruct (start_new_epoch _ _ _) as [s go] eqn:Es.
    pose proof (epoch_decision perplexity o _ _ crit2 mx2 mn2 maxann2 t2 s go (j_winv _ _ _ _ _ _ _ _ _ _ J2) (j_stop _ _ _ _ _ _ _ _ _ _ J2) Es) as [_ D].
    assert (go = true) as ->.
    { destruct go; [reflexivity|]. exfalso. assert (Eep : t_epoch t2 = t_epoch t) by (rewrite <- E2; reflexivity).
      destruct D as [D|[_ D]]; [lia|]. assert (El : t_log t2 = []) by (rewrite <- E2; reflexivity). rewrite El in D.
      destruct crit2; cbn in D; [exact D| |specialize (Hma eq_refl); lia].
      destruct D as (pre & x & y & D & _). destruct pre; discriminate. }
    exists s. split; [reflexivity|]. intros ->. rewrite <- E2 in Es. cbn [t_stopper create_stopper] in Es. unfold start_new_epoch in Es.
    cbn [max_epochs start_new_minibatch] in Es. destruct (_ <? _); congruence. }
  destruct S1 as (s & S1 & Es).
  assert (J3 : jinv perplexity o (candidate_cost t2) (t_lr t2) crit2 mx2 mn2 0 maxann2 (InEpoch, set_stopper s t2)).
  { eapply jinv_step; [exact Hpos|exact Hb2|exact J2|exact S1]. }
  destruct (updated_related h (t_lr t) p1 a1 it1 jt (t_params t') (t_accum t') (t_iter t') Hr2) as (j' & Hj & Hq).
  { unfold TrainerSpec.after_updates in Ea, A1. rewrite <- (updated_add next_batch update _ _ h _ _ Ea). now replace (d - h + h) with d by lia. }
  assert (Au : after_updates2 h (set_stopper s t2) = Some (t_params t', t_accum t', j')).
  { unfold TrainerSpec.after_updates. rewrite <- E2. exact Hj. }
  cbn [Nat.add TrainerModel.steps]. rewrite S1. cbn [bind].
  destruct (Nat.eq_dec (h) 0) as [Ez|Ez].
  - rewrite Ez in *. cbn [TrainerModel.steps]. exists (set_stopper s t2). split; [reflexivity|].
    unfold TrainerSpec.after_updates in Au. cbn [updated] in Au. injection Au as B1 B2 B3.
    split; [|split; [cbn [set_stopper t_iter]; rewrite <- E2; cbn [t_iter]; rewrite <- E2 in B3; cbn [set_stopper t_iter] in B3; rewrite B3; exact Hq|split; [exact Es|exact A6]]].
    rewrite <- E2 in *. cbn [set_stopper t_params t_accum t_iter] in B1, B2, B3.
    unfold agrees2. cbn [set_stopper t_params t_accum t_iter t_lr t_epoch t_update t_costs t_candidate t_file t_samples t_center].
    rewrite Ef. repeat (split; [congruence|]). split; [rewrite A4; lia|]. repeat (split; [congruence|]). congruence.
  - destruct (seg_few next2 update perplexity isave irestore o Hvalidate Hn Hf Hs Hpos _ Hb2 _ crit2 mx2 mn2 0 maxann2 (set_stopper s t2) (h) J3)
      as (t3 & E3 & D1 & D2 & D3 & D4 & D5 & D6 & D7 & D8 & D9 & D10 & D11).
    + rewrite <- E2. split; reflexivity.
    + rewrite <- E2. cbn [set_stopper t_update]. replace (h) with (d - (d - h)) at 2 by lia. apply next_validation_later; [exact Hd|lia].
    + exact Hh2.
    + rewrite Au. discriminate.
    + exists t3. split; [exact E3|]. rewrite Au in D4. injection D4 as B1 B2 B3. split; [|split; [rewrite <- B3; exact Hq|split; [|exact A6]]].
      * rewrite <- E2 in *. cbn [set_stopper t_lr t_epoch t_update t_costs t_candidate t_file t_stopper] in *.
        unfold agrees2. rewrite D5, D6, D7, D8, D9, D10, D1, D2, <- B1, <- B2, A2, A3, A4, A5, V4, S', C', Ef.
        repeat (split; [reflexivity|]). split; [lia|]. repeat (split; [reflexivity|]). reflexivity.
      * intros G. rewrite (D11 G). cbn [set_stopper t_stopper]. auto.
Qed.
End Resume2.

(** ** Where the saved state comes from *)
Section Resume.
Context {params accum iter isaved batch : Type}.
Variable next_batch : iter -> option batch * iter.
Variable update : params -> accum -> Qc -> batch -> params * accum.
Variable perplexity : params -> Qc.
Variable isave : iter -> isaved.
Variable irestore : iter -> isaved -> result iter.
Variable o : toptions.
Notation tstate := (@tstate params accum iter isaved batch).
Notation file := (@file params accum isaved).
Notation event := (@event batch).
Notation step := (step next_batch update perplexity isave irestore o).
Notation steps := (steps next_batch update perplexity isave irestore o).
Notation train := (train next_batch update perplexity isave irestore o).
Notation after_updates := (after_updates next_batch update).
Notation hist t := (history (t_log t)).
Notation NS := (o_samples o).

(** All that the two states have in common *)
Definition agrees (t t' : tstate) : Prop :=
  t_params t = t_params t' /\ t_accum t = t_accum t' /\ t_lr t = t_lr t' /\
  t_iter t = t_iter t' /\ t_epoch t = t_epoch t' /\ t_update t = t_update t' /\ t_costs t = t_costs t' /\ t_candidate t = t_candidate t' /\
  t_file t = t_file t' /\ t_samples t = t_samples t' /\ t_center t = t_center t'.

Hypothesis Hvalidate : o_validate o = true.
Hypothesis Hn : o_updates o <> 0.
Hypothesis Hf : o_frequency o <> 0.
Hypothesis Hs : NS <> 0.
Hypothesis Hpos : forall p, (0 < perplexity p)%Qc.
Hypothesis Hrestore : forall i j, irestore j (isave i) = Ok i.

Lemma resume best0 lr0 crit mx mn lo maxann (t t' t2 : tstate) d ph' crit2 mx2 mn2 maxann2 p a lr it c :
  (forall b, best0 = Some b -> (0 < b)%Qc) ->
  jinv perplexity o best0 lr0 crit mx mn lo maxann (InEpoch, t) -> t_samples t = [] -> t_center t = None ->
  next_validation (o_updates o) (o_frequency o) (t_update t) d -> NS <= d -> after_updates d t <> None ->
  steps d (InEpoch, t) = Ok (ph', t') -> hist t' = hist t ++ [(c, Improved)] ->
  initialize irestore p a lr it (create_stopper crit2 mx2 mn2 maxann2) (t_file t') = Ok t2 ->
  t_epoch t <= mx2 -> (crit2 = CAnnealingCount -> (0 <= maxann2)%Z) ->
  exists t3, steps (1 + NS / 2) (AtEpoch, t2) = Ok (InEpoch, t3) /\ agrees t3 t' /\
    (crit2 = CEpochCount -> t_stopper t3 = EpochCount mx2) /\ (crit = CEpochCount -> ph' = InEpoch /\ t_stopper t' = t_stopper t).
Proof.
  intros Hb0 J C1 C2 Hd Hl Ha E Hh Ei He Hma.
  destruct (resume2 next_batch next_batch update perplexity isave irestore o Hvalidate Hn Hf Hs Hpos eq
    ltac:(intros i j b i' <- En; eauto) best0 lr0 crit mx mn lo maxann t t' t2 d ph' crit2 mx2 mn2 maxann2 p a lr it c
    Hb0 J C1 C2 Hd Hl Ha E Hh ltac:(eauto) Ei He Hma) as (t3 & E3 & Ag & Eq & S1 & S2).
  exists t3. split; [exact E3|]. split; [|auto]. unfold agrees. unfold agrees2 in Ag. intuition congruence.
Qed.
End Resume.

Section Source.
Context {params accum iter isaved batch : Type}.
Variable next_batch : iter -> option batch * iter.
Variable update : params -> accum -> Qc -> batch -> params * accum.
Variable perplexity : params -> Qc.
Variable isave : iter -> isaved.
Variable irestore : iter -> isaved -> result iter.
Variable o : toptions.
Notation tstate := (@tstate params accum iter isaved batch).
Notation file := (@file params accum isaved).
Notation event := (@event batch).
Notation step := (step next_batch update perplexity isave irestore o).
Notation steps := (steps next_batch update perplexity isave irestore o).
Notation hist t := (history (t_log t)).
Notation winv := (winv perplexity o).
Notation holds := (holds isave).
Variables (best0 : option Qc) (lr0 : Qc).
Variable x0 : phase * tstate.

Definition source (k : nat) (f : file) (costs : list Qc) : Prop :=
  exists j ph t, j <= k /\ steps j x0 = Ok (ph, t) /\ holds f t costs.
Lemma source_S k f costs : source k f costs -> source (S k) f costs.
Proof. intros (j & ph & t & H & G). exists j, ph, t. split; [lia|exact G]. Qed.
Lemma holds_get_state (t t' : tstate) : t_params t' = t_params t -> t_accum t' = t_accum t -> t_lr t' = t_lr t -> t_iter t' = t_iter t ->
  t_epoch t' = t_epoch t -> t_update t' = t_update t -> holds (get_state isave t) t' (t_costs t).
Proof. intros E1 E2 E3 E4 E5 E6. unfold TrainerSpec.holds. rewrite E1, E2, E3, E4, E5, E6. cbn. auto. Qed.
Lemma holds_with_costs f (t : tstate) cs cs' : holds f t cs -> holds (with_costs f cs') t cs'.
Proof. intros (H1 & H2 & H3 & H4). unfold TrainerSpec.holds, with_costs. cbn. rewrite H4. auto. Qed.

Lemma file_source k : winv best0 lr0 (snd x0) -> t_center (snd x0) = None -> forall ph t, steps k x0 = Ok (ph, t) ->
  (t_file t = t_file (snd x0) /\ candidate_cost t = candidate_cost (snd x0) \/
   exists costs, source k (t_file t) costs /\
    (o_validate o = true -> exists pre b, costs = pre ++ [b] /\ candidate_cost t = Some b)) /\
  (forall f, t_center t = Some f -> source k f (t_costs t)).
Proof.
  intros W0 Hc0. induction k as [|k IH]; intros ph t.
  - cbn [TrainerModel.steps]. intros E. assert (t = snd x0) as -> by (injection E as ->; reflexivity). split; [auto|]. rewrite Hc0. discriminate.
  - intros E'. assert (E := E'). rewrite steps_snoc in E. destruct (steps k x0) as [[ph1 t1]|e] eqn:E1; cbn [bind] in E; [|discriminate].
    destruct (IH _ _ eq_refl) as [IHf IHc]. clear IH.
    assert (W1 : winv best0 lr0 t1).
    { change (winv best0 lr0 (snd (ph1, t1))). eapply (steps_inv next_batch update perplexity isave irestore o (fun x => winv best0 lr0 (snd x))); [|exact W0|exact E1].
      intros x y Hx Hy. eapply winv_step; eassumption. }
    assert (W : winv best0 lr0 t).
    { change (winv best0 lr0 (snd (ph, t))). eapply winv_step; [|exact E]. exact W1. }
    assert (Keep : t_file t = t_file t1 -> candidate_cost t = candidate_cost t1 -> 
       t_file t = t_file (snd x0) /\ candidate_cost t = candidate_cost (snd x0) \/
       exists costs, source (S k) (t_file t) costs /\ (o_validate o = true -> exists pre b, costs = pre ++ [b] /\ candidate_cost t = Some b)).
    { intros Ef Ec. rewrite Ef, Ec. destruct IHf as [I|(costs & I1 & I2)].
      - left. exact I.
      - right. exists costs. split; [now apply source_S|exact I2]. }
    destruct (step_cases _ _ _ _ _ _ _ _ _ _ E) as [(s & -> & _)|[(it & -> & _)|[(b & it & t2 & s & _ & _ & Ev & ->)|(-> & -> & H)]]].
    + split; [apply Keep; reflexivity|]. intros f Hf. apply source_S, IHc, Hf.
    + split; [apply Keep; reflexivity|]. intros f Hf. apply source_S, IHc, Hf.
    + pose proof (winv_update update perplexity o best0 lr0 b it t1 W1) as Wu.
      destruct (update_fields update b it t1) as (U1 & U2 & U3 & U4 & U5 & U6). cbv zeta in *.
      assert (U8 : t_costs (update_minibatch update b it t1) = t_costs t1 /\ t_candidate (update_minibatch update b it t1) = t_candidate t1)
        by (unfold update_minibatch; destruct (update (t_params t1) _ _ _); split; reflexivity). destruct U8 as [U8 U9].
      set (tu := update_minibatch update b it t1) in *.
      cbn [set_stopper t_file t_center t_costs] in *.
      destruct (validate_history _ _ _ _ _ _ _ _ Wu Ev) as [(L & H & C)|(c & Hh & _ & Hv & Hf & Hc)].
      * split.
        -- apply Keep; [rewrite (l_file _ _ L); exact U3|]. unfold candidate_cost. cbn [set_stopper t_candidate t_costs].
           rewrite (l_costs _ _ L), (l_candidate _ _ L), U8, U9. reflexivity.
        -- intros f Hf. rewrite (l_costs _ _ L), U8. destruct C as [C|[C|C]]; rewrite C in Hf; [|discriminate|].
           ++ rewrite U4 in Hf. apply source_S, IHc, Hf.
           ++ injection Hf as <-. exists (S k), ph, (set_stopper s t2). split; [lia|]. split; [exact E'|]. rewrite <- U8.
              apply holds_get_state; cbn [set_stopper t_params t_accum t_lr t_iter t_epoch t_update]; apply L.
      * cbv zeta in *. set (v := verdict_of _ _ c) in *. split; [|rewrite Hc; discriminate].
        assert (Ebest : candidate_cost (set_stopper s t2) = match v with Improved => Some c | _ => candidate_cost t1 end).
        { rewrite (proj1 (winv_best _ _ _ _ _ W)). cbn [set_stopper t_log]. rewrite Hh, final_best_snoc.
          rewrite (proj1 (winv_best _ _ _ _ _ W1)). unfold tu. rewrite hist_update. reflexivity. }
        destruct v.
        -- right. destruct Hf as (f & F & Ef). exists (t_costs t2).
           assert (Hlast : exists pre, t_costs t2 = pre ++ [c]).
           { pose proof (w_candidate _ _ _ _ _ W) as K. assert (K2 := proj2 (winv_best _ _ _ _ _ W)). unfold candidate_ok in K. rewrite K2, Ebest in K.
             destruct K as (i & K3 & K4 & K5 & K6). cbn [set_stopper t_costs t_file t_candidate] in *. rewrite Ef in K6. unfold full, with_costs in K6.
             destruct K6 as (q1 & q2 & q3 & q4 & q5 & q6 & K6). injection K6 as _ K6 _ _. destruct (f_trainer f); [|discriminate]. injection K6 as _ _ K6.
             exists (firstn i (t_costs t2)). rewrite K6 at 1. clear -K4. revert i K4. induction (t_costs t2) as [|y l IHl]; intros [|i] K4; try discriminate; cbn [nth_error firstn app] in *.
             - injection K4 as ->. destruct l; reflexivity.
             - f_equal. now apply IHl. }
           split; [|intros _; destruct Hlast as [pre Hl]; exists pre, c; split; [exact Hl|exact Ebest]].
           rewrite Ef. destruct F as [F|[F ->]].
           ++ rewrite U4 in F. apply IHc in F. apply source_S. destruct F as (j & phj & tj & F1 & F2 & F3). exists j, phj, tj.
              split; [exact F1|]. split; [exact F2|]. eapply holds_with_costs. exact F3.
           ++ exists (S k), ph, (set_stopper s t2). split; [lia|]. split; [exact E'|]. apply holds_with_costs with (cs := t_costs tu).
              destruct Hv as (Y1 & Y2 & Y3 & Y4 & Y5 & Y6). apply holds_get_state; cbn [set_stopper t_params t_accum t_lr t_iter t_epoch t_update]; assumption.
        -- apply Keep; [rewrite Hf; exact U3|exact Ebest].
        -- apply Keep; [rewrite Hf; exact U3|exact Ebest].
    + destruct H as (A1 & A2 & A3 & A4 & A5 & A6 & A7 & A8 & A9 & A10 & A11). split.
      * destruct (o_validate o) eqn:Hv.
        -- destruct A11 as (B1 & B2 & B3). apply Keep; [exact B2|]. unfold candidate_cost. now rewrite B1, A7.
        -- right. destruct A11 as (B1 & B2 & B3). exists (t_costs t1). split; [|discriminate]. rewrite B2.
           exists k, EndEpoch, t1. split; [lia|]. split; [exact E1|]. apply holds_get_state; reflexivity.
      * intros f Hf. rewrite A9 in Hf. rewrite A7. apply source_S, IHc, Hf.
Qed.
End Source.
