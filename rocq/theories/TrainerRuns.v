(** Invariants of training runs. *)
From Coq Require Import QArith Qcanon Permutation Sorting.Sorted.
From Verif Require Import Base ListLib BaseLib QcLib TrainerModel TrainerSpec TrainerProofs.
Local Open Scope nat_scope.

Section Runs.
Context {params accum iter isaved batch : Type}.
Variable next_batch : iter -> option batch * iter.
Variable update : params -> accum -> Qc -> batch -> params * accum.
Variable perplexity : params -> Qc.
Variable isave : iter -> isaved.
Variable irestore : iter -> isaved -> result iter.
Variable o : toptions.
Notation tstate := (@tstate params accum iter isaved batch).
Notation file := (@file params accum isaved).
Notation event := (@event batch).
Notation step := (step next_batch update perplexity isave irestore o).
Notation steps := (steps next_batch update perplexity isave irestore o).
Notation validate := (validate perplexity isave irestore o).
Notation finish_validation := (finish_validation irestore o).
Notation get_state := (get_state isave).
Notation reset_state := (reset_state irestore).
Notation P := (o_patience o).

Lemma steps_app k : forall j x, steps (k + j) x = (do y <- steps k x; steps j y).
Proof.
  induction k as [|k IH]; intros j x; [reflexivity|]. cbn [Nat.add TrainerModel.steps].
  destruct (step x) as [y|]; cbn [bind]; [apply IH|reflexivity].
Qed.
Lemma steps_snoc k x : steps (S k) x = (do y <- steps k x; step y).
Proof.
  replace (S k) with (k + 1) by lia. rewrite steps_app. destruct (steps k x) as [y|]; cbn [bind]; [|reflexivity].
  cbn [TrainerModel.steps]. destruct (step y); reflexivity.
Qed.
Lemma steps_inv (Q : phase * tstate -> Prop) : (forall x y, Q x -> step x = Ok y -> Q y) ->
  forall k x y, Q x -> steps k x = Ok y -> Q y.
Proof.
  intros H. induction k as [|k IH]; intros x y Hx; cbn [TrainerModel.steps]; [intros [= <-]; exact Hx|].
  destruct (step x) as [z|] eqn:E; cbn [bind]; [|discriminate]. apply IH. eapply H; eassumption.
Qed.

(** Another way to write a step: what changes *)
Lemma step_cases ph t ph' t' : step (ph, t) = Ok (ph', t') ->
  (exists s, t' = set_stopper s t /\ (ph = AtEpoch \/ ph = Done)) \/
  (exists it, t' = set_iter it t /\ ph = InEpoch) \/
  (exists b it t1 s, ph = InEpoch /\ next_batch (t_iter t) = (Some b, it) /\
     validate (update_minibatch update b it t) = Ok t1 /\ t' = set_stopper s t1) \/
  (ph = EndEpoch /\ ph' = AtEpoch /\ t_params t' = t_params t /\ t_accum t' = t_accum t /\ t_lr t' = t_lr t /\
     t_iter t' = t_iter t /\ t_epoch t' = S (t_epoch t) /\ t_update t' = 0 /\ t_costs t' = t_costs t /\
     t_samples t' = t_samples t /\ t_center t' = t_center t /\ t_stopper t' = t_stopper t /\
     if o_validate o then t_candidate t' = t_candidate t /\ t_file t' = t_file t /\ t_log t' = t_log t
     else t_candidate t' = last_index (t_costs t) /\ t_file t' = get_state t /\ t_log t' = t_log t ++ [EvCandidate]).
Proof.
  unfold TrainerModel.step. destruct ph.
  - destruct (start_new_epoch _ _ _) as [s go]. intros [= _ <-]. left. eauto.
  - destruct (next_batch (t_iter t)) as [[b|] it] eqn:En.
    + destruct (validate _) as [t1|] eqn:Ev; cbn [bind]; [|discriminate].
      destruct (start_new_minibatch _ _ _) as [s go]. intros [= _ <-]. right. right. left. exists b, it, t1, s. auto.
    + intros [= <- <-]. right. left. eauto.
  - intros [= <- <-]. right. right. right. destruct (o_validate o); cbn; rewrite Nat.add_1_r; repeat (split; [reflexivity|]); auto.
  - intros [= <- <-]. left. exists (t_stopper t). split; [destruct t; reflexivity|auto].
Qed.

(** ** The history of validations *)
Definition costs_of (t : tstate) : list Qc := map fst (history (t_log t)).
Definition num_annealed (t : tstate) : nat := length (filter is_annealed (history (t_log t))).

Record winv (best0 : option Qc) (lr0 : Qc) (t : tstate) : Prop := {
  w_history : history (t_log t) = verdicts P best0 0 (costs_of t);
  w_candidate : candidate_ok t (vstate P best0 0 (costs_of t));
  w_center : forall f, t_center t = Some f -> full f (t_costs t);
  w_lr : t_lr t = halved (num_annealed t) lr0;
  w_samples : Forall (fun c => exists p, c = perplexity p) (t_samples t);
  w_costs : Forall (fun c => exists l, l <> [] /\ c = median l /\ Forall (fun c => exists p, c = perplexity p) l) (costs_of t);
  w_off : o_validate o = false -> history (t_log t) = []
}.

(** Changes that do not matter *)
Lemma winv_same best0 lr0 t t' : winv best0 lr0 t ->
  t_lr t' = t_lr t -> t_costs t' = t_costs t -> t_candidate t' = t_candidate t -> t_file t' = t_file t ->
  (forall f, t_center t' = Some f -> full f (t_costs t)) ->
  Forall (fun c => exists p, c = perplexity p) (t_samples t') ->
  history (t_log t') = history (t_log t) -> winv best0 lr0 t'.
Proof.
  intros [A1 A2 A3 A4 A5 A6 A7] E1 E2 E3 E4 E5 E6 E7.
  assert (Ec : costs_of t' = costs_of t) by (unfold costs_of; now rewrite E7).
  assert (En : num_annealed t' = num_annealed t) by (unfold num_annealed; now rewrite E7).
  constructor; rewrite ?Ec, ?En, ?E7, ?E1, ?E2; auto.
  unfold candidate_ok in *. rewrite E2, E3, E4. exact A2.
Qed.
Lemma winv_looks best0 lr0 t t' : winv best0 lr0 t -> looks t t' ->
  (forall f, t_center t' = Some f -> full f (t_costs t)) ->
  Forall (fun c => exists p, c = perplexity p) (t_samples t') -> winv best0 lr0 t'.
Proof.
  intros H [A1 A2 A3 A4 A5 A6 A7 A8 A9 A10 (es & A11 & A12)] Hc Hs.
  eapply winv_same; eauto. rewrite A11. now apply history_quiet.
Qed.

Lemma winv_validate best0 lr0 t t' : winv best0 lr0 t -> validate t = Ok t' -> winv best0 lr0 t'.
Proof.
  intros W E. destruct (validate_cases _ _ _ _ _ _ E) as [(L & C & S)|(t1 & f & L & S & C & F & Hv & _ & E1)].
  - eapply winv_looks; [exact W|exact L| |].
    + intros f Hf. destruct C as [C|[C|C]]; rewrite C in Hf; [now apply (w_center _ _ _ W)|discriminate|].
      injection Hf as <-. apply full_get_state.
    + destruct S as [->|[->| ->]]; [apply (w_samples _ _ _ W)|constructor|]. apply Forall_app. split; [apply (w_samples _ _ _ W)|].
      constructor; [eauto|constructor].
  - assert (Sm : Forall (fun c => exists p, c = perplexity p) (t_samples t1)).
    { rewrite S. apply Forall_app. split; [apply (w_samples _ _ _ W)|]. constructor; [eauto|constructor]. }
    assert (W1 : winv best0 lr0 t1).
    { eapply winv_looks; [exact W|exact L| |exact Sm]. intros f' Hf. rewrite C in Hf. injection Hf as <-.
      destruct F as [F|[_ ->]]; [now apply (w_center _ _ _ W)|apply full_get_state]. }
    assert (Ff : full f (t_costs t1)) by (now apply (w_center _ _ _ W1)).
    destruct (finish_cases _ _ _ _ _ _ C Ff (w_candidate _ _ _ W1) E1) as (K & S' & C' & V). cbv zeta in K, V.
    set (c := median (t_samples t1)) in *. set (x := vstate P best0 0 (costs_of t1)) in *.
    assert (Hh : history (t_log t') = history (t_log t1) ++ [(c, verdict_of P x c)] /\
                 t_lr t' = match verdict_of P x c with Annealed => (t_lr t1 / (1 + 1))%Qc | _ => t_lr t1 end).
    { destruct (verdict_of P x c).
      - rewrite V. split; [|reflexivity]. cbn [set_samples set_candidate_state add_event set_costs t_log].
        rewrite !history_snoc. cbn [history_event]. apply set_last_snoc.
      - rewrite V. split; [|reflexivity]. cbn [set_samples add_event set_costs t_log]. now rewrite history_snoc.
      - destruct V as (cs & i & _ & _ & _ & _ & V1 & V2 & _). split; [|exact V2]. rewrite V1, history_app. cbn [fold_left history_event].
        apply set_last_snoc. }
    destruct Hh as [Hh Hlr].
    assert (Hc : costs_of t' = costs_of t1 ++ [c]) by (unfold costs_of; now rewrite Hh, map_app).
    constructor.
    + rewrite Hh, Hc, verdicts_snoc, <- (w_history _ _ _ W1). reflexivity.
    + rewrite Hc, vstate_snoc. exact K.
    + intros f' Hf. congruence.
    + rewrite Hlr. unfold num_annealed. rewrite Hh, filter_app, app_length. pose proof (w_lr _ _ _ W1) as Hl. unfold num_annealed in Hl.
      cbn [filter is_annealed snd]. destruct (verdict_of P x c); cbn [length]; rewrite ?Nat.add_0_r, ?Nat.add_1_r; try exact Hl.
      cbn [halved]. now rewrite Hl.
    + rewrite S'. constructor.
    + rewrite Hc. apply Forall_app. split; [apply (w_costs _ _ _ W1)|]. constructor; [|constructor].
      exists (t_samples t1). split; [rewrite S; now destruct (t_samples t)|]. split; [reflexivity|exact Sm].
    + congruence.
Qed.

Lemma winv_step best0 lr0 x y : winv best0 lr0 (snd x) -> step x = Ok y -> winv best0 lr0 (snd y).
Proof.
  intros W E. destruct x as [ph t], y as [ph' t']. cbn [snd] in *.
  destruct (step_cases _ _ _ _ E) as [(s & -> & _)|[(it & -> & _)|[(b & it & t1 & s & _ & _ & E1 & ->)|(_ & _ & H)]]].
  - eapply winv_same; [exact W|..]; try reflexivity; [apply (w_center _ _ _ W)|apply (w_samples _ _ _ W)].
  - eapply winv_same; [exact W|..]; try reflexivity; [apply (w_center _ _ _ W)|apply (w_samples _ _ _ W)].
  - assert (W0 : winv best0 lr0 (update_minibatch update b it t)).
    { unfold update_minibatch. destruct (update _ _ _ _) as [p a].
      eapply winv_same; [exact W|..]; try reflexivity; [apply (w_center _ _ _ W)|apply (w_samples _ _ _ W)|].
      cbn [add_event t_log]. now rewrite history_snoc. }
    apply (winv_validate _ _ _ _ W0) in E1.
    eapply winv_same; [exact E1|..]; try reflexivity; [apply (w_center _ _ _ E1)|apply (w_samples _ _ _ E1)].
  - destruct (o_validate o) eqn:Hv; destruct H as (A1 & A2 & A3 & A4 & A5 & A6 & A7 & A8 & A9 & A10 & A11 & A12 & A13).
    { eapply winv_same; [exact W|..]; try assumption; try congruence.
      + rewrite A9. apply (w_center _ _ _ W).
      + rewrite A8. apply (w_samples _ _ _ W). }
    pose proof (w_off _ _ _ W Hv) as Ho.
    assert (Eh : history (t_log t') = history (t_log t)) by (rewrite A13, history_snoc, Ho; reflexivity).
    destruct W as [B1 B2 B3 B4 B5 B6 B7]. assert (Ec : costs_of t' = costs_of t) by (unfold costs_of; now rewrite Eh).
    constructor; rewrite ?Ec, ?Eh, ?A3, ?A7, ?A8, ?A9; auto.
    + unfold costs_of in *. rewrite Ho in *. unfold candidate_ok in *. cbn [map vstate fst snd] in *. rewrite A7, A12, A11.
      destruct best0 as [b|].
      * destruct B2 as (i & C1 & C2 & C3 & C4). assert (El : last_index (t_costs t) = Some i).
        { destruct (t_costs t); [discriminate|]. unfold last_index. apply f_equal. cbn [length] in *. lia. }
        exists i. split; [exact El|]. split; [exact C2|]. split; [exact C3|]. rewrite firstn_all2 by lia. apply full_get_state.
      * destruct B2 as (C1 & C2 & C3). rewrite C2. auto.
    + rewrite B4. unfold num_annealed. now rewrite Eh.
Qed.

(** ** Initial states *)
Lemma last_index_nth {A} (l : list A) i : last_index l = Some i -> length l = S i.
Proof. destruct l as [|x l]; [discriminate|]. unfold last_index. intros [= <-]. cbn [length]. lia. Qed.

Lemma winv_initial p a lr it s f t : initialize irestore p a lr it s f = Ok t ->
  winv (candidate_cost t) (t_lr t) t /\ t_log t = [] /\ t_samples t = [] /\ t_center t = None /\ t_stopper t = s /\ t_file t = f.
Proof.
  unfold initialize. set (t0 := mkTstate _ _ _ _ _ _ _ _ _ _ _ _ _).
  assert (G : forall t, t_log t = [] -> t_samples t = [] -> t_center t = None -> t_candidate t = last_index (t_costs t) ->
              (t_costs t <> [] -> full (t_file t) (t_costs t)) -> winv (candidate_cost t) (t_lr t) t).
  { clear t. intros t E1 E2 E3 E4 E5. constructor; unfold costs_of, num_annealed; rewrite ?E1, ?E2, ?E3; try constructor; try discriminate; try reflexivity.
    unfold candidate_ok, candidate_cost. cbn [map history fold_left vstate fst snd]. rewrite E4.
    destruct (last_index (t_costs t)) as [i|] eqn:El.
    - pose proof (last_index_nth _ _ El) as Hl. destruct (nth_error (t_costs t) i) as [b|] eqn:Eb.
      + exists i. split; [reflexivity|]. split; [exact Eb|]. split; [lia|]. rewrite firstn_all2 by lia. apply E5. destruct (t_costs t); discriminate.
      + apply nth_error_None in Eb. lia.
    - destruct (t_costs t); [auto|discriminate]. }
  destruct (f_trainer f) as [g|] eqn:Eg.
  - unfold TrainerModel.reset_state. cbn [t0 t_file]. destruct (f_params f) as [p1|] eqn:E1; [|discriminate]. rewrite Eg.
    destruct (g_epoch g) as [e|] eqn:E2; [|discriminate]. destruct (g_update g) as [u|] eqn:E3; [|discriminate].
    destruct (f_iter f) as [i|] eqn:E4; [|discriminate]. destruct (irestore _ i) as [it1|]; cbn [bind]; [|discriminate].
    destruct (f_optimizer f) as [[[lr1|] [a1|]]|] eqn:E5; try discriminate.
    intros [= <-]. split; [|auto 10]. apply G; try reflexivity. cbn [t_costs t_file]. intros Hc.
    destruct (g_costs g) as [cs|] eqn:E6; [|congruence]. destruct f as [x1 x2 x3 x4]. cbn in *. subst.
    destruct g as [y1 y2 y3]. cbn in *. subst. do 6 eexists. reflexivity.
  - intros [= <-]. split; [|auto 10]. apply G; try reflexivity. intros H. exfalso. now apply H.
Qed.

(** ** Validation and stopping *)
Lemma final_best_snoc h : forall b c v, final_best b (h ++ [(c, v)]) = match v with Improved => Some c | _ => final_best b h end.
Proof. induction h as [|[x w] h IH]; intros b c v; cbn [app final_best]; [destruct v; reflexivity|]. destruct w; apply IH. Qed.
Lemma annealing_costs_snoc h : forall b c v, annealing_costs b (h ++ [(c, v)]) =
  annealing_costs b h ++ match v with Annealed => match final_best b h with Some x => [x] | None => [] end | _ => [] end.
Proof.
  induction h as [|[x w] h IH]; intros b c v; cbn [app annealing_costs final_best].
  - destruct v; rewrite ?app_nil_r; reflexivity.
  - destruct w; rewrite IH, ?app_assoc; reflexivity.
Qed.
Lemma vstate_best p : forall cs b k, final_best b (verdicts p b k cs) = fst (vstate p b k cs).
Proof.
  induction cs as [|c cs IH]; intros b k; cbn [verdicts vstate]; [reflexivity|].
  destruct (is_improvement b c); [|destruct (_ && _)]; cbn [final_best]; apply IH.
Qed.
Lemma winv_best best0 lr0 t : winv best0 lr0 t ->
  candidate_cost t = final_best best0 (history (t_log t)) /\ fst (vstate P best0 0 (costs_of t)) = candidate_cost t.
Proof.
  intros W. rewrite (w_history _ _ _ W), vstate_best. assert (G : fst (vstate P best0 0 (costs_of t)) = candidate_cost t).
  { pose proof (w_candidate _ _ _ W) as C. unfold candidate_ok in C. unfold candidate_cost.
    destruct (fst (vstate _ _ _ _)) as [b|]; [destruct C as (i & -> & -> & _); reflexivity|destruct C as (-> & _); reflexivity]. }
  split; [now rewrite G|exact G].
Qed.

Lemma validate_history best0 lr0 t t' : winv best0 lr0 t -> validate t = Ok t' ->
  (looks t t' /\ history (t_log t') = history (t_log t) /\
   (t_center t' = t_center t \/ t_center t' = None \/ t_center t' = Some (get_state t))) \/
  (exists c, let v := verdict_of P (candidate_cost t, snd (vstate P best0 0 (costs_of t))) c in
    history (t_log t') = history (t_log t) ++ [(c, v)] /\
    t_stopper t' = (match v with Annealed => improvement_ceased (t_stopper t) (candidate_cost t) | _ => t_stopper t end) /\
    match v with
    | Annealed => (0 <= P)%Z /\ t_file t' = t_file t /\
        f_params (t_file t) = Some (t_params t') /\ t_lr t' = (t_lr t / (1 + 1))%Qc /\
        (exists lr, f_optimizer (t_file t) = Some (Some lr, Some (t_accum t'))) /\
        (exists i, f_iter (t_file t) = Some i /\ irestore (t_iter t) i = Ok (t_iter t')) /\
        f_trainer (t_file t) = Some (mkTgroup (Some (t_epoch t')) (Some (t_update t')) (Some (t_costs t'))) /\
        exists es, t_log t' = t_log t ++ es ++ [EvAnneal (t_lr t) (t_lr t')]
    | _ => t_epoch t' = t_epoch t /\ t_iter t' = t_iter t /\ t_params t' = t_params t /\ t_accum t' = t_accum t /\ t_lr t' = t_lr t /\ t_update t' = t_update t
    end /\
    match v with
    | Improved => exists f, (t_center t = Some f \/ t_center t = None /\ f = get_state t) /\ t_file t' = with_costs f (t_costs t')
    | _ => t_file t' = t_file t
    end /\
    t_center t' = None).
Proof.
  intros W E. destruct (validate_cases _ _ _ _ _ _ E) as [(L & C & S)|(t1 & f & L & S & C & F & Hv & _ & E1)].
  - left. split; [exact L|]. split; [|exact C]. destruct (l_log _ _ L) as (es & -> & Q). now apply history_quiet.
  - right.
    assert (Sm : Forall (fun c => exists p, c = perplexity p) (t_samples t1)).
    { rewrite S. apply Forall_app. split; [apply (w_samples _ _ _ W)|]. constructor; [eauto|constructor]. }
    assert (W1 : winv best0 lr0 t1).
    { eapply winv_looks; [exact W|exact L| |exact Sm]. intros f' Hf. rewrite C in Hf. injection Hf as <-.
      destruct F as [F|[_ ->]]; [now apply (w_center _ _ _ W)|apply full_get_state]. }
    assert (Ff : full f (t_costs t1)) by (now apply (w_center _ _ _ W1)).
    destruct (finish_cases _ _ _ _ _ _ C Ff (w_candidate _ _ _ W1) E1) as (K & S' & C' & V). cbv zeta in K, V.
    set (c := median (t_samples t1)) in *.
    assert (Eh : history (t_log t1) = history (t_log t)) by (destruct (l_log _ _ L) as (es & -> & Q); now apply history_quiet).
    assert (Ec : costs_of t1 = costs_of t) by (unfold costs_of; now rewrite Eh).
    assert (Ex : vstate P best0 0 (costs_of t1) = (candidate_cost t, snd (vstate P best0 0 (costs_of t)))).
    { rewrite <- (proj2 (winv_best _ _ _ W)), Ec. now destruct (vstate P best0 0 (costs_of t)). }
    rewrite Ex in K, V. exists c. cbv zeta. set (x := (candidate_cost t, snd (vstate P best0 0 (costs_of t)))) in *.
    destruct L as [B1 B2 B3 B4 B5 B6 B7 B8 B9 B10 (es & B11 & B12)].
    destruct (verdict_of P x c) eqn:Ev.
    + rewrite V. cbn [set_samples set_candidate_state add_event set_costs t_log t_stopper t_epoch t_iter t_params t_accum t_lr t_update t_file t_center t_costs].
      split; [rewrite !history_snoc, Eh; cbn [history_event]; apply set_last_snoc|]. split; [exact B10|].
      split; [auto 10|]. split; [exists f; auto|reflexivity].
    + rewrite V. cbn [set_samples add_event set_costs t_log t_stopper t_epoch t_iter t_params t_accum t_lr t_update t_file t_center].
      split; [now rewrite history_snoc, Eh|]. auto 12.
    + destruct V as (cs & i & V1 & V2 & V3 & V4 & V5 & V6 & V7 & V8 & V9 & V10 & V11).
      assert (Hp : (0 <= P)%Z).
      { unfold verdict_of in Ev. destruct (is_improvement _ _); [discriminate|]. destruct (Z.leb_spec 0 P) as [G|G]; [exact G|discriminate]. }
      split; [rewrite V5, history_app, Eh; cbn [fold_left history_event]; apply set_last_snoc|].
      assert (Ecc : candidate_cost t' = candidate_cost t).
      { unfold candidate_cost at 1. unfold candidate_ok in K. cbn [vnext fst snd x] in K. destruct (candidate_cost t) as [b|].
        - destruct K as (j & -> & -> & _). reflexivity.
        - destruct K as (-> & _). reflexivity. }
      split; [rewrite V11, Ecc, B10; reflexivity|]. rewrite <- B9, <- B3, <- B4, <- V2 in *.
      split; [|split; [exact V3|exact C']]. split; [exact Hp|]. split; [exact V3|]. split; [exact V4|]. split; [exact V6|].
      split; [exact V7|]. split; [eauto|]. split; [exact V8|]. exists (es ++ [EvValidation c]). rewrite V5, B11, <- !app_assoc. reflexivity.
Qed.

(** Costs are positive, and so the best cost decreases *)
Hypothesis Hpos : forall p, (0 < perplexity p)%Qc.
Lemma costs_positive best0 lr0 t c : winv best0 lr0 t -> In c (costs_of t) -> (0 < c)%Qc.
Proof.
  intros W Hc. pose proof (w_costs _ _ _ W) as F. rewrite Forall_forall in F. destruct (F c Hc) as (l & Hl & -> & Fl).
  apply median_gt; [exact Hl|]. rewrite Forall_forall in Fl. intros y Hy. destruct (Fl y Hy) as [p ->]. apply Hpos.
Qed.
Lemma factor_lt b : (0 < b)%Qc -> (improvement_factor * b < b)%Qc.
Proof.
  intros H. rewrite <- (Qcmult_1_l b) at 2. apply Qcmult_lt_compat_r; [exact H|reflexivity].
Qed.
End Runs.
