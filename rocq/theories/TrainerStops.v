(** When training stops. *)
From Coq Require Import Lqa QArith Qcanon Qround Permutation Sorting.Sorted.
From Verif Require Import Base ListLib BaseLib QcLib TrainerModel TrainerSpec TrainerProofs TrainerRuns.
Local Open Scope nat_scope.

(** ** Lexicographic order of lists of the same length *)
Fixpoint lexlt (l m : list nat) : Prop :=
  match l, m with
  | a :: l', b :: m' => length l' = length m' /\ (a < b \/ a = b /\ lexlt l' m')
  | _, _ => False
  end.
Lemma lexlt_length l : forall m, lexlt l m -> length l = length m.
Proof. induction l as [|a l IH]; intros [|b m]; cbn [lexlt length]; try contradiction. intros [H _]. congruence. Qed.
Lemma lexlt_acc n : forall l, length l = n -> Acc lexlt l.
Proof.
  induction n as [|n IH]; intros l Hl.
  - destruct l; [|discriminate]. constructor. intros [|a y] H; contradiction.
  - destruct l as [|a l]; [discriminate|]. injection Hl as Hl. revert l Hl.
    induction a as [a IHa] using lt_wf_ind. intros l Hl. pose proof (IH l Hl) as A. revert Hl.
    induction A as [l _ IHl]. intros Hl. constructor. intros [|b y] H; [contradiction|]. cbn [lexlt] in H.
    destruct H as [Hy [H|[-> H]]].
    + apply IHa; [exact H|congruence].
    + apply IHl; [exact H|congruence].
Qed.
Lemma lexlt_wf : well_founded lexlt.
Proof. intros l. now apply (lexlt_acc (length l)). Qed.
Lemma lexlt_app_l l m l' m' : lexlt l m -> length l' = length m' -> lexlt (l ++ l') (m ++ m').
Proof.
  revert m. induction l as [|a l IH]; intros [|b m]; cbn [lexlt app]; try contradiction.
  intros [H1 H2] H. rewrite !app_length, H1, H. split; [reflexivity|]. destruct H2 as [H2|[H2 H3]]; [now left|right]. auto.
Qed.
Lemma lexlt_app_r l l' m' : lexlt l' m' -> lexlt (l ++ l') (l ++ m').
Proof.
  intros H. induction l as [|a l IH]; [exact H|]. cbn [app lexlt]. rewrite !app_length, (lexlt_length _ _ H). auto.
Qed.

Section Stops.
Context {params accum iter isaved batch : Type}.
Variable next_batch : iter -> option batch * iter.
Variable update : params -> accum -> Qc -> batch -> params * accum.
Variable perplexity : params -> Qc.
Variable isave : iter -> isaved.
Variable irestore : iter -> isaved -> result iter.
Variable o : toptions.
Notation tstate := (@tstate params accum iter isaved batch).
Notation file := (@file params accum isaved).
Notation event := (@event batch).
Notation step := (step next_batch update perplexity isave irestore o).
Notation steps := (steps next_batch update perplexity isave irestore o).
Notation train := (train next_batch update perplexity isave irestore o).
Notation validate := (validate perplexity isave irestore o).
Notation get_state := (get_state isave).
Notation winv := (winv perplexity o).
Notation P := (o_patience o).

Hypothesis Hpos : forall p, (0 < perplexity p)%Qc.
Variable best0 : option Qc.
Hypothesis Hbest0 : forall b, best0 = Some b -> (0 < b)%Qc.
Variable lr0 : Qc.
Variable crit : criterion.
Variables mx mn lo : nat.
Variable maxann : Z.
Notation mn' := (min_epochs crit mn).
Notation should_stop := (should_stop crit maxann best0).
Notation hist t := (history (t_log t)).

Lemma final_best_in h : forall b0 b, final_best b0 h = Some b -> b0 = Some b \/ In b (map fst h).
Proof.
  induction h as [|[c v] h IH]; intros b0 b; cbn [final_best map fst]; [auto|].
  destruct v; intros H; apply IH in H as [H|H]; try (right; right; exact H); try (left; exact H).
  injection H as ->. right. now left.
Qed.
Lemma best_positive (t : tstate) b : winv best0 lr0 t -> final_best best0 (hist t) = Some b -> (0 < b)%Qc.
Proof.
  intros W H. destruct (final_best_in _ _ _ H) as [->|G]; [now apply Hbest0|].
  eapply costs_positive; [exact Hpos|exact W|exact G].
Qed.

Definition stop_inv (t : tstate) : Prop :=
  match crit, t_stopper t with
  | CEpochCount, EpochCount mx1 => mx1 = mx
  | CAnnealingCount, AnnealingCount mx1 mn1 k =>
    mx1 = mx /\ mn1 = mn /\ k = (maxann - Z.of_nat (num_annealed t))%Z
  | CNoImprovement, NoImprovement mx1 mn1 old imp =>
    mx1 = mx /\ mn1 = mn /\
    match rev (annealing_costs best0 (hist t)) with
    | [] => old = None /\ imp = true
    | y :: r => old = Some y /\ exists b, final_best best0 (hist t) = Some b /\ (b <= y)%Qc /\
      match imp with
      | true => r = [] \/ (exists x r', r = x :: r' /\ (y < x)%Qc) \/ (b < y)%Qc
      | false => exists x r', r = x :: r' /\ (x <= y)%Qc
      end
    end
  | _, _ => False
  end.

Lemma stop_inv_same (t t' : tstate) : stop_inv t -> t_stopper t' = t_stopper t -> hist t' = hist t -> stop_inv t'.
Proof. intros H E1 E2. unfold stop_inv, num_annealed in *. rewrite E1, E2. exact H. Qed.

Lemma stop_inv_validate (t t' : tstate) : winv best0 lr0 t -> stop_inv t -> validate t = Ok t' -> stop_inv t'.
Proof.
  intros W S E. destruct (validate_history _ _ _ _ _ _ _ _ W E) as [(L & H & _)|(c & Hh & Hs & _)].
  - eapply stop_inv_same; [exact S|apply (l_stopper _ _ L)|exact H].
  - cbv zeta in *. set (v := verdict_of _ _ c) in *. destruct (winv_best _ _ _ _ _ W) as [Hb _].
    assert (Vi : v = Improved -> forall b, candidate_cost t = Some b -> (c < b)%Qc).
    { intros Ev b Ec. unfold v, verdict_of in Ev. cbn [fst snd] in Ev. rewrite Ec in Ev.
      destruct (is_improvement (Some b) c) eqn:Ei; [|destruct (_ && _); discriminate].
      rewrite is_improvement_spec in Ei. apply qc_ltb_lt in Ei. eapply Qclt_trans; [exact Ei|]. apply factor_lt.
      eapply best_positive; [exact W|congruence]. }
    assert (Va : v = Annealed -> exists b, candidate_cost t = Some b).
    { intros Ev. unfold v, verdict_of in Ev. cbn [fst snd] in Ev. destruct (candidate_cost t); [eauto|discriminate]. }
    unfold stop_inv, num_annealed in *. rewrite Hh, Hs. rewrite !filter_app, !app_length.
    rewrite annealing_costs_snoc, final_best_snoc. rewrite <- Hb in *.
    destruct crit, (t_stopper t) as [m1|m1 m2 old imp|m1 m2 k]; try contradiction.
    + destruct v; exact S.
    + destruct S as (-> & -> & S). destruct v.
      * rewrite app_nil_r. split; [reflexivity|]. split; [reflexivity|]. destruct (rev _) as [|y r]; [exact S|].
        destruct S as (-> & b & Eb & Hy & Hi). split; [reflexivity|]. exists c. split; [reflexivity|].
        specialize (Vi eq_refl b Eb). assert (c < y)%Qc by (eapply Qclt_le_trans; eassumption).
        split; [now apply Qclt_le_weak|]. destruct imp; [auto|exact Hi].
      * rewrite app_nil_r. auto.
      * destruct (Va eq_refl) as [b Eb]. rewrite Eb in *. rewrite rev_app_distr. cbn [rev app improvement_ceased].
        destruct (rev _) as [|y r].
        -- destruct S as (-> & ->). split; [reflexivity|]. split; [reflexivity|]. split; [reflexivity|]. exists b.
           split; [reflexivity|]. split; [apply Qcle_refl|]. now left.
        -- destruct S as (-> & b' & Eb' & Hy & Hi). injection Eb' as <-. split; [reflexivity|]. split; [reflexivity|]. split; [reflexivity|].
           exists b. split; [reflexivity|]. split; [apply Qcle_refl|]. destruct (qc_ltb b y) eqn:El.
           ++ apply qc_ltb_lt in El. right. left. eauto.
           ++ exists y, r. split; [reflexivity|]. unfold qc_ltb in El. destruct (Qclt_le_dec b y); [discriminate|assumption].
    + destruct S as (-> & -> & ->). cbn [filter is_annealed snd].
      clearbody v. destruct v; cbn [improvement_ceased length]; (split; [reflexivity|]); (split; [reflexivity|]); unfold is_annealed; cbn [snd length]; clear; lia.
Qed.

Lemma stalled_rev h : stalled best0 h <-> exists y x r b, rev (annealing_costs best0 h) = y :: x :: r /\ (x <= y)%Qc /\
  (final_best best0 h = Some b -> (y <= b)%Qc) /\ forall b', final_best best0 h = Some b' -> (y <= b')%Qc.
Proof.
  split.
  - intros (pre & x & y & E & H1 & H2). exists y, x, (rev pre), 0%Qc. rewrite E, rev_app_distr. cbn. auto.
  - intros (y & x & r & b & E & H1 & _ & H2). exists (rev r), x, y. split; [|auto].
    rewrite <- (rev_involutive (annealing_costs _ _)), E. cbn [rev]. now rewrite <- app_assoc.
Qed.

Lemma minibatch_decision (t : tstate) s go : winv best0 lr0 t -> stop_inv t -> start_new_minibatch (t_stopper t) (t_epoch t) (candidate_cost t) = (s, go) ->
  stop_inv (set_stopper s t) /\ if go then t_epoch t <= mn' \/ ~ should_stop (hist t) else mn' < t_epoch t /\ should_stop (hist t).
Proof.
  intros W S. destruct (winv_best _ _ _ _ _ W) as [Hb _]. unfold stop_inv in *. cbn [set_stopper t_stopper t_log].
  unfold num_annealed in *. cbn [set_stopper t_log].
  unfold start_new_minibatch, TrainerSpec.should_stop, min_epochs.
  destruct crit, (t_stopper t) as [m1|m1 m2 old imp|m1 m2 k] eqn:Es; try contradiction.
  - intros [= <- <-]. split; [exact S|]. right. tauto.
  - destruct S as (-> & -> & S). destruct (Nat.leb_spec (t_epoch t) mn) as [He|He].
    { intros [= <- <-]. auto. }
    destruct imp.
    { intros [= <- <-]. split; [auto|]. right. intros G. apply stalled_rev in G as (y & x & r & _ & E & G1 & _ & G2).
      rewrite E in S. destruct S as (-> & b & Eb & Hy & [G|[(x' & r' & G & G3)|G]]); [discriminate| |].
      - injection G as -> _. exact (Qclt_not_le _ _ G3 G1).
      - specialize (G2 b Eb). exact (Qclt_not_le _ _ G G2). }
    destruct (rev (annealing_costs best0 (hist t))) as [|y r] eqn:Er; [destruct S; discriminate|].
    destruct S as (-> & b & Eb & Hy & x & r' & -> & Hx). rewrite Hb, Eb.
    destruct (qc_ltb b y) eqn:El; intros [= <- <-].
    + apply qc_ltb_lt in El. split; [split; [reflexivity|split; [reflexivity|]]; split; [reflexivity|]; exists b; auto|].
      right. intros G. apply stalled_rev in G as (y' & x1 & r & _ & E & G1 & _ & G2). rewrite Er in E. injection E as <- _ _.
      specialize (G2 b Eb). exact (Qclt_not_le _ _ El G2).
    + split; [split; [reflexivity|split; [reflexivity|]]; split; [reflexivity|]; exists b; eauto 10|].
      split; [exact He|]. apply stalled_rev. exists y, x, r', b. split; [exact Er|]. split; [exact Hx|].
      assert (y <= b)%Qc by (unfold qc_ltb in El; destruct (Qclt_le_dec b y); [discriminate|assumption]).
      split; [auto|]. intros b' E'. congruence.
  - destruct S as (-> & -> & ->). destruct (Nat.leb_spec (t_epoch t) mn) as [He|He].
    { intros [= <- <-]. auto. }
    intros [= <- <-]. split; [auto|]. destruct (Z.leb_spec 0 (maxann - Z.of_nat (length (filter is_annealed (hist t))))); [right|]; lia.
Qed.

Lemma epoch_decision (t : tstate) s go : winv best0 lr0 t -> stop_inv t -> start_new_epoch (t_stopper t) (t_epoch t) (candidate_cost t) = (s, go) ->
  stop_inv (set_stopper s t) /\
  if go then t_epoch t <= mx /\ (t_epoch t <= mn' \/ ~ should_stop (hist t))
  else mx < t_epoch t \/ (mn' < t_epoch t /\ should_stop (hist t)).
Proof.
  intros W S. unfold start_new_epoch.
  assert (Em : max_epochs (t_stopper t) = mx).
  { unfold stop_inv in S. destruct crit, (t_stopper t); try contradiction; cbn; [exact S|apply S|apply S]. }
  rewrite Em. destruct (Nat.ltb_spec mx (t_epoch t)) as [H|H].
  - intros [= <- <-]. split; [|auto]. eapply stop_inv_same; [exact S|reflexivity|reflexivity].
  - intros E. destruct (minibatch_decision t s go W S E) as [S' D]. split; [exact S'|]. destruct go; auto.
Qed.

(** Epoch numbers in states and files *)
Definition file_epoch (Q : nat -> Prop) (f : file) : Prop :=
  forall g e, f_trainer f = Some g -> g_epoch g = Some e -> Q e.
Definition epochs (Q : nat -> Prop) (t : tstate) : Prop :=
  file_epoch Q (t_file t) /\ forall f, t_center t = Some f -> file_epoch Q f.

Lemma file_epoch_state (Q : nat -> Prop) (t : tstate) : Q (t_epoch t) -> file_epoch Q (get_state t).
Proof. intros H g e [= <-] [= <-]. exact H. Qed.
Lemma file_epoch_costs (Q : nat -> Prop) f cs : file_epoch Q f -> file_epoch Q (with_costs f cs).
Proof.
  intros H g e. cbn [with_costs f_trainer]. destruct (f_trainer f) as [g'|] eqn:E; [|discriminate]. intros [= <-]. cbn [g_epoch]. now apply H.
Qed.
Lemma epochs_validate (Q : nat -> Prop) (t t' : tstate) : winv best0 lr0 t -> Q (t_epoch t) -> epochs Q t -> validate t = Ok t' -> Q (t_epoch t') /\ epochs Q t'.
Proof.
  intros W He [Hf Hc] E. destruct (validate_history _ _ _ _ _ _ _ _ W E) as [(L & H & C)|(c & Hh & _ & Hv & Hf' & Hc')].
  - split; [now rewrite (l_epoch _ _ L)|]. split; [now rewrite (l_file _ _ L)|]. intros f Ef.
    destruct C as [C|[C|C]]; rewrite C in Ef; [now apply Hc|discriminate|]. injection Ef as <-. now apply file_epoch_state.
  - cbv zeta in *. set (v := verdict_of _ _ c) in *. unfold epochs. rewrite Hc'. split.
    + destruct v; [destruct Hv as [-> _]; exact He|destruct Hv as [-> _]; exact He|].
      destruct Hv as (_ & _ & _ & _ & _ & _ & Hg & _). apply (Hf _ _ Hg). reflexivity.
    + split; [|discriminate]. destruct v; [|rewrite Hf'; exact Hf|rewrite Hf'; exact Hf].
      destruct Hf' as (f & F & ->). apply file_epoch_costs. destruct F as [F|[_ ->]]; [now apply Hc|]. now apply file_epoch_state.
Qed.

Lemma winv_update b it (t : tstate) : winv best0 lr0 t -> winv best0 lr0 (update_minibatch update b it t).
Proof.
  intros W. unfold update_minibatch. destruct (update _ _ _ _) as [p a].
  eapply winv_same; [exact W|..]; try reflexivity; [apply (w_center _ _ _ _ _ W)|apply (w_samples _ _ _ _ _ W)|].
  cbn [add_event t_log]. now rewrite history_snoc.
Qed.
Lemma hist_update b it (t : tstate) : hist (update_minibatch update b it t) = hist t.
Proof. unfold update_minibatch. destruct (update _ _ _ _) as [p a]. cbn [add_event t_log]. now rewrite history_snoc. Qed.
Lemma update_fields b it (t : tstate) : let t1 := update_minibatch update b it t in
  t_stopper t1 = t_stopper t /\ t_epoch t1 = t_epoch t /\ t_file t1 = t_file t /\ t_center t1 = t_center t /\ t_iter t1 = it /\ t_lr t1 = t_lr t.
Proof. unfold update_minibatch. destruct (update _ _ _ _) as [p a]. cbn. auto 10. Qed.

(** ** The invariant *)
Record jinv (x : phase * tstate) : Prop := {
  j_winv : winv best0 lr0 (snd x);
  j_stop : stop_inv (snd x);
  j_phase : match fst x with
    | AtEpoch => True
    | InEpoch => t_epoch (snd x) <= mx /\ (t_epoch (snd x) <= mn' \/ ~ should_stop (hist (snd x)))
    | EndEpoch => t_epoch (snd x) <= mx
    | Done => mx < t_epoch (snd x) \/ (mn' < t_epoch (snd x) /\ should_stop (hist (snd x)))
    end;
  j_max : epochs (fun e => e <= mx) (snd x) \/ (mx < t_epoch (snd x) /\ (fst x = AtEpoch \/ fst x = Done));
  j_min : lo <= t_epoch (snd x) /\ epochs (fun e => lo <= e) (snd x)
}.

Lemma jinv_step x y : jinv x -> step x = Ok y -> jinv y.
Proof.
  intros [W S Hp Hx [Hn1 Hn2]] E. assert (W' : winv best0 lr0 (snd y)) by (eapply winv_step; [exact W|exact E]).
  destruct x as [ph t]. cbn [fst snd] in *. unfold TrainerModel.step in E. destruct ph.
  - destruct (start_new_epoch _ _ _) as [s go] eqn:Es. injection E as <-. cbn [fst snd] in *.
    destruct (epoch_decision t s go W S Es) as [S' D]. constructor; cbn [fst snd]; [exact W'|exact S'| | |].
    + cbn [set_stopper t_epoch t_log]. destruct go; exact D.
    + destruct Hx as [Hx|[Hx _]]; [left; exact Hx|]. destruct go; [lia|]. right. auto.
    + split; [exact Hn1|exact Hn2].
  - destruct Hp as [He Hp]. destruct Hx as [Hx|[Hx _]]; [|lia]. destruct (next_batch (t_iter t)) as [[b|] it] eqn:En.
    + destruct (validate _) as [t1|] eqn:Ev; cbn [bind] in E; [|discriminate].
      destruct (start_new_minibatch _ _ _) as [s go] eqn:Es. injection E as <-. cbn [fst snd] in *.
      pose proof (winv_update b it t W) as W0. destruct (update_fields b it t) as (U1 & U2 & U3 & U4 & U5 & U6). cbv zeta in *.
      pose proof (hist_update b it t) as U7. set (t0 := update_minibatch update b it t) in *.
      assert (W1 : winv best0 lr0 t1) by (eapply winv_validate; eassumption).
      assert (S1 : stop_inv t1). { eapply stop_inv_validate; [exact W0| |exact Ev]. eapply stop_inv_same; eassumption. }
      destruct (epochs_validate (fun e => e <= mx) t0 t1 W0) as [X1 X2]; [now rewrite U2|unfold epochs; rewrite U3, U4; exact Hx|exact Ev|].
      destruct (epochs_validate (fun e => lo <= e) t0 t1 W0) as [N1 N2]; [now rewrite U2|unfold epochs; rewrite U3, U4; exact Hn2|exact Ev|].
      destruct (minibatch_decision t1 s go W1 S1 Es) as [S' D].
      constructor; cbn [fst snd]; [exact W'|exact S'| |left; exact X2|split; assumption].
      destruct go; cbn [set_stopper t_epoch t_log]; [split; [exact X1|exact D]|exact X1].
    + injection E as <-. constructor; cbn [fst snd]; auto.
  - injection E as <-. destruct Hx as [Hx|[Hx _]]; [|lia]. cbn [fst snd] in *.
    constructor; cbn [fst snd]; [exact W'| |exact I| |].
    + eapply stop_inv_same; [exact S|destruct (o_validate o); reflexivity|].
      destruct (o_validate o) eqn:Hv; [reflexivity|]. cbn [set_candidate_state add_event t_log].
      rewrite history_snoc, (w_off _ _ _ _ _ W Hv). reflexivity.
    + left. unfold epochs in *. cbn [t_file t_center]. destruct (o_validate o); cbn [set_candidate_state add_event t_file t_center]; [exact Hx|].
      split; [|apply Hx]. now apply file_epoch_state.
    + unfold epochs in *. cbn [t_file t_center t_epoch]. destruct (o_validate o); cbn [set_candidate_state add_event t_file t_center t_epoch];
        (split; [lia|]); [exact Hn2|]. split; [|apply Hn2]. now apply (file_epoch_state (fun e => lo <= e)).
  - injection E as <-. constructor; cbn [fst snd]; auto.
Qed.
Lemma jinv_steps k x y : jinv x -> steps k x = Ok y -> jinv y.
Proof. apply steps_inv. exact jinv_step. Qed.

(** ** No exceptions *)
Lemma finish_ok (t : tstate) f x : (forall i s, exists i', irestore i s = Ok i') -> t_center t = Some f -> full f (t_costs t) -> candidate_ok t x ->
  exists t', finish_validation irestore o t = Ok t'.
Proof.
  intros Hi Ec Hf Hx. unfold finish_validation. rewrite Ec. cbv zeta.
  set (c := median (t_samples t)). set (t1 := add_event (EvValidation c) _).
  assert (Hl : t_costs t1 = t_costs t ++ [c]) by reflexivity.
  assert (H1 : exists b, has_improved t1 = Ok b /\ (fst x = None -> b = true)).
  { unfold has_improved. rewrite Hl, rev_app_distr. cbn [rev app]. change (t_candidate t1) with (t_candidate t).
    unfold candidate_ok in Hx. destruct (fst x) as [b|].
    - destruct Hx as (i & -> & Hb & _). unfold py_index. rewrite nth_error_app1 by (apply nth_error_Some; congruence).
      rewrite Hb. cbn [bind]. eexists. split; [reflexivity|discriminate].
    - destruct Hx as (-> & _). eauto. }
  destruct H1 as (b & -> & Hb). cbn [bind]. set (t2 := if b then _ else t1).
  assert (H2 : exists k, validations_since_candidate t2 = Ok k).
  { unfold validations_since_candidate. assert (Ec2 : t_costs t2 = t_costs t ++ [c]) by (unfold t2; destruct b; reflexivity).
    rewrite Ec2. destruct (t_costs t ++ [c]) as [|c0 cs] eqn:El; [destruct (t_costs t); discriminate|].
    assert (Hc : exists i, t_candidate t2 = Some i).
    { unfold t2. destruct b.
      - cbn [set_candidate_state add_event t_candidate]. rewrite Hl. unfold last_index. eauto.
      - change (t_candidate t1) with (t_candidate t). unfold candidate_ok in Hx. destruct (fst x); [destruct Hx as (i & -> & _); eauto|].
        specialize (Hb eq_refl). discriminate. }
    destruct Hc as [i ->]. eauto. }
  destruct H2 as [k ->]. cbn [bind].
  assert (H3 : exists cs, full (t_file t2) cs).
  { unfold t2. destruct b.
    - cbn [set_candidate_state add_event t_file]. exists (t_costs t ++ [c]). eapply full_with_costs. exact Hf.
    - unfold candidate_ok in Hx. destruct (fst x) as [b|]; [|specialize (Hb eq_refl); discriminate].
      destruct Hx as (i & _ & _ & _ & Hx). eauto. }
  destruct H3 as (cs & p & a & lr & i & e & u & H3).
  assert (H4 : exists t3, decrease_learning_rate irestore t2 = Ok t3).
  { unfold decrease_learning_rate, reset_state. rewrite H3. cbn [f_params f_trainer g_epoch g_update g_costs f_iter f_optimizer].
    destruct (Hi (t_iter t2) i) as [it ->]. cbn [bind]. eauto. }
  destruct H4 as [t3 ->]. destruct (0 <=? P)%Z; cbn [bind]; [|eauto]. destruct (P <? k)%Z; cbn [bind]; eauto.
Qed.

Lemma validate_ok (t : tstate) : (forall i s, exists i', irestore i s = Ok i') -> winv best0 lr0 t -> exists t', validate t = Ok t'.
Proof.
  intros Hi W. unfold TrainerModel.validate. destruct (o_validate o) eqn:Hv; cbn [negb]; [|eauto].
  destruct (is_scheduled _ _ (o_samples o - 1) _); cbn [negb]; [|eauto].
  set (t1 := add_event (EvSample (perplexity (t_params t))) _). destruct (is_scheduled _ _ (o_samples o / 2) _); cbn [negb]; [|eauto].
  set (t2 := match t_center t1 with None => _ | Some _ => _ end).
  destruct (is_scheduled _ _ 0 _); cbn [negb]; [|eauto]. destruct (_ <? _); [eauto|].
  assert (Hc : exists f, t_center t2 = Some f /\ full f (t_costs t2)).
  { unfold t2. change (t_center t1) with (t_center t). destruct (t_center t) as [f|] eqn:Ec.
    - exists f. split; [reflexivity|]. now apply (w_center _ _ _ _ _ W).
    - eexists. split; [reflexivity|]. apply (full_get_state isave t1). }
  destruct Hc as (f & Ec & Hf). eapply finish_ok; [exact Hi|exact Ec|exact Hf|].
  pose proof (w_candidate _ _ _ _ _ W) as C. unfold t2. change (t_center t1) with (t_center t). destruct (t_center t); exact C.
Qed.

Lemma step_ok x : (forall i s, exists i', irestore i s = Ok i') -> winv best0 lr0 (snd x) -> exists y, step x = Ok y.
Proof.
  intros Hi W. destruct x as [ph t]. unfold TrainerModel.step. cbn [snd] in W. destruct ph.
  - destruct (start_new_epoch _ _ _). eauto.
  - destruct (next_batch (t_iter t)) as [[b|] it]; [|eauto].
    destruct (validate_ok (update_minibatch update b it t) Hi (winv_update b it t W)) as [t' ->]. cbn [bind].
    destruct (start_new_minibatch _ _ _). eauto.
  - eauto.
  - eauto.
Qed.
Lemma steps_ok k : (forall i s, exists i', irestore i s = Ok i') -> forall x, winv best0 lr0 (snd x) -> exists y, steps k x = Ok y.
Proof.
  intros Hi. induction k as [|k IH]; intros x W; [cbn; eauto|]. cbn [TrainerModel.steps].
  destruct (step_ok x Hi W) as [y E]. rewrite E. cbn [bind]. apply IH. eapply winv_step; eassumption.
Qed.
Lemma steps_train k : forall x t, steps k x = Ok (Done, t) -> train k x = Ok t.
Proof.
  induction k as [|k IH]; intros x t; cbn [TrainerModel.steps].
  - intros [= ->]. reflexivity.
  - destruct (step x) as [y|] eqn:E; cbn [bind]; [|discriminate]. intros H. destruct x as [ph t0]. cbn [TrainerModel.train].
    destruct ph; try (rewrite E; cbn [bind]; apply IH; exact H).
    cbn [TrainerModel.step] in E. injection E as <-. clear IH. 
    assert (G : forall k, steps k (Done, t0) = Ok (Done, t0)) by (clear; induction k as [|k IH]; [reflexivity|exact IH]).
    rewrite G in H. now injection H as ->.
Qed.

(** ** Termination *)
Section Terminates.
Variable m : iter -> nat.
Hypothesis Hm : forall it b it', next_batch it = (Some b, it') -> m it' < m it.
Hypothesis Hirestore : forall i s, exists i', irestore i s = Ok i'.
Variable pot : list (Qc * verdict) -> list nat.
Variable len : nat.
Hypothesis Hlen : forall h, length (pot h) = len.
Hypothesis Hpot : forall (t t' : tstate) c k, winv best0 lr0 t -> winv best0 lr0 t' -> lo <= t_epoch t -> (t_epoch t <= mn' \/ ~ should_stop (hist t)) ->
  let v := verdict_of P (candidate_cost t, k) c in
  hist t' = hist t ++ [(c, v)] ->
  lexlt (pot (hist t')) (pot (hist t)) \/ (v <> Annealed /\ pot (hist t') = pot (hist t)).

Definition rank (ph : phase) : nat := match ph with AtEpoch => 3 | InEpoch => 2 | EndEpoch => 1 | Done => 0 end.
Definition measure (x : phase * tstate) : list nat :=
  pot (hist (snd x)) ++ [S mx - t_epoch (snd x); rank (fst x); m (t_iter (snd x))].

Lemma measure_step x y : jinv x -> fst x <> Done -> step x = Ok y -> lexlt (measure y) (measure x).
Proof.
  intros [W _ Hp Hx [Hn1 Hn2]] Hd E. destruct x as [ph t]. cbn [fst snd] in *. unfold measure. cbn [fst snd].
  unfold TrainerModel.step in E. destruct ph; [| | |congruence].
  - destruct (start_new_epoch _ _ _) as [s go]. injection E as <-. cbn [fst snd set_stopper t_log t_epoch t_iter].
    apply lexlt_app_r. cbn [lexlt length]. split; [reflexivity|]. right. split; [reflexivity|]. split; [reflexivity|]. left. destruct go; cbn; lia.
  - destruct (next_batch (t_iter t)) as [[b|] it] eqn:En.
    + destruct (validate _) as [t1|] eqn:Ev; cbn [bind] in E; [|discriminate].
      destruct (start_new_minibatch _ _ _) as [s go] eqn:Es. injection E as <-. cbn [fst snd set_stopper t_log t_epoch t_iter].
      pose proof (winv_update b it t W) as W0. destruct (update_fields b it t) as (U1 & U2 & U3 & U4 & U5 & U6). cbv zeta in *.
      pose proof (hist_update b it t) as U7. set (t0 := update_minibatch update b it t) in *.
      assert (W1 : winv best0 lr0 t1) by (eapply winv_validate; eassumption).
      assert (G : pot (hist t1) = pot (hist t) -> t_epoch t1 = t_epoch t0 -> t_iter t1 = t_iter t0 -> 
        lexlt (pot (hist t1) ++ [S mx - t_epoch t1; rank (if go then InEpoch else EndEpoch); m (t_iter t1)])
              (pot (hist t) ++ [S mx - t_epoch t; rank InEpoch; m (t_iter t)])).
      { intros -> -> ->. rewrite U2, U5. apply lexlt_app_r. cbn [lexlt length]. split; [reflexivity|]. right. split; [reflexivity|].
        split; [reflexivity|]. destruct go; cbn [rank]; [right|left; lia]. split; [reflexivity|]. split; [reflexivity|]. left. eapply Hm. exact En. }
      destruct (validate_history _ _ _ _ _ _ _ _ W0 Ev) as [(L & H & _)|(c & Hh & _ & Hv & _)].
      * apply G; [now rewrite H, U7|apply (l_epoch _ _ L)|apply (l_iter _ _ L)].
      * cbv zeta in *. set (v := verdict_of _ _ c) in *. rewrite U7 in *.
        assert (HP := Hpot t0 t1 c (snd (vstate P best0 0 (costs_of t0)))). cbv zeta in HP. fold v in HP.
        destruct HP as [G1|[G1 G2]]; try assumption.
        -- now rewrite U2.
        -- rewrite U2, U7. apply Hp.
        -- now rewrite U7.
        -- rewrite U7 in G1. apply lexlt_app_l; [exact G1|reflexivity].
        -- rewrite U7 in G2. destruct v; [| |congruence]; (apply G; [exact G2|apply Hv|apply Hv]).
    + injection E as <-. cbn [fst snd set_iter t_log t_epoch t_iter]. apply lexlt_app_r. cbn [lexlt length rank]. split; [reflexivity|]. right.
      split; [reflexivity|]. split; [reflexivity|]. left. lia.
  - injection E as <-. cbn [fst snd t_log t_epoch t_iter].
    match goal with |- lexlt (pot ?h' ++ _) _ => assert (Eh : h' = hist t) end.
    { destruct (o_validate o) eqn:Hv; [reflexivity|]. cbn [set_candidate_state add_event t_log].
      rewrite history_snoc, (w_off _ _ _ _ _ W Hv). reflexivity. }
    rewrite Eh. apply lexlt_app_r. cbn [lexlt length]. split; [reflexivity|]. left. destruct (o_validate o); cbn [set_candidate_state add_event t_epoch]; lia.
Qed.

Lemma terminates x : jinv x -> exists k t', steps k x = Ok (Done, t').
Proof.
  remember (measure x) as l eqn:El. revert x El. induction (lexlt_wf l) as [l _ IH]. intros x -> J.
  destruct (fst x) eqn:Ep.
  4:{ exists 0, (snd x). destruct x as [ph t]. cbn in *. now subst. }
  all: destruct (step_ok x Hirestore (j_winv _ J)) as [y E];
    destruct (IH (measure y) (measure_step x y J ltac:(congruence) E) y eq_refl (jinv_step x y J E)) as (k & t' & H);
    exists (S k), t'; cbn [TrainerModel.steps]; rewrite E; exact H.
Qed.
End Terminates.

(** *** Without annealing *)
Section Potentials.
Variable m : iter -> nat.
Hypothesis Hm : forall it b it', next_batch it = (Some b, it') -> m it' < m it.
Hypothesis Hirestore : forall i s, exists i', irestore i s = Ok i'.

Lemma terminates_never_annealing x : (P < 0)%Z -> jinv x -> exists k t', steps k x = Ok (Done, t').
Proof.
  intros Hp. apply (terminates m Hm Hirestore (fun _ => [])). intros t t' c k W W' _ _ v E. right. split; [|reflexivity].
  unfold v, verdict_of. destruct (is_improvement _ _); [discriminate|]. destruct (Z.leb_spec 0 P); [lia|discriminate].
Qed.

Lemma terminates_annealing_count x : crit = CAnnealingCount -> mn < lo -> jinv x -> exists k t', steps k x = Ok (Done, t').
Proof.
  intros Hc Hl. apply (terminates m Hm Hirestore (fun h => [Z.to_nat (maxann + 1 - Z.of_nat (length (filter is_annealed h)))])).
  intros t t' c k W W' Ht Hs v E. rewrite E. unfold TrainerSpec.should_stop, min_epochs in Hs. rewrite Hc in Hs.
  assert (F : filter is_annealed [(c, v)] = match v with Annealed => [(c, v)] | _ => [] end) by (clear; clearbody v; destruct v; reflexivity).
  rewrite filter_app, app_length, F. clear F. clearbody v.
  destruct v; cbn [length]; [right|right|left]; rewrite ?Nat.add_0_r; try (split; [discriminate|reflexivity]).
  cbn [lexlt length]. split; [reflexivity|]. left. lia.
Qed.

(** *** The criterion that no improvement is obtained *)
Definition nbest (b : Qc) : nat := Z.to_nat (Qfloor (1000 * this b)).
Definition drops (h : list (Qc * verdict)) : nat :=
  match rev (annealing_costs best0 h) with
  | [] => 2
  | y :: r => match final_best best0 h with
              | None => 2
              | Some b => if qc_ltb b y then 2 else match r with [] => 1 | x :: _ => if qc_ltb y x then 1 else 0 end
              end
  end.
Definition no_improvement_pot (h : list (Qc * verdict)) : list nat :=
  match final_best best0 h with None => [1; 0; drops h] | Some b => [0; nbest b; drops h] end.

Hypothesis Hone : forall p, (1 <= perplexity p)%Qc.
Lemma costs_one (t : tstate) c : winv best0 lr0 t -> In c (costs_of t) -> (1 <= c)%Qc.
Proof.
  intros W Hc. pose proof (w_costs _ _ _ _ _ W) as F. rewrite Forall_forall in F. destruct (F c Hc) as (l & Hl & -> & Fl).
  apply median_ge; [exact Hl|]. rewrite Forall_forall in Fl. intros y Hy. destruct (Fl y Hy) as [p ->]. apply Hone.
Qed.
Lemma nbest_lt b c : (1 <= c)%Qc -> (c < Q2Qc (999 # 1000) * b)%Qc -> nbest c < nbest b.
Proof.
  intros H1 H2. unfold nbest. unfold Qclt, Qcle in *. cbn [this Q2Qc Qcmult] in *.
  rewrite Qred_correct in H2. rewrite Qred_correct in H2. change (Qred 1) with 1%Q in H1.
  assert (G : (1000 * this c + 1 <= 1000 * this b)%Q) by lra.
  assert (F : (Qfloor (1000 * this c) + 1 <= Qfloor (1000 * this b))%Z).
  { rewrite <- (Qfloor_Z (Qfloor (1000 * this c) + 1)). apply Qfloor_resp_le. rewrite inject_Z_plus.
    pose proof (Qfloor_le (1000 * this c)) as F. change (inject_Z 1) with 1%Q. lra. }
  assert (0 <= Qfloor (1000 * this c))%Z.
  { change 0%Z with (Qfloor 0). apply Qfloor_resp_le. lra. }
  lia.
Qed.

Lemma terminates_no_improvement x : crit = CNoImprovement -> mn < lo -> jinv x -> exists k t', steps k x = Ok (Done, t').
Proof.
  intros Hc Hl. apply (terminates m Hm Hirestore no_improvement_pot). intros t t' c k W W' Ht Hs v E.
  unfold TrainerSpec.should_stop, min_epochs in Hs. rewrite Hc in Hs. destruct Hs as [Hs|Hs]; [lia|].
  destruct (winv_best _ _ _ _ _ W) as [Hb _].
  assert (C1 : (1 <= c)%Qc). { apply (costs_one t'); [exact W'|]. unfold costs_of. rewrite E, map_app. apply in_or_app. right. now left. }
  destruct v eqn:Ev.
  - left. rewrite E. unfold no_improvement_pot. rewrite final_best_snoc, <- Hb.
    unfold v, verdict_of in Ev. cbn [fst snd] in Ev. destruct (candidate_cost t) as [b|].
    + destruct (is_improvement (Some b) c) eqn:Ei; [|destruct (_ && _); discriminate].
      rewrite is_improvement_spec in Ei. apply qc_ltb_lt in Ei. cbn [lexlt length]. split; [reflexivity|]. right.
      split; [reflexivity|]. split; [reflexivity|]. left. now apply nbest_lt.
    + cbn [lexlt length]. split; [reflexivity|]. left. lia.
  - right. split; [discriminate|]. rewrite E. unfold no_improvement_pot, drops.
    rewrite final_best_snoc, annealing_costs_snoc, app_nil_r. reflexivity.
  - left. rewrite E. unfold no_improvement_pot, drops. rewrite final_best_snoc, annealing_costs_snoc, <- Hb.
    unfold v, verdict_of in Ev. cbn [fst snd] in Ev. destruct (candidate_cost t) as [b|]; [|discriminate].
    rewrite rev_app_distr. cbn [rev app lexlt length]. split; [reflexivity|]. right. split; [reflexivity|].
    split; [reflexivity|]. right. split; [reflexivity|]. split; [reflexivity|]. left.
    assert (Bb : qc_ltb b b = false). { unfold qc_ltb. destruct (Qclt_le_dec b b) as [G|G]; [|reflexivity]. exfalso. exact (Qclt_not_le _ _ G (Qcle_refl _)). }
    rewrite Bb. destruct (rev (annealing_costs best0 (hist t))) as [|y r] eqn:Er; [lia|].
    destruct (qc_ltb b y) eqn:Eby; [lia|]. destruct r as [|z r]; [lia|]. destruct (qc_ltb y z) eqn:Eyz; [lia|].
    exfalso. apply Hs. apply stalled_rev. exists y, z, r, b. split; [exact Er|].
    assert (Gy : (y <= b)%Qc) by (unfold qc_ltb in Eby; destruct (Qclt_le_dec b y); [discriminate|assumption]).
    split; [unfold qc_ltb in Eyz; destruct (Qclt_le_dec y z); [discriminate|assumption]|].
    split; [auto|]. intros b' Eb'. rewrite <- Hb in Eb'. injection Eb' as <-. exact Gy.
Qed.
End Potentials.
End Stops.
