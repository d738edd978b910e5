(** Training with the training iterator: the trainer's theorems for it. *)
From Coq Require Import QArith Qcanon Permutation.
From Verif Require Import Base ListLib BaseLib QcLib Strings TextModel TextSpec TextProofs IterModel IterSpec IterProofs ShuffleProofs
  TrainerModel TrainerSpec TrainerProofs TrainerRuns TrainerStops TrainerSegments TrainerResume TrainerProps
  TrainerSim TrainDataModel TrainDataSpec TrainDataProofs TrainDataRuns.
Local Open Scope nat_scope.

(** ** The data of the trainer *)
Lemma trainer_data_inv choice shuffle10 batch_size max_len fuel files lss sampling n it :
  file_lines files lss -> trainer_data choice shuffle10 batch_size max_len fuel files sampling = Ok (n, it) ->
  Forall (fun d => d <> []) files /\ (exists l bs e, linear_init files = Ok l /\
    epoch linear linear_readline linear_reset batch_size max_len fuel (batch_init l) = Ok (bs, e) /\ n = length bs /\ 1 <= n) /\
  exists sp sizes, pointers_inv files sp /\ length sizes = length files /\ sizes_for lss sampling sizes /\
    it = batch_init (sh_fresh choice shuffle10 sp sizes 0).
Proof.
  intros Hl H. unfold trainer_data in H. destruct (linear_init files) as [l|] eqn:El; [|discriminate]. cbn [bind] in H.
  destruct (epoch _ _ _ _ _ _ _) as [[bs e]|] eqn:Ee; [|discriminate]. cbn [bind] in H.
  destruct (Nat.ltb_spec (length bs) 1) as [|Hn]; [discriminate|].
  destruct (shuffling_init _ _ _ _) as [s|] eqn:Es; [|discriminate]. injection H as <- <-.
  destruct (shuffling_init_spec _ _ _ _ _ _ Hl Es) as (Hne & sp & sizes & Hsp & Hsz & Hsf & ->).
  split; [exact Hne|]. split; [exists l, bs, e; auto|]. exists sp, sizes. auto.
Qed.

Lemma sizes_for_length lss sampling sizes : sizes_for lss sampling sizes -> length sizes = length lss.
Proof. induction 1; cbn; congruence. Qed.

(** ** No exceptions, and the end of training *)
Section Total.
Variable choice : nat -> nat -> list nat -> nat -> bool -> list nat.
Variable shuffle10 : nat -> list nat -> list nat.
Hypothesis H_choice : choice_contract choice.
Hypothesis H_shuffle : shuffle_contract shuffle10.
Variable files : list pystr.
Hypothesis H_nonempty : Forall (fun d => d <> []) files.
Variable sp : sentence_pointers.
Hypothesis H_sp : pointers_inv files sp.
Variable sizes : list nat.
Hypothesis H_sizes : length sizes = length files.
Variable batch_size : nat.
Variable max_len : option nat.
Hypothesis H_batch : 1 <= batch_size.
Hypothesis H_max : valid_max max_len.
Hypothesis H_positive : 0 < list_sum sizes.
Notation next := (data_next choice shuffle10 batch_size max_len).
Notation fresh d := (sh_fresh choice shuffle10 sp sizes d).
Notation inv := (data_inv files sp sizes max_len (fun order => order <> [])).
Notation saved := (saved_inv files).
Context {params accum : Type}.
Variable update : params -> accum -> Qc -> list sequence -> params * accum.
Variable perplexity : params -> Qc.
Variable o : toptions.
Notation tstate := (@tstate params accum (bstate shuffling) iter_state (list sequence)).
Notation file := (@file params accum iter_state).

Definition giter := {i : bstate shuffling | inv i}.
Definition gsaved := {s : iter_state | saved s}.

Lemma positive_order (order : list nat) : length order = list_sum sizes -> order <> [].
Proof using H_positive. clear H_sizes H_batch. intros Hl ->. cbn in Hl. lia. Qed.
Lemma next_good i : inv i -> inv (snd (next i)).
Proof using All.
  intros H. destruct (next i) as [r i'] eqn:E.
  exact (data_inv_next choice shuffle10 H_choice H_shuffle files H_nonempty sp H_sp sizes H_sizes batch_size max_len H_batch H_max _ i r i' positive_order H E).
Qed.
Definition gnext (j : giter) : option (list sequence) * giter := (fst (next (proj1_sig j)), exist _ _ (next_good _ (proj2_sig j))).
Lemma save_good i : inv i -> saved (data_save i).
Proof using. apply data_inv_save. Qed.
Definition gsave (j : giter) : gsaved := exist _ _ (save_good _ (proj2_sig j)).
Definition restored (i : bstate shuffling) (s : iter_state) : bstate shuffling := match data_restore i s with Ok i' => i' | Err _ => i end.
Lemma restore_good i s : inv i -> saved s -> inv (restored i s).
Proof using. intros Hi Hs. destruct (data_inv_restore _ _ _ _ i s Hi Hs) as (i' & E & Hi'). unfold restored. now rewrite E. Qed.
Definition grestore (j : giter) (s : gsaved) : result giter := Ok (exist _ _ (restore_good _ _ (proj2_sig j) (proj2_sig s))).

Definition gR (i : bstate shuffling) (j : giter) : Prop := i = proj1_sig j.
Definition gRS (s : iter_state) (s' : gsaved) : Prop := s = proj1_sig s'.
Lemma g_next i j : gR i j ->
  match next i, gnext j with
  | (Some b, i'), (Some b', j') => b = b' /\ gR i' j'
  | (None, i'), (None, j') => gR i' j'
  | _, _ => False
  end.
Proof using.
  unfold gR. intros ->. unfold gnext. generalize (next_good _ (proj2_sig j)). destruct (next (proj1_sig j)) as [[b|] i']; intros H; cbn; auto.
Qed.
Lemma g_restore i j s s' : gR i j -> gRS s s' -> result_rel gR (data_restore i s) (grestore j s').
Proof using.
  unfold gR, gRS. intros -> ->. unfold grestore. generalize (restore_good _ _ (proj2_sig j) (proj2_sig s')). intros H.
  destruct (data_inv_restore _ _ _ _ _ _ (proj2_sig j) (proj2_sig s')) as (i' & E & _). rewrite E. cbn. unfold restored. now rewrite E.
Qed.
Lemma g_init : inv (batch_init (fresh 0)).
Proof using All. apply data_inv_init; auto. apply positive_order. Qed.
Lemma g_file (f : file) : file_ok files f -> exists f' : @TrainerModel.file params accum gsaved, file_rel gRS f f'.
Proof using.
  intros H. unfold file_ok in H. destruct f as [fp ft fi fo]. cbn [f_iter] in H. destruct fi as [s|].
  - exists (mkFile fp ft (Some (exist _ s H)) fo). repeat split.
  - exists (mkFile fp ft None fo). repeat split.
Qed.

Variables (p0 : params) (a0 : accum) (r0 : Qc) (f0 : file).
Variables (crit : criterion) (mx mn : nat) (maxann : Z).
Variable t0 : tstate.
Hypothesis Hf0 : file_ok files f0.
Hypothesis Hinit : initialize data_restore p0 a0 r0 (batch_init (fresh 0)) (create_stopper crit mx mn maxann) f0 = Ok t0.

Lemma g_start : exists (f1 : @TrainerModel.file params accum gsaved) (t1 : @TrainerModel.tstate params accum giter gsaved (list sequence)),
  initialize grestore p0 a0 r0 (exist _ _ g_init) (create_stopper crit mx mn maxann) f1 = Ok t1 /\ t_rel gRS gR t0 t1.
Proof using All.
  destruct (g_file f0 Hf0) as (f1 & Hf1). exists f1.
  pose proof (sim_initialize (batch := list sequence) data_restore grestore gR gR gRS (fun i j H => H) g_restore p0 a0 r0
    (batch_init (fresh 0)) (exist _ _ g_init) (create_stopper crit mx mn maxann) f0 f1 eq_refl Hf1) as H.
  rewrite Hinit in H. destruct (initialize grestore _ _ _ _ _ f1) as [t1|]; cbn in H; [|contradiction]. eauto.
Qed.
Lemma g_save i j : gR i j -> gRS (data_save i) (gsave j).
Proof using. unfold gR, gRS. now intros ->. Qed.

Lemma data_no_exception k : exists ph t, steps next update perplexity data_save data_restore o k (AtEpoch, t0) = Ok (ph, t).
Proof using All.
  destruct g_start as (f1 & t1 & E1 & Hr).
  destruct (C33_no_exception gnext update perplexity gsave grestore o _ _ _ _ _ _ _ _ _ t1 E1 k) as (ph & t & E).
  { intros i s. unfold grestore. eauto. }
  pose proof (sim_steps next gnext update perplexity data_save gsave data_restore grestore o gR gR gRS (fun i j H => H) g_next g_save g_restore
    k AtEpoch t0 t1 Hr) as H. rewrite E in H.
  destruct (steps next update perplexity data_save data_restore o k (AtEpoch, t0)) as [[ph' t']|]; cbn in H; [eauto|contradiction].
Qed.

Definition g_left (j : giter) : nat := batches_left files batch_size max_len (proj1_sig j).
Lemma data_terminates : (forall p, (1 <= perplexity p)%Qc) -> (forall b, candidate_cost t0 = Some b -> (0 < b)%Qc) ->
  (o_patience o < 0)%Z \/ (crit <> CEpochCount /\ mn < t_epoch t0) ->
  exists fuel t, train next update perplexity data_save data_restore o fuel (AtEpoch, t0) = Ok t.
Proof using All.
  intros Hp Hb0 Hc. destruct g_start as (f1 & t1 & E1 & Hr).
  destruct (C35_terminates gnext update perplexity gsave grestore o _ _ _ _ _ crit mx mn maxann t1 E1 g_left Hp) as (fuel & t & E).
  - now rewrite <- (cand_rel _ _ _ _ Hr).
  - intros it b it' En. unfold g_left, gnext in *. injection En as En <-. cbn [proj1_sig].
    destruct (next (proj1_sig it)) as [r i'] eqn:En1. cbn [fst snd] in *. subst r.
    rewrite (batches_left_next choice shuffle10 files sp H_sp sizes batch_size max_len H_batch H_max _ _ _ _ (proj2_sig it) En1). lia.
  - intros i s. unfold grestore. eauto.
  - now rewrite <- (r_epoch _ _ _ _ Hr).
  - exists fuel.
    pose proof (sim_train next gnext update perplexity data_save gsave data_restore grestore o gR gR gRS (fun i j H => H) g_next g_save g_restore
      fuel AtEpoch t0 t1 Hr) as H. rewrite E in H.
    destruct (train next update perplexity data_save data_restore o fuel (AtEpoch, t0)) as [t'|]; cbn in H; [eauto|contradiction].
Qed.
End Total.

(** ** Too few updates in an epoch *)
Section Never.
Context {params accum iter isaved batch : Type}.
Variable next_batch : iter -> option batch * iter.
Variable update : params -> accum -> Qc -> batch -> params * accum.
Variable perplexity : params -> Qc.
Variable isave : iter -> isaved.
Variable irestore : iter -> isaved -> result iter.
Variable o : toptions.
Notation tstate := (@tstate params accum iter isaved batch).
Notation file := (@file params accum isaved).
Variable Inv : iter -> Prop.
Variable left : iter -> nat.
Variable most : nat.
Hypothesis Hnext : forall i b i', Inv i -> next_batch i = (Some b, i') -> Inv i' /\ left i = S (left i').
Hypothesis Hstop : forall i i', Inv i -> next_batch i = (None, i') -> Inv i'.
Hypothesis Hleft : forall i, Inv i -> left i <= most.
Hypothesis Hvalidate : o_validate o = true.
Hypothesis Hn : o_updates o <> 0.
Hypothesis Hfew : most * o_frequency o < o_updates o.

Lemma not_scheduled u : 1 <= u <= most -> is_scheduled (o_updates o) (o_frequency o) 0 u = false.
Proof using Hn Hfew.
  clear Hnext Hstop Hleft. intros Hu. unfold is_scheduled. assert (u * o_frequency o <= most * o_frequency o) by (apply Nat.mul_le_mono_r; lia).
  rewrite Nat.mod_small by lia. apply orb_false_iff. split.
  - apply Nat.ltb_ge. destruct u; [lia|]. cbn. lia.
  - apply Nat.leb_gt. lia.
Qed.

Definition quiet_log (l : list (@event batch)) : Prop :=
  Forall (fun e => match e with EvUpdate _ | EvSample _ | EvCenter => True | _ => False end) l.

Variable f0 : file.
Definition unsaved (x : phase * tstate) : Prop :=
  let '(ph, t) := x in
  t_file t = f0 /\ t_costs t = [] /\ t_candidate t = None /\ quiet_log (t_log t) /\ Inv (t_iter t) /\
  match ph with InEpoch => t_update t + left (t_iter t) <= most | EndEpoch => True | _ => t_update t = 0 end.

Lemma unsaved_step x y : unsaved x -> step next_batch update perplexity isave irestore o x = Ok y -> unsaved y.
Proof using All.
  destruct x as [ph t], y as [ph' t']. intros (U1 & U2 & U3 & U4 & U5 & U6) E. destruct ph; cbn [step] in E.
  - destruct (start_new_epoch _ _ _) as [s go]. injection E as <- <-. cbn. repeat (split; [assumption|]).
    destruct go; [|exact U6]. rewrite U6. now apply Hleft.
  - destruct (next_batch (t_iter t)) as [[b|] it] eqn:En.
    + destruct (Hnext _ _ _ U5 En) as [I1 L1].
      set (v := update_minibatch update b it t) in *.
      assert (V : t_file v = f0 /\ t_costs v = [] /\ t_candidate v = None /\ quiet_log (t_log v) /\ t_iter v = it /\ t_update v = t_update t + 1).
      { unfold v, update_minibatch. destruct (update _ _ _ b) as [p a]. cbn. repeat (split; [assumption|]).
        split; [|auto]. apply Forall_app. split; [exact U4|]. repeat constructor. }
      clearbody v. destruct V as (V1 & V2 & V3 & V4 & V5 & V6).
      assert (Ns : is_scheduled (o_updates o) (o_frequency o) 0 (t_update v) = false) by (apply not_scheduled; lia).
      assert (W : exists w, validate perplexity isave irestore o v = Ok w /\ t_file w = f0 /\ t_costs w = [] /\ t_candidate w = None /\
                            quiet_log (t_log w) /\ t_iter w = it /\ t_update w = t_update v).
      { unfold validate. rewrite Hvalidate. cbn [negb]. destruct (negb (is_scheduled _ _ (o_samples o - 1) _)); [exists v; auto 10|].
        destruct (negb (is_scheduled _ _ (o_samples o / 2) _)).
        - eexists. split; [reflexivity|]. cbn. repeat (split; [assumption|]). split; [|auto].
          apply Forall_app. split; [exact V4|]. repeat constructor.
        - rewrite Ns. cbn [negb]. eexists. split; [reflexivity|].
          match goal with |- context [match ?c with None => _ | Some _ => _ end] => destruct c end;
            cbn; (repeat (split; [assumption|])); (split; [|auto]).
          + apply Forall_app. split; [exact V4|]. repeat constructor.
          + apply Forall_app. split; [|repeat constructor]. apply Forall_app. split; [exact V4|]. repeat constructor. }
      destruct W as (w & Ew & W1 & W2 & W3 & W4 & W5 & W6). rewrite Ew in E. cbn [bind] in E.
      destruct (start_new_minibatch _ _ _) as [s go]. injection E as <- <-. cbn. repeat (split; [assumption|]). rewrite W5.
      split; [exact I1|]. destruct go; [|exact I]. lia.
    + injection E as <- <-. cbn. repeat (split; [assumption|]). split; [|exact I]. eapply Hstop; eauto.
  - rewrite Hvalidate in E. injection E as <- <-. cbn. repeat (split; [assumption|]). reflexivity.
  - injection E as <- <-. repeat (split; [assumption|]). exact U6.
Qed.

Lemma never_saved p a lr it s (t0 : tstate) k ph (t : tstate) : f_trainer f0 = None -> Inv it ->
  initialize irestore p a lr it s f0 = Ok t0 ->
  steps next_batch update perplexity isave irestore o k (AtEpoch, t0) = Ok (ph, t) ->
  t_file t = f0 /\ t_costs t = [] /\ quiet_log (t_log t).
Proof using All.
  intros Hf Hi E0 E. unfold initialize in E0. rewrite Hf in E0. injection E0 as <-.
  assert (H : unsaved (ph, t)).
  { eapply (steps_inv next_batch update perplexity isave irestore o unsaved); [|  |exact E].
    - intros x y Hx Hy. eapply unsaved_step; eauto.
    - cbn. do 3 (split; [reflexivity|]). split; [constructor|]. split; [exact Hi|reflexivity]. }
  destruct H as (H1 & H2 & H3 & H4 & _). auto.
Qed.
End Never.
