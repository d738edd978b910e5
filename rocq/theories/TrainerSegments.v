(** What happens between validations. *)
From Coq Require Import QArith Qcanon.
From Verif Require Import Base ListLib BaseLib QcLib TrainerModel TrainerSpec TrainerProofs TrainerRuns TrainerStops.
Local Open Scope nat_scope.

Section Segments.
Context {params accum iter isaved batch : Type}.
Variable next_batch : iter -> option batch * iter.
Variable update : params -> accum -> Qc -> batch -> params * accum.
Variable perplexity : params -> Qc.
Variable isave : iter -> isaved.
Variable irestore : iter -> isaved -> result iter.
Variable o : toptions.
Notation tstate := (@tstate params accum iter isaved batch).
Notation file := (@file params accum isaved).
Notation event := (@event batch).
Notation step := (step next_batch update perplexity isave irestore o).
Notation steps := (steps next_batch update perplexity isave irestore o).
Notation train := (train next_batch update perplexity isave irestore o).
Notation validate := (validate perplexity isave irestore o).
Notation get_state := (get_state isave).
Notation winv := (winv perplexity o).
Notation P := (o_patience o).
Notation after_updates := (after_updates next_batch update).
Notation sched w u := (is_scheduled (o_updates o) (o_frequency o) w u).
Notation hist t := (history (t_log t)).
Notation NS := (o_samples o).

Hypothesis Hvalidate : o_validate o = true.
Hypothesis Hn : o_updates o <> 0.
Hypothesis Hf : o_frequency o <> 0.
Hypothesis Hs : NS <> 0.

Lemma sched_before u d i w : next_validation (o_updates o) (o_frequency o) u d -> 1 <= i <= d ->
  sched w (u + i) = (d - i <=? w).
Proof.
  intros (H1 & H2 & H3) Hi. apply Bool.eq_true_iff_eq. rewrite (scheduled_within _ _ _ _ Hn), Nat.leb_le. split.
  - intros (e & He & Hsc). destruct (Nat.le_gt_cases d (i + e)) as [G|G]; [lia|]. exfalso.
    apply (H3 (i + e)); [lia|]. apply (scheduled_completes _ _ _ Hn Hf). now rewrite Nat.add_assoc.
  - intros G. exists (d - i). split; [exact G|]. apply (scheduled_completes _ _ _ Hn Hf).
    now replace (u + i + (d - i)) with (u + d) by lia.
Qed.

(** The perplexities computed after [i] of the updates, and the state that is kept *)
Variable t : tstate.
Variable d : nat.
Definition perplexity_after (j : nat) : Qc :=
  match after_updates j t with Some (p, _, _) => perplexity p | None => 0%Qc end.
Definition samples_after (i : nat) : list Qc :=
  map perplexity_after (filter (fun j => d - j <=? NS - 1) (seq 1 i)).
Definition file_after (j : nat) : option file :=
  match after_updates j t with
  | Some (p, a, it) => Some (mkFile (Some p) (Some (mkTgroup (Some (t_epoch t)) (Some (t_update t + j)) (Some (t_costs t))))
                               (Some (isave it)) (Some (Some (t_lr t), Some a)))
  | None => None
  end.
Definition center_number : nat := Nat.max 1 (d - NS / 2).
Definition center_after (i : nat) : option file := if center_number <=? i then file_after center_number else None.

Record seg (i : nat) (t' : tstate) : Prop := {
  s_after : after_updates i t = Some (t_params t', t_accum t', t_iter t');
  s_lr : t_lr t' = t_lr t; s_epoch : t_epoch t' = t_epoch t; s_update : t_update t' = t_update t + i;
  s_costs : t_costs t' = t_costs t; s_candidate : t_candidate t' = t_candidate t; s_file : t_file t' = t_file t;
  s_hist : hist t' = hist t; s_samples : t_samples t' = samples_after i; s_center : t_center t' = center_after i
}.

Hypothesis Hd : next_validation (o_updates o) (o_frequency o) (t_update t) d.

Lemma samples_snoc i : samples_after (S i) = samples_after i ++ if d - S i <=? NS - 1 then [perplexity_after (S i)] else [].
Proof.
  unfold samples_after. rewrite seq_S, filter_app, map_app. cbn [Nat.add filter]. destruct (_ <=? _); reflexivity.
Qed.
Lemma samples_all : NS <= d -> samples_after d = map perplexity_after (seq (d - NS + 1) NS).
Proof.
  intros H. unfold samples_after. apply f_equal. replace (seq 1 d) with (seq 1 (d - NS) ++ seq (d - NS + 1) NS).
  2:{ rewrite Nat.add_comm. rewrite <- seq_app. f_equal. lia. }
  rewrite filter_app. rewrite filter_none, filter_all; [reflexivity| |].
  - intros x Hx. apply in_seq in Hx. apply Nat.leb_le. lia.
  - intros x Hx. apply in_seq in Hx. apply Nat.leb_gt. lia.
Qed.
Lemma samples_few : d < NS -> length (samples_after d) = d.
Proof.
  intros H. unfold samples_after. rewrite map_length, filter_all; [apply seq_length|].
  intros x Hx. apply in_seq in Hx. apply Nat.leb_le. lia.
Qed.

Lemma after_snoc i p a it b it' p' a' : after_updates i t = Some (p, a, it) -> next_batch it = (Some b, it') ->
  update p a (t_lr t) b = (p', a') -> after_updates (S i) t = Some (p', a', it').
Proof.
  unfold TrainerSpec.after_updates. cbn [updated]. intros -> -> ->. reflexivity.
Qed.
Lemma after_inv i x : after_updates (S i) t = Some x -> exists p a it b it', after_updates i t = Some (p, a, it) /\
  next_batch it = (Some b, it') /\ x = (update p a (t_lr t) b, it').
Proof.
  unfold TrainerSpec.after_updates. cbn [updated]. destruct (updated _ _ i _ _) as [[[p a] it]|] eqn:E; [|discriminate].
  destruct (next_batch it) as [[b|] it'] eqn:En; [|discriminate]. destruct (update p a (t_lr t) b) as [p' a'] eqn:Eu. intros [= <-].
  exists p, a, it, b, it'. rewrite Eu. auto.
Qed.
Lemma after_le i j : i <= j -> after_updates j t <> None -> after_updates i t <> None.
Proof.
  induction 1 as [|j H IH]; [auto|]. intros G. apply IH. destruct (after_updates (S j) t) as [x|] eqn:E; [|congruence].
  apply after_inv in E as (p & a & it & b & it' & E & _). congruence.
Qed.

(** One update before the validation point *)
Lemma seg_update i t' b it : seg i t' -> next_batch (t_iter t') = (Some b, it) ->
  let t1 := update_minibatch update b it t' in
  after_updates (S i) t = Some (t_params t1, t_accum t1, t_iter t1) /\ t_update t1 = t_update t + S i /\
  perplexity (t_params t1) = perplexity_after (S i) /\ Some (get_state t1) = file_after (S i).
Proof.
  intros S En. destruct (update_fields update b it t') as (U1 & U2 & U3 & U4 & U5 & U6). cbv zeta in *.
  assert (A : after_updates (Datatypes.S i) t = Some (t_params (update_minibatch update b it t'), t_accum (update_minibatch update b it t'),
                t_iter (update_minibatch update b it t')) /\ t_update (update_minibatch update b it t') = t_update t + Datatypes.S i /\
                t_costs (update_minibatch update b it t') = t_costs t).
  { unfold update_minibatch. destruct (update _ _ _ _) as [p a] eqn:Eu. rewrite (s_lr _ _ S) in Eu.
    cbn [add_event t_params t_accum t_iter t_update t_costs].
    split; [eapply after_snoc; [apply (s_after _ _ S)|exact En|exact Eu]|]. rewrite (s_update _ _ S), (s_costs _ _ S). split; [lia|reflexivity]. }
  destruct A as (A1 & A2 & A3). split; [exact A1|]. split; [exact A2|]. unfold perplexity_after, file_after. rewrite A1. split; [reflexivity|].
  unfold TrainerModel.get_state. rewrite U2, (s_epoch _ _ S), A2, A3, U6, (s_lr _ _ S). reflexivity.
Qed.

Lemma seg_early i t' b it : seg i t' -> next_batch (t_iter t') = (Some b, it) -> S i < d ->
  exists t1, validate (update_minibatch update b it t') = Ok t1 /\ seg (S i) t1 /\ t_stopper t1 = t_stopper t'.
Proof.
  intros S En Hi. pose proof (seg_update i t' b it S En) as U. cbv zeta in U. destruct U as (A1 & A2 & A3 & A4).
  destruct (update_fields update b it t') as (U1 & U2 & U3 & U4 & U5 & U6). cbv zeta in *.
  pose proof (hist_update update b it t') as U7.
  assert (U8 : t_costs (update_minibatch update b it t') = t_costs t' /\ t_candidate (update_minibatch update b it t') = t_candidate t' /\
    t_samples (update_minibatch update b it t') = t_samples t') by (unfold update_minibatch; destruct (update _ _ _ _); auto).
  destruct U8 as (U8 & U9 & U10).
  set (t0 := update_minibatch update b it t') in *. clearbody t0.
  unfold TrainerModel.validate. rewrite Hvalidate. cbn [negb].
  assert (Q : forall w, sched w (t_update t0) = (d - Datatypes.S i <=? w)) by (intros w; rewrite A2; apply sched_before; [exact Hd|lia]).
  rewrite Q. destruct (Nat.leb_spec (d - Datatypes.S i) (NS - 1)) as [G1|G1]; cbn [negb].
  2:{ exists t0. split; [reflexivity|]. split; [|exact U1]. destruct S as [S1 S2 S3 S4 S5 S6 S7 S8 S9 S10].
      constructor; try congruence.
      - rewrite U10, S9, samples_snoc. destruct (Nat.leb_spec (d - Datatypes.S i) (NS - 1)); [lia|]. now rewrite app_nil_r.
      - rewrite U4, S10. unfold center_after, center_number. pose proof (Nat.div_lt NS 2 ltac:(lia) ltac:(lia)).
        destruct (Nat.leb_spec (Nat.max 1 (d - NS / 2)) i); [lia|]. destruct (Nat.leb_spec (Nat.max 1 (d - NS / 2)) (Datatypes.S i)); [lia|reflexivity]. }
  set (t1 := add_event (EvSample (perplexity (t_params t0))) _). rewrite Q.
  assert (L : samples_after (Datatypes.S i) = t_samples t0 ++ [perplexity (t_params t0)]).
  { rewrite samples_snoc, U10, (s_samples _ _ S), A3. destruct (Nat.leb_spec (d - Datatypes.S i) (NS - 1)); [reflexivity|lia]. }
  destruct (Nat.leb_spec (d - Datatypes.S i) (NS / 2)) as [G2|G2]; cbn [negb].
  2:{ exists t1. split; [reflexivity|]. split; [|exact U1]. destruct S as [S1 S2 S3 S4 S5 S6 S7 S8 S9 S10].
      constructor; cbn [t1 add_event set_samples t_params t_accum t_iter t_lr t_epoch t_update t_costs t_candidate t_file t_log t_samples t_center]; try congruence.
      - rewrite history_snoc. cbn [history_event]. congruence.
      - rewrite U4, S10. unfold center_after, center_number.
        destruct (Nat.leb_spec (Nat.max 1 (d - NS / 2)) i); [lia|]. destruct (Nat.leb_spec (Nat.max 1 (d - NS / 2)) (Datatypes.S i)); [lia|reflexivity]. }
  set (t2 := match t_center t1 with None => _ | Some _ => _ end).
  rewrite Q. destruct (Nat.leb_spec (d - Datatypes.S i) 0) as [G3|G3]; [lia|]. cbn [negb].
  exists t2. split; [reflexivity|]. split; [|unfold t2; destruct (t_center t1); exact U1].
  assert (C : t_center t2 = center_after (Datatypes.S i)).
  { unfold t2. change (t_center t1) with (t_center t0). rewrite U4, (s_center _ _ S). unfold center_after, center_number.
    destruct (Nat.leb_spec (Nat.max 1 (d - NS / 2)) (Datatypes.S i)) as [G4|G4]; [|lia].
    destruct (Nat.leb_spec (Nat.max 1 (d - NS / 2)) i) as [G5|G5].
    - destruct (file_after (Nat.max 1 (d - NS / 2))) as [f|] eqn:Ef.
      + change (t_center t1) with (t_center t0). rewrite U4, (s_center _ _ S). unfold center_after, center_number.
        destruct (Nat.leb_spec (Nat.max 1 (d - NS / 2)) i); [exact Ef|lia].
      + exfalso. unfold file_after in Ef. destruct (after_updates (Nat.max 1 (d - NS / 2)) t) as [[[p a] it1]|] eqn:Ea; [discriminate|].
        eapply (after_le (Nat.max 1 (d - NS / 2)) i); [lia| |exact Ea]. rewrite (s_after _ _ S). discriminate.
    - cbn [add_event set_samples t_center]. replace (Nat.max 1 (d - NS / 2)) with (Datatypes.S i) by lia. exact A4. }
  destruct S as [S1 S2 S3 S4 S5 S6 S7 S8 S9 S10].
  constructor; [| | | | | | | | |exact C]; unfold t2; destruct (t_center t1);
    cbn [t1 add_event set_samples t_params t_accum t_iter t_lr t_epoch t_update t_costs t_candidate t_file t_log t_samples]; try congruence.
  - rewrite history_snoc. cbn [history_event]. congruence.
  - rewrite !history_snoc. cbn [history_event]. congruence.
Qed.

(** The update at the validation point *)
Lemma seg_last i t' b it : seg i t' -> next_batch (t_iter t') = (Some b, it) -> S i = d ->
  let t0 := update_minibatch update b it t' in
  exists t2 f, looks t0 t2 /\ t_samples t2 = samples_after d /\ t_center t2 = Some f /\ file_after center_number = Some f /\
  validate t0 = if length (samples_after d) <? NS then Ok (add_event (EvIgnored (length (samples_after d))) (set_samples [] None t2))
                else finish_validation irestore o t2.
Proof.
  intros S En Hi. pose proof (seg_update i t' b it S En) as U. cbv zeta in *. destruct U as (A1 & A2 & A3 & A4).
  destruct (update_fields update b it t') as (U1 & U2 & U3 & U4 & U5 & U6). cbv zeta in *.
  assert (U10 : t_samples (update_minibatch update b it t') = t_samples t') by (unfold update_minibatch; destruct (update _ _ _ _); auto).
  set (t0 := update_minibatch update b it t') in *. clearbody t0.
  assert (Q : forall w, sched w (t_update t0) = true).
  { intros w. rewrite A2, (sched_before _ d); [apply Nat.leb_le; lia|exact Hd|lia]. }
  assert (L : samples_after d = t_samples t0 ++ [perplexity (t_params t0)]).
  { rewrite <- Hi, samples_snoc, U10, (s_samples _ _ S), A3. destruct (Nat.leb_spec (d - Datatypes.S i) (NS - 1)); [reflexivity|lia]. }
  set (t1 := add_event (EvSample (perplexity (t_params t0))) (set_samples (t_samples t0 ++ [perplexity (t_params t0)]) (t_center t0) t0)).
  set (t2 := match t_center t1 with None => add_event EvCenter (set_samples (t_samples t1) (Some (get_state t1)) t1) | Some _ => t1 end).
  assert (L1 : looks t0 t1) by (eapply looks_trans; [apply looks_samples|apply looks_event; exact I]).
  assert (L2 : looks t0 t2).
  { unfold t2. destruct (t_center t1); [exact L1|]. eapply looks_trans; [exact L1|]. eapply looks_trans; [apply looks_samples|apply looks_event; exact I]. }
  assert (C : exists f, t_center t2 = Some f /\ file_after center_number = Some f).
  { unfold t2. change (t_center t1) with (t_center t0). rewrite U4, (s_center _ _ S). unfold center_after.
    assert (Hc : center_number <= d) by (unfold center_number; lia).
    destruct (Nat.leb_spec center_number i) as [G5|G5].
    - destruct (file_after center_number) as [f|] eqn:Ef.
      + exists f. split; [|reflexivity]. change (t_center t1) with (t_center t0). rewrite U4, (s_center _ _ S). unfold center_after.
        destruct (Nat.leb_spec center_number i); [exact Ef|lia].
      + exfalso. unfold file_after in Ef. destruct (after_updates center_number t) as [[[p a] it1]|] eqn:Ea; [discriminate|].
        eapply (after_le center_number i); [lia| |exact Ea]. rewrite (s_after _ _ S). discriminate.
    - eexists. split; [reflexivity|]. replace center_number with (Datatypes.S i) by lia. symmetry. exact A4. }
  destruct C as (f & C1 & C2). exists t2, f. split; [exact L2|]. split; [unfold t2; destruct (t_center t1); rewrite L; reflexivity|].
  split; [exact C1|]. split; [exact C2|].
  unfold TrainerModel.validate. rewrite Hvalidate. cbn [negb]. rewrite Q. cbn [negb]. fold t1.
  rewrite Q. cbn [negb]. fold t2. rewrite Q. cbn [negb].
  replace (t_samples t2) with (samples_after d) by (unfold t2; destruct (t_center t1); rewrite L; reflexivity). reflexivity.
Qed.
End Segments.
