(** Proofs about train commands that are stopped at any point. *)
From Coq Require Import QArith Qcanon Lia.
From Verif Require Import Base ListLib BaseLib QcLib Dict Strings VocabModel VocabSpec VocabProps
  ArchModel ArchSpec ArchProps ParamModel ParamSpec ParamProofs NetModel DeviceModel BuildModel SavedModel SavedSpec SavedArrays SavedBuild SavedNetwork SavedProofs SavedProps
  IterModel IterSpec TrainerModel TrainerSpec TrainerRuns TrainerProps TrainDataModel TrainCommandModel TrainCommandSpec TrainCommandProofs TrainCommandVocab TrainCommandRuns
  CrashModel CrashSpec CrashArrays CrashTrainer.
Local Open Scope nat_scope.

(** ** The files that a save goes through *)
Section Calls.
Context {A : arith} {accum : Type}.
Notation train_file := (train_file A accum).
Notation trainer_file := (@TrainerModel.file (network A) accum iter_state).
Notation call := (@call A accum).

Lemma calls_app (cs ds : list call) f : calls (cs ++ ds) f = do g <- calls cs f; calls ds g.
Proof. unfold calls. apply foldM_app. Qed.

Definition part {X} (j i : nat) (old gone new : X) : X := if j <? i then old else if j =? i then gone else new.
(** With a validation file: every group is deleted and written. *)
Definition copied (b : architecture) (s : trainer_file) (n : network A) (j : nat) (f : train_file) : train_file :=
  mkTrainFile
    (SavedModel.mkFile (f_vocabulary (tf_model f))
       (part j 1 (f_architecture (tf_model f)) None (ArchModel.get_state b None))
       (part j 5 (f_arrays (tf_model f)) [] (vars n)))
    (part j 9 (tf_trainer f) None (f_trainer s))
    (part j 3 (tf_iter f) None (f_iter s))
    (part j 7 (tf_optimizer f) None (f_optimizer s)).
Lemma copy_part b s n j f : f_params s = Some n -> NoDup (parameter_paths n) -> calls (firstn j (copy_calls b s)) f = Ok (copied b s n j f).
Proof.
  intros E D. unfold copy_calls. rewrite E. pose proof (write_new n D) as W. destruct f as [[vs ar arr] tr it op].
  do 11 (destruct j as [|j]; [cbn -[layer_parameters network_get_state ArchModel.get_state vars]; rewrite ?W; reflexivity|]).
  rewrite firstn_all2 by (cbn; lia). cbn -[layer_parameters network_get_state ArchModel.get_state vars]. rewrite W. reflexivity.
Qed.
Lemma copied_all b s n j f : 10 <= j -> copied b s n j f =
  mkTrainFile (SavedModel.mkFile (f_vocabulary (tf_model f)) (ArchModel.get_state b None) (vars n)) (f_trainer s) (f_iter s) (f_optimizer s).
Proof.
  intros L. unfold copied, part. do 10 (destruct j as [|j]; [lia|]). reflexivity.
Qed.

(** Without a validation file: the values are written over the old ones. *)
Definition group_stage (j : nat) (new : option tgroup) (old : option tgroup) : option tgroup :=
  match j with
  | 0 => old
  | S j => Some (mkTgroup (if 1 <=? j then g_epoch (group_of new) else g_epoch (group_of old))
                          (if 2 <=? j then g_update (group_of new) else g_update (group_of old))
                          (if 3 <=? j then g_costs (group_of new) else g_costs (group_of old)))
  end.
Definition arch_stage (j : nat) (b : architecture) (old : h5_state) : h5_state :=
  match j with
  | 0 => old
  | S j => Some (ArchModel.mkH5 (Some (write_dicts (dicts_of (h_inputs (h5_of old))) 0 (a_inputs b)))
       (if 1 <=? j then Some (write_dicts (dicts_of (h_layers (h5_of old))) 0 (a_layers b)) else h_layers (h5_of old))
       (if 2 <=? j then Some (a_output b) else h_output (h5_of old)))
  end.
Definition opt_stage (j : nat) (new old : option (option Qc * option accum)) : option (option Qc * option accum) :=
  match j with
  | 0 => old
  | S j => Some (if 1 <=? j then fst (variables_of new) else fst (variables_of old), if 2 <=? j then snd (variables_of new) else snd (variables_of old))
  end.
Definition written (b : architecture) (s : trainer_file) (arrays : nat -> list (pystr * array (num A))) (p j : nat) (f : train_file) : train_file :=
  mkTrainFile
    (SavedModel.mkFile (f_vocabulary (tf_model f)) (arch_stage (j - (p + 4)) b (f_architecture (tf_model f))) (arrays (j - 4)))
    (group_stage j (f_trainer s) (tf_trainer f))
    (if j - (p + 7) =? 0 then tf_iter f else f_iter s)
    (opt_stage (j - (p + 8)) (f_optimizer s) (tf_optimizer f)).

Lemma set_arrays_calls (l : list (pystr * array (num A))) : forall (f : train_file) s', foldM store_parameter l (f_arrays (tf_model f)) = Ok s' ->
  calls (map (fun v => @set_arrays A accum (fun arrays => store_parameter arrays v)) l) f =
  Ok (mkTrainFile (SavedModel.mkFile (f_vocabulary (tf_model f)) (f_architecture (tf_model f)) s') (tf_trainer f) (tf_iter f) (tf_optimizer f)).
Proof.
  unfold calls. induction l as [|x l IH]; intros [[vs ar arr] tr it op] s'; cbn [tf_model tf_trainer tf_iter tf_optimizer f_vocabulary f_architecture f_arrays foldM map].
  - intros [= <-]. reflexivity.
  - destruct (store_parameter arr x) as [arr1|] eqn:E; [|discriminate]. cbn [bind]. intros H. unfold set_arrays at 1, set_model. cbn [tf_model f_arrays]. rewrite E. cbn [bind].
    specialize (IH (mkTrainFile (SavedModel.mkFile vs ar arr1) tr it op) s'). cbn [tf_model tf_trainer tf_iter tf_optimizer f_vocabulary f_architecture f_arrays] in *.
    now apply IH.
Qed.
Lemma group_stage_small j new old : j <= 4 -> 
  calls (firstn j [ set_trainer (fun g => Some (group_of g));
      set_trainer (fun g => Some (mkTgroup (g_epoch (group_of new)) (g_update (group_of g)) (g_costs (group_of g))));
      set_trainer (fun g => Some (mkTgroup (g_epoch (group_of g)) (g_update (group_of new)) (g_costs (group_of g))));
      @set_trainer A accum (fun g => Some (mkTgroup (g_epoch (group_of g)) (g_update (group_of g)) (g_costs (group_of new)))) ]) old =
  Ok (mkTrainFile (tf_model old) (group_stage j new (tf_trainer old)) (tf_iter old) (tf_optimizer old)).
Proof.
  intros L. destruct old as [m tr it op]. do 5 (destruct j as [|j]; [cbn; destruct tr as [[]|]; reflexivity|]). lia.
Qed.
Lemma group_stage_all j new old : 4 <= j -> group_stage j new old = group_stage 4 new old.
Proof. intros L. do 4 (destruct j as [|j]; [lia|]). reflexivity. Qed.
Lemma arch_stage_calls j b (f : train_file) : calls (firstn j (@architecture_calls A accum b)) f =
  Ok (mkTrainFile (SavedModel.mkFile (f_vocabulary (tf_model f)) (arch_stage j b (f_architecture (tf_model f))) (f_arrays (tf_model f))) (tf_trainer f) (tf_iter f) (tf_optimizer f)).
Proof.
  destruct f as [[vs ar arr] tr it op]. do 4 (destruct j as [|j]; [cbn; destruct ar as [[]|]; reflexivity|]). rewrite firstn_all2 by (cbn; lia).
  cbn. destruct ar as [[]|]; reflexivity.
Qed.
Lemma arch_stage_all j b old : 3 <= j -> arch_stage j b old = ArchModel.get_state b old.
Proof. intros L. do 3 (destruct j as [|j]; [lia|]). unfold arch_stage, ArchModel.get_state. cbn. destruct old as [[]|]; reflexivity. Qed.
Lemma last_calls j it new (f : train_file) : calls (firstn j [ set_iterator it; set_optimizer (fun g => Some (variables_of g));
         set_optimizer (fun g => Some (fst (variables_of new), snd (variables_of g)));
         @set_optimizer A accum (fun g => Some (fst (variables_of g), snd (variables_of new))) ]) f =
  Ok (mkTrainFile (tf_model f) (tf_trainer f) (if j =? 0 then tf_iter f else it) (opt_stage (j - 1) new (tf_optimizer f))).
Proof.
  destruct f as [m tr it0 op]. do 5 (destruct j as [|j]; [cbn; destruct op as [[]|]; reflexivity|]). rewrite firstn_all2 by (cbn; lia).
  cbn. destruct op as [[]|]; reflexivity.
Qed.
Lemma write_part b s n arrays j f : f_params s = Some n ->
  (forall i, foldM store_parameter (firstn i (vars n)) (f_arrays (tf_model f)) = Ok (arrays i)) ->
  calls (firstn j (write_calls b s)) f = Ok (written b s arrays (length (vars n)) j f).
Proof.
  intros E F. unfold write_calls. rewrite E. fold (vars n). set (p := length (vars n)).
  assert (All : forall i, arrays i = arrays (Nat.min i p)).
  { intros i. assert (H : Ok (arrays i) = Ok (arrays (Nat.min i p))); [|now injection H]. rewrite <- !F. destruct (Nat.le_ge_cases i p) as [L|L].
    - now rewrite Nat.min_l.
    - rewrite Nat.min_r by exact L. unfold p. rewrite firstn_all, firstn_all2 by exact L. reflexivity. }
  rewrite firstn_app, calls_app. change (length _) with 4 at 1.
  assert (G : forall j, calls (firstn j [ set_trainer (fun g => Some (group_of g));
      set_trainer (fun g => Some (mkTgroup (g_epoch (group_of (f_trainer s))) (g_update (group_of g)) (g_costs (group_of g))));
      set_trainer (fun g => Some (mkTgroup (g_epoch (group_of g)) (g_update (group_of (f_trainer s))) (g_costs (group_of g))));
      @set_trainer A accum (fun g => Some (mkTgroup (g_epoch (group_of g)) (g_update (group_of g)) (g_costs (group_of (f_trainer s))))) ]) f =
    Ok (mkTrainFile (tf_model f) (group_stage j (f_trainer s) (tf_trainer f)) (tf_iter f) (tf_optimizer f))).
  { intros i. destruct (Nat.le_ge_cases i 4) as [L|L]; [now apply group_stage_small|].
    rewrite group_stage_all by exact L. rewrite <- (group_stage_small 4) by lia. rewrite !firstn_all2 by (cbn; lia). reflexivity. }
  rewrite G. clear G. cbn [bind].
  rewrite firstn_app, calls_app, map_length. fold p.
  rewrite firstn_map. erewrite set_arrays_calls by (cbn [tf_model]; apply F). cbn [bind tf_model tf_trainer tf_iter tf_optimizer f_vocabulary f_architecture f_arrays].
  rewrite firstn_app, calls_app, arch_stage_calls. cbn [bind]. change (length _) with 3 at 1.
  rewrite last_calls. cbn [tf_model tf_trainer tf_iter tf_optimizer f_vocabulary f_architecture f_arrays]. unfold written.
  replace (j - 4 - p) with (j - (p + 4)) by lia. replace (j - (p + 4) - 3) with (j - (p + 7)) by lia. replace (j - (p + 7) - 1) with (j - (p + 8)) by lia. reflexivity.
Qed.
Lemma write_length b s n : f_params s = Some n -> length (@write_calls A accum b s) = length (vars n) + 11.
Proof.
  intros E. unfold write_calls. rewrite E, !app_length, map_length. fold (vars n). cbn [length architecture_calls]. lia.
Qed.
End Calls.
