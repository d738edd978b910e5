(** Concrete train commands that are killed or interrupted while the state is being saved. *)
From Coq Require Import QArith Qcanon String.
From Verif Require Import Base ListLib BaseLib QcLib Dict Strings TextModel TextSpec TextProps VocabModel VocabSpec VocabProps LatticeExamples
  ArchModel ArchSpec ParamModel NetModel DeviceModel BuildModel BuildProps SavedModel SavedSpec SavedProps
  NetExamples OutputModel ArchProps IterModel IterSpec IterWitness IterProps TrainerModel TrainDataModel TrainDataProps TrainCommandModel TrainCommandSpec TrainCommandProofs TrainCommandVocab TrainCommandRuns TrainCommandProps TrainCommandCasesProps
  CrashModel CrashSpec CrashProps.
Local Open Scope nat_scope.
Local Open Scope list_scope.

Definition ex_stop := @stopped_command integers nat ex_int ex_float (fun _ => cyc_choice) (fun _ => id_shuffle) ex_scale (fun _ => ex_initial)
  (fun _ _ => 0) (fun _ _ => true) (fun _ _ n x _ _ => (ex_network_bump n, S x)) (fun _ => ex_cost) (fun _ => Ok (ex_described ex_arch_lines)).
(** One value of the first parameter of a network, and one value of the last one. Every
    update adds one to both; they are zero at first. *)
Definition ex_ends (n : network integers) : Z * Z :=
  (match flat_map (fun l => l_params l) (n_layers n) with (_, Weight ((x :: _) :: _)) :: _ => x | _ => 0%Z end, ex_value n).
Definition ex_loaded (f : train_file integers nat) : option (Z * Z) :=
  match SavedModel.from_file ex_int ex_scale (fun _ _ _ _ _ => 0%Z : num integers) None false (tf_model f) with
  | Ok m => Some (ex_ends (m_network m))
  | Err _ => None
  end.
(** The network with which a command starts training *)
Definition ex_started (args : train_args) (f : train_file integers nat) : option (Z * Z) :=
  match read_vocabulary ex_int ex_float args f with
  | (Ok v, f1) =>
    match @start integers nat ex_int (fun _ => cyc_choice) (fun _ => id_shuffle) ex_scale (fun _ => ex_initial)
            (fun _ _ => 0) (fun _ _ => true) (fun _ => Ok (ex_described ex_arch_lines)) 100 args v f1 with
    | Ok (_, _, t0) => Some (ex_ends (t_params t0))
    | Err _ => None
    end
  | _ => None
  end.
Definition ex_observed (args : train_args) (f : result (train_file integers nat)) : option (option (Z * Z) * option (Z * Z)) :=
  match f with Ok f => Some (ex_loaded f, ex_started args f) | Err _ => None end.
Definition ex_with : train_args := ex_args None None 0 [] true.
Definition ex_without : train_args := ex_args None None 0 [] false.

(** With a validation file, the second save is in step 20: the network of update 5 is
    replaced with that of update 13. *)
Example ex_copy_table : map (fun j => ex_observed ex_with (ex_stop Thrown 100 19 j ex_with no_file)) (seq 0 11) =
  let old := Some (5, 5)%Z in let new := Some (13, 13)%Z in
  [Some (old, old); Some (None, None); Some (old, old); Some (old, None); Some (old, old); Some (None, None); Some (new, new);
   Some (new, None); Some (new, new); Some (new, Some (0, 0)%Z); Some (new, new)].
Proof. vm_compute. reflexivity. Qed.
(** Without a validation file, the second save is in step 22: the network of update 8 is
    replaced with that of update 16. It has five parameters. *)
Example ex_write_table : map (fun j => ex_observed ex_without (ex_stop Thrown 100 21 j ex_without no_file)) [0; 4; 5; 8; 9; 15; 16] =
  let old := Some (8, 8)%Z in let mixed := Some (16, 8)%Z in let new := Some (16, 16)%Z in
  [Some (old, old); Some (old, old); Some (mixed, mixed); Some (mixed, mixed); Some (new, new); Some (new, new); Some (new, new)].
Proof. vm_compute. reflexivity. Qed.
(** The first save, in step 11 *)
Example ex_first_table : map (fun j => ex_observed ex_without (ex_stop Thrown 100 10 j ex_without no_file)) [0; 1; 4; 9; 11; 12; 15; 16] =
  let new := Some (8, 8)%Z in
  [Some (None, Some (0, 0)%Z); Some (None, None); Some (None, None); Some (None, None); Some (None, None); Some (new, None); Some (new, None); Some (new, new)].
Proof. vm_compute. reflexivity. Qed.
(** When the process is killed at the same points *)
Example ex_killed_table : map (fun j => ex_observed ex_with (ex_stop Killed 100 19 j ex_with no_file)) [0; 5; 10; 11] =
  let old := Some (5, 5)%Z in let new := Some (13, 13)%Z in [Some (old, old); Some (old, old); Some (old, old); Some (new, new)].
Proof. vm_compute. reflexivity. Qed.

(** These files are in the histories of the theorems. *)
Notation ex_past := (@history integers nat ex_int ex_float (fun _ => cyc_choice) (fun _ => id_shuffle) ex_scale (fun _ => ex_initial)
  (fun _ _ => 0) (fun _ _ => true) (fun _ _ n x _ _ => (ex_network_bump n, S x)) (fun _ => ex_cost) (fun _ => Ok (ex_described ex_arch_lines)) (ex_described ex_arch_lines) None).
Lemma ex_same b : same_model (fun _ => Ok (ex_described ex_arch_lines)) (ex_described ex_arch_lines) None (ex_args None None 0 [] b).
Proof. split; [reflexivity|]. intros x E. injection E as E. exact (eq_sym E). Qed.
Lemma ex_stopped how k j b f' : ex_stop how 100 k j (ex_args None None 0 [] b) no_file = Ok f' -> ex_past true f'.
Proof.
  intros E. unfold ex_stop in E. destruct (sentences_exist (ta_training_set (ex_args None None 0 [] b))) as (us & H).
  exact (stopped_history _ _ _ _ _ _ _ _ _ _ _ _ _ how no_file 100 k j _ us f' (hs_new _ _ _ _ _ _ _ _ _ _ _ _ _ true) H (ex_same b) E).
Qed.
Example ex_past_met how k j b : match ex_stop how 100 k j (ex_args None None 0 [] b) no_file with Ok f' => ex_past true f' | Err _ => True end.
Proof. destruct (ex_stop _ _ _ _ _ _) eqn:E; [eapply ex_stopped; exact E|exact I]. Qed.

(** The expectation that a command that is interrupted while it saves the state leaves the
    old or the new state in the file is false: *)
(** no model can be loaded and no command can continue; *)
Theorem C71_interrupt_loses_model_refuted : exists f', ex_stop Thrown 100 19 1 ex_with no_file = Ok f' /\
  ex_loaded f' = None /\ fst (ex_command 100 1000 ex_with f') = Raised IncompatibleStateError /\
  ex_loaded (snd (ex_command 100 19 ex_with no_file)) = Some (5, 5)%Z /\ ex_loaded (snd (ex_command 100 20 ex_with no_file)) = Some (13, 13)%Z.
Proof.
  destruct (ex_ok _ (ex_stop Thrown 100 19 1 ex_with no_file)) as (f' & E); [vm_compute; reflexivity|]. exists f'. split; [exact E|].
  assert (X : match ex_stop Thrown 100 19 1 ex_with no_file with Ok f => ex_loaded f = None /\ fst (ex_command 100 1000 ex_with f) = Raised IncompatibleStateError | _ => False end) by (vm_compute; split; reflexivity).
  rewrite E in X. destruct X as [X1 X2]. split; [exact X1|]. split; [exact X2|]. split; vm_compute; reflexivity.
Qed.
Print Assumptions C71_interrupt_loses_model_refuted.
(** the next command silently starts from the beginning, although the file has a model; *)
Theorem C71_interrupt_starts_over_refuted : exists f', ex_stop Thrown 100 19 9 ex_with no_file = Ok f' /\
  ex_loaded f' = Some (13, 13)%Z /\ ex_started ex_with f' = Some (0, 0)%Z /\
  ex_started ex_with (snd (ex_command 100 19 ex_with no_file)) = Some (5, 5)%Z /\ ex_started ex_with (snd (ex_command 100 20 ex_with no_file)) = Some (13, 13)%Z.
Proof.
  destruct (ex_ok _ (ex_stop Thrown 100 19 9 ex_with no_file)) as (f' & E); [vm_compute; reflexivity|]. exists f'. split; [exact E|].
  assert (X : match ex_stop Thrown 100 19 9 ex_with no_file with Ok f => ex_loaded f = Some (13, 13)%Z /\ ex_started ex_with f = Some (0, 0)%Z | _ => False end) by (vm_compute; split; reflexivity).
  rewrite E in X. destruct X as [X1 X2]. split; [exact X1|]. split; [exact X2|]. split; vm_compute; reflexivity.
Qed.
Print Assumptions C71_interrupt_starts_over_refuted.
(** the model that is loaded has parameters of both networks. *)
Theorem C71_interrupt_mixes_refuted : exists f', ex_stop Thrown 100 21 6 ex_without no_file = Ok f' /\
  ex_loaded f' = Some (16, 8)%Z /\ ex_started ex_without f' = Some (16, 8)%Z /\
  ex_loaded (snd (ex_command 100 21 ex_without no_file)) = Some (8, 8)%Z /\ ex_loaded (snd (ex_command 100 22 ex_without no_file)) = Some (16, 16)%Z.
Proof.
  destruct (ex_ok _ (ex_stop Thrown 100 21 6 ex_without no_file)) as (f' & E); [vm_compute; reflexivity|]. exists f'. split; [exact E|].
  assert (X : match ex_stop Thrown 100 21 6 ex_without no_file with Ok f => ex_loaded f = Some (16, 8)%Z /\ ex_started ex_without f = Some (16, 8)%Z | _ => False end) by (vm_compute; split; reflexivity).
  rewrite E in X. destruct X as [X1 X2]. split; [exact X1|]. split; [exact X2|]. split; vm_compute; reflexivity.
Qed.
Print Assumptions C71_interrupt_mixes_refuted.
