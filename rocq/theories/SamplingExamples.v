(** Concrete cases that meet the hypotheses of the theorems about sampling. *)
From Coq Require Import Reals Lra String.
From Verif Require Import Base BaseLib ListLib Strings NumStr LatticeExamples ArchModel VocabModel NetModel NetSpec NetReal NetExamples CostModel NoiseProps
  BuildModel BuildSpec BuildProps BuildProofs EquationSpec EquationProps SamplingModel SamplingSpec SamplingNet SamplingProofs SamplingProps.
Local Open Scope nat_scope.
Local Open Scope list_scope.
Local Open Scope R_scope.

Definition ex_sampling_lines : list string :=
  ["input type=class name=class_input"; "layer type=projection name=p input=class_input size=3";
   "layer type=lstm name=h input=p size=2"; "layer type=softmax name=output_layer input=h"]%string.
Definition ex_sampling_a := ex_described ex_sampling_lines.
Definition ex_real_build := @build reals ex_parse_int (fun _ => Ok 0) (fun _ _ i r c => INR (i + r + c)) None false ex_sampling_a ex_words.
Example ex_sampling_meet : Forall (connected ex_sampling_a) (a_layers ex_sampling_a) /\ Forall (placed_well None) (a_layers ex_sampling_a) /\
  exists n, ex_real_build = Ok n /\ n_kind n = Softmax /\ (List.length (n_devices n) <= 1)%nat.
Proof.
  split; [unfold ex_sampling_a; ex_layers ex_connected|]. split; [unfold ex_sampling_a; ex_layers ex_placed|].
  destruct (ex_ok _ ex_real_build ltac:(vm_compute; reflexivity)) as (n & B). exists n. split; [exact B|].
  assert (X : match ex_real_build with Ok n => (match n_kind n with Softmax => true | _ => false end && (List.length (n_devices n) <=? 1)%nat)%bool = true | Err _ => False end) by (vm_compute; reflexivity).
  rewrite B in X. apply andb_prop in X as [X1 X2]. split; [destruct (n_kind n); [reflexivity|discriminate X1]|now apply Nat.leb_le].
Qed.
(** The first classes are always chosen. *)
Definition ex_choice (rows k : nat) (probs : list R) : result (list (list nat)) :=
  if (k <=? List.length probs)%nat then Ok (repeat (seq 0 k) rows) else Err ValueError.
Definition ex_random (i j : nat) : R := 1 / 2.
Definition ex_priors : list R := [1 / 2; 1 / 4; 1 / 4; 0; 0].
Example ex_can_sample : can_sample ex_random ex_choice (num_classes ex_words) ex_priors.
Proof.
  constructor.
  - intros i j. unfold ex_random. lra.
  - intros rows k probs. unfold ex_choice. split; intro H.
    + rewrite (proj2 (Nat.leb_le _ _) H). eexists. split; [reflexivity|].
      assert (R : forall P : list nat -> Prop, P (seq 0 k) -> Forall P (repeat (seq 0 k) rows)) by (intros P HP; apply Forall_forall; intros r I; now apply repeat_spec in I as ->).
      split; [split; [split; [apply repeat_length|]|]|]; apply R; [apply seq_length| |apply seq_NoDup]. apply Forall_forall. intros c I. apply in_seq in I. lia.
    + now rewrite (proj2 (Nat.leb_gt _ _) H).
  - vm_compute. reflexivity.
  - repeat constructor; lra.
  - constructor. lra.
Qed.
Definition ex_targets : list (list nat) := [[0; 1]; [1; 0]; [4; 4]]%nat.
Example ex_targets_valid : rectangle 3 2 ex_targets /\ Forall (Forall (fun c => (c < num_classes ex_words)%nat)) ex_targets.
Proof. split; ex_shape. Qed.
(** Five noise classes for each of the six positions from the unigram distribution, and a
    thousand from the log-uniform distribution *)
Example ex_nce : exists n d drawn l, ex_real_build = Ok n /\
  noise_distribution ex_random ex_choice (num_classes ex_words) ex_priors (str "unigram") (1 / 2) = Ok d /\
  d_sample d 6 5 = Ok drawn /\ nce_logprobs (1 / 10) d 5 NotShared n ex_batch ex_targets = Ok l /\ rectangle 3 2 l.
Proof.
  destruct ex_sampling_meet as (CN & PW & n & B & KS & L1). destruct ex_targets_valid as [RT FT].
  destruct (proj1 (C65_distribution _ _ _ _ (str "unigram") (1 / 2) ex_can_sample)) as (d & ED & _); [now do 2 right; left|].
  destruct (C65_nce _ _ _ _ _ _ _ _ B CN PW 3%nat 2%nat ex_batch ex_targets ltac:(discriminate) ex_batch_valid RT FT _ _ _ _ _ _ ex_can_sample ED 5 NotShared (1 / 10) ltac:(lra) KS L1) as (drawn & l & E1 & E2 & RL & _).
  { right. vm_compute. lia. }
  exists n, d, drawn, l. auto.
Qed.
Example ex_blackout : exists n d l, ex_real_build = Ok n /\
  noise_distribution ex_random ex_choice (num_classes ex_words) ex_priors (str "log-uniform") 0 = Ok d /\
  blackout_logprobs (1 / 10) d 1000 SequencesShared n ex_batch ex_targets = Ok l /\ exists x, at2 l 2 1 = Some (Fin x).
Proof.
  destruct ex_sampling_meet as (CN & PW & n & B & KS & L1). destruct ex_targets_valid as [RT FT].
  destruct (proj1 (C65_distribution _ _ _ _ (str "log-uniform") 0 ex_can_sample)) as (d & ED & _); [now right; left|].
  assert (NU : ~ by_unigrams (str "log-uniform") 0) by (intros [Q _]; discriminate Q).
  destruct (C65_blackout _ _ _ _ _ _ _ _ B CN PW 3%nat 2%nat ex_batch ex_targets ltac:(discriminate) ex_batch_valid RT FT _ _ _ _ _ _ ex_can_sample ED 1000 SequencesShared (1 / 10) ltac:(lra) KS L1 (or_introl NU))
    as (drawn & l & E1 & E2 & RL & P).
  exists n, d, l. split; [exact B|]. split; [exact ED|]. split; [exact E2|]. destruct (P 2%nat 1%nat 4%nat eq_refl) as [P1 _]. eexists. apply P1.
  destruct (three_types _ _ _ _ _ _ _ ED) as [[U _]|[_ [[_ [Q|Q]]|[-> _]]]]; [contradiction|discriminate Q|discriminate Q|].
  assert (PP : forall c, (c < num_classes ex_words)%nat -> 0 < d_probs (log_uniform_distribution ex_random (num_classes ex_words)) c).
  { destruct (C65_log_uniform (num_classes ex_words) ltac:(vm_compute; lia)) as (f & _ & _ & FP & _). intros c Hc. now apply (FP ex_random). }
  constructor; [apply PP; vm_compute; lia|].
  destruct (proj1 (C65_draws _ _ _ _ _ _ _ ex_can_sample ED (rows_drawn SequencesShared 3 2) (columns_drawn SequencesShared 3 1000)) (or_introl NU)) as (drawn' & E1' & GD & _).
  assert (drawn' = drawn) by congruence. subst drawn'. destruct (C65_noise _ _ _ _ _ _ _ _ B CN PW KS L1 3%nat 2%nat ex_batch _ _ _ _ ltac:(discriminate) ex_batch_valid E1 GD) as (ids & y & _ & _ & _ & F).
  destruct (F 2%nat 1%nat ltac:(lia) ltac:(lia)) as (_ & _ & _ & FF). apply (Forall_impl _ PP FF).
Qed.
(** Three time steps, and two noise samples for each, from five classes *)
Example ex_sequence_sharing : exists n d, ex_real_build = Ok n /\
  noise_distribution ex_random ex_choice (num_classes ex_words) ex_priors (str "unigram") (1 / 2) = Ok d /\
  nce_logprobs (1 / 10) d 2 SequencesShared n ex_batch ex_targets = Err ValueError.
Proof.
  destruct ex_sampling_meet as (CN & PW & n & B & KS & L1). destruct ex_targets_valid as [RT FT].
  destruct (proj1 (C65_distribution _ _ _ _ (str "unigram") (1 / 2) ex_can_sample)) as (d & ED & _); [now do 2 right; left|].
  exists n, d. split; [exact B|]. split; [exact ED|].
  refine (proj1 (proj2 (C65_sequence_sharing_refuted _ _ _ _ _ _ _ _ B CN PW 3%nat 2%nat ex_batch ex_targets ltac:(discriminate) ex_batch_valid RT FT _ _ _ _ _ _ ex_can_sample ED 2 SequencesShared eq_refl _ KS L1 _) _)).
  - split; [reflexivity|lra].
  - vm_compute. lia.
Qed.
(** With integers everything can be computed: a score that is wanted, and scores of noise. *)
Example ex_sampled : match ex_build None ex_sampling_lines with
  | Ok n => exists u ids y, unnormalized_logprobs n ex_batch ex_targets = Ok (Some u) /\ at2 u 1 0 = Some (class_score ex_initial n ex_batch 3 1 0 1%nat) /\
    noise_sample (fun rows k => Ok (repeat (map (fun i => i mod 5)%nat (seq 0 k)) rows)) 2 SequencesShared n ex_batch = Ok (ids, y) /\
    ids = [[[0; 1]]; [[2; 3]]; [[4; 0]]]%nat /\ at2 y 1 0 = Some [class_score ex_initial n ex_batch 3 1 0 2%nat; class_score ex_initial n ex_batch 3 1 0 3%nat]
  | Err _ => False
  end.
Proof. vm_compute. repeat eexists. Qed.
