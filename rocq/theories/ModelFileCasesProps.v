(** C74: a concrete model file, left by a train command that was interrupted while it was
    writing the parameters. *)
From Coq Require Import QArith Qcanon Lia String.
From Verif Require Import Base ListLib BaseLib QcLib Dict Strings TextModel TextSpec TextProofs VocabModel VocabSpec VocabProofs VocabBuild VocabProps LatticeExamples
  ArchModel ArchSpec ArchProps ParamModel ParamSpec NetModel NetExamples DeviceModel DeviceSpec BuildModel BuildSpec BuildProps SavedModel SavedSpec SavedArrays SavedProps StateModel LinkModel LinkSpec LinkProps
  IterModel IterSpec IterProofs IterWitness IterProps ScoreModel ScoreSpec ScoreText ScoreProps LatticeModel LatticeSpec DecoderModel DecoderSpec DecoderExamples SamplerModel SamplerSpec SamplerProofs
  TrainerModel TrainDataModel TrainDataProps TrainCommandModel TrainCommandSpec TrainCommandProofs TrainCommandVocab TrainCommandRuns TrainCommandProps TrainCommandCasesProps
  ValidationCommandProps ValidationCasesProps CrashModel CrashSpec CrashArrays CrashRuns CrashProps SampleScoreSpec SampleScoreProofs SampleScoreProps ModelFileProofs ModelFileProps.
Local Open Scope nat_scope.
Local Open Scope list_scope.

(** No validation file: the values are written over the old ones. *)
Definition ex_wargs : train_args :=
  mkArgs (ta_training_set ex_vargs) (ta_vocabulary ex_vargs) Words None [] [] 0 1 (Some 6) false 1 0 CEpochCount 2 0 0 1%Qc None 1.
Definition ex_wstopped := @stopped_command ex_q nat ex_int ex_float (fun _ => cyc_choice) (fun _ => id_shuffle) ex_qscale (fun _ => LinkProps.ex_value)
  (fun _ _ => 0) (fun _ _ => true) (fun _ _ n x _ _ => (ex_vupdate n, S x)) ex_perplexity (fun _ => Ok ex_varch).
Notation ex_whistory := (@history ex_q nat ex_int ex_float (fun _ => cyc_choice) (fun _ => id_shuffle) ex_qscale (fun _ => LinkProps.ex_value)
  (fun _ _ => 0) (fun _ _ => true) (fun _ _ n x _ _ => (ex_vupdate n, S x)) ex_perplexity (fun _ => Ok ex_varch) ex_varch None).
(** Interrupted when two of the five parameters have been written in the second save *)
Definition ex_wfile : result (train_file ex_q nat) := ex_wstopped Thrown 100 21 6 ex_wargs no_file.
Definition ex_wmodel (x : Qc) : result (model ex_q) := do f <- ex_wfile; SavedModel.from_file ex_int ex_qscale (fun _ _ _ _ _ => x : num ex_q) None false (tf_model f).
Definition ex_wfirst (m : model ex_q) : list Q := map (fun v => match ParamModel.a_data (snd v) with x :: _ => this x | [] => 0%Q end) (vars (m_network m)).
(** The loaded network has the first two parameters of one save and the others of another. *)
Example C74_example_mixed : (do m <- ex_wmodel 0%Qc; Ok (ex_wfirst m)) =
  Ok [152587890625 # 4294967296; 152587890625 # 4294967296; 390625 # 65536; 390625 # 65536; 390625 # 65536]%Q.
Proof. vm_compute. reflexivity. Qed.

(** The sentence "a", with a function that has the product law *)
Definition ex_wlog (x : Qc) : Qc := (- ex_log2 x)%Qc.
Definition ex_wpredicted : result (list (list (list Qc))) :=
  do m <- ex_wmodel (1 + 1)%Qc; do '(ps, _) <- NetModel.run_steps (m_network m) [([1], [1]); ([0], [0])] (initial_state (m_network m) 1); Ok ps.
Definition ex_wmembers (c : nat) : list Qc := map snd (wc_probs (nth c (v_classes ex_vvocab) (mkClass 0 []))).
Definition ex_wdraws (ps : list (list (list Qc))) : list draw :=
  [mkDraw 1 (nth 0 (nth 0 ps []) []) 0 (ex_wmembers 0) 0; mkDraw 2 (nth 0 (nth 1 ps []) []) 2 (ex_wmembers 2) 0].
Definition ex_wline : result Q :=
  do m <- ex_wmodel 0%Qc; do '(s, _) <- score_line ex_wlog (scorer_net _ _ _ _ _ (m_network m)) (m_vocabulary m) false false (0, 0) (str "a");
  match s with Some x => Ok (this x) | None => Err KeyError end.
Definition ex_wdecoded : result (list (list hword * Q)) :=
  do m <- ex_wmodel 1%Qc;
  match LinkProps.ex_start (m_network m) with
  | Some st => do '(l, _) <- decode _ st (decoder_net _ _ _ _ _ (m_network m)) ex_wlog ex_lin ex_hash (m_vocabulary m) ex_options ex_lattice; Ok (map (fun t => (tk_history _ t, this (tk_nn _ t))) l)
  | None => Err KeyError
  end.
Example C74_example_values :
  (do ps <- ex_wpredicted; Ok (map (map (map this)) ps, this (chance (ex_wdraws ps)), this (ex_wlog (chance (ex_wdraws ps))))) =
  Ok ([[[5211788 # 11862777; 2868038 # 11862777; 695596 # 3954259; 1696163 # 11862777]];
       [[5211788 # 11862777; 2868038 # 11862777; 695596 # 3954259; 1696163 # 11862777]]], 3625298885648 # 46908492717243, -4 # 1)%Q /\
  ex_wline = Ok (-4 # 1)%Q /\
  ex_wdecoded = Ok [([inl 1; inl 5; inl 2], (-2 # 1)%Q); ([inl 1; inl 4; inl 2], (-2 # 1)%Q); ([inl 1; inl 0; inl 2], (-4 # 1)%Q)].
Proof. vm_compute. repeat split. Qed.

(** The conditions of the theorems are met, and the choices are those of the example. *)
Lemma ex_wvocab : match ex_wmodel 0%Qc with Ok m => m_vocabulary m = ex_vvocab | Err _ => False end.
Proof. vm_compute. reflexivity. Qed.
Lemma ex_wpast_any how fuel k j f : ex_wstopped how fuel k j ex_wargs no_file = Ok f -> ex_whistory true f.
Proof.
  intros Ef. unfold ex_wstopped in Ef. destruct (sentences_exist (ta_training_set ex_wargs)) as (us & H).
  assert (Sm : same_model (fun _ => Ok ex_varch) ex_varch None ex_wargs) by (split; [reflexivity|intros x E; injection E as E; exact (eq_sym E)]).
  exact (stopped_history _ _ _ _ _ _ _ _ _ _ _ _ _ how no_file fuel k j _ us f (hs_new _ _ _ _ _ _ _ _ _ _ _ _ _ true) H Sm Ef).
Qed.
Lemma ex_wpast f : ex_wfile = Ok f -> ex_whistory true f.
Proof. exact (ex_wpast_any Thrown 100 21 6 f). Qed.
Example C74_example : exists f m0 m1 m2 xs st hypotheses dropped t,
  ex_whistory true f /\ valid ex_varch /\ at_most 10 ex_varch /\ plain_names ex_varch /\ (forall n, other_values n (ex_vupdate n)) /\
  Forall (connected ex_varch) (a_layers ex_varch) /\ Forall (placed_well None) (a_layers ex_varch) /\ Forall stepwise_type (a_layers ex_varch) /\
  SavedModel.from_file ex_int ex_qscale (fun _ _ _ _ _ => 0%Qc : num ex_q) None false (tf_model f) = Ok m0 /\
  SavedModel.from_file ex_int ex_qscale (fun _ _ _ _ _ => 1%Qc : num ex_q) None false (tf_model f) = Ok m1 /\
  SavedModel.from_file ex_int ex_qscale (fun _ _ _ _ _ => (1 + 1)%Qc : num ex_q) None false (tf_model f) = Ok m2 /\
  m_vocabulary m0 = ex_vvocab /\ m_network m1 = m_network m0 /\ m_network m2 = m_network m0 /\
  (forall x y, (0 < x)%Qc -> (0 < y)%Qc -> ex_wlog (x * y)%Qc = (ex_wlog x + ex_wlog y)%Qc) /\
  utterance_of (str "a") (SOS :: [str "a"; EOS]) /\ printable 4 [str "a"; EOS] /\
  Forall2 (fun w id => word_to_id ex_vvocab w = Some id /\ id < num_shortlist_words ex_vvocab) (SOS :: [str "a"; EOS]) [1; 0; 2] /\
  draws_of _ _ _ _ _ (m_network m2) (m_vocabulary m2) 1 [1; 0; 2] xs /\ Forall possible xs /\ ex_wlog (chance xs) = Q2Qc (-4 # 1) /\
  starting_state _ _ _ _ _ (m_network m1) st /\ o_use_shortlist ex_options = false /\ lattice_ok ex_lattice /\
  decode _ st (decoder_net _ _ _ _ _ (m_network m1)) ex_wlog ex_lin ex_hash (m_vocabulary m1) ex_options ex_lattice = Ok (hypotheses, dropped) /\
  In t hypotheses /\ history_words _ (m_vocabulary m1) t = Ok (SOS :: [str "a"; EOS]) /\
  word_to_id ex_vvocab SOS = Some 1 /\ word_to_id ex_vvocab EOS = Some 2 /\
  VocabModel.get_word_prob ex_vvocab 1 = Ok 1%Qc /\ VocabModel.get_word_prob ex_vvocab 2 = Ok 1%Qc.
Proof.
  destruct C70_example_conditions as (_ & _ & _ & _ & _ & Vd & AM & PN & U & CN & PW & _).
  assert (SW : Forall stepwise_type (a_layers ex_varch)) by (ex_layers ex_only_forward).
  destruct (ex_ok _ ex_wfile) as [f Ef]; [vm_compute; reflexivity|].
  pose proof (ex_wpast f Ef) as Hf.
  destruct (ex_ok _ (ex_wmodel 0%Qc)) as [m0 E0]; [vm_compute; reflexivity|].
  pose proof ex_wvocab as Ev. rewrite E0 in Ev.
  pose proof (proj1 C74_example_values) as V1. pose proof (proj2 (proj2 C74_example_values)) as V3.
  unfold ex_wpredicted in V1. unfold ex_wdecoded in V3. unfold ex_wmodel in E0, V1, V3. rewrite Ef in E0, V1, V3. cbn [bind] in E0, V1, V3.
  pose proof (C74_loaded (accum := nat) ex_int ex_float (fun _ => cyc_choice) (fun _ => id_shuffle) ex_qscale (fun _ => LinkProps.ex_value)
    (fun _ _ => 0) (fun _ _ => true) (fun _ _ n x _ _ => (ex_vupdate n, S x)) ex_perplexity (fun _ => Ok ex_varch) ex_varch None Vd AM PN (fun _ _ n _ _ _ => U n) true f _ false m0 Hf E0) as (_ & _ & _ & L).
  destruct (L (fun _ _ _ _ _ => 1%Qc : num ex_q) false) as (b1 & E1). destruct (L (fun _ _ _ _ _ => (1 + 1)%Qc : num ex_q) false) as (b2 & E2).
  destruct (L (fun _ _ _ _ _ => 0%Qc : num ex_q) false) as (b0 & E0'). rewrite E0 in E0'.
  assert (En : with_exclude_unk false (m_network m0) = m_network m0) by (apply (f_equal (fun r => match r with Ok m => m_network m | Err _ => m_network m0 end)) in E0'; cbv beta iota in E0'; cbn [m_network] in E0'; exact (eq_sym E0')).
  rewrite En in E1, E2. clear L E0' b0. set (n := m_network m0) in *. rewrite Ev in E1, E2.
  rewrite E2 in V1. rewrite E1 in V3. cbn [bind m_network m_vocabulary] in V1, V3.
  destruct (NetModel.run_steps n _ _) as [[ps st']|] eqn:RS; cbn [bind] in V1; [|discriminate]. apply run_steps_runs in RS.
  destruct (LinkProps.ex_start n) as [st|] eqn:ES; [|discriminate].
  destruct (decode _ st _ _ _ _ _ _ _) as [[hyps dropped]|] eqn:De; cbn [bind] in V3; [|discriminate].
  assert (V3' := f_equal (fun r => match r with Ok x => x | Err _ => [] end) V3). cbv beta iota in V3'. clear V3.
  destruct hyps as [|t1 [|t2 [|t hyps]]]; [discriminate..|]. assert (Ht : tk_history _ t = [inl 1; inl 0; inl 2]) by (apply (f_equal (fun l => match l with _ :: _ :: x :: _ => fst x | _ => [] end)) in V3'; exact V3'). clear V3'.
  assert (W1 := f_equal (fun r => match r with Ok x => fst (fst x) | Err _ => [] end) V1). assert (W2 := f_equal (fun r => match r with Ok x => snd x | Err _ => 0%Q end) V1). cbv beta iota in W1, W2. cbn [fst snd] in W1, W2. clear V1.
  exists f, m0, (mkModel ex_vvocab b1 n), (mkModel ex_vvocab b2 n), (ex_wdraws ps), st, (t1 :: t2 :: t :: hyps), dropped, t.
  split; [exact Hf|]. split; [exact Vd|]. split; [exact AM|]. split; [exact PN|]. split; [exact U|]. split; [exact CN|]. split; [exact PW|]. split; [exact SW|].
  split; [exact E0|]. split; [exact E1|]. split; [exact E2|]. split; [exact Ev|]. split; [reflexivity|]. split; [reflexivity|].
  split; [intros x y Hx Hy; unfold ex_wlog; rewrite C73_example_log by assumption; ring|].
  assert (NS : no_space (str "a")) by (intros c [<-|[]]; reflexivity).
  split; [apply (utterance_text_line (str "a") [str "a"]); [apply (tokens_last []); [intros ? []|discriminate|exact NS]|discriminate|apply (framed_intro [str "a"] [SOS] [EOS]); right; (split; [|reflexivity]); [intros [r E]; discriminate|intros [[|? [|? ?]] E]; discriminate]]|].
  split; [left; exists [str "a"]; split; [reflexivity|split; [intros [E|[]]; discriminate|cbn; lia]]|].
  split; [repeat (constructor; [split; [vm_compute; reflexivity|vm_compute; lia]|]); constructor|].
  assert (Ep : exists d0 d1, ps = [[d0]; [d1]]).
  { clear - W1. destruct ps as [|[|d0 []] [|[|d1 []] []]]; try discriminate W1. now exists d0, d1. }
  destruct Ep as (d0 & d1 & ->). cbn [m_network m_vocabulary].
  split; [|split; [|split; [apply Qc_is_canon; rewrite W2; reflexivity|]]].
  - unfold SampleScoreSpec.draws_of, ex_wdraws. cbn [length Nat.sub seq nth]. constructor; [|constructor; [|constructor]].
    + split; [reflexivity|]. split.
      * exists [(1, 1)]. destruct (runs_prefix _ [([1], [1])] [([0], [0])] _ _ _ RS) as [s1 R1]. exists [], s1. split; [constructor; [split; [reflexivity|vm_compute; reflexivity]|constructor]|exact R1].
      * exists 0, (nth 0 (v_classes ex_vvocab) (mkClass 0 [])). cbn [dr_class dr_members dr_word nth_error]. split; [reflexivity|]. split; [vm_compute; reflexivity|]. split; [vm_compute; reflexivity|]. split; [reflexivity|vm_compute; reflexivity].
    + split; [reflexivity|]. split.
      * exists [(1, 1); (0, 0)], [[d0]], st'. split; [constructor; [split; [reflexivity|vm_compute; reflexivity]|constructor; [split; [reflexivity|vm_compute; reflexivity]|constructor]]|exact RS].
      * exists 2, (nth 2 (v_classes ex_vvocab) (mkClass 0 [])). cbn [dr_class dr_members dr_word nth_error]. split; [reflexivity|]. split; [vm_compute; reflexivity|]. split; [vm_compute; reflexivity|]. split; [reflexivity|vm_compute; reflexivity].
  - cbn [map] in W1. injection W1 as X0 X1. unfold ex_wdraws, possible, class_chance, word_chance. cbn [dr_class dr_distribution dr_word dr_members nth].
    assert (G : forall (d : list Qc) l k q, map this d = l -> nth_error l k = Some q -> (0 < q)%Q -> (0 < nth k d 0)%Qc).
    { clear. intros d l k q <- H P. rewrite nth_error_map in H. destruct (nth_error d k) as [x|] eqn:E; [|discriminate]. injection H as <-. rewrite (nth_error_nth _ _ _ E). exact P. }
    repeat constructor; (eapply G; [eassumption || (vm_compute; reflexivity)|reflexivity|reflexivity]).
  - split; [now apply ex_start_starting|]. split; [reflexivity|]. split; [exact ex_lattice_ok|]. split; [exact De|]. split; [right; right; now left|].
    split; [unfold history_words; rewrite Ht; vm_compute; reflexivity|]. repeat (split; [vm_compute; reflexivity|]). vm_compute. reflexivity.
Qed.
