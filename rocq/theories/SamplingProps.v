(** C65: sampling noise classes for the sampling-based training objectives. *)
From Coq Require Import Reals Lra String.
From Verif Require Import Base BaseLib ListLib Strings NumStr ArchModel VocabModel NetModel NetSpec NetReal NetExamples CostModel NoiseProps
  BuildModel BuildSpec BuildProps BuildProofs EquationSpec EquationProps SamplingModel SamplingSpec SamplingNet SamplingProofs.
Local Open Scope nat_scope.
Local Open Scope list_scope.

Section Scores.
Context {A : arith}.
Notation num := (num A).
Variable parse_int : pystr -> result Z.
Variable dropout_scale : option ArchModel.value -> result num.
Variable initial : pystr -> pystr -> nat -> nat -> nat -> num.
Notation build := (build parse_int dropout_scale initial).

(** The unnormalized log probability of each target is its score: what the layers compute
    before softmax. *)
Theorem C65_scores default exclude_unk a v n : build default exclude_unk a v = Ok n ->
  Forall (connected a) (a_layers a) -> Forall (placed_well default) (a_layers a) ->
  n_kind n = Softmax -> List.length (n_devices n) <= 1 ->
  forall T N b targets, T <> 0 -> valid_batch v T N b -> rectangle T N targets -> Forall (Forall (fun c => c < num_classes v)) targets ->
  exists u, unnormalized_logprobs n b targets = Ok (Some u) /\ rectangle T N u /\
  forall t s c, at2 targets t s = Some c -> at2 u t s = Some (class_score initial n b T t s c).
Proof. intros B CN PW KS L1 T N b targets HT VB RT FT. exact (scores_are _ _ _ _ _ _ _ _ B CN PW KS _ _ _ HT VB L1 _ RT FT). Qed.

(** However the noise is shared, [k] classes that were drawn are used at each position, and
    their log probabilities are their scores at that position. *)
Theorem C65_noise default exclude_unk a v n : build default exclude_unk a v = Ok n ->
  Forall (connected a) (a_layers a) -> Forall (placed_well default) (a_layers a) ->
  n_kind n = Softmax -> List.length (n_devices n) <= 1 ->
  forall T N b sample k sh drawn, T <> 0 -> valid_batch v T N b ->
  sample (rows_drawn sh T N) (columns_drawn sh T k) = Ok drawn -> good_draw (num_classes v) (rows_drawn sh T N) (columns_drawn sh T k) drawn ->
  exists ids y, noise_sample sample k sh n b = Ok (ids, y) /\ rectangle T N (broadcast T N ids) /\ rectangle T N y /\
  forall t s, t < T -> s < N ->
    at2 (broadcast T N ids) t s = Some (noise_at sh N k drawn t s) /\
    at2 y t s = Some (map (class_score initial n b T t s) (noise_at sh N k drawn t s)) /\
    List.length (noise_at sh N k drawn t s) = k /\ Forall (fun c => c < num_classes v) (noise_at sh N k drawn t s).
Proof. intros B CN PW KS L1 T N b sample k sh drawn HT VB. exact (noise_are _ _ _ _ _ _ _ _ B CN PW KS _ _ _ HT VB L1 sample k sh drawn). Qed.

(** Sampling does not work with hierarchical softmax, or with several devices. *)
Theorem C65_unsupported_noise (n : network A) : n_kind n <> Softmax \/ 1 < List.length (n_devices n) ->
  forall sample k sh b, noise_sample sample k sh n b = Err InputError.
Proof.
  intros [H|H] sample k sh b; unfold noise_sample; destruct (n_kind n) as [|l1 l2]; try reflexivity; [contradiction|]. apply Nat.ltb_lt in H. now rewrite H.
Qed.
Theorem C65_unsupported_scores default exclude_unk a v n : build default exclude_unk a v = Ok n ->
  Forall (connected a) (a_layers a) -> Forall (placed_well default) (a_layers a) ->
  forall T N b targets, T <> 0 -> valid_batch v T N b ->
  (n_kind n <> Softmax -> unnormalized_logprobs n b targets = Err RuntimeError) /\
  (n_kind n = Softmax -> 1 < List.length (n_devices n) -> unnormalized_logprobs n b targets = Ok None).
Proof.
  intros B CN PW T N b targets HT VB. split.
  - intro H. unfold unnormalized_logprobs. destruct (n_kind n); [contradiction|reflexivity].
  - intros KS L. exact (scores_several _ _ _ _ _ _ _ _ B CN PW KS _ _ _ HT VB _ L).
Qed.
End Scores.

(** Normalizing the unnormalized probabilities gives the probabilities of the network. *)
Theorem C65_normalized parse_int (dropout_scale : option ArchModel.value -> result R) (initial : pystr -> pystr -> nat -> nat -> nat -> R) default a v (n : network reals) :
  @build reals parse_int dropout_scale initial default false a v = Ok n ->
  Forall (connected a) (a_layers a) -> Forall (placed_well default) (a_layers a) -> n_kind n = Softmax ->
  forall T N b, T <> 0 -> valid_batch v T N b ->
  exists p, output_probs n b = Ok p /\
  forall t s c, t < T -> s < N -> c < num_classes v -> exists row, at2 p t s = Some row /\
    nth_error row c = Some (Rtrigo_def.exp (@class_score reals initial n b T t s c) /
      rsum (map (fun i => Rtrigo_def.exp (@class_score reals initial n b T t s i)) (seq 0 (num_classes v))))%R.
Proof.
  intros B CN PW KS T N b HT VB. destruct (C63_probabilities _ _ _ _ _ _ _ _ B CN PW _ _ _ HT VB) as (p & E & _ & P). exists p. split; [exact E|].
  intros t s c Ht Hs Hc. destruct (P t s c Ht Hs Hc) as (m & r & Em & Er & Ec). exists r. split; [unfold at2; now rewrite Em|]. rewrite Ec. f_equal.
  destruct (built_reads _ _ _ _ _ _ _ _ B CN PW KS _ _ _ HT VB) as (size & x & R).
  assert (NE : n_exclude_unk n = false).
  { destruct (build_inv _ _ _ _ _ _ _ _ B) as (ds & out & C & _ & _ & _ & _ & _ & OE & _). destruct (DeviceNet.created_network _ _ _ C) as (ls & _ & EN & _).
    rewrite EN. exact OE. }
  unfold network_probability, class_probability. rewrite KS, NE, (rd_size _ _ _ _ _ _ _ _ R). cbn [andb]. reflexivity.
Qed.

(** ** Noise distributions *)
Local Open Scope R_scope.

(** A class is drawn with the probability that the objectives use for it. *)
Theorem C65_uniform num_classes : (0 < num_classes)%nat -> draws_by_probability num_classes (fun random => uniform_distribution random num_classes).
Proof. exact (uniform_draws num_classes). Qed.
Theorem C65_log_uniform num_classes : (0 < num_classes)%nat -> draws_by_probability num_classes (fun random => log_uniform_distribution random num_classes).
Proof. exact (log_uniform_draws num_classes). Qed.

Lemma unigram_probs random choice m priors dampening : can_sample random choice m priors ->
  let dampened := map (fun p => power p dampening) priors in 0 < rsum dampened /\ Forall (fun p => 0 <= p) dampened.
Proof.
  intros C dampened. assert (F : Forall (fun p => 0 <= p) dampened) by (apply Forall_forall; intros x I; apply in_map_iff in I as (p & <- & _); apply power_nonneg).
  split; [|exact F]. apply rsum_pos; [exact F|]. pose proof (cs_some _ _ _ _ C) as E. apply Exists_exists in E as (p & I & P). apply Exists_exists. exists (power p dampening).
  split; [exact (in_map (fun p => power p dampening) _ _ I)|now apply power_pos].
Qed.
Lemma three_types random choice m priors type dampening d : noise_distribution random choice m priors type dampening = Ok d ->
  (by_unigrams type dampening /\ d = let probs := map (fun p => power p dampening) priors in multinomial_distribution choice (map (fun p => p / rsum probs) probs)) \/
  (~ by_unigrams type dampening /\ (d = uniform_distribution random m /\ (type = str "uniform" \/ type = str "unigram") \/ d = log_uniform_distribution random m /\ type = str "log-uniform")).
Proof.
  unfold noise_distribution, by_unigrams. destruct (pystr_eqb_spec type (str "uniform")) as [->|N1]; cbn [orb].
  { intros [= <-]. right. split; [intros [Q _]; discriminate Q|]. left. auto. }
  destruct (pystr_eqb_spec type (str "unigram")) as [->|N2]; cbn [andb].
  - destruct (Req_EM_T dampening 0) as [->|N0].
    + intros [= <-]. right. split; [intros [_ Q]; now apply Q|]. left. auto.
    + destruct (pystr_eqb_spec (str "unigram") (str "log-uniform")) as [Q|_]; [discriminate Q|]. intros [= <-]. left. auto.
  - destruct (pystr_eqb_spec type (str "log-uniform")) as [->|N3]; [|discriminate]. intros [= <-]. right. split; [intros [Q _]; discriminate Q|]. right. auto.
Qed.

(** The three distributions, and nothing else, can be requested. The probabilities of the
    classes are not negative, and they sum to one. *)
Theorem C65_distribution random choice num_classes priors type dampening : can_sample random choice num_classes priors ->
  (In type [str "uniform"; str "log-uniform"; str "unigram"] ->
   exists d, noise_distribution random choice num_classes priors type dampening = Ok d /\
     (forall c, (c < num_classes)%nat -> 0 <= d_probs d c) /\ rsum (map (d_probs d) (seq 0 num_classes)) = 1) /\
  (~ In type [str "uniform"; str "log-uniform"; str "unigram"] -> noise_distribution random choice num_classes priors type dampening = Err ValueError).
Proof.
  intro C. assert (M : (0 < num_classes)%nat). { destruct C as [_ _ L _ E]. destruct priors; [inversion E|cbn in L; lia]. } split.
  - intro I. destruct (noise_distribution random choice num_classes priors type dampening) as [d|e] eqn:E.
    + exists d. split; [reflexivity|]. destruct (three_types _ _ _ _ _ _ _ E) as [[_ ->]|[_ [[-> _]|[-> _]]]].
      * destruct (unigram_probs _ _ _ _ dampening C) as [P F]. cbn zeta. cbn [multinomial_distribution d_probs]. set (dampened := map _ priors) in *. split.
        { intros c Hc. apply nth_Forall; [|lra]. apply Forall_forall. intros x J. apply in_map_iff in J as (p & <- & J). rewrite Forall_forall in F.
          apply Rmult_le_pos; [now apply F|]. left. now apply Rinv_0_lt_compat. }
        assert (LD : num_classes = List.length (map (fun p => p / rsum dampened) dampened)) by (unfold dampened; rewrite !map_length; symmetry; apply C). rewrite LD, rsum_seq, rsum_div. field. lra.
      * destruct (uniform_draws num_classes M) as (f & F0 & F1 & FP & _). split; [intros c Hc; left; now apply (FP random)|].
        rewrite (telescope f) by (intros c Hc; now apply (FP random)). rewrite F0, F1. lra.
      * destruct (log_uniform_draws num_classes M) as (f & F0 & F1 & FP & _). split; [intros c Hc; left; now apply (FP random)|].
        rewrite (telescope f) by (intros c Hc; now apply (FP random)). rewrite F0, F1. lra.
    + exfalso. unfold noise_distribution in E. destruct I as [<-|[<-|[<-|[]]]]; cbn in E; try discriminate E. destruct (Req_EM_T dampening 0); discriminate E.
  - intro I. unfold noise_distribution. destruct (pystr_eqb_spec type (str "uniform")) as [->|N1]; [exfalso; apply I; now left|].
    destruct (pystr_eqb_spec type (str "unigram")) as [->|N2]; [exfalso; apply I; now do 2 right; left|]. cbn [orb andb].
    destruct (pystr_eqb_spec type (str "log-uniform")) as [->|N3]; [exfalso; apply I; now right; left|]. reflexivity.
Qed.

(** The unigram distribution: probabilities are in the proportions of the prior
    probabilities, raised to the power of the dampening exponent. *)
Theorem C65_unigram random choice num_classes priors dampening d : can_sample random choice num_classes priors -> 0 < dampening ->
  noise_distribution random choice num_classes priors (str "unigram") dampening = Ok d ->
  exists z, 0 < z /\ forall c p, nth_error priors c = Some p ->
    (0 < p -> d_probs d c = Rpower p dampening / z) /\ (p = 0 -> d_probs d c = 0).
Proof.
  intros C D E. destruct (three_types _ _ _ _ _ _ _ E) as [[_ ->]|[H _]]; [|exfalso; apply H; split; [reflexivity|lra]].
  destruct (unigram_probs _ _ _ _ dampening C) as [P F]. cbn zeta. cbn [multinomial_distribution d_probs]. set (dampened := map _ priors) in *.
  exists (rsum dampened). split; [exact P|]. intros c p Ec. assert (Q : nth c (map (fun p => p / rsum dampened) dampened) 0 = power p dampening / rsum dampened).
  { apply nth_error_nth. unfold dampened at 2. rewrite !nth_error_map, Ec. reflexivity. }
  rewrite Q. unfold power. split.
  - intro H. destruct (Req_EM_T p 0); [lra|reflexivity].
  - intros ->. destruct (Req_EM_T 0 0) as [_|N]; [|now exfalso; apply N]. destruct (Req_EM_T dampening 0); [lra|]. unfold Rdiv. lra.
Qed.

(** What is drawn are classes, as many as was requested. From the unigram distribution
    they are distinct, and there have to be as many classes. *)
Theorem C65_draws random choice num_classes priors type dampening d : can_sample random choice num_classes priors ->
  noise_distribution random choice num_classes priors type dampening = Ok d ->
  forall rows columns,
  (~ by_unigrams type dampening \/ (columns <= num_classes)%nat ->
   exists drawn, d_sample d rows columns = Ok drawn /\ good_draw num_classes rows columns drawn /\ (by_unigrams type dampening -> Forall (@NoDup nat) drawn)) /\
  (by_unigrams type dampening -> (num_classes < columns)%nat -> d_sample d rows columns = Err ValueError).
Proof.
  intros C E rows columns. assert (M : (0 < num_classes)%nat). { destruct C as [_ _ L _ X]. destruct priors; [inversion X|cbn in L; lia]. }
  assert (G : forall e, draws_by_probability num_classes e -> exists drawn, d_sample (e random) rows columns = Ok drawn /\ good_draw num_classes rows columns drawn).
  { intros e (f & _ & _ & _ & FS). destruct (FS random rows columns (cs_random _ _ _ _ C)) as (drawn & ED & RD & HD). exists drawn. split; [exact ED|]. split; [exact RD|].
    apply Forall_forall. intros r I. apply Forall_forall. intros c J. apply In_nth_error in I as [i Ei]. apply In_nth_error in J as [j Ej].
    assert (Q : at2 drawn i j = Some c) by (unfold at2; now rewrite Ei). destruct (at2_range _ _ _ _ _ _ _ RD Q) as [Hi Hj]. now apply (HD i j c Hi Hj). }
  destruct (three_types _ _ _ _ _ _ _ E) as [[U ->]|[U [[-> _]|[-> _]]]].
  - cbn zeta. cbn [multinomial_distribution d_sample]. set (probs := map (fun p => p / rsum _) _). assert (LP : List.length probs = num_classes) by (unfold probs; rewrite !map_length; apply C).
    destruct (cs_choice _ _ _ _ C rows columns probs) as [C1 C2]. rewrite LP in C1, C2. split.
    + intros [H|H]; [contradiction|]. destruct (C1 H) as (drawn & ED & [RD FD] & ND). rewrite ED. cbn [bind]. exists drawn. split; [|now split; [split|]].
      f_equal. rewrite LP. clear -FD. induction FD as [|r l Fr _ IH]; cbn [map]; [reflexivity|]. rewrite IH. f_equal. induction Fr as [|c r Hc _ IHr]; cbn [map]; [reflexivity|].
      rewrite IHr. f_equal. now apply Nat.mod_small.
    + intros _ H. now rewrite (C2 H).
  - split; [|intro; contradiction]. intros _. destruct (G _ (uniform_draws num_classes M)) as (drawn & ED & GD). exists drawn. split; [exact ED|]. split; [exact GD|]. intro; contradiction.
  - split; [|intro; contradiction]. intros _. destruct (G _ (log_uniform_draws num_classes M)) as (drawn & ED & GD). exists drawn. split; [exact ED|]. split; [exact GD|]. intro; contradiction.
Qed.

Lemma nodup_left X (l m : list X) : NoDup (l ++ m) -> NoDup l.
Proof. induction l as [|x l IH]; cbn [app]; [constructor|]. intro H. inversion H as [|? ? H1 H2]; subst. constructor; [|auto]. intro I. apply H1, in_or_app. now left. Qed.
Lemma nodup_right X (l m : list X) : NoDup (l ++ m) -> NoDup m.
Proof. induction l as [|x l IH]; cbn [app]; [auto|]. intro H. inversion H; auto. Qed.
(** The classes at each position are distinct, when they are drawn from the unigram
    distribution. *)
Theorem C65_distinct sh T N k drawn num_classes : good_draw num_classes (rows_drawn sh T N) (columns_drawn sh T k) drawn -> Forall (@NoDup nat) drawn ->
  forall t s, NoDup (noise_at sh N k drawn t s).
Proof.
  intros _ F t s. destruct sh; cbn [noise_at]; [apply nth_Forall; [exact F|constructor]| |apply nth_Forall; [exact F|constructor]].
  assert (ND : NoDup (nth 0 drawn [])) by (apply nth_Forall; [exact F|constructor]). revert ND. generalize (nth 0 drawn []) as l. intros l ND.
  assert (N1 : NoDup (skipn (t * k) l)).
  { rewrite <- (firstn_skipn (t * k) l) in ND. now apply nodup_right in ND. }
  rewrite <- (firstn_skipn k (skipn (t * k) l)) in N1. now apply nodup_left in N1.
Qed.

(** From the other distributions they may not be distinct, although the documentation of
    the methods says they are. *)
Theorem C65_repeats_refuted num_classes k rows : (0 < num_classes)%nat -> (1 < k)%nat -> (0 < rows)%nat ->
  exists random, (forall i j, 0 <= random i j < 1) /\
  exists drawn drawn', d_sample (uniform_distribution random num_classes) rows k = Ok drawn /\
    d_sample (log_uniform_distribution random num_classes) rows k = Ok drawn' /\ ~ Exists (@NoDup nat) drawn /\ ~ Exists (@NoDup nat) drawn'.
Proof.
  intros M K W. exists (fun _ _ => 0). split; [intros; lra|]. eexists _, _. split; [reflexivity|]. split; [reflexivity|].
  assert (G : forall h (f : R -> nat), ~ Exists (@NoDup nat) (map (map f) (uniform (fun _ _ => 0) rows k h))).
  { intros h f X. apply Exists_exists in X as (r & I & ND). apply in_map_iff in I as (r' & <- & I). unfold uniform in I. apply in_map_iff in I as (i & <- & _). rewrite map_map in ND.
    destruct k as [|[|k]]; try lia. cbn [seq map] in ND. inversion ND as [|? ? H _]. apply H. now left. }
  split; apply G.
Qed.

(** ** Objectives *)
Section Objectives.
Variable parse_int : pystr -> result Z.
Variable dropout_scale : option ArchModel.value -> result R.
Variable initial : pystr -> pystr -> nat -> nat -> nat -> R.
Variables (default : option pystr) (exclude_unk : bool) (a : architecture) (v : vocabulary) (n : network reals).
Hypothesis B : @build reals parse_int dropout_scale initial default exclude_unk a v = Ok n.
Hypothesis CN : Forall (connected a) (a_layers a).
Hypothesis PW : Forall (placed_well default) (a_layers a).
Variables (T N : nat) (b : batch) (targets : list (list nat)).
Hypothesis HT : T <> 0%nat.
Hypothesis VB : valid_batch v T N b.
Hypothesis RT : rectangle T N targets.
Hypothesis FT : Forall (Forall (fun c => (c < num_classes v)%nat)) targets.
Variables (random : nat -> nat -> R) (choice : nat -> nat -> list R -> result (list (list nat))) (priors : list R) (type : pystr) (dampening : R) (d : distribution).
Hypothesis CS : can_sample random choice (num_classes v) priors.
Hypothesis ND : noise_distribution random choice (num_classes v) priors type dampening = Ok d.
Variables (k : nat) (sh : sharing).
Notation p := (fun t s c => Rtrigo_def.exp (@class_score reals initial n b T t s c)).
Notation q := (d_probs d).
Notation sum := NoiseProps.sum.

Lemma drawn_ok : ~ by_unigrams type dampening \/ (columns_drawn sh T k <= num_classes v)%nat ->
  exists drawn, d_sample d (rows_drawn sh T N) (columns_drawn sh T k) = Ok drawn /\ good_draw (num_classes v) (rows_drawn sh T N) (columns_drawn sh T k) drawn.
Proof.
  intro H. destruct (proj1 (C65_draws _ _ _ _ _ _ _ CS ND (rows_drawn sh T N) (columns_drawn sh T k)) H) as (drawn & E & G & _). eauto.
Qed.

(** Noise-contrastive estimation. [p] are the unnormalized probabilities that the network
    gives, and [q] are the probabilities of the noise distribution. *)
Theorem C65_nce epsilon : 0 < epsilon -> n_kind n = Softmax -> (List.length (n_devices n) <= 1)%nat ->
  ~ by_unigrams type dampening \/ (columns_drawn sh T k <= num_classes v)%nat ->
  exists drawn l, d_sample d (rows_drawn sh T N) (columns_drawn sh T k) = Ok drawn /\ nce_logprobs epsilon d k sh n b targets = Ok l /\ rectangle T N l /\
  forall t s c, at2 targets t s = Some c ->
    at2 l t s = Some (ln (p t s c / (p t s c + (q c + epsilon))) +
                      sum (map (fun w => ln ((q w + epsilon) / (p t s w + (q w + epsilon)))) (noise_at sh N k drawn t s))).
Proof.
  intros EP KS L1 H. destruct (drawn_ok H) as (drawn & ED & GD). exists drawn.
  destruct (objective_is _ _ _ _ _ _ _ _ B CN PW KS L1 _ _ _ HT VB _ (nce_logprob epsilon) d k sh targets drawn RT FT ED GD) as (l & EL & RL & PL).
  exists l. split; [exact ED|]. split; [exact EL|]. split; [exact RL|]. intros t s c Ec. rewrite (PL t s c Ec). f_equal.
  assert (Q : forall w, (w < num_classes v)%nat -> 0 <= q w).
  { destruct (C65_distribution random choice (num_classes v) priors type dampening CS) as [G1 G2].
    destruct (in_dec pystr_eq_dec type [str "uniform"; str "log-uniform"; str "unigram"]) as [I|I]; [|rewrite (G2 I) in ND; discriminate ND].
    destruct (G1 I) as (d' & E' & P' & _). assert (d' = d) by congruence. subst d'. exact P'. }
  destruct (at2_range _ _ _ _ _ _ _ RT Ec) as [Ht Hs].
  destruct (noise_are _ _ _ _ _ _ _ _ B CN PW KS _ _ _ HT VB L1 _ k sh drawn ED GD) as (ids0 & y0 & _ & _ & _ & PN). destruct (PN t s Ht Hs) as (_ & _ & _ & FN).
  rewrite C57_nce; [|exact EP|apply Q; exact (at2_Forall _ _ _ _ _ _ FT Ec)|].
  - unfold from_model, from_noise. f_equal. rewrite map_map. reflexivity.
  - apply Forall_forall. intros x I. apply in_map_iff in I as (w & <- & I). cbn [snd]. rewrite Forall_forall in FN. auto.
Qed.

(** BlackOut. The weighted probabilities p / q of the target and the noise classes are
    divided by their sum. *)
Theorem C65_blackout epsilon : 0 < epsilon -> n_kind n = Softmax -> (List.length (n_devices n) <= 1)%nat ->
  ~ by_unigrams type dampening \/ (columns_drawn sh T k <= num_classes v)%nat ->
  exists drawn l, d_sample d (rows_drawn sh T N) (columns_drawn sh T k) = Ok drawn /\ blackout_logprobs epsilon d k sh n b targets = Ok l /\ rectangle T N l /\
  forall t s c, at2 targets t s = Some c ->
    let noise := noise_at sh N k drawn t s in
    let z := p t s c / q c + sum (map (fun w => p t s w / q w) noise) in
    (Forall (fun w => 0 < q w) (c :: noise) ->
     at2 l t s = Some (Fin (ln (p t s c / q c / z + epsilon) + sum (map (fun w => ln (1 - p t s w / q w / z + epsilon)) noise)))) /\
    (Exists (fun w => q w = 0) (c :: noise) -> at2 l t s = Some NaN).
Proof.
  intros EP KS L1 H. destruct (drawn_ok H) as (drawn & ED & GD). exists drawn.
  destruct (objective_is _ _ _ _ _ _ _ _ B CN PW KS L1 _ _ _ HT VB _ (blackout_logprob epsilon) d k sh targets drawn RT FT ED GD) as (l & EL & RL & PL).
  exists l. split; [exact ED|]. split; [exact EL|]. split; [exact RL|]. intros t s c Ec noise z. rewrite (PL t s c Ec). fold noise. split.
  - intros FQ. f_equal.
    set (target := (@class_score reals initial n b T t s c, q c)). set (samples := map _ noise).
    assert (FS : Forall (fun s => 0 < snd s) (target :: samples)).
    { inversion FQ; subst. constructor; [assumption|]. unfold samples. apply Forall_forall. intros x I. apply in_map_iff in I as (w & <- & I). cbn [snd].
      match goal with X : Forall _ noise |- _ => rewrite Forall_forall in X; auto end. }
    destruct (C57_blackout epsilon target samples EP FS) as (t0 & l0 & (S1 & _ & zz & PZ & ES) & _ & _ & EB). rewrite EB. cbn [map] in ES. injection ES as Et El. cbn [fst snd target] in Et.
    assert (EZ : zz = z).
    { assert (X : sum (t0 :: l0) = z / zz).
      { rewrite Et, El. unfold NoiseProps.sum. cbn [fold_right]. fold (NoiseProps.sum (map (fun s0 => Rtrigo_def.exp (fst s0) / snd s0 / zz) samples)).
        rewrite <- (map_map (fun s0 => Rtrigo_def.exp (fst s0) / snd s0) (fun x => x / zz)), sum_div. unfold samples. rewrite map_map. cbn [fst snd]. unfold z, Rdiv. rewrite Rmult_plus_distr_r. reflexivity. }
      rewrite S1 in X. apply (f_equal (fun x => x * zz)) in X. field_simplify in X; lra. }
    subst zz. f_equal. f_equal; [now rewrite Et|]. rewrite El. unfold samples. rewrite !map_map. reflexivity.
  - intros EX. f_equal. apply C57_blackout_zero_refuted. inversion EX; subst; [now apply Exists_cons_hd|]. apply Exists_cons_tl. apply Exists_exists.
    match goal with X : Exists _ noise |- _ => apply Exists_exists in X as (w & I & Z) end. exists (@class_score reals initial n b T t s w, q w). split; [|exact Z].
    apply in_map_iff. exists w. auto.
Qed.

(** When noise is shared between sequences, the noise of all the time steps is drawn at
    once, so the number of classes has to be as large as the product of the number of
    time steps and the number of noise samples. (The expectation that it is enough that
    the number of noise samples is at most the number of classes is false.) *)
Theorem C65_sequence_sharing_refuted : sh = SequencesShared -> by_unigrams type dampening -> n_kind n = Softmax -> (List.length (n_devices n) <= 1)%nat ->
  (num_classes v < T * k)%nat -> noise_sample (d_sample d) k sh n b = Err ValueError /\
  forall epsilon, nce_logprobs epsilon d k sh n b targets = Err ValueError /\ blackout_logprobs epsilon d k sh n b targets = Err ValueError.
Proof.
  intros -> U KS L1 H. assert (E : noise_sample (d_sample d) k SequencesShared n b = Err ValueError).
  { apply (noise_fails _ _ _ _ _ _ _ _ B CN PW KS _ _ _ HT VB L1). exact (proj2 (C65_draws _ _ _ _ _ _ _ CS ND _ _) U H). }
  split; [exact E|]. intro epsilon. unfold nce_logprobs, blackout_logprobs, sampling_logprobs.
  destruct (scores_are _ _ _ _ _ _ _ _ B CN PW KS _ _ _ HT VB L1 _ RT FT) as (u & EU & _). rewrite EU. cbn [bind]. rewrite E. auto.
Qed.
(** Hierarchical softmax and several devices *)
Theorem C65_unsupported epsilon :
  (n_kind n <> Softmax -> nce_logprobs epsilon d k sh n b targets = Err RuntimeError /\ blackout_logprobs epsilon d k sh n b targets = Err RuntimeError) /\
  (n_kind n = Softmax -> (1 < List.length (n_devices n))%nat -> nce_logprobs epsilon d k sh n b targets = Err TypeError /\ blackout_logprobs epsilon d k sh n b targets = Err TypeError).
Proof.
  unfold nce_logprobs, blackout_logprobs, sampling_logprobs.
  destruct (C65_unsupported_scores _ _ _ _ _ _ _ _ B CN PW _ _ _ targets HT VB) as [U1 U2]. split.
  - intro H. now rewrite (U1 H).
  - intros KS H. now rewrite (U2 KS H).
Qed.
End Objectives.
Print Assumptions C65_scores.
Print Assumptions C65_noise.
Print Assumptions C65_normalized.
Print Assumptions C65_uniform.
Print Assumptions C65_log_uniform.
Print Assumptions C65_distribution.
Print Assumptions C65_unigram.
Print Assumptions C65_draws.
Print Assumptions C65_distinct.
Print Assumptions C65_repeats_refuted.
Print Assumptions C65_nce.
Print Assumptions C65_blackout.
Print Assumptions C65_sequence_sharing_refuted.
Print Assumptions C65_unsupported.
Print Assumptions C65_unsupported_noise.
Print Assumptions C65_unsupported_scores.
