(** Proofs about the use of networks. *)
From Coq Require Import ZArith QArith Qcanon Bool Eqdep_dec.
From Verif Require Import Base BaseLib ListLib Strings NumStr VocabModel VocabSpec VocabStats ArchModel ArchSpec ArchProofs
  NetModel NetSpec NetColumns NetProps DeviceModel DeviceSpec DeviceNet OutputModel OutputSpec OutputProofs
  BuildModel BuildSpec BuildShape BuildLayers BuildNet BuildProofs BuildParams BuildProps
  StateModel StateSpec StateProofs StateProps LinkModel LinkSpec.
From Verif Require IterSpec ScoreSpec DecoderSpec AgreeSpec.
Local Open Scope nat_scope.
Local Open Scope list_scope.

Section Built.
Context {A : arith}.
Variable parse_int : pystr -> result Z.
Variable dropout_scale : option ArchModel.value -> result (num A).
Variable initial : pystr -> pystr -> nat -> nat -> nat -> num A.
Variables (default : option pystr) (exclude_unk : bool) (a : architecture) (v : vocabulary) (n : network A).
Hypothesis B : build parse_int dropout_scale initial default exclude_unk a v = Ok n.
Hypothesis CN : Forall (connected a) (a_layers a).
Hypothesis PW : Forall (placed_well default) (a_layers a).

Lemma built_proper : Forall proper_layer (n_layers n).
Proof.
  destruct (C61_parameters _ _ _ _ _ _ _ _ B) as [P _].
  destruct (build_inv _ _ _ _ _ _ _ _ B) as (ds & out & C & D & _). destruct (created_network _ _ _ C) as (ls & CL & EN & _).
  assert (EL : n_layers n = ls) by now rewrite EN.
  apply Forall_forall. intros l Hl. apply In_nth_error in Hl as [k Hk]. destruct (P k l Hk) as [_ M]. unfold proper_layer, weights_match in *.
  destruct (l_kind l) as [| | | | | | | | |f| | | | | |] eqn:K; try exact I. split.
  - rewrite EL in Hk. clear - D CL Hk K. revert D CL Hk. generalize (@nil (description A)) as earlier. generalize (@nil nat) as sizes. revert ls k.
    induction ds as [|d ds IH]; intros ls k sizes earlier; cbn [descs_ok create_layers].
    + intros _ H. injection H as <-. destruct k; discriminate.
    + intros [D0 D]. destruct (create_layer sizes d) as [l0|] eqn:CL; cbn [bind]; [|discriminate].
      destruct (create_layers _ ds) as [r|] eqn:CR; cbn [bind]; [|discriminate]. intro H. injection H as <-.
      destruct k as [|k]; cbn [nth_error]; intro Hk; [|eapply IH; eauto]. injection Hk as ->.
      destruct (created_layer _ _ _ CL) as (? & _ & E & _). rewrite E in K. cbn [l_kind] in K. destruct D0 as [_ D0 _ _]. now apply D0.
  - intros d w Hd Hw. exact (proj1 (M d w Hd Hw)).
Qed.

Lemma built_forward : Forall unidirectional_type (a_layers a) -> Forall unidirectional_layer (n_layers n).
Proof.
  intro U. destruct (build_inv _ _ _ _ _ _ _ _ B) as (ds & out & C & _ & _ & _ & _ & _ & _ & EU). apply EU in U.
  destruct (created_network _ _ _ C) as (ls & CL & -> & _). cbn [n_layers]. clear - CL U. revert ls CL. generalize (@nil nat).
  induction ds as [|d ds IH]; intros sizes ls; cbn [create_layers]; [intro H; injection H as <-; constructor|].
  destruct (create_layer sizes d) as [l|] eqn:CL; cbn [bind]; [|discriminate]. destruct (create_layers _ ds) as [r|] eqn:CR; cbn [bind]; [|discriminate].
  intro H. injection H as <-. inversion_clear U as [|? ? S1 S2]. constructor; [|eapply IH; eauto].
  destruct (created_layer _ _ _ CL) as (? & _ & -> & _). exact S1.
Qed.
Lemma built_stepwise : Forall stepwise_type (a_layers a) -> Forall stepwise_layer (n_layers n).
Proof.
  intro U. destruct (build_inv _ _ _ _ _ _ _ _ B) as (ds & out & C & _ & _ & _ & _ & EU & _). apply EU in U.
  destruct (created_network _ _ _ C) as (ls & CL & -> & _). cbn [n_layers]. clear - CL U. revert ls CL. generalize (@nil nat).
  induction ds as [|d ds IH]; intros sizes ls; cbn [create_layers]; [intro H; injection H as <-; constructor|].
  destruct (create_layer sizes d) as [l|] eqn:CL; cbn [bind]; [|discriminate]. destruct (create_layers _ ds) as [r|] eqn:CR; cbn [bind]; [|discriminate].
  intro H. injection H as <-. inversion_clear U as [|? ? S1 S2]. constructor; [|eapply IH; eauto].
  destruct (created_layer _ _ _ CL) as (? & _ & -> & _). exact S1.
Qed.

(** The dimensions of the output layer *)
Lemma built_output : exists ds out, create_network ds out = Ok n /\ output_works_on_devices out /\ o_size out = num_classes v /\
  (softmax_dimensions out \/ exists l1 l2, level_sizes (o_size out) = Ok (l1, l2) /\ hsoftmax_dimensions out l1 l2).
Proof.
  destruct (build_inv _ _ _ _ _ _ _ _ B) as (ds & out & C & D & [OS (sizes & EI & OV)] & _ & EP & _). destruct (proj1 EP PW) as [_ OW].
  exists ds, out. split; [exact C|]. split; [exact OW|]. split; [exact OS|].
  destruct (o_kind out) as [|l1 l2] eqn:K.
  - left. unfold softmax_dimensions. rewrite K, OV. now rewrite new_matrix_length, new_bias_length.
  - right. destruct OV as [LS OV]. exists l1, l2. split; [exact LS|]. split; [exact K|]. rewrite OV.
    split; [apply new_matrix_length|]. split; [apply new_bias_length|]. split; [apply new_matrices_rect|]. split; [apply new_biases_rect|].
    split; [apply new_matrices_rect|apply new_biases_rect].
Qed.

Lemma built_targets T N b targets : T <> 0 -> valid_batch v T N b -> rectangle T N targets ->
  Forall (Forall (fun c => c < num_classes v)) targets ->
  exists p st q, eval_network n Minibatch b = Ok (p, st) /\ tensor_shape T N (num_classes v) p /\
    target_probs n b targets = Ok q /\ rectangle T N q /\
    forall t s d target, cell p t s = Some d -> cell targets t s = Some target ->
    exists x, cell q t s = Some x /\ nth_error d target = Some x.
Proof.
  intros HT VB RT BT. destruct (C61_evaluates _ _ _ _ _ _ _ _ B CN PW T N b HT VB) as [(p & E & S) TP].
  destruct (TP targets RT BT) as (q & Q & R). unfold output_probs in E.
  destruct (eval_network n Minibatch b) as [[p' st]|] eqn:EN; cbn [bind] in E; [|discriminate]. injection E as ->.
  destruct built_output as (ds & out & C & OW & OS & OD). rewrite <- OS in BT.
  destruct (eval_targets_output ds out n Minibatch b targets p st C OW OD EN BT) as (q' & Q' & _ & H).
  unfold target_probs in Q. rewrite Q' in Q. cbn [bind] in Q. injection Q as <-.
  exists p, st, q'. split; [reflexivity|]. split; [exact S|]. split; [unfold target_probs; now rewrite Q'|]. auto.
Qed.

Lemma built_step words classes targets N state : Forall stepwise_type (a_layers a) ->
  valid_step v N (words, classes) -> length targets = N -> Forall (fun c => c < num_classes v) targets -> state_shape n N state ->
  exists p st q, step_network n words classes state = Ok (p, st) /\ length p = N /\ state_shape n N st /\
    step_targets n words classes targets state = Ok (q, st) /\ length q = N /\
    forall s d target, nth_error p s = Some d -> nth_error targets s = Some target ->
    exists x, nth_error q s = Some x /\ nth_error d target = Some x.
Proof.
  intros SW VS LT BT SS. destruct (C61_steps _ _ _ _ _ _ _ _ B CN PW SW N) as [_ R].
  destruct (R [(words, classes)] state (Forall_cons _ VS (Forall_nil _)) SS) as (ps & st & E & [_ S] & SS'). cbn [run_steps] in E.
  destruct (step_network n words classes state) as [[p st']|] eqn:ES; cbn [bind] in E; [|discriminate]. injection E as <- <-.
  inversion_clear S as [|? ? [Sp _] _]. destruct built_output as (ds & out & C & OW & OS & OD). rewrite <- OS in BT.
  destruct (step_targets_output ds out n words classes state p st' targets C OW OD ES BT) as (q & Q & LQ & H).
  exists p, st', q. split; [reflexivity|]. split; [exact Sp|]. split; [exact SS'|]. split; [exact Q|]. split; [lia|exact H].
Qed.

(** A sequence of a mini-batch, and the same sequence alone *)
Lemma alone_valid ws : Forall (fun x => fst x < num_shortlist_words v /\ snd x < num_classes v) ws -> valid_batch v (length ws) 1 (alone ws).
Proof.
  intro F. unfold alone, unpadded. constructor; cbn [b_words b_classes b_mask].
  - constructor; cbn [b_words b_classes b_mask]; (split; [now rewrite ?map_length|]); rewrite ?map_map; apply Forall_map, Forall_forall; reflexivity.
  - apply Forall_map. eapply Forall_impl; [|exact F]. intros x [H _]. constructor; [exact H|constructor].
  - apply Forall_map. eapply Forall_impl; [|exact F]. intros x [_ H]. constructor; [exact H|constructor].
Qed.
Lemma built_sequence T N b targets s ws t target : Forall unidirectional_type (a_layers a) ->
  T <> 0 -> valid_batch v T N b -> b_dropout b = None -> rectangle T N targets -> Forall (Forall (fun c => c < num_classes v)) targets ->
  s < N -> starts_with b s ws -> t < length ws -> Forall (fun x => fst x < num_shortlist_words v /\ snd x < num_classes v) ws ->
  cell targets t s = Some target ->
  exists q q1 x, target_probs n b targets = Ok q /\ target_probs n (alone ws) (map (fun _ => [target]) ws) = Ok q1 /\
    cell q t s = Some x /\ cell q1 t 0 = Some x.
Proof.
  intros U HT VB DB RT BT Hs SW Ht FW Ct. destruct (built_targets T N b targets HT VB RT BT) as (p & st & q & E & _ & Q & _ & H).
  assert (Bt : target < num_classes v) by exact (cell_Forall _ (fun c => c < num_classes v) _ _ _ _ BT Ct).
  destruct (built_targets (length ws) 1 (alone ws) (map (fun _ => [target]) ws)) as (p1 & st1 & q1 & E1 & _ & Q1 & _ & H1).
  - lia.
  - now apply alone_valid.
  - split; [now rewrite map_length|]. apply Forall_map, Forall_forall. reflexivity.
  - apply Forall_map, Forall_forall. intros _ _. constructor; [exact Bt|constructor].
  - destruct (C44_sequence_alone A n b T N s ws p st built_proper (built_forward U) DB (vb_dimensions _ _ _ _ VB) Hs SW E) as (p2 & st2 & E2 & G).
    rewrite E1 in E2. injection E2 as <- <-. destruct (G t Ht) as (d & C1 & C2). destruct (H t s d target C1 Ct) as (x & X1 & X2).
    destruct (H1 t 0 d target C2) as (y & Y1 & Y2).
    { unfold cell. rewrite nth_error_map. destruct (nth_error ws t) eqn:W; [reflexivity|apply nth_error_None in W; lia]. }
    exists q, q1, x. assert (x = y) by congruence. subst y. auto.
Qed.
End Built.

Lemma cells_Forall X (P : X -> Prop) (m : list (list X)) : (forall i j x, cell m i j = Some x -> P x) -> Forall (Forall P) m.
Proof.
  intro H. apply Forall_forall. intros row Hr. apply Forall_forall. intros x Hx. apply In_nth_error in Hr as [i Ei]. apply In_nth_error in Hx as [j Ej].
  apply (H i j). unfold cell. now rewrite Ei.
Qed.
Lemma class_range v w c : reachable_vocab v -> nth_error (v_w2c v) w = Some c -> w < num_shortlist_words v /\ c < num_classes v.
Proof.
  intros Hv E. assert (Hw : w < num_shortlist_words v) by (apply nth_error_Some; congruence). split; [exact Hw|].
  destruct (vocab_partition v w Hv Hw) as (k & Ek & Hk & _). congruence.
Qed.

Lemma Forall2_nth_intro X Y (R : X -> Y -> Prop) l m : length l = length m ->
  (forall i x y, nth_error l i = Some x -> nth_error m i = Some y -> R x y) -> Forall2 R l m.
Proof.
  revert m. induction l as [|x l IH]; intros [|y m] L H; try discriminate; constructor; [exact (H 0 x y eq_refl eq_refl)|].
  apply IH; [now injection L|]. intros i. exact (H (S i)).
Qed.
Lemma Forall2_nth_both X Y (R : X -> Y -> Prop) l m i x y : Forall2 R l m -> nth_error l i = Some x -> nth_error m i = Some y -> R x y.
Proof. intros F Hx Hy. destruct (F2_nth _ _ _ _ _ _ _ F Hx) as (y' & E & H). congruence. Qed.

Section Rational.
Variables qexp qsigmoid qtanh qrelu qleaky_relu : Qc -> Qc.
Notation A := (rationals qexp qsigmoid qtanh qrelu qleaky_relu).
Variable parse_int : pystr -> result Z.
Variable dropout_scale : option ArchModel.value -> result (num A).
Variable initial : pystr -> pystr -> nat -> nat -> nat -> num A.
Variables (default : option pystr) (exclude_unk : bool) (a : architecture) (v : vocabulary) (n : network A).
Hypothesis B : build parse_int dropout_scale initial default exclude_unk a v = Ok n.
Hypothesis CN : Forall (connected a) (a_layers a).
Hypothesis PW : Forall (placed_well default) (a_layers a).
Hypothesis Hv : reachable_vocab v.

(** ** Text scoring *)
Lemma no_targets b (q : list (list (num A))) : target_probs n b [] = Ok q -> q = [].
Proof.
  unfold target_probs, eval_targets. destruct (eval_layers _ _ _ _ _ _) as [[outs st]|]; cbn [bind]; [|discriminate].
  destruct (mapM _ (n_inputs n)) as [ins|]; cbn [bind]; [|discriminate]. destruct (mapM _ ins) as [fs|]; cbn [bind]; [|discriminate].
  destruct (concat_features fs) as [x|]; cbn [bind]; [|discriminate].
  assert (E : forall X (l : list X), combine l (@nil (list nat)) = []) by (intros X []; reflexivity).
  destruct (n_kind n) as [|l1 l2].
  - destruct (softmax_layer n x) as [p|]; cbn [bind]; [|discriminate]. rewrite E. cbn [mapM bind]. congruence.
  - destruct (1 <? _); cbn [bind]; [discriminate|]. destruct (get_weight _ _ _ _); cbn [bind]; [|discriminate]. destruct (get_bias _ _ _ _); cbn [bind]; [|discriminate].
    destruct (get_level_weight _ _ _ _); cbn [bind]; [|discriminate]. destruct (get_level_bias _ _ _ _); cbn [bind]; [|discriminate].
    rewrite E. cbn [mapM bind]. congruence.
Qed.

Section Batch.
Variables (T N : nat) (words classes mask targets : list (list nat)).
Hypothesis HT : T <> 0.
Hypothesis Mw : rectangle T N words.
Hypothesis Mc : rectangle T N classes.
Hypothesis Mm : rectangle T N mask.
Hypothesis Mt : rectangle T N targets.
Hypothesis Rw : forall i j w, cell words i j = Some w -> exists c, cell classes i j = Some c /\ nth_error (v_w2c v) w = Some c.
Hypothesis Rt : forall i j c, cell targets i j = Some c -> exists w, nth_error (v_w2c v) w = Some c.
Lemma scorer_batch : valid_batch v T N (mkBatch words classes (map (map (Nat.eqb 1)) mask) None) /\ Forall (Forall (fun c => c < num_classes v)) targets.
Proof.
  split.
  - constructor; cbn [b_words b_classes].
    + constructor; cbn [b_words b_classes b_mask]; [exact Mw|exact Mc|]. destruct Mm as [L F]. split; [now rewrite map_length|].
      apply Forall_map. eapply Forall_impl; [|exact F]. intros row Hr. now rewrite map_length.
    + apply cells_Forall. intros i j w Hw. destruct (Rw i j w Hw) as (c & _ & E). exact (proj1 (class_range _ _ _ Hv E)).
    + apply cells_Forall. intros i j c Hc.
      assert (W : exists w, cell words i j = Some w).
      { apply (cell_rectangle _ words T N); [exact Mw| |].
        - unfold cell in Hc. destruct (nth_error classes i) eqn:E; [|discriminate]. destruct Mc as [<- _]. apply nth_error_Some. congruence.
        - unfold cell in Hc. destruct (nth_error classes i) as [row|] eqn:E; [|discriminate]. destruct Mc as [_ F]. rewrite Forall_forall in F.
          rewrite <- (F row (nth_error_In _ _ E)). apply nth_error_Some. congruence. }
      destruct W as [w Hw]. destruct (Rw i j w Hw) as (c' & Hc' & E). assert (c' = c) as -> by congruence.
      exact (proj2 (class_range _ _ _ Hv E)).
  - apply cells_Forall. intros i j c Hc. destruct (Rt i j c Hc) as (w & E). exact (proj2 (class_range _ _ _ Hv E)).
Qed.
Lemma scorer_computes : exists q, scorer_probs _ _ _ _ _ n words classes mask targets = Ok q /\ rectangle T N q.
Proof.
  destruct scorer_batch as [VB BT]. destruct (built_targets _ _ _ _ _ _ _ _ B CN PW T N _ targets HT VB Mt BT) as (p & st & q & _ & _ & Q & RQ & _).
  exists q. split; [exact Q|exact RQ].
Qed.
End Batch.

Lemma scorer_independent : Forall unidirectional_type (a_layers a) ->
  ScoreSpec.batch_independent v (scorer_net _ _ _ _ _ n) (network_alone _ _ _ _ _ n).
Proof.
  intros U T N words classes mask targets Mw Mc Mm Mt Rw Rt.
  destruct (Nat.eq_dec T 0) as [->|HT].
  - destruct targets as [|? ?]; [|destruct Mt; discriminate].
    assert (E : scorer_net _ _ _ _ _ n words classes mask [] = []).
    { unfold scorer_net, scorer_probs. destruct (target_probs _ _ _) as [q|] eqn:Q; [|reflexivity]. exact (no_targets _ _ Q). }
    rewrite E. split; [split; [reflexivity|constructor]|]. intros j inputs t target Hl _ _ Ht. lia.
  - destruct (scorer_batch T N words classes mask targets HT Mw Mc Mm Mt Rw Rt) as [VB BT].
    destruct (scorer_computes T N words classes mask targets HT Mw Mc Mm Mt Rw Rt) as (q & Q & RQ). unfold scorer_probs in Q.
    assert (ES : scorer_net _ _ _ _ _ n words classes mask targets = q) by (unfold scorer_net, scorer_probs; now rewrite Q).
    rewrite ES. split; [exact RQ|]. intros j inputs t target Hl Hm Hi Ht Ct.
    assert (Hj : j < N).
    { unfold IterSpec.cell in Ct. destruct (nth_error targets t) as [row|] eqn:E; [|discriminate]. destruct Mt as [_ F]. rewrite Forall_forall in F.
      rewrite <- (F row (nth_error_In _ _ E)). apply nth_error_Some. congruence. }
    set (b := mkBatch words classes (map (map (Nat.eqb 1)) mask) None) in *.
    assert (SW : starts_with b j inputs).
    { intros i w c Hx. destruct (Hi i w c Hx) as [H1 H2]. split; [exact H1|]. split; [exact H2|]. cbn [b_mask b].
      assert (Hlt : i < length inputs) by (apply nth_error_Some; congruence). specialize (Hm i ltac:(lia)). rewrite (proj2 (Nat.ltb_lt _ _) Hlt) in Hm.
      unfold cell. rewrite nth_error_map. unfold IterSpec.cell in Hm. destruct (nth_error mask i) as [row|]; [|discriminate]. cbn [option_map].
      now rewrite nth_error_map, Hm. }
    assert (FW : Forall (fun x => fst x < num_shortlist_words v /\ snd x < num_classes v) inputs).
    { apply Forall_forall. intros [w c] Hx. apply In_nth_error in Hx as [i Ei]. destruct (Hi i w c Ei) as [H1 H2]. destruct (Rw i j w H1) as (c' & H3 & E).
      assert (c' = c) as -> by congruence. cbn [fst snd]. eapply class_range; eauto. }
    destruct (built_sequence _ _ _ _ _ _ _ _ B CN PW T N b targets j inputs t target U HT VB eq_refl Mt BT Hj SW Ht FW Ct)
      as (q' & q1 & x & Q' & Q1 & C1 & C2).
    rewrite Q in Q'. injection Q' as <-. unfold network_alone. rewrite Q1, C2. exact C1.
Qed.

(** ** Decoding *)
Notation sizes := (recurrent_state_size _ _ _ _ _ n).
Lemma well_shaped_iff st : well_shaped _ _ _ _ _ n st = true <-> state_of sizes 1 st.
Proof.
  unfold well_shaped. destruct (list_eq_dec Nat.eq_dec (r_sizes st) sizes) as [E|E]; [|split; [discriminate|intros (H & _); contradiction]].
  unfold state_of. rewrite F2_combine, !andb_true_iff, !Nat.eqb_eq, forallb_forall, Forall_forall. split.
  - intros [[H1 H2] H3]. split; [exact E|]. split; [exact H1|]. split; [exact H2|]. intros [x z] Hx. specialize (H3 _ Hx). cbv beta iota in H3.
    apply andb_true_iff in H3 as [H3 H4]. rewrite !andb_true_iff, !Nat.eqb_eq in H3. destruct H3 as [[S0 S1] S2].
    split; [apply shape_eq; auto|]. unfold consistent. destruct (a_data x) as [|[|row [|]] [|]]; try discriminate. apply Nat.eqb_eq in H4.
    rewrite S0, S1, S2. split; [reflexivity|]. constructor; [|constructor]. split; [reflexivity|]. constructor; [exact H4|constructor].
  - intros (_ & H1 & H2 & H3). split; [split; assumption|]. intros [x z] Hx. specialize (H3 _ Hx). cbv beta iota in H3. destruct H3 as [S K].
    apply shape_eq in S as (S0 & S1 & S2). rewrite S0, S1, S2, !Nat.eqb_refl. cbn [andb]. destruct K as [L F]. rewrite S0 in L. rewrite S1, S2 in F.
    destruct (a_data x) as [|m [|]]; try discriminate. inversion_clear F as [|? ? [F1 F2] _]. destruct m as [|row [|]]; try discriminate.
    inversion_clear F2. now apply Nat.eqb_eq.
Qed.

(** What one hypothesis becomes *)
Definition one_result (x : nat * nat * nat * state Qc) (r : Qc * state Qc) : Prop :=
  let '(w, c, target, st) := x in
  exists d, step_network n [w] [c] (state_vectors st) = Ok ([d], state_vectors (snd r)) /\
  nth_error d target = Some (fst r) /\ state_of sizes 1 (snd r).
Lemma one_result_unique x r r' : one_result x r -> one_result x r' -> r = r'.
Proof.
  destruct x as [[[w c] target] st], r as [q s1], r' as [q' s2]. cbn [one_result fst snd]. intros (d & E & Hq & S) (d' & E' & Hq' & S').
  rewrite E in E'. assert (d = d') as -> by congruence. assert (V : state_vectors s1 = state_vectors s2) by congruence.
  f_equal; [congruence|]. eapply state_ext; eauto.
Qed.
Definition allowed (x : nat * nat * nat * state Qc) : Prop :=
  let '(w, c, target, st) := x in
  w < num_shortlist_words v /\ c < num_classes v /\ target < num_classes v /\ state_of sizes 1 st.

Lemma array_state N st : N <> 0 -> state_shape n N st -> state_of sizes N (mkState sizes N (map (array_of) st)) /\ map vectors (map array_of st) = st.
Proof.
  intros HN SS. unfold state_shape in SS. fold sizes in SS. split.
  - split; [reflexivity|]. split; [reflexivity|]. cbn [r_variables]. induction SS as [|z m zs ms [L F] _ IH]; cbn [map]; constructor; [|exact IH].
    unfold array_of, consistent, shape0, shape1, shape2. cbn [a_shape a_data fst snd].
    destruct m as [|row m]; [cbn in L; lia|]. assert (E : length row = z) by now inversion_clear F.
    change (num A) with Qc in *. rewrite E, L. split; [reflexivity|]. split; [reflexivity|]. constructor; [|constructor]. split; [exact L|exact F].
  - rewrite map_map. rewrite <- (map_id st) at 2. apply map_ext. intro m. unfold vectors, array_of. cbn [a_data concat]. apply app_nil_r.
Qed.
Lemma shape_of_state N st : state_of sizes N st -> state_shape n N (state_vectors st).
Proof.
  intros (_ & _ & F). unfold state_shape. change (flat_map state_sizes (n_layers n)) with sizes. unfold state_vectors.
  induction F as [|x z xs zs O _ IH]; cbn [map]; constructor; [|exact IH]. destruct (one_step_data _ _ _ O) as (m & _ & -> & L & F). split; assumption.
Qed.
Lemma nth_sel X i (m : list (list X)) : i < length m -> [nth i m []] = sel i m.
Proof. intro H. unfold sel. destruct (nth_error m i) as [x|] eqn:E; [|apply nth_error_None in E; lia]. now rewrite (nth_error_nth m i [] E). Qed.

Lemma decoder_step_ok l : Forall stepwise_type (a_layers a) -> l <> [] -> Forall allowed l ->
  exists r, decoder_step _ _ _ _ _ n l = Ok r /\ Forall2 one_result l r.
Proof.
  intros SW NE F. unfold decoder_step. set (states := map (fun '(_, _, _, st) => st) l).
  assert (FS : Forall (state_of sizes 1) states).
  { apply Forall_map. eapply Forall_impl; [|exact F]. intros [[[w c] target] st] (_ & _ & _ & H). exact H. }
  destruct (combine_ok 0%Qc sizes states) as (whole & E & W & _).
  { intro H. apply NE. now apply map_eq_nil in H. }
  { eapply Forall_impl; [|exact FS]. intros s Hs. now exists 1. }
  assert (N : fold_right (fun st n => r_sequences st + n) 0 states = length l).
  { replace (length l) with (length states) by apply map_length. clear - FS. induction FS as [|s l0 (_ & H & _) _ IH]; cbn [fold_right length]; [reflexivity|]. rewrite H, IH. reflexivity. }
  rewrite N in W. rewrite E. cbn [bind]. change (map (fun a0 => concat (a_data a0)) (get_all whole)) with (state_vectors whole).
  set (words := map (fun '(w, _, _, _) => w) l). set (classes := map (fun '(_, c, _, _) => c) l). set (targets := map (fun '(_, _, target, _) => target) l).
  assert (HN : length l <> 0) by (destruct l; [congruence|discriminate]).
  destruct (built_step _ _ _ _ _ _ _ _ B CN PW words classes targets (length l) (state_vectors whole) SW) as (p & st & q & ES & Lp & SS & ET & Lq & H).
  { split; [apply map_length|]. split; [apply map_length|]. cbn [fst snd]. split; apply Forall_map; (eapply Forall_impl; [|exact F]); intros [[[w c] target] s0] (H1 & H2 & _); assumption. }
  { apply map_length. }
  { apply Forall_map. eapply Forall_impl; [|exact F]. intros [[[w c] target] s0] (_ & _ & H3 & _). exact H3. }
  { now apply shape_of_state. }
  change (num A) with Qc in *. rewrite ET. cbn [bind].
  destruct (array_state (length l) st HN SS) as [AS AV].
  assert (TS : forall i, i < length l -> exists st', token_state 0%Qc sizes (map array_of st) i = Ok st' /\ state_of sizes 1 st' /\ state_vectors st' = map (sel i) st).
  { intros i Hi. destruct (token_state_ok 0%Qc sizes (length l) _ i AS Hi) as (st' & T & S1 & V). exists st'. split; [exact T|]. split; [exact S1|].
    rewrite V. unfold state_vectors. cbn [r_variables]. rewrite AV. apply map_ext_in. intros m Hm. apply nth_sel.
    clear - SS Hm Hi. unfold state_shape in SS. induction SS as [|z x zs xs [L _] _ IH]; [destruct Hm|]. destruct Hm as [<-|Hm]; [exact (eq_ind_r (lt i) Hi L)|auto]. }
  destruct (mapM_total _ _ (token_state 0%Qc sizes (map array_of st)) (seq 0 (length l))) as [sts M].
  { intros i Hi. apply in_seq in Hi. destruct (TS i) as (st' & T & _); [lia|eauto]. }
  rewrite M. cbn [bind]. eexists. split; [reflexivity|].
  pose proof (mapM_len _ _ _ _ _ M) as LM. rewrite seq_length in LM. apply mapM_inv in M.
  apply Forall2_nth_intro; [rewrite combine_length; lia|]. intros i [[[w c] target] s0] [qi si] Hx Hr.
  apply nth_combine in Hr as [Hq Hs]. assert (Hi : i < length l) by (apply nth_error_Some; congruence).
  assert (Ti : token_state 0%Qc sizes (map array_of st) i = Ok si).
  { assert (Sq : nth_error (seq 0 (length l)) i = Some i) by (rewrite nth_error_seq, (proj2 (Nat.ltb_lt _ _) Hi); reflexivity). exact (Forall2_nth_both _ _ _ _ _ _ _ _ M Sq Hs). }
  destruct (TS i Hi) as (st' & T & S1 & V). assert (st' = si) as -> by congruence.
  assert (Hp : exists d, nth_error p i = Some d) by (destruct (nth_error p i) eqn:P; [eauto|apply nth_error_None in P; lia]). destruct Hp as [d Hd].
  assert (Et : nth_error targets i = Some target) by (unfold targets; rewrite nth_error_map, Hx; reflexivity).
  destruct (H i d target Hd Et) as (x & X1 & X2). assert (x = qi) as -> by congruence.
  exists d. cbn [fst snd]. split; [|split; [exact X2|exact S1]].
  eapply eq_trans; [apply (C49_parallel_steps A n sizes states whole words classes p st FS E ES i w c s0)|].
  - unfold words. rewrite nth_error_map, Hx. reflexivity.
  - unfold classes. rewrite nth_error_map, Hx. reflexivity.
  - unfold states. rewrite nth_error_map, Hx. reflexivity.
  - assert (SP : sel i p = [d]) by (unfold sel; now rewrite Hd). exact (f_equal2 (fun x y => Ok (x, y)) SP (eq_sym V)).
Qed.

Lemma recurrent_ext (x y : recurrent _ _ _ _ _ n) : proj1_sig x = proj1_sig y -> x = y.
Proof. destruct x as [x Hx], y as [y Hy]. cbn [proj1_sig]. intros <-. f_equal. apply (UIP_dec bool_dec). Qed.
Notation objects := (nat * nat * nat * recurrent _ _ _ _ _ n)%type.
Definition permitted (x : objects) : Prop :=
  let '(w, c, target, _) := x in w < num_shortlist_words v /\ c < num_classes v /\ target < num_classes v.
Lemma permitted_allowed x : permitted x -> allowed (forget _ _ _ _ _ n x).
Proof.
  destruct x as [[[w c] target] st]. cbn [permitted forget allowed]. intros (H1 & H2 & H3). split; [exact H1|]. split; [exact H2|]. split; [exact H3|].
  apply well_shaped_iff, (proj2_sig st).
Qed.
Lemma decoder_results_ok l : Forall stepwise_type (a_layers a) -> l <> [] -> Forall permitted l ->
  exists r, decoder_results _ _ _ _ _ n l = Ok r /\ Forall2 (fun x y => one_result (forget _ _ _ _ _ n x) (fst y, proj1_sig (snd y))) l r.
Proof.
  intros SW NE F. destruct (decoder_step_ok (map (forget _ _ _ _ _ n) l) SW) as (r & E & H).
  - intro Z. apply NE. now apply map_eq_nil in Z.
  - apply Forall_map. eapply Forall_impl; [|exact F]. exact permitted_allowed.
  - unfold decoder_results. rewrite E. cbn [bind]. clear - H. revert r H. induction l as [|x l IH]; intros r H; inversion H as [|? y ? r' H1 H2]; subst; cbn [mapM].
    + exists []. split; [reflexivity|constructor].
    + destruct (IH _ H2) as (rs & M & F). unfold object at 1.
      assert (W : well_shaped _ _ _ _ _ n (snd y) = true).
      { apply well_shaped_iff. destruct (forget _ _ _ _ _ n x) as [[[w c] target] st]. destruct H1 as (d & _ & _ & S). exact S. }
      destruct (bool_dec _ true) as [Hw|C]; [|contradiction]. cbn [bind]. rewrite M. cbn [bind]. eexists. split; [reflexivity|].
      constructor; [|exact F]. cbn [fst snd proj1_sig]. destruct y; exact H1.
Qed.
Lemma decoder_alone_ok x : Forall stepwise_type (a_layers a) -> permitted x ->
  let y := decoder_alone _ _ _ _ _ n x in one_result (forget _ _ _ _ _ n x) (fst y, proj1_sig (snd y)).
Proof.
  intros SW P. destruct (decoder_results_ok [x] SW) as (r & E & H); [discriminate|constructor; [exact P|constructor]|].
  unfold decoder_alone. rewrite E. inversion H as [|? y ? r' H1 H2]; subst. inversion H2; subst. exact H1.
Qed.
Lemma decoder_results_alone l : Forall stepwise_type (a_layers a) -> l <> [] -> Forall permitted l ->
  decoder_results _ _ _ _ _ n l = Ok (map (decoder_alone _ _ _ _ _ n) l).
Proof.
  intros SW NE F. destruct (decoder_results_ok l SW NE F) as (r & -> & H). f_equal. clear NE. induction H as [|x y l r H _ IH]; [reflexivity|].
  apply Forall_cons_iff in F as [P F]. cbn [map]. rewrite (IH F). f_equal. pose proof (decoder_alone_ok x SW P) as H'.
  pose proof (one_result_unique _ _ _ H H') as E. destruct y as [q s1], (decoder_alone _ _ _ _ _ n x) as [q' s2]. cbn [fst snd] in E. injection E as -> E2. f_equal. now apply recurrent_ext.
Qed.
Lemma decoder_independent : Forall stepwise_type (a_layers a) ->
  DecoderSpec.step_independent v (decoder_net _ _ _ _ _ n) (decoder_alone _ _ _ _ _ n).
Proof.
  intros SW l H. destruct l as [|x l]; [reflexivity|]. unfold decoder_net. rewrite decoder_results_alone; [reflexivity|exact SW|discriminate|].
  apply Forall_forall. intros [[[w c] target] st] Hx. destruct (H w c target st Hx) as [H1 (y & H2)]. destruct (class_range _ _ _ Hv H1), (class_range _ _ _ Hv H2). cbn. auto.
Qed.

(** ** The two ways of using the network *)
Definition next (st : recurrent _ _ _ _ _ n) (x : nat * nat) : recurrent _ _ _ _ _ n := snd (decoder_alone _ _ _ _ _ n (fst x, snd x, 0, st)).
Lemma next_any w c target st : Forall stepwise_type (a_layers a) -> w < num_shortlist_words v -> c < num_classes v -> target < num_classes v ->
  snd (decoder_alone _ _ _ _ _ n (w, c, target, st)) = next st (w, c).
Proof.
  intros SW Hw Hc Ht. unfold next. cbn [fst snd].
  pose proof (decoder_alone_ok (w, c, target, st) SW ltac:(cbn; auto)) as H1. pose proof (decoder_alone_ok (w, c, 0, st) SW ltac:(cbn; repeat split; lia)) as H2.
  cbn [forget one_result fst snd] in H1, H2. destruct H1 as (d & E1 & _ & S1), H2 as (d' & E2 & _ & S2). rewrite E1 in E2.
  apply recurrent_ext. eapply state_ext; [exact S1|exact S2|]. congruence.
Qed.
Lemma run_alone inputs : Forall stepwise_type (a_layers a) -> Forall (fun x => fst x < num_shortlist_words v /\ snd x < num_classes v) inputs ->
  forall st ps f, run_steps n (map (fun x => ([fst x], [snd x])) inputs) (state_vectors (proj1_sig st)) = Ok (ps, f) ->
  forall t w c target, nth_error inputs t = Some (w, c) -> target < num_classes v ->
  exists d, nth_error ps t = Some [d] /\
    nth_error d target = Some (fst (decoder_alone _ _ _ _ _ n (w, c, target, fold_left next (firstn t inputs) st))).
Proof.
  intros SW F. induction F as [|[w0 c0] inputs [Hw Hc] F IH]; intros st ps f R t w c target Hx Ht; [destruct t; discriminate|].
  cbn [map run_steps fst snd] in R, Hw, Hc.
  destruct t as [|t]; cbn [nth_error firstn fold_left] in *.
  - injection Hx as -> ->. pose proof (decoder_alone_ok (w, c, target, st) SW ltac:(cbn; auto)) as H1. cbn [forget one_result fst snd] in H1.
    destruct H1 as (d & E1 & Q & _). exists d. split; [|exact Q]. change (num A) with Qc in *. rewrite E1 in R. cbn [bind] in R.
    destruct (run_steps n _ _) as [[ps' f']|]; cbn [bind] in R; [|discriminate]. injection R as <- _. reflexivity.
  - pose proof (decoder_alone_ok (w0, c0, 0, st) SW ltac:(cbn; repeat split; lia)) as H1. cbn [forget one_result fst snd] in H1.
    destruct H1 as (d & E1 & _). change (num A) with Qc in *. rewrite E1 in R. cbn [bind] in R. fold (next st (w0, c0)) in R.
    destruct (run_steps n _ _) as [[ps' f']|] eqn:RS; cbn [bind] in R; [|discriminate]. injection R as <- _. cbn [nth_error].
    exact (IH _ _ _ RS t w c target Hx Ht).
Qed.

Lemma starting_exists : exists st, starting_state _ _ _ _ _ n st.
Proof. exists (exist (fun st => well_shaped _ _ _ _ _ n st = true) _ (proj2 (well_shaped_iff _) (zero_state_of 0%Qc sizes 1))). reflexivity. Qed.
Lemma starting_vectors st : starting_state _ _ _ _ _ n st -> state_vectors (proj1_sig st) = initial_state n 1.
Proof.
  unfold starting_state, construct. intro H. assert (E : proj1_sig st = mkState sizes 1 (map (zero_array 0%Qc 1) sizes)) by congruence.
  rewrite E. unfold state_vectors, initial_state. cbn [r_variables]. rewrite map_map. reflexivity.
Qed.

Lemma both_same st : Forall stepwise_type (a_layers a) -> starting_state _ _ _ _ _ n st ->
  AgreeSpec.same_network v st (decoder_alone _ _ _ _ _ n) (network_alone _ _ _ _ _ n).
Proof.
  intros SW S. exists next. split.
  - intros w c target s0 H1 (x & H2). destruct (class_range _ _ _ Hv H1), (class_range _ _ _ Hv H2). now apply next_any.
  - intros inputs t w c target F Hx (x & H2). destruct (class_range _ _ _ Hv H2) as [_ Ht].
    assert (FI : Forall (fun x => fst x < num_shortlist_words v /\ snd x < num_classes v) inputs).
    { eapply Forall_impl; [|exact F]. intros y Hy. eapply class_range; eauto. }
    assert (T0 : length inputs <> 0) by (destruct inputs; [destruct t; discriminate|discriminate]).
    pose proof (alone_valid v inputs FI) as VB.
    destruct (built_targets _ _ _ _ _ _ _ _ B CN PW (length inputs) 1 (alone inputs) (map (fun _ => [target]) inputs) T0 VB) as (p & fs & q & E & _ & Q & _ & H).
    + split; [apply map_length|]. apply Forall_map, Forall_forall. reflexivity.
    + apply Forall_map, Forall_forall. intros _ _. constructor; [exact Ht|constructor].
    + destruct (vb_dimensions _ _ _ _ VB) as [Dw Dc _].
      destruct (C46_stepwise A n (length inputs) 1 (map (fun x => [fst x]) inputs) (map (fun x => [snd x]) inputs) p fs) as [f R].
      * now apply (built_stepwise _ _ _ _ _ _ _ _ B).
      * exact T0.
      * exact Dw.
      * exact Dc.
      * exact E.
      * assert (CE : combine (map (fun x : nat * nat => [fst x]) inputs) (map (fun x => [snd x]) inputs) = map (fun x => ([fst x], [snd x])) inputs).
        { clear. induction inputs as [|y l IH]; cbn [map combine]; [reflexivity|]. now rewrite IH. }
        rewrite CE, <- (starting_vectors st S) in R. destruct (run_alone inputs SW FI st p f R t w c target Hx Ht) as (d & Hd & Dt).
        assert (Cd : cell p t 0 = Some d) by (unfold cell; now rewrite Hd).
        destruct (H t 0 d target Cd) as (y & Y1 & Y2). { unfold cell. now rewrite nth_error_map, Hx. }
        unfold network_alone. change (num A) with Qc in *. rewrite Q, Y1. congruence.
Qed.
End Rational.
