(** Proofs about the probability of generated text. *)
From Coq Require Import QArith Qcanon Lia.
From Verif Require Import Base BaseLib ListLib QcLib Strings Dict TextSpec VocabModel VocabSpec VocabBuild VocabProps ArchModel NetModel NetSpec NetColumns NetProps
  BuildModel BuildSpec BuildProps StateModel LinkModel LinkSpec LinkProofs SubwordProofs SamplerModel SamplerSpec SamplerProofs SamplerProps
  IterSpec ScoreModel ScoreSpec SampleScoreSpec.
Local Open Scope nat_scope.

Lemma nth_error_combine {X Y} (l : list X) (l' : list Y) i x y :
  nth_error l i = Some x -> nth_error l' i = Some y -> nth_error (combine l l') i = Some (x, y).
Proof. revert l' i. induction l as [|a l IH]; intros [|b l'] [|i]; cbn; try discriminate; [now intros [= ->] [= ->]|apply IH]. Qed.

Section Runs.
Context {P X : Type}.
Variable step : list nat -> list nat -> X -> result (list (list P) * X).
Lemma runs_fun xs : forall st ps st1 qs st2, runs step xs st ps st1 -> runs step xs st qs st2 -> ps = qs /\ st1 = st2.
Proof.
  induction xs as [|[w c] xs IH]; intros st ps st1 qs st2 H1 H2; inversion H1; inversion H2; subst; [auto|].
  match goal with H : step w c st = Ok (?p, ?s), H' : step w c st = Ok (?q, ?s') |- _ => assert (p = q /\ s = s') as [-> ->] by (split; congruence) end.
  match goal with H : runs step xs ?s _ _, H' : runs step xs ?s _ _ |- _ => destruct (IH _ _ _ _ _ H H') as [-> ->] end. auto.
Qed.
Lemma runs_length xs : forall st ps st1, runs step xs st ps st1 -> length ps = length xs.
Proof. intros st ps st1. induction 1; cbn [length]; congruence. Qed.
Lemma runs_prefix xs ys : forall st ps st1, runs step (xs ++ ys) st ps st1 ->
  exists st', runs step xs st (firstn (length xs) ps) st'.
Proof.
  induction xs as [|[w c] xs IH]; intros st ps st1 H; cbn [length firstn app] in *; [exists st; constructor|].
  inversion H; subst. destruct (IH _ _ _ H7) as [st' R]. exists st'. econstructor; eauto.
Qed.
End Runs.

Lemma run_steps_runs {A : arith} (n : network A) xs : forall st ps st', run_steps n xs st = Ok (ps, st') -> runs (step_network n) xs st ps st'.
Proof.
  induction xs as [|[w c] xs IH]; intros st ps st'; cbn [run_steps]; [intros [= <- <-]; constructor|].
  destruct (step_network n w c st) as [[p s1]|] eqn:E; cbn [bind]; [|discriminate].
  destruct (run_steps n xs s1) as [[qs s2]|] eqn:R; cbn [bind]; [|discriminate]. intros [= <- <-]. econstructor; eauto.
Qed.

Section Sample.
Variables qexp qsigmoid qtanh qrelu qleaky_relu : Qc -> Qc.
Notation A := (rationals qexp qsigmoid qtanh qrelu qleaky_relu).
Notation network_alone := (network_alone qexp qsigmoid qtanh qrelu qleaky_relu).
Variable parse_int : pystr -> result Z.
Variable dropout_scale : option ArchModel.value -> result (num A).
Variable value : pystr -> pystr -> nat -> nat -> nat -> num A.
Notation build := (build parse_int dropout_scale value).
Variable default : option pystr.
Variable exclude_unk : bool.
Variable a : architecture.
Variable v : vocabulary.
Variable n : network A.
Hypothesis B : build default exclude_unk a v = Ok n.
Hypothesis CN : Forall (connected a) (a_layers a).
Hypothesis PW : Forall (placed_well default) (a_layers a).
Hypothesis Hv : reachable_vocab v.
Hypothesis SW : Forall stepwise_type (a_layers a).
Notation predicts := (predicts qexp qsigmoid qtanh qrelu qleaky_relu n v).
Notation draw_of := (draw_of qexp qsigmoid qtanh qrelu qleaky_relu n v).
Notation draws_of := (draws_of qexp qsigmoid qtanh qrelu qleaky_relu n v).
Notation pairs := (map (fun x : nat * nat => ([fst x], [snd x]))).

Lemma classes_fun ids i1 i2 : with_classes v ids i1 -> with_classes v ids i2 -> i1 = i2.
Proof.
  intros H. revert i2. induction H as [|id [w c] ids i1 [E1 E2] _ IH]; intros i2 H2; inversion H2 as [|? [w' c'] ? ? [E3 E4] H3]; subst; [reflexivity|].
  cbn [fst snd] in *. f_equal; [congruence|now apply IH].
Qed.
Lemma classes_exist ids : Forall (fun id => id < num_shortlist_words v) ids -> exists inputs, with_classes v ids inputs.
Proof.
  induction 1 as [|id ids H _ (inputs & IH)]; [exists []; constructor|].
  destruct (C10_partition v id Hv H) as (k & Hk & _). exists ((id, k) :: inputs). constructor; [split; [reflexivity|exact Hk]|exact IH].
Qed.
Lemma classes_valid ids inputs : with_classes v ids inputs ->
  Forall (fun x => fst x < num_shortlist_words v /\ snd x < num_classes v) inputs.
Proof.
  induction 1 as [|id [w c] ids inputs [E1 E2] _ IH]; constructor; [|exact IH]. cbn [fst snd] in *. subst. exact (class_range v id c Hv E2).
Qed.
Lemma predicts_fun ids d d' : predicts ids d -> predicts ids d' -> d = d'.
Proof.
  intros (i1 & p1 & s1 & C1 & R1) (i2 & p2 & s2 & C2 & R2). rewrite (classes_fun _ _ _ C1 C2) in R1.
  destruct (runs_fun _ _ _ _ _ _ _ R1 R2) as [E _]. apply app_inj_tail in E as [_ E]. now injection E.
Qed.

(** The network after the words of one sequence *)
Lemma network_runs1 ids inputs : with_classes v ids inputs ->
  exists ps st, runs (step_network n) (pairs inputs) (initial_state n 1) ps st /\ length ps = length ids /\
    forall t p, nth_error ps t = Some p -> exists d, p = [d] /\ length d = num_classes v.
Proof.
  intros C. destruct (C61_steps _ _ _ _ _ _ _ _ B CN PW SW 1) as [S0 ST].
  destruct (ST (pairs inputs) (initial_state n 1)) as (ps & st & E & [Lp Fp] & _); [|exact S0|].
  - pose proof (classes_valid _ _ C) as F. apply Forall_map. eapply Forall_impl; [|exact F]. intros [w c] [H1 H2]. cbn [fst snd] in *.
    split; [reflexivity|]. split; [reflexivity|]. split; (constructor; [assumption|constructor]).
  - exists ps, st. split; [exact (run_steps_runs _ _ _ _ _ E)|]. split.
    + rewrite Lp, map_length. unfold with_classes in C. clear - C. induction C; cbn [length]; congruence.
    + intros t p Hp. rewrite Forall_forall in Fp. destruct (Fp p (nth_error_In _ _ Hp)) as [L F].
      destruct p as [|d [|? ?]]; try discriminate. inversion F; subst. eauto.
Qed.
Lemma predicts_exists ids : ids <> [] -> Forall (fun id => id < num_shortlist_words v) ids ->
  exists d, predicts ids d /\ length d = num_classes v.
Proof.
  intros NE F. destruct (classes_exist ids F) as [inputs C]. destruct (network_runs1 ids inputs C) as (ps & st & R & L & D).
  destruct (exists_last (l := ps)) as (qs & p & ->). { intros ->. destruct ids; [congruence|discriminate]. }
  destruct (D (length qs) p) as (d & -> & Ld); [now rewrite nth_error_app2, Nat.sub_diag|].
  exists d. split; [|exact Ld]. exists inputs, qs, st. auto.
Qed.

Lemma member_position id c wc : nth_error (v_w2c v) id = Some c -> nth_error (v_classes v) c = Some wc ->
  exists k m, nth_error (wc_probs wc) k = Some (id, m).
Proof.
  intros H1 H2. destruct (class_range v id c Hv H1) as [H3 _]. destruct (C10_partition v id Hv H3) as (c' & H4 & _ & U).
  assert (c' = c) as -> by congruence. pose proof (proj2 (U c wc H2) eq_refl) as I.
  unfold dict_keys in I. apply in_map_iff in I as ([x m] & <- & I). apply In_nth_error in I as [k Hk]. eauto.
Qed.
Lemma draw_exists ids t id : Forall (fun id => id < num_shortlist_words v) ids -> 1 <= t -> nth_error ids t = Some id ->
  exists x, draw_of ids t x.
Proof.
  intros F Ht Hid. destruct (predicts_exists (firstn t ids)) as (d & Pd & _).
  - destruct ids; [destruct t; discriminate|]. destruct t; [lia|discriminate].
  - rewrite <- (firstn_skipn t ids) in F. now apply Forall_app in F.
  - rewrite Forall_forall in F. specialize (F id (nth_error_In _ _ Hid)). destruct (C10_partition v id Hv F) as (c & Hc & Lc & _).
    destruct (nth_error (v_classes v) c) as [wc|] eqn:Hwc; [|apply nth_error_None in Hwc; unfold num_classes in Lc; lia].
    destruct (member_position id c wc Hc Hwc) as (k & m & Hk).
    exists (mkDraw t d c (map snd (wc_probs wc)) k). split; [reflexivity|]. split; [exact Pd|].
    exists id, wc. cbn [dr_class dr_members dr_word]. repeat split; auto. now rewrite nth_error_map, Hk.
Qed.
Lemma draws_exist k ids : Forall (fun id => id < num_shortlist_words v) ids -> 1 <= k -> exists xs, draws_of k ids xs.
Proof.
  intros F Hk. unfold SampleScoreSpec.draws_of.
  assert (G : Forall (fun t => exists x, draw_of ids t x) (seq k (length ids - k))).
  { apply Forall_forall. intros t Ht. apply in_seq in Ht. destruct (nth_error ids t) as [id|] eqn:E; [|apply nth_error_None in E; lia].
    eapply draw_exists; eauto. lia. }
  clear F. induction G as [|t l (x & Hx) _ (xs & IH)]; [exists []; constructor|exists (x :: xs); now constructor].
Qed.

(** ** One run of the generator *)
Section Generated.
Variable draw_class draw_word : nat -> nat -> list Qc -> nat.
Variable N : nat.
Variable seed : list pystr.
Variables words classes : list (list nat).
Hypothesis G : generated (step_network n) (initial_state n N) draw_class draw_word v N seed words classes.
Variable j : nat.
Hypothesis Hj : j < N.
Definition at_time (t id : nat) : Prop := exists w, nth_error words t = Some w /\ nth_error w j = Some id.

Lemma column_inputs ids t inputs : t <= length ids -> (forall i id, i < t -> nth_error ids i = Some id -> at_time i id) ->
  with_classes v (firstn t ids) inputs ->
  combine (map (sel j) (firstn t words)) (map (sel j) (firstn t classes)) = pairs inputs.
Proof.
  intros Hl H C. apply nth_error_ext. intros i.
  assert (Li : length inputs = t).
  { transitivity (length (firstn t ids)); [|now rewrite firstn_length_le]. unfold with_classes in C. clear - C. induction C; cbn [length]; congruence. }
  destruct (Nat.lt_ge_cases i t) as [Hi|Hi].
  - destruct (nth_error ids i) as [id|] eqn:Eid; [|apply nth_error_None in Eid; lia].
    destruct (H i id Hi Eid) as (w & Ew & Ej). destruct (nth_error classes i) as [c|] eqn:Ec.
    2: { apply nth_error_None in Ec. rewrite (g_same_length _ _ _ _ _ _ _ _ _ G) in Ec. assert (i < length words) by (apply nth_error_Some; congruence). lia. }
    destruct (C51_words_and_classes _ _ _ _ _ _ _ _ _ _ _ Hv G i w c j id Ew Ec Ej) as [_ Hc].
    destruct (nth_error inputs i) as [[w' c']|] eqn:Ei; [|apply nth_error_None in Ei; lia].
    destruct (Forall2_nth _ _ _ C) as [_ F]. specialize (F i id (w', c')). cbn [fst snd] in F.
    rewrite nth_error_firstn_lt in F by lia. destruct (F Eid Ei) as [-> F2]. rewrite F2 in Hc.
    assert (E : nth_error (combine (map (sel j) (firstn t words)) (map (sel j) (firstn t classes))) i = Some ([id], [c'])).
    { apply nth_error_combine; rewrite nth_error_map, nth_error_firstn_lt by lia.
      - rewrite Ew. cbn [option_map]. unfold sel. now rewrite Ej.
      - rewrite Ec. cbn [option_map]. unfold sel. now rewrite Hc. }
    rewrite E, nth_error_map, Ei. reflexivity.
  - transitivity (@None (list nat * list nat)); [|symmetry; apply nth_error_None; rewrite map_length; lia].
    apply nth_error_None. rewrite combine_length, !map_length. pose proof (firstn_le_length t words). lia.
Qed.

(** The next word of the sequence is that of [ids] exactly if its choices come out. *)
Lemma next_word ids t x : length seed < t -> t < length words ->
  (forall i id, i < t -> nth_error ids i = Some id -> at_time i id) -> draw_of ids t x ->
  (comes_out draw_class draw_word j x <-> forall id, nth_error ids t = Some id -> at_time t id).
Proof.
  intros Ht Hl H (Et & Pd & id & wc & Hid & Hc & Hwc & Em & Hm). subst t.
  destruct (nth_error words (dr_time x)) as [w|] eqn:Ew; [|apply nth_error_None in Ew; lia].
  destruct (C51_own_history _ n draw_class draw_word v N seed words classes G (dr_time x) j w Ht Hj Ew) as (ps & d & st & R & wc' & id' & Hwc' & Hid' & Hw).
  assert (d = dr_distribution x) as ->.
  { eapply predicts_fun; [|exact Pd]. destruct Pd as (inputs & ps' & st' & C & _). exists inputs, ps, st. split; [exact C|].
    rewrite <- (column_inputs ids (dr_time x) inputs); auto. apply Nat.lt_le_incl. apply nth_error_Some. congruence. }
  unfold comes_out. split.
  - intros [E1 E2] id0 H0. assert (id0 = id) as -> by congruence. exists w. split; [exact Ew|]. rewrite E1, Hwc in Hwc'. injection Hwc' as <-.
    rewrite <- Em, E2 in Hid'. congruence.
  - intros H1. destruct (H1 id Hid) as (w' & Ew' & Hj'). assert (w' = w) as -> by congruence. assert (id' = id) as -> by congruence.
    destruct (class_range v id _ Hv Hc) as [Hs _]. destruct (C10_partition v id Hv Hs) as (k & Hk & _ & U).
    assert (k = dr_class x) as -> by congruence.
    assert (E1 : draw_class (dr_time x) j (dr_distribution x) = dr_class x).
    { apply (U _ _ Hwc'). apply nth_error_In in Hid'. exact Hid'. }
    split; [exact E1|]. rewrite E1, Hwc in Hwc'. injection Hwc' as <-. rewrite <- Em in Hid'.
    destruct (C10_class_shape v _ _ Hv Hwc) as (_ & _ & ND & _). unfold dict_keys in ND.
    eapply (proj1 (NoDup_nth_error (map fst (wc_probs wc))) ND); [apply nth_error_Some; congruence|congruence].
Qed.

Lemma whole_sequence ids xs : length ids <= length words ->
  (forall i id, i <= length seed -> nth_error ids i = Some id -> at_time i id) -> draws_of (S (length seed)) ids xs ->
  (Forall (comes_out draw_class draw_word j) xs <-> forall i id, nth_error ids i = Some id -> at_time i id).
Proof.
  intros Hl H0. unfold SampleScoreSpec.draws_of.
  assert (K : forall m k xs, S (length seed) <= k -> k + m = length ids -> (forall i id, i < k -> nth_error ids i = Some id -> at_time i id) ->
    Forall2 (draw_of ids) (seq k m) xs -> (Forall (comes_out draw_class draw_word j) xs <-> forall i id, nth_error ids i = Some id -> at_time i id)).
  { clear xs. induction m as [|m IH]; intros k xs Hk Hm Hp F; cbn [seq] in F; inversion F as [|? x ? xs' D F']; subst.
    - split; [|constructor]. intros _ i id Hi. apply Hp; [|exact Hi]. rewrite Nat.add_0_r in Hm. rewrite Hm. apply nth_error_Some. congruence.
    - pose proof (next_word ids k x ltac:(lia) ltac:(lia) Hp D) as NW. split.
      + intros FX. apply Forall_cons_iff in FX as [C1 C2]. pose proof (proj1 NW C1) as C3. refine (proj1 (IH (S k) xs' ltac:(lia) ltac:(lia) _ F') C2).
        intros i id Hi Hid. destruct (Nat.eq_dec i k) as [->|]; [now apply C3|]. apply Hp; [lia|exact Hid].
      + intros Ha. constructor; [apply (proj2 NW); intros id Hid; now apply Ha|]. refine (proj2 (IH (S k) xs' ltac:(lia) ltac:(lia) _ F') Ha).
        intros i id _ Hid. now apply Ha. }
  intros F. destruct (Nat.le_gt_cases (S (length seed)) (length ids)) as [L|L].
  - apply (K (length ids - S (length seed)) (S (length seed))); auto; [lia|]. intros i id Hi. apply H0. lia.
  - replace (length ids - S (length seed)) with 0 in F by lia. cbn [seq] in F. inversion F; subst. split; [|constructor].
    intros _ i id Hid. apply H0; [|exact Hid]. assert (i < length ids) by (apply nth_error_Some; congruence). lia.
Qed.
End Generated.

(** ** The text of a run *)
Lemma prefix_kept {X} (l k : list X) : firstn (length k) l = k <-> exists r, l = k ++ r.
Proof.
  split; [intros E; exists (skipn (length k) l); rewrite <- E at 1; symmetry; apply firstn_skipn|].
  intros (r & ->). now rewrite firstn_app, firstn_all, Nat.sub_diag, app_nil_r.
Qed.
Lemma kept_prefix length_ seed ws sequence : printable length_ ws -> ~ In EOS seed -> length sequence = length seed + length_ ->
  (up_to_eos sequence (SOS :: seed ++ ws) <-> firstn (length (SOS :: seed ++ ws)) sequence = SOS :: seed ++ ws).
Proof.
  intros Pr Hs L. rewrite prefix_kept. destruct Pr as [(b & -> & Nb & Lw)|[Nw Lw]].
  - assert (Ns : ~ In EOS (SOS :: seed ++ b)).
    { intros [E|I]; [discriminate|]. apply in_app_or in I as [I|I]; auto. }
    split.
    + intros [[N E]|(x & y & -> & N & E)].
      * exfalso. apply N. rewrite <- E. right. apply in_or_app. right. apply in_or_app. right. now left.
      * exists y. replace (SOS :: seed ++ b ++ [EOS]) with ((SOS :: seed ++ b) ++ [EOS]) in E |- * by (cbn [app]; now rewrite app_assoc).
        apply app_inj_tail in E as [E _]. rewrite E. now rewrite <- app_assoc.
    + intros (r & E). right. exists (SOS :: seed ++ b), r. split; [|split; [exact Ns|cbn [app]; now rewrite app_assoc]].
      rewrite E. cbn [app]. now rewrite <- !app_assoc.
  - assert (Ns : ~ In EOS (SOS :: seed ++ ws)).
    { intros [E|I]; [discriminate|]. apply in_app_or in I as [I|I]; auto. }
    split.
    + intros [[N E]|(x & y & -> & N & E)]; [exists []; now rewrite app_nil_r|]. exfalso. apply Ns. rewrite E. apply in_or_app. right. now left.
    + intros (r & E). assert (r = []) as ->.
      { rewrite E, app_length in L. cbn [length] in L. rewrite app_length in L. destruct r; [reflexivity|cbn [length] in L; lia]. }
      rewrite app_nil_r in E. left. rewrite <- E in Ns |- *. auto.
Qed.

Definition has_id (w : pystr) (id : nat) : Prop := word_to_id v w = Some id /\ id < num_shortlist_words v.

Lemma prefix_ids (words : list (list nat)) j sequence kept ids : text_of v words j sequence -> Forall2 has_id kept ids -> length kept <= length sequence ->
  (firstn (length kept) sequence = kept <-> forall i id, nth_error ids i = Some id -> at_time words j i id).
Proof.
  intros T F L. destruct (Forall2_nth _ _ _ T) as [LT NT]. destruct (Forall2_nth _ _ _ F) as [LF NF]. destruct (C09_inverse_maps v Hv) as [_ Inv]. split.
  - intros E i id Hi. destruct (nth_error kept i) as [w|] eqn:Ew.
    2: { apply nth_error_None in Ew. assert (i < length ids) by (apply nth_error_Some; congruence). lia. }
    assert (Li : i < length kept) by (apply nth_error_Some; congruence).
    assert (Es : nth_error sequence i = Some w) by (rewrite <- E, nth_error_firstn_lt in Ew by exact Li; exact Ew).
    destruct (nth_error words i) as [row|] eqn:Er; [|apply nth_error_None in Er; lia].
    destruct (NT i row w Er Es) as (id' & H1 & H2). destruct (NF i w id Ew Hi) as [H3 _]. apply Inv in H2. assert (id' = id) as -> by congruence.
    exists row. auto.
  - intros H. apply nth_error_ext. intros i. destruct (Nat.lt_ge_cases i (length kept)) as [Li|Li].
    + rewrite nth_error_firstn_lt by exact Li. destruct (nth_error kept i) as [w|] eqn:Ew; [|apply nth_error_None in Ew; lia].
      destruct (nth_error ids i) as [id|] eqn:Hi; [|apply nth_error_None in Hi; lia].
      destruct (H i id Hi) as (row & H1 & H2). destruct (nth_error sequence i) as [w'|] eqn:Es; [|apply nth_error_None in Es; lia].
      destruct (NT i row w' H1 Es) as (id' & H3 & H4). assert (id' = id) as -> by congruence. destruct (NF i w id Ew Hi) as [H5 _]. apply Inv in H5. congruence.
    + rewrite (proj2 (nth_error_None kept i) Li). apply nth_error_None. rewrite firstn_length. lia.
Qed.

Lemma generates dc dw length_ N text seed : chooses dc -> chooses dw -> 1 <= length_ -> tokens text seed ->
  Forall (fun w => exists id, has_id w id) seed ->
  exists sequences, generate (step_network n) (initial_state n N) dc dw v length_ N text = Ok sequences.
Proof.
  intros Hc Hw Hl Ht Hs. destruct (C61_steps _ _ _ _ _ _ _ _ B CN PW SW N) as [S0 ST].
  refine (C51_succeeds _ _ (step_network n) (initial_state n N) dc dw v N (state_shape n N) length_ text seed Hv _ _ _ Hl S0 Ht Hs).
  - intros words classes st Hst L1 L2 F1 F2. destruct (ST [(words, classes)] st) as (ps & st' & E & [Lp Fp] & S'); [constructor; [|constructor]; repeat split; assumption|exact Hst|].
    cbn [run_steps] in E. destruct (step_network n words classes st) as [[p s1]|] eqn:E1; cbn [bind] in E; [|discriminate]. injection E as <- <-.
    exists p, s1. inversion Fp as [|? ? [R1 R2] _]; subst. repeat split; auto. intros d Hd. rewrite Forall_forall in R2. exact (R2 d Hd).
  - intros t j d Hd. apply Hc. intros ->. destruct (C09_special_tokens_present v SOS Hv ltac:(now left)) as (i & _ & Hi).
    destruct (C10_partition v i Hv Hi) as (k & _ & Hk & _). unfold num_classes in Hk. cbn in Hd. lia.
  - exact Hw.
Qed.

(** ** Scores *)
Lemma alone_runs ids inputs ps st t d c : with_classes v ids inputs -> runs (step_network n) (pairs inputs) (initial_state n 1) ps st ->
  nth_error ps t = Some [d] -> c < num_classes v -> nth_error d c = Some (network_alone n inputs t c).
Proof.
  intros C R Ht Hc. pose proof (classes_valid _ _ C) as FI.
  assert (Lt : t < length inputs). { rewrite <- (map_length (fun x : nat * nat => ([fst x], [snd x])) inputs), <- (runs_length _ _ _ _ _ R). apply nth_error_Some. congruence. }
  assert (T0 : length inputs <> 0) by lia. pose proof (alone_valid v inputs FI) as VB.
  destruct (built_targets _ _ _ _ _ _ _ _ B CN PW (length inputs) 1 (alone inputs) (map (fun _ => [c]) inputs) T0 VB) as (p & fs & q & E & _ & Q & _ & H).
  - split; [apply map_length|]. apply Forall_map, Forall_forall. reflexivity.
  - apply Forall_map, Forall_forall. intros _ _. constructor; [exact Hc|constructor].
  - destruct (vb_dimensions _ _ _ _ VB) as [Dw Dc _].
    destruct (C46_stepwise A n (length inputs) 1 (map (fun x => [fst x]) inputs) (map (fun x => [snd x]) inputs) p fs) as [f RS].
    + now apply (built_stepwise _ _ _ _ _ _ _ _ B).
    + exact T0.
    + exact Dw.
    + exact Dc.
    + exact E.
    + assert (CE : combine (map (fun x : nat * nat => [fst x]) inputs) (map (fun x => [snd x]) inputs) = pairs inputs).
      { clear. induction inputs as [|y l IH]; cbn [map combine]; [reflexivity|]. now rewrite IH. }
      rewrite CE in RS. apply run_steps_runs in RS. destruct (runs_fun _ _ _ _ _ _ _ R RS) as [-> _].
      assert (Cd : NetSpec.cell p t 0 = Some d) by (unfold NetSpec.cell; now rewrite Ht).
      destruct (H t 0 d c Cd) as (y & Y1 & Y2).
      { unfold NetSpec.cell. rewrite nth_error_map. destruct (nth_error inputs t) eqn:X; [reflexivity|apply nth_error_None in X; lia]. }
      unfold LinkSpec.network_alone. change (num A) with Qc in *. rewrite Q, Y1. exact Y2.
Qed.

Lemma word_member x id wc : nth_error (v_w2c v) id = Some (dr_class x) -> nth_error (v_classes v) (dr_class x) = Some wc ->
  dr_members x = map snd (wc_probs wc) -> nth_error (map fst (wc_probs wc)) (dr_word x) = Some id -> VocabModel.get_word_prob v id = Ok (word_chance x).
Proof.
  intros H1 H2 H3 H4. unfold VocabModel.get_word_prob, py_index. rewrite H1. cbn [bind]. rewrite H2. cbn [bind].
  rewrite nth_error_map in H4. destruct (nth_error (wc_probs wc) (dr_word x)) as [[i m]|] eqn:E; [|discriminate]. cbn [option_map fst] in H4. injection H4 as ->.
  destruct (C10_class_shape v _ _ Hv H2) as (_ & _ & ND & _). unfold class_get.
  rewrite (dict_in_get Nat.eq_dec _ id m ND (nth_error_In _ _ E)). unfold word_chance. rewrite H3. f_equal. symmetry. apply nth_error_nth. now rewrite nth_error_map, E.
Qed.

Variable ln : Qc -> Qc.
Lemma draw_score ids t x s : Forall (fun id => id < num_shortlist_words v) ids -> 1 <= t -> draw_of ids t x ->
  word_score ln (network_alone n) v false false ids t s ->
  exists a b, log_of ln (class_chance x) a /\ log_of ln (word_chance x) b /\ s = Some (ladd a b).
Proof.
  intros F Ht (Et & Pd & id & wc & Hid & Hc & Hwc & Em & Hm) WS.
  assert (NS : ~ shares v false) by (intros [? _]; discriminate).
  assert (NX : forall w, ~ excluded v false false w) by (intros w [[? _]|(_ & ? & _)]; [now apply NS|discriminate]).
  inversion WS as [w Hw Hx|w shown class_id prob inputs la lb lc Hw _ SA FS LA LB LC]; subst; [exfalso; eapply NX; exact Hx|].
  assert (w = id) as -> by congruence.
  assert (Short : forall i, In i ids -> i < num_shortlist_words v) by (now apply Forall_forall).
  assert (SH : shown = id) by (destruct SA as [[[_ ?]|[H _]] _]; [assumption|specialize (Short id (nth_error_In _ _ Hid)); lia]). subst shown.
  destruct SA as (_ & H1 & H2). assert (class_id = dr_class x) as -> by congruence.
  rewrite (word_member x id wc Hc Hwc Em Hm) in H2. injection H2 as <-.
  destruct LC as [[_ ->]|[? _]]; [|contradiction].
  assert (WC : with_classes v (removelast ids) inputs).
  { unfold with_classes. assert (Sr : forall i, In i (removelast ids) -> i < num_shortlist_words v).
    { intros i Hi. apply Short. destruct ids as [|y l]; [destruct Hi|]. rewrite (app_removelast_last 0 (l := y :: l)) by discriminate. apply in_or_app. now left. }
    clear - FS Sr. induction FS as [|i [w c] l l' (p & H & H1 & _) _ IH]; constructor; [|apply IH; intros k Hk; apply Sr; now right].
    cbn [fst snd] in *. specialize (Sr i ltac:(now left)). destruct H as [[_ ->]|[H _]]; [|lia]. auto. }
  destruct (network_runs1 _ _ WC) as (ps & st & R & Lp & D).
  assert (Lr : length (removelast ids) = length ids - 1).
  { destruct ids as [|y l] using rev_ind; [reflexivity|]. rewrite removelast_last, app_length. cbn [length]. lia. }
  assert (Lt : dr_time x < length ids) by (apply nth_error_Some; congruence).
  destruct (nth_error ps (dr_time x - 1)) as [p|] eqn:Ep; [|apply nth_error_None in Ep; lia].
  destruct (D _ _ Ep) as (d & -> & _).
  assert (Rc : dr_class x < num_classes v) by (exact (proj2 (class_range v id _ Hv Hc))).
  pose proof (alone_runs _ _ _ _ _ _ _ WC R Ep Rc) as AR.
  assert (d = dr_distribution x) as ->.
  { eapply predicts_fun; [|exact Pd]. 
    assert (FI : firstn (dr_time x) ids = firstn (dr_time x) (removelast ids)).
    { destruct ids as [|y l] using rev_ind; [reflexivity|]. rewrite removelast_last. rewrite app_length in Lt. cbn [length] in Lt. apply firstn_app_le. lia. }
    assert (Li : length inputs = length ids - 1). { rewrite <- Lr. unfold with_classes in WC. clear - WC. induction WC; cbn [length]; congruence. }
    rewrite <- (firstn_skipn (dr_time x) inputs), map_app in R. apply runs_prefix in R as [st' R]. rewrite map_length, firstn_length_le in R by lia.
    exists (firstn (dr_time x) inputs), (firstn (dr_time x - 1) ps), st'. split.
    - rewrite FI. unfold with_classes in *. clear - WC. generalize (dr_time x). intros t. revert t. induction WC; intros [|t]; cbn [firstn]; constructor; auto.
    - assert (E : firstn (dr_time x) ps = firstn (dr_time x - 1) ps ++ [[d]]); [|change (num A) with Qc in *; rewrite <- E; exact R].
      destruct (dr_time x) as [|k]; [lia|]. rewrite Nat.sub_succ, Nat.sub_0_r in *. clear - Ep. revert k Ep.
      induction ps as [|q ps IH]; intros [|k]; cbn; try discriminate; [now intros [= ->]|]. intros E. f_equal. now apply IH. }
  exists la, lb. split; [|split; [exact LB|]].
  - unfold class_chance. rewrite (nth_error_nth _ _ 0%Qc AR). exact LA.
  - f_equal. now rewrite ladd_0_r.
Qed.
Lemma draw_scores k ids xs scores : Forall (fun id => id < num_shortlist_words v) ids -> 1 <= k -> draws_of k ids xs ->
  sequence_scores ln (network_alone n) v false false ids scores ->
  Forall2 (fun x s => exists a b, log_of ln (class_chance x) a /\ log_of ln (word_chance x) b /\ s = Some (ladd a b)) xs (skipn (k - 1) scores).
Proof.
  intros F Hk D S. unfold sequence_scores in S. unfold SampleScoreSpec.draws_of in D.
  assert (S' : Forall2 (word_score ln (network_alone n) v false false ids) (seq k (length ids - k)) (skipn (k - 1) scores)).
  { replace (seq k (length ids - k)) with (skipn (k - 1) (seq 1 (length ids - 1))).
    - clear - S. generalize (k - 1). intros m. revert m. induction S; intros [|m]; cbn [skipn]; try constructor; auto.
    - destruct (Nat.le_gt_cases k (length ids)) as [L|L].
      + replace (length ids - 1) with ((k - 1) + (length ids - k)) by lia. rewrite seq_app, skipn_app, seq_length, Nat.sub_diag.
        rewrite skipn_all2 by (rewrite seq_length; lia). cbn [skipn app]. f_equal. lia.
      + rewrite skipn_all2 by (rewrite seq_length; lia). replace (length ids - k) with 0 by lia. reflexivity. }
  clear S. remember (seq k (length ids - k)) as ts eqn:Ets. assert (Q : Forall (fun t => 1 <= t) ts) by (subst ts; apply Forall_forall; intros t Ht; apply in_seq in Ht; lia).
  clear Ets. revert S' Q. generalize (skipn (k - 1) scores). induction D as [|t x ts xs H _ IH]; intros ss S' Q; inversion S' as [|? s ? ss' H1 H2]; subst; [constructor|].
  apply Forall_cons_iff in Q as [Q1 Q2]. constructor; [eapply draw_score; eauto|apply IH; auto].
Qed.
End Sample.

(** ** Sums of probabilities *)
Lemma qsum_flat_map {X Y} (f : Y -> Qc) (g : X -> list Y) l : qsum (map f (flat_map g l)) = qsum (map (fun x => qsum (map f (g x))) l).
Proof. induction l as [|x l IH]; [reflexivity|]. cbn [flat_map map]. now rewrite map_app, qsum_app, qsum_cons, IH. Qed.
Lemma NoDup_concat_keys (l : list wclass) :
  (forall k wc, nth_error l k = Some wc -> NoDup (dict_keys (wc_probs wc))) ->
  (forall k k' wc wc' i, nth_error l k = Some wc -> nth_error l k' = Some wc' -> In i (dict_keys (wc_probs wc)) -> In i (dict_keys (wc_probs wc')) -> k = k') ->
  NoDup (concat (map (fun wc => dict_keys (wc_probs wc)) l)).
Proof.
  induction l as [|wc l IH]; intros N D; cbn [map concat]; [constructor|].
  assert (G : forall (a b : list nat), NoDup a -> NoDup b -> (forall i, In i a -> ~ In i b) -> NoDup (a ++ b)).
  { clear. induction a as [|x a IH]; intros b Na Nb Di; [exact Nb|]. inversion Na as [|? ? N1 N2]; subst. cbn. constructor.
    - rewrite in_app_iff. intros [?|?]; [auto|]. apply (Di x); [now left|assumption].
    - apply IH; auto. intros i Hi. apply Di. now right. }
  apply G; [exact (N 0 wc eq_refl)|apply IH|].
  - intros k wc' H. exact (N (S k) wc' H).
  - intros k k' w1 w2 i H1 H2 I1 I2. pose proof (D (S k) (S k') w1 w2 i H1 H2 I1 I2). lia.
  - intros i Hi J. apply in_concat in J as (l' & Hl' & J). apply in_map_iff in Hl' as (wc' & <- & Hw). apply In_nth_error in Hw as [k Hk].
    pose proof (D 0 (S k) wc wc' i eq_refl Hk Hi J). discriminate.
Qed.
Lemma sum_by_class (p : nat -> Qc) (l : list wclass) : forall d, length l = length d ->
  (forall k wc q, nth_error l k = Some wc -> nth_error d k = Some q -> qsum (map p (dict_keys (wc_probs wc))) = q) ->
  qsum (map p (concat (map (fun wc => dict_keys (wc_probs wc)) l))) = qsum d.
Proof.
  induction l as [|wc l IH]; intros [|q d] L H; try discriminate; [reflexivity|]. cbn [map concat]. rewrite map_app, qsum_app, qsum_cons.
  rewrite (H 0 wc q eq_refl eq_refl). f_equal. apply IH; [now injection L|]. intros k wc' q' H1 H2. exact (H (S k) wc' q' H1 H2).
Qed.
Lemma keys_value_unique (l : list (nat * Qc)) i m m' : NoDup (dict_keys l) -> In (i, m) l -> In (i, m') l -> m = m'.
Proof.
  induction l as [|[j x] l IH]; [contradiction|]. cbn [dict_keys map fst]. intros N. inversion N as [|? ? N1 N2]; subst.
  intros [E1|I1] [E2|I2]; [congruence| | |now apply IH].
  - injection E1 as -> ->. exfalso. apply N1. apply in_map_iff. now exists (i, m').
  - injection E2 as -> ->. exfalso. apply N1. apply in_map_iff. now exists (i, m).
Qed.
Lemma last_step {P X} (step : list nat -> list nat -> X -> result (list (list P) * X)) xs st ps p st' : runs step xs st (ps ++ [p]) st' ->
  exists w c s1 s2, step w c s1 = Ok (p, s2).
Proof.
  revert xs st. induction ps as [|q ps IH]; intros xs st H; cbn [app] in H; inversion H; subst; [eauto 8|]. eapply IH. eassumption.
Qed.
Section Same.
Variables qexp qsigmoid qtanh qrelu qleaky_relu : Qc -> Qc.
Notation A := (rationals qexp qsigmoid qtanh qrelu qleaky_relu).
Lemma same_chance v (n : network A) : reachable_vocab v -> forall ids ids' t x y, firstn t ids = firstn t ids' -> nth_error ids t = nth_error ids' t ->
  draw_of _ _ _ _ _ n v ids t x -> draw_of _ _ _ _ _ n v ids' t y -> (class_chance x * word_chance x = class_chance y * word_chance y)%Qc.
Proof.
  intros Hv ids ids' t x y E1 E2 (_ & P1 & i1 & w1 & A1 & A2 & A3 & A4 & A5) (_ & P2 & i2 & w2 & B1 & B2 & B3 & B4 & B5).
  rewrite E1 in P1. rewrite E2 in A1. assert (i2 = i1) as -> by congruence. assert (Ec : dr_class y = dr_class x) by congruence.
  pose proof (word_member v Hv x i1 w1 A2 A3 A4 A5) as G1. pose proof (word_member v Hv y i1 w2 B2 B3 B4 B5) as G2.
  unfold class_chance. rewrite (predicts_fun _ _ _ _ _ v n _ _ _ P1 P2), Ec. f_equal. congruence.
Qed.
Hypothesis POS : forall x, (0 < qexp x)%Qc.
Lemma softmax_one (l : list (option Qc)) c y : nth_error l c = Some (Some y) -> qsum (softmax (A := A) l) = 1%Qc.
Proof.
  intros H. unfold softmax. set (e := map (fun x => match x with Some z => qexp z | None => 0%Qc end) l).
  change (qsum (map (fun q => (q / vsum (A := A) e)%Qc) e) = 1%Qc).
  assert (T : vsum (A := A) e = qsum e) by reflexivity.
  rewrite T. assert (Q : (0 < qsum e)%Qc).
  { assert (N : forall p, In p e -> (0 <= p)%Qc). { intros p Hp. unfold e in Hp. apply in_map_iff in Hp as ([z|] & <- & _); [apply Qclt_le_weak, POS|apply Qcle_refl]. }
    assert (In (qexp y) e). { unfold e. apply in_map_iff. exists (Some y). split; [reflexivity|]. eapply nth_error_In. exact H. }
    apply in_split in H0 as (l1 & l2 & E). rewrite E in N |- *. rewrite qsum_app, qsum_cons. 
    assert (N1 : (0 <= qsum l1)%Qc) by (apply qsum_nonneg; intros p Hp; apply N, in_or_app; now left).
    assert (N2 : (0 <= qsum l2)%Qc) by (apply qsum_nonneg; intros p Hp; apply N, in_or_app; right; now right).
    pose proof (POS y) as Py. apply (Qclt_le_trans _ (qexp y)); [exact Py|].
    pose proof (Qcplus_le_compat _ _ _ _ N1 (Qcplus_le_compat _ _ _ _ (Qcle_refl (qexp y)) N2)) as Z. now rewrite Qcplus_0_l, Qcplus_0_r in Z. }
  change (qsum (map (fun q => (q / qsum e)%Qc) e) = 1%Qc). rewrite qsum_map_div, map_id. field. intros Z. rewrite Z in Q. discriminate.
Qed.
End Same.
