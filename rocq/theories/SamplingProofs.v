(** Sampling of noise classes, from networks that have been built. *)
From Coq Require Import Reals Lra.
From Verif Require Import Base BaseLib ListLib Strings ArchModel VocabModel NetModel NetSpec NetColumns NetSteps NetShape NetReal CostModel
  DeviceModel DeviceSpec DeviceProofs DeviceNet OutputModel BuildModel BuildSpec BuildShape BuildLayers BuildNet BuildProofs EquationSpec EquationTab EquationLayers EquationNet
  SamplingModel SamplingSpec SamplingNet.
Local Open Scope nat_scope.
Local Open Scope list_scope.

Lemma rect_tabm' X T N (f : nat -> nat -> X) : rectangle T N (tabm T N f).
Proof. split; [apply tabv_length|]. apply Forall_forall. intros r I. unfold tabm, tabv in I. apply in_map_iff in I as (t & <- & _). apply tabv_length. Qed.
Lemma nth_repeat_lt X (r d : X) n i : i < n -> nth i (repeat r n) d = r.
Proof. revert i; induction n as [|n IH]; intros [|i] H; cbn [repeat nth]; try lia; [reflexivity|]. apply IH. lia. Qed.
Lemma skipn_add X (a b : nat) (l : list X) : skipn a (skipn b l) = skipn (b + a) l.
Proof. revert l; induction b as [|b IH]; intros l; [reflexivity|]. destruct l as [|x l]; [now rewrite !skipn_nil|]. cbn [skipn Nat.add]. apply IH. Qed.
Lemma Forall_skip X (P : X -> Prop) n l : Forall P l -> Forall P (skipn n l).
Proof. revert l; induction n as [|n IH]; intros l F; [exact F|]. destruct F; [constructor|now apply IH]. Qed.
Lemma Forall_first X (P : X -> Prop) n l : Forall P l -> Forall P (firstn n l).
Proof. revert l; induction n as [|n IH]; intros l F; [constructor|]. destruct F; [constructor|]. cbn [firstn]. constructor; auto. Qed.
Lemma Forall_rows X (P : X -> Prop) n size l : Forall P l -> Forall (Forall P) (rows_of n size l).
Proof. revert l; induction n as [|n IH]; intros l F; cbn [rows_of]; constructor; [now apply Forall_first|now apply IH, Forall_skip]. Qed.
Lemma rows_rect X n size (l : list X) : length l = n * size -> rectangle n size (rows_of n size l).
Proof.
  intros L. split; [apply rows_length|]. revert l L; induction n as [|n IH]; intros l L; cbn [rows_of]; constructor.
  - rewrite firstn_length. cbn [Nat.mul] in L. lia.
  - apply IH. rewrite skipn_length. cbn [Nat.mul] in L. lia.
Qed.
Lemma firstn_skipn_nth X (l : list X) a k d i : i < k -> nth i (firstn k (skipn a l)) d = nth (a + i) l d.
Proof.
  revert l; induction a as [|a IH]; intros l H; cbn [skipn Nat.add].
  - revert l i H; induction k as [|k IHk]; intros l i H; [lia|]. destruct l as [|x l]; cbn [firstn nth]; [now destruct i|]. destruct i; [reflexivity|]. apply IHk. lia.
  - destruct l as [|x l]; [rewrite firstn_nil; now destruct i|]. now apply IH.
Qed.
Lemma broadcast_full X T N (s : list (list X)) : rectangle T N s -> broadcast T N s = s.
Proof.
  intros [L F]. unfold broadcast.
  assert (G : (match s with [m] => repeat m T | _ => s end) = s) by (destruct s as [|m [|? ?]]; try reflexivity; cbn [length] in L; subst T; reflexivity).
  rewrite G. clear -F. induction F as [|m s Lm F IH]; cbn [map]; [reflexivity|]. rewrite IH. f_equal.
  destruct m as [|r [|? ?]]; try reflexivity. cbn [length] in Lm. subst N. reflexivity.
Qed.
Lemma broadcast_sequences X T N (rows : list X) : length rows = T -> broadcast T N (map (fun r => [r]) rows) = map (fun r => repeat r N) rows.
Proof.
  intros L. unfold broadcast.
  assert (G : (match map (fun r => [r]) rows with [m] => repeat m T | _ => map (fun r => [r]) rows end) = map (fun r => [r]) rows)
    by (destruct rows as [|m [|? ?]]; try reflexivity; cbn [length] in L; subst T; reflexivity).
  rewrite G, map_map. reflexivity.
Qed.
Lemma broadcast_batch X T N (r : X) : broadcast T N [[r]] = repeat (repeat r N) T.
Proof. unfold broadcast. induction T as [|T IH]; cbn [repeat map]; [reflexivity|]. now rewrite IH. Qed.
Lemma at2_nth X (d : list X) (m : list (list (list X))) T N t s : rectangle T N m -> t < T -> s < N -> at2 m t s = Some (nth s (nth t m []) d).
Proof.
  intros [L F] Ht Hs. unfold at2. rewrite (nth_error_nth' _ []) by lia. apply nth_error_nth'.
  rewrite Forall_forall in F. rewrite F; [exact Hs|]. apply nth_In. lia.
Qed.
Lemma at2_repeat X (r : X) T N t s : t < T -> s < N -> at2 (repeat (repeat r N) T) t s = Some r.
Proof.
  intros Ht Hs. unfold at2. rewrite (nth_error_nth' _ []) by (now rewrite repeat_length). rewrite nth_repeat_lt by exact Ht.
  rewrite (nth_error_nth' _ r) by (now rewrite repeat_length). now rewrite nth_repeat_lt.
Qed.
Lemma rect_repeat X (r : X) T N : rectangle T N (repeat (repeat r N) T).
Proof. split; [apply repeat_length|]. apply Forall_forall. intros x I. apply repeat_spec in I as ->. apply repeat_length. Qed.
Lemma concat_singles X (f : nat -> nat -> X) T N : map (@concat X) (tabm T N (fun t s => [f t s])) = tabm T N f.
Proof.
  unfold tabm. rewrite map_tabv. apply tabv_ext. intros t _. unfold tabv. induction (seq 0 N) as [|x l IH]; cbn [map concat app]; [reflexivity|]. now rewrite IH.
Qed.

Section Built.
Context {A : arith}.
Notation num := (num A).
Variable parse_int : pystr -> result Z.
Variable dropout_scale : option ArchModel.value -> result num.
Variable initial : pystr -> pystr -> nat -> nat -> nat -> num.
Variables (default : option pystr) (exclude_unk : bool) (a : architecture) (v : vocabulary) (n : network A).
Hypothesis B : build parse_int dropout_scale initial default exclude_unk a v = Ok n.
Hypothesis CN : Forall (connected a) (a_layers a).
Hypothesis PW : Forall (placed_well default) (a_layers a).
Hypothesis KS : n_kind n = Softmax.
Variables (T N : nat) (b : batch).
Hypothesis HT : T <> 0.
Hypothesis VB : valid_batch v T N b.
Notation score := (class_score initial n b T).

Lemma built_reads : exists size x, reads initial v T N b n size x.
Proof.
  destruct VB as [[DW DC DM] VW VC]. destruct (build_inv _ _ _ _ _ _ _ _ B) as (ds & out & C & D & OO & EC & EP & _).
  apply EC in CN as (AF & ON & OF). apply EP in PW as [W OW].
  exact (network_reads initial v T N HT b (conj DW VW) (conj DC VC) DM ds out n D AF W OO ON OF OW C KS).
Qed.

Lemma scores_several targets : 1 < length (n_devices n) -> unnormalized_logprobs n b targets = Ok None.
Proof.
  intro L. destruct built_reads as (size & x & R). unfold unnormalized_logprobs. rewrite KS, (rd_input _ _ _ _ _ _ _ _ R). cbn [bind]. apply Nat.ltb_lt in L. now rewrite L.
Qed.

Hypothesis L1 : length (n_devices n) <= 1.

Lemma scores_are targets : rectangle T N targets -> Forall (Forall (fun c => c < num_classes v)) targets ->
  exists u, unnormalized_logprobs n b targets = Ok (Some u) /\ rectangle T N u /\
  forall t s c, at2 targets t s = Some c -> at2 u t s = Some (score t s c).
Proof.
  intros RT FT. destruct built_reads as (size & x & R). unfold unnormalized_logprobs. rewrite KS, (rd_input _ _ _ _ _ _ _ _ R). cbn [bind].
  assert (E1 : (1 <? length (n_devices n)) = false) by (apply Nat.ltb_ge; lia). rewrite E1.
  assert (RI : rectangle T N (map (map (fun c => [c])) targets)).
  { destruct RT as [L F]. split; [now rewrite map_length|]. apply Forall_forall. intros r I. apply in_map_iff in I as (r' & <- & I). rewrite map_length. rewrite Forall_forall in F. auto. }
  rewrite (target_preact_is initial v T N HT b n size x R L1 _ RI).
  2:{ apply Forall_forall. intros r I. apply in_map_iff in I as (r' & <- & I). apply Forall_forall. intros c I'. apply in_map_iff in I' as (c' & <- & I').
      constructor; [|constructor]. rewrite Forall_forall in FT. specialize (FT _ I). rewrite Forall_forall in FT. auto. }
  cbn [bind]. eexists. split; [reflexivity|].
  rewrite (tabm_ext _ T N _ (fun t s => [score t s (nth s (nth t targets []) 0)])).
  2:{ intros t s Ht Hs. assert (Q : nth s (nth t (map (map (fun c => [c])) targets) []) [] = [nth s (nth t targets []) 0]).
      { assert (Q := at2_map _ _ (fun c => [c]) targets t s). destruct (rect_at2 _ _ _ _ _ _ RT Ht Hs) as [c Ec]. rewrite Ec in Q. cbn [option_map] in Q.
        unfold at2 in Q, Ec. destruct (nth_error (map _ targets) t) as [r|] eqn:Er; [|discriminate]. destruct (nth_error targets t) as [r'|] eqn:Er'; [|discriminate].
        rewrite (nth_error_nth _ _ _ Er), (nth_error_nth _ _ _ Er'), (nth_error_nth _ _ _ Q), (nth_error_nth _ _ _ Ec). reflexivity. }
      rewrite Q. reflexivity. }
  rewrite concat_singles. split; [apply rect_tabm'|]. intros t s c Ec. destruct (at2_range _ _ _ _ _ _ _ RT Ec) as [Ht Hs]. rewrite at2_tabm by assumption.
  unfold at2 in Ec. destruct (nth_error targets t) as [r|] eqn:Er; [|discriminate]. now rewrite (nth_error_nth _ _ _ Er), (nth_error_nth _ _ _ Ec).
Qed.

Lemma input_shape size x : reads initial v T N b n size x -> length (tab T N size x) = T /\ num_sequences (tab T N size x) = N.
Proof.
  intro R. split; [apply tabv_length|]. unfold num_sequences, tab, tabm. destruct T as [|T']; [contradiction|]. exact (tabv_length _ N _).
Qed.

Lemma noise_are (sample : nat -> nat -> result (list (list nat))) k sh drawn :
  sample (rows_drawn sh T N) (columns_drawn sh T k) = Ok drawn -> good_draw (num_classes v) (rows_drawn sh T N) (columns_drawn sh T k) drawn ->
  exists ids y, noise_sample sample k sh n b = Ok (ids, y) /\ rectangle T N (broadcast T N ids) /\ rectangle T N y /\
  forall t s, t < T -> s < N ->
    at2 (broadcast T N ids) t s = Some (noise_at sh N k drawn t s) /\
    at2 y t s = Some (map (score t s) (noise_at sh N k drawn t s)) /\
    length (noise_at sh N k drawn t s) = k /\ Forall (fun c => c < num_classes v) (noise_at sh N k drawn t s).
Proof.
  intros ES [[LD RD] FD]. destruct built_reads as (size & x & R). unfold noise_sample. rewrite KS, (rd_input _ _ _ _ _ _ _ _ R).
  assert (E1 : (1 <? length (n_devices n)) = false) by (apply Nat.ltb_ge; lia). rewrite E1. cbn [bind].
  destruct (input_shape _ _ R) as [-> ->]. destruct sh; cbn [rows_drawn columns_drawn] in *; rewrite ES; cbn [bind].
  - (* not shared *)
    assert (RI : rectangle T N (rows_of T N drawn)) by (now apply rows_rect).
    rewrite (target_preact_is initial v T N HT b n size x R L1 _ RI) by (now apply Forall_rows). cbn [bind]. eexists _, _. split; [reflexivity|].
    rewrite broadcast_full by exact RI. split; [exact RI|]. split; [apply rect_tabm'|]. intros t s Ht Hs.
    assert (Q : nth s (nth t (rows_of T N drawn) []) [] = noise_at NotShared N k drawn t s).
    { rewrite (nth_error_nth _ _ _ (rows_nth _ T N drawn t Ht)). cbn [noise_at]. now apply firstn_skipn_nth. }
    rewrite at2_tabm by assumption. rewrite (at2_nth _ [] _ _ _ _ _ RI Ht Hs), Q. split; [reflexivity|]. split; [reflexivity|].
    assert (H : t * N + s < length drawn) by (rewrite LD; nia). cbn [noise_at]. rewrite Forall_forall in RD, FD. split; [apply RD|apply FD]; now apply nth_In.
  - (* shared between sequences *)
    destruct drawn as [|row [|? ?]]; try discriminate LD. inversion RD as [|? ? LR _]; subst. inversion FD as [|? ? FR _]; subst. cbn [concat]. rewrite app_nil_r.
    assert (RR : rectangle T k (rows_of T k row)) by (apply rows_rect; exact LR).
    rewrite (target_seq_preact_is initial v T N HT b n size x R L1 _ (rows_length _ _ _ _)) by (now apply Forall_rows). cbn [bind]. eexists _, _. split; [reflexivity|].
    rewrite broadcast_sequences by apply rows_length. split; [|split; [apply rect_tabm'|]].
    { split; [rewrite map_length; apply rows_length|]. apply Forall_forall. intros r I. apply in_map_iff in I as (? & <- & _). apply repeat_length. }
    intros t s Ht Hs. assert (Q := rows_nth _ T k row t Ht). rewrite at2_tabm by assumption. rewrite (nth_error_nth _ _ _ Q). cbn [noise_at nth].
    split; [|split; [reflexivity|]].
    + unfold at2. rewrite nth_error_map, Q. cbn [option_map]. rewrite (nth_error_nth' _ []) by (now rewrite repeat_length). now rewrite nth_repeat_lt.
    + split; [|now apply Forall_first, Forall_skip]. rewrite firstn_length, skipn_length, LR. nia.
  - (* shared *)
    destruct drawn as [|row [|? ?]]; try discriminate LD. inversion RD as [|? ? LR _]; subst. inversion FD as [|? ? FR _]; subst. cbn [py_index nth_error bind].
    rewrite (target_list_preact_is initial v T N HT b n size x R L1 _ FR). cbn [bind]. eexists _, _. split; [reflexivity|].
    rewrite broadcast_batch. split; [apply rect_repeat|]. split; [apply rect_tabm'|]. intros t s Ht Hs. rewrite at2_tabm, at2_repeat by assumption. cbn [noise_at nth]. auto.
Qed.
Lemma noise_fails (sample : nat -> nat -> result (list (list nat))) k sh e :
  sample (rows_drawn sh T N) (columns_drawn sh T k) = Err e -> noise_sample sample k sh n b = Err e.
Proof.
  intros ES. destruct built_reads as (size & x & R). unfold noise_sample. rewrite KS, (rd_input _ _ _ _ _ _ _ _ R).
  assert (E1 : (1 <? length (n_devices n)) = false) by (apply Nat.ltb_ge; lia). rewrite E1. cbn [bind].
  destruct (input_shape _ _ R) as [-> ->]. destruct sh; cbn [rows_drawn columns_drawn] in *; now rewrite ES.
Qed.
End Built.

(** ** Objectives *)
Lemma map2_length X Y Z (f : X -> Y -> Z) l m : length l = length m -> length (map2 f l m) = length l.
Proof. revert m; induction l as [|x l IH]; intros [|y m] L; try discriminate L; cbn [map2 length]; [reflexivity|]. rewrite IH; [reflexivity|]. now injection L. Qed.
Lemma rect_map2 X Y Z (f : X -> Y -> Z) T N (p : list (list X)) (q : list (list Y)) : rectangle T N p -> rectangle T N q -> rectangle T N (map2 (map2 f) p q).
Proof.
  intros [Lp Fp] [Lq Fq]. split; [rewrite map2_length; congruence|]. assert (L : length p = length q) by congruence. clear Lp Lq.
  revert q Fq L; induction Fp as [|r p Hr Fp IH]; intros [|r' q] Fq L; try discriminate L; cbn [map2]; constructor; inversion Fq; subst.
  - rewrite map2_length; congruence.
  - apply IH; [assumption|now injection L].
Qed.
Lemma rect_map X Y (f : X -> Y) T N (p : list (list X)) : rectangle T N p -> rectangle T N (map (map f) p).
Proof.
  intros [L F]. split; [now rewrite map_length|]. apply Forall_forall. intros r I. apply in_map_iff in I as (r' & <- & I). rewrite map_length. rewrite Forall_forall in F. auto.
Qed.
Lemma map2_combine X Y (p : list (list X)) (q : list (list Y)) : map2 (@combine X Y) p q = map2 (map2 pair) p q.
Proof.
  revert q; induction p as [|r p IH]; intros [|r' q]; cbn [map2]; try reflexivity. rewrite IH. f_equal. clear. revert r'; induction r as [|x r IH]; intros [|y r']; cbn [map2 combine]; try reflexivity. now rewrite IH.
Qed.
Lemma combine_scores X Y Z (f : X -> Y) (g : X -> Z) l : combine (map f l) (map g l) = map (fun x => (f x, g x)) l.
Proof. induction l as [|x l IH]; cbn [map combine]; [reflexivity|]. now rewrite IH. Qed.

Section Objective.
Variable parse_int : pystr -> result Z.
Variable dropout_scale : option ArchModel.value -> result R.
Variable initial : pystr -> pystr -> nat -> nat -> nat -> R.
Variables (default : option pystr) (exclude_unk : bool) (a : architecture) (v : vocabulary) (n : network reals).
Hypothesis B : @build reals parse_int dropout_scale initial default exclude_unk a v = Ok n.
Hypothesis CN : Forall (connected a) (a_layers a).
Hypothesis PW : Forall (placed_well default) (a_layers a).
Hypothesis KS : n_kind n = Softmax.
Hypothesis L1 : length (n_devices n) <= 1.
Variables (T N : nat) (b : batch).
Hypothesis HT : T <> 0.
Hypothesis VB : valid_batch v T N b.
Notation score := (@class_score reals initial n b T).

Lemma objective_is X (objective : R * R -> list (R * R) -> X) d k sh targets drawn :
  rectangle T N targets -> Forall (Forall (fun c => c < num_classes v)) targets ->
  d_sample d (rows_drawn sh T N) (columns_drawn sh T k) = Ok drawn -> good_draw (num_classes v) (rows_drawn sh T N) (columns_drawn sh T k) drawn ->
  exists l, sampling_logprobs objective d k sh n b targets = Ok l /\ rectangle T N l /\
  forall t s c, at2 targets t s = Some c ->
    at2 l t s = Some (objective (score t s c, d_probs d c) (map (fun w => (score t s w, d_probs d w)) (noise_at sh N k drawn t s))).
Proof.
  intros RT FT ES GD. destruct (scores_are _ _ _ _ _ _ _ _ B CN PW KS _ _ _ HT VB L1 _ RT FT) as (u & EU & RU & PU).
  destruct (noise_are _ _ _ _ _ _ _ _ B CN PW KS _ _ _ HT VB L1 _ _ _ _ ES GD) as (ids & y & EY & RB & RY & PY).
  unfold sampling_logprobs. rewrite EU. cbn [bind]. rewrite EY. cbn [bind]. eexists. split; [reflexivity|].
  assert (LY : length y = T) by apply RY. assert (LN : num_sequences y = N).
  { destruct RY as [L F]. unfold num_sequences. destruct y as [|r y]; [cbn in L; lia|]. now inversion F. }
  change (num reals) with R in *. rewrite LY, LN. rewrite map2_combine. split.
  - apply rect_map2; [apply rect_map2; [exact RU|now apply rect_map]|]. apply rect_map2; [exact RY|]. now apply rect_map.
  - intros t s c Ec. destruct (at2_range _ _ _ _ _ _ _ RT Ec) as [Ht Hs]. destruct (PY t s Ht Hs) as (Q1 & Q2 & _ & _).
    apply at2_map2.
    + apply at2_map2; [apply PU; exact Ec|]. rewrite at2_map, Ec. reflexivity.
    + rewrite <- combine_scores. apply at2_map2; [exact Q2|]. rewrite at2_map, Q1. reflexivity.
Qed.
End Objective.

(** ** Noise distributions *)
Open Scope R_scope.
Lemma to_int_iff x c : 0 <= x -> to_int x = c <-> INR c <= x < INR c + 1.
Proof.
  intros H. unfold to_int. destruct (base_Int_part x) as [H1 H2]. set (z := Int_part x) in *.
  assert (Hz : (0 <= z)%Z). { apply Z.lt_succ_r. apply lt_IZR. rewrite succ_IZR. lra. }
  rewrite INR_IZR_INZ. split.
  - intros <-. rewrite Z2Nat.id by exact Hz. lra.
  - intros [Q1 Q2]. apply Nat2Z.inj. rewrite Z2Nat.id by exact Hz. apply Z.le_antisymm; apply Z.lt_succ_r; apply lt_IZR; rewrite succ_IZR; lra.
Qed.
Lemma seq_nth n i : (i < n)%nat -> nth_error (seq 0 n) i = Some i.
Proof. intro H. rewrite ListLib.nth_error_seq. apply Nat.ltb_lt in H. now rewrite H. Qed.
Lemma uniform_at random rows k h i j : (i < rows)%nat -> (j < k)%nat -> at2 (uniform random rows k h) i j = Some (random i j * h).
Proof.
  intros Hi Hj. unfold at2, uniform. rewrite nth_error_map, (seq_nth rows i) by exact Hi. cbn [option_map].
  now rewrite nth_error_map, (seq_nth k j) by exact Hj.
Qed.
Lemma uniform_rect random rows k h : rectangle rows k (uniform random rows k h).
Proof.
  split; [unfold uniform; now rewrite map_length, seq_length|]. apply Forall_forall. intros r I. apply in_map_iff in I as (i & <- & _). now rewrite map_length, seq_length.
Qed.

Lemma uniform_draws support : (0 < support)%nat -> draws_by_probability support (fun random => uniform_distribution random support).
Proof.
  intros H. assert (P : 0 < INR support) by (apply lt_0_INR; exact H). exists (fun c => INR c / INR support). split; [cbn [INR]; lra|]. split; [field; lra|]. split.
  - intros random c Hc. cbn [uniform_distribution d_probs]. rewrite S_INR. split; [field; lra|]. unfold Rdiv. rewrite Rmult_1_l. now apply Rinv_0_lt_compat.
  - intros random rows k HR. cbn [uniform_distribution d_sample]. eexists. split; [reflexivity|]. split; [apply rect_map, uniform_rect|].
    intros i j c Hi Hj. rewrite at2_map, uniform_at by assumption. cbn [option_map]. specialize (HR i j). set (r := random i j) in *.
    assert (E : Some (to_int (r * INR support)) = Some c <-> to_int (r * INR support) = c) by (split; [now intros [= ->]|now intros ->]).
    rewrite E, to_int_iff by nra. rewrite S_INR.
    assert (D : forall y, y / INR support <= r <-> y <= r * INR support).
    { intros y. split; intro Q; [apply (Rmult_le_compat_r (INR support)) in Q; [|lra]|apply (Rmult_le_reg_r (INR support)); [exact P|]]; unfold Rdiv in *; rewrite Rmult_assoc, Rinv_l, Rmult_1_r in *; lra. }
    assert (D' : forall y, r < y / INR support <-> r * INR support < y) by (intros y; specialize (D y); split; intro; apply Rnot_le_lt; intro; lra).
    rewrite D, D'. split; [intros [Q1 Q2]; split; [|lra]|tauto]. apply INR_lt. nra.
Qed.

Lemma log_uniform_draws support : (0 < support)%nat -> draws_by_probability support (fun random => log_uniform_distribution random support).
Proof.
  intros H. assert (P : 0 < INR support) by (apply lt_0_INR; exact H). set (h := ln (INR support + 1)).
  assert (Ph : 0 < h) by (unfold h; rewrite <- ln_1; apply ln_increasing; lra).
  exists (fun c => ln (INR c + 1) / h). split; [cbn [INR]; rewrite Rplus_0_l, ln_1; unfold Rdiv; lra|]. split; [fold h; field; lra|]. split.
  - intros random c Hc. cbn [log_uniform_distribution d_probs]. fold h. pose proof (pos_INR c) as PC. rewrite S_INR.
    assert (E : ln ((INR c + 2) / (INR c + 1)) = ln (INR c + 2) - ln (INR c + 1)).
    { unfold Rdiv. rewrite ln_mult, ln_Rinv; [lra|lra|lra|apply Rinv_0_lt_compat; lra]. }
    rewrite E. replace (INR c + 1 + 1) with (INR c + 2) by lra. split; [field; lra|]. apply Rdiv_lt_0_compat; [|exact Ph].
    assert (ln (INR c + 1) < ln (INR c + 2)) by (apply ln_increasing; lra). lra.
  - intros random rows k HR. cbn [log_uniform_distribution d_sample]. fold h. eexists. split; [reflexivity|]. split; [apply rect_map, uniform_rect|].
    intros i j c Hi Hj. rewrite at2_map, uniform_at by assumption. cbn [option_map]. specialize (HR i j). set (r := random i j) in *.
    assert (E : forall y, Some (to_int y) = Some c <-> to_int y = c) by (intro; split; [now intros [= ->]|now intros ->]).
    assert (X0 : 0 <= r * h) by nra. assert (XE : 1 <= Rtrigo_def.exp (r * h)). { destruct (Req_dec (r * h) 0) as [->|N0]; [rewrite exp_0; lra|]. rewrite <- exp_0 at 1. left. apply exp_increasing. lra. }
    rewrite E, to_int_iff by lra. rewrite S_INR.
    assert (D : forall y, 0 < y -> (ln y / h <= r <-> y <= Rtrigo_def.exp (r * h))).
    { intros y Hy. assert (D1 : ln y / h <= r <-> ln y <= r * h).
      { split; intro Q; [apply (Rmult_le_compat_r h) in Q; [|lra]|apply (Rmult_le_reg_r h); [exact Ph|]]; unfold Rdiv in *; rewrite Rmult_assoc, Rinv_l, Rmult_1_r in *; lra. }
      rewrite D1. split; intro Q.
      - rewrite <- (exp_ln y Hy). destruct Q as [Q| ->]; [left; now apply exp_increasing|lra].
      - rewrite <- (ln_exp (r * h)). destruct Q as [Q|Q]; [left; now apply ln_increasing|right; now rewrite Q]. }
    assert (D' : forall y, 0 < y -> (r < ln y / h <-> Rtrigo_def.exp (r * h) < y)) by (intros y Hy; specialize (D y Hy); split; intro; apply Rnot_le_lt; intro; lra).
    pose proof (pos_INR c) as PC. rewrite D, D' by lra. split; [intros [Q1 Q2]; split; [|lra]|intros [_ Q]; lra].
    apply INR_lt. assert (U : Rtrigo_def.exp (r * h) < INR support + 1). { rewrite <- (exp_ln (INR support + 1)) by lra. fold h. apply exp_increasing. nra. } lra.
Qed.

(** *** Sums *)
Lemma rsum_div l z : rsum (map (fun x => x / z) l) = rsum l / z.
Proof. unfold rsum. induction l as [|x l IH]; cbn [map fold_right]; [unfold Rdiv; lra|]. rewrite IH. unfold Rdiv. lra. Qed.
Lemma rsum_nonneg l : Forall (fun x => 0 <= x) l -> 0 <= rsum l.
Proof. unfold rsum. induction 1; cbn [fold_right]; lra. Qed.
Lemma rsum_pos l : Forall (fun x => 0 <= x) l -> Exists (fun x => 0 < x) l -> 0 < rsum l.
Proof.
  intros F E. induction E as [x l P|x l E IH]; inversion F; subst; unfold rsum in *; cbn [fold_right]; [assert (Q := rsum_nonneg l ltac:(assumption)); unfold rsum in Q; lra|].
  specialize (IH ltac:(assumption)). lra.
Qed.
Lemma rsum_seq (l : list R) : rsum (map (fun c => nth c l 0) (seq 0 (length l))) = rsum l.
Proof.
  f_equal. apply ListLib.nth_error_ext. intro i. rewrite nth_error_map. destruct (Nat.lt_ge_cases i (length l)) as [H|H].
  - rewrite (seq_nth (length l) i) by exact H. cbn [option_map]. symmetry. now apply nth_error_nth'.
  - rewrite (proj2 (nth_error_None l i)) by exact H. now rewrite (proj2 (nth_error_None _ i)) by (now rewrite seq_length).
Qed.
Lemma telescope (f : nat -> R) (p : nat -> R) n : (forall c, (c < n)%nat -> f (S c) - f c = p c) -> rsum (map p (seq 0 n)) = f n - f 0%nat.
Proof.
  revert f p. induction n as [|n IH]; intros f p H; [unfold rsum; cbn [seq map fold_right]; lra|].
  cbn [seq map]. unfold rsum in *. cbn [fold_right]. rewrite <- seq_shift, map_map. rewrite (IH (fun i => f (S i)) (fun i => p (S i))) by (intros c Hc; apply H; lia).
  rewrite <- (H 0%nat) by lia. lra.
Qed.
Lemma power_nonneg x d : 0 <= power x d.
Proof.
  unfold power. destruct (Req_EM_T x 0); [destruct (Req_EM_T d 0); lra|]. unfold Rpower. left. apply exp_pos.
Qed.
Lemma power_pos x d : 0 < x -> 0 < power x d.
Proof. intro H. unfold power. destruct (Req_EM_T x 0); [lra|]. unfold Rpower. apply exp_pos. Qed.
