(** The layers of a network that has been built compute what the equations say. *)
From Verif Require Import Base BaseLib ListLib Strings NumStr ParamModel VocabModel NetModel NetSpec NetColumns NetSteps NetShape
  DeviceModel DeviceSpec DeviceProofs DeviceNet BuildModel BuildSpec BuildShape BuildLayers BuildNet EquationSpec EquationTab.
Local Open Scope nat_scope.

Section Layers.
Context {A : arith}.
Notation num := (num A).
Notation vec := (list num).
Notation matrix := (list (list num)).
Notation tensor := (list (list (list num))).
Notation params := (list (pystr * param A)).
Notation activity := (nat -> nat -> nat -> num).
Variable initial : pystr -> pystr -> nat -> nat -> nat -> num.
Variables T N : nat.
Hypothesis HT : T <> 0.

Definition out_is (b : batch) (o : value A * nat) (p : layer A * activity) : Prop :=
  snd o = l_size (fst p) /\
  fst o = if input_kind (l_kind (fst p)) then IDs (tabm T N (ids_of b (l_kind (fst p)))) else Features (tab T N (l_size (fst p)) (snd p)).
Definition sized (p : layer A * activity) : nat * activity := let (l, x) := p in (l_size l, x).

Lemma picked b outs done inputs ins (d0 : layer A * activity) : Forall2 (out_is b) outs done -> mapM (py_index outs) inputs = Ok ins ->
  Forall2 (out_is b) ins (map (fun i => nth i done d0) inputs).
Proof.
  intro F. revert ins. induction inputs as [|i inputs IH]; intros ins; cbn [mapM map]; [intro H; injection H as <-; constructor|].
  unfold py_index at 1. destruct (nth_error outs i) as [o|] eqn:E; cbn [bind]; [|discriminate].
  destruct (mapM (py_index outs) inputs) as [r|]; cbn [bind]; [|discriminate]. intro H. injection H as <-. constructor; [|auto].
  destruct (F2_nth _ _ _ _ _ _ _ F E) as (p & Ep & R). now rewrite (nth_error_nth _ _ d0 Ep).
Qed.
Lemma sizes_picked b ins ps : Forall2 (out_is b) ins ps -> map snd ins = map fst (map sized ps).
Proof. induction 1 as [|o [l x] ins ps [E _] _ IH]; cbn [map sized fst]; [reflexivity|]. rewrite IH. f_equal. exact E. Qed.
Lemma features_tab b ins ps : Forall2 (out_is b) ins ps -> Forall (fun o => is_ids (fst o) = false) ins ->
  mapM (fun v : value A * nat => features (fst v)) ins = Ok (map (fun '(sz, x) => tab T N sz x) (map sized ps)).
Proof.
  induction 1 as [|[v z] [l x] ins ps [E1 E2] _ IH]; intro F; cbn [mapM map sized]; [reflexivity|]. inversion_clear F as [|? ? Hv F'].
  cbn [fst snd] in *. subst v. destruct (input_kind (l_kind l)); [discriminate|]. cbn [features bind]. rewrite (IH F'). reflexivity.
Qed.
Lemma input_tab b ins ps : Forall2 (out_is b) ins ps -> Forall (fun o => is_ids (fst o) = false) ins -> ins <> [] ->
  (do fs <- mapM (fun v : value A * nat => features (fst v)) ins; concat_features fs) = Ok (tab T N (total_size (map sized ps)) (joined (map sized ps))).
Proof.
  intros F Hf Hn. rewrite (features_tab _ _ _ F Hf). cbn [bind]. apply concat_tab. destruct F; [contradiction|discriminate].
Qed.

Lemma num_sequences_tab F (x : activity) : num_sequences (tab T N F x) = N.
Proof. apply (sequences_box T N F); [exact HT|apply tab_box]. Qed.

Section Directions.
Variables (devices : list (option pystr)) (ps : params) (name : pystr) (size n : nat) (act : activation) (mask : nat -> nat -> bool) (x : activity).
Notation affine' := (affine initial name (str "layer_input") n).
Lemma lstm_forward :
  Forall (placed devices ps) (recurrent_params name (new_matrix initial name (str "layer_input/W") 0 n (4 * size))
    (new_matrix initial name (str "step_input/W") 0 size (4 * size)) (new_bias initial name (str "layer_input/b") (4 * size))) ->
  lstm_minibatch ps name devices size act false (tabm T N mask) (tab T N n x) =
  Ok (tab T N size (fun t s k => snd (lstm initial name size act (fun u => mask u s) (fun u => affine' (x u s)) (S t)) k)).
Proof.
  intro P. unfold lstm_minibatch. unshelve erewrite (recurrent_preact _ _ _ _ _ _ _ _ P); [now rewrite new_bias_length, new_matrix_length|]. cbn [bind].
  rewrite (recurrent_step_weight _ _ _ _ _ _ P). cbn [bind]. cbv zeta. rewrite num_sequences_tab.
  rewrite (preact_tab initial name (str "layer_input")). unfold tabm, tab at 1. rewrite combine_tabv. f_equal. apply (lstm_scan_tab initial name T N size act mask (fun u s => affine' (x u s))).
Qed.
Lemma gru_forward :
  Forall (placed devices ps) (recurrent_params name (new_matrix initial name (str "layer_input/W") 0 n (3 * size))
    (new_matrix initial name (str "step_input/W") 0 size (3 * size)) (new_bias initial name (str "layer_input/b") (3 * size))) ->
  gru_minibatch ps name devices size false (tabm T N mask) (tab T N n x) =
  Ok (tab T N size (fun t s k => gru initial name size (fun u => mask u s) (fun u => affine' (x u s)) (S t) k)).
Proof.
  intro P. unfold gru_minibatch. unshelve erewrite (recurrent_preact _ _ _ _ _ _ _ _ P); [now rewrite new_bias_length, new_matrix_length|]. cbn [bind].
  rewrite (recurrent_step_weight _ _ _ _ _ _ P). cbn [bind]. cbv zeta. rewrite num_sequences_tab.
  rewrite (preact_tab initial name (str "layer_input")). unfold tabm, tab at 1. rewrite combine_tabv. f_equal. apply (gru_scan_tab initial name T N size mask (fun u s => affine' (x u s))).
Qed.
Notation later s := (fun u k => if T - 1 - u + 2 <? T then affine' (x (T - 1 - u + 2) s) k else zero).
Lemma reversed_steps F (z : activity) :
  combine (rev (tabm T N mask)) (rev (shifted (tab T N F z) N)) =
  tabv T (fun u => (tabv N (mask (T - 1 - u)), tabm N F (fun s k => if T - 1 - u + 2 <? T then z (T - 1 - u + 2) s k else zero))).
Proof.
  rewrite combine_firstn_l, rev_length. unfold tabm at 1 2. rewrite tabv_length, (shifted_tab T N F z HT), rev_tabv, combine_tabv. reflexivity.
Qed.
Lemma lstm_backward :
  Forall (placed devices ps) (recurrent_params name (new_matrix initial name (str "layer_input/W") 0 n (4 * size))
    (new_matrix initial name (str "step_input/W") 0 size (4 * size)) (new_bias initial name (str "layer_input/b") (4 * size))) ->
  lstm_minibatch ps name devices size act true (tabm T N mask) (tab T N n x) =
  Ok (tab T N size (fun t s k => snd (lstm initial name size act (fun u => mask (T - 1 - u) s) (later s) (T - t)) k)).
Proof.
  intro P. unfold lstm_minibatch. unshelve erewrite (recurrent_preact _ _ _ _ _ _ _ _ P); [now rewrite new_bias_length, new_matrix_length|]. cbn [bind].
  rewrite (recurrent_step_weight _ _ _ _ _ _ P). cbn [bind]. cbv zeta. rewrite num_sequences_tab.
  rewrite (preact_tab initial name (str "layer_input")). rewrite reversed_steps. f_equal. rewrite map_rev.
  rewrite (lstm_scan_tab initial name T N size act (fun u => mask (T - 1 - u)) (fun u s => later s u)). unfold tab at 1. rewrite rev_tabv.
  apply tabv_ext. intros t Ht. replace (1 + (T - 1 - t)) with (T - t) by lia. reflexivity.
Qed.
Lemma gru_backward :
  Forall (placed devices ps) (recurrent_params name (new_matrix initial name (str "layer_input/W") 0 n (3 * size))
    (new_matrix initial name (str "step_input/W") 0 size (3 * size)) (new_bias initial name (str "layer_input/b") (3 * size))) ->
  gru_minibatch ps name devices size true (tabm T N mask) (tab T N n x) =
  Ok (tab T N size (fun t s k => gru initial name size (fun u => mask (T - 1 - u) s) (later s) (T - t) k)).
Proof.
  intro P. unfold gru_minibatch. unshelve erewrite (recurrent_preact _ _ _ _ _ _ _ _ P); [now rewrite new_bias_length, new_matrix_length|]. cbn [bind].
  rewrite (recurrent_step_weight _ _ _ _ _ _ P). cbn [bind]. cbv zeta. rewrite num_sequences_tab.
  rewrite (preact_tab initial name (str "layer_input")). rewrite reversed_steps. f_equal.
  rewrite (gru_scan_tab initial name T N size (fun u => mask (T - 1 - u)) (fun u s => later s u)). unfold tab at 1. rewrite rev_tabv.
  apply tabv_ext. intros t Ht. replace (1 + (T - 1 - t)) with (T - t) by lia. reflexivity.
Qed.
End Directions.

Lemma lookup_tab layer name r c (ids : nat -> nat -> nat) : (forall t s, t < T -> s < N -> ids t s < r) ->
  lookup (new_matrix initial layer name 0 r c) (tabm T N ids) = Ok (tab T N c (fun t s k => initial layer name 0 (ids t s) k)).
Proof.
  intro B.
  assert (MT : forall X Y (f : X -> result Y) n (g : nat -> X) (h : nat -> Y), (forall i, i < n -> f (g i) = Ok (h i)) -> mapM f (tabv n g) = Ok (tabv n h)).
  { intros X Y f n g h H. unfold tabv. assert (G : forall i, In i (seq 0 n) -> f (g i) = Ok (h i)) by (intros i Hi; apply in_seq in Hi; apply H; lia).
    induction (seq 0 n) as [|i l IH]; cbn [map mapM]; [reflexivity|]. rewrite (G i) by now left. cbn [bind]. rewrite IH; [reflexivity|]. intros; apply G; now right. }
  unfold lookup. apply MT. intros t Ht. apply MT. intros s Hs. rewrite matrix_tab. apply MT. intros k _. unfold py_index. now rewrite tabv_nth by auto.
Qed.
Lemma lookup_matrix (ids : list (list nat)) : rectangle T N ids -> ids = tabm T N (fun t s => nth s (nth t ids []) 0).
Proof. apply rect_tabm. Qed.

Lemma half size : size - size / 2 + size / 2 = size.
Proof. pose proof (Nat.div_le_upper_bound size 2 size ltac:(lia) ltac:(lia)). lia. Qed.
Lemma two_tab size (f g : activity) : concat_features [tab T N (size - size / 2) f; tab T N (size / 2) g] =
  Ok (tab T N size (fun t s k => if k <? size - size / 2 then f t s k else g t s (k - (size - size / 2)))).
Proof. cbn [concat_features fold_left]. rewrite app_tab, half. reflexivity. Qed.

(** All inputs of an addition *)
Lemma addition_tab devices (ps : params) name size (l : list (nat * activity)) w :
  Forall (placed devices ps) (initial_params Addition name (map fst l) size (Projections w)) ->
  (forall i z x, nth_error l i = Some (z, x) -> w i = new_matrix initial name (str "input" ++ str_of_nat i ++ str "/W")%list 0 z size) ->
  mapM (addition_input ps name devices size) (combine (seq 0 (length l)) (map (fun '(z, x) => (tab T N z x, z)) l)) =
  Ok (tabv (length l) (fun i => tab T N size (fun t s k => let (z, y) := nth i l (0, fun _ _ _ => zero) in
    if z =? size then y t s k else linear initial name (str "input" ++ str_of_nat i ++ str "/W")%list 0 z (y t s) k))).
Proof.
  intros P W.
  assert (G : forall r a, (forall i, nth_error r i = nth_error l (a + i)) ->
    mapM (addition_input ps name devices size) (combine (seq a (length r)) (map (fun '(z, x) => (tab T N z x, z)) r)) =
    Ok (map (fun i => tab T N size (fun t s k => let (z, y) := nth i l (0, fun _ _ _ => zero) in
      if z =? size then y t s k else linear initial name (str "input" ++ str_of_nat i ++ str "/W")%list 0 z (y t s) k)) (seq a (length r)))).
  2: { apply G. reflexivity. }
  induction r as [|[z x] r IH]; intros a H; cbn [length seq map combine mapM]; [reflexivity|].
  assert (Ha : nth_error l a = Some (z, x)) by (rewrite <- (Nat.add_0_r a), <- H; reflexivity).
  rewrite (nth_error_nth _ _ (0, fun _ _ _ => zero) Ha).
  assert (E : addition_input ps name devices size (a, (tab T N z x, z)) = Ok (tab T N size (fun t s k =>
    if z =? size then x t s k else linear initial name (str "input" ++ str_of_nat a ++ str "/W")%list 0 z (x t s) k))).
  { cbn [addition_input]. destruct (z =? size) eqn:Z; [apply Nat.eqb_eq in Z as ->; reflexivity|].
    assert (Gw : In (name, (str "input" ++ str_of_nat a ++ str "/W")%list, true, Weight (w a)) (initial_params Addition name (map fst l) size (Projections w))).
    { cbn [initial_params]. apply in_flat_map. exists (a, z). split; [|rewrite Z; now left].
      assert (Hs : nth_error (map fst l) a = Some z) by (rewrite nth_error_map, Ha; reflexivity).
      clear - Hs. assert (K : forall l i k, nth_error l i = Some z -> In (k + i, z) (combine (seq k (length l)) l)).
      { clear. induction l as [|y l IH]; intros [|i] k H; cbn in *; try discriminate.
        - left. rewrite Nat.add_0_r. congruence.
        - right. rewrite Nat.add_succ_r. apply (IH i (S k) H). }
      exact (K _ _ 0 Hs). }
    rewrite (app_assoc (str "input")) in Gw. rewrite (placed_preact_no_bias devices ps name (str "input" ++ str_of_nat a)%list (w a) _ (F_in _ _ _ _ P Gw)).
    rewrite (W _ _ _ Ha). f_equal. apply preact_tab_no_bias. }
  rewrite E. cbn [bind]. rewrite (IH (S a)); [reflexivity|]. intro i. specialize (H (S i)). cbn [nth_error] in H. rewrite H. f_equal. lia.
Qed.

Lemma map_tab (g : matrix -> matrix) F G (f : activity) h : (forall t, t < T -> g (tabm N F (f t)) = tabm N G (h t)) -> map g (tab T N F f) = tab T N G h.
Proof. intro H. unfold tab. rewrite map_tabv. apply tabv_ext. exact H. Qed.
Lemma map2_tab (g : matrix -> matrix -> matrix) F G K (f h : activity) r : (forall t, t < T -> g (tabm N F (f t)) (tabm N G (h t)) = tabm N K (r t)) ->
  map2 g (tab T N F f) (tab T N G h) = tab T N K r.
Proof. intro H. unfold tab. rewrite map2_tabv. apply tabv_ext. exact H. Qed.

Lemma layer_is b outs done i j d l input_sizes :
  create_layer (map snd outs) d = Ok l -> mapM (py_index (map snd outs)) (d_inputs d) = Ok input_sizes ->
  d_values d = new_values initial (d_kind d) (d_name d) input_sizes (d_size d) ->
  check_inputs (d_kind d) input_sizes (d_size d) = Ok tt -> (forall k, d_kind d = GLU k -> k <> 0) -> works_on_devices d ->
  Forall (out_ok T N) outs -> fits outs (d_kind d) (d_inputs d) ->
  rectangle T N (b_mask b) -> rectangle T N (b_words b) -> rectangle T N (b_classes b) ->
  Forall2 (out_is b) outs done -> i = length done ->
  exists v, eval_layer Minibatch b outs i j l = Ok (v, []) /\
    exists p, next_activity initial b T done l = (done ++ [p])%list /\ fst p = l /\ out_is b (v, d_size d) p.
Proof.
  intros C EI V CH HG W FO Fit RM RW RC DN Hi.
  destruct (created_layer _ _ _ C) as (is & EI' & EL & P). rewrite EI in EI'. injection EI' as <-. rewrite V in P.
  assert (EK : l_kind l = d_kind d) by now rewrite EL. assert (ENm : l_name l = d_name d) by now rewrite EL. assert (EIn : l_inputs l = d_inputs d) by now rewrite EL.
  assert (ESz : l_size l = d_size d) by now rewrite EL. assert (EA : l_activation l = d_activation d) by now rewrite EL. assert (ED : l_devices l = d_devices d) by now rewrite EL.
  assert (ESc : l_scale l = d_scale d) by now rewrite EL. clear EL C.
  unfold eval_layer. rewrite EIn.
  assert (INS : exists ins, mapM (py_index outs) (d_inputs d) = Ok ins).
  { destruct (inputs_found outs (d_inputs d) (fun _ => True)) as (ins & E & _); [|eauto].
    clear - EI. revert input_sizes EI. induction (d_inputs d) as [|k r IH]; intros s; cbn [mapM]; [intros _ ? []|].
    unfold py_index at 1. rewrite nth_error_map. destruct (nth_error outs k) as [o|] eqn:E; cbn [option_map bind]; [|discriminate].
    destruct (mapM _ r) as [s'|] eqn:E'; cbn [bind]; [|discriminate]. intros _ i [<-|Hi]; [eauto|]. eapply IH; eauto. }
  destruct INS as (ins & E). rewrite E. cbn [bind]. cbv zeta.
  pose proof (outs_in _ _ _ _ _ FO E) as FI. assert (ES : input_sizes = map snd ins) by (apply mapM_sizes in E; congruence).
  pose proof (picked b outs done (d_inputs d) ins (l, fun _ _ _ => zero) DN E) as PK.
  unfold next_activity. cbv zeta. rewrite EIn. set (ps := map (fun i => nth i done (l, fun _ _ _ => zero)) (d_inputs d)) in *.
  change (map (fun '(i0, x) => (l_size i0, x)) ps) with (map sized ps).
  assert (NF : match d_kind d with WordInput | ClassInput | Projection => False | _ => True end ->
     ins <> [] /\ Forall (fun o => is_ids (fst o) = false) ins).
  { intro K. assert (Q : d_inputs d <> [] /\ forall i, In i (d_inputs d) -> exists o, nth_error outs i = Some o /\ is_ids (fst o) = false) by (unfold fits in Fit; destruct (d_kind d); try contradiction; exact Fit).
    destruct Q as [Q1 Q2]. destruct (inputs_found outs _ _ Q2) as (ins' & E' & L' & F'). rewrite E in E'. injection E' as <-.
    split; [|exact F']. destruct ins; [|discriminate]. destruct (d_inputs d); [contradiction|discriminate]. }
  pose proof (sizes_picked _ _ _ PK) as SP. rewrite <- ES in SP.
  assert (TS : sum input_sizes = total_size (map sized ps)) by (rewrite SP; reflexivity).
  assert (LI : match d_kind d with WordInput | ClassInput | Projection => False | _ => True end ->
     (do fs <- mapM (fun v : value A * nat => features (fst v)) ins; concat_features fs) = Ok (tab T N (sum input_sizes) (joined (map sized ps)))).
  { intro K. destruct (NF K) as [Q1 Q2]. rewrite TS. eapply input_tab; eauto. }
  assert (MK : b_mask b = tabm T N (valid_word b)) by (apply (rect_tabm _ false); exact RM).
  unfold layer_activity. cbv zeta. rewrite EK, ENm, ESz, EA, ED, ESc, <- Hi. unfold out_is.
  destruct (d_kind d) eqn:KD; cbn [new_values initial_params recurrent_matrices] in P.
  - (* WordInput *) exists (IDs (b_words b)). split; [reflexivity|]. eexists. split; [reflexivity|]. split; [reflexivity|]. cbn [fst snd]. rewrite EK, ESz. split; [reflexivity|]. cbn [input_kind ids_of]. f_equal. now apply lookup_matrix.
  - exists (IDs (b_classes b)). split; [reflexivity|]. eexists. split; [reflexivity|]. split; [reflexivity|]. cbn [fst snd]. rewrite EK, ESz. split; [reflexivity|]. cbn [input_kind ids_of]. f_equal. now apply lookup_matrix.
  - (* Projection *) cbn [fits] in Fit. destruct Fit as (k & o & EIk & Eo & Ho). rewrite EIk in E. cbn [mapM] in E. unfold py_index at 1 in E. rewrite Eo in E. cbn [bind] in E. injection E as <-.
    destruct o as [[ids|?] z]; [|discriminate]. inversion_clear FI as [|? ? RB _]. cbn [out_ok fst snd] in RB. destruct RB as [R B].
    inversion PK as [|? [l0 x0] ? ps' [E1 E2] PK' EP1 EP2]. subst. cbn [fst snd] in E1, E2.
    pose proof (placed_table _ _ _ _ ids (F_in _ _ _ _ P (or_introl eq_refl))) as EQ. unfold lookup in EQ.
    rewrite bind_bind, EQ. destruct (input_kind (l_kind l0)); [|discriminate]. injection E2 as ->.
    assert (B' : forall t s, t < T -> s < N -> ids_of b (l_kind l0) t s < sum (map snd [(IDs (tabm T N (ids_of b (l_kind l0))) : value A, z)])).
    { intros t s Ht Hs. cbn [map snd sum fold_right]. rewrite Nat.add_0_r. rewrite Forall_forall in B.
      assert (B1 := B _ (nth_error_In _ _ (tabv_nth _ T _ t Ht))). rewrite Forall_forall in B1. exact (B1 _ (nth_error_In _ _ (tabv_nth _ N _ s Hs))). }
    pose proof (lookup_tab (d_name d) (str "W") _ (d_size d) _ B') as LT. unfold lookup in LT. rewrite LT. cbn [bind].
    eexists. split; [reflexivity|]. eexists. split; [reflexivity|]. split; [reflexivity|]. cbn [fst snd]. rewrite EK, ESz. split; reflexivity.
  - (* FullyConnected *) rewrite (LI I). cbn [bind]. 
    rewrite (affine_preact _ _ _ _ _ _ P) by (now rewrite new_bias_length, new_matrix_length). cbn [bind].
    eexists. split; [reflexivity|]. eexists. split; [reflexivity|]. split; [reflexivity|]. cbn [fst snd]. rewrite EK, ESz. split; [reflexivity|]. cbn [input_kind]. f_equal.
    rewrite (preact_tab initial (d_name d) (str "input")), TS. apply map_tab. intros t _. rewrite mmap_tab. reflexivity.
  - (* LSTM *) rewrite (LI I). cbn [bind]. rewrite MK. rewrite (lstm_forward _ _ _ _ _ _ _ _ P). cbn [bind].
    eexists. split; [reflexivity|]. eexists. split; [reflexivity|]. split; [reflexivity|]. cbn [fst snd]. rewrite EK, ESz. split; [reflexivity|]. cbn [input_kind]. rewrite TS. reflexivity.
  - (* GRU *) rewrite (LI I). cbn [bind]. rewrite MK. rewrite (gru_forward _ _ _ _ _ _ _ P). cbn [bind].
    eexists. split; [reflexivity|]. eexists. split; [reflexivity|]. split; [reflexivity|]. cbn [fst snd]. rewrite EK, ESz. split; [reflexivity|]. cbn [input_kind]. rewrite TS. reflexivity.
  - (* BLSTM *) rewrite (LI I). cbn [bind]. rewrite MK. apply Forall_app in P as [P1 P2]. rewrite (lstm_forward _ _ _ _ _ _ _ _ P1). cbn [bind]. rewrite (lstm_backward _ _ _ _ _ _ _ _ P2). cbn [bind].
    rewrite two_tab. cbn [bind]. eexists. split; [reflexivity|]. eexists. split; [reflexivity|]. split; [reflexivity|]. cbn [fst snd]. rewrite EK, ESz. split; [reflexivity|]. cbn [input_kind]. rewrite TS. reflexivity.
  - (* BGRU *) rewrite (LI I). cbn [bind]. rewrite MK. apply Forall_app in P as [P1 P2]. rewrite (gru_forward _ _ _ _ _ _ _ P1). cbn [bind]. rewrite (gru_backward _ _ _ _ _ _ _ P2). cbn [bind].
    rewrite two_tab. cbn [bind]. eexists. split; [reflexivity|]. eexists. split; [reflexivity|]. split; [reflexivity|]. cbn [fst snd]. rewrite EK, ESz. split; [reflexivity|]. cbn [input_kind]. rewrite TS. reflexivity.
  - (* Highway *) rewrite (LI I). cbn [bind].
    rewrite (affine_preact _ _ _ _ _ _ P) by (now rewrite new_bias_length, new_matrix_length). cbn [bind].
    cbn [check_inputs] in CH. destruct (Nat.eqb_spec (sum input_sizes) (d_size d)) as [EZ|]; [|discriminate].
    eexists. split; [reflexivity|]. eexists. split; [reflexivity|]. split; [reflexivity|]. cbn [fst snd]. rewrite EK, ESz. split; [reflexivity|]. cbn [input_kind]. f_equal.
    rewrite (preact_tab initial (d_name d) (str "input")), TS. rewrite TS in EZ.
    unfold tab. rewrite !map_tabv, !map2_tabv. apply tabv_ext. intros t _. rewrite !sub1_tab by lia. rewrite !mmap_tab, EZ. unfold madd, mmul. rewrite !mmap2_tab.
    apply tabm_ext. intros s k _ _. rewrite Nat.mul_0_l, Nat.add_0_l, Nat.mul_1_l. reflexivity.
  - (* GLU *) cbn [check_inputs] in CH. destruct (Nat.eqb_spec (length input_sizes) 1) as [L1|]; [|discriminate].
    rewrite ES, map_length in L1. destruct (NF I) as [_ FI']. destruct ins as [|[[?|x] z] [|? ?]]; try discriminate; [inversion FI'; discriminate|].
    inversion PK as [|? [l0 x0] ? ps' [E1 E2] PK' EP1 EP2]. inversion PK'. subst ps'. cbn [fst snd] in E1, E2. rewrite <- EP2 in *. destruct (input_kind (l_kind l0)); [discriminate|]. injection E2 as ->. subst z.
    unfold works_on_devices in W. rewrite KD in W. rewrite W in P |- *.
    pose proof (F_in _ _ _ _ P (or_introl eq_refl)) as [[_ Q1]|[Q1 _]]; [|congruence].
    pose proof (F_in _ _ _ _ P (or_intror (or_introl eq_refl))) as [[_ Q2]|[Q2 _]]; [|congruence].
    unfold tensor_conv1d, get_filters, get_bias, get_param. cbn [mapM]. change (str "input" ++ str "/W")%list with (str "input/W").
    change (str "input" ++ str "/b")%list with (str "input/b"). rewrite Q1. cbn [bind map concat_features fold_left]. rewrite Q2. cbn [bind].
    eexists. split; [reflexivity|]. eexists. split; [reflexivity|]. split; [reflexivity|]. cbn [fst snd]. rewrite EK, ESz. split; [reflexivity|]. cbn [input_kind]. f_equal.
    assert (EZ : sum input_sizes = l_size l0) by (rewrite ES; cbn [map snd sum fold_right]; apply Nat.add_0_r). rewrite EZ, num_sequences_tab, conv_tab by (now apply HG).
    rewrite bias_tab. rewrite (Nat.mul_comm (d_size d) 2).
    unfold tab. rewrite !map_tabv. apply tabv_ext. intros t _.
    match goal with |- mmul (get_submatrix ?m 0 _ 0) _ = _ => replace m with (tabm N (2 * d_size d) (fun s c => add (sum_from_left filter_size (fun i0 => linear initial (d_name d) (str "input/W") i0 (l_size l0)
         (fun j0 => if t + i0 <? filter_size - 1 then zero else x0 (t + i0 - (filter_size - 1)) s j0) c)) (initial (d_name d) (str "input/b") 0 0 c))) end.
    2: { unfold tabm. rewrite map_tabv. apply tabv_ext. intros s _. symmetry. apply map2_tabv. }
    rewrite !sub1_tab by lia. rewrite !mmap_tab. unfold mmul. rewrite mmap2_tab. apply tabm_ext. intros s k _ _. rewrite Nat.mul_0_l, Nat.add_0_l, Nat.mul_1_l.
    cbn [map sized joined total_size fst fold_right]. rewrite Nat.add_0_r.
    assert (J : forall c, sum_from_left filter_size (fun i0 => linear initial (d_name d) (str "input/W") i0 (l_size l0) (fun j0 => if t + i0 <? filter_size - 1 then zero else x0 (t + i0 - (filter_size - 1)) s j0) c) =
      sum_from_left filter_size (fun i0 => linear initial (d_name d) (str "input/W") i0 (l_size l0) (fun j0 => if t + i0 <? filter_size - 1 then zero else if j0 <? l_size l0 then x0 (t + i0 - (filter_size - 1)) s j0 else zero) c)).
    { intro c. apply sum_from_left_ext; [|now apply HG]. intros i0 _. apply linear_ext. intros j0 Hj. destruct (Nat.ltb_spec j0 (l_size l0)); [reflexivity|lia]. }
    rewrite !J. reflexivity.
  - (* Addition *) destruct (NF I) as [Hn FI'].
    assert (EX : mapM (fun v : value A * nat => do x <- features (fst v); Ok (x, snd v)) ins = Ok (map (fun '(z, x) => (tab T N z x, z)) (map sized ps))).
    { clear - PK FI'. induction PK as [|[v z] [l0 x] ins ps0 [E1 E2] _ IH]; cbn [mapM map]; [reflexivity|]. inversion_clear FI' as [|? ? Hv F'].
      cbn [fst snd] in *. subst v. destruct (input_kind (l_kind l0)); [discriminate|]. cbn [features bind]. rewrite (IH F'). cbn [bind map sized]. now rewrite E1. }
    rewrite EX. cbn [bind]. rewrite (map_length _ (map sized ps)). rewrite SP in P.
    rewrite (addition_tab _ _ _ _ _ _ P).
    2: { intros i0 z x Hz. f_equal. apply nth_error_nth. now rewrite nth_error_map, Hz. }
    cbn [bind]. rewrite sum_tensors_tab. 2: { rewrite map_length. intro H0. destruct PK; [contradiction|discriminate]. }
    cbn [bind]. eexists. split; [reflexivity|]. eexists. split; [reflexivity|]. split; [reflexivity|]. cbn [fst snd]. rewrite EK, ESz. split; [reflexivity|]. cbn [input_kind]. reflexivity.
  - (* Dropout *) rewrite (LI I). cbn [bind]. eexists. split; [reflexivity|]. eexists. split; [reflexivity|]. split; [reflexivity|]. cbn [fst snd]. rewrite EK, ESz. split; [reflexivity|]. cbn [input_kind]. f_equal.
    cbn [check_inputs] in CH. destruct (Nat.eqb_spec (sum input_sizes) (d_size d)) as [<-|]; [|discriminate].
    destruct (b_dropout b) as [p|]; [|reflexivity]. apply dropout_tab.
  - (* ReverseLSTM *) rewrite (LI I). cbn [bind]. rewrite MK. rewrite (lstm_backward _ _ _ _ _ _ _ _ P). cbn [bind].
    eexists. split; [reflexivity|]. eexists. split; [reflexivity|]. split; [reflexivity|]. cbn [fst snd]. rewrite EK, ESz. split; [reflexivity|]. cbn [input_kind]. rewrite TS. reflexivity.
  - (* ReverseGRU *) rewrite (LI I). cbn [bind]. rewrite MK. rewrite (gru_backward _ _ _ _ _ _ _ P). cbn [bind].
    eexists. split; [reflexivity|]. eexists. split; [reflexivity|]. split; [reflexivity|]. cbn [fst snd]. rewrite EK, ESz. split; [reflexivity|]. cbn [input_kind]. rewrite TS. reflexivity.
  - (* ReverseBLSTM *) rewrite (LI I). cbn [bind]. rewrite MK. apply Forall_app in P as [P1 P2]. rewrite (lstm_backward _ _ _ _ _ _ _ _ P1). cbn [bind]. rewrite (lstm_backward _ _ _ _ _ _ _ _ P2). cbn [bind].
    rewrite two_tab. cbn [bind]. eexists. split; [reflexivity|]. eexists. split; [reflexivity|]. split; [reflexivity|]. cbn [fst snd]. rewrite EK, ESz. split; [reflexivity|]. cbn [input_kind]. rewrite TS. reflexivity.
  - (* ReverseBGRU *) rewrite (LI I). cbn [bind]. rewrite MK. apply Forall_app in P as [P1 P2]. rewrite (gru_backward _ _ _ _ _ _ _ P1). cbn [bind]. rewrite (gru_backward _ _ _ _ _ _ _ P2). cbn [bind].
    rewrite two_tab. cbn [bind]. eexists. split; [reflexivity|]. eexists. split; [reflexivity|]. split; [reflexivity|]. cbn [fst snd]. rewrite EK, ESz. split; [reflexivity|]. cbn [input_kind]. rewrite TS. reflexivity.
Qed.
End Layers.
