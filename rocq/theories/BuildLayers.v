(** The layers of a network that has been built compute arrays of the right dimensions. *)
From Verif Require Import Base BaseLib ListLib Strings NumStr ParamModel NetModel NetSpec NetColumns NetSteps NetShape
  DeviceModel DeviceSpec DeviceProofs DeviceNet BuildModel BuildSpec BuildShape.
Local Open Scope nat_scope.

Section Layers.
Context {A : arith}.
Notation num := (num A).
Notation vec := (list num).
Notation matrix := (list (list num)).
Notation tensor := (list (list (list num))).
Notation params := (list (pystr * param A)).
Notation box := tensor_shape.
Variable initial : pystr -> pystr -> nat -> nat -> nat -> num.
Variables T N : nat.
Hypothesis HT : T <> 0.

Definition out_ok (o : value A * nat) : Prop :=
  match fst o with
  | IDs ids => rectangle T N ids /\ Forall (Forall (fun i => i < snd o)) ids
  | Features x => box T N (snd o) x
  end.
Definition is_ids (v : value A) : bool := match v with IDs _ => true | Features _ => false end.
Definition input_kind (k : kind) : bool := match k with WordInput | ClassInput => true | _ => false end.
Definition fits (outs : list (value A * nat)) (k : kind) (inputs : list nat) : Prop :=
  match k with
  | WordInput | ClassInput => True
  | Projection => exists i o, inputs = [i] /\ nth_error outs i = Some o /\ is_ids (fst o) = true
  | _ => inputs <> [] /\ forall i, In i inputs -> exists o, nth_error outs i = Some o /\ is_ids (fst o) = false
  end.

Lemma new_bias_length layer name size : length (new_bias initial layer name size) = size.
Proof. unfold new_bias. now rewrite map_length, seq_length. Qed.
Lemma new_matrix_length layer name i r c : length (new_matrix initial layer name i r c) = c.
Proof. unfold new_matrix. now rewrite map_length, seq_length. Qed.
Lemma new_matrix_rows layer name i r c : rows r (new_matrix initial layer name i r c).
Proof. unfold new_matrix, rows. apply Forall_map, Forall_forall. intros j _. now rewrite map_length, seq_length. Qed.

Lemma lookup_ok (w : list vec) r ids : rows r w -> rectangle T N ids -> Forall (Forall (fun i => i < r)) ids ->
  exists x, lookup w ids = Ok x /\ box T N (length w) x.
Proof.
  intros R [L H] B.
  assert (C : forall i, i < r -> exists v, mapM (fun column : vec => py_index column i) w = Ok v /\ length v = length w).
  { intros i Hi. clear - R Hi. induction R as [|c w Hc _ IH]; cbn [mapM]; [exists []; auto|]. unfold py_index at 1.
    destruct (nth_error c i) as [z|] eqn:E; [|apply nth_error_None in E; lia]. cbn [bind]. destruct IH as (v & -> & Lv). cbn [bind].
    eexists. split; [reflexivity|]. cbn [length]. now rewrite Lv. }
  assert (D : forall row, Forall (fun i => i < r) row -> exists m, mapM (fun i => mapM (fun column : vec => py_index column i) w) row = Ok m /\
    rectangle (length row) (length w) m).
  { induction 1 as [|i row Hi _ IH]; cbn [mapM]; [exists []; split; [reflexivity|split; [reflexivity|constructor]]|].
    destruct (C i Hi) as (v & -> & Lv). cbn [bind]. destruct IH as (m & -> & [Lm Hm]). cbn [bind]. eexists. split; [reflexivity|].
    split; [cbn; now rewrite Lm|]. constructor; auto. }
  enough (G : exists x, lookup w ids = Ok x /\ length x = length ids /\ Forall (rectangle N (length w)) x).
  { destruct G as (x & E & Lx & Hx). exists x. split; [exact E|]. split; [lia|exact Hx]. }
  clear L. unfold lookup. induction ids as [|row ids IH]; cbn [mapM]; [exists []; repeat split; constructor|].
  inversion_clear H as [|? ? Lrow H']. inversion_clear B as [|? ? Brow B']. destruct (D row Brow) as (m & -> & Hm). cbn [bind].
  destruct (IH H' B') as (x & -> & Lx & Hx). cbn [bind]. eexists. split; [reflexivity|]. split; [cbn; now rewrite Lx|]. constructor; [congruence|exact Hx].
Qed.

Lemma mapi_len X Y (f : nat -> X -> Y) l : length (mapi f l) = length l.
Proof. unfold mapi. apply len_map2; [apply seq_length|reflexivity]. Qed.
Lemma box_dropout F scale pass (x : tensor) : box T N F x -> box T N F (dropout scale pass x).
Proof.
  intros [L H]. unfold dropout. destruct pass as [p|]; [|now split]. split; [now rewrite mapi_len|]. unfold mapi at 1.
  apply (F_map2 _ _ _ (fun _ => True) (rectangle N F)); [|now apply Forall_forall|exact H]. intros t m _ [Lm Hm].
  split; [now rewrite mapi_len|]. unfold mapi at 1.
  apply (F_map2 _ _ _ (fun _ => True) (fun r => length r = F)); [|now apply Forall_forall|exact Hm]. intros s r _ Hr. now rewrite mapi_len.
Qed.

(** The inputs of a layer *)
Lemma inputs_found (outs : list (value A * nat)) inputs (P : value A * nat -> Prop) :
  (forall i, In i inputs -> exists o, nth_error outs i = Some o /\ P o) ->
  exists ins, mapM (py_index outs) inputs = Ok ins /\ length ins = length inputs /\ Forall P ins.
Proof.
  induction inputs as [|i inputs IH]; intro H; cbn [mapM]; [exists []; auto|].
  destruct (H i (or_introl eq_refl)) as (o & E & Po). unfold py_index at 1. rewrite E. cbn [bind].
  destruct IH as (ins & -> & L & F); [intros; apply H; now right|]. cbn [bind]. eexists. split; [reflexivity|]. split; [cbn; now rewrite L|now constructor].
Qed.
Lemma outs_in (outs : list (value A * nat)) inputs ins : Forall out_ok outs -> mapM (py_index outs) inputs = Ok ins -> Forall out_ok ins.
Proof.
  intros F. revert ins. induction inputs as [|i inputs IH]; intros ins; cbn [mapM]; [intro H; injection H as <-; constructor|].
  unfold py_index at 1. destruct (nth_error outs i) as [o|] eqn:E; cbn [bind]; [|discriminate].
  destruct (mapM (py_index outs) inputs) as [r|]; cbn [bind]; [|discriminate]. intro H. injection H as <-. constructor; [|auto].
  rewrite Forall_forall in F. apply F. eapply nth_error_In; eauto.
Qed.
Lemma features_of ins : Forall out_ok ins -> Forall (fun o => is_ids (fst o) = false) ins ->
  exists fs, mapM (fun v : value A * nat => features (fst v)) ins = Ok fs /\ Forall2 (fun x s => box T N s x) fs (map snd ins).
Proof.
  induction 1 as [|[v s] ins Ho _ IH]; intro F; cbn [mapM map snd]; [exists []; split; [reflexivity|constructor]|].
  inversion_clear F as [|? ? Hv F']. cbn [fst] in Hv |- *. destruct v as [?|x]; [discriminate|]. cbn [features bind].
  destruct (IH F') as (fs & -> & G). cbn [bind]. eexists. split; [reflexivity|]. constructor; [exact Ho|exact G].
Qed.
Lemma layer_input ins : Forall out_ok ins -> Forall (fun o => is_ids (fst o) = false) ins -> ins <> [] ->
  exists x, (do fs <- mapM (fun v : value A * nat => features (fst v)) ins; concat_features fs) = Ok x /\ box T N (sum (map snd ins)) x.
Proof.
  intros F G Hn. destruct (features_of ins F G) as (fs & -> & B). cbn [bind]. apply box_concat; [|exact B].
  inversion B; [destruct ins; [contradiction|discriminate]|discriminate].
Qed.

Definition mask_of (m : mode A) (b : batch) : list (list bool) :=
  match m with Minibatch => b_mask b | Step _ => map (map (fun _ => true)) (b_words b) end.
Definition mode_ok (m : mode A) (j : nat) (l : layer A) : Prop :=
  match m with
  | Minibatch => True
  | Step state => T = 1 /\ stepwise_layer l /\
    forall k s, nth_error (state_sizes l) k = Some s -> exists x, nth_error state (j + k) = Some x /\ rectangle N s x
  end.

Lemma first_box F (x : tensor) : T = 1 -> box T N F x -> exists m, py_index x 0 = Ok m /\ rectangle N F m.
Proof.
  intros H1 [L H]. destruct x as [|m x]; [cbn in L; lia|]. inversion H; subst. exists m. auto.
Qed.
Lemma one_box F (m : matrix) : T = 1 -> rectangle N F m -> box T N F [m].
Proof. intros H1 R. split; [cbn; lia|repeat constructor; apply R]. Qed.

Lemma addition_boxes devices (ps : params) name size (ins : list (value A * nat)) w xs :
  Forall (placed devices ps) (initial_params Addition name (map snd xs) size (Projections w)) ->
  (forall i, length (w i) = size) -> Forall (fun x : tensor * nat => box T N (snd x) (fst x)) xs ->
  exists ts, mapM (addition_input ps name devices size) (combine (seq 0 (length xs)) xs) = Ok ts /\ length ts = length xs /\ Forall (box T N size) ts.
Proof.
  intros P Lw F.
  assert (G : forall l, incl l (combine (seq 0 (length xs)) xs) -> exists ts, mapM (addition_input ps name devices size) l = Ok ts /\ length ts = length l /\ Forall (box T N size) ts).
  { induction l as [|[i [x z]] l IH]; intro I; cbn [mapM]; [exists []; auto|].
    assert (Hi : In (i, (x, z)) (combine (seq 0 (length xs)) xs)) by (apply I; now left).
    assert (B : box T N z x) by (apply in_combine_r in Hi; rewrite Forall_forall in F; exact (F _ Hi)).
    assert (E : exists y, addition_input ps name devices size (i, (x, z)) = Ok y /\ box T N size y).
    { cbn [addition_input]. destruct (z =? size) eqn:Z; [apply Nat.eqb_eq in Z as ->; eauto|].
      assert (Gw : In (name, (str "input" ++ str_of_nat i ++ str "/W")%list, true, Weight (w i)) (initial_params Addition name (map snd xs) size (Projections w))).
      { cbn [initial_params]. apply in_flat_map. exists (i, z). split; [|rewrite Z; now left].
        apply in_combine_seq in Hi as [Hi _]. rewrite Nat.sub_0_r in Hi.
        assert (Hs : nth_error (map snd xs) i = Some z) by (rewrite nth_error_map, Hi; reflexivity).
        clear - Hs. assert (K : forall l k, nth_error l i = Some z -> In (k + i, z) (combine (seq k (length l)) l)).
        { clear. intro l. revert i. induction l as [|y l IH]; intros [|i] k H; cbn in *; try discriminate.
          - left. rewrite Nat.add_0_r. congruence.
          - right. rewrite Nat.add_succ_r. apply (IH i (S k) H). }
        exact (K _ 0 Hs). }
      rewrite app_assoc in Gw. rewrite (placed_preact_no_bias devices ps name (str "input" ++ str_of_nat i)%list (w i) x (F_in _ _ _ _ P Gw)).
      eexists. split; [reflexivity|]. eapply box_preact; [exact B|apply Lw|discriminate]. }
    destruct E as (y & -> & By). cbn [bind]. destruct IH as (ts & -> & Lt & Bt); [intros a Ha; apply I; now right|]. cbn [bind].
    eexists. split; [reflexivity|]. split; [cbn; now rewrite Lt|now constructor]. }
  destruct (G _ (incl_refl _)) as (ts & E & L & B). exists ts. split; [exact E|]. split; [|exact B]. rewrite L, combine_length, seq_length. apply Nat.min_id.
Qed.

Lemma lstm_new devices (ps : params) name size act rv mask (x : tensor) G F :
  Forall (placed devices ps) (recurrent_params name (new_matrix initial name (str "layer_input/W") 0 G (4 * size))
    (new_matrix initial name (str "step_input/W") 0 size (4 * size)) (new_bias initial name (str "layer_input/b") (4 * size))) ->
  rectangle T N mask -> box T N F x ->
  exists y, lstm_minibatch ps name devices size act rv mask x = Ok y /\ box T N size y.
Proof. intros P R B. eapply lstm_box; [| | |exact P|exact R|exact B]; rewrite ?new_matrix_length, ?new_bias_length; reflexivity. Qed.
Lemma gru_new devices (ps : params) name size rv mask (x : tensor) G F :
  Forall (placed devices ps) (recurrent_params name (new_matrix initial name (str "layer_input/W") 0 G (3 * size))
    (new_matrix initial name (str "step_input/W") 0 size (3 * size)) (new_bias initial name (str "layer_input/b") (3 * size))) ->
  rectangle T N mask -> box T N F x ->
  exists y, gru_minibatch ps name devices size rv mask x = Ok y /\ box T N size y.
Proof. intros P R B. eapply gru_box; [| | |exact P|exact R|exact B]; rewrite ?new_matrix_length, ?new_bias_length; reflexivity. Qed.
Lemma affine_preact devices (ps : params) name w b (x : tensor) :
  Forall (placed devices ps) [(name, str "input/W", true, Weight w); (name, str "input/b", true, Bias b)] -> length b = length w ->
  tensor_preact ps name devices x (str "input") true = Ok (preact_part true x (w, b)).
Proof.
  intros P L. apply placed_preact; [exact L|apply (F_in _ _ _ _ P); now left|apply (F_in _ _ _ _ P); right; now left].
Qed.

Lemma layer_runs m b outs i j d l input_sizes :
  create_layer (map snd outs) d = Ok l -> mapM (py_index (map snd outs)) (d_inputs d) = Ok input_sizes ->
  d_values d = new_values initial (d_kind d) (d_name d) input_sizes (d_size d) ->
  check_inputs (d_kind d) input_sizes (d_size d) = Ok tt -> (forall k, d_kind d = GLU k -> k <> 0) -> works_on_devices d ->
  Forall out_ok outs -> fits outs (d_kind d) (d_inputs d) ->
  rectangle T N (mask_of m b) ->
  (d_kind d = WordInput -> out_ok (IDs (b_words b), d_size d)) -> (d_kind d = ClassInput -> out_ok (IDs (b_classes b), d_size d)) ->
  mode_ok m j l ->
  exists v st, eval_layer m b outs i j l = Ok (v, st) /\ out_ok (v, d_size d) /\ is_ids v = input_kind (d_kind d) /\
    match m with Step _ => Forall2 (fun s x => rectangle N s x) (state_sizes l) st | Minibatch => True end.
Proof.
  intros C EI V CH HG W FO Fit RM HW HC MO.
  destruct (created_layer _ _ _ C) as (is & EI' & EL & P). rewrite EI in EI'. injection EI' as <-. rewrite V in P.
  assert (EK : l_kind l = d_kind d) by now rewrite EL. unfold mode_ok in MO.
  assert (SS : state_sizes l = state_sizes (mkLayer (d_kind d) (d_name d) (d_inputs d) (d_size d) (d_activation d) (d_devices d) (l_params l) (d_scale d))) by (now rewrite <- EL).
  unfold stepwise_layer in MO. rewrite SS, EK in MO. rewrite SS. clear SS EK.
  unfold eval_layer. rewrite EL. cbn [l_kind l_name l_inputs l_size l_activation l_devices l_params l_scale].
  set (ps := l_params l) in *. clearbody ps. clear EL C. unfold state_sizes in *. cbn [l_kind l_size] in *.
  assert (INS : exists ins, mapM (py_index outs) (d_inputs d) = Ok ins /\ Forall out_ok ins /\ input_sizes = map snd ins /\ length ins = length (d_inputs d)).
  { destruct (inputs_found outs (d_inputs d) (fun _ => True)) as (ins & E & Li & _).
    - clear - EI. revert input_sizes EI. induction (d_inputs d) as [|k r IH]; intros s; cbn [mapM]; [intros _ ? []|].
      unfold py_index at 1. rewrite nth_error_map. destruct (nth_error outs k) as [o|] eqn:E; cbn [option_map bind]; [|discriminate].
      destruct (mapM _ r) as [s'|] eqn:E'; cbn [bind]; [|discriminate]. intros _ i [<-|Hi]; [eauto|]. eapply IH; eauto.
    - exists ins. split; [exact E|]. split; [eapply outs_in; eauto|]. split; [|exact Li]. apply mapM_sizes in E. congruence. }
  destruct INS as (ins & E & FI & ES & Li). rewrite E. cbn [bind].
  assert (NF : match d_kind d with WordInput | ClassInput | Projection => False | _ => True end ->
     ins <> [] /\ Forall (fun o => is_ids (fst o) = false) ins).
  { intro K. assert (Q : d_inputs d <> [] /\ forall i, In i (d_inputs d) -> exists o, nth_error outs i = Some o /\ is_ids (fst o) = false) by (unfold fits in Fit; destruct (d_kind d); try contradiction; exact Fit).
    destruct Q as [Q1 Q2]. destruct (inputs_found outs _ _ Q2) as (ins' & E' & L' & F'). rewrite E in E'. injection E' as <-.
    split; [|exact F']. destruct ins; [|discriminate]. destruct (d_inputs d); [contradiction|discriminate]. }
  assert (LI : match d_kind d with WordInput | ClassInput | Projection => False | _ => True end ->
     exists x, (do fs <- mapM (fun v : value A * nat => features (fst v)) ins; concat_features fs) = Ok x /\ box T N (sum input_sizes) x).
  { intro K. destruct (NF K) as [Q1 Q2]. rewrite ES. now apply layer_input. }
  destruct (d_kind d) eqn:KD; cbn [new_values initial_params recurrent_matrices] in P.
  - (* WordInput *) exists (IDs (b_words b)), []. split; [reflexivity|]. split; [now apply HW|]. split; [reflexivity|]. destruct m; constructor.
  - exists (IDs (b_classes b)), []. split; [reflexivity|]. split; [now apply HC|]. split; [reflexivity|]. destruct m; constructor.
  - (* Projection *) cbn [fits] in Fit. destruct Fit as (k & o & EIn & Eo & Ho). rewrite EIn in E. cbn [mapM] in E. unfold py_index at 1 in E. rewrite Eo in E. cbn [bind] in E. injection E as <-.
    destruct o as [[ids|?] s]; [|discriminate]. pose proof (placed_table _ _ _ _ ids (F_in _ _ _ _ P (or_introl eq_refl))) as E1. unfold lookup in E1.
    rewrite bind_bind, E1. inversion_clear FI as [|? ? RB _]. cbn [out_ok fst snd] in RB. destruct RB as [R B].
    destruct (lookup_ok (new_matrix initial (d_name d) (str "W") 0 (sum input_sizes) (d_size d)) s ids) as (x & Ex & Bx); [|exact R|exact B|].
    { rewrite ES. cbn [map snd sum fold_right]. rewrite Nat.add_0_r. apply new_matrix_rows. }
    unfold lookup in Ex. rewrite Ex. cbn [bind]. exists (Features x), []. split; [reflexivity|]. rewrite new_matrix_length in Bx. split; [exact Bx|]. split; [reflexivity|]. destruct m; constructor.
  - (* FullyConnected *) destruct (LI I) as (x & -> & Bx). cbn [bind].
    rewrite (affine_preact _ _ _ _ _ x P) by (now rewrite new_bias_length, new_matrix_length).
    cbn [bind]. eexists _, []. split; [reflexivity|]. split; [|split; [reflexivity|destruct m; constructor]]. cbn [out_ok fst snd].
    eapply box_mapm; [intros y; apply rect_map|]. eapply box_preact; [exact Bx|apply new_matrix_length|intros _; apply new_bias_length].
  - (* LSTM *) destruct (LI I) as (x & -> & Bx). cbn [bind].
    assert (Lb : length (new_bias initial (d_name d) (str "layer_input/b") (4 * d_size d)) = length (new_matrix initial (d_name d) (str "layer_input/W") 0 (sum input_sizes) (4 * d_size d))) by (now rewrite new_bias_length, new_matrix_length).
    destruct m as [|state].
    + destruct (lstm_box T N _ _ _ _ (d_size d) (d_activation d) false (mask_of Minibatch b) x _ _ _ (new_matrix_length _ _ _ _ _) Lb (new_matrix_length _ _ _ _ _) P RM Bx) as (y & Ey & By).
      cbn [mask_of] in Ey. rewrite Ey. cbn [bind]. eexists _, []. split; [reflexivity|]. split; [exact By|]. auto.
    + destruct MO as (T1 & _ & MS). rewrite (recurrent_preact _ _ _ _ _ _ _ Lb P). cbn [bind]. rewrite (recurrent_step_weight _ _ _ _ _ _ P). cbn [bind].
      cbn [mask_of] in RM. destruct RM as [Lm Hm]. destruct (map (map (fun _ => true)) (b_words b)) as [|m0 mask]; [cbn in Lm; lia|]. inversion_clear Hm as [|? ? Hm0 _].
      unfold py_index at 1. cbn [nth_error bind]. unfold first_step, recurrent_input.
      set (q := preact_part true x _). assert (Bq : box T N (4 * d_size d) q) by (eapply box_preact; [exact Bx|apply new_matrix_length|intros _; apply new_bias_length]).
      destruct (first_box _ q T1 Bq) as (x0 & -> & Bx0). cbn [bind].
      destruct (MS 0 _ eq_refl) as (C0 & EC & RC). destruct (MS 1 _ eq_refl) as (h0 & Eh & Rh). rewrite Nat.add_0_r in EC. unfold py_index. rewrite EC, Eh. cbn [bind].
      destruct (lstm_step_rect N (d_size d) (d_activation d) _ m0 x0 C0 h0 (new_matrix_length (d_name d) (str "step_input/W") 0 (d_size d) (4 * d_size d)) Hm0 Bx0 RC Rh) as [R1 R2].
      destruct (lstm_step _ _ _ _ _ _) as [C1 h1]. cbn [fst snd] in R1, R2. exists (Features [h1]), [C1; h1]. split; [reflexivity|]. split; [now apply one_box|]. split; [reflexivity|]. constructor; [exact R1|]. constructor; [exact R2|]. constructor.
  - (* GRU *) destruct (LI I) as (x & -> & Bx). cbn [bind].
    assert (Lb : length (new_bias initial (d_name d) (str "layer_input/b") (3 * d_size d)) = length (new_matrix initial (d_name d) (str "layer_input/W") 0 (sum input_sizes) (3 * d_size d))) by (now rewrite new_bias_length, new_matrix_length).
    destruct m as [|state].
    + destruct (gru_box T N _ _ _ _ (d_size d) false (mask_of Minibatch b) x _ _ _ (new_matrix_length _ _ _ _ _) Lb (new_matrix_length _ _ _ _ _) P RM Bx) as (y & Ey & By).
      cbn [mask_of] in Ey. rewrite Ey. cbn [bind]. eexists _, []. split; [reflexivity|]. split; [exact By|]. auto.
    + destruct MO as (T1 & _ & MS). rewrite (recurrent_preact _ _ _ _ _ _ _ Lb P). cbn [bind]. rewrite (recurrent_step_weight _ _ _ _ _ _ P). cbn [bind].
      cbn [mask_of] in RM. destruct RM as [Lm Hm]. destruct (map (map (fun _ => true)) (b_words b)) as [|m0 mask]; [cbn in Lm; lia|]. inversion_clear Hm as [|? ? Hm0 _].
      unfold py_index at 1. cbn [nth_error bind]. unfold first_step, recurrent_input.
      set (q := preact_part true x _). assert (Bq : box T N (3 * d_size d) q) by (eapply box_preact; [exact Bx|apply new_matrix_length|intros _; apply new_bias_length]).
      destruct (first_box _ q T1 Bq) as (x0 & -> & Bx0). cbn [bind].
      destruct (MS 0 _ eq_refl) as (h0 & Eh & Rh). rewrite Nat.add_0_r in Eh. unfold py_index. rewrite Eh. cbn [bind].
      pose proof (gru_step_rect N (d_size d) _ m0 x0 h0 (new_matrix_length (d_name d) (str "step_input/W") 0 (d_size d) (3 * d_size d)) Hm0 Bx0 Rh) as R1.
      eexists (Features [_]), [_]. split; [reflexivity|]. split; [now apply one_box|]. split; [reflexivity|]. constructor; [exact R1|]. constructor.
  - (* BLSTM *) destruct (LI I) as (x & -> & Bx). cbn [bind]. destruct m as [|state]; [|destruct MO as (_ & [] & _)]. apply Forall_app in P as [P1 P2].
    destruct (lstm_new _ _ _ (d_size d - d_size d / 2) (d_activation d) false (mask_of Minibatch b) x _ _ P1 RM Bx) as (f & Ef & Bf).
    destruct (lstm_new _ _ _ (d_size d / 2) (d_activation d) true (mask_of Minibatch b) x _ _ P2 RM Bx) as (r & Er & Br).
    cbn [mask_of] in Ef, Er. rewrite Ef. cbn [bind]. rewrite Er. cbn [bind].
    destruct (box_concat T N [f; r] [d_size d - d_size d / 2; d_size d / 2] ltac:(discriminate) ltac:(constructor; [exact Bf|constructor; [exact Br|constructor]])) as (y & -> & By).
    cbn [bind]. exists (Features y), []. split; [reflexivity|]. split; [|auto]. cbn [out_ok fst snd sum fold_right] in By |- *.
    replace (d_size d - d_size d / 2 + (d_size d / 2 + 0)) with (d_size d) in By; [exact By|]. pose proof (Nat.div_le_upper_bound (d_size d) 2 (d_size d) ltac:(lia) ltac:(lia)). lia.
  - (* BGRU *) destruct (LI I) as (x & -> & Bx). cbn [bind]. destruct m as [|state]; [|destruct MO as (_ & [] & _)]. apply Forall_app in P as [P1 P2].
    destruct (gru_new _ _ _ (d_size d - d_size d / 2) false (mask_of Minibatch b) x _ _ P1 RM Bx) as (f & Ef & Bf).
    destruct (gru_new _ _ _ (d_size d / 2) true (mask_of Minibatch b) x _ _ P2 RM Bx) as (r & Er & Br).
    cbn [mask_of] in Ef, Er. rewrite Ef. cbn [bind]. rewrite Er. cbn [bind].
    destruct (box_concat T N [f; r] [d_size d - d_size d / 2; d_size d / 2] ltac:(discriminate) ltac:(constructor; [exact Bf|constructor; [exact Br|constructor]])) as (y & -> & By).
    cbn [bind]. exists (Features y), []. split; [reflexivity|]. split; [|auto]. cbn [out_ok fst snd sum fold_right] in By |- *.
    replace (d_size d - d_size d / 2 + (d_size d / 2 + 0)) with (d_size d) in By; [exact By|]. pose proof (Nat.div_le_upper_bound (d_size d) 2 (d_size d) ltac:(lia) ltac:(lia)). lia.
  - (* Highway *) destruct (LI I) as (x & -> & Bx). cbn [bind].
    rewrite (affine_preact _ _ _ _ _ x P) by (now rewrite new_bias_length, new_matrix_length).
    cbn [bind]. eexists _, []. split; [reflexivity|]. split; [|split; [reflexivity|destruct m; constructor]]. cbn [out_ok fst snd].
    cbn [check_inputs] in CH. destruct (Nat.eqb_spec (sum input_sizes) (d_size d)) as [EZ|]; [|discriminate]. rewrite EZ in Bx at 1.
    set (q := preact_part _ _ _). assert (Bq : box T N (2 * d_size d) q) by (eapply box_preact; [exact Bx|apply new_matrix_length|intros _; apply new_bias_length]). clearbody q.
    assert (S : forall (f : num -> num) i, i < 2 -> box T N (d_size d) (map (fun r => mmap f (get_submatrix r i (d_size d) i)) q)).
    { intros f k Hk. eapply box_mapm; [|exact Bq]. intros y R. apply rect_map. now apply (rect_sub1 N 2). }
    eapply box_map2; [intros a c; apply rect_map2| |]; (eapply box_map2; [intros a c; apply rect_map2| |]); try (apply S; lia); [exact Bx|].
    eapply box_mapm; [intros y; apply rect_map|]. apply S. lia.
  - (* GLU *) destruct m as [|state]; [|destruct MO as (_ & [] & _)]. cbn [check_inputs] in CH. destruct (Nat.eqb_spec (length input_sizes) 1) as [L1|]; [|discriminate].
    rewrite ES, map_length in L1. destruct (NF I) as [_ FI']. destruct ins as [|[[?|x] z] [|? ?]]; try discriminate; [inversion FI'; discriminate|].
    inversion_clear FI as [|? ? Bx _]. cbn [out_ok fst snd] in Bx. cbn [works_on_devices] in W. unfold works_on_devices in W. rewrite KD in W. rewrite W in P |- *.
    pose proof (F_in _ _ _ _ P (or_introl eq_refl)) as [[_ Q1]|[Q1 _]]; [|congruence].
    pose proof (F_in _ _ _ _ P (or_intror (or_introl eq_refl))) as [[_ Q2]|[Q2 _]]; [|congruence].
    unfold tensor_conv1d, get_filters, get_bias, get_param. cbn [mapM]. change (str "input" ++ str "/W")%list with (str "input/W").
    change (str "input" ++ str "/b")%list with (str "input/b"). rewrite Q1. cbn [bind map concat_features fold_left]. rewrite Q2. cbn [bind].
    eexists _, []. split; [reflexivity|]. split; [|auto]. cbn [out_ok fst snd].
    set (fl := new_matrices _ _ _ _ _ _). assert (Lf : length fl = filter_size) by (unfold fl, new_matrices; now rewrite map_length, seq_length).
    assert (Bc : box T N (2 * d_size d) (conv1d (repeat (zeros (num_sequences x) z) (filter_size - 1) ++ x) fl)).
    { apply (conv_box T N z).
      - intro Hf. rewrite Hf in Lf. cbn in Lf. apply (HG filter_size); congruence.
      - unfold fl, new_matrices. apply Forall_map, Forall_forall. intros. apply new_matrix_length.
      - rewrite Lf. destruct Bx as [Lx Hx]. split; [rewrite app_length, repeat_length; lia|]. apply Forall_app. split; [|exact Hx].
        apply Forall_forall. intros y Hy. apply repeat_spec in Hy as ->. rewrite (sequences_box T N z x HT (conj Lx Hx)). apply rect_zeros. }
    eapply box_mapm.
    + intros y R. apply rect_map2; [|apply rect_map]; apply (rect_sub1 N 2 _ _ y); [lia|exact R|lia|exact R].
    + eapply box_map; [|exact Bc]. intros r Hr. apply len_map2; [exact Hr|]. rewrite new_bias_length. lia.
  - (* Addition *) destruct (NF I) as [Hn FI'].
    assert (EX : exists xs, mapM (fun v : value A * nat => do x <- features (fst v); Ok (x, snd v)) ins = Ok xs /\ map snd xs = map snd ins /\ Forall (fun x : tensor * nat => box T N (snd x) (fst x)) xs).
    { clear - FI FI'. induction FI as [|[v s] ins Ho _ IH]; cbn [mapM]; [exists []; auto|]. inversion_clear FI' as [|? ? Hv F'].
      cbn [fst snd] in Hv |- *. destruct v as [?|x]; [discriminate|]. cbn [features bind]. destruct (IH F') as (xs & -> & Es & B). cbn [bind].
      eexists. split; [reflexivity|]. split; [cbn [map snd]; now rewrite Es|]. constructor; [exact Ho|exact B]. }
    destruct EX as (xs & -> & Es & Bs). cbn [bind]. rewrite ES, <- Es in P.
    edestruct (addition_boxes (d_devices d) ps (d_name d) (d_size d) ins _ xs P) as (ts & -> & Lt & Bt); [intro; apply new_matrix_length|exact Bs|]. cbn [bind].
    destruct (box_sum T N (d_size d) ts) as (x & -> & Bx); [|exact Bt|].
    { intro. subst ts. cbn in Lt. rewrite <- (map_length snd xs), Es, map_length in Lt. destruct ins; [contradiction|discriminate]. }
    cbn [bind]. exists (Features x), []. split; [reflexivity|]. split; [exact Bx|]. split; [reflexivity|destruct m; constructor].
  - (* Dropout *) destruct (LI I) as (x & -> & Bx). cbn [bind]. eexists _, []. split; [reflexivity|]. split; [|split; [reflexivity|destruct m; constructor]].
    cbn [out_ok fst snd]. apply box_dropout. cbn [check_inputs] in CH. destruct (Nat.eqb_spec (sum input_sizes) (d_size d)) as [<-|]; [exact Bx|discriminate].
  - (* ReverseLSTM *) destruct (LI I) as (x & -> & Bx). cbn [bind]. destruct m as [|state]; [|destruct MO as (_ & [] & _)].
    destruct (lstm_new _ _ _ (d_size d) (d_activation d) true (mask_of Minibatch b) x _ _ P RM Bx) as (y & Ey & By).
    cbn [mask_of] in Ey. rewrite Ey. cbn [bind]. exists (Features y), []. split; [reflexivity|]. split; [exact By|]. auto.
  - (* ReverseGRU *) destruct (LI I) as (x & -> & Bx). cbn [bind]. destruct m as [|state]; [|destruct MO as (_ & [] & _)].
    destruct (gru_new _ _ _ (d_size d) true (mask_of Minibatch b) x _ _ P RM Bx) as (y & Ey & By).
    cbn [mask_of] in Ey. rewrite Ey. cbn [bind]. exists (Features y), []. split; [reflexivity|]. split; [exact By|]. auto.
  - (* ReverseBLSTM *) destruct (LI I) as (x & -> & Bx). cbn [bind]. destruct m as [|state]; [|destruct MO as (_ & [] & _)]. apply Forall_app in P as [P1 P2].
    destruct (lstm_new _ _ _ (d_size d - d_size d / 2) (d_activation d) true (mask_of Minibatch b) x _ _ P1 RM Bx) as (f & Ef & Bf).
    destruct (lstm_new _ _ _ (d_size d / 2) (d_activation d) true (mask_of Minibatch b) x _ _ P2 RM Bx) as (r & Er & Br).
    cbn [mask_of] in Ef, Er. rewrite Ef. cbn [bind]. rewrite Er. cbn [bind].
    destruct (box_concat T N [f; r] [d_size d - d_size d / 2; d_size d / 2] ltac:(discriminate) ltac:(constructor; [exact Bf|constructor; [exact Br|constructor]])) as (y & -> & By).
    cbn [bind]. exists (Features y), []. split; [reflexivity|]. split; [|auto]. cbn [out_ok fst snd sum fold_right] in By |- *.
    replace (d_size d - d_size d / 2 + (d_size d / 2 + 0)) with (d_size d) in By; [exact By|]. pose proof (Nat.div_le_upper_bound (d_size d) 2 (d_size d) ltac:(lia) ltac:(lia)). lia.
  - (* ReverseBGRU *) destruct (LI I) as (x & -> & Bx). cbn [bind]. destruct m as [|state]; [|destruct MO as (_ & [] & _)]. apply Forall_app in P as [P1 P2].
    destruct (gru_new _ _ _ (d_size d - d_size d / 2) true (mask_of Minibatch b) x _ _ P1 RM Bx) as (f & Ef & Bf).
    destruct (gru_new _ _ _ (d_size d / 2) true (mask_of Minibatch b) x _ _ P2 RM Bx) as (r & Er & Br).
    cbn [mask_of] in Ef, Er. rewrite Ef. cbn [bind]. rewrite Er. cbn [bind].
    destruct (box_concat T N [f; r] [d_size d - d_size d / 2; d_size d / 2] ltac:(discriminate) ltac:(constructor; [exact Bf|constructor; [exact Br|constructor]])) as (y & -> & By).
    cbn [bind]. exists (Features y), []. split; [reflexivity|]. split; [|auto]. cbn [out_ok fst snd sum fold_right] in By |- *.
    replace (d_size d - d_size d / 2 + (d_size d / 2 + 0)) with (d_size d) in By; [exact By|]. pose proof (Nat.div_le_upper_bound (d_size d) 2 (d_size d) ltac:(lia) ltac:(lia)). lia.
Qed.
End Layers.
