(** A network does not see the word that it predicts. *)
From Verif Require Import Base BaseLib ListLib Strings ParamModel NetModel NetSpec NetColumns NetTime NetSteps.

Section Visible.
Context {A : arith}.
Notation num := (num A).
Notation vec := (list num).
Notation matrix := (list (list num)).
Notation tensor := (list (list (list num))).

Definition slice_batch (t : nat) (b : batch) : batch :=
  mkBatch (sel t (b_words b)) (sel t (b_classes b)) (sel t (b_mask b)) None.

(** Layers whose output at a time step depends on the input at that time step *)
Definition local_kind (k : kind) : Prop :=
  match k with LSTM | GRU | GLU _ | BLSTM | BGRU | ReverseLSTM | ReverseGRU | ReverseBLSTM | ReverseBGRU => False | _ => True end.

Lemma eval_layer_slice b (outs : list (value A * nat)) i j (l : layer A) v st t : local_kind (l_kind l) -> b_dropout b = None ->
  eval_layer Minibatch b outs i j l = Ok (v, st) ->
  eval_layer Minibatch (slice_batch t b) (map (sliceo t) outs) i j l = Ok (slice t v, st).
Proof.
  intros FW ND. unfold eval_layer.
  destruct (mapM (py_index outs) (l_inputs l)) as [ins|e] eqn:EI; cbn [bind]; [|discriminate].
  rewrite (mapM_slice _ _ _ t EI). cbn [bind].
  pose proof (layer_input_slice t ins) as LI.
  destruct (l_kind l) as [| | | | | | | | |fz| | | | | |] eqn:KD; cbn [slice_batch b_words b_classes b_mask b_dropout]; try (exfalso; exact FW).
  - intro H. injection H as <- <-. reflexivity.
  - intro H. injection H as <- <-. reflexivity.
  - destruct ins as [|[[ids|?] z] [|? ?]]; cbn [map sliceo slice fst snd]; try discriminate.
    destruct (mapM _ (l_devices l)) as [parts|] eqn:E; cbn [bind]; [|discriminate].
    assert (E' : mapM (fun d => do w <- get_weight (l_params l) (l_name l) (str "W") d;
                mapM (mapM (fun i0 => mapM (fun column => py_index column i0) w)) (sel t ids)) (l_devices l) = Ok (map (sel t) parts)).
    { rewrite <- (map_id (l_devices l)). revert E. apply mapM_map_ok.
      intros d y _. destruct (get_weight _ _ _ _) as [w|]; cbn [bind]; [|discriminate]. apply mapM_sel. }
    rewrite E'. cbn [bind]. destruct (concat_features parts) as [y|] eqn:C; cbn [bind]; [|discriminate].
    rewrite (concat_slice _ _ t C). cbn [bind]. intro H. injection H as <- <-. reflexivity.
  - destruct (do fs <- mapM (fun v => features (fst v)) ins; concat_features fs) as [x|e]; cbn [bind]; [|discriminate].
    rewrite (LI x eq_refl). cbn [bind].
    destruct (tensor_preact _ _ _ x _ _) as [p|e] eqn:P; cbn [bind]; [|discriminate].
    rewrite (preact_slice _ _ _ _ _ _ _ t P). cbn [bind]. intro H. injection H as <- <-. cbn [slice]. now rewrite sel_map.
  - destruct (do fs <- mapM (fun v => features (fst v)) ins; concat_features fs) as [x|e]; cbn [bind]; [|discriminate].
    rewrite (LI x eq_refl). cbn [bind].
    destruct (tensor_preact _ _ _ x _ _) as [p|e] eqn:P; cbn [bind]; [|discriminate].
    rewrite (preact_slice _ _ _ _ _ _ _ t P). cbn [bind]. intro H. injection H as <- <-. cbn [slice]. now rewrite !sel_map2, !sel_map.
  - destruct (mapM (fun v => do x <- features (fst v); Ok (x, snd v)) ins) as [xs|e] eqn:E; cbn [bind]; [|discriminate].
    assert (E' : mapM (fun v => do x <- features (fst v); Ok (x, snd v)) (map (sliceo t) ins) = Ok (map (fun p : tensor * nat => (sel t (fst p), snd p)) xs)).
    { revert E. apply mapM_map_ok. intros o y _. cbn [sliceo fst snd]. destruct (features (fst o)) as [z|] eqn:F; cbn [bind]; [|discriminate].
      rewrite (features_slice _ _ _ F). cbn [bind]. intro H. injection H as <-. reflexivity. }
    rewrite E'. cbn [bind]. rewrite map_length.
    destruct (mapM (addition_input _ _ _ _) _) as [ts|e] eqn:F; cbn [bind]; [|discriminate].
    rewrite (addition_slice _ _ _ _ _ _ _ t F). cbn [bind].
    destruct (sum_tensors ts) as [y|] eqn:G; cbn [bind]; [|discriminate]. rewrite (sum_slice _ _ t G). cbn [bind].
    intro H. injection H as <- <-. reflexivity.
  - rewrite ND. destruct (do fs <- mapM (fun v => features (fst v)) ins; concat_features fs) as [x|e]; cbn [bind]; [|discriminate].
    rewrite (LI x eq_refl). cbn [bind dropout]. intro H. injection H as <- <-. reflexivity.
Qed.

(** ** The number of time steps *)
Variable T : nat.
Definition steps (v : value A) : nat := match v with IDs x => length x | Features x => length x end.
Lemma concat_length l r : (forall x, In x l -> length x = T) -> concat_features (A := A) l = Ok r -> length r = T.
Proof.
  destruct l as [|x l]; cbn [concat_features]; [discriminate|]. intros H E.
  assert (r = fold_left (map2 (map2 (@app num))) l x) as -> by congruence. clear E.
  assert (Hx : length x = T) by (apply H; now left). assert (Hl : forall y, In y l -> length y = T) by (intros; apply H; now right). clear H.
  revert x Hx; induction l as [|y l IH]; intros x Hx; cbn [fold_left]; [exact Hx|].
  apply IH; [intros; apply Hl; now right|]. rewrite map2_length', Hx, (Hl y (or_introl eq_refl)). apply Nat.min_id.
Qed.
Lemma sum_length l r : (forall x, In x l -> length x = T) -> sum_tensors (A := A) l = Ok r -> length r = T.
Proof.
  destruct l as [|x l]; cbn [sum_tensors]; [discriminate|]. intros H E.
  assert (r = fold_left (map2 madd) l x) as -> by congruence. clear E.
  assert (Hx : length x = T) by (apply H; now left). assert (Hl : forall y, In y l -> length y = T) by (intros; apply H; now right). clear H.
  revert x Hx; induction l as [|y l IH]; intros x Hx; cbn [fold_left]; [exact Hx|].
  apply IH; [intros; apply Hl; now right|]. rewrite map2_length', Hx, (Hl y (or_introl eq_refl)). apply Nat.min_id.
Qed.
Lemma preact_length ps name devices (x : tensor) pn ub r : tensor_preact ps name devices x pn ub = Ok r -> length r = length x.
Proof. intro H. now apply preact_sequences in H as [_ H]. Qed.
Lemma layer_input_length (ins : list (value A * nat)) x : Forall (fun o => steps (fst o) = T) ins ->
  (do fs <- mapM (fun v => features (fst v)) ins; concat_features fs) = Ok x -> length x = T.
Proof.
  intro F. destruct (mapM _ ins) as [fs|e] eqn:E; cbn [bind]; [|discriminate]. apply concat_length.
  intros y Hy. destruct (mapM_in _ _ _ _ _ _ E Hy) as (o & Ho & Eo).
  rewrite Forall_forall in F. specialize (F o Ho). destruct (fst o); cbn in *; [discriminate|congruence].
Qed.
Lemma shifted_length (x : tensor) n : length x <> 0 -> length (shifted x n) = Nat.max 2 (length x).
Proof. intro H. unfold shifted. rewrite app_length, skipn_length. cbn [length]. lia. Qed.
Lemma lstm_minibatch_length ps name devices size act rv mask (x : tensor) r : length mask = T -> length x = T ->
  lstm_minibatch ps name devices size act rv mask x = Ok r -> length r = T.
Proof.
  intros Lm Lx. unfold lstm_minibatch. destruct (tensor_preact ps name devices x _ _) as [p|e] eqn:P; cbn [bind]; [|discriminate].
  apply preact_length in P. destruct (get_weight _ _ _ _) as [w|e]; cbn [bind]; [|discriminate].
  intro H. match type of H with Ok ?z = _ => assert (r = z) as -> by congruence end. clear H.
  destruct rv; rewrite map_length, ?rev_length, scan_length, combine_length, ?rev_length; [|lia].
  destruct (Nat.eq_dec (length p) 0) as [Z|Z]; [lia|]. rewrite shifted_length by exact Z. lia.
Qed.
Lemma gru_minibatch_length ps name devices size rv mask (x : tensor) r : length mask = T -> length x = T ->
  gru_minibatch ps name devices size rv mask x = Ok r -> length r = T.
Proof.
  intros Lm Lx. unfold gru_minibatch. destruct (tensor_preact ps name devices x _ _) as [p|e] eqn:P; cbn [bind]; [|discriminate].
  apply preact_length in P. destruct (get_weight _ _ _ _) as [w|e]; cbn [bind]; [|discriminate].
  intro H. match type of H with Ok ?z = _ => assert (r = z) as -> by congruence end. clear H.
  destruct rv; rewrite ?rev_length, scan_length, combine_length, ?rev_length; [|lia].
  destruct (Nat.eq_dec (length p) 0) as [Z|Z]; [lia|]. rewrite shifted_length by exact Z. lia.
Qed.
Lemma windows_length X F (l : list X) : 1 <= F -> length (windows F l) = length l + 1 - F.
Proof.
  intro HF. induction l as [|a l IH]; cbn [windows length]; [lia|].
  destruct (Nat.ltb_spec (S (length l)) F); cbn [length]; lia.
Qed.
Lemma windows_length0 X (l : list X) : length (windows 0 l) = length l.
Proof. induction l as [|a l IH]; cbn [windows length Nat.ltb Nat.leb]; auto. Qed.

Definition well_formed (l : layer A) : Prop := match l_kind l with GLU k => filters_match l k | _ => True end.
Lemma mapM_steps outs inputs ins : mapM (py_index outs) inputs = Ok ins ->
  Forall (fun o : value A * nat => steps (fst o) = T) outs -> Forall (fun o => steps (fst o) = T) ins.
Proof.
  intros E F. rewrite Forall_forall in *. intros o Ho. destruct (mapM_in _ _ _ _ _ _ E Ho) as (k & _ & Ek).
  apply F. unfold py_index in Ek. destruct (nth_error outs k) as [o'|] eqn:E'; [|discriminate].
  assert (o' = o) as -> by congruence. eapply nth_error_In; eauto.
Qed.

Lemma eval_layer_length b (outs : list (value A * nat)) i j (l : layer A) v st : well_formed l -> b_dropout b = None ->
  length (b_words b) = T -> length (b_classes b) = T -> length (b_mask b) = T ->
  Forall (fun o => steps (fst o) = T) outs ->
  eval_layer Minibatch b outs i j l = Ok (v, st) -> steps v = T.
Proof.
  intros FW ND Lw Lc Lm FS. unfold eval_layer.
  destruct (mapM (py_index outs) (l_inputs l)) as [ins|e] eqn:EI; cbn [bind]; [|discriminate].
  pose proof (mapM_steps _ _ _ EI FS) as FI.
  pose proof (layer_input_length ins) as LI.
  unfold well_formed in FW.
  destruct (l_kind l) as [| | | | | | | | |fz| | | | | |] eqn:KD.
  - intro H. injection H as <- <-. exact Lw.
  - intro H. injection H as <- <-. exact Lc.
  - destruct ins as [|[[ids|?] z] [|? ?]]; try discriminate.
    destruct (mapM _ (l_devices l)) as [parts|] eqn:E; cbn [bind]; [|discriminate].
    destruct (concat_features parts) as [y|] eqn:C; cbn [bind]; [|discriminate].
    intro H. injection H as <- <-. refine (concat_length _ _ _ C). intros p Hp. destruct (mapM_in _ _ _ _ _ _ E Hp) as (d & _ & Ed).
    destruct (get_weight _ _ _ _) as [w|]; cbn [bind] in Ed; [|discriminate].
    apply Forall_inv in FI. cbn in FI. apply mapM_inv, F2_length in Ed. congruence.
  - destruct (do fs <- mapM (fun v => features (fst v)) ins; concat_features fs) as [x|e]; cbn [bind]; [|discriminate].
    specialize (LI x FI eq_refl). destruct (tensor_preact _ _ _ x _ _) as [p|e] eqn:P; cbn [bind]; [|discriminate].
    apply preact_length in P. intro H. injection H as <- <-. cbn [steps]. rewrite map_length. congruence.
  - destruct (do fs <- mapM (fun v => features (fst v)) ins; concat_features fs) as [x|e]; cbn [bind]; [|discriminate].
    specialize (LI x FI eq_refl). destruct (lstm_minibatch _ _ _ _ _ _ _ x) as [p|e] eqn:P; cbn [bind]; [|discriminate].
    apply lstm_minibatch_length in P; auto. intro H. injection H as <- <-. exact P.
  - destruct (do fs <- mapM (fun v => features (fst v)) ins; concat_features fs) as [x|e]; cbn [bind]; [|discriminate].
    specialize (LI x FI eq_refl). destruct (gru_minibatch _ _ _ _ _ _ x) as [p|e] eqn:P; cbn [bind]; [|discriminate].
    apply gru_minibatch_length in P; auto. intro H. injection H as <- <-. exact P.
  - destruct (do fs <- mapM (fun v => features (fst v)) ins; concat_features fs) as [x|e]; cbn [bind]; [|discriminate].
    specialize (LI x FI eq_refl). destruct (lstm_minibatch _ _ _ _ _ false _ x) as [p|e] eqn:P; cbn [bind]; [|discriminate].
    destruct (lstm_minibatch _ _ _ _ _ true _ x) as [q|e] eqn:Q; cbn [bind]; [|discriminate].
    apply lstm_minibatch_length in P; auto. apply lstm_minibatch_length in Q; auto.
    destruct (concat_features [p; q]) as [y|] eqn:C; cbn [bind]; [|discriminate]. intro H. injection H as <- <-.
    refine (concat_length _ _ _ C). intros z [<-|[<-|[]]]; auto.
  - destruct (do fs <- mapM (fun v => features (fst v)) ins; concat_features fs) as [x|e]; cbn [bind]; [|discriminate].
    specialize (LI x FI eq_refl). destruct (gru_minibatch _ _ _ _ false _ x) as [p|e] eqn:P; cbn [bind]; [|discriminate].
    destruct (gru_minibatch _ _ _ _ true _ x) as [q|e] eqn:Q; cbn [bind]; [|discriminate].
    apply gru_minibatch_length in P; auto. apply gru_minibatch_length in Q; auto.
    destruct (concat_features [p; q]) as [y|] eqn:C; cbn [bind]; [|discriminate]. intro H. injection H as <- <-.
    refine (concat_length _ _ _ C). intros z [<-|[<-|[]]]; auto.
  - destruct (do fs <- mapM (fun v => features (fst v)) ins; concat_features fs) as [x|e]; cbn [bind]; [|discriminate].
    specialize (LI x FI eq_refl). destruct (tensor_preact _ _ _ x _ _) as [p|e] eqn:P; cbn [bind]; [|discriminate].
    apply preact_length in P. intro H. injection H as <- <-. cbn [steps]. rewrite !map2_length', !map_length. lia.
  - destruct ins as [|[[ids|y] z] [|? ?]]; try discriminate.
    apply Forall_inv in FI. cbn in FI. unfold tensor_conv1d.
    destruct (mapM _ (l_devices l)) as [parts|] eqn:E; cbn [bind]; [|discriminate].
    destruct parts as [|q parts]; [discriminate|].
    destruct (concat_features _) as [x|] eqn:C; cbn [bind]; [|discriminate].
    destruct (get_bias _ _ _ _) as [bias|]; cbn [bind]; [|discriminate].
    intro H. injection H as <- <-. cbn [steps]. rewrite !map_length. refine (concat_length _ _ _ C).
    intros u Hu. apply in_map_iff in Hu as (w & <- & Hw). destruct (mapM_in _ _ _ _ _ _ E Hw) as (d & Hd & Ed).
    unfold conv1d. rewrite map_length, (FW d w Hd Ed).
    destruct fz as [|fz]; [rewrite windows_length0|rewrite windows_length by lia]; rewrite app_length, repeat_length; lia.
  - destruct (mapM (fun v => do x <- features (fst v); Ok (x, snd v)) ins) as [xs|e] eqn:E; cbn [bind]; [|discriminate].
    destruct (mapM (addition_input _ _ _ _) _) as [ts|e] eqn:F; cbn [bind]; [|discriminate].
    destruct (sum_tensors ts) as [y|] eqn:G; cbn [bind]; [|discriminate].
    intro H. injection H as <- <-. refine (sum_length _ _ _ G). intros a Ha.
    destruct (mapM_in _ _ _ _ _ _ F Ha) as ((k & c & z) & Hk & Ek). apply in_combine_r in Hk.
    assert (SB : length c = T).
    { destruct (mapM_in _ _ _ _ _ _ E Hk) as (o & Ho & Eo). rewrite Forall_forall in FI. specialize (FI o Ho).
      destruct (fst o); cbn in *; [discriminate|]. congruence. }
    unfold addition_input in Ek. destruct (z =? l_size l); [congruence|]. apply preact_length in Ek. congruence.
  - rewrite ND. destruct (do fs <- mapM (fun v => features (fst v)) ins; concat_features fs) as [x|e]; cbn [bind]; [|discriminate].
    intro H. injection H as <- <-. exact (LI x FI eq_refl).
  - destruct (do fs <- mapM (fun v => features (fst v)) ins; concat_features fs) as [x|e]; cbn [bind]; [|discriminate].
    specialize (LI x FI eq_refl). destruct (lstm_minibatch _ _ _ _ _ _ _ x) as [p|e] eqn:P; cbn [bind]; [|discriminate].
    apply lstm_minibatch_length in P; auto. intro H. injection H as <- <-. exact P.
  - destruct (do fs <- mapM (fun v => features (fst v)) ins; concat_features fs) as [x|e]; cbn [bind]; [|discriminate].
    specialize (LI x FI eq_refl). destruct (gru_minibatch _ _ _ _ _ _ x) as [p|e] eqn:P; cbn [bind]; [|discriminate].
    apply gru_minibatch_length in P; auto. intro H. injection H as <- <-. exact P.
  - destruct (do fs <- mapM (fun v => features (fst v)) ins; concat_features fs) as [x|e]; cbn [bind]; [|discriminate].
    specialize (LI x FI eq_refl). destruct (lstm_minibatch _ _ _ (l_size l - _) _ _ _ x) as [p|e] eqn:P; cbn [bind]; [|discriminate].
    destruct (lstm_minibatch _ _ _ (l_size l / 2) _ _ _ x) as [q|e] eqn:Q; cbn [bind]; [|discriminate].
    apply lstm_minibatch_length in P; auto. apply lstm_minibatch_length in Q; auto.
    destruct (concat_features [p; q]) as [y|] eqn:C; cbn [bind]; [|discriminate]. intro H. injection H as <- <-.
    refine (concat_length _ _ _ C). intros z [<-|[<-|[]]]; auto.
  - destruct (do fs <- mapM (fun v => features (fst v)) ins; concat_features fs) as [x|e]; cbn [bind]; [|discriminate].
    specialize (LI x FI eq_refl). destruct (gru_minibatch _ _ _ (l_size l - _) _ _ x) as [p|e] eqn:P; cbn [bind]; [|discriminate].
    destruct (gru_minibatch _ _ _ (l_size l / 2) _ _ x) as [q|e] eqn:Q; cbn [bind]; [|discriminate].
    apply gru_minibatch_length in P; auto. apply gru_minibatch_length in Q; auto.
    destruct (concat_features [p; q]) as [y|] eqn:C; cbn [bind]; [|discriminate]. intro H. injection H as <- <-.
    refine (concat_length _ _ _ C). intros z [<-|[<-|[]]]; auto.
Qed.

(** ** Layers that look back *)
Variable t : nat.

Lemma nth_firstn X k i (l : list X) : i < k -> nth_error (firstn k l) i = nth_error l i.
Proof. revert k l; induction i as [|i IH]; intros [|k] [|x l] H; cbn; auto; try lia. apply IH. lia. Qed.
Lemma firstn_agree X k (x y : list X) : (forall i, i < k -> nth_error x i = nth_error y i) -> firstn k x = firstn k y.
Proof.
  revert x y; induction k as [|k IH]; intros x y H; [reflexivity|].
  pose proof (H 0 ltac:(lia)) as H0. destruct x as [|a x], y as [|c y]; cbn in *; try discriminate; [reflexivity|].
  f_equal; [congruence|]. apply IH. intros i Hi. exact (H (S i) ltac:(lia)).
Qed.

(** ** The backward layer *)
Lemma nth_error_skipn X (l : list X) : forall b c, nth_error (skipn b l) c = nth_error l (b + c).
Proof. induction l as [|a l IH]; intros [|b] c; try reflexivity; cbn; [now destruct c|apply IH]. Qed.
Lemma nth_error_rev' X (l : list X) i : i < length l -> nth_error (rev l) i = nth_error l (length l - S i).
Proof.
  revert i; induction l as [|a l IH]; intros i H; cbn [length] in *; [lia|]. cbn [rev].
  destruct (Nat.eq_dec i (length l)) as [->|N].
  - rewrite nth_error_app2 by (rewrite rev_length; lia). rewrite rev_length, Nat.sub_diag. replace (S (length l) - S (length l)) with 0 by lia. reflexivity.
  - rewrite nth_error_app1 by (rewrite rev_length; lia). rewrite IH by lia.
    replace (S (length l) - S i) with (S (length l - S i)) by lia. reflexivity.
Qed.
Lemma nth_rev_scan St (step : list bool -> matrix -> St -> St) xs xs' s :
  length xs = length xs' -> t < length xs ->
  firstn (length xs - t) xs = firstn (length xs - t) xs' ->
  nth_error (rev (scan step xs s)) t = nth_error (rev (scan step xs' s)) t.
Proof.
  intros L Ht F. rewrite !nth_error_rev', !scan_length by (rewrite scan_length; lia).
  rewrite <- L. rewrite <- (nth_firstn _ (length xs - t) (length xs - S t) (scan step xs s)) by lia.
  rewrite <- (nth_firstn _ (length xs - t) (length xs - S t) (scan step xs' s)) by lia.
  rewrite !scan_cut, F. reflexivity.
Qed.

Definition agree_but (x x' : tensor) : Prop := forall i, i <> 1 + t -> sel i x = sel i x'.
Lemma sel_eq X (x y : list X) i : sel i x = sel i y <-> nth_error x i = nth_error y i.
Proof.
  unfold sel. split; [|now intros ->]. destruct (nth_error x i), (nth_error y i); congruence.
Qed.
Lemma agree_sequences (x x' : tensor) : agree_but x x' -> num_sequences x = num_sequences x' /\ num_features x = num_features x'.
Proof.
  intro H. specialize (H 0 ltac:(lia)). apply sel_eq in H. destruct x, x'; cbn in *; try discriminate; [auto|].
  assert (l = l0) as -> by congruence. auto.
Qed.
Lemma preact_agree ps name devices (x x' : tensor) pn ub r r' : agree_but x x' ->
  tensor_preact ps name devices x pn ub = Ok r -> tensor_preact ps name devices x' pn ub = Ok r' -> agree_but r r'.
Proof.
  intros H E E' i Hi. apply preact_slice with (t := i) in E. apply preact_slice with (t := i) in E'.
  rewrite (H i Hi) in E. congruence.
Qed.
Lemma shifted_agree (p p' : tensor) n : length p = T -> length p' = T -> t < T -> agree_but p p' ->
  firstn (T - t) (rev (shifted p n)) = firstn (T - t) (rev (shifted p' n)).
Proof.
  intros L L' Ht H. destruct (agree_sequences _ _ H) as [_ NF].
  assert (LS : length (shifted p n) = Nat.max 2 T) by (rewrite shifted_length; lia).
  assert (LS' : length (shifted p' n) = Nat.max 2 T) by (rewrite shifted_length; lia).
  apply firstn_agree. intros i Hi. rewrite !nth_error_rev' by lia. rewrite LS, LS'.
  set (m := Nat.max 2 T - S i). assert (Hm : t <= m) by lia. unfold shifted. rewrite NF.
  destruct (Nat.lt_ge_cases m (T - 2)) as [C|C].
  - rewrite !nth_error_app1 by (rewrite skipn_length; lia). rewrite !nth_error_skipn. apply sel_eq. apply H. lia.
  - rewrite !nth_error_app2 by (rewrite skipn_length; lia). rewrite !skipn_length, L, L'. reflexivity.
Qed.
Lemma lstm_backward ps name devices size act mask (x x' : tensor) r r' : length mask = T -> length x = T -> length x' = T ->
  agree_but x x' ->
  lstm_minibatch ps name devices size act true mask x = Ok r -> lstm_minibatch ps name devices size act true mask x' = Ok r' ->
  sel t r = sel t r'.
Proof.
  intros Lm Lx Lx' H E E'.
  pose proof (lstm_minibatch_length _ _ _ _ _ _ _ _ _ Lm Lx E) as Lr. pose proof (lstm_minibatch_length _ _ _ _ _ _ _ _ _ Lm Lx' E') as Lr'.
  destruct (Nat.lt_ge_cases t T) as [Ht|Ht].
  2: { unfold sel. rewrite !(proj2 (nth_error_None _ _)) by lia. reflexivity. }
  revert E E'. unfold lstm_minibatch.
  destruct (tensor_preact ps name devices x _ _) as [p|e] eqn:P; cbn [bind]; [|discriminate].
  destruct (tensor_preact ps name devices x' _ _) as [p'|e] eqn:P'; cbn [bind]; [|discriminate].
  pose proof (preact_agree _ _ _ _ _ _ _ _ _ H P P') as HP. apply preact_length in P, P'.
  destruct (get_weight _ _ _ _) as [w|e]; cbn [bind]; [|discriminate].
  destruct (agree_sequences _ _ H) as [NS _]. rewrite <- NS. set (n := num_sequences x).
  intros E E'. match type of E with Ok ?z = _ => assert (r = z) as -> by congruence end.
  match type of E' with Ok ?z = _ => assert (r' = z) as -> by congruence end.
  rewrite !sel_map. f_equal. apply sel_eq.
  assert (LC : forall q : tensor, length q = T -> length (combine (rev mask) (rev (shifted q n))) = T).
  { intros q Lq. rewrite combine_length, !rev_length, shifted_length; lia. }
  apply nth_rev_scan; rewrite !LC by congruence; auto.
  rewrite !firstn_combine. f_equal. apply shifted_agree; first [assumption | congruence].
Qed.
Lemma gru_backward ps name devices size mask (x x' : tensor) r r' : length mask = T -> length x = T -> length x' = T ->
  agree_but x x' ->
  gru_minibatch ps name devices size true mask x = Ok r -> gru_minibatch ps name devices size true mask x' = Ok r' ->
  sel t r = sel t r'.
Proof.
  intros Lm Lx Lx' H E E'.
  pose proof (gru_minibatch_length _ _ _ _ _ _ _ _ Lm Lx E) as Lr. pose proof (gru_minibatch_length _ _ _ _ _ _ _ _ Lm Lx' E') as Lr'.
  destruct (Nat.lt_ge_cases t T) as [Ht|Ht].
  2: { unfold sel. rewrite !(proj2 (nth_error_None _ _)) by lia. reflexivity. }
  revert E E'. unfold gru_minibatch.
  destruct (tensor_preact ps name devices x _ _) as [p|e] eqn:P; cbn [bind]; [|discriminate].
  destruct (tensor_preact ps name devices x' _ _) as [p'|e] eqn:P'; cbn [bind]; [|discriminate].
  pose proof (preact_agree _ _ _ _ _ _ _ _ _ H P P') as HP. apply preact_length in P, P'.
  destruct (get_weight _ _ _ _) as [w|e]; cbn [bind]; [|discriminate].
  destruct (agree_sequences _ _ H) as [NS _]. rewrite <- NS. set (n := num_sequences x).
  intros E E'. match type of E with Ok ?z = _ => assert (r = z) as -> by congruence end.
  match type of E' with Ok ?z = _ => assert (r' = z) as -> by congruence end.
  apply sel_eq.
  assert (LC : forall q : tensor, length q = T -> length (combine (rev mask) (rev (shifted q n))) = T).
  { intros q Lq. rewrite combine_length, !rev_length, shifted_length; lia. }
  apply nth_rev_scan; rewrite !LC by congruence; auto.
  rewrite !firstn_combine. f_equal. apply shifted_agree; first [assumption | congruence].
Qed.
Lemma agree_past (x x' : tensor) : agree_but x x' -> firstn (1 + t) x = firstn (1 + t) x'.
Proof. intro H. apply firstn_agree. intros i Hi. apply sel_eq, H. lia. Qed.
Lemma sel_firstn X k i (x : list X) : i < k -> sel i (firstn k x) = sel i x.
Proof. intro H. apply sel_eq. now apply nth_firstn. Qed.

(** ** Sight *)
Definition sees (s : option sight) (i : nat) : Prop :=
  match s with Some Present => i <> 1 + t | Some Past => i <= t | Some Surroundings => i = t | None => False end.
Lemma sees_join a c i : sees (join_sight a c) i -> sees a i /\ sees c i.
Proof. destruct a as [[| |]|], c as [[| |]|]; cbn; try tauto; lia. Qed.
Lemma sees_inputs sights inputs i k : sees (inputs_sight sights inputs) i -> In k inputs -> sees (nth k sights None) i.
Proof.
  induction inputs as [|a inputs IH]; cbn [inputs_sight fold_right]; [intros _ []|].
  intros H [<-|Hk]; apply sees_join in H as [H1 H2]; auto.
Qed.
Lemma sees_not_next s i : sees s i -> i <> 1 + t.
Proof. destruct s as [[| |]|]; cbn; lia. Qed.

(** The outputs of the layers for two mini-batches, and the sight of the layers *)
Definition similar (sights : list (option sight)) (outs outs' : list (value A * nat)) : Prop :=
  length outs = length sights /\ length outs' = length sights /\
  forall i k, sees (nth k sights None) i -> nth_error (map (sliceo i) outs) k = nth_error (map (sliceo i) outs') k.

Lemma mapM_ext X Y (f g : X -> result Y) l : (forall x, In x l -> f x = g x) -> mapM f l = mapM g l.
Proof. induction l as [|x l IH]; intro H; cbn [mapM]; [reflexivity|]. rewrite H by now left. rewrite IH; [reflexivity|]. intros; apply H; now right. Qed.
Lemma similar_inputs sights outs outs' inputs i : similar sights outs outs' -> sees (inputs_sight sights inputs) i ->
  mapM (py_index (map (sliceo i) outs)) inputs = mapM (py_index (map (sliceo i) outs')) inputs.
Proof.
  intros (_ & _ & H) S. apply mapM_ext. intros k Hk. unfold py_index. rewrite (H i k); [reflexivity|]. eapply sees_inputs; eauto.
Qed.
Lemma eval_layer_inputs m b (o o' : list (value A * nat)) i j l : mapM (py_index o) (l_inputs l) = mapM (py_index o') (l_inputs l) ->
  eval_layer m b o i j l = eval_layer m b o' i j l.
Proof. intro H. unfold eval_layer. rewrite H. reflexivity. Qed.

Lemma slice_cut (v v' : value A) : (forall i, i <= t -> slice i v = slice i v') -> cutv (1 + t) v = cutv (1 + t) v'.
Proof.
  intro H. pose proof (H 0 ltac:(lia)) as H0. destruct v as [x|x], v' as [y|y]; cbn in H0; try discriminate; cbn [cutv]; f_equal;
  apply firstn_agree; intros i Hi; apply sel_eq; specialize (H i ltac:(lia)); cbn in H; congruence.
Qed.
Lemma cut_slice (v v' : value A) i : cutv (1 + t) v = cutv (1 + t) v' -> i <= t -> slice i v = slice i v'.
Proof.
  intros H Hi. destruct v as [x|x], v' as [y|y]; cbn [cutv slice] in *; try discriminate;
  (f_equal; rewrite <- (sel_firstn _ (1 + t) i x), <- (sel_firstn _ (1 + t) i y) by lia; congruence).
Qed.

Variables b b' : batch.
Hypothesis Hd : differ_at (1 + t) b b'.
Hypothesis HT : length (b_mask b) = T.

Lemma slice_batches i : i <> 1 + t -> slice_batch i b = slice_batch i b'.
Proof.
  intro Hi. unfold slice_batch. rewrite (da_mask _ _ _ Hd). f_equal; apply sel_eq; symmetry; [apply (da_words _ _ _ Hd)|apply (da_classes _ _ _ Hd)]; exact Hi.
Qed.
Lemma first_batches : first_steps (1 + t) b = first_steps (1 + t) b'.
Proof.
  unfold first_steps. destruct (da_dropout _ _ _ Hd) as [-> ->]. rewrite (da_mask _ _ _ Hd). f_equal; apply firstn_agree; intros i Hi; symmetry;
  [apply (da_words _ _ _ Hd)|apply (da_classes _ _ _ Hd)]; lia.
Qed.

Lemma similar_cut sights outs outs' inputs : similar sights outs outs' -> (forall i, i <= t -> sees (inputs_sight sights inputs) i) ->
  mapM (py_index (map (cuto (1 + t)) outs)) inputs = mapM (py_index (map (cuto (1 + t)) outs')) inputs.
Proof.
  intros (_ & _ & H) S. apply mapM_ext. intros k Hk. unfold py_index. rewrite !nth_error_map.
  assert (G : forall i, i <= t -> option_map (sliceo i) (nth_error outs k) = option_map (sliceo i) (nth_error outs' k)).
  { intros i Hi. rewrite <- !nth_error_map. apply H. eapply sees_inputs; eauto. }
  destruct (nth_error outs k) as [[v z]|], (nth_error outs' k) as [[v' z']|]; pose proof (G 0 ltac:(lia)) as G0; cbn in G0; try discriminate; [|reflexivity].
  cbn [option_map]. unfold cuto. cbn [fst snd].
  rewrite (slice_cut v v'); [|intros i Hi; specialize (G i Hi); cbn in G; unfold sliceo in G; cbn [fst snd] in G; congruence].
  unfold sliceo in G0. cbn [fst snd] in G0. congruence.
Qed.

Lemma backward_inputs sights outs outs' inputs ins ins' : similar sights outs outs' -> inputs_sight sights inputs = Some Present ->
  mapM (py_index outs) inputs = Ok ins -> mapM (py_index outs') inputs = Ok ins' ->
  forall x x', (do fs <- mapM (fun v : value A * nat => features (fst v)) ins; concat_features fs) = Ok x ->
  (do fs <- mapM (fun v : value A * nat => features (fst v)) ins'; concat_features fs) = Ok x' -> agree_but x x'.
Proof.
  intros S J E E' x x' X X' i Hi. apply mapM_slice with (t := i) in E, E'.
  rewrite (similar_inputs _ _ _ inputs i S) in E by (rewrite J; exact Hi).
  assert (EI : map (sliceo i) ins = map (sliceo i) ins') by congruence.
  apply layer_input_slice with (t := i) in X, X'. rewrite EI in X. congruence.
Qed.

Lemma eval_layer_similar sights outs outs' i j l v v' st st' : well_formed l -> similar sights outs outs' ->
  Forall (fun o => steps (fst o) = T) outs -> Forall (fun o => steps (fst o) = T) outs' ->
  eval_layer Minibatch b outs i j l = Ok (v, st) -> eval_layer Minibatch b' outs' i j l = Ok (v', st') ->
  forall u, sees (layer_sight l (inputs_sight sights (l_inputs l))) u -> slice u v = slice u v'.
Proof.
  intros WF S F F' E E' u Hu. destruct (da_dropout _ _ _ Hd) as [D D'].
  assert (Local : local_kind (l_kind l) -> layer_sight l (inputs_sight sights (l_inputs l)) = inputs_sight sights (l_inputs l) -> slice u v = slice u v').
  { intros L EQ. rewrite EQ in Hu. apply eval_layer_slice with (t := u) in E; auto. apply eval_layer_slice with (t := u) in E'; auto.
    rewrite (slice_batches u) in E by (eapply sees_not_next; eauto).
    rewrite (eval_layer_inputs _ _ _ _ _ _ _ (similar_inputs _ _ _ _ _ S Hu)) in E. congruence. }
  assert (Forward : forward_layer l -> layer_sight l (inputs_sight sights (l_inputs l)) =
            match inputs_sight sights (l_inputs l) with Some Present | Some Past => Some Past | _ => None end -> slice u v = slice u v').
  { intros L EQ. rewrite EQ in Hu.
    assert (Past : forall k, k <= t -> sees (inputs_sight sights (l_inputs l)) k).
    { intros k Hk. destruct (inputs_sight sights (l_inputs l)) as [[| |]|]; cbn in *; try lia. }
    assert (Hut : u <= t) by (destruct (inputs_sight sights (l_inputs l)) as [[| |]|]; cbn in *; first [lia | contradiction]).
    apply eval_layer_cut with (k := 1 + t) in E; auto. apply eval_layer_cut with (k := 1 + t) in E'; auto.
    rewrite first_batches in E. rewrite (eval_layer_inputs _ _ _ _ _ _ _ (similar_cut _ _ _ _ S Past)) in E.
    apply cut_slice; [congruence|exact Hut]. }
  unfold layer_sight, forward_layer, well_formed in *.
  destruct (l_kind l) as [| | | | | | | | |fz| | | | | |] eqn:KD; cbn [local_kind] in *; try (exact (Local I eq_refl)); try (exact (Forward I eq_refl)); try (exact (Forward WF eq_refl)).
  all: destruct (inputs_sight sights (l_inputs l)) as [[| |]|] eqn:J; cbn [sees] in Hu; try contradiction; subst u; clear Local Forward.
  all: revert E E'; unfold eval_layer;
    destruct (mapM (py_index outs) (l_inputs l)) as [ins|e] eqn:EI; cbn [bind]; [|discriminate];
    destruct (mapM (py_index outs') (l_inputs l)) as [ins'|e] eqn:EI'; cbn [bind]; [|discriminate]; rewrite KD;
    pose proof (layer_input_length ins) as LI; pose proof (layer_input_length ins') as LI';
    destruct (do fs <- mapM (fun v => features (fst v)) ins; concat_features fs) as [x|e] eqn:X; cbn [bind]; [|discriminate];
    destruct (do fs <- mapM (fun v => features (fst v)) ins'; concat_features fs) as [x'|e] eqn:X'; cbn [bind]; [|discriminate];
    pose proof (backward_inputs _ _ _ _ _ _ S J EI EI' _ _ X X') as AG;
    specialize (LI x (mapM_steps _ _ _ EI F) eq_refl); specialize (LI' x' (mapM_steps _ _ _ EI' F') eq_refl);
    rewrite (da_mask _ _ _ Hd).
  - destruct (lstm_minibatch _ _ _ _ _ false _ x) as [p|e] eqn:P; cbn [bind]; [|discriminate].
    destruct (lstm_minibatch _ _ _ _ _ true _ x) as [q|e] eqn:Q; cbn [bind]; [|discriminate].
    destruct (concat_features [p; q]) as [y|] eqn:C; cbn [bind]; [|discriminate].
    destruct (lstm_minibatch _ _ _ _ _ false _ x') as [p'|e] eqn:P'; cbn [bind]; [|discriminate].
    destruct (lstm_minibatch _ _ _ _ _ true _ x') as [q'|e] eqn:Q'; cbn [bind]; [|discriminate].
    destruct (concat_features [p'; q']) as [y'|] eqn:C'; cbn [bind]; [|discriminate].
    intros E E'. injection E as <- <-. injection E' as <- <-.
    apply concat_slice with (t := t) in C, C'. cbn [map] in C, C'.
    rewrite (lstm_backward _ _ _ _ _ _ _ _ _ _ HT LI LI' AG Q Q') in C.
    apply lstm_minibatch_cut with (k := 1 + t) in P, P'. rewrite (agree_past _ _ AG) in P.
    assert (EP : firstn (1 + t) p = firstn (1 + t) p') by congruence.
    rewrite <- (sel_firstn _ (1 + t) t p), EP, (sel_firstn _ (1 + t) t p') in C by lia. cbn [slice]. congruence.
  - destruct (gru_minibatch _ _ _ _ false _ x) as [p|e] eqn:P; cbn [bind]; [|discriminate].
    destruct (gru_minibatch _ _ _ _ true _ x) as [q|e] eqn:Q; cbn [bind]; [|discriminate].
    destruct (concat_features [p; q]) as [y|] eqn:C; cbn [bind]; [|discriminate].
    destruct (gru_minibatch _ _ _ _ false _ x') as [p'|e] eqn:P'; cbn [bind]; [|discriminate].
    destruct (gru_minibatch _ _ _ _ true _ x') as [q'|e] eqn:Q'; cbn [bind]; [|discriminate].
    destruct (concat_features [p'; q']) as [y'|] eqn:C'; cbn [bind]; [|discriminate].
    intros E E'. injection E as <- <-. injection E' as <- <-.
    apply concat_slice with (t := t) in C, C'. cbn [map] in C, C'.
    rewrite (gru_backward _ _ _ _ _ _ _ _ _ HT LI LI' AG Q Q') in C.
    apply gru_minibatch_cut with (k := 1 + t) in P, P'. rewrite (agree_past _ _ AG) in P.
    assert (EP : firstn (1 + t) p = firstn (1 + t) p') by congruence.
    rewrite <- (sel_firstn _ (1 + t) t p), EP, (sel_firstn _ (1 + t) t p') in C by lia. cbn [slice]. congruence.
  - destruct (lstm_minibatch _ _ _ _ _ _ _ x) as [q|e] eqn:Q; cbn [bind]; [|discriminate].
    destruct (lstm_minibatch _ _ _ _ _ _ _ x') as [q'|e] eqn:Q'; cbn [bind]; [|discriminate].
    intros E E'. injection E as <- <-. injection E' as <- <-. cbn [slice].
    now rewrite (lstm_backward _ _ _ _ _ _ _ _ _ _ HT LI LI' AG Q Q').
  - destruct (gru_minibatch _ _ _ _ _ _ x) as [q|e] eqn:Q; cbn [bind]; [|discriminate].
    destruct (gru_minibatch _ _ _ _ _ _ x') as [q'|e] eqn:Q'; cbn [bind]; [|discriminate].
    intros E E'. injection E as <- <-. injection E' as <- <-. cbn [slice].
    now rewrite (gru_backward _ _ _ _ _ _ _ _ _ HT LI LI' AG Q Q').
  - destruct (lstm_minibatch _ _ _ (l_size l - _) _ _ _ x) as [p|e] eqn:P; cbn [bind]; [|discriminate].
    destruct (lstm_minibatch _ _ _ (l_size l / 2) _ _ _ x) as [q|e] eqn:Q; cbn [bind]; [|discriminate].
    destruct (concat_features [p; q]) as [y|] eqn:C; cbn [bind]; [|discriminate].
    destruct (lstm_minibatch _ _ _ (l_size l - _) _ _ _ x') as [p'|e] eqn:P'; cbn [bind]; [|discriminate].
    destruct (lstm_minibatch _ _ _ (l_size l / 2) _ _ _ x') as [q'|e] eqn:Q'; cbn [bind]; [|discriminate].
    destruct (concat_features [p'; q']) as [y'|] eqn:C'; cbn [bind]; [|discriminate].
    intros E E'. injection E as <- <-. injection E' as <- <-.
    apply concat_slice with (t := t) in C, C'. cbn [map] in C, C'.
    rewrite (lstm_backward _ _ _ _ _ _ _ _ _ _ HT LI LI' AG Q Q'), (lstm_backward _ _ _ _ _ _ _ _ _ _ HT LI LI' AG P P') in C.
    cbn [slice]. congruence.
  - destruct (gru_minibatch _ _ _ (l_size l - _) _ _ x) as [p|e] eqn:P; cbn [bind]; [|discriminate].
    destruct (gru_minibatch _ _ _ (l_size l / 2) _ _ x) as [q|e] eqn:Q; cbn [bind]; [|discriminate].
    destruct (concat_features [p; q]) as [y|] eqn:C; cbn [bind]; [|discriminate].
    destruct (gru_minibatch _ _ _ (l_size l - _) _ _ x') as [p'|e] eqn:P'; cbn [bind]; [|discriminate].
    destruct (gru_minibatch _ _ _ (l_size l / 2) _ _ x') as [q'|e] eqn:Q'; cbn [bind]; [|discriminate].
    destruct (concat_features [p'; q']) as [y'|] eqn:C'; cbn [bind]; [|discriminate].
    intros E E'. injection E as <- <-. injection E' as <- <-.
    apply concat_slice with (t := t) in C, C'. cbn [map] in C, C'.
    rewrite (gru_backward _ _ _ _ _ _ _ _ _ HT LI LI' AG Q Q'), (gru_backward _ _ _ _ _ _ _ _ _ HT LI LI' AG P P') in C.
    cbn [slice]. congruence.
Qed.

Lemma eval_layers_similar ls : Forall well_formed ls -> forall sights outs outs' i j o o' st st', similar sights outs outs' ->
  Forall (fun o => steps (fst o) = T) outs -> Forall (fun o => steps (fst o) = T) outs' ->
  eval_layers Minibatch b outs i j ls = Ok (o, st) -> eval_layers Minibatch b' outs' i j ls = Ok (o', st') ->
  similar (fold_left (fun sights l => sights ++ [layer_sight l (inputs_sight sights (l_inputs l))]) ls sights) o o'.
Proof.
  induction 1 as [|l ls WF _ IH]; intros sights outs outs' i j o o' st st' S F F'; cbn [eval_layers fold_left].
  - intros E E'. injection E as <- <-. injection E' as <- <-. exact S.
  - destruct (eval_layer _ b outs _ _ l) as [[v s1]|e] eqn:E; cbn [bind]; [|discriminate].
    destruct (eval_layer _ b' outs' _ _ l) as [[v' s1']|e] eqn:E'; cbn [bind]; [|discriminate].
    destruct (eval_layers _ b (outs ++ _) _ _ ls) as [[o2 s2]|e] eqn:G; cbn [bind]; [|discriminate].
    destruct (eval_layers _ b' (outs' ++ _) _ _ ls) as [[o2' s2']|e] eqn:G'; cbn [bind]; [|discriminate].
    intros H H'. injection H as <- <-. injection H' as <- <-.
    destruct (da_dropout _ _ _ Hd) as [D D']. destruct (da_length _ _ _ Hd) as (L1 & L2 & L3 & L4).
    refine (IH _ _ _ _ _ _ _ _ _ _ _ _ G G').
    + pose proof S as (S1 & S2 & S3). split; [rewrite !app_length; cbn [length]; lia|]. split; [rewrite !app_length; cbn [length]; lia|].
      intros u k Hk. rewrite !map_app. destruct (Nat.lt_ge_cases k (length sights)) as [C|C].
      * rewrite app_nth1 in Hk by exact C. rewrite !nth_error_app1 by (rewrite map_length; lia). apply S3, Hk.
      * rewrite app_nth2 in Hk by exact C. rewrite !nth_error_app2 by (rewrite map_length; lia). rewrite !map_length, S1, S2.
        destruct (k - length sights) as [|[|k']]; cbn [nth] in Hk; try contradiction. cbn [map nth_error]. unfold sliceo. cbn [fst snd].
        rewrite (eval_layer_similar _ _ _ _ _ _ _ _ _ _ WF S F F' E E' u Hk). reflexivity.
    + apply Forall_app. split; [exact F|]. constructor; [|constructor]. cbn [fst].
      exact (eval_layer_length _ _ _ _ _ _ _ WF D (eq_trans L1 HT) (eq_trans L2 HT) HT F E).
    + apply Forall_app. split; [exact F'|]. constructor; [|constructor]. cbn [fst].
      exact (eval_layer_length _ _ _ _ _ _ _ WF D' (eq_trans L3 HT) (eq_trans L4 HT) (eq_trans (f_equal (@length _) (da_mask _ _ _ Hd)) HT) F' E').
Qed.

Lemma output_layer_slice (n : network A) (x p : tensor) u :
  match n_kind n with Softmax => softmax_layer n x | HSoftmax _ _ => hsoftmax_layer n x end = Ok p ->
  match n_kind n with Softmax => softmax_layer n (sel u x) | HSoftmax _ _ => hsoftmax_layer n (sel u x) end = Ok (sel u p).
Proof.
  destruct (n_kind n).
  - unfold softmax_layer. destruct (tensor_preact _ _ _ x _ _) as [q|e] eqn:P; cbn [bind]; [|discriminate].
    rewrite (preact_slice _ _ _ _ _ _ _ u P). cbn [bind].
    match goal with |- context [if 1 <? ?k then ?y else ?z] => destruct (if 1 <? k then y else z) as [w|] end; cbn [bind]; [|discriminate].
    intro H. injection H as <-. now rewrite sel_map.
  - unfold hsoftmax_layer. destruct (1 <? _); cbn [bind]; [discriminate|].
    destruct (get_weight _ _ _ _); cbn [bind]; [|discriminate]. destruct (get_bias _ _ _ _); cbn [bind]; [|discriminate].
    destruct (get_level_weight _ _ _ _); cbn [bind]; [|discriminate]. destruct (get_level_bias _ _ _ _); cbn [bind]; [|discriminate].
    intro H. injection H as <-. now rewrite sel_map.
Qed.

Lemma eval_network_similar (n : network A) p p' st st' : Forall well_formed (n_layers n) -> network_sight n <> None ->
  eval_network n Minibatch b = Ok (p, st) -> eval_network n Minibatch b' = Ok (p', st') -> sel t p = sel t p'.
Proof.
  intros WF NS. unfold eval_network.
  destruct (eval_layers _ b [] _ _ _) as [[outs s1]|e] eqn:E; cbn [bind]; [|discriminate].
  destruct (eval_layers _ b' [] _ _ _) as [[outs' s1']|e] eqn:E'; cbn [bind]; [|discriminate].
  assert (S0 : similar [] [] []). { split; [reflexivity|]. split; [reflexivity|]. intros u [|k]; reflexivity. }
  pose proof (eval_layers_similar _ WF _ _ _ _ _ _ _ _ _ S0 (Forall_nil _) (Forall_nil _) E E') as S.
  set (sights := fold_left _ (n_layers n) []) in S.
  assert (St : sees (inputs_sight sights (n_inputs n)) t).
  { change (sees (network_sight n) t). destruct (network_sight n) as [[| |]|]; cbn; try lia. congruence. }
  destruct (mapM (py_index outs) (n_inputs n)) as [ins|e] eqn:EI; cbn [bind]; [|discriminate].
  destruct (mapM (py_index outs') (n_inputs n)) as [ins'|e] eqn:EI'; cbn [bind]; [|discriminate].
  apply mapM_slice with (t := t) in EI, EI'. rewrite (similar_inputs _ _ _ _ _ S St) in EI.
  assert (Ei : map (sliceo t) ins = map (sliceo t) ins') by congruence.
  pose proof (layer_input_slice t ins) as LI. pose proof (layer_input_slice t ins') as LI'.
  destruct (mapM _ ins) as [fs|e] eqn:EF; cbn [bind] in *; [|discriminate].
  destruct (concat_features fs) as [x|e]; cbn [bind]; [|discriminate]. specialize (LI x eq_refl).
  destruct (mapM _ ins') as [fs'|e]; cbn [bind] in *; [|discriminate].
  destruct (concat_features fs') as [x'|e]; cbn [bind]; [|discriminate]. specialize (LI' x' eq_refl).
  rewrite Ei, LI' in LI. assert (EX : sel t x' = sel t x) by congruence.
  destruct (match n_kind n with Softmax => softmax_layer n x | HSoftmax _ _ => hsoftmax_layer n x end) as [q|] eqn:O; cbn [bind]; [|discriminate].
  destruct (match n_kind n with Softmax => softmax_layer n x' | HSoftmax _ _ => hsoftmax_layer n x' end) as [q'|] eqn:O'; cbn [bind]; [|discriminate].
  apply output_layer_slice with (u := t) in O, O'. rewrite EX, O in O'. congruence.
Qed.
End Visible.
