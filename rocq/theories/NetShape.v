(** The dimensions of what a network computes. *)
From Verif Require Import Base BaseLib ListLib Strings ParamModel NetModel NetSpec NetColumns NetTime NetSteps NetVisible.

Section Shape.
Context {A : arith}.
Notation num := (num A).
Notation vec := (list num).
Notation matrix := (list (list num)).
Notation tensor := (list (list (list num))).
Variables T N : nat.
Hypothesis HT : T <> 0.

Notation rect x := (length x = T /\ Forall (fun m => length m = N) x).
Definition rectv (v : value A) : Prop := match v with IDs x => rect x | Features x => rect x end.

Lemma scan_forall S (P : S -> Prop) (step : list bool -> matrix -> S -> S) xs : forall s, P s ->
  (forall m x s, In (m, x) xs -> P s -> P (step m x s)) -> Forall P (scan step xs s).
Proof.
  induction xs as [|[m x] xs IH]; intros s H0 HS; cbn [scan]; [constructor|].
  assert (P (step m x s)) by (apply HS; [now left|exact H0]). constructor; [assumption|]. apply IH; [assumption|]. intros; apply HS; [now right|assumption].
Qed.
Lemma zeros_rows c : length (zeros (A := A) N c) = N.
Proof. apply repeat_length. Qed.
Lemma shifted_rows (x : tensor) : Forall (fun m => length m = N) x -> Forall (fun m => length m = N) (shifted x N).
Proof.
  intro F. unfold shifted. apply Forall_app. split; [|repeat constructor; apply zeros_rows].
  rewrite <- (firstn_skipn 2 x) in F. apply Forall_app in F. tauto.
Qed.
Lemma in_combine_rows (mask : list (list bool)) (y : tensor) m x :
  Forall (fun m => length m = N) mask -> Forall (fun m => length m = N) y -> In (m, x) (combine mask y) -> length m = N /\ length x = N.
Proof.
  intros F F' H. rewrite Forall_forall in *. split; [apply F; eapply in_combine_l; eauto|apply F'; eapply in_combine_r; eauto].
Qed.
Lemma lstm_rect ps name devices size act rv mask (x : tensor) r : rect mask -> rect x ->
  lstm_minibatch ps name devices size act rv mask x = Ok r -> rect r.
Proof.
  intros [Lm Fm] Rx E. split; [exact (lstm_minibatch_length T ps name devices size act rv mask x r Lm (proj1 Rx) E)|].
  revert E. unfold lstm_minibatch. destruct (tensor_preact ps name devices x _ _) as [p|e] eqn:P; cbn [bind]; [|discriminate].
  destruct (shape_preact T N HT _ _ _ _ _ _ _ Rx P) as [Lp Fp].
  destruct (get_weight _ _ _ _) as [w|e]; cbn [bind]; [|discriminate].
  rewrite (shape_sequences T N HT x Rx).
  intro H. match type of H with Ok ?z = _ => assert (r = z) as -> by congruence end. clear H.
  assert (G : forall mk y, Forall (fun m => length m = N) mk -> Forall (fun m => length m = N) y ->
    Forall (fun st : matrix * matrix => length (fst st) = N /\ length (snd st) = N)
      (scan (lstm_step size act w) (combine mk y) (zeros N size, zeros N size))).
  { intros mk y F1 F2. apply scan_forall; [split; apply zeros_rows|]. intros m z s Hi Hs.
    destruct (in_combine_rows _ _ _ _ F1 F2 Hi). now apply (lstm_rows T N HT). }
  destruct rv; rewrite Forall_map; eapply Forall_impl; try apply Forall_rev; try (apply G; auto; apply Forall_rev; auto; now apply shifted_rows);
    intros s Hs; exact (proj2 Hs).
Qed.
Lemma gru_rect ps name devices size rv mask (x : tensor) r : rect mask -> rect x ->
  gru_minibatch ps name devices size rv mask x = Ok r -> rect r.
Proof.
  intros [Lm Fm] Rx E. split; [exact (gru_minibatch_length T ps name devices size rv mask x r Lm (proj1 Rx) E)|].
  revert E. unfold gru_minibatch. destruct (tensor_preact ps name devices x _ _) as [p|e] eqn:P; cbn [bind]; [|discriminate].
  destruct (shape_preact T N HT _ _ _ _ _ _ _ Rx P) as [Lp Fp].
  destruct (get_weight _ _ _ _) as [w|e]; cbn [bind]; [|discriminate].
  rewrite (shape_sequences T N HT x Rx).
  intro H. match type of H with Ok ?z = _ => assert (r = z) as -> by congruence end. clear H.
  assert (G : forall mk y, Forall (fun m => length m = N) mk -> Forall (fun m => length m = N) y ->
    Forall (fun h : matrix => length h = N) (scan (gru_step size w) (combine mk y) (zeros N size))).
  { intros mk y F1 F2. apply scan_forall; [apply zeros_rows|]. intros m z s Hi Hs.
    destruct (in_combine_rows _ _ _ _ F1 F2 Hi). now apply (gru_rows T N HT). }
  destruct rv; try apply Forall_rev; apply G; auto; apply Forall_rev; auto; now apply shifted_rows.
Qed.

Lemma in_windows X k (l : list X) w x : In w (windows k l) -> In x w -> In x l.
Proof.
  induction l as [|a l IH]; [intros []|]. cbn [windows]. destruct (length (a :: l) <? k); [intros []|].
  intros [<-|H] Hx; [|right; auto]. rewrite <- (firstn_skipn k (a :: l)). apply in_or_app. now left.
Qed.
Lemma windows_nonempty X k (l : list X) w : In w (windows (S k) l) -> w <> [].
Proof.
  induction l as [|a l IH]; [intros []|]. cbn [windows]. destruct (length (a :: l) <? S k); [intros []|].
  intros [<-|H]; [discriminate|auto].
Qed.
Lemma conv_rows (x : tensor) f : f <> [] -> Forall (fun m => length m = N) x -> Forall (fun m => length m = N) (conv1d x f).
Proof.
  intros Hf F. unfold conv1d. apply Forall_forall. intros m Hm. apply in_map_iff in Hm as (w & <- & Hw).
  assert (Hx : forall y, In y w -> length y = N) by (rewrite Forall_forall in F; intros y Hy; apply F; eapply in_windows; eauto).
  assert (Hn : w <> []) by (destruct f as [|f0 f]; [congruence|]; cbn [length] in Hw; eapply windows_nonempty; eauto).
  destruct w as [|w0 w]; [congruence|]. destruct f as [|f0 f]; [congruence|]. cbn [map2].
  assert (F0 : length (mdot w0 f0) = N) by (unfold mdot; rewrite map_length; apply Hx; now left).
  assert (FR : Forall (fun m => length m = N) (map2 mdot w f)).
  { apply Forall_forall. intros z Hz. apply in_map2 in Hz as (a & c & Ha & _ & ->). unfold mdot. rewrite map_length. apply Hx. now right. }
  revert F0. generalize (mdot w0 f0). induction FR as [|z zs Hz _ IH]; intros m Hm; cbn [fold_left]; [exact Hm|].
  apply IH. unfold madd, mmap2. now apply (map2_rows T N HT).
Qed.

Lemma mapi_length X Y (f : nat -> X -> Y) l : length (mapi f l) = length l.
Proof. unfold mapi. rewrite map2_length', seq_length. lia. Qed.
Lemma dropout_rect scale pass (x : tensor) : rect x -> rect (dropout scale pass x).
Proof.
  intros [L F]. destruct pass as [p|]; [|auto]. cbn [dropout]. split; [now rewrite mapi_length|].
  apply Forall_forall. intros m Hm. unfold mapi at 1 in Hm. apply in_map2 in Hm as (i & y & _ & Hy & ->).
  rewrite mapi_length. rewrite Forall_forall in F. auto.
Qed.

(** A GLU layer has filters for at least one time step. *)
Definition some_filter (l : layer A) : Prop := match l_kind l with GLU k => k <> 0 | _ => True end.

Lemma mapM_rect outs inputs ins : mapM (py_index outs) inputs = Ok ins ->
  Forall (fun o : value A * nat => rectv (fst o)) outs -> Forall (fun o => rectv (fst o)) ins.
Proof.
  intros E F. rewrite Forall_forall in *. intros o Ho. destruct (mapM_in _ _ _ _ _ _ E Ho) as (k & _ & Ek).
  apply F. unfold py_index in Ek. destruct (nth_error outs k) as [o'|] eqn:E'; [|discriminate].
  assert (o' = o) as -> by congruence. eapply nth_error_In; eauto.
Qed.

Lemma eval_layer_rect b (outs : list (value A * nat)) i j (l : layer A) v st : well_formed l -> some_filter l ->
  rect (b_words b) -> rect (b_classes b) -> rect (b_mask b) ->
  Forall (fun o => rectv (fst o)) outs ->
  eval_layer Minibatch b outs i j l = Ok (v, st) -> rectv v.
Proof.
  intros FW SF Rw Rc Rm FS. unfold eval_layer.
  destruct (mapM (py_index outs) (l_inputs l)) as [ins|e] eqn:EI; cbn [bind]; [|discriminate].
  pose proof (mapM_rect _ _ _ EI FS) as FI.
  pose proof (layer_input_shape T N HT ins) as LI.
  unfold well_formed, some_filter in *.
  destruct (l_kind l) as [| | | | | | | | |fz| | | | | |] eqn:KD.
  - intro H. injection H as <- <-. exact Rw.
  - intro H. injection H as <- <-. exact Rc.
  - destruct ins as [|[[ids|?] z] [|? ?]]; try discriminate.
    destruct (mapM _ (l_devices l)) as [parts|] eqn:E; cbn [bind]; [|discriminate].
    destruct (concat_features parts) as [y|] eqn:C; cbn [bind]; [|discriminate].
    intro H. injection H as <- <-. refine (shape_concat T N HT _ _ _ C). apply Forall_forall. intros p Hp. destruct (mapM_in _ _ _ _ _ _ E Hp) as (d & _ & Ed).
    destruct (get_weight _ _ _ _) as [w|]; cbn [bind] in Ed; [|discriminate].
    apply Forall_inv in FI. cbn in FI. destruct FI as [L F]. pose proof Ed as Ed'. apply mapM_inv, F2_length in Ed'. split; [congruence|].
    apply Forall_forall. intros m Hm. destruct (mapM_in _ _ _ _ _ _ Ed Hm) as (m0 & H0 & E0). apply mapM_inv, F2_length in E0.
    rewrite Forall_forall in F. rewrite <- E0. auto.
  - destruct (do fs <- mapM (fun v => features (fst v)) ins; concat_features fs) as [x|e]; cbn [bind]; [|discriminate].
    specialize (LI x FI eq_refl). destruct (tensor_preact _ _ _ x _ _) as [p|e] eqn:P; cbn [bind]; [|discriminate].
    apply (shape_preact T N HT) in P; [|exact LI]. intro H. injection H as <- <-. cbn [rectv]. apply (shape_map T N); [|exact P].
    intros; unfold mmap; now rewrite map_length.
  - destruct (do fs <- mapM (fun v => features (fst v)) ins; concat_features fs) as [x|e]; cbn [bind]; [|discriminate].
    specialize (LI x FI eq_refl). destruct (lstm_minibatch _ _ _ _ _ _ _ x) as [p|e] eqn:P; cbn [bind]; [|discriminate].
    apply lstm_rect in P; auto. intro H. injection H as <- <-. exact P.
  - destruct (do fs <- mapM (fun v => features (fst v)) ins; concat_features fs) as [x|e]; cbn [bind]; [|discriminate].
    specialize (LI x FI eq_refl). destruct (gru_minibatch _ _ _ _ _ _ x) as [p|e] eqn:P; cbn [bind]; [|discriminate].
    apply gru_rect in P; auto. intro H. injection H as <- <-. exact P.
  - destruct (do fs <- mapM (fun v => features (fst v)) ins; concat_features fs) as [x|e]; cbn [bind]; [|discriminate].
    specialize (LI x FI eq_refl). destruct (lstm_minibatch _ _ _ _ _ false _ x) as [p|e] eqn:P; cbn [bind]; [|discriminate].
    destruct (lstm_minibatch _ _ _ _ _ true _ x) as [q|e] eqn:Q; cbn [bind]; [|discriminate].
    apply lstm_rect in P; auto. apply lstm_rect in Q; auto.
    destruct (concat_features [p; q]) as [y|] eqn:C; cbn [bind]; [|discriminate]. intro H. injection H as <- <-.
    refine (shape_concat T N HT _ _ _ C). repeat (constructor; [assumption|]). constructor.
  - destruct (do fs <- mapM (fun v => features (fst v)) ins; concat_features fs) as [x|e]; cbn [bind]; [|discriminate].
    specialize (LI x FI eq_refl). destruct (gru_minibatch _ _ _ _ false _ x) as [p|e] eqn:P; cbn [bind]; [|discriminate].
    destruct (gru_minibatch _ _ _ _ true _ x) as [q|e] eqn:Q; cbn [bind]; [|discriminate].
    apply gru_rect in P; auto. apply gru_rect in Q; auto.
    destruct (concat_features [p; q]) as [y|] eqn:C; cbn [bind]; [|discriminate]. intro H. injection H as <- <-.
    refine (shape_concat T N HT _ _ _ C). repeat (constructor; [assumption|]). constructor.
  - destruct (do fs <- mapM (fun v => features (fst v)) ins; concat_features fs) as [x|e]; cbn [bind]; [|discriminate].
    specialize (LI x FI eq_refl). destruct (tensor_preact _ _ _ x _ _) as [p|e] eqn:P; cbn [bind]; [|discriminate].
    apply (shape_preact T N HT) in P; [|exact LI]. intro H. injection H as <- <-. cbn [rectv].
    repeat match goal with
    | |- length (map2 _ _ _) = T /\ _ => apply (shape_map2 T N HT); [unfold madd, mmul, mmap2; intros; now apply (map2_rows T N HT)| |]
    | |- length (map _ _) = T /\ _ => apply (shape_map T N); [unfold mmap; intros; rewrite map_length, ?sub_rows; auto|]
    end; auto.
  - destruct ins as [|[[ids|y] z] [|? ?]]; try discriminate.
    apply Forall_inv in FI. cbn in FI. unfold tensor_conv1d.
    destruct (mapM _ (l_devices l)) as [parts|] eqn:E; cbn [bind]; [|discriminate].
    destruct parts as [|q parts]; [discriminate|].
    destruct (concat_features _) as [x|] eqn:C; cbn [bind]; [|discriminate].
    destruct (get_bias _ _ _ _) as [bias|]; cbn [bind]; [|discriminate].
    intro H. injection H as <- <-. cbn [rectv].
    apply (shape_map T N); [intros; unfold mmul, mmap2; apply (map2_rows T N HT); unfold mmap; rewrite ?map_length, ?sub_rows; auto|].
    apply (shape_map T N); [intros; now rewrite map_length|]. refine (shape_concat T N HT _ _ _ C). apply Forall_forall.
    intros u Hu. apply in_map_iff in Hu as (w & <- & Hw). destruct (mapM_in _ _ _ _ _ _ E Hw) as (d & Hd & Ed).
    pose proof (FW d w Hd Ed) as Lw. destruct FI as [Ly Fy]. split.
    + unfold conv1d. rewrite map_length, Lw, windows_length by lia. rewrite app_length, repeat_length. lia.
    + apply conv_rows; [destruct w; [cbn in Lw; lia|discriminate]|]. apply Forall_app. split; [|exact Fy].
      apply Forall_forall. intros m Hm. apply repeat_spec in Hm. subst m. rewrite (shape_sequences T N HT y (conj Ly Fy)). apply zeros_rows.
  - destruct (mapM (fun v => do x <- features (fst v); Ok (x, snd v)) ins) as [xs|e] eqn:E; cbn [bind]; [|discriminate].
    destruct (mapM (addition_input _ _ _ _) _) as [ts|e] eqn:F; cbn [bind]; [|discriminate].
    destruct (sum_tensors ts) as [y|] eqn:G; cbn [bind]; [|discriminate].
    intro H. injection H as <- <-. refine (shape_sum T N HT _ _ _ G). apply Forall_forall. intros a Ha.
    destruct (mapM_in _ _ _ _ _ _ F Ha) as ((k & c & z) & Hk & Ek). apply in_combine_r in Hk.
    assert (SB : rect c).
    { destruct (mapM_in _ _ _ _ _ _ E Hk) as (o & Ho & Eo). rewrite Forall_forall in FI. specialize (FI o Ho).
      destruct (fst o); cbn in *; [discriminate|]. injection Eo as <- _. exact FI. }
    unfold addition_input in Ek. destruct (z =? l_size l); [assert (a = c) as -> by congruence; exact SB|].
    exact (shape_preact T N HT _ _ _ _ _ _ _ SB Ek).
  - destruct (do fs <- mapM (fun v => features (fst v)) ins; concat_features fs) as [x|e]; cbn [bind]; [|discriminate].
    intro H. injection H as <- <-. apply dropout_rect. exact (LI x FI eq_refl).
  - destruct (do fs <- mapM (fun v => features (fst v)) ins; concat_features fs) as [x|e]; cbn [bind]; [|discriminate].
    specialize (LI x FI eq_refl). destruct (lstm_minibatch _ _ _ _ _ _ _ x) as [p|e] eqn:P; cbn [bind]; [|discriminate].
    apply lstm_rect in P; auto. intro H. injection H as <- <-. exact P.
  - destruct (do fs <- mapM (fun v => features (fst v)) ins; concat_features fs) as [x|e]; cbn [bind]; [|discriminate].
    specialize (LI x FI eq_refl). destruct (gru_minibatch _ _ _ _ _ _ x) as [p|e] eqn:P; cbn [bind]; [|discriminate].
    apply gru_rect in P; auto. intro H. injection H as <- <-. exact P.
  - destruct (do fs <- mapM (fun v => features (fst v)) ins; concat_features fs) as [x|e]; cbn [bind]; [|discriminate].
    specialize (LI x FI eq_refl). destruct (lstm_minibatch _ _ _ (l_size l - _) _ _ _ x) as [p|e] eqn:P; cbn [bind]; [|discriminate].
    destruct (lstm_minibatch _ _ _ (l_size l / 2) _ _ _ x) as [q|e] eqn:Q; cbn [bind]; [|discriminate].
    apply lstm_rect in P; auto. apply lstm_rect in Q; auto.
    destruct (concat_features [p; q]) as [y|] eqn:C; cbn [bind]; [|discriminate]. intro H. injection H as <- <-.
    refine (shape_concat T N HT _ _ _ C). repeat (constructor; [assumption|]). constructor.
  - destruct (do fs <- mapM (fun v => features (fst v)) ins; concat_features fs) as [x|e]; cbn [bind]; [|discriminate].
    specialize (LI x FI eq_refl). destruct (gru_minibatch _ _ _ (l_size l - _) _ _ x) as [p|e] eqn:P; cbn [bind]; [|discriminate].
    destruct (gru_minibatch _ _ _ (l_size l / 2) _ _ x) as [q|e] eqn:Q; cbn [bind]; [|discriminate].
    apply gru_rect in P; auto. apply gru_rect in Q; auto.
    destruct (concat_features [p; q]) as [y|] eqn:C; cbn [bind]; [|discriminate]. intro H. injection H as <- <-.
    refine (shape_concat T N HT _ _ _ C). repeat (constructor; [assumption|]). constructor.
Qed.

Lemma eval_layers_rect b ls : Forall well_formed ls -> Forall some_filter ls ->
  rect (b_words b) -> rect (b_classes b) -> rect (b_mask b) -> forall outs i j o st,
  Forall (fun o => rectv (fst o)) outs -> eval_layers Minibatch b outs i j ls = Ok (o, st) -> Forall (fun o => rectv (fst o)) o.
Proof.
  intros FW SF Rw Rc Rm. induction ls as [|l ls IH]; intros outs i j o st F; cbn [eval_layers].
  - intro H. injection H as <- <-. exact F.
  - apply Forall_cons_iff in FW as [W FW]. apply Forall_cons_iff in SF as [SL SF]. specialize (IH FW SF).
    destruct (eval_layer _ b outs _ _ l) as [[v s1]|e] eqn:E; cbn [bind]; [|discriminate].
    destruct (eval_layers _ b (outs ++ _) _ _ ls) as [[o2 s2]|e] eqn:G; cbn [bind]; [|discriminate].
    intro H. injection H as <- <-. refine (IH _ _ _ _ _ _ G). apply Forall_app. split; [exact F|]. constructor; [|constructor].
    cbn [fst]. exact (eval_layer_rect _ _ _ _ _ _ _ W SL Rw Rc Rm F E).
Qed.

Theorem eval_network_rect (n : network A) b p st : Forall well_formed (n_layers n) -> Forall some_filter (n_layers n) ->
  rect (b_words b) -> rect (b_classes b) -> rect (b_mask b) -> eval_network n Minibatch b = Ok (p, st) -> rect p.
Proof.
  intros FW SF Rw Rc Rm. unfold eval_network.
  destruct (eval_layers _ b [] _ _ _) as [[outs s1]|e] eqn:E; cbn [bind]; [|discriminate].
  pose proof (eval_layers_rect _ _ FW SF Rw Rc Rm _ _ _ _ _ (Forall_nil _) E) as F.
  destruct (mapM (py_index outs) (n_inputs n)) as [ins|e] eqn:EI; cbn [bind]; [|discriminate].
  pose proof (mapM_rect _ _ _ EI F) as FI. pose proof (layer_input_shape T N HT ins) as LI.
  destruct (mapM _ ins) as [fs|e] eqn:EF; cbn [bind] in *; [|discriminate].
  destruct (concat_features fs) as [x|e]; cbn [bind]; [|discriminate]. specialize (LI x FI eq_refl).
  destruct (n_kind n).
  - unfold softmax_layer. destruct (tensor_preact _ _ _ x _ _) as [q|e] eqn:P; cbn [bind]; [|discriminate].
    apply (shape_preact T N HT) in P; [|exact LI].
    match goal with |- context [if 1 <? ?k then ?y else ?z] => destruct (if 1 <? k then y else z) as [w|] end; cbn [bind]; [|discriminate].
    intro H. injection H as <- <-. apply (shape_map T N); [intros; now rewrite map_length|exact P].
  - unfold hsoftmax_layer. destruct (1 <? _); cbn [bind]; [discriminate|].
    destruct (get_weight _ _ _ _); cbn [bind]; [|discriminate]. destruct (get_bias _ _ _ _); cbn [bind]; [|discriminate].
    destruct (get_level_weight _ _ _ _); cbn [bind]; [|discriminate]. destruct (get_level_bias _ _ _ _); cbn [bind]; [|discriminate].
    intro H. injection H as <- <-. apply (shape_map T N); [intros; now rewrite map_length|exact LI].
Qed.
End Shape.
