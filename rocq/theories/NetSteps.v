(** Evaluating a network one time step at a time. *)
From Verif Require Import Base BaseLib ListLib Strings ParamModel NetModel NetSpec NetColumns NetTime.

Lemma sel_some X (l : list X) t x : nth_error l t = Some x -> sel t l = [x].
Proof. unfold sel. now intros ->. Qed.
Lemma sel_lt X (l : list X) t : t < length l -> exists x, nth_error l t = Some x /\ sel t l = [x].
Proof. intro H. apply nth_error_Some in H. unfold sel. destruct (nth_error l t) as [x|]; [eauto|congruence]. Qed.
Lemma firstn_snoc X (l : list X) t x : nth_error l t = Some x -> firstn (S t) l = firstn t l ++ [x].
Proof.
  revert t; induction l as [|a l IH]; intros [|t]; cbn [nth_error firstn app]; try discriminate.
  - congruence.
  - intro H. rewrite <- (IH t H). reflexivity.
Qed.

Lemma F2_length X Y (R : X -> Y -> Prop) l l' : Forall2 R l l' -> length l = length l'.
Proof. induction 1; cbn; auto. Qed.
Lemma skipn_cons_nth X (l : list X) t x : nth_error l t = Some x -> skipn t l = x :: skipn (S t) l.
Proof. revert t; induction l as [|a l IH]; intros [|t] H; cbn in *; try discriminate; [congruence|]. rewrite (IH t H). reflexivity. Qed.

Section Steps.
Context {A : arith}.
Notation num := (num A).
Notation vec := (list num).
Notation matrix := (list (list num)).
Notation tensor := (list (list (list num))).
Variables T N : nat.
Hypothesis HT : T <> 0.
Variables words classes : list (list nat).
Let shape {X} (x : list (list X)) := length x = T /\ Forall (fun m => length m = N) x.
Hypothesis Hwords : shape words.
Hypothesis Hclasses : shape classes.

Definition shaped (v : value A) : Prop := match v with IDs x => shape x | Features x => shape x end.
Definition slice (t : nat) (v : value A) : value A := match v with IDs x => IDs (sel t x) | Features x => Features (sel t x) end.
Definition sliceo t (o : value A * nat) : value A * nat := (slice t (fst o), snd o).
Definition at_step (t : nat) : batch := mkBatch (sel t words) (sel t classes) [] None.

(** Operations on each time step keep the shape. *)
Lemma shape_map X Y (f : list X -> list Y) x : (forall m, length m = N -> length (f m) = N) -> shape x -> shape (map f x).
Proof.
  intros H [L F]. split; [now rewrite map_length|]. rewrite Forall_forall in *. intros m Hm.
  apply in_map_iff in Hm as (m' & <- & Hm). auto.
Qed.
Lemma shape_map2 X Y Z (f : list X -> list Y -> list Z) x y :
  (forall a b, length a = N -> length b = N -> length (f a b) = N) -> shape x -> shape y -> shape (map2 f x y).
Proof.
  intros H [L F] [L' F']. split; [rewrite map2_length'; lia|]. rewrite Forall_forall in *. intros m Hm.
  apply in_map2 in Hm as (a & b & Ha & Hb & ->). auto.
Qed.
Lemma map2_rows X Y Z (f : X -> Y -> Z) a b : length a = N -> length b = N -> length (map2 f a b) = N.
Proof. intros. rewrite map2_length'. lia. Qed.
Lemma shape_concat (l : list tensor) r : Forall shape l -> concat_features l = Ok r -> shape r.
Proof.
  destruct l as [|x l]; cbn [concat_features]; [discriminate|]. intros H E.
  assert (r = fold_left (map2 (map2 (@app num))) l x) as -> by congruence. clear E.
  apply Forall_cons_iff in H as [Hx Hl]. revert x Hx; induction Hl as [|y l Hy _ IH]; intros x Hx; cbn [fold_left]; [exact Hx|].
  apply IH. apply shape_map2; auto. intros; now apply map2_rows.
Qed.
Lemma shape_preact ps name devices (x : tensor) pn ub r : shape x -> tensor_preact ps name devices x pn ub = Ok r -> shape r.
Proof.
  unfold tensor_preact. destruct (mapM _ devices) as [parts|e]; cbn [bind]; [|discriminate].
  destruct parts as [|p parts]; [discriminate|]. intro H. apply shape_concat.
  apply Forall_forall. intros y Hy. apply in_map_iff in Hy as (q & <- & _).
  unfold preact_part. destruct ub; repeat apply shape_map; auto; intros; unfold mdot; rewrite ?map_length; auto.
Qed.
Lemma shape_sum (l : list tensor) r : Forall shape l -> sum_tensors l = Ok r -> shape r.
Proof.
  destruct l as [|x l]; cbn [sum_tensors]; [discriminate|]. intros H E.
  assert (r = fold_left (map2 madd) l x) as -> by congruence. clear E.
  apply Forall_cons_iff in H as [Hx Hl]. revert x Hx; induction Hl as [|y l Hy _ IH]; intros x Hx; cbn [fold_left]; [exact Hx|].
  apply IH. apply shape_map2; auto. intros; now apply map2_rows.
Qed.
Lemma shape_sequences (x : tensor) : shape x -> num_sequences x = N.
Proof. intros [L F]. destruct x as [|m x]; cbn in *; [congruence|]. now inversion F. Qed.

(** The states of a scan *)
Definition after {S} (step : list bool -> matrix -> S -> S) (xs : list (list bool * matrix)) (s : S) (t : nat) : S :=
  fold_left (fun s p => step (fst p) (snd p) s) (firstn t xs) s.
Lemma scan_after S (step : list bool -> matrix -> S -> S) xs : forall s t p,
  nth_error xs t = Some p -> nth_error (scan step xs s) t = Some (after step xs s (1 + t)).
Proof.
  induction xs as [|[m x] xs IH]; intros s [|t] p; cbn [nth_error scan]; try discriminate.
  - intros _. reflexivity.
  - intro H. rewrite (IH _ _ _ H). reflexivity.
Qed.
Lemma after_step S (step : list bool -> matrix -> S -> S) xs s t p :
  nth_error xs t = Some p -> after step xs s (1 + t) = step (fst p) (snd p) (after step xs s t).
Proof. intro H. unfold after. cbn [Nat.add]. rewrite (firstn_snoc _ _ _ _ H), fold_left_app. reflexivity. Qed.
Lemma scan_length S (step : list bool -> matrix -> S -> S) xs s : length (scan step xs s) = length xs.
Proof. revert s; induction xs as [|[m x] xs IH]; intro s; cbn; auto. Qed.
Lemma after_inv S (P : S -> Prop) (step : list bool -> matrix -> S -> S) xs s :
  P s -> (forall m x s, In (m, x) xs -> P s -> P (step m x s)) -> forall t, P (after step xs s t).
Proof.
  intros H0 HS t. unfold after. assert (HI : forall p, In p (firstn t xs) -> In p xs).
  { intros p Hp. rewrite <- (firstn_skipn t xs). apply in_or_app. now left. }
  revert s H0 HI. induction (firstn t xs) as [|[m x] l IH]; intros s H0 HI; cbn [fold_left fst snd]; [exact H0|].
  apply IH; [apply HS; [apply HI; now left|exact H0]|intros; apply HI; now right].
Qed.

Lemma sub_rows (m : matrix) i z e : length (get_submatrix m i z e) = length m.
Proof. apply map_length. Qed.
Lemma switch_rows m (a b : matrix) : length m = N -> length a = N -> length b = N -> length (switch m a b) = N.
Proof. intros. unfold switch. rewrite map2_length', combine_length. lia. Qed.
Lemma lstm_rows size act w m x (st : matrix * matrix) : length m = N -> length x = N ->
  length (fst st) = N /\ length (snd st) = N ->
  length (fst (lstm_step size act w m x st)) = N /\ length (snd (lstm_step size act w m x st)) = N.
Proof.
  destruct st as [C h]. cbn [fst snd]. intros Hm Hx [HC Hh]. unfold lstm_step. cbn [fst snd].
  assert (HP : length (madd (mdot h w) x) = N) by (apply map2_rows; [unfold mdot; now rewrite map_length|exact Hx]).
  set (p := madd (mdot h w) x) in *. clearbody p.
  split; apply switch_rows; auto; unfold madd, mmul, mmap2, mmap;
    repeat (apply map2_rows || rewrite map_length || rewrite sub_rows); auto.
Qed.
Lemma gru_rows size w m (x h : matrix) : length m = N -> length x = N -> length h = N -> length (gru_step size w m x h) = N.
Proof.
  intros Hm Hx Hh. unfold gru_step. cbv zeta. apply switch_rows; auto. unfold madd, mmul, mmap2, mmap, mdot.
  repeat (apply map2_rows || rewrite map_length || rewrite sub_rows); auto.
Qed.

Notation mask := (map (map (fun _ : nat => true)) words).
Lemma mask_shape : shape mask.
Proof. apply shape_map; [intros; now rewrite map_length|exact Hwords]. Qed.
Lemma mask_at t : t < T -> exists m, nth_error mask t = Some m /\ map (map (fun _ => true)) (sel t words) = [m] /\ length m = N.
Proof.
  intro H. destruct mask_shape as [L F]. destruct (sel_lt _ mask t) as (m & E & E'); [congruence|]. exists m.
  split; [exact E|]. split; [rewrite <- E', sel_map; reflexivity|]. rewrite Forall_forall in F. apply F. eapply nth_error_In; eauto.
Qed.
Lemma combine_shape (p : tensor) m x : shape p -> In (m, x) (combine mask p) -> length m = N /\ length x = N.
Proof.
  intros [_ F] H. destruct mask_shape as [_ F']. rewrite Forall_forall in *. split.
  - apply F'. eapply in_combine_l; eauto.
  - apply F. eapply in_combine_r; eauto.
Qed.
Lemma combine_at (p : tensor) t x m : nth_error mask t = Some m -> nth_error p t = Some x -> nth_error (combine mask p) t = Some (m, x).
Proof. intros Hm Hx. rewrite combine_map2, nth_error_map2, Hm, Hx. reflexivity. Qed.

Lemma preact_slice ps name devices (x : tensor) pn ub r t :
  tensor_preact ps name devices x pn ub = Ok r -> tensor_preact ps name devices (sel t x) pn ub = Ok (sel t r).
Proof.
  unfold tensor_preact. destruct (mapM _ devices) as [parts|e]; cbn [bind]; [|discriminate].
  destruct parts as [|p parts]; [discriminate|]. cbn [map concat_features]. intro H.
  assert (r = fold_left (map2 (map2 (@app num))) (map (preact_part ub x) parts) (preact_part ub x p)) as -> by congruence.
  clear H. f_equal.
  assert (P : forall q, sel t (preact_part ub x q) = preact_part ub (sel t x) q)
    by (intro q; unfold preact_part; destruct ub; rewrite !sel_map; reflexivity).
  rewrite <- P. generalize (preact_part ub x p). induction parts as [|q parts IH]; intro y; cbn [map fold_left]; [reflexivity|].
  rewrite <- IH, sel_map2, P. reflexivity.
Qed.
Lemma concat_slice (l : list tensor) r t : concat_features l = Ok r -> concat_features (map (sel t) l) = Ok (sel t r).
Proof.
  destruct l as [|x l]; cbn [concat_features map]; [discriminate|]. intro H.
  assert (r = fold_left (map2 (map2 (@app num))) l x) as -> by congruence. f_equal.
  clear H. revert x; induction l as [|y l IH]; intro x; cbn [fold_left map]; [reflexivity|].
  rewrite <- IH. f_equal. symmetry. apply sel_map2.
Qed.
Lemma sum_slice (l : list tensor) r t : sum_tensors l = Ok r -> sum_tensors (map (sel t) l) = Ok (sel t r).
Proof.
  destruct l as [|x l]; cbn [sum_tensors map]; [discriminate|]. intro H.
  assert (r = fold_left (map2 madd) l x) as -> by congruence. f_equal.
  clear H. revert x; induction l as [|y l IH]; intro x; cbn [fold_left map]; [reflexivity|].
  rewrite <- IH. f_equal. symmetry. apply sel_map2.
Qed.
Lemma features_slice t v x : features v = Ok x -> features (slice t v) = Ok (sel t x).
Proof. destruct v; cbn; congruence. Qed.
Lemma layer_input_slice t (ins : list (value A * nat)) x :
  (do fs <- mapM (fun v => features (fst v)) ins; concat_features fs) = Ok x ->
  (do fs <- mapM (fun v => features (fst v)) (map (sliceo t) ins); concat_features fs) = Ok (sel t x).
Proof.
  destruct (mapM _ ins) as [fs|e] eqn:E; cbn [bind]; [|discriminate]. intro H.
  rewrite (mapM_map_ok _ _ _ _ _ (fun v : value A * nat => features (fst v)) (sliceo t) (sel t) _ _ ltac:(intros v y _; apply features_slice) E).
  cbn [bind]. apply concat_slice, H.
Qed.
Lemma layer_input_shape (ins : list (value A * nat)) x : Forall (fun o => shaped (fst o)) ins ->
  (do fs <- mapM (fun v => features (fst v)) ins; concat_features fs) = Ok x -> shape x.
Proof.
  intro F. destruct (mapM _ ins) as [fs|e] eqn:E; cbn [bind]; [|discriminate]. apply shape_concat.
  apply Forall_forall. intros y Hy. destruct (mapM_in _ _ _ _ _ _ E Hy) as (o & Ho & Eo).
  rewrite Forall_forall in F. specialize (F o Ho). destruct (fst o); cbn in *; [discriminate|congruence].
Qed.
Lemma addition_slice ps name devices size (xs : list (tensor * nat)) i ts t :
  mapM (addition_input ps name devices size) (combine (seq i (length xs)) xs) = Ok ts ->
  mapM (addition_input ps name devices size) (combine (seq i (length xs)) (map (fun p => (sel t (fst p), snd p)) xs)) = Ok (map (sel t) ts).
Proof.
  revert i ts; induction xs as [|[x z] xs IH]; intros i ts; cbn [length seq combine map mapM].
  - intro H. assert (ts = []) as -> by congruence. reflexivity.
  - destruct (addition_input _ _ _ _ (i, (x, z))) as [y|e] eqn:E; cbn [bind]; [|discriminate].
    destruct (mapM _ (combine _ xs)) as [ys|e] eqn:E'; cbn [bind]; [|discriminate]. intro H.
    assert (ts = y :: ys) as -> by congruence. rewrite (IH _ _ E').
    assert (F : addition_input ps name devices size (i, (sel t (fst (x, z)), snd (x, z))) = Ok (sel t y)).
    { unfold addition_input in *. cbn [fst snd]. destruct (z =? size); [congruence|]. apply preact_slice, E. }
    rewrite F. reflexivity.
Qed.

Definition agrees (state S : list matrix) (j : nat) : Prop := forall q m, nth_error S q = Some m -> nth_error state (j + q) = Some m.

Lemma mapM_out outs inputs ins : mapM (py_index outs) inputs = Ok ins ->
  Forall (fun o : value A * nat => shaped (fst o)) outs -> Forall (fun o => shaped (fst o)) ins.
Proof.
  intros E F. rewrite Forall_forall in *. intros o Ho. destruct (mapM_in _ _ _ _ _ _ E Ho) as (k & _ & Ek).
  apply F. unfold py_index in Ek. destruct (nth_error outs k) as [o'|] eqn:E'; [|discriminate].
  assert (o' = o) as -> by congruence. eapply nth_error_In; eauto.
Qed.
Lemma mapM_slice outs inputs ins t : mapM (py_index outs) inputs = Ok ins ->
  mapM (py_index (map (sliceo t) outs)) inputs = Ok (map (sliceo t) ins).
Proof.
  rewrite <- (map_id inputs) at 2. apply mapM_map_ok.
  intros u o _ H. unfold py_index in *. rewrite nth_error_map. destruct (nth_error outs u); cbn; congruence.
Qed.

(** One layer: the state after each number of steps *)
Lemma eval_layer_steps outs i j l v st : stepwise_layer l -> Forall (fun o => shaped (fst o)) outs ->
  eval_layer Minibatch (unpadded words classes) outs i j l = Ok (v, st) ->
  shaped v /\ exists S : nat -> list matrix,
    S 0 = map (zeros N) (state_sizes l) /\ (forall t, length (S t) = length (state_sizes l)) /\
    forall t state, t < T -> agrees state (S t) j ->
      eval_layer (Step state) (at_step t) (map (sliceo t) outs) i j l = Ok (slice t v, S (1 + t)).
Proof.
  intros FW FS. unfold eval_layer.
  destruct (mapM (py_index outs) (l_inputs l)) as [ins|e] eqn:EI; cbn [bind]; [|discriminate].
  pose proof (mapM_out _ _ _ EI FS) as FI.
  pose proof (fun t => mapM_slice _ _ _ t EI) as EI'.
  pose proof (layer_input_slice) as LI. specialize (LI) with (ins := ins).
  pose proof (layer_input_shape ins) as LS.
  unfold stepwise_layer in FW.
  destruct (l_kind l) as [| | | | | | | | |fz| | | | | |] eqn:KD; cbn [unpadded b_words b_classes b_mask b_dropout]; try (exfalso; exact FW);
  unfold state_sizes; rewrite ?KD.
  - intro H. injection H as <- <-. split; [exact Hwords|]. exists (fun _ => []). split; [reflexivity|]. split; [reflexivity|].
    intros t state Ht _. rewrite (EI' t). reflexivity.
  - intro H. injection H as <- <-. split; [exact Hclasses|]. exists (fun _ => []). split; [reflexivity|]. split; [reflexivity|].
    intros t state Ht _. rewrite (EI' t). reflexivity.
  - destruct ins as [|[[ids|?] z] [|? ?]]; try discriminate.
    destruct (mapM _ (l_devices l)) as [parts|] eqn:E; cbn [bind]; [|discriminate].
    destruct (concat_features parts) as [y|] eqn:C; cbn [bind]; [|discriminate].
    intro H. injection H as <- <-. split.
    { refine (shape_concat _ _ _ C). apply Forall_forall. intros p Hp. destruct (mapM_in _ _ _ _ _ _ E Hp) as (d & _ & Ed).
      destruct (get_weight _ _ _ _) as [w|]; cbn [bind] in Ed; [|discriminate].
      apply Forall_inv in FI. cbn in FI. destruct FI as [L F]. apply mapM_inv in Ed. split; [apply F2_length in Ed; congruence|].
      clear - Ed F. induction Ed as [|r r' l l' H _ IH]; constructor.
      - apply mapM_inv, F2_length in H. rewrite <- H. now inversion F.
      - apply IH. now inversion F. }
    exists (fun _ => []). split; [reflexivity|]. split; [reflexivity|]. intros t state Ht _. rewrite (EI' t). cbn [bind map sliceo slice fst snd].
    assert (E' : mapM (fun d => do w <- get_weight (l_params l) (l_name l) (str "W") d;
                mapM (mapM (fun i0 => mapM (fun column => py_index column i0) w)) (sel t ids)) (l_devices l) = Ok (map (sel t) parts)).
    { rewrite <- (map_id (l_devices l)). revert E. apply mapM_map_ok.
      intros d y' _. destruct (get_weight _ _ _ _) as [w|]; cbn [bind]; [|discriminate]. apply mapM_sel. }
    rewrite E'. cbn [bind]. rewrite (concat_slice _ _ t C). reflexivity.
  - destruct (do fs <- mapM (fun v => features (fst v)) ins; concat_features fs) as [x|e] eqn:EX; cbn [bind]; [|discriminate].
    destruct (tensor_preact _ _ _ x _ _) as [p|e] eqn:P; cbn [bind]; [|discriminate].
    pose proof (shape_preact _ _ _ _ _ _ _ (LS x FI eq_refl) P) as SP.
    intro H. injection H as <- <-. split; [apply shape_map; [intros; unfold mmap; now rewrite map_length|exact SP]|].
    exists (fun _ => []). split; [reflexivity|]. split; [reflexivity|]. intros t state Ht _. rewrite (EI' t). cbn [bind].
    rewrite (LI t _ eq_refl). cbn [bind]. rewrite (preact_slice _ _ _ _ _ _ _ t P). cbn [bind slice]. now rewrite sel_map.
  - destruct (do fs <- mapM (fun v => features (fst v)) ins; concat_features fs) as [x|e] eqn:EX; cbn [bind]; [|discriminate].
    unfold lstm_minibatch.
    destruct (tensor_preact _ _ _ x _ _) as [p|e] eqn:P; cbn [bind]; [|discriminate].
    pose proof (LS x FI eq_refl) as SX. pose proof (shape_preact _ _ _ _ _ _ _ SX P) as SP.
    destruct (get_weight _ _ _ _) as [w|e] eqn:W; cbn [bind]; [|discriminate].
    rewrite (shape_sequences x SX).
    set (step := lstm_step (l_size l) (l_activation l) w). set (init := (zeros (A := A) N (l_size l), zeros N (l_size l))).
    intro H. injection H as <- <-.
    assert (Rows : forall t, length (fst (after step (combine mask p) init t)) = N /\ length (snd (after step (combine mask p) init t)) = N).
    { apply (after_inv _ (fun s => length (fst s) = N /\ length (snd s) = N)).
      - cbn [init fst snd]. unfold zeros. rewrite !repeat_length. auto.
      - intros m y s Hin. destruct (combine_shape p m y SP Hin). now apply lstm_rows. }
    assert (At : forall t, t < T -> exists m y, nth_error mask t = Some m /\ nth_error p t = Some y /\
               map (map (fun _ => true)) (sel t words) = [m] /\ sel t p = [y] /\ nth_error (combine mask p) t = Some (m, y)).
    { intros t Ht. destruct (mask_at t Ht) as (m & M1 & M2 & _). destruct (sel_lt _ p t) as (y & Y1 & Y2); [destruct SP; congruence|].
      exists m, y. repeat (split; [assumption|]). now apply combine_at. }
    split.
    { split; [rewrite map_length, scan_length, combine_length; destruct mask_shape, SP; lia|].
      apply Forall_forall. intros m Hm. apply in_map_iff in Hm as (s & <- & Hs). apply In_nth_error in Hs as [t Hs].
      assert (Ht : t < length (scan step (combine mask p) init)) by (apply nth_error_Some; congruence).
      rewrite scan_length in Ht. apply nth_error_Some in Ht. destruct (nth_error (combine mask p) t) as [q|] eqn:Q; [|congruence].
      rewrite (scan_after _ _ _ _ _ _ Q) in Hs. assert (s = after step (combine mask p) init (1 + t)) as -> by congruence. apply Rows. }
    exists (fun t => let s := after step (combine mask p) init t in [fst s; snd s]). split; [reflexivity|]. split; [reflexivity|].
    intros t state Ht Ag. rewrite (EI' t). cbn [bind]. rewrite (LI t _ eq_refl). cbn [bind]. rewrite (preact_slice _ _ _ _ _ _ _ t P). cbn [bind].
    destruct (At t Ht) as (m & y & A1 & A2 & A3 & A4 & A5). cbn [at_step b_words]. rewrite A3, A4. cbn [bind py_index nth_error first_step].
    unfold recurrent_input. unfold py_index at 1. rewrite (Ag 0 _ eq_refl : nth_error state (j + 0) = _) || rewrite <- (Nat.add_0_r j), (Ag 0 _ eq_refl).
    cbn [bind]. unfold py_index. rewrite Nat.add_0_r, (Ag 1 _ eq_refl). cbn [bind].
    fold step. rewrite <- (surjective_pairing (after step (combine mask p) init t)).
    rewrite (after_step _ _ _ _ _ _ A5). cbn [fst snd].
    destruct (step m y (after step (combine mask p) init t)) as [C h] eqn:ES. cbn [fst snd slice].
    rewrite sel_map. rewrite (sel_some _ _ _ _ (scan_after _ step _ init _ _ A5)), (after_step _ _ _ _ _ _ A5). cbn [fst snd map]. rewrite ES. reflexivity.
  - destruct (do fs <- mapM (fun v => features (fst v)) ins; concat_features fs) as [x|e] eqn:EX; cbn [bind]; [|discriminate].
    unfold gru_minibatch.
    destruct (tensor_preact _ _ _ x _ _) as [p|e] eqn:P; cbn [bind]; [|discriminate].
    pose proof (LS x FI eq_refl) as SX. pose proof (shape_preact _ _ _ _ _ _ _ SX P) as SP.
    destruct (get_weight _ _ _ _) as [w|e] eqn:W; cbn [bind]; [|discriminate].
    rewrite (shape_sequences x SX).
    set (step := gru_step (l_size l) w). set (init := zeros (A := A) N (l_size l)).
    intro H. injection H as <- <-.
    assert (Rows : forall t, length (after step (combine mask p) init t) = N).
    { apply (after_inv _ (fun s => length s = N)).
      - unfold init, zeros. now rewrite repeat_length.
      - intros m y s Hin. destruct (combine_shape p m y SP Hin). now apply gru_rows. }
    assert (At : forall t, t < T -> exists m y, nth_error mask t = Some m /\ nth_error p t = Some y /\
               map (map (fun _ => true)) (sel t words) = [m] /\ sel t p = [y] /\ nth_error (combine mask p) t = Some (m, y)).
    { intros t Ht. destruct (mask_at t Ht) as (m & M1 & M2 & _). destruct (sel_lt _ p t) as (y & Y1 & Y2); [destruct SP; congruence|].
      exists m, y. repeat (split; [assumption|]). now apply combine_at. }
    split.
    { split; [rewrite scan_length, combine_length; destruct mask_shape, SP; lia|].
      apply Forall_forall. intros s Hs. apply In_nth_error in Hs as [t Hs].
      assert (Ht : t < length (scan step (combine mask p) init)) by (apply nth_error_Some; congruence).
      rewrite scan_length in Ht. apply nth_error_Some in Ht. destruct (nth_error (combine mask p) t) as [q|] eqn:Q; [|congruence].
      rewrite (scan_after _ _ _ _ _ _ Q) in Hs. assert (s = after step (combine mask p) init (1 + t)) as -> by congruence. apply Rows. }
    exists (fun t => [after step (combine mask p) init t]). split; [reflexivity|]. split; [reflexivity|].
    intros t state Ht Ag. rewrite (EI' t). cbn [bind]. rewrite (LI t _ eq_refl). cbn [bind]. rewrite (preact_slice _ _ _ _ _ _ _ t P). cbn [bind].
    destruct (At t Ht) as (m & y & A1 & A2 & A3 & A4 & A5). cbn [at_step b_words]. rewrite A3, A4. cbn [bind py_index nth_error first_step].
    unfold recurrent_input, py_index. rewrite <- (Nat.add_0_r j), (Ag 0 _ eq_refl).
    cbn [bind]. fold step. cbn [slice]. rewrite (sel_some _ _ _ _ (scan_after _ step _ init _ _ A5)), (after_step _ _ _ _ _ _ A5). reflexivity.
  - destruct (do fs <- mapM (fun v => features (fst v)) ins; concat_features fs) as [x|e] eqn:EX; cbn [bind]; [|discriminate].
    destruct (tensor_preact _ _ _ x _ _) as [p|e] eqn:P; cbn [bind]; [|discriminate].
    pose proof (LS x FI eq_refl) as SX. pose proof (shape_preact _ _ _ _ _ _ _ SX P) as SP.
    intro H. injection H as <- <-. split.
    { repeat first [apply shape_map2 | apply shape_map]; try assumption; intros; unfold madd, mmul, mmap2, mmap;
        repeat (apply map2_rows || rewrite map_length || rewrite sub_rows); auto. }
    exists (fun _ => []). split; [reflexivity|]. split; [reflexivity|]. intros t state Ht _. rewrite (EI' t). cbn [bind].
    rewrite (LI t _ eq_refl). cbn [bind]. rewrite (preact_slice _ _ _ _ _ _ _ t P). cbn [bind slice]. rewrite !sel_map2, !sel_map. reflexivity.
  - destruct (mapM (fun v => do x <- features (fst v); Ok (x, snd v)) ins) as [xs|e] eqn:E; cbn [bind]; [|discriminate].
    destruct (mapM (addition_input _ _ _ _) _) as [ts|e] eqn:F; cbn [bind]; [|discriminate].
    destruct (sum_tensors ts) as [y|] eqn:G; cbn [bind]; [|discriminate].
    intro H. injection H as <- <-. split.
    { apply (shape_sum _ _) with (2 := G). apply Forall_forall. intros a Ha.
      destruct (mapM_in _ _ _ _ _ _ F Ha) as ((k & b & z) & Hk & Ek). apply in_combine_r in Hk.
      assert (SB : shape b).
      { destruct (mapM_in _ _ _ _ _ _ E Hk) as (o & Ho & Eo). rewrite Forall_forall in FI. specialize (FI o Ho).
        destruct (fst o); cbn in *; [discriminate|]. congruence. }
      unfold addition_input in Ek. destruct (z =? l_size l); [congruence|]. eapply shape_preact; eauto. }
    exists (fun _ => []). split; [reflexivity|]. split; [reflexivity|]. intros t state Ht _. rewrite (EI' t). cbn [bind].
    assert (E' : mapM (fun v => do x <- features (fst v); Ok (x, snd v)) (map (sliceo t) ins) = Ok (map (fun p : tensor * nat => (sel t (fst p), snd p)) xs)).
    { revert E. apply mapM_map_ok. intros o y' _. cbn [sliceo fst snd]. destruct (features (fst o)) as [z|] eqn:F'; cbn [bind]; [|discriminate].
      rewrite (features_slice _ _ _ F'). cbn [bind]. intro H. injection H as <-. reflexivity. }
    rewrite E'. cbn [bind]. rewrite map_length, (addition_slice _ _ _ _ _ _ _ t F). cbn [bind].
    rewrite (sum_slice _ _ t G). reflexivity.
  - destruct (do fs <- mapM (fun v => features (fst v)) ins; concat_features fs) as [x|e] eqn:EX; cbn [bind]; [|discriminate].
    intro H. injection H as <- <-. split; [exact (LS x FI eq_refl)|].
    exists (fun _ => []). split; [reflexivity|]. split; [reflexivity|]. intros t state Ht _. rewrite (EI' t). cbn [bind].
    rewrite (LI t _ eq_refl). reflexivity.
Qed.

Lemma agrees_app state S1 S2 j : agrees state (S1 ++ S2) j -> agrees state S1 j /\ agrees state S2 (j + length S1).
Proof.
  intro H. split; intros q m Hq.
  - apply H. rewrite nth_error_app1; [exact Hq|]. apply nth_error_Some. congruence.
  - rewrite <- Nat.add_assoc. apply H. rewrite nth_error_app2 by lia. replace (length S1 + q - length S1) with q by lia. exact Hq.
Qed.

Lemma eval_layers_steps ls : Forall stepwise_layer ls -> forall outs i j outs' st,
  Forall (fun o => shaped (fst o)) outs ->
  eval_layers Minibatch (unpadded words classes) outs i j ls = Ok (outs', st) ->
  Forall (fun o => shaped (fst o)) outs' /\ exists S : nat -> list matrix,
    S 0 = map (zeros N) (flat_map state_sizes ls) /\ (forall t, length (S t) = length (flat_map state_sizes ls)) /\
    forall t state, t < T -> agrees state (S t) j ->
      eval_layers (Step state) (at_step t) (map (sliceo t) outs) i j ls = Ok (map (sliceo t) outs', S (1 + t)).
Proof.
  induction 1 as [|l ls FL _ IH]; intros outs i j outs' st FS; cbn [eval_layers].
  - intro H. injection H as <- <-. split; [exact FS|]. exists (fun _ => []). auto.
  - destruct (eval_layer _ _ outs _ _ l) as [[v st1]|e] eqn:E; cbn [bind]; [|discriminate].
    destruct (eval_layers _ _ (outs ++ _) _ _ ls) as [[o2 st2]|e] eqn:F; cbn [bind]; [|discriminate].
    intro H. injection H as <- <-. destruct (eval_layer_steps _ _ _ _ _ _ FL FS E) as (SV & S1 & I1 & L1 & H1).
    apply IH in F as (SO & S2 & I2 & L2 & H2); [|apply Forall_app; auto]. split; [exact SO|].
    exists (fun t => S1 t ++ S2 t). split; [|split].
    + cbn [flat_map]. rewrite map_app. congruence.
    + intro t. cbn [flat_map]. rewrite !app_length. congruence.
    + intros t state Ht Ag. apply agrees_app in Ag as [Ag1 Ag2]. rewrite (H1 t state Ht Ag1). cbn [bind].
      rewrite L1 in Ag2. specialize (H2 t state Ht Ag2). rewrite map_app in H2. cbn [map] in H2. unfold sliceo at 2 in H2. cbn [fst snd] in H2.
      rewrite H2. reflexivity.
Qed.

Lemma eval_network_steps (n : network A) p st : Forall stepwise_layer (n_layers n) ->
  eval_network n Minibatch (unpadded words classes) = Ok (p, st) ->
  shape p /\ exists S : nat -> list matrix, S 0 = initial_state n N /\
    forall t, t < T -> eval_network n (Step (S t)) (at_step t) = Ok (sel t p, S (1 + t)).
Proof.
  intros FN. unfold eval_network.
  destruct (eval_layers _ (unpadded words classes) [] _ _ _) as [[outs st']|e] eqn:E; cbn [bind]; [|discriminate].
  destruct (eval_layers_steps _ FN _ _ _ _ _ (Forall_nil _) E) as (SO & S & I & L & H). cbn [map] in H.
  assert (Ag : forall t, agrees (S t) (S t) 0) by (intros t q m Hq; exact Hq).
  destruct (mapM (py_index outs) (n_inputs n)) as [ins|e] eqn:EI; cbn [bind]; [|discriminate].
  pose proof (mapM_out _ _ _ EI SO) as FI.
  destruct (mapM _ ins) as [fs|e] eqn:EF; cbn [bind]; [|discriminate].
  destruct (concat_features fs) as [x|e] eqn:EC; cbn [bind]; [|discriminate].
  assert (EX : (do fs <- mapM (fun v : value A * nat => features (fst v)) ins; concat_features fs) = Ok x) by (rewrite EF; exact EC).
  pose proof (layer_input_shape ins x FI EX) as SX.
  assert (EX' : forall t, (do fs <- mapM (fun v : value A * nat => features (fst v)) (map (sliceo t) ins); concat_features fs) = Ok (sel t x))
    by (intro t; apply layer_input_slice, EX).
  intro Z.
  assert (G : (shape p /\ st' = st) /\ forall t, match n_kind n with Softmax => softmax_layer n (sel t x) | HSoftmax _ _ => hsoftmax_layer n (sel t x) end = Ok (sel t p)).
  { destruct (n_kind n).
    - revert Z. unfold softmax_layer. destruct (tensor_preact _ _ _ x _ _) as [q|e] eqn:P; cbn [bind]; [|discriminate].
      match goal with |- context [if 1 <? ?k then ?y else ?z] => destruct (if 1 <? k then y else z) as [u|] end; cbn [bind]; [|discriminate].
      intro Z. injection Z as <- <-. split; [split; [|reflexivity]|].
      + apply shape_map; [intros; now rewrite map_length|]. eapply shape_preact; eauto.
      + intro t. rewrite (preact_slice _ _ _ _ _ _ _ t P). cbn [bind]. rewrite sel_map. reflexivity.
    - revert Z. unfold hsoftmax_layer. destruct (1 <? _); cbn [bind]; [discriminate|].
      destruct (get_weight _ _ _ _); cbn [bind]; [|discriminate]. destruct (get_bias _ _ _ _); cbn [bind]; [|discriminate].
      destruct (get_level_weight _ _ _ _); cbn [bind]; [|discriminate]. destruct (get_level_bias _ _ _ _); cbn [bind]; [|discriminate].
      intro Z. injection Z as <- <-. split; [split; [|reflexivity]|].
      + apply shape_map; [intros; now rewrite map_length|exact SX].
      + intro t. rewrite sel_map. reflexivity. }
  destruct G as [[SP _] G]. split; [exact SP|]. exists S. split; [exact I|].
  intros t Ht. rewrite (H t (S t) Ht (Ag t)). cbn [bind]. rewrite (mapM_slice _ _ _ t EI). cbn [bind].
  specialize (EX' t). destruct (mapM _ (map (sliceo t) ins)) as [fs'|]; cbn [bind] in *; [|discriminate]. rewrite EX'. cbn [bind].
  rewrite G. reflexivity.
Qed.

Lemma run_steps_from (n : network A) p (S : nat -> list matrix) : length p = T ->
  (forall t, t < T -> eval_network n (Step (S t)) (at_step t) = Ok (sel t p, S (1 + t))) ->
  forall m t, m + t = T -> run_steps n (skipn t (combine words classes)) (S t) = Ok (skipn t p, S T).
Proof.
  intros Lp H. assert (Lc : length (combine words classes) = T) by (rewrite combine_length; destruct Hwords, Hclasses; lia).
  induction m as [|m IH]; intros t Et.
  - cbn in Et. subst t. rewrite !skipn_all2 by lia. reflexivity.
  - assert (Ht : t < T) by lia.
    destruct (sel_lt _ words t) as (w & W1 & W2); [destruct Hwords; lia|].
    destruct (sel_lt _ classes t) as (c & C1 & C2); [destruct Hclasses; lia|].
    destruct (sel_lt _ p t) as (q & Q1 & Q2); [lia|].
    assert (E1 : skipn t (combine words classes) = (w, c) :: skipn (Datatypes.S t) (combine words classes)).
    { apply skipn_cons_nth. rewrite combine_map2, nth_error_map2, W1, C1. reflexivity. }
    assert (E2 : skipn t p = q :: skipn (Datatypes.S t) p) by (apply skipn_cons_nth; exact Q1).
    rewrite E1, E2. cbn [run_steps]. unfold step_network. specialize (H t Ht). unfold at_step in H. rewrite W2, C2, Q2 in H.
    rewrite H. cbn [bind py_index nth_error]. pose proof (IH (1 + t) ltac:(lia)) as R; cbn [Nat.add] in R |- *; rewrite R. reflexivity.
Qed.
End Steps.
