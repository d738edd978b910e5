(** A network computes the same on any devices. *)
From Verif Require Import Base BaseLib ListLib Strings NumStr ParamModel NetModel NetColumns NetSteps DeviceModel DeviceSpec DeviceProofs.

Section Net.
Context {A : arith}.
Notation num := (num A).
Notation vec := (list num).
Notation matrix := (list (list num)).
Notation tensor := (list (list (list num))).
Notation params := (list (pystr * param A)).

(** ** Projection *)
Definition lookup (w : list vec) (ids : list (list nat)) : result tensor :=
  mapM (mapM (fun i => mapM (fun column => py_index column i) w)) ids.
Lemma mapM_app' X Y (f : X -> result Y) l m : mapM f (l ++ m) = do a <- mapM f l; do b <- mapM f m; Ok (a ++ b).
Proof.
  induction l as [|x l IH]; cbn [app mapM bind]; [destruct (mapM f m); reflexivity|].
  destruct (f x); cbn [bind]; [|reflexivity]. rewrite IH. destruct (mapM f l); cbn [bind]; [|reflexivity]. destruct (mapM f m); reflexivity.
Qed.
(** All errors are the same. *)
Definition ferr {X Y} (e : exn) (f : X -> result Y) := forall x e', f x = Err e' -> e' = e.
Lemma mapM_err X Y e (f : X -> result Y) : ferr e f -> ferr e (mapM f).
Proof.
  intros H l e'. induction l as [|x l IH]; cbn [mapM]; [discriminate|].
  destruct (f x) eqn:E; cbn [bind]; [|intro K; injection K as <-; eapply H; eauto].
  destruct (mapM f l); cbn [bind]; [discriminate|exact IH].
Qed.
Lemma mapM_both X Y (f g h : X -> result (list Y)) e : ferr e f -> ferr e g ->
  (forall x, h x = do a <- f x; do b <- g x; Ok (a ++ b)) -> forall l,
  mapM h l = do a <- mapM f l; do b <- mapM g l; Ok (map2 (@app Y) a b).
Proof.
  intros Ef Eg H l. pose proof (mapM_err _ _ _ _ Ef) as Mf. pose proof (mapM_err _ _ _ _ Eg) as Mg.
  induction l as [|x l IH]; cbn [mapM bind map2]; [reflexivity|]. rewrite H, IH.
  destruct (f x) as [a|e1] eqn:F1; cbn [bind]; [|reflexivity].
  destruct (g x) as [b|e2] eqn:G1; cbn [bind].
  - destruct (mapM f l) as [la|] eqn:F2; cbn [bind]; [|reflexivity]. destruct (mapM g l) as [lb|] eqn:G2; cbn [bind map2]; reflexivity.
  - destruct (mapM f l) as [la|e3] eqn:F2; cbn [bind]; [reflexivity|]. apply Mf in F2. apply Eg in G1. congruence.
Qed.
Lemma mapM_both2 X Y (f g h : X -> result (list (list Y))) e : ferr e f -> ferr e g ->
  (forall x, h x = do a <- f x; do b <- g x; Ok (map2 (@app Y) a b)) -> forall l,
  mapM h l = do a <- mapM f l; do b <- mapM g l; Ok (map2 (map2 (@app Y)) a b).
Proof.
  intros Ef Eg H l. pose proof (mapM_err _ _ _ _ Ef) as Mf. pose proof (mapM_err _ _ _ _ Eg) as Mg.
  induction l as [|x l IH]; cbn [mapM bind map2]; [reflexivity|]. rewrite H, IH.
  destruct (f x) as [a|e1] eqn:F1; cbn [bind]; [|reflexivity].
  destruct (g x) as [b|e2] eqn:G1; cbn [bind].
  - destruct (mapM f l) as [la|] eqn:F2; cbn [bind]; [|reflexivity]. destruct (mapM g l) as [lb|] eqn:G2; cbn [bind map2]; reflexivity.
  - destruct (mapM f l) as [la|e3] eqn:F2; cbn [bind]; [reflexivity|]. apply Mf in F2. apply Eg in G1. congruence.
Qed.
Lemma index_err i : ferr IndexError (fun column : vec => py_index column i).
Proof. intros c e. unfold py_index. destruct (nth_error c i); congruence. Qed.
Lemma lookup_err w : ferr IndexError (lookup w).
Proof. unfold lookup. repeat apply mapM_err. intros i e H. eapply (mapM_err _ _ _ _ (index_err i)); eauto. Qed.
Lemma lookup_app w w' ids : lookup (w ++ w') ids = do a <- lookup w ids; do b <- lookup w' ids; Ok (map2 (map2 (@app num)) a b).
Proof.
  unfold lookup. apply mapM_both2 with (e := IndexError).
  1, 2: apply mapM_err; intros i e H; eapply (mapM_err _ _ _ _ (index_err i)); eauto.
  intro ids'. apply mapM_both with (e := IndexError).
  1, 2: intros i e H; eapply (mapM_err _ _ _ _ (index_err i)); eauto.
  intro i. apply mapM_app'.
Qed.
Lemma lookup_parts ids ws : forall w, lookup (w ++ concat ws) ids =
  do x <- lookup w ids; do parts <- mapM (fun w => lookup w ids) ws; Ok (fold_left (map2 (map2 (@app num))) parts x).
Proof.
  induction ws as [|w' ws IH]; intro w; cbn [concat mapM].
  - rewrite app_nil_r. destruct (lookup w ids); reflexivity.
  - rewrite app_assoc, IH, lookup_app. destruct (lookup w ids) as [x|e] eqn:E; cbn [bind]; [|reflexivity].
    destruct (lookup w' ids) as [y|e'] eqn:E'; cbn [bind]; [|reflexivity]. destruct (mapM _ ws); reflexivity.
Qed.
Lemma mapM_map' X Y Z (f : Y -> result Z) (g : X -> Y) l : mapM f (map g l) = mapM (fun x => f (g x)) l.
Proof. induction l as [|x l IH]; cbn [map mapM]; [reflexivity|]. now rewrite IH. Qed.
Lemma mapM_F2 X Y Z (f : X -> result Z) (g : Y -> result Z) l m : Forall2 (fun x y => f x = g y) l m -> mapM f l = mapM g m.
Proof. induction 1 as [|x y l m H _ IH]; cbn [mapM]; [reflexivity|]. now rewrite H, IH. Qed.
Lemma placed_table devices (ps : params) layer w ids : placed devices ps (layer, str "W", true, Weight w) ->
  (do parts <- mapM (fun d => do w <- get_weight ps layer (str "W") d; lookup w ids) devices; concat_features parts) = lookup w ids.
Proof.
  intros [[-> W]|[D (ranges & S & W)]]; cbn [last_dimension] in *.
  - unfold get_weight, get_param. cbn [mapM]. rewrite W. cbn [bind]. destruct (lookup w ids); reflexivity.
  - rewrite (mapM_F2 _ _ _ _ (fun r => lookup (slice_range r w) ids) _ ranges).
    2: { eapply F2_impl; [|exact W]. cbv beta. intros d r [_ GW]. unfold get_weight, get_param. rewrite GW. reflexivity. }
    apply split_inv in S as (C & LR & CR & _). pose proof (slices_concat _ w ranges 0 CR) as SW. cbn [skipn] in SW.
    destruct ranges as [|r ranges]; [cbn in LR; lia|]. cbn [map concat] in SW. transitivity (lookup (slice_range r w ++ concat (map (fun r0 => slice_range r0 w) ranges)) ids); [|now rewrite SW]. rewrite lookup_parts, mapM_map'.
    cbn [mapM]. destruct (lookup (slice_range r w) ids); cbn [bind]; [|reflexivity]. destruct (mapM _ ranges); reflexivity.
Qed.

(** ** Layers *)
Lemma bind_bind X Y Z (m : result X) (f : X -> result Y) (g : Y -> result Z) : (do a <- m; do b <- f a; g b) = do b <- (do a <- m; f a); g b.
Proof. destruct m; reflexivity. Qed.

Lemma F_in X (P : X -> Prop) l x : Forall P l -> In x l -> P x.
Proof. rewrite Forall_forall. auto. Qed.

Definition created (d : description A) (sizes : list nat) (l : layer A) : Prop := create_layer sizes d = Ok l.

(** The features of the input of a layer, and the products that it computes *)
Lemma get_placed devices (ps : params) layer name v : placed devices ps (layer, name, false, v) -> get_param ps layer name None = Ok v.
Proof. cbn [placed negb]. unfold get_param. now intros ->. Qed.

Lemma created_layer (d : description A) sizes l : create_layer sizes d = Ok l ->
  exists input_sizes, mapM (py_index sizes) (d_inputs d) = Ok input_sizes /\
  l = mkLayer (d_kind d) (d_name d) (d_inputs d) (d_size d) (d_activation d) (d_devices d) (l_params l) (d_scale d) /\
  Forall (placed (d_devices d) (l_params l)) (initial_params (d_kind d) (d_name d) input_sizes (d_size d) (d_values d)).
Proof.
  unfold create_layer. destruct (mapM _ (d_inputs d)) as [input_sizes|e] eqn:E; cbn [bind]; [|discriminate].
  destruct (foldM _ _ _) as [ps|e] eqn:F; cbn [bind]; [|discriminate]. intro H. injection H as <-.
  exists input_sizes. split; [reflexivity|]. split; [reflexivity|]. apply init_all in F. tauto.
Qed.

Lemma recurrent_step_weight devices (ps : params) name w h b : Forall (placed devices ps) (recurrent_params name w h b) ->
  get_weight ps name (str "step_input/W") None = Ok h.
Proof.
  intro F. unfold get_weight. rewrite (get_placed devices ps name (str "step_input/W") (Weight h)); [reflexivity|].
  apply (F_in _ _ _ _ F). right. now left.
Qed.
Lemma recurrent_preact devices (ps : params) name w h b (x : tensor) : length b = length w ->
  Forall (placed devices ps) (recurrent_params name w h b) ->
  tensor_preact ps name devices x (str "layer_input") true = Ok (preact_part true x (w, b)).
Proof.
  intros L F. apply placed_preact; [exact L| |]; apply (F_in _ _ _ _ F); [now left|right; right; now left].
Qed.
Lemma lstm_created devices (ps : params) devices' (ps' : params) name size act rv mask x w h b : length b = length w ->
  Forall (placed devices ps) (recurrent_params name w h b) -> Forall (placed devices' ps') (recurrent_params name w h b) ->
  lstm_minibatch ps name devices size act rv mask x = lstm_minibatch ps' name devices' size act rv mask x.
Proof.
  intros L F F'. unfold lstm_minibatch.
  rewrite (recurrent_preact _ _ _ _ _ _ _ L F), (recurrent_preact _ _ _ _ _ _ _ L F'). cbn [bind].
  rewrite (recurrent_step_weight _ _ _ _ _ _ F), (recurrent_step_weight _ _ _ _ _ _ F'). reflexivity.
Qed.
Lemma gru_created devices (ps : params) devices' (ps' : params) name size rv mask x w h b : length b = length w ->
  Forall (placed devices ps) (recurrent_params name w h b) -> Forall (placed devices' ps') (recurrent_params name w h b) ->
  gru_minibatch ps name devices size rv mask x = gru_minibatch ps' name devices' size rv mask x.
Proof.
  intros L F F'. unfold gru_minibatch.
  rewrite (recurrent_preact _ _ _ _ _ _ _ L F), (recurrent_preact _ _ _ _ _ _ _ L F'). cbn [bind].
  rewrite (recurrent_step_weight _ _ _ _ _ _ F), (recurrent_step_weight _ _ _ _ _ _ F'). reflexivity.
Qed.

Lemma mapM_sizes (outs : list (value A * nat)) inputs ins : mapM (py_index outs) inputs = Ok ins ->
  mapM (py_index (map snd outs)) inputs = Ok (map snd ins).
Proof.
  intro H. rewrite <- (map_id inputs). revert H. apply mapM_map_ok. intros k o _. unfold py_index. rewrite nth_error_map.
  destruct (nth_error outs k); [|discriminate]. cbn [option_map]. congruence.
Qed.
Lemma in_combine_seq X (l : list X) i x k : In (i, x) (combine (seq k (length l)) l) -> nth_error l (i - k) = Some x /\ k <= i.
Proof.
  revert k; induction l as [|y l IH]; intros k; cbn [length seq combine]; [intros []|].
  intros [E|H]; [injection E as -> ->; rewrite Nat.sub_diag; split; [reflexivity|lia]|].
  apply IH in H as [H L]. split; [|lia]. replace (i - k) with (S (i - S k)) by lia. exact H.
Qed.
Lemma addition_created devices (ps : params) devices' (ps' : params) name size (xs : list (tensor * nat)) w :
  Forall (placed devices ps) (initial_params Addition name (map snd xs) size (Projections w)) ->
  Forall (placed devices' ps') (initial_params Addition name (map snd xs) size (Projections w)) ->
  mapM (addition_input ps name devices size) (combine (seq 0 (length xs)) xs) =
  mapM (addition_input ps' name devices' size) (combine (seq 0 (length xs)) xs).
Proof.
  intros F F'.
  assert (EX : forall X Y (f g : X -> result Y) l, (forall x, In x l -> f x = g x) -> mapM f l = mapM g l).
  { intros X Y f g l H. induction l as [|x l IH]; cbn [mapM]; [reflexivity|]. rewrite H by now left. rewrite IH; [reflexivity|]. intros; apply H; now right. }
  apply EX. intros [i [x z]] Hi. unfold addition_input.
  destruct (z =? size) eqn:Z; [reflexivity|].
  assert (G : In (name, (str "input" ++ str_of_nat i ++ str "/W")%list, true, Weight (w i)) (initial_params Addition name (map snd xs) size (Projections w))).
  { cbn [initial_params]. apply in_flat_map. exists (i, z). split; [|rewrite Z; now left].
    apply in_combine_seq in Hi as [Hi _]. rewrite Nat.sub_0_r in Hi. rewrite map_length.
    assert (Hs : nth_error (map snd xs) i = Some z) by (rewrite nth_error_map, Hi; reflexivity).
    rewrite <- (map_length snd xs). revert Hs. generalize (map snd xs). clear. intros l.
    assert (K : forall k, nth_error l i = Some z -> In (k + i, z) (combine (seq k (length l)) l)).
    { revert i. induction l as [|y l IH]; intros [|i] k H; cbn in *; try discriminate.
      - left. rewrite Nat.add_0_r. congruence.
      - right. rewrite Nat.add_succ_r. apply (IH i (S k) H). }
    intro H. exact (K 0 H). }
  rewrite app_assoc in G. rewrite (placed_preact_no_bias devices ps name (str "input" ++ str_of_nat i)%list (w i) x (F_in _ _ _ _ F G)).
  rewrite (placed_preact_no_bias devices' ps' name (str "input" ++ str_of_nat i)%list (w i) x (F_in _ _ _ _ F' G)). reflexivity.
Qed.

Lemma eval_created (d d' : description A) sizes l l' m b outs i j : create_layer sizes d = Ok l -> create_layer sizes d' = Ok l' ->
  same_layer d d' -> right_values (d_kind d) (d_values d) -> fitting_values (d_values d) -> works_on_devices d -> works_on_devices d' ->
  map snd outs = sizes -> eval_layer m b outs i j l = eval_layer m b outs i j l'.
Proof.
  intros C C' (K & Nm & I & Z & Ac & V & Sc) R Fit W W' S.
  destruct (created_layer _ _ _ C) as (is & EI & EL & F). destruct (created_layer _ _ _ C') as (is' & EI' & EL' & F').
  rewrite I in EI'. assert (is' = is) as -> by congruence. rewrite K, Nm, Z, V in F'. rewrite K, Nm, I, Z, Ac, Sc in EL'.
  unfold works_on_devices in *. rewrite K in W'.
  set (ps := l_params l) in *. set (ps' := l_params l') in *. clearbody ps ps'.
  unfold eval_layer. rewrite EL, EL'. cbn [l_kind l_name l_inputs l_size l_activation l_devices l_params l_scale].
  destruct (mapM (py_index outs) (d_inputs d)) as [ins|e] eqn:EO; cbn [bind]; [|reflexivity].
  apply mapM_sizes in EO. rewrite S, EI in EO. assert (EIS : is = map snd ins) by congruence.
  destruct (d_kind d) eqn:KD; destruct (d_values d) as [|w|w bb|w h bb|w h bb w2 h2 b2|w bb|w]; cbn [right_values] in R; try contradiction;
    cbn [initial_params fitting_values] in F, F', Fit; try reflexivity.
  - destruct ins as [|[[ids|?] ?] [|? ?]]; try reflexivity.
    pose proof (placed_table _ _ _ _ ids (F_in _ _ _ _ F (or_introl eq_refl))) as E1.
    pose proof (placed_table _ _ _ _ ids (F_in _ _ _ _ F' (or_introl eq_refl))) as E2. unfold lookup in E1, E2.
    rewrite !bind_bind, E1, E2. reflexivity.
  - destruct (do fs <- mapM (fun v => features (fst v)) ins; concat_features fs) as [x|e]; cbn [bind]; [|reflexivity].
    rewrite !(placed_preact _ _ _ (str "input") w bb x Fit); [reflexivity| | | |];
      first [apply (F_in _ _ _ _ F)|apply (F_in _ _ _ _ F')]; first [now left|right; now left].
  - destruct (do fs <- mapM (fun v => features (fst v)) ins; concat_features fs) as [x|e]; cbn [bind]; [|reflexivity].
    destruct m as [|state].
    + rewrite (lstm_created _ _ _ _ _ _ _ _ _ _ _ _ _ Fit F F'). reflexivity.
    + rewrite (recurrent_preact _ _ _ _ _ _ _ Fit F), (recurrent_preact _ _ _ _ _ _ _ Fit F'). cbn [bind].
      rewrite (recurrent_step_weight _ _ _ _ _ _ F), (recurrent_step_weight _ _ _ _ _ _ F'). reflexivity.
  - destruct (do fs <- mapM (fun v => features (fst v)) ins; concat_features fs) as [x|e]; cbn [bind]; [|reflexivity].
    destruct m as [|state].
    + rewrite (gru_created _ _ _ _ _ _ _ _ _ _ _ _ Fit F F'). reflexivity.
    + rewrite (recurrent_preact _ _ _ _ _ _ _ Fit F), (recurrent_preact _ _ _ _ _ _ _ Fit F'). cbn [bind].
      rewrite (recurrent_step_weight _ _ _ _ _ _ F), (recurrent_step_weight _ _ _ _ _ _ F'). reflexivity.
  - destruct (do fs <- mapM (fun v => features (fst v)) ins; concat_features fs) as [x|e]; cbn [bind]; [|reflexivity].
    destruct m as [|state]; [|reflexivity]. destruct Fit as [Fit Fit2]. apply Forall_app in F as [F1 F2], F' as [F1' F2'].
    rewrite (lstm_created _ _ _ _ _ _ _ _ _ _ _ _ _ Fit F1 F1'), (lstm_created _ _ _ _ _ _ _ _ _ _ _ _ _ Fit2 F2 F2'). reflexivity.
  - destruct (do fs <- mapM (fun v => features (fst v)) ins; concat_features fs) as [x|e]; cbn [bind]; [|reflexivity].
    destruct m as [|state]; [|reflexivity]. destruct Fit as [Fit Fit2]. apply Forall_app in F as [F1 F2], F' as [F1' F2'].
    rewrite (gru_created _ _ _ _ _ _ _ _ _ _ _ _ Fit F1 F1'), (gru_created _ _ _ _ _ _ _ _ _ _ _ _ Fit2 F2 F2'). reflexivity.
  - destruct (do fs <- mapM (fun v => features (fst v)) ins; concat_features fs) as [x|e]; cbn [bind]; [|reflexivity].
    rewrite !(placed_preact _ _ _ (str "input") w bb x Fit); [reflexivity| | | |];
      first [apply (F_in _ _ _ _ F)|apply (F_in _ _ _ _ F')]; first [now left|right; now left].
  - rewrite W, W' in *. cbn [mapM]. destruct m; [|reflexivity]. destruct ins as [|[[?|x] z] [|? ?]]; try reflexivity.
    assert (GW : forall q : params, Forall (placed [None] q) [(d_name d, str "input/W", true, Filters w); (d_name d, str "input/b", true, Bias bb)] ->
      tensor_conv1d q (d_name d) [None] (repeat (zeros (num_sequences x) z) (filter_size - 1) ++ x) (str "input") =
      Ok (map (map (fun row => map2 add row bb)) (conv1d (repeat (zeros (num_sequences x) z) (filter_size - 1) ++ x) w))).
    { intros q Q. pose proof (F_in _ _ _ _ Q (or_introl eq_refl)) as [[_ Q1]|[Q1 _]]; [|congruence].
      pose proof (F_in _ _ _ _ Q (or_intror (or_introl eq_refl))) as [[_ Q2]|[Q2 _]]; [|congruence].
      unfold tensor_conv1d, get_filters, get_bias, get_param. cbn [mapM]. change (str "input" ++ str "/W") with (str "input/W").
      change (str "input" ++ str "/b") with (str "input/b"). rewrite Q1. cbn [bind map concat_features fold_left]. rewrite Q2. reflexivity. }
    rewrite (GW ps F), (GW ps' F'). reflexivity.
  - destruct (mapM (fun v => do x <- features (fst v); Ok (x, snd v)) ins) as [xs|e] eqn:EX; cbn [bind]; [|reflexivity].
    assert (ES : map snd ins = map snd xs).
    { clear - EX. revert xs EX. induction ins as [|o ins IH]; intros xs; cbn [mapM]; [intro H; injection H as <-; reflexivity|].
      destruct (features (fst o)); cbn [bind]; [|discriminate]. destruct (mapM _ ins) as [ys|]; cbn [bind]; [|discriminate].
      intro H. injection H as <-. cbn [map snd]. f_equal. now apply IH. }
    rewrite EIS, ES in F, F'. rewrite (addition_created _ _ _ _ _ _ _ _ F F'). reflexivity.
  - destruct (do fs <- mapM (fun v => features (fst v)) ins; concat_features fs) as [x|e]; cbn [bind]; [|reflexivity].
    destruct m as [|state]; [|reflexivity]. rewrite (lstm_created _ _ _ _ _ _ _ _ _ _ _ _ _ Fit F F'). reflexivity.
  - destruct (do fs <- mapM (fun v => features (fst v)) ins; concat_features fs) as [x|e]; cbn [bind]; [|reflexivity].
    destruct m as [|state]; [|reflexivity]. rewrite (gru_created _ _ _ _ _ _ _ _ _ _ _ _ Fit F F'). reflexivity.
  - destruct (do fs <- mapM (fun v => features (fst v)) ins; concat_features fs) as [x|e]; cbn [bind]; [|reflexivity].
    destruct m as [|state]; [|reflexivity]. destruct Fit as [Fit Fit2]. apply Forall_app in F as [F1 F2], F' as [F1' F2'].
    rewrite (lstm_created _ _ _ _ _ _ _ _ _ _ _ _ _ Fit F1 F1'), (lstm_created _ _ _ _ _ _ _ _ _ _ _ _ _ Fit2 F2 F2'). reflexivity.
  - destruct (do fs <- mapM (fun v => features (fst v)) ins; concat_features fs) as [x|e]; cbn [bind]; [|reflexivity].
    destruct m as [|state]; [|reflexivity]. destruct Fit as [Fit Fit2]. apply Forall_app in F as [F1 F2], F' as [F1' F2'].
    rewrite (gru_created _ _ _ _ _ _ _ _ _ _ _ _ Fit F1 F1'), (gru_created _ _ _ _ _ _ _ _ _ _ _ _ Fit2 F2 F2'). reflexivity.
Qed.

(** ** Networks *)
Definition good (d d' : description A) : Prop :=
  same_layer d d' /\ right_values (d_kind d) (d_values d) /\ fitting_values (d_values d) /\ works_on_devices d /\ works_on_devices d'.
Lemma eval_layers_created (ds ds' : list (description A)) : Forall2 good ds ds' -> forall sizes ls ls' m b outs i j,
  create_layers sizes ds = Ok ls -> create_layers sizes ds' = Ok ls' -> map snd outs = sizes ->
  eval_layers m b outs i j ls = eval_layers m b outs i j ls'.
Proof.
  induction 1 as [|d d' ds ds' G _ IH]; intros sizes ls ls' m b outs i j; cbn [create_layers].
  - intros E E'. injection E as <-. injection E' as <-. reflexivity.
  - destruct G as (Sm & R & Fit & W & W').
    destruct (create_layer sizes d) as [l|] eqn:C; cbn [bind]; [|discriminate].
    destruct (create_layers _ ds) as [r|] eqn:CR; cbn [bind]; [|discriminate]. intro E. injection E as <-.
    destruct (create_layer sizes d') as [l'|] eqn:C'; cbn [bind]; [|discriminate].
    destruct (create_layers _ ds') as [r'|] eqn:CR'; cbn [bind]; [|discriminate]. intro E. injection E as <-. intro S.
    cbn [eval_layers]. rewrite (eval_created _ _ _ _ _ m b outs i j C C' Sm R Fit W W' S).
    assert (Q : l_size l = d_size d /\ l_size l' = d_size d' /\ state_sizes l = state_sizes l').
    { destruct (created_layer _ _ _ C) as (? & _ & E & _). destruct (created_layer _ _ _ C') as (? & _ & E' & _).
      rewrite E, E'. cbn [l_size]. unfold state_sizes. cbn [l_size l_kind]. destruct Sm as (K & _ & _ & Z & _). rewrite K, Z. auto. }
    destruct Q as (Q1 & Q2 & Q3). pose proof Sm as (_ & _ & _ & Z & _). rewrite Q1, Q2, Q3, Z.
    destruct (eval_layer m b outs i j l') as [[v st]|]; cbn [bind]; [|reflexivity]. rewrite Z in CR'.
    rewrite (IH _ _ _ m b (outs ++ [(v, d_size d)]) (i + 1) (j + length (state_sizes l')) CR CR'); [reflexivity|].
    rewrite map_app, S. reflexivity.
Qed.

Lemma created_network (ds : list (description A)) o n : create_network ds o = Ok n ->
  exists ls, create_layers [] ds = Ok ls /\
  n = mkNetwork ls (o_kind o) (o_name o) (o_inputs o) (o_size o) (o_devices o) (n_params n) (o_unk_class o) (o_exclude_unk o) /\
  Forall (placed (o_devices o) (n_params n)) (output_params (o_kind o) (o_name o) (o_values o)).
Proof.
  unfold create_network. destruct (create_layers [] ds) as [ls|]; cbn [bind]; [|discriminate].
  match goal with |- context [bind ?z _] => destruct z as [[]|] end; cbn [bind]; [|discriminate].
  destruct (foldM _ _ _) as [ps|] eqn:F; cbn [bind]; [|discriminate]. intro H. injection H as <-. exists ls.
  split; [reflexivity|]. split; [reflexivity|]. apply init_all in F. tauto.
Qed.
Lemma softmax_created (o : output_description A) ls ps (x : tensor) w b : o_kind o = Softmax -> o_values o = SoftmaxValues w b -> length b = length w ->
  output_works_on_devices o -> Forall (placed (o_devices o) ps) (output_params (o_kind o) (o_name o) (o_values o)) ->
  softmax_layer (mkNetwork ls (o_kind o) (o_name o) (o_inputs o) (o_size o) (o_devices o) ps (o_unk_class o) (o_exclude_unk o)) x =
  Ok (map (map (fun row =>
        let v := map Some row in
        softmax (if o_exclude_unk o then set_log_zero (o_unk_class o) v else v))) (preact_part true x (w, b))).
Proof.
  intros K V L W F. unfold output_works_on_devices in W. rewrite K in W. rewrite K, V in F. cbn [output_params] in F. unfold softmax_layer.
  cbn [n_params n_name n_devices n_exclude_unk n_unk_class].
  pose proof (F_in _ _ _ _ F (or_introl eq_refl)) as PW. pose proof (F_in _ _ _ _ F (or_intror (or_introl eq_refl))) as PB.
  rewrite (placed_preact _ _ _ (str "input") w b x L PW PB). cbn [bind].
  assert (O : (if 1 <? length (o_devices o) then Ok tt else
           do _ <- get_weight ps (o_name o) (str "input/W") None;
           do _ <- get_bias ps (o_name o) (str "input/b") None;
           Ok tt) = Ok tt).
  { destruct W as [W|W].
    - rewrite W in *. cbn [length Nat.ltb Nat.leb]. destruct PW as [[_ PW]|[PW _]]; [|congruence]. destruct PB as [[_ PB]|[PB _]]; [|congruence].
      unfold get_weight, get_bias, get_param. rewrite PW, PB. reflexivity.
    - destruct PW as [[D _]|[_ (ranges & S & _)]]; [rewrite D in W; cbn in W; lia|].
      apply split_inv in S as (C & _). destruct (Nat.ltb_spec 1 (length (o_devices o))); [reflexivity|lia]. }
  rewrite O. reflexivity.
Qed.

Theorem network_created (ds ds' : list (description A)) o o' n n' : Forall2 good ds ds' -> same_output o o' -> fitting_output o ->
  output_works_on_devices o -> output_works_on_devices o' ->
  create_network ds o = Ok n -> create_network ds' o' = Ok n' ->
  (forall m b, eval_network n m b = eval_network n' m b) /\ (forall b targets, target_probs n b targets = target_probs n' b targets).
Proof.
  intros G (K & Nm & I & Z & V & U & X) Fit W W' C C'.
  destruct (created_network _ _ _ C) as (ls & CL & EN & F). destruct (created_network _ _ _ C') as (ls' & CL' & EN' & F').
  assert (EL : forall m b, eval_layers m b [] 0 0 ls = eval_layers m b [] 0 0 ls').
  { intros m b. exact (eval_layers_created _ _ G _ _ _ m b [] 0 0 CL CL' eq_refl). }
  set (ps := n_params n) in *. set (ps' := n_params n') in *. clearbody ps ps'.
  unfold fitting_output in Fit. destruct (o_kind o) eqn:KO; destruct (o_values o) as [w bb|w bb w2 b2] eqn:VO; try contradiction.
  - assert (S : forall x, softmax_layer n x = softmax_layer n' x).
    { intro x. rewrite EN, EN'. pose proof (softmax_created o ls ps x w bb KO VO Fit W) as E1. rewrite KO, VO in E1. rewrite (E1 F).
      pose proof (softmax_created o' ls' ps' x w bb K V Fit W') as E2. rewrite (E2 F'). rewrite U, X. reflexivity. }
    assert (NK : n_kind n = Softmax /\ n_kind n' = Softmax) by (rewrite EN, EN'; cbn [n_kind]; auto). destruct NK as [NK NK'].
    assert (NI : n_inputs n = o_inputs o /\ n_inputs n' = o_inputs o /\ n_layers n = ls /\ n_layers n' = ls') by (rewrite EN, EN'; cbn [n_inputs n_layers]; auto).
    destruct NI as (NI & NI' & NL & NL').
    split; intros; [unfold eval_network|unfold target_probs, eval_targets]; rewrite NL, NL', NI, NI', NK, NK', EL;
      (destruct (eval_layers _ b [] 0 0 ls') as [[outs st]|]; cbn [bind]; [|reflexivity]);
      (destruct (mapM _ (o_inputs o)) as [ins|]; cbn [bind]; [|reflexivity]);
      (destruct (mapM _ ins) as [fs|]; cbn [bind]; [|reflexivity]);
      (destruct (concat_features fs) as [x|]; cbn [bind]; [|reflexivity]); rewrite S; reflexivity.
  - unfold output_works_on_devices in *. rewrite KO in W. rewrite K in W'.
    assert (Gt : forall (q : params) nm, Forall (placed [None] q) (output_params (HSoftmax level1_size level2_size) nm (HSoftmaxValues w bb w2 b2)) ->
      get_weight q nm (str "input/W") None = Ok w /\ get_bias q nm (str "input/b") None = Ok bb /\
      get_level_weight q nm (str "level1/W") None = Ok w2 /\ get_level_bias q nm (str "level1/b") None = Ok b2).
    { intros q nm Q. cbn [output_params] in Q.
      pose proof (F_in _ _ _ _ Q (or_introl eq_refl)) as [[_ Q1]|[Q1 _]]; [|congruence].
      pose proof (F_in _ _ _ _ Q (or_intror (or_introl eq_refl))) as [[_ Q2]|[Q2 _]]; [|congruence].
      pose proof (F_in _ _ _ _ Q (or_intror (or_intror (or_introl eq_refl)))) as [[_ Q3]|[Q3 _]]; [|congruence].
      pose proof (F_in _ _ _ _ Q (or_intror (or_intror (or_intror (or_introl eq_refl))))) as [[_ Q4]|[Q4 _]]; [|congruence].
      unfold get_weight, get_bias, get_level_weight, get_level_bias, get_param. rewrite Q1, Q2, Q3, Q4. auto. }
    rewrite W in F, EN. rewrite W', K, V, Nm in F'. rewrite W' in EN'. destruct (Gt _ _ F) as (G1 & G2 & G3 & G4). destruct (Gt _ _ F') as (G1' & G2' & G3' & G4').
    split; intros; [unfold eval_network|unfold target_probs, eval_targets]; rewrite EN, EN'; cbn [n_layers n_inputs n_kind n_devices n_params n_name n_size]; rewrite I, K, EL;
      (destruct (eval_layers _ b [] 0 0 ls') as [[outs st]|]; cbn [bind]; [|reflexivity]);
      (destruct (mapM _ (o_inputs o)) as [ins|]; cbn [bind]; [|reflexivity]);
      (destruct (mapM _ ins) as [fs|]; cbn [bind]; [|reflexivity]);
      (destruct (concat_features fs) as [x|]; cbn [bind]; [|reflexivity]).
    + unfold hsoftmax_layer. cbn [n_devices n_params n_name n_size length]. rewrite Nm, Z, G1, G1', G2, G2', G3, G3', G4, G4'. reflexivity.
    + cbn [length]. rewrite Nm, G1, G1', G2, G2', G3, G3', G4, G4'. reflexivity.
Qed.
End Net.
