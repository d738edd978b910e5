(** Networks without bidirectional layers: evaluating the first time steps of the input
    gives the first time steps of the output. *)
From Verif Require Import Base BaseLib ListLib Strings ParamModel NetModel NetSpec NetColumns.

Lemma firstn_map2 X Y Z (f : X -> Y -> Z) k a b : firstn k (map2 f a b) = map2 f (firstn k a) (firstn k b).
Proof. revert a b; induction k; intros [|x a] [|y b]; cbn; auto. f_equal; auto. Qed.
Lemma firstn_combine X Y k (a : list X) (b : list Y) : firstn k (combine a b) = combine (firstn k a) (firstn k b).
Proof. rewrite !combine_map2. apply firstn_map2. Qed.
Lemma mapM_firstn X Y (f : X -> result Y) k l r : mapM f l = Ok r -> mapM f (firstn k l) = Ok (firstn k r).
Proof.
  revert k r; induction l as [|x l IH]; intros k r H; cbn [mapM] in H.
  - assert (r = []) as -> by congruence. rewrite !firstn_nil. reflexivity.
  - destruct (f x) as [y|] eqn:E; cbn [bind] in H; [|discriminate].
    destruct (mapM f l) as [ys|] eqn:E'; cbn [bind] in H; [|discriminate].
    assert (r = y :: ys) as -> by congruence. destruct k as [|k]; [reflexivity|].
    cbn [firstn mapM]. rewrite E, (IH k ys eq_refl). reflexivity.
Qed.
Lemma windows_firstn X F n (l : list X) : 1 <= F -> windows F (firstn n l) = firstn (n + 1 - F) (windows F l).
Proof.
  intro HF. revert n; induction l as [|a l IH]; intro n; [rewrite firstn_nil; cbn; now rewrite firstn_nil|].
  destruct n as [|n]; [cbn [firstn windows]; replace (0 + 1 - F) with 0 by lia; reflexivity|].
  cbn [firstn windows length]. rewrite firstn_length.
  destruct (Nat.ltb_spec (S (Nat.min n (length l))) F) as [H|H]; destruct (Nat.ltb_spec (S (length l)) F) as [H'|H'].
  - now rewrite firstn_nil.
  - replace (S n + 1 - F) with 0 by lia. reflexivity.
  - lia.
  - replace (S n + 1 - F) with (S (n + 1 - F)) by lia. cbn [firstn]. rewrite IH. f_equal.
    change (a :: firstn n l) with (firstn (S n) (a :: l)). rewrite firstn_firstn. f_equal. lia.
Qed.
Lemma windows_zero X n (l : list X) : windows 0 (firstn n l) = firstn n (windows 0 l).
Proof. revert n; induction l as [|a l IH]; intros [|n]; cbn [firstn windows]; auto. cbn [Nat.ltb Nat.leb]. now rewrite IH. Qed.
Lemma windows_padded X F k (p l : list X) : length p = F - 1 -> windows F (p ++ firstn k l) = firstn k (windows F (p ++ l)).
Proof.
  intro H. destruct F as [|F].
  - destruct p; [|discriminate]. apply windows_zero.
  - replace (p ++ firstn k l) with (firstn (F + k) (p ++ l)).
    + rewrite windows_firstn by lia. f_equal. lia.
    + replace (F + k) with (length p + k) by lia. apply firstn_app_2.
Qed.

Section Time.
Context {A : arith}.
Notation num := (num A).
Notation vec := (list num).
Notation matrix := (list (list num)).
Notation tensor := (list (list (list num))).
Variable k : nat.

Definition cutv (v : value A) : value A := match v with IDs x => IDs (firstn k x) | Features x => Features (firstn k x) end.
Definition cuto (o : value A * nat) : value A * nat := (cutv (fst o), snd o).

Lemma concat_features_cut (l : list tensor) r : concat_features l = Ok r -> concat_features (map (firstn k) l) = Ok (firstn k r).
Proof.
  destruct l as [|x l]; cbn [concat_features map]; [discriminate|]. intro H.
  assert (r = fold_left (map2 (map2 (@app num))) l x) as -> by congruence. f_equal.
  clear H. revert x; induction l as [|y l IH]; intro x; cbn [fold_left map]; [reflexivity|].
  rewrite <- IH. f_equal. symmetry. apply firstn_map2.
Qed.
Lemma preact_part_cut ub (x : tensor) p : firstn k (preact_part ub x p) = preact_part ub (firstn k x) p.
Proof. unfold preact_part. destruct ub; rewrite !firstn_map; reflexivity. Qed.
Lemma tensor_preact_cut ps name devices (x : tensor) pn ub r :
  tensor_preact ps name devices x pn ub = Ok r -> tensor_preact ps name devices (firstn k x) pn ub = Ok (firstn k r).
Proof.
  unfold tensor_preact. destruct (mapM _ devices) as [parts|e]; cbn [bind]; [|discriminate].
  destruct parts as [|p parts]; [discriminate|]. intro H.
  apply concat_features_cut in H. rewrite map_map in H.
  rewrite (map_ext _ (preact_part ub (firstn k x)) (fun a => preact_part_cut ub x a)) in H. exact H.
Qed.
Lemma scan_cut S (step : list bool -> matrix -> S -> S) xs : forall n s, firstn n (scan step xs s) = scan step (firstn n xs) s.
Proof. induction xs as [|[m x] xs IH]; intros [|n] s; cbn [firstn scan]; auto. rewrite IH. reflexivity. Qed.
Lemma num_sequences_cut (x : tensor) : k <> 0 -> num_sequences (firstn k x) = num_sequences x.
Proof. destruct k; [congruence|]. destruct x; reflexivity. Qed.

Lemma lstm_minibatch_cut ps name devices size act mask (x : tensor) r :
  lstm_minibatch ps name devices size act false mask x = Ok r ->
  lstm_minibatch ps name devices size act false (firstn k mask) (firstn k x) = Ok (firstn k r).
Proof.
  unfold lstm_minibatch. destruct (tensor_preact ps name devices x _ _) as [p|e] eqn:P; cbn [bind]; [|discriminate].
  rewrite (tensor_preact_cut _ _ _ _ _ _ _ P). cbn [bind].
  destruct (get_weight _ _ _ _) as [w|e]; cbn [bind]; [|discriminate].
  intro H. match type of H with Ok ?z = _ => assert (r = z) as -> by congruence end. clear H. f_equal.
  rewrite firstn_map, scan_cut, firstn_combine.
  destruct (Nat.eq_dec k 0) as [->|K]; [reflexivity|]. rewrite num_sequences_cut by exact K. reflexivity.
Qed.
Lemma gru_minibatch_cut ps name devices size mask (x : tensor) r :
  gru_minibatch ps name devices size false mask x = Ok r ->
  gru_minibatch ps name devices size false (firstn k mask) (firstn k x) = Ok (firstn k r).
Proof.
  unfold gru_minibatch. destruct (tensor_preact ps name devices x _ _) as [p|e] eqn:P; cbn [bind]; [|discriminate].
  rewrite (tensor_preact_cut _ _ _ _ _ _ _ P). cbn [bind].
  destruct (get_weight _ _ _ _) as [w|e]; cbn [bind]; [|discriminate].
  intro H. match type of H with Ok ?z = _ => assert (r = z) as -> by congruence end. clear H. f_equal.
  rewrite scan_cut, firstn_combine.
  destruct (Nat.eq_dec k 0) as [->|K]; [reflexivity|]. rewrite num_sequences_cut by exact K. reflexivity.
Qed.

Lemma conv1d_cut (p : list matrix) (x : tensor) fs : length p = length fs - 1 ->
  conv1d (p ++ firstn k x) fs = firstn k (conv1d (p ++ x) fs).
Proof. intro H. unfold conv1d. rewrite windows_padded by exact H. rewrite firstn_map. reflexivity. Qed.
Lemma tensor_conv1d_cut ps name devices (p : list matrix) (x : tensor) pn r :
  (forall d w, In d devices -> get_filters ps name (pn ++ str "/W")%list d = Ok w -> length p = length w - 1) ->
  tensor_conv1d ps name devices (p ++ x) pn = Ok r -> tensor_conv1d ps name devices (p ++ firstn k x) pn = Ok (firstn k r).
Proof.
  intro HF. unfold tensor_conv1d. destruct (mapM _ devices) as [parts|e] eqn:M; cbn [bind]; [|discriminate].
  assert (HP : forall w, In w parts -> length p = length w - 1).
  { intros w Hw. destruct (mapM_in _ _ _ _ _ _ M Hw) as (d & Hd & Ed). eauto. }
  destruct parts as [|q parts]; [discriminate|].
  destruct (concat_features (map (conv1d (p ++ x)) (q :: parts))) as [y|e] eqn:E; cbn [bind]; [|discriminate].
  apply concat_features_cut in E. rewrite map_map in E.
  rewrite (map_ext_in _ (conv1d (p ++ firstn k x)) (q :: parts)) in E.
  2: { intros a Ha. symmetry. apply conv1d_cut, HP, Ha. }
  rewrite E. cbn [bind].
  destruct (get_bias _ _ _ _) as [b|e]; cbn [bind]; [|discriminate]. intro H.
  match type of H with Ok ?z = _ => assert (r = z) as -> by congruence end. f_equal. symmetry. apply firstn_map.
Qed.

Lemma dropout_cut scale f (x : tensor) : firstn k (dropout scale (Some f) x) = dropout scale (Some f) (firstn k x).
Proof.
  unfold dropout. unfold mapi at 1. unfold mapi at 3. rewrite firstn_map2. f_equal. rewrite firstn_length.
  generalize 0. clear. generalize (length x). revert k. intros k n. revert k. induction n as [|n IH]; intros [|k] m; cbn; auto.
  f_equal. apply IH.
Qed.
Lemma features_cut v x : features v = Ok x -> features (cutv v) = Ok (firstn k x).
Proof. destruct v; cbn; congruence. Qed.
Lemma layer_input_cut (ins : list (value A * nat)) x :
  (do fs <- mapM (fun v => features (fst v)) ins; concat_features fs) = Ok x ->
  (do fs <- mapM (fun v => features (fst v)) (map cuto ins); concat_features fs) = Ok (firstn k x).
Proof.
  destruct (mapM _ ins) as [fs|e] eqn:E; cbn [bind]; [|discriminate]. intro H.
  rewrite (mapM_map_ok _ _ _ _ _ (fun v : value A * nat => features (fst v)) cuto (firstn k) _ _ ltac:(intros v y _; apply features_cut) E).
  cbn [bind]. apply concat_features_cut, H.
Qed.
Lemma addition_cut ps name devices size (xs : list (tensor * nat)) i ts :
  mapM (addition_input ps name devices size) (combine (seq i (length xs)) xs) = Ok ts ->
  mapM (addition_input ps name devices size) (combine (seq i (length xs)) (map (fun p => (firstn k (fst p), snd p)) xs)) = Ok (map (firstn k) ts).
Proof.
  revert i ts; induction xs as [|[x z] xs IH]; intros i ts; cbn [length seq combine map mapM].
  - intro H. assert (ts = []) as -> by congruence. reflexivity.
  - destruct (addition_input _ _ _ _ (i, (x, z))) as [y|e] eqn:E; cbn [bind]; [|discriminate].
    destruct (mapM _ (combine _ xs)) as [ys|e] eqn:E'; cbn [bind]; [|discriminate]. intro H.
    assert (ts = y :: ys) as -> by congruence. rewrite (IH _ _ E').
    assert (F : addition_input ps name devices size (i, (firstn k (fst (x, z)), snd (x, z))) = Ok (firstn k y)).
    { unfold addition_input in *. cbn [fst snd]. destruct (z =? size); [congruence|]. apply tensor_preact_cut, E. }
    rewrite F. reflexivity.
Qed.
Lemma sum_tensors_cut (l : list tensor) r : sum_tensors l = Ok r -> sum_tensors (map (firstn k) l) = Ok (firstn k r).
Proof.
  destruct l as [|x l]; cbn [sum_tensors map]; [discriminate|]. intro H.
  assert (r = fold_left (map2 madd) l x) as -> by congruence. f_equal.
  clear H. revert x; induction l as [|y l IH]; intro x; cbn [fold_left map]; [reflexivity|].
  rewrite <- IH. f_equal. symmetry. apply firstn_map2.
Qed.
Lemma mapM_features_total (l : list (value A * nat)) r :
  mapM (fun v => do x <- features (fst v); Ok (x, snd v)) l = Ok r ->
  exists r', mapM (fun v : value A * nat => features (fst v)) l = Ok r' /\ length r' = length r /\ length r = length l.
Proof.
  revert r; induction l as [|a l IH]; intros r H; cbn [mapM] in *.
  - assert (r = []) as -> by congruence. exists []; auto.
  - destruct (features (fst a)) as [x|]; cbn [bind] in *; [|discriminate].
    destruct (mapM _ l) as [q|] eqn:E; cbn [bind] in H; [|discriminate]. destruct (IH _ eq_refl) as (r' & -> & L1 & L2).
    assert (r = (x, snd a) :: q) as -> by congruence. exists (x :: r'). cbn. auto.
Qed.

Lemma eval_layer_cut b outs i j l v st : forward_layer l ->
  eval_layer Minibatch b outs i j l = Ok (v, st) ->
  eval_layer Minibatch (first_steps k b) (map cuto outs) i j l = Ok (cutv v, st).
Proof.
  intros FW. unfold eval_layer.
  destruct (mapM (py_index outs) (l_inputs l)) as [ins|e] eqn:EI; cbn [bind]; [|discriminate].
  assert (EI' : mapM (py_index (map cuto outs)) (l_inputs l) = Ok (map cuto ins)).
  { rewrite <- (map_id (l_inputs l)). revert EI. apply mapM_map_ok.
    intros u o _ H. unfold py_index in *. rewrite nth_error_map. destruct (nth_error outs u); cbn; congruence. }
  rewrite EI'. cbn [bind].
  pose proof (layer_input_cut ins) as LI.
  destruct (do fs <- mapM (fun v => features (fst v)) ins; concat_features fs) as [x|e] eqn:EX; cbn [bind].
  2: { destruct (l_kind l); try discriminate.
    - intro H. injection H as <- <-. reflexivity.
    - intro H. injection H as <- <-. reflexivity.
    - destruct ins as [|[[ids|?] z] [|? ?]]; cbn [map cuto cutv fst snd]; try discriminate.
      destruct (mapM _ (l_devices l)) as [parts|] eqn:E; cbn [bind]; [|discriminate].
      assert (E' : mapM (fun d => do w <- get_weight (l_params l) (l_name l) (str "W") d;
                  mapM (mapM (fun i0 => mapM (fun column => py_index column i0) w)) (firstn k ids)) (l_devices l) = Ok (map (firstn k) parts)).
      { rewrite <- (map_id (l_devices l)). revert E. apply mapM_map_ok.
        intros d y _. destruct (get_weight _ _ _ _) as [w|]; cbn [bind]; [|discriminate]. apply mapM_firstn. }
      rewrite E'. cbn [bind]. destruct (concat_features parts) as [y|] eqn:C; cbn [bind]; [|discriminate].
      rewrite (concat_features_cut _ _ C). cbn [bind]. intro H. injection H as <- <-. reflexivity.
    - destruct ins as [|[[?|x] z] [|? ?]]; cbn [map cuto cutv fst snd] in *; try discriminate.
    - destruct (mapM (fun v => do x <- features (fst v); Ok (x, snd v)) ins) as [xs|] eqn:E; cbn [bind]; [|discriminate].
      intro H0. exfalso. destruct (mapM_features_total _ _ E) as (r' & E1 & L1 & L2). rewrite E1 in EX. cbn [bind] in EX.
      destruct r' as [|y r']; [|discriminate]. destruct xs; [|discriminate]. cbn in H0. discriminate. }
  specialize (LI x eq_refl). rewrite LI.
  cbn [bind]. unfold forward_layer in FW.
  destruct (l_kind l) as [| | | | | | | | |fz| | | | | |] eqn:KD; cbn [first_steps b_words b_classes b_mask b_dropout]; try (exfalso; exact FW).
  - intro H. injection H as <- <-. reflexivity.
  - intro H. injection H as <- <-. reflexivity.
  - destruct ins as [|[[ids|?] z] [|? ?]]; cbn [map cuto cutv fst snd] in *; try discriminate.
  - destruct (tensor_preact _ _ _ x _ _) as [p|e] eqn:P; cbn [bind]; [|discriminate].
    rewrite (tensor_preact_cut _ _ _ _ _ _ _ P). cbn [bind]. intro H. injection H as <- <-.
    cbn [cutv]. do 3 f_equal. symmetry. apply firstn_map.
  - destruct (lstm_minibatch _ _ _ _ _ _ _ x) as [p|e] eqn:P; cbn [bind]; [|discriminate].
    rewrite (lstm_minibatch_cut _ _ _ _ _ _ _ _ P). cbn [bind]. intro H. injection H as <- <-. reflexivity.
  - destruct (gru_minibatch _ _ _ _ _ _ x) as [p|e] eqn:P; cbn [bind]; [|discriminate].
    rewrite (gru_minibatch_cut _ _ _ _ _ _ _ P). cbn [bind]. intro H. injection H as <- <-. reflexivity.
  - destruct (tensor_preact _ _ _ x _ _) as [p|e] eqn:P; cbn [bind]; [|discriminate].
    rewrite (tensor_preact_cut _ _ _ _ _ _ _ P). cbn [bind]. intro H. injection H as <- <-.
    cbn [cutv]. do 3 f_equal. symmetry. rewrite !firstn_map2, !firstn_map. reflexivity.
  - destruct ins as [|[[ids|y] z] [|? ?]]; cbn [map cuto cutv fst snd] in *; try discriminate.
    assert (x = y) as -> by (cbn in EX; congruence).
    destruct (tensor_conv1d _ _ _ _ _) as [p|e] eqn:P; cbn [bind]; [|discriminate].
    assert (HL : forall d w, In d (l_devices l) -> get_filters (l_params l) (l_name l) (str "input" ++ str "/W")%list d = Ok w ->
        length (repeat (zeros (A := A) (num_sequences y) z) (fz - 1)) = length w - 1).
    { intros d w Hd Ew. rewrite repeat_length. rewrite (FW d w Hd Ew). reflexivity. }
    pose proof (tensor_conv1d_cut _ _ _ _ _ _ _ HL P) as P'.
    intro H. injection H as <- <-.
    destruct (Nat.eq_dec k 0) as [K|K].
    + rewrite K in *. cbn [firstn] in *. rewrite app_nil_r in *.
      assert (Z : tensor_conv1d (l_params l) (l_name l) (l_devices l)
                    (repeat (zeros (A := A) (num_sequences (A := A) []) z) (fz - 1)) (str "input") = Ok []).
      2: { rewrite Z. cbn [bind cutv]. rewrite K. reflexivity. }
      revert P'. unfold tensor_conv1d.
      destruct (mapM _ (l_devices l)) as [parts|e] eqn:M; cbn [bind]; [|discriminate].
      assert (HP : forall w, In w parts -> fz = length w).
      { intros w Hw. destruct (mapM_in _ _ _ _ _ _ M Hw) as (d & Hd & Ed). symmetry. eauto. }
      destruct parts as [|q parts]; [discriminate|].
      assert (CZ : forall m w, In w (q :: parts) -> conv1d (repeat (zeros (A := A) m z) (fz - 1)) w = []).
      { intros m w Hw. unfold conv1d. rewrite <- (HP w Hw).
        pose proof (windows_padded _ fz 0 (repeat (zeros (A := A) m z) (fz - 1)) [] (repeat_length _ _)) as W.
        cbn [firstn] in W. rewrite app_nil_r in W. rewrite W. reflexivity. }
      rewrite (map_ext_in _ (fun _ => []) _ (CZ (num_sequences y))), (map_ext_in _ (fun _ => []) _ (CZ (num_sequences []))). auto.
    + rewrite num_sequences_cut by exact K. rewrite P'. cbn [bind cutv]. do 3 f_equal. symmetry. apply firstn_map.
  - destruct (mapM (fun v => do x <- features (fst v); Ok (x, snd v)) ins) as [xs|e] eqn:E; cbn [bind]; [|discriminate].
    assert (E' : mapM (fun v => do x <- features (fst v); Ok (x, snd v)) (map cuto ins) = Ok (map (fun p : tensor * nat => (firstn k (fst p), snd p)) xs)).
    { revert E. apply mapM_map_ok. intros o y _. cbn [cuto fst snd]. destruct (features (fst o)) as [z|] eqn:F; cbn [bind]; [|discriminate].
      rewrite (features_cut _ _ F). cbn [bind]. intro H. injection H as <-. reflexivity. }
    rewrite E'. cbn [bind]. rewrite map_length.
    destruct (mapM (addition_input _ _ _ _) _) as [ts|e] eqn:F; cbn [bind]; [|discriminate].
    rewrite (addition_cut _ _ _ _ _ _ _ F). cbn [bind].
    destruct (sum_tensors ts) as [y|] eqn:G; cbn [bind]; [|discriminate]. rewrite (sum_tensors_cut _ _ G). cbn [bind].
    intro H. injection H as <- <-. reflexivity.
  - intro H. injection H as <- <-. cbn [cutv]. do 3 f_equal.
    destruct (b_dropout b) as [f|]; [symmetry; apply dropout_cut|reflexivity].
Qed.

Lemma eval_layers_cut b ls : Forall forward_layer ls -> forall outs i j outs' st,
  eval_layers Minibatch b outs i j ls = Ok (outs', st) ->
  eval_layers Minibatch (first_steps k b) (map cuto outs) i j ls = Ok (map cuto outs', st).
Proof.
  induction 1 as [|l ls FL _ IH]; intros outs i j outs' st; cbn [eval_layers].
  - intro H. injection H as <- <-. reflexivity.
  - destruct (eval_layer _ _ outs _ _ l) as [[v st1]|e] eqn:E; cbn [bind]; [|discriminate].
    destruct (eval_layers _ _ (outs ++ _) _ _ ls) as [[o2 st2]|e] eqn:F; cbn [bind]; [|discriminate].
    intro H. injection H as <- <-. rewrite (eval_layer_cut _ _ _ _ _ _ _ FL E). cbn [bind].
    apply IH in F. rewrite map_app in F. cbn [map] in F. unfold cuto at 2 in F. cbn [fst snd] in F. rewrite F. reflexivity.
Qed.

Theorem eval_network_cut (n : network A) b p st : Forall forward_layer (n_layers n) ->
  eval_network n Minibatch b = Ok (p, st) -> eval_network n Minibatch (first_steps k b) = Ok (firstn k p, st).
Proof.
  intros FN. unfold eval_network.
  destruct (eval_layers _ b [] _ _ _) as [[outs st']|e] eqn:E; cbn [bind]; [|discriminate].
  rewrite (eval_layers_cut _ _ FN _ _ _ _ _ E : eval_layers Minibatch (first_steps k b) [] 0 0 (n_layers n) = _). cbn [bind].
  destruct (mapM (py_index outs) (n_inputs n)) as [ins|e] eqn:EI; cbn [bind]; [|discriminate].
  assert (EI' : mapM (py_index (map cuto outs)) (n_inputs n) = Ok (map cuto ins)).
  { rewrite <- (map_id (n_inputs n)). revert EI. apply mapM_map_ok.
    intros u o _ H. unfold py_index in *. rewrite nth_error_map. destruct (nth_error outs u); cbn; congruence. }
  rewrite EI'. cbn [bind].
  pose proof (layer_input_cut ins) as LI.
  destruct (mapM _ ins) as [fs|e] eqn:EF; cbn [bind] in *; [|discriminate].
  destruct (concat_features fs) as [x|e]; cbn [bind]; [|discriminate]. specialize (LI x eq_refl).
  destruct (mapM _ (map cuto ins)) as [fs'|e]; cbn [bind] in *; [|discriminate]. rewrite LI. cbn [bind].
  destruct (n_kind n).
  - unfold softmax_layer. destruct (tensor_preact _ _ _ x _ _) as [q|e] eqn:P; cbn [bind]; [|discriminate].
    rewrite (tensor_preact_cut _ _ _ _ _ _ _ P). cbn [bind].
    match goal with |- context [if 1 <? ?k then ?y else ?z] => destruct (if 1 <? k then y else z) as [u|] end; cbn [bind]; [|discriminate].
    intro H. injection H as <- <-. rewrite firstn_map. reflexivity.
  - unfold hsoftmax_layer. destruct (1 <? _); cbn [bind]; [discriminate|].
    destruct (get_weight _ _ _ _); cbn [bind]; [|discriminate]. destruct (get_bias _ _ _ _); cbn [bind]; [|discriminate].
    destruct (get_level_weight _ _ _ _); cbn [bind]; [|discriminate]. destruct (get_level_bias _ _ _ _); cbn [bind]; [|discriminate].
    intro H. injection H as <- <-. rewrite firstn_map. reflexivity.
Qed.
End Time.
