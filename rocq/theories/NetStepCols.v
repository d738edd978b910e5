(** One time step of many sequences is one time step of each. *)
From Verif Require Import Base BaseLib ListLib Strings NumStr ParamModel NetModel NetColumns.

Section Columns.
Context {A : arith}.
Notation matrix := (list (list (num A))).
Notation tensor := (list (list (list (num A)))).
Variable s : nat.
Notation colt := (map (sel s)).

Definition modeless (k : kind) : bool :=
  match k with LSTM | GRU | BLSTM | BGRU | ReverseLSTM | ReverseGRU | ReverseBLSTM | ReverseBGRU | GLU _ => false | _ => true end.
Lemma eval_layer_modeless state b outs i j (l : layer A) : modeless (l_kind l) = true ->
  eval_layer (Step state) b outs i j l = eval_layer Minibatch b outs i j l.
Proof. unfold eval_layer. destruct (l_kind l); try discriminate; reflexivity. Qed.
Lemma eval_layer_no_state b outs i j (l : layer A) v st : eval_layer Minibatch b outs i j l = Ok (v, st) -> st = [].
Proof.
  unfold eval_layer. destruct (mapM _ _) as [ins|]; cbn [bind]; [|discriminate].
  destruct (l_kind l); repeat first [discriminate | (intro H; injection H as <- <-; reflexivity) | match goal with
    | |- context [bind ?m _] => destruct m; cbn [bind]
    | |- context [match ?x with [] => _ | _ :: _ => _ end] => destruct x
    | |- context [let '(_, _) := ?x in _] => destruct x
    | |- context [match ?x with IDs _ => _ | Features _ => _ end] => destruct x end].
Qed.
Lemma index_col (state : list matrix) k m : recurrent_input state k = Ok m -> recurrent_input (colt state) k = Ok (sel s m).
Proof. unfold recurrent_input, py_index. rewrite nth_error_map. destruct (nth_error state k); cbn [option_map]; congruence. Qed.
Lemma first_col (x : tensor) m : first_step x = Ok m -> first_step (colt x) = Ok (sel s m).
Proof. unfold first_step, py_index. rewrite nth_error_map. destruct (nth_error x 0); cbn [option_map]; congruence. Qed.

Lemma eval_layer_step_col state b outs i j (l : layer A) v st :
  eval_layer (Step state) b outs i j l = Ok (v, st) ->
  eval_layer (Step (colt state)) (col s b) (map (colo s) outs) i j l = Ok (colv s v, colt st).
Proof.
  destruct (modeless (l_kind l)) eqn:M.
  - rewrite !eval_layer_modeless by exact M. intro E. pose proof (eval_layer_no_state _ _ _ _ _ _ _ E) as ->. apply (eval_layer_col s), E.
  - unfold eval_layer.
    destruct (mapM (py_index outs) (l_inputs l)) as [ins|e] eqn:EI; cbn [bind]; [|discriminate].
    assert (EI' : mapM (py_index (map (colo s) outs)) (l_inputs l) = Ok (map (colo s) ins)).
    { rewrite <- (map_id (l_inputs l)). revert EI. apply mapM_map_ok.
      intros k o _ H. unfold py_index in *. rewrite nth_error_map. destruct (nth_error outs k); cbn; congruence. }
    rewrite EI'. cbn [bind].
    pose proof (layer_input_col s ins) as LI.
    destruct (do fs <- mapM (fun v => features (fst v)) ins; concat_features fs) as [x|e] eqn:EX; cbn [bind].
    2: { destruct (l_kind l); try discriminate. }
    specialize (LI x eq_refl). rewrite LI. cbn [bind col b_words].
    assert (MK : forall m0, py_index (map (map (fun _ : nat => true)) (b_words b)) 0 = Ok m0 -> py_index (map (map (fun _ : nat => true)) (colt (b_words b))) 0 = Ok (sel s m0)).
    { intro m0. unfold py_index. rewrite !nth_error_map. destruct (nth_error (b_words b) 0) as [r|]; cbn [option_map]; [|discriminate].
      rewrite <- sel_map. congruence. }
    destruct (l_kind l); try discriminate.
    + destruct (tensor_preact _ _ _ x _ _) as [p|e] eqn:P; cbn [bind]; [|discriminate].
      rewrite (tensor_preact_col s _ _ _ _ _ _ _ P). cbn [bind].
      destruct (get_weight _ _ _ _) as [w|]; cbn [bind]; [|discriminate].
      destruct (py_index _ 0) as [m0|] eqn:E0; cbn [bind]; [|discriminate]. rewrite (MK _ eq_refl). cbn [bind].
      destruct (first_step p) as [x0|] eqn:E1; cbn [bind]; [|discriminate]. rewrite (first_col _ _ E1). cbn [bind].
      destruct (recurrent_input state j) as [c|] eqn:E2; cbn [bind]; [|discriminate]. rewrite (index_col _ _ _ E2). cbn [bind].
      destruct (recurrent_input state (j + 1)) as [h|] eqn:E3; cbn [bind]; [|discriminate]. rewrite (index_col _ _ _ E3). cbn [bind].
      pose proof (lstm_step_col s (l_size l) (l_activation l) w m0 x0 (c, h)) as LS. cbn [fst snd] in LS.
      destruct (lstm_step (l_size l) (l_activation l) w m0 x0 (c, h)) as [C H]. cbn [fst snd] in LS.
      match type of LS with ?a = _ => change a with (sel s C, sel s H) in LS end.
      match type of LS with _ = lstm_step _ _ _ _ _ ?z => change z with (sel s c, sel s h) in LS end. rewrite <- LS.
      intro K. injection K as <- <-. reflexivity.
    + destruct (tensor_preact _ _ _ x _ _) as [p|e] eqn:P; cbn [bind]; [|discriminate].
      rewrite (tensor_preact_col s _ _ _ _ _ _ _ P). cbn [bind].
      destruct (get_weight _ _ _ _) as [w|]; cbn [bind]; [|discriminate].
      destruct (py_index _ 0) as [m0|] eqn:E0; cbn [bind]; [|discriminate]. rewrite (MK _ eq_refl). cbn [bind].
      destruct (first_step p) as [x0|] eqn:E1; cbn [bind]; [|discriminate]. rewrite (first_col _ _ E1). cbn [bind].
      destruct (recurrent_input state j) as [h|] eqn:E3; cbn [bind]; [|discriminate]. rewrite (index_col _ _ _ E3). cbn [bind].
      intro K. injection K as <- <-. cbn [colv map]. rewrite gru_step_col. reflexivity.
Qed.

Lemma eval_layers_step_col state b (ls : list (layer A)) : forall outs i j outs' st,
  eval_layers (Step state) b outs i j ls = Ok (outs', st) ->
  eval_layers (Step (colt state)) (col s b) (map (colo s) outs) i j ls = Ok (map (colo s) outs', colt st).
Proof.
  induction ls as [|l ls IH]; intros outs i j outs' st; cbn [eval_layers].
  - intro H. injection H as <- <-. reflexivity.
  - destruct (eval_layer _ _ outs _ _ l) as [[v st1]|e] eqn:E; cbn [bind]; [|discriminate].
    destruct (eval_layers _ _ (outs ++ _) _ _ ls) as [[o2 st2]|e] eqn:F; cbn [bind]; [|discriminate].
    intro H. injection H as <- <-. rewrite (eval_layer_step_col _ _ _ _ _ _ _ _ E). cbn [bind].
    apply IH in F. rewrite map_app in F. cbn [map] in F. unfold colo at 2 in F. cbn [fst snd] in F. rewrite F. cbn [bind]. rewrite map_app. reflexivity.
Qed.

Theorem eval_network_step_col (n : network A) state b p st :
  eval_network n (Step state) b = Ok (p, st) -> eval_network n (Step (colt state)) (col s b) = Ok (colt p, colt st).
Proof.
  unfold eval_network.
  destruct (eval_layers _ b [] _ _ _) as [[outs st']|e] eqn:E; cbn [bind]; [|discriminate].
  rewrite (eval_layers_step_col _ _ _ _ _ _ _ _ E : eval_layers (Step (colt state)) (col s b) [] 0 0 (n_layers n) = _). cbn [bind].
  destruct (mapM (py_index outs) (n_inputs n)) as [ins|e] eqn:EI; cbn [bind]; [|discriminate].
  rewrite (output_inputs_col s _ _ _ EI). cbn [bind].
  pose proof (layer_input_col s ins) as LI.
  destruct (mapM _ ins) as [fs|e] eqn:EF; cbn [bind] in *; [|discriminate].
  destruct (concat_features fs) as [x|e]; cbn [bind]; [|discriminate]. specialize (LI x eq_refl).
  destruct (mapM _ (map (colo s) ins)) as [fs'|e]; cbn [bind] in *; [|discriminate]. rewrite LI. cbn [bind].
  destruct (n_kind n).
  - unfold softmax_layer. destruct (tensor_preact _ _ _ x _ _) as [q|e] eqn:P; cbn [bind]; [|discriminate].
    rewrite (tensor_preact_col s _ _ _ _ _ _ _ P). cbn [bind].
    match goal with |- context [if 1 <? ?k then ?y else ?z] => destruct (if 1 <? k then y else z) as [u|] end; cbn [bind]; [|discriminate].
    intro H. injection H as <- <-. rewrite map_sel_maps. reflexivity.
  - unfold hsoftmax_layer. destruct (1 <? _); cbn [bind]; [discriminate|].
    destruct (get_weight _ _ _ _); cbn [bind]; [|discriminate]. destruct (get_bias _ _ _ _); cbn [bind]; [|discriminate].
    destruct (get_level_weight _ _ _ _); cbn [bind]; [|discriminate]. destruct (get_level_bias _ _ _ _); cbn [bind]; [|discriminate].
    intro H. injection H as <- <-. rewrite map_sel_maps. reflexivity.
Qed.
End Columns.
