(** Arrays that were written in part. *)
From Coq Require Import Lia.
From Verif Require Import Base ListLib BaseLib Strings VocabModel ArchModel ParamModel ParamSpec ParamProofs NetModel DeviceModel OutputModel BuildModel SavedModel SavedSpec SavedArrays CrashSpec.
Local Open Scope nat_scope.

Section Store.
Context {V : Type}.
Notation dict := (list (pystr * array V)).
Definition same_place (x y : pystr * array V) : Prop := fst x = fst y /\ a_shape (snd x) = a_shape (snd y) /\ a_shape (snd y) <> [].

Lemma get_middle (pre l : dict) path x : ~ In path (paths pre) -> dict_get path (pre ++ (path, x) :: l) = Some x.
Proof.
  induction pre as [|[q b] pre IH]; intros N; cbn [app dict_get].
  - destruct (pystr_eqb_spec path path); congruence.
  - cbn in N. destruct (pystr_eqb_spec q path) as [->|D]; [tauto|]. apply IH. tauto.
Qed.
Lemma replace_middle (pre l : dict) path x y : ~ In path (paths pre) -> dict_replace path y (pre ++ (path, x) :: l) = pre ++ (path, y) :: l.
Proof.
  induction pre as [|[q b] pre IH]; intros N; cbn [app dict_replace].
  - destruct (pystr_eqb_spec path path); congruence.
  - cbn in N. destruct (pystr_eqb_spec q path) as [->|D]; [tauto|]. f_equal. apply IH. tauto.
Qed.
(** Writing over arrays of the same shapes *)
Lemma store_over (l l' : dict) : Forall2 same_place l l' -> forall pre i, is_dict (pre ++ l) ->
  foldM store_parameter (firstn i l') (pre ++ l) = Ok (pre ++ firstn i l' ++ skipn i l).
Proof.
  induction 1 as [|[p x] [q y] l l' (E & S & N) F IH]; intros pre i D.
  - rewrite !firstn_nil, skipn_nil. cbn [foldM app]. reflexivity.
  - cbn [fst snd] in *. subst q. destruct i as [|i]; [reflexivity|]. cbn [firstn skipn foldM].
    unfold is_dict in D. rewrite paths_app in D. cbn [paths map fst] in D. apply NoDup_remove in D as [D Np].
    assert (Np1 : ~ In p (paths pre)) by (intros I; apply Np, in_or_app; auto).
    unfold store_parameter at 1. rewrite (get_middle _ _ _ _ Np1). unfold assign. rewrite S.
    destruct (a_shape y) as [|s ss] eqn:Ey; [congruence|]. destruct (list_eq_dec _ _ _) as [_|C]; [|congruence]. cbn [bind].
    rewrite (replace_middle _ _ _ _ _ Np1). specialize (IH (pre ++ [(p, y)]) i). rewrite <- !app_assoc in IH. cbn [app] in IH. rewrite IH; [reflexivity|].
    unfold is_dict. rewrite paths_app. cbn [paths map fst]. apply NoDup_Add with (a := p) (l := paths pre ++ paths l); [|split; assumption].
    apply Add_app.
Qed.
(** Writing new arrays *)
Lemma store_new (l : dict) : forall pre i, is_dict (pre ++ l) -> foldM store_parameter (firstn i l) pre = Ok (pre ++ firstn i l).
Proof.
  induction l as [|[p y] l IH]; intros pre i D.
  - rewrite firstn_nil, app_nil_r. reflexivity.
  - destruct i as [|i]; [cbn [firstn foldM]; now rewrite app_nil_r|]. cbn [firstn foldM].
    assert (Np : ~ In p (paths pre)).
    { unfold is_dict in D. rewrite paths_app in D. cbn [paths map fst] in D. apply NoDup_remove_2 in D. intros I. apply D, in_or_app. auto. }
    unfold store_parameter at 1. replace (dict_get p pre) with (@None (array V)) by (symmetry; now apply dict_get_none). cbn [bind].
    rewrite IH; [now rewrite <- app_assoc|]. now rewrite <- app_assoc.
Qed.
(** A state where a variable is missing cannot be read. *)
Lemma set_vars_missing (s l : dict) path : In path (paths l) -> ~ In path (paths s) ->
  (forall p x y, In (p, x) l -> In (p, y) s -> length (a_shape y) = length (a_shape x)) ->
  exists l', set_vars s l = (l', Err IncompatibleStateError).
Proof.
  intros I N. induction l as [|[p x] l IH]; [destruct I|]. intros W. cbn [set_vars]. destruct (dict_get p s) as [new|] eqn:G; [|eauto].
  rewrite (W p x new); [|now left|now apply dict_get_in]. rewrite Nat.eqb_refl.
  destruct IH as (l' & ->); [|intros; eapply W; [right|]; eauto|eauto]. cbn in I. destruct I as [<-|I]; [|exact I].
  apply dict_get_in in G. exfalso. apply N. eapply in_paths; eauto.
Qed.
Lemma set_state_missing (s : dict) (ps : list (parameters V)) path : In path (paths (flat_map p_vars ps)) -> ~ In path (paths s) ->
  (forall p x y, In (p, x) (flat_map p_vars ps) -> In (p, y) s -> length (a_shape y) = length (a_shape x)) ->
  exists ps', network_set_state s ps = (ps', Err IncompatibleStateError).
Proof.
  intros I N. induction ps as [|p ps IH]; [destruct I|]. intros W. cbn [flat_map] in *. cbn [network_set_state]. unfold set_state.
  destruct (set_vars s (p_vars p)) as [vs e] eqn:E. destruct e as [[]|e].
  - destruct IH as (ps' & ->); [|intros; eapply W; [apply in_or_app; right|]; eauto|eauto].
    rewrite paths_app in I. apply in_app_or in I as [I|I]; [|exact I]. destruct (set_vars_missing s (p_vars p) path I N) as (l' & C).
    { intros; eapply W; [apply in_or_app; left|]; eauto. }
    rewrite C in E. discriminate.
  - assert (e = IncompatibleStateError) as ->; [|eauto].
    assert (W' : forall q x y, In (q, x) (p_vars p) -> In (q, y) s -> length (a_shape y) = length (a_shape x)).
    { intros. eapply W; [apply in_or_app; left|]; eauto. }
    clear - E W'. revert vs e E W'. induction (p_vars p) as [|[q x] l IH]; intros vs e E W; cbn [set_vars] in E; [discriminate|].
    destruct (dict_get q s) as [new|] eqn:G; [|congruence]. rewrite (W q x new) in E; [|now left|now apply dict_get_in]. rewrite Nat.eqb_refl in E.
    destruct (set_vars s l) as [r e'] eqn:E'. injection E as _ ->. eapply IH; eauto. intros; eapply W; [right|]; eauto.
Qed.
End Store.

Section Mixture.
Context {A : arith}.
Notation params := (list (pystr * param A)).

Lemma vars_parameters (n : network A) : vars n = map (fun v => (fst v, array_of (snd v))) (all_parameters n).
Proof.
  unfold vars, layer_parameters, all_params, all_parameters. rewrite map_app, flat_map_app, map_app. f_equal; [|cbn [map flat_map parameters_of p_vars]; now rewrite app_nil_r].
  induction (n_layers n) as [|l ls IH]; cbn [map flat_map]; [reflexivity|]. now rewrite map_app, <- IH.
Qed.
Lemma vars_place (n n' : network A) : other_values n n' -> Forall2 same_place (vars n) (vars n').
Proof.
  intros O. pose proof (vars_shapes _ _ O) as H. assert (N : forall x, In x (vars n') -> a_shape (snd x) <> []) by (intros [p x] I; eapply vars_nonempty; eauto).
  revert N. generalize dependent (vars n'). generalize (vars n). clear. intros l l' H. induction H as [|x y l l' [E S] F IH]; intros N; constructor.
  - split; [exact E|]. split; [exact S|]. apply N. now left.
  - apply IH. intros z I. apply N. now right.
Qed.

Definition mix_params (i : nat) (ps qs : params) : params := firstn i qs ++ skipn i ps.
Lemma mix_params_other i (ps qs : params) : other_params ps qs -> other_params ps (mix_params i ps qs).
Proof.
  unfold mix_params. intros H. revert i. induction H as [|x y ps qs [E D] F IH]; intros [|i]; cbn [firstn skipn app]; constructor.
  - split; [reflexivity|apply dims_refl].
  - clear. induction ps; constructor; [split; [reflexivity|apply dims_refl]|exact IHps].
  - split; [exact E|exact D].
  - apply IH.
Qed.
Fixpoint mix_layers (i : nat) (ls ls' : list (layer A)) : list (layer A) :=
  match ls, ls' with
  | l :: r, l' :: r' =>
    mkLayer (l_kind l) (l_name l) (l_inputs l) (l_size l) (l_activation l) (l_devices l) (mix_params i (l_params l) (l_params l')) (l_scale l)
      :: mix_layers (i - length (l_params l)) r r'
  | _, _ => []
  end.
Definition mix (i : nat) (n n' : network A) : network A :=
  mkNetwork (mix_layers i (n_layers n) (n_layers n')) (n_kind n) (n_name n) (n_inputs n) (n_size n) (n_devices n)
    (mix_params (i - length (flat_map (fun l => l_params l) (n_layers n))) (n_params n) (n_params n')) (n_unk_class n) (n_exclude_unk n).

Lemma mix_layers_params i ls ls' : Forall2 other_layer ls ls' ->
  flat_map (fun l => l_params l) (mix_layers i ls ls') = mix_params i (flat_map (fun l => l_params l) ls) (flat_map (fun l => l_params l) ls') /\
  length (flat_map (fun l => l_params l) ls) = length (flat_map (fun l => l_params l) ls').
Proof.
  intros H. revert i. induction H as [|l l' ls ls' O F IH]; intros i; cbn [mix_layers flat_map].
  - unfold mix_params. rewrite firstn_nil, skipn_nil. split; reflexivity.
  - destruct O as [_ _ _ _ _ _ _ Op]. assert (L : length (l_params l) = length (l_params l')) by (clear - Op; induction Op; cbn; auto).
    destruct (IH (i - length (l_params l))) as [-> Lr]. cbn [l_params]. unfold mix_params. split; [|rewrite !app_length; lia].
    rewrite !firstn_app, !skipn_app, L. destruct (Nat.le_ge_cases (length (l_params l')) i) as [G|G].
    + rewrite (skipn_all2 (l_params l)) by lia. rewrite !firstn_all2 by lia. rewrite app_nil_r. cbn [app]. now rewrite app_assoc.
    + replace (i - length (l_params l')) with 0 by lia. cbn [firstn skipn]. rewrite app_nil_r. cbn [app]. now rewrite app_assoc.
Qed.
Lemma mix_layers_other i ls ls' : Forall2 other_layer ls ls' -> Forall2 other_layer ls (mix_layers i ls ls').
Proof.
  intros H. revert i. induction H as [|l l' ls ls' O F IH]; intros i; cbn [mix_layers]; constructor; [|apply IH].
  destruct O. constructor; cbn; auto. now apply mix_params_other.
Qed.
Lemma mix_mixture i (n n' : network A) : other_values n n' -> mixture i n n' (mix i n n').
Proof.
  intros O. destruct O as [Ol _ _ _ _ _ _ _ Op]. constructor.
  - constructor; cbn; auto; [now apply mix_layers_other|now apply mix_params_other].
  - unfold all_parameters, mix. cbn [n_layers n_params]. destruct (mix_layers_params i _ _ Ol) as [-> L]. unfold mix_params.
    rewrite firstn_app, skipn_app, <- L. set (ps := flat_map _ (n_layers n)) in *. set (qs := flat_map _ (n_layers n')) in *.
    destruct (Nat.le_ge_cases (length ps) i) as [G|G].
    + rewrite (skipn_all2 ps) by lia. cbn [app]. rewrite app_nil_r. now rewrite app_assoc.
    + replace (i - length ps) with 0 by lia. cbn [firstn skipn]. rewrite app_nil_r. cbn [app]. now rewrite <- app_assoc.
Qed.
Lemma mixture_vars i (n n' x : network A) : mixture i n n' x -> vars x = firstn i (vars n') ++ skipn i (vars n).
Proof. intros [_ E]. rewrite !vars_parameters, E, map_app, firstn_map, skipn_map. reflexivity. Qed.
Lemma parameters_length (n n' : network A) : other_values n n' -> length (all_parameters n) = length (all_parameters n').
Proof.
  intros O. pose proof (vars_place _ _ O) as H. rewrite !vars_parameters in H.
  rewrite <- (map_length (fun v => (fst v, array_of (snd v))) (all_parameters n)), <- (map_length (fun v => (fst v, array_of (snd v))) (all_parameters n')).
  clear - H. induction H; cbn; auto.
Qed.

(** Networks of the same values *)
Lemma write_new (n : network A) : NoDup (parameter_paths n) -> network_get_state (layer_parameters n) [] = Ok (vars n).
Proof.
  intros D. rewrite network_get_state_concat. fold (vars n). pose proof (store_new (vars n) [] (length (vars n))) as H. rewrite firstn_all in H.
  apply H. unfold is_dict. cbn [app]. now rewrite vars_paths.
Qed.
Lemma write_over (n n' : network A) : NoDup (parameter_paths n) -> other_values n n' -> network_get_state (layer_parameters n') (vars n) = Ok (vars n').
Proof.
  intros D O. rewrite network_get_state_concat. fold (vars n'). pose proof (vars_place _ _ O) as P.
  pose proof (store_over _ _ P [] (length (vars n'))) as H. rewrite firstn_all in H. rewrite skipn_all2 in H.
  - rewrite app_nil_r in H. apply H. unfold is_dict. cbn [app]. now rewrite vars_paths.
  - clear - P. induction P; cbn; auto with arith.
Qed.
End Mixture.

(** A network has parameters. *)
Section Nonempty.
Context {A : arith}.
Notation params := (list (pystr * param A)).
Lemma add_length path (p : param A) ps ps' : add_param path p ps = Ok ps' -> length ps' = S (length ps).
Proof. unfold add_param. destruct (dict_get path ps); [discriminate|]. intros [= <-]. rewrite app_length. cbn. lia. Qed.
Lemma init_length devices (ps : params) i ps' : init_param devices ps i = Ok ps' -> length ps < length ps'.
Proof.
  destruct i as [[[layer name] sp] p]. unfold init_param. cbv zeta. destruct (negb sp); [intros E; apply add_length in E; lia|].
  assert (G : (do ranges <- split_per_device (length devices) (last_dimension p);
    foldM (fun ps '(device, range) => match device with None => Err AssertionError | Some d => add_param (param_path layer name None ++ str "/" ++ d)%list (part range p) ps end)
      (combine devices ranges) ps) = Ok ps' -> length ps < length ps').
  { destruct (split_per_device _ _) as [ranges|] eqn:E; [|discriminate]. cbn [bind].
    assert (L : 1 <= length devices /\ length ranges = length devices).
    { revert E. unfold split_per_device. destruct (Nat.ltb_spec (length devices) 1); [discriminate|]. destruct (_ <? _); [discriminate|]. cbv zeta.
      destruct (fold_left _ _ _) as [rs e]. destruct (Nat.eqb_spec (length rs) (length devices)); [|discriminate]. cbn [negb].
      destruct (negb _); [discriminate|]. destruct (negb _); [discriminate|]. intros [= <-]. split; assumption. }
    assert (Lc : 1 <= length (combine devices ranges)) by (rewrite combine_length; lia).
    assert (H : forall l (s s' : params), foldM (fun ps '(device, range) => match device with None => Err AssertionError | Some d => add_param (param_path layer name None ++ str "/" ++ d)%list (part range p) ps end) l s = Ok s' ->
      length s' = length s + length l).
    { clear. induction l as [|[dv r] l IH]; intros s s'; cbn [foldM]; [intros [= <-]; cbn; lia|]. destruct dv as [dv|]; [|discriminate].
      destruct (add_param _ _ s) as [s1|] eqn:E; [|discriminate]. cbn [bind]. intros H. apply IH in H. apply add_length in E. cbn [length]. lia. }
    intros F. apply H in F. eapply Nat.lt_le_trans; [|apply Nat.eq_le_incl; symmetry; exact F]. apply Nat.lt_add_pos_r. exact Lc. }
  destruct devices as [|[dv|] [|e devices]]; try exact G. intros E. apply add_length in E. lia.
Qed.
Lemma init_all_length devices is : forall (ps : params) ps', foldM (init_param devices) is ps = Ok ps' -> length ps + length is <= length ps'.
Proof.
  induction is as [|i is IH]; intros ps ps'; cbn [foldM]; [intros [= <-]; cbn; lia|]. destruct (init_param _ _ i) as [s|] eqn:E; [|discriminate]. cbn [bind].
  intros H. apply IH in H. apply init_length in E. cbn [length]. lia.
Qed.
Lemma built_vars parse_int dropout_scale initial d e a v (n : network A) : build parse_int dropout_scale initial d e a v = Ok n -> vars n <> [].
Proof.
  unfold build. destruct (foldM _ (a_inputs a) []) as [ins|]; cbn [bind]; [|discriminate].
  destruct (rev (a_layers a)) as [|o r]; [discriminate|]. destruct (foldM _ (rev r) ins) as [ds|]; cbn [bind]; [|discriminate].
  destruct (text o (str "name")) as [name|]; cbn [bind]; [|discriminate]. destruct (_ || _); [discriminate|].
  destruct (output_layer _ _ _ _ _ _ _) as [out|] eqn:EO; cbn [bind]; [|discriminate]. intro C.
  assert (L : output_params (o_kind out) (o_name out) (o_values out) <> []).
  { revert EO. unfold output_layer. destruct (input_positions _ o); cbn [bind]; [|discriminate].
    destruct (device_names d o); cbn [bind]; [|discriminate]. destruct (text o (str "name")); cbn [bind]; [|discriminate].
    destruct (text o (str "type")) as [type|]; cbn [bind]; [|discriminate]. destruct (mapM _ _); cbn [bind]; [|discriminate].
    destruct (activation_of o); cbn [bind]; [|discriminate].
    destruct (pystr_eqb type (str "softmax")); [|destruct (pystr_eqb type (str "hsoftmax"))].
    - destruct (word_to_id v UNK) as [i|]; cbn [bind]; [|discriminate]. destruct (py_index (v_w2c v) i); cbn [bind]; [|discriminate]. intros [= <-]. discriminate.
    - destruct (level_sizes _) as [[l1 l2]|]; cbn [bind]; [|discriminate]. intros [= <-]. discriminate.
    - destruct (kind_of parse_int o type); discriminate. }
  unfold create_network in C. destruct (create_layers [] ds) as [ls|]; cbn [bind] in C; [|discriminate].
  match type of C with context [bind ?z _] => destruct z as [[]|]; cbn [bind] in C; [|discriminate] end.
  destruct (foldM _ (output_params _ _ _) []) as [ps|] eqn:Ep; cbn [bind] in C; [|discriminate]. injection C as <-.
  apply init_all_length in Ep. rewrite vars_parameters. unfold all_parameters. cbn [n_layers n_params]. rewrite map_app.
  destruct ps; [destruct (output_params _ _ _); [congruence|cbn in Ep; lia]|]. cbn [map]. now destruct (map _ (flat_map _ ls)).
Qed.
End Nonempty.
