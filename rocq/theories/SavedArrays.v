(** Parameters and the arrays that hold them; networks that differ only in the values of
    their parameters. *)
From Verif Require Import Base BaseLib ListLib Strings VocabModel ArchModel ArchSpec ParamModel ParamSpec ParamProofs NetModel SavedModel SavedSpec.
Local Open Scope nat_scope.
Local Open Scope list_scope.

Lemma chunks_concat X (r : nat) (l : list (list X)) : Forall (fun x => length x = r) l -> chunks (length l) r (concat l) = l.
Proof.
  induction 1 as [|x l Hx F IH]; cbn [length chunks concat]; [reflexivity|]. subst r. now rewrite firstn_app_exact, skipn_app_exact, IH.
Qed.
Lemma F2_trans X (R : X -> X -> Prop) : (forall a b c, R a b -> R b c -> R a c) -> forall l m n, Forall2 R l m -> Forall2 R m n -> Forall2 R l n.
Proof. intros T l m n H. revert n. induction H; intros n G; inversion G; subst; constructor; eauto. Qed.
Definition regular {X} (w : list (list X)) : Prop := Forall (fun r => length r = width w) w.
Definition regular3 {X} (w : list (list (list X))) : Prop := Forall (fun m => length m = width w /\ Forall (fun r => length r = depth w) m) w.

Section Arrays.
Context {A : arith}.
Notation num := (num A).
Notation params := (list (pystr * param A)).
Definition regular_param (p : param A) : Prop :=
  match p with
  | Weight w | LevelBias w => regular w
  | Bias _ => True
  | Filters w | LevelWeight w => regular3 w
  end.

Lemma chunks2 (w : list (list num)) : regular w -> chunks (length w) (width w) (concat w) = w.
Proof. apply chunks_concat. Qed.
Lemma chunks3 X (w : list (list (list X))) : regular3 w ->
  chunks (length w) (width w) (chunks (length w * width w) (depth w) (concat (concat w))) = w.
Proof.
  intro R. unfold regular3 in R. generalize dependent (width w). generalize (depth w). intros r c R.
  assert (L : length (concat w) = length w * c).
  { induction R as [|m w [Hm _] F IH]; cbn [concat length]; [reflexivity|]. rewrite app_length, IH. lia. }
  rewrite <- L, chunks_concat; [apply chunks_concat; revert R; apply Forall_impl; tauto|].
  clear L. induction R as [|m w [_ Hm] F IH]; cbn [concat]; [constructor|]. now apply Forall_app.
Qed.

(** Reading what was written *)
Lemma with_array_of old p : same_dimensions old p -> regular_param p -> with_array old (array_of p) = p.
Proof.
  intros D R. destruct old, p; try contradiction D; unfold with_array, array_of; cbn [a_shape a_data]; f_equal; auto using chunks2, chunks3.
Qed.
Lemma same_ndim (p q : param A) : same_dimensions p q -> length (a_shape (array_of p)) = length (a_shape (array_of q)).
Proof. destruct p, q; try contradiction; reflexivity. Qed.
Lemma same_width (w w' : list (list num)) : same_rows w w' -> width w = width w' /\ length w = length w'.
Proof.
  intro H. split; [destruct H; [reflexivity|assumption]|]. induction H; cbn [length]; auto.
Qed.
Lemma same_depth (w w' : list (list (list num))) : Forall2 same_rows w w' -> depth w = depth w' /\ width w = width w' /\ length w = length w'.
Proof.
  intro H. split; [|split]; [destruct H as [|m m' w w' R F]; [reflexivity|cbn [depth]; now apply same_width]|
    destruct H as [|m m' w w' R F]; [reflexivity|cbn [width]; now apply same_width]|].
  induction H; cbn [length]; auto.
Qed.
Lemma same_shape_of (p q : param A) : same_dimensions p q -> a_shape (array_of p) = a_shape (array_of q).
Proof.
  intro H. destruct p, q; try contradiction H; cbn [array_of a_shape] in *.
  - apply same_width in H as [-> ->]. reflexivity.
  - now f_equal.
  - apply same_depth in H as (-> & -> & ->). reflexivity.
  - apply same_depth in H as (-> & -> & ->). reflexivity.
  - apply same_width in H as [-> ->]. reflexivity.
Qed.
Lemma same_regular2 (w w' : list (list num)) n : same_rows w w' -> Forall (fun r => length r = n) w -> Forall (fun r => length r = n) w'.
Proof. induction 1 as [|r r' w w' E F IH]; intro H; [constructor|]. inversion H; subst. constructor; [congruence|auto]. Qed.
Lemma same_regular (p q : param A) : same_dimensions p q -> regular_param p -> regular_param q.
Proof.
  assert (R2 : forall w w' : list (list num), same_rows w w' -> regular w -> regular w').
  { intros w w' H. unfold regular. destruct (same_width _ _ H) as [-> _]. now apply same_regular2. }
  assert (R3 : forall w w' : list (list (list num)), Forall2 same_rows w w' -> regular3 w -> regular3 w').
  { intros w w' H. unfold regular3. destruct (same_depth _ _ H) as (-> & -> & _). generalize (width w') (depth w'). intros c r.
    induction H as [|m m' w w' E F IH]; intro R; [constructor|]. inversion R as [|? ? [R1 R1'] R']; subst. constructor; [|auto].
    split; [destruct (same_width _ _ E); congruence|]. eapply same_regular2; eauto. }
  intros H. destruct p, q; try contradiction H; cbn [regular_param same_dimensions] in *; eauto.
Qed.
Lemma shape_nonempty (p : param A) : a_shape (array_of p) <> [].
Proof. destruct p; discriminate. Qed.

Lemma same_rows_refl (w : list (list num)) : same_rows w w.
Proof. induction w; constructor; auto. Qed.
Lemma same_rows_sym (w w' : list (list num)) : same_rows w w' -> same_rows w' w.
Proof. induction 1; constructor; auto. Qed.
Lemma same_rows_trans (w w' w'' : list (list num)) : same_rows w w' -> same_rows w' w'' -> same_rows w w''.
Proof. apply F2_trans. congruence. Qed.
Lemma dims_refl (p : param A) : same_dimensions p p.
Proof. destruct p; cbn; auto using same_rows_refl; induction w; constructor; auto using same_rows_refl. Qed.
Lemma dims_sym (p q : param A) : same_dimensions p q -> same_dimensions q p.
Proof.
  destruct p, q; try contradiction; cbn; auto using same_rows_sym; induction 1; constructor; auto using same_rows_sym.
Qed.
Lemma F2_sym X (R : X -> X -> Prop) : (forall a b, R a b -> R b a) -> forall l m, Forall2 R l m -> Forall2 R m l.
Proof. induction 2; constructor; auto. Qed.
Lemma dims_trans (p q r : param A) : same_dimensions p q -> same_dimensions q r -> same_dimensions p r.
Proof.
  destruct p, q; try contradiction; destruct r; try contradiction; cbn; try apply same_rows_trans; try congruence;
    apply F2_trans; apply same_rows_trans.
Qed.
Lemma params_sym (p q : params) : other_params p q -> other_params q p.
Proof. apply F2_sym. intros x y [E D]. split; [auto|now apply dims_sym]. Qed.
Lemma params_trans (p q r : params) : other_params p q -> other_params q r -> other_params p r.
Proof. apply F2_trans. intros x y z [E D] [E' D']. split; [congruence|eapply dims_trans; eauto]. Qed.
Lemma other_sym (n n' : network A) : other_values n n' -> other_values n' n.
Proof.
  intros []. constructor; auto using params_sym. revert ov_layers. apply F2_sym. intros l l' []. constructor; auto using params_sym.
Qed.
Lemma other_trans (n n' n'' : network A) : other_values n n' -> other_values n' n'' -> other_values n n''.
Proof.
  intros [] []. constructor; try congruence; [|eapply params_trans; eauto].
  eapply F2_trans; [|eassumption|eassumption]. intros l l' l'' [] []. constructor; try congruence. eapply params_trans; eauto.
Qed.

(** ** The values of a network *)
Definition all_regular (n : network A) : Prop := Forall (Forall (fun v => regular_param (snd v))) (all_params n).
Lemma params_regular (p q : params) : other_params p q -> Forall (fun v => regular_param (snd v)) p -> Forall (fun v => regular_param (snd v)) q.
Proof. induction 1 as [|x y p q [_ D] F IH]; intro R; [constructor|]. inversion R; subst. constructor; [|auto]. eapply same_regular; eauto. Qed.
Lemma all_params_other (n n' : network A) : other_values n n' -> Forall2 other_params (all_params n) (all_params n').
Proof.
  intros []. unfold all_params. apply Forall2_app; [|auto]. induction ov_layers as [|l l' ls ls' [] F IH]; cbn [map]; constructor; auto.
Qed.
Lemma regular_other (n n' : network A) : other_values n n' -> all_regular n -> all_regular n'.
Proof.
  intros H. apply all_params_other in H. unfold all_regular. induction H; intro R; [constructor|]. inversion R; subst. constructor; [eapply params_regular; eauto|auto].
Qed.

Lemma set_params_of (p q : params) : other_params p q -> Forall (fun v => regular_param (snd v)) q -> set_params p (parameters_of q) = q.
Proof.
  intro H. unfold set_params, parameters_of. cbn [p_vars]. induction H as [|x y p q [E D] F IH]; intro R; cbn [map map2]; [reflexivity|].
  inversion R; subst. rewrite IH by assumption. cbn [snd]. rewrite (with_array_of _ _ D) by assumption. destruct x, y. cbn [fst snd] in *. now subst.
Qed.
Lemma set_values_of (n n' : network A) : other_values n n' -> all_regular n' -> set_values n (layer_parameters n') = n'.
Proof.
  intros [] R. unfold set_values, layer_parameters, all_params. unfold all_regular, all_params in R. apply Forall_app in R as [R1 R2].
  inversion R2 as [|? ? R3 _]; subst.
  assert (E1 : map2 set_layer (n_layers n) (map parameters_of (map l_params (n_layers n') ++ [n_params n'])) = n_layers n').
  { clear - ov_layers R1. induction ov_layers as [|l l' ls ls' [] F IH]; cbn [map map2 app]; [reflexivity|]. inversion R1; subst. rewrite IH by assumption.
    unfold set_layer. rewrite (set_params_of _ _ ol_params) by assumption. f_equal. destruct l'. cbn in *. now subst. }
  assert (E2 : nth (length (n_layers n)) (map parameters_of (map l_params (n_layers n') ++ [n_params n'])) no_parameters = parameters_of (n_params n')).
  { clear - ov_layers. induction ov_layers; cbn [length map app nth]; auto. }
  rewrite E1, E2, set_params_of by assumption. unfold set_output. destruct n'. cbn in *. now subst.
Qed.

(** ** Writing and reading the arrays *)
Notation arrays := (list (pystr * array num)).
Definition vars (n : network A) : arrays := flat_map p_vars (layer_parameters n).
Lemma vars_paths (n : network A) : paths (vars n) = parameter_paths n.
Proof.
  unfold vars, layer_parameters, all_params, parameter_paths. rewrite map_app, flat_map_app.
  assert (E : forall ps : params, paths (p_vars (parameters_of ps)) = paths ps).
  { intro ps. unfold parameters_of, paths. cbn [p_vars]. now rewrite map_map. }
  rewrite paths_app. f_equal; [|cbn [map flat_map]; now rewrite app_nil_r, E].
  induction (n_layers n) as [|l ls IH]; cbn [map flat_map]; [reflexivity|]. now rewrite paths_app, E, IH.
Qed.
Lemma vars_shapes (n n' : network A) : other_values n n' -> Forall2 (fun x y => fst x = fst y /\ a_shape (snd x) = a_shape (snd y)) (vars n) (vars n').
Proof.
  intro H. apply all_params_other in H. unfold vars, layer_parameters. induction H as [|p q ps qs P F IH]; cbn [map flat_map]; [constructor|].
  apply Forall2_app; [|exact IH]. unfold parameters_of. cbn [p_vars]. clear - P. induction P as [|x y p q [E D] F IH]; cbn [map]; constructor; [|exact IH].
  split; [exact E|]. now apply same_shape_of.
Qed.
Lemma vars_nonempty (n : network A) path a : In (path, a) (vars n) -> a_shape a <> [].
Proof.
  unfold vars, layer_parameters. intro H. apply in_flat_map in H as (p & Hp & H). apply in_map_iff in Hp as (ps & <- & _).
  unfold parameters_of in H. cbn [p_vars] in H. apply in_map_iff in H as (x & [= <- <-] & _). apply shape_nonempty.
Qed.
Lemma other_paths (n n' : network A) : other_values n n' -> parameter_paths n' = parameter_paths n.
Proof.
  intro H. rewrite <- !vars_paths. apply vars_shapes in H. induction H as [|x y p q [E _] F IH]; [reflexivity|]. unfold paths in *. cbn [map]. now rewrite E, IH.
Qed.

(** The arrays of the state fit those of the network. *)
Definition fit (n : network A) (s : arrays) : Prop := is_dict s /\ writable (vars n) s.
Lemma shapes_in (n n' : network A) path a : other_values n n' -> In (path, a) (vars n') -> exists b, In (path, b) (vars n) /\ a_shape b = a_shape a.
Proof.
  intros H. apply vars_shapes in H. induction H as [|x y p q [E S] F IH]; intros [].
  - destruct x as [px ax]. subst y. cbn [fst snd] in *. subst px. exists ax. split; [now left|exact S].
  - destruct (IH H) as (b & Hb & Eb). exists b. split; [now right|exact Eb].
Qed.
Lemma write_arrays (n n' : network A) s : NoDup (parameter_paths n) -> other_values n n' -> fit n s ->
  exists s', network_get_state (layer_parameters n') s = Ok s' /\ fit n s' /\ overwritten (vars n') s s'.
Proof.
  intros D O [Ds W]. rewrite network_get_state_concat. fold (vars n').
  assert (D' : is_dict (vars n')) by (unfold is_dict; now rewrite vars_paths, (other_paths _ _ O)).
  assert (D0 : is_dict (vars n)) by (unfold is_dict; now rewrite vars_paths).
  destruct (get_state_spec (vars n') s D' Ds) as [G _]. destruct G as (s' & E & Ow).
  { intros path x y Hx Hy. destruct (shapes_in _ _ _ _ O Hx) as (z & Hz & Ez). rewrite <- Ez. eapply W; eauto. }
  exists s'. split; [exact E|]. split; [|exact Ow]. destruct Ow as [Ds' Ow]. split; [exact Ds'|]. intros path x y Hx Hy.
  apply Ow in Hy as [Hy|[Hy _]]; [|eapply W; eauto].
  destruct (shapes_in _ _ _ _ O Hy) as (z & Hz & Ez). rewrite (in_unique _ _ _ _ D0 Hx Hz). split; [auto|]. eapply vars_nonempty; eauto.
Qed.
Lemma read_arrays (n n' : network A) s : other_values n n' -> is_dict s -> (forall path a, In (path, a) (vars n') -> In (path, a) s) ->
  exists new, network_set_state s (layer_parameters n) = (new, Ok tt) /\ (all_regular n' -> set_values n new = n').
Proof.
  intros O D H. exists (layer_parameters n'). split; [|now apply set_values_of]. apply network_set_state_same; [exact D| |exact H].
  apply all_params_other in O. unfold layer_parameters. clear H. induction O as [|p q ps qs P F IH]; cbn [map]; constructor; [|exact IH].
  unfold parameters_of. cbn [p_vars p_total]. split.
  - clear - P. induction P as [|x y p q [E Dm] F' IH']; cbn [map]; constructor; [split; [exact E|now apply same_ndim]|exact IH'].
  - clear - P. induction P as [|x y p q [E Dm] F' IH']; [reflexivity|]. unfold list_sum in *. cbn [map fold_right]. rewrite IH'.
    unfold a_size. now rewrite (same_shape_of _ _ Dm).
Qed.
End Arrays.
