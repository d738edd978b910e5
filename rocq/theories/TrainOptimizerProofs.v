(** Proofs about training with the optimizers. *)
From Coq Require Import Reals QArith Qcanon Qreals Lra.
From Verif Require Import Base ListLib BaseLib QcLib Dict Strings ParamModel ParamSpec ParamProofs NetModel NetReal SavedModel SavedSpec SavedArrays
  IterModel IterSpec BatchProofs OptimizerModel OptimizerSpec OptimizerProofs OptimizerRules OptimizerRuns OptimizerProps TrainCommandModel TrainOptimizerModel TrainOptimizerSpec.
Local Open Scope nat_scope.
Local Open Scope list_scope.

(** ** Elements of parameters *)
Lemma refill2_same (w : list (list R)) : forall t, length t = length (concat w) -> Forall2 (fun r r' => length r = length r') w (refill2 w t).
Proof.
  induction w as [|r w IH]; intros t L; cbn [refill2]; [constructor|]. cbn [concat] in L. rewrite app_length in L.
  constructor; [rewrite firstn_length; lia|]. apply IH. rewrite skipn_length. lia.
Qed.
Lemma refill2_concat (w : list (list R)) : forall t, length t = length (concat w) -> concat (refill2 w t) = t.
Proof.
  induction w as [|r w IH]; intros t L; cbn [refill2 concat] in *; [now destruct t|]. rewrite app_length in L.
  rewrite IH by (rewrite skipn_length; lia). apply firstn_skipn.
Qed.
Lemma refill3_same (w : list (list (list R))) : forall t, length t = length (concat (concat w)) ->
  Forall2 (Forall2 (fun r r' => length r = length r')) w (refill3 w t).
Proof.
  induction w as [|m w IH]; intros t L; cbn [refill3]; [constructor|]. cbn [concat] in L. rewrite concat_app, app_length in L.
  constructor; [apply refill2_same; rewrite firstn_length; lia|]. apply IH. rewrite skipn_length. lia.
Qed.
Lemma refill3_concat (w : list (list (list R))) : forall t, length t = length (concat (concat w)) -> concat (concat (refill3 w t)) = t.
Proof.
  induction w as [|m w IH]; intros t L; cbn [refill3 concat] in *; [now destruct t|]. rewrite concat_app, app_length in *.
  rewrite IH by (rewrite skipn_length; lia). rewrite refill2_concat by (rewrite firstn_length; lia). apply firstn_skipn.
Qed.
Lemma refill_dims p t : same_dimensions p (refill p t).
Proof.
  unfold refill. destruct (Nat.eqb_spec (length t) (length (values_of p))) as [E|_]; [|apply dims_refl].
  destruct p; unfold values_of in E; cbn [array_of a_data] in E; cbn [same_dimensions]; unfold same_rows;
    [now apply refill2_same|now symmetry|now apply refill3_same|now apply refill3_same|now apply refill2_same].
Qed.
Lemma refill_values p t : length t = length (values_of p) -> values_of (refill p t) = t.
Proof.
  intros E. unfold refill. rewrite (proj2 (Nat.eqb_eq _ _) E). destruct p; unfold values_of in *; cbn [array_of a_data] in *;
    [now apply refill2_concat|reflexivity|now apply refill3_concat|now apply refill3_concat|now apply refill2_concat].
Qed.

(** ** Networks *)
Lemma set_tensor_other d (ps : list (pystr * rparam)) : other_params ps (map (set_tensor d) ps).
Proof.
  induction ps as [|[q p] ps IH]; cbn [map]; constructor; [|exact IH]. unfold set_tensor. cbn [fst snd]. split; [reflexivity|].
  destruct (dict_get q d); [apply refill_dims|apply dims_refl].
Qed.
Lemma with_tensors_other d n : other_values n (with_tensors d n).
Proof.
  constructor; try reflexivity; cbn [with_tensors n_layers n_params]; [|apply set_tensor_other].
  induction (n_layers n) as [|l ls IH]; cbn [map]; constructor; [|exact IH]. constructor; try reflexivity. apply set_tensor_other.
Qed.
Lemma tensors_paths n : paths (tensors n) = parameter_paths n.
Proof.
  unfold tensors, paths, parameter_paths, all_params. rewrite map_map, concat_app, map_app. cbn [concat]. rewrite app_nil_r. f_equal.
  induction (n_layers n) as [|l ls IH]; cbn [map concat flat_map]; [reflexivity|]. now rewrite map_app, IH.
Qed.
Lemma values_length (p q : rparam) : same_dimensions p q -> length (values_of p) = length (values_of q).
Proof.
  assert (R2 : forall w w' : list (list R), Forall2 (fun r r' => length r = length r') w w' -> length (concat w) = length (concat w')).
  { induction 1 as [|r r' w w' E F IH]; cbn [concat]; [reflexivity|]. rewrite !app_length. lia. }
  assert (R3 : forall w w' : list (list (list R)), Forall2 (Forall2 (fun r r' => length r = length r')) w w' -> length (concat (concat w)) = length (concat (concat w'))).
  { induction 1 as [|r r' w w' E F IH]; cbn [concat]; [reflexivity|]. rewrite !concat_app, !app_length, IH. f_equal. now apply R2. }
  intros H. destruct p, q; try contradiction H; unfold values_of; cbn [array_of a_data same_dimensions] in *; unfold same_rows in *;
    [exact (R2 _ _ H)|exact H|exact (R3 _ _ H)|exact (R3 _ _ H)|exact (R2 _ _ H)].
Qed.
Lemma other_shape n n' : other_values n n' -> same_shape (tensors n) (tensors n').
Proof.
  intros H. apply all_params_other in H. unfold tensors, same_shape. induction H as [|p q ps qs P F IH]; cbn [concat]; [constructor|].
  rewrite !map_app. apply Forall2_app; [|exact IH]. clear - P. induction P as [|x y p q [E D] F IH]; cbn [map]; constructor; [|exact IH].
  cbn [fst snd]. split; [exact E|]. now apply values_length.
Qed.
Lemma with_tensors_concat d n : concat (all_params (with_tensors d n)) = map (set_tensor d) (concat (all_params n)).
Proof.
  unfold all_params, with_tensors. cbn [n_layers n_params]. rewrite !concat_app, map_app. cbn [concat]. rewrite !app_nil_r. f_equal.
  induction (n_layers n) as [|l ls IH]; cbn [map concat]; [reflexivity|]. now rewrite map_app, IH.
Qed.
Lemma with_tensors_tensors d n : distinct_parameters n -> same_shape (tensors n) d -> tensors (with_tensors d n) = d.
Proof.
  intros ND S. assert (D : is_dict d).
  { eapply same_shape_dict; [exact S|]. unfold is_dict. rewrite tensors_paths. exact ND. }
  unfold tensors in *. rewrite with_tensors_concat, map_map. revert S. generalize (concat (all_params n)). intros ps S.
  unfold same_shape in S.
  assert (G : forall d', Forall2 (fun x y => fst x = fst y /\ length (snd x) = length (snd y)) (map (fun v => (fst v, values_of (snd v))) ps) d' ->
    (forall x, In x d' -> In x d) -> map (fun v => (fst (set_tensor d v), values_of (snd (set_tensor d v)))) ps = d').
  { clear S. induction ps as [|[q p] ps IH]; intros d' S Hd; inversion S as [|x y l l' [E1 E2] S' E3 E4]; subst; cbn [map]; [reflexivity|].
    cbn [map fst snd] in *. destruct y as [q' t]. cbn [fst snd] in *. subst q'. rewrite (IH l'); [|exact S'|intros x Hx; apply Hd; now right].
    f_equal. unfold set_tensor. cbn [fst snd]. rewrite (dict_get_some q d t D) by (apply Hd; now left). now rewrite refill_values. }
  apply (G d S). auto.
Qed.

(** ** The state of an optimizer *)
Lemma has_kind_iff m k : has_kind m k = true <-> uses m k.
Proof.
  unfold has_kind, uses. rewrite existsb_exists. split.
  - intros ([k' x] & H & E). cbn [fst] in E. destruct (kind_eq_dec k' k) as [->|]; [eauto|discriminate].
  - intros (x & H). exists (k, x). split; [exact H|]. cbn [fst]. destruct (kind_eq_dec k k); congruence.
Qed.
Lemma has_variables_iff m x : has_variables m x = true <-> complete m x.
Proof.
  unfold has_variables, complete. rewrite andb_true_iff, forallb_forall, orb_true_iff, negb_true_iff. split; intros [H1 H2]; (split; [|]).
  - intros k (y & Hk) E. specialize (H1 _ Hk). cbn [fst] in H1. now rewrite E in H1.
  - intros ->. destruct H2 as [H2|H2]; [discriminate|]. destruct (os_timestep x); congruence.
  - intros [k y] Hk. cbn [fst]. specialize (H1 k (ex_intro _ y Hk)). destruct (os_aux x k); [reflexivity|congruence].
  - destruct (is_adam m) eqn:E; [right|now left]. destruct m; try discriminate. specialize (H2 eq_refl). destruct (os_timestep x); [reflexivity|congruence].
Qed.
Lemma created_fits m n : distinct_parameters n -> fits n (created m n).
Proof.
  intros D k d. unfold created. cbn [os_aux]. destruct (has_kind m k) eqn:H; [|discriminate]. intros [= <-]. apply has_kind_iff in H as (x & H).
  assert (Dt : is_dict (tensors n)) by (unfold is_dict; rewrite tensors_paths; exact D).
  exact (proj2 (create_store_wf m (tensors n) Dt) k x H).
Qed.
Lemma created_complete m n : complete m (created m n).
Proof.
  split.
  - intros k H. unfold created. cbn [os_aux]. rewrite (proj2 (has_kind_iff m k) H). discriminate.
  - intros ->. discriminate.
Qed.
Lemma created_kinds m n k : os_aux (created m n) k <> None -> uses m k.
Proof. unfold created. cbn [os_aux]. destruct (has_kind m k) eqn:E; [intros _; now apply has_kind_iff|congruence]. Qed.
Lemma fits_other n n' x : other_values n n' -> fits n x -> fits n' x.
Proof. intros O F k d E. eapply same_shape_trans; [apply same_shape_sym, other_shape; exact O|exact (F k d E)]. Qed.
Lemma store_wf m n x : distinct_parameters n -> fits n x -> complete m x -> well_formed m (store_of n x).
Proof.
  intros D F [C _]. split; [unfold is_dict, store_of; cbn [net]; rewrite tensors_paths; exact D|]. intros k y H. unfold store_of. cbn [net aux].
  destruct (os_aux x k) as [d|] eqn:E; [exact (F k d E)|]. exfalso. exact (C k (ex_intro _ y H) E).
Qed.

(** ** Mini-batches *)
Lemma transpose_in X rows (cols : list (list X)) z : In z (concat (transpose rows cols)) -> exists c, In c cols /\ In z c.
Proof.
  unfold transpose. rewrite in_concat. intros (row & Hr & Hz). apply in_map_iff in Hr as (t & <- & _). apply in_concat in Hz as (l & Hl & Hz).
  apply in_map_iff in Hl as (c & <- & Hc). exists c. split; [exact Hc|]. destruct (nth_error c t) eqn:E; [|contradiction]. destruct Hz as [<-|[]]. eapply nth_error_In; eauto.
Qed.
Lemma fill_in X (l : list X) x rows z : In z (fill_column l x rows) -> z = x \/ In z l.
Proof.
  unfold fill_column. rewrite in_map_iff. intros (t & <- & _). destruct (Nat.lt_ge_cases t (length l)); [right; now apply nth_In|left; now apply nth_overflow].
Qed.
Lemma index_range size f : f < size -> index_of size (int8 f) < size.
Proof.
  intros H. unfold index_of, int8. pose proof (Z.mod_pos_bound (Z.of_nat f) 256 ltac:(lia)). pose proof (Z.mod_le (Z.of_nat f) 256 ltac:(lia) ltac:(lia)).
  destruct (Z.ltb_spec (Z.of_nat f mod 256) 128).
  - destruct (Z.ltb_spec (Z.of_nat f mod 256) 0); lia.
  - destruct (Z.ltb_spec (Z.of_nat f mod 256 - 256) 0); lia.
Qed.
Lemma arrays_ok view class_of num_files b : 0 < num_files -> from_files num_files b ->
  exists mb, arrays_of view class_of num_files b = Ok mb /\ forall i, In i (concat (b_files mb)) -> i < num_files.
Proof.
  intros P [Hne Hf]. unfold arrays_of, prepare_batch. destruct b as [|s0 b0]; [congruence|]. set (b := s0 :: b0) in *. cbn [bind].
  eexists. split; [reflexivity|]. cbn [b_files]. intros i Hi. rewrite concat_map in Hi || rewrite <- concat_map in Hi.
  apply in_map_iff in Hi as (z & <- & Hz). apply transpose_in in Hz as (c & Hc & Hz). apply in_map_iff in Hc as (s & <- & Hs).
  apply fill_in in Hz as [->|Hz]; [exact P|]. apply in_map_iff in Hz as ([w f] & <- & Hw). cbn [snd]. apply index_range. eapply Hf; eauto.
Qed.

Lemma cell_map {A B} (g : A -> B) m t j : cell (map (map g) m) t j = option_map g (cell m t j).
Proof. unfold cell. rewrite nth_error_map. destruct (nth_error m t); [|reflexivity]. apply nth_error_map. Qed.
Lemma matrix_map {A B} (g : A -> B) r c m : is_matrix r c m -> is_matrix r c (map (map g) m).
Proof. intros [L F]. split; [now rewrite map_length|]. apply Forall_forall. intros row H. apply in_map_iff in H as (row' & <- & H). rewrite map_length. rewrite Forall_forall in F. auto. Qed.
Lemma arrays_spec view class_of num_files b mb : arrays_of view class_of num_files b = Ok mb -> batch_arrays view class_of num_files b mb.
Proof.
  unfold arrays_of. destruct (prepare_batch view true b) as [[[w f] m]|] eqn:E; cbn [bind]; [|discriminate]. intros [= <-].
  destruct (prepare_batch_spec _ _ _ _ _ _ E) as (rows & L & M1 & M2 & M3 & C1 & C2). exists rows. cbn [b_words b_classes b_files b_mask].
  split; [exact L|]. split; [exact M1|]. split; [now apply matrix_map|]. split; [now apply matrix_map|]. split; [now apply matrix_map|]. split.
  - intros j s t word file Hj Ht. destruct (C1 _ _ _ _ _ Hj Ht) as ((code & W1 & W2) & W3 & W4). rewrite !cell_map, W3, W4, W1. cbn [option_map].
    split; [reflexivity|]. split; [exists code; auto|]. eexists. split; [reflexivity|]. unfold index_of, int8. split.
    + intros H. rewrite Z.mod_small by lia. destruct (Z.ltb_spec (Z.of_nat file) 128); [|lia]. destruct (Z.ltb_spec (Z.of_nat file) 0); lia.
    + intros H Hf. rewrite Z.mod_small by lia. destruct (Z.ltb_spec (Z.of_nat file) 128); [lia|]. destruct (Z.ltb_spec (Z.of_nat file - 256) 0); lia.
  - intros j s t Hj Ht. destruct (C2 _ _ _ Hj Ht) as (_ & W & _). rewrite cell_map, W. reflexivity.
Qed.

(** ** Updates *)
Section Update.
Variable view : vocab_view.
Variable class_of : nat -> nat.
Variable gradients : train_args -> rnetwork -> tdict -> list (list nat) -> list (list nat) -> list (list bool) -> list tensor.
Variable method_of : train_args -> method.
Variable options_of : train_args -> options.
Notation optimize := (optimize view class_of gradients method_of options_of).
Hypothesis Hgrad : forall args n d w c k, map (@length R) (gradients args n d w c k) = map (fun x => length (snd x)) d.
Hypothesis Hmax : forall args, (0 <= max_norm (options_of args))%R.

Lemma optimize_values args ws n x lr b : other_values n (fst (optimize args ws n x lr b)).
Proof using.
  unfold TrainOptimizerModel.optimize. destruct (bind _ _); cbn [fst]; [apply with_tensors_other|].
  assert (Rf : forall ps : list (pystr * rparam), other_params ps ps).
  { induction ps; constructor; [split; [reflexivity|apply dims_refl]|assumption]. }
  constructor; try reflexivity; auto. induction (n_layers n); constructor; [constructor; auto|assumption].
Qed.
Lemma state_of_fits ip m s n x : (forall k y, In (k, y) (kinds m) -> same_shape (tensors n) (aux s k)) -> fits n x -> fits n (state_of ip m s x).
Proof using.
  intros W F k d. unfold state_of. cbn [os_aux]. destruct (has_kind m k) eqn:E; [|destruct ip; [apply F|discriminate]]. intros [= <-]. apply has_kind_iff in E as (y & E). exact (W k y E).
Qed.
Lemma state_of_complete ip m s x : complete m (state_of ip m s x).
Proof using.
  split; [|intros ->; discriminate]. intros k H. unfold state_of. cbn [os_aux]. rewrite (proj2 (has_kind_iff m k) H). discriminate.
Qed.
Lemma state_of_kinds ip m s x k : os_aux (state_of ip m s x) k <> None -> uses m k \/ os_aux x k <> None.
Proof using. unfold state_of. cbn [os_aux]. destruct (has_kind m k) eqn:E; [left; now apply has_kind_iff|destruct ip; [auto|congruence]]. Qed.

(** Whatever happens, what an update needs stays. *)
Lemma optimize_kept args ws n x lr b : distinct_parameters n -> fits n x -> complete (method_of args) x ->
  let '(n', x') := optimize args ws n x lr b in
  fits n' x' /\ complete (method_of args) x' /\ forall k, os_aux x' k <> None -> uses (method_of args) k \/ os_aux x k <> None.
Proof using Hgrad Hmax.
  intros D F C. pose proof (optimize_values args ws n x lr b) as O. unfold TrainOptimizerModel.optimize in *.
  destruct (arrays_of _ _ _ b) as [mb|]; cbn [bind fst] in *; [|auto].
  destruct (update_minibatch _ _ _ _ _ _ _) as [s|] eqn:E; cbn [fst] in *; [|auto].
  destruct (update_wf (gradients args n) (Hgrad args n) (method_of args) (options_of args) _ (Hmax args) _ _ _ _ (store_wf _ _ _ D F C) E) as [[_ W] S].
  cbn [net store_of] in S. split; [|split; [apply state_of_complete|apply state_of_kinds]]. eapply fits_other; [exact O|]. apply state_of_fits; [|exact F].
  intros k y H. eapply same_shape_trans; [exact S|exact (W k y H)].
Qed.
Lemma optimize_update args ws n x lr b : distinct_parameters n -> fits n x -> complete (method_of args) x -> from_files (length ws) b -> 0 < length ws ->
  exists mb s, arrays_of view class_of (length ws) b = Ok mb /\
    update_minibatch (gradients args n) (method_of args) (options_of args) (map (fun w => Q2R (this w)) ws) (Q2R (this lr)) mb (store_of n x) = Ok s /\
    optimize args ws n x lr b = (with_tensors (net s) n, state_of (negb (ta_validation_file args)) (method_of args) s x) /\ tensors (with_tensors (net s) n) = net s.
Proof using Hgrad Hmax.
  intros D F C B P. destruct (arrays_ok view class_of _ _ P B) as (mb & E & Hi). exists mb.
  destruct (C39_total (gradients args n) (Hgrad args n) (options_of args) (map (fun w => Q2R (this w)) ws) (Hmax args) (method_of args) (store_of n x) (Q2R (this lr)) mb
    (store_wf _ _ _ D F C)) as (s & U & W & S).
  { intros i H. rewrite map_length. apply Hi. destruct (b_files mb); [contradiction|]. cbn [tl concat] in *. apply in_app_iff. auto. }
  exists s. split; [exact E|]. split; [exact U|]. split.
  - unfold TrainOptimizerModel.optimize. rewrite E. cbn [bind]. now rewrite U.
  - apply with_tensors_tensors; [exact D|exact S].
Qed.
End Update.
