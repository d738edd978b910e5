From Coq Require Import Reals Lra.
From Verif Require Import Base ListLib BaseLib ParamModel ParamSpec ParamProofs OptimizerModel OptimizerSpec.
Open Scope R_scope.

(** ** Dictionaries of tensors *)

Definition look (d : tdict) (p : pystr) : tensor := match dict_get p d with Some t => t | None => [] end.

Lemma lookup_look d p : In p (paths d) -> lookup d p = Ok (look d p).
Proof.
  intros H. unfold lookup, look. destruct (dict_get p d) eqn:E; [reflexivity|]. apply dict_get_none in E. contradiction.
Qed.

Lemma look_in d p t : is_dict d -> In (p, t) d -> look d p = t.
Proof. intros D H. unfold look. now rewrite (dict_get_some _ _ _ D H). Qed.

Lemma in_look d p : In p (paths d) -> In (p, look d p) d.
Proof.
  intros H. unfold look. destruct (dict_get p d) eqn:E; [now apply dict_get_in|]. apply dict_get_none in E. contradiction.
Qed.

Lemma mapM_items {B} (f : pystr * tensor -> result B) (g : pystr -> B) d :
  is_dict d -> (forall p, In p (paths d) -> f (p, look d p) = Ok (g p)) -> mapM f d = Ok (map g (paths d)).
Proof.
  intros D H. unfold paths. rewrite map_map. apply mapM_ok. intros [p t] Hx. cbn [fst].
  rewrite <- (look_in d p t D Hx). apply H. eapply in_paths; exact Hx.
Qed.

Lemma map_items {B} (f : pystr -> tensor -> B) d : is_dict d -> map (fun '(p, t) => f p t) d = map (fun p => f p (look d p)) (paths d).
Proof.
  intros D. unfold paths. rewrite map_map. apply map_ext_in. intros [p t] Hx. cbn [fst]. now rewrite (look_in d p t D Hx).
Qed.

Lemma look_map (f : pystr -> tensor) ps p : In p ps -> look (map (fun p => (p, f p)) ps) p = f p.
Proof.
  intros H. unfold look. induction ps as [|q ps IH]; cbn [map dict_get]; [contradiction|].
  destruct (pystr_eqb_spec q p) as [->|N]; [reflexivity|]. destruct H as [H|H]; [congruence|auto].
Qed.

Lemma paths_map (f : pystr -> tensor) ps : paths (map (fun p => (p, f p)) ps) = ps.
Proof. unfold paths. rewrite map_map. cbn [fst]. apply map_id. Qed.

Lemma dict_items (d : tdict) : is_dict d -> d = map (fun p => (p, look d p)) (paths d).
Proof. intros D. rewrite <- (map_items (fun p t => (p, t)) d D). rewrite <- (map_id d) at 1. apply map_ext. now intros [p t]. Qed.

Lemma look_replace p t d q : look (dict_replace p t d) q = if pystr_eqb p q then (if pystr_eqb p q then match dict_get q d with Some _ => t | None => [] end else []) else look d q.
Proof.
  unfold look. induction d as [|[r x] d IH]; cbn [dict_replace dict_get]; [destruct (pystr_eqb p q); reflexivity|].
  destruct (pystr_eqb_spec r p) as [->|N]; cbn [dict_get].
  - destruct (pystr_eqb_spec p q); reflexivity.
  - destruct (pystr_eqb_spec r q) as [->|Nq].
    + destruct (pystr_eqb_spec p q) as [->|]; [contradiction|reflexivity].
    + exact IH.
Qed.

Lemma look_replace_same p t d : In p (paths d) -> look (dict_replace p t d) p = t.
Proof.
  intros H. rewrite look_replace. destruct (pystr_eqb_spec p p); [|congruence].
  destruct (dict_get p d) eqn:E; [reflexivity|]. apply dict_get_none in E. contradiction.
Qed.
Lemma look_replace_other p t d q : p <> q -> look (dict_replace p t d) q = look d q.
Proof. intros H. rewrite look_replace. destruct (pystr_eqb_spec p q); [contradiction|reflexivity]. Qed.

Lemma elem_look d p i x : is_dict d -> elem d p i x <-> In p (paths d) /\ nth_error (look d p) i = Some x.
Proof.
  intros D. split.
  - intros (t & H & E). rewrite (look_in d p t D H). split; [eapply in_paths; exact H|exact E].
  - intros [H E]. exists (look d p). split; [now apply in_look|exact E].
Qed.

Lemma same_shape_paths d d' : same_shape d d' -> paths d = paths d'.
Proof. induction 1 as [|x y ? ? [E _]]; cbn; [reflexivity|]. now f_equal. Qed.

Lemma same_shape_look d d' : is_dict d ->
  same_shape d d' <-> paths d = paths d' /\ forall p, In p (paths d) -> length (look d p) = length (look d' p).
Proof.
  intros D. split.
  - intros H. pose proof (same_shape_paths _ _ H) as Ep. split; [exact Ep|]. intros p Hp.
    assert (D' : is_dict d') by (unfold is_dict; now rewrite <- Ep).
    unfold same_shape in H. clear D D' Ep. unfold look. induction H as [|[q t] [q' t'] d d' [E1 E2] _ IH]; [contradiction|].
    cbn [fst snd] in E1, E2. subst q'. cbn [dict_get]. destruct (pystr_eqb_spec q p) as [->|N]; [exact E2|].
    apply IH. destruct Hp as [Hp|Hp]; [cbn in Hp; congruence|exact Hp].
  - intros [Ep L]. assert (D' : is_dict d') by (unfold is_dict; now rewrite <- Ep).
    unfold same_shape. rewrite (dict_items d D), (dict_items d' D'), <- Ep.
    assert (G : forall ps, (forall p, In p ps -> In p (paths d)) -> Forall2 (fun x y => fst x = fst y /\ length (snd x) = length (snd y))
      (map (fun p => (p, look d p)) ps) (map (fun p => (p, look d' p)) ps)).
    { induction ps as [|p ps IH]; intros H; cbn [map]; constructor; [cbn; split; [reflexivity|apply L, H; now left]|].
      apply IH. intros q Hq. apply H. now right. }
    apply G. auto.
Qed.

Lemma map2_length f a b : length a = length b -> length (map2 f a b) = length a.
Proof. revert b. induction a as [|x a IH]; intros [|y b] H; cbn in *; try discriminate; auto. Qed.

Lemma map2_nth f a b i : nth_error (map2 f a b) i =
  match nth_error a i, nth_error b i with Some x, Some y => Some (f x y) | _, _ => None end.
Proof.
  revert b i. induction a as [|x a IH]; intros [|y b] [|i]; cbn [map2 nth_error]; try reflexivity.
  - now destruct (nth_error a i).
  - apply IH.
Qed.

(** ** Applying updates *)

Lemma apply_paths ups : forall s, paths (net (apply_updates ups s)) = paths (net s).
Proof.
  induction ups as [|u ups IH]; intros s; [reflexivity|]. unfold apply_updates in *. cbn [fold_left]. rewrite IH.
  destruct u; cbn [apply1 net]; [apply replace_paths|reflexivity|reflexivity].
Qed.

Lemma apply_aux_paths ups k : forall s, paths (aux (apply_updates ups s) k) = paths (aux s k).
Proof.
  induction ups as [|u ups IH]; intros s; [reflexivity|]. unfold apply_updates in *. cbn [fold_left]. rewrite IH.
  destruct u; cbn [apply1 aux]; [reflexivity| |reflexivity]. destruct (kind_eq_dec k k0); [apply replace_paths|reflexivity].
Qed.

Lemma apply_net ups (T : pystr -> tensor) p : (forall t, In (SetNet p t) ups -> t = T p) -> forall s, In p (paths (net s)) ->
  look (net (apply_updates ups s)) p = T p \/ (look (net (apply_updates ups s)) p = look (net s) p /\ forall t, ~ In (SetNet p t) ups).
Proof.
  unfold apply_updates. induction ups as [|u ups IH]; intros HT s Hp; cbn [fold_left]; [right; auto|].
  assert (HT' : forall t, In (SetNet p t) ups -> t = T p) by (intros t Ht; apply HT; now right).
  assert (Hp' : In p (paths (net (apply1 s u)))) by (destruct u; cbn [apply1 net]; [rewrite replace_paths|..]; exact Hp).
  destruct (IH HT' _ Hp') as [H|[H N]]; [auto|]. rewrite H. destruct u as [q t|k q t|n]; cbn [apply1 net].
  - destruct (pystr_eqb_spec q p) as [->|Nq].
    + left. rewrite look_replace_same by exact Hp. apply HT. now left.
    + right. rewrite look_replace_other by exact Nq. split; [reflexivity|]. intros t' [E|E]; [congruence|eapply N; exact E].
  - right. split; [reflexivity|]. intros t' [E|E]; [discriminate|eapply N; exact E].
  - right. split; [reflexivity|]. intros t' [E|E]; [discriminate|eapply N; exact E].
Qed.

Lemma apply_aux ups k (T : pystr -> tensor) p : (forall t, In (SetAux k p t) ups -> t = T p) -> forall s, In p (paths (aux s k)) ->
  look (aux (apply_updates ups s) k) p = T p \/ (look (aux (apply_updates ups s) k) p = look (aux s k) p /\ forall t, ~ In (SetAux k p t) ups).
Proof.
  unfold apply_updates. induction ups as [|u ups IH]; intros HT s Hp; cbn [fold_left]; [right; auto|].
  assert (HT' : forall t, In (SetAux k p t) ups -> t = T p) by (intros t Ht; apply HT; now right).
  assert (Hp' : In p (paths (aux (apply1 s u) k))).
  { destruct u; cbn [apply1 aux]; try exact Hp. destruct (kind_eq_dec k k0); [rewrite replace_paths|]; exact Hp. }
  destruct (IH HT' _ Hp') as [H|[H N]]; [auto|]. rewrite H. destruct u as [q t|k' q t|n]; cbn [apply1 aux].
  - right. split; [reflexivity|]. intros t' [E|E]; [discriminate|eapply N; exact E].
  - destruct (kind_eq_dec k k') as [<-|Nk].
    + destruct (pystr_eqb_spec q p) as [->|Nq].
      * left. rewrite look_replace_same by exact Hp. apply HT. now left.
      * right. rewrite look_replace_other by exact Nq. split; [reflexivity|]. intros t' [E|E]; [congruence|eapply N; exact E].
    + right. split; [reflexivity|]. intros t' [E|E]; [congruence|eapply N; exact E].
  - right. split; [reflexivity|]. intros t' [E|E]; [discriminate|eapply N; exact E].
Qed.

Lemma apply_net_set ups (T : pystr -> tensor) s p : (forall t, In (SetNet p t) ups -> t = T p) -> In (SetNet p (T p)) ups ->
  In p (paths (net s)) -> look (net (apply_updates ups s)) p = T p.
Proof. intros H1 H2 H3. destruct (apply_net ups T p H1 s H3) as [H|[_ N]]; [exact H|]. destruct (N _ H2). Qed.

Lemma apply_aux_set ups k (T : pystr -> tensor) s p : (forall t, In (SetAux k p t) ups -> t = T p) -> In (SetAux k p (T p)) ups ->
  In p (paths (aux s k)) -> look (aux (apply_updates ups s) k) p = T p.
Proof. intros H1 H2 H3. destruct (apply_aux ups k T p H1 s H3) as [H|[_ N]]; [exact H|]. destruct (N _ H2). Qed.

Lemma apply_aux_kept ups k : (forall p t, ~ In (SetAux k p t) ups) -> forall s, aux (apply_updates ups s) k = aux s k.
Proof.
  unfold apply_updates. induction ups as [|u ups IH]; intros N s; cbn [fold_left]; [reflexivity|].
  rewrite IH by (intros p t H; apply (N p t); now right). destruct u; cbn [apply1 aux]; [reflexivity| |reflexivity].
  destruct (kind_eq_dec k k0) as [<-|]; [|reflexivity]. destruct (N p t). now left.
Qed.

Lemma apply_timestep_kept ups : (forall n, ~ In (SetTimestep n) ups) -> forall s, timestep (apply_updates ups s) = timestep s.
Proof.
  unfold apply_updates. induction ups as [|u ups IH]; intros N s; cbn [fold_left]; [reflexivity|].
  rewrite IH by (intros n H; apply (N n); now right). destruct u; cbn [apply1 timestep]; [reflexivity|reflexivity|].
  destruct (N n). now left.
Qed.

Lemma apply_timestep ups n s : timestep (apply_updates (ups ++ [SetTimestep n]) s) = n.
Proof. unfold apply_updates. now rewrite fold_left_app. Qed.

(** ** Normalisation *)

Lemma sum_of_squares_eq l : sum_of_squares l = fold_right Rplus 0 (map Rsqr (concat l)).
Proof.
  unfold sum_of_squares. induction l as [|t l IH]; cbn [fold_right concat]; [reflexivity|]. rewrite IH, map_app, fold_right_app.
  unfold rsum. generalize (fold_right Rplus 0 (map Rsqr (concat l))). intros r.
  induction t as [|x t IHt]; cbn [map fold_right]; [lra|]. rewrite <- IHt. lra.
Qed.

Lemma norm_pos d : 0 <= norm d.
Proof. apply sqrt_pos. Qed.

Lemma clip_min x hi : 0 <= x -> 0 <= hi -> clip x 0 hi = Rmin x hi.
Proof.
  intros H1 H2. unfold clip. destruct (Rlt_dec x 0); [lra|]. destruct (Rlt_dec hi x); [rewrite Rmin_right; lra|rewrite Rmin_left; lra].
Qed.

Lemma normalize_eq o D : 0 <= max_norm o ->
  normalize o D = map (fun '(p, t) => (p, map (fun x => factor o (norm D) * x) t)) D.
Proof.
  intros Hm. unfold normalize. rewrite sum_of_squares_eq. fold (elements D). fold (norm D). rewrite (clip_min _ _ (norm_pos D) Hm).
  apply map_ext. intros [p t]. f_equal. apply map_ext. intros x. unfold factor, Rdiv. ring.
Qed.

Lemma look_scaled (c : R) D p : look (map (fun '(p, t) => (p, map (fun x => c * x) t)) D) p = map (fun x => c * x) (look D p).
Proof.
  unfold look. induction D as [|[q t] D IH]; cbn [map dict_get]; [reflexivity|]. now destruct (pystr_eqb q p).
Qed.

Lemma normalize_paths o D : paths (normalize o D) = paths D.
Proof. unfold normalize, paths. rewrite map_map. apply map_ext. now intros [p t]. Qed.

Lemma elements_scaled c D : elements (map (fun '(p, t) => (p, map (fun x => c * x) t)) D) = map (fun x => c * x) (elements D).
Proof. unfold elements. induction D as [|[q t] D IH]; cbn [map concat snd]; [reflexivity|]. now rewrite IH, map_app. Qed.

Lemma sumsq_pos l : 0 <= fold_right Rplus 0 (map Rsqr l).
Proof. induction l as [|x l IH]; cbn [map fold_right]; [lra|]. pose proof (Rle_0_sqr x). lra. Qed.

Lemma sumsq_scaled c l : fold_right Rplus 0 (map Rsqr (map (fun x => c * x) l)) = Rsqr c * fold_right Rplus 0 (map Rsqr l).
Proof. induction l as [|x l IH]; cbn [map fold_right]; [ring|]. rewrite IH, Rsqr_mult. ring. Qed.

Lemma norm_normalize o D : 0 <= max_norm o -> 0 <= factor o (norm D) -> norm (normalize o D) = factor o (norm D) * norm D.
Proof.
  intros Hm Hf. rewrite (normalize_eq o D Hm). unfold norm at 1. rewrite elements_scaled, sumsq_scaled.
  rewrite sqrt_mult; [|apply Rle_0_sqr|apply sumsq_pos]. now rewrite sqrt_Rsqr.
Qed.

Lemma factor_bounds o n : 0 < epsilon o -> 0 <= max_norm o -> 0 <= n -> 0 <= factor o n <= 1 /\ factor o n * n <= max_norm o.
Proof.
  intros He Hm Hn. unfold factor.
  assert (H1 : 0 <= Rmin n (max_norm o)) by (apply Rmin_glb; assumption).
  assert (H2 : Rmin n (max_norm o) <= n) by apply Rmin_l. assert (H3 : Rmin n (max_norm o) <= max_norm o) by apply Rmin_r.
  assert (Hi : 0 < / (epsilon o + n)) by (apply Rinv_0_lt_compat; lra).
  assert (Hd : (epsilon o + n) * / (epsilon o + n) = 1) by (apply Rinv_r; lra).
  unfold Rdiv. split; [split|].
  - apply Rmult_le_pos; lra.
  - rewrite <- Hd. apply Rmult_le_compat_r; lra.
  - set (r := / (epsilon o + n)) in *. set (q := Rmin n (max_norm o)) in *.
    assert (n * r <= 1). { rewrite <- Hd. apply Rmult_le_compat_r; lra. }
    assert (0 <= n * r) by (apply Rmult_le_pos; lra).
    replace (q * r * n) with (q * (n * r)) by ring. assert (q * (n * r) <= q * 1) by (apply Rmult_le_compat_l; assumption). lra.
Qed.

Lemma elem_le_norm D p i x : elem D p i x -> Rabs x <= norm D.
Proof.
  intros (t & H & E). unfold norm. assert (Hx : In x (elements D)).
  { unfold elements. apply in_concat. exists t. split; [apply in_map_iff; exists (p, t); auto|eapply nth_error_In; exact E]. }
  rewrite <- sqrt_Rsqr_abs. apply sqrt_le_1_alt. clear E H. induction (elements D) as [|y l IH]; [contradiction|]. cbn [map fold_right].
  pose proof (sumsq_pos l). pose proof (Rle_0_sqr y). destruct Hx as [->|Hx]; [lra|]. specialize (IH Hx). lra.
Qed.
