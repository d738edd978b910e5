From Coq Require Import Reals Lra.
From Verif Require Import Base ListLib BaseLib ParamModel ParamSpec ParamProofs OptimizerModel OptimizerSpec OptimizerProofs.
Open Scope R_scope.

Section Rules.
Variables (m : method) (o : options) (s : store) (alpha : R) (g : list tensor).
Hypothesis Hwf : well_formed m s.
Hypothesis Hg : gradient_of s g.
Hypothesis Hmax : 0 <= max_norm o.
Notation ps := (paths (net s)).
Notation G := (path_gradients s g).

Lemma net_dict : is_dict (net s).
Proof. exact (proj1 Hwf). Qed.

Lemma gradient_shape : same_shape (net s) G.
Proof.
  unfold path_gradients, same_shape. unfold gradient_of in Hg. clear Hwf. revert g Hg. clear.
  induction (net s) as [|[p t] d IH]; intros [|x l] H; cbn [map combine] in *; try discriminate; constructor.
  - cbn. injection H as H _. auto.
  - apply IH. now injection H.
Qed.

Lemma paths_G : paths G = ps.
Proof. symmetry. apply same_shape_paths, gradient_shape. Qed.
Lemma dict_G : is_dict G.
Proof. unfold is_dict. rewrite paths_G. apply net_dict. Qed.
Lemma G_length p : In p ps -> length (look G p) = length (look (net s) p).
Proof. intros H. symmetry. apply (proj1 (same_shape_look _ _ net_dict) gradient_shape), H. Qed.

Lemma aux_paths k x : In (k, x) (kinds m) -> paths (aux s k) = ps.
Proof. intros H. symmetry. apply same_shape_paths. exact (proj2 Hwf k x H). Qed.
Lemma aux_length k x p : In (k, x) (kinds m) -> In p ps -> length (look (aux s k) p) = length (look (net s) p).
Proof. intros H Hp. symmetry. apply (proj1 (same_shape_look _ _ net_dict) (proj2 Hwf k x H)), Hp. Qed.
Lemma aux_lookup k x p : In (k, x) (kinds m) -> In p ps -> lookup (aux s k) p = Ok (look (aux s k) p).
Proof. intros H Hp. apply lookup_look. now rewrite (aux_paths k x H). Qed.

(** A direction for each parameter *)
Section Direction.
Variable delta : pystr -> tensor.
Notation D := (map (fun p => (p, delta p)) ps).
Notation scaled p := (map (fun x => factor o (norm D) * x) (delta p)).

Lemma look_normalize p : In p ps -> look (normalize o D) p = scaled p.
Proof. intros H. rewrite (normalize_eq o D Hmax), look_scaled. now rewrite (look_map delta ps p H). Qed.

Lemma lookup_normalize p : In p ps -> lookup (normalize o D) p = Ok (scaled p).
Proof. intros H. rewrite lookup_look, look_normalize; [reflexivity|exact H|]. rewrite normalize_paths, paths_map. exact H. Qed.

Lemma step_params_ok a : step_params s a (normalize o D) =
  Ok (map (fun p => SetNet p (map2 (fun x d => x + a * d) (look (net s) p) (scaled p))) ps).
Proof.
  unfold step_params. apply (mapM_items _ _ _ net_dict). intros p Hp. rewrite (lookup_normalize p Hp). reflexivity.
Qed.

Lemma moved_intro a s' : (forall p, In p ps -> length (delta p) = length (look (net s) p)) -> paths (net s') = ps ->
  (forall p, In p ps -> look (net s') p = map2 (fun x d => x + a * d) (look (net s) p) (scaled p)) ->
  moved o a D s s'.
Proof.
  intros L Hp Hn. pose proof net_dict as Dn. assert (D' : is_dict (net s')) by (unfold is_dict; now rewrite Hp).
  assert (DD : is_dict D) by (unfold is_dict; rewrite paths_map; exact Dn). split; [|split].
  - apply (same_shape_look _ _ Dn). rewrite paths_map. split; [reflexivity|]. intros p H. rewrite (look_map delta ps p H). symmetry. auto.
  - apply (same_shape_look _ _ Dn). split; [now symmetry|]. intros p H. rewrite (Hn p H). symmetry. apply map2_length. rewrite map_length. symmetry. auto.
  - intros p i x d E1 E2. apply (elem_look _ _ _ _ Dn) in E1 as [P1 E1]. apply (elem_look _ _ _ _ DD) in E2 as [_ E2].
    rewrite (look_map delta ps p P1) in E2. apply (elem_look _ _ _ _ D'). rewrite Hp. split; [exact P1|].
    rewrite (Hn p P1), map2_nth, E1, (map_nth_error _ _ _ E2). reflexivity.
Qed.
End Direction.

Lemma updated_intro k x f s' : In (k, x) (kinds m) -> paths (aux s' k) = ps ->
  (forall p, In p ps -> look (aux s' k) p = map2 f (look (aux s k) p) (look G p)) -> updated k f G s s'.
Proof.
  intros Hk Hp Hn. pose proof net_dict as Dn. assert (D' : is_dict (aux s' k)) by (unfold is_dict; now rewrite Hp).
  assert (Dk : is_dict (aux s k)) by (unfold is_dict; rewrite (aux_paths k x Hk); exact Dn). split.
  - apply (same_shape_look _ _ Dn). split; [now symmetry|]. intros p H. rewrite (Hn p H), map2_length; [now rewrite (aux_length k x p Hk H)|].
    rewrite (aux_length k x p Hk H). symmetry. now apply G_length.
  - intros p i a y E1 E2. apply (elem_look _ _ _ _ Dk) in E1 as [P1 E1]. apply (elem_look _ _ _ _ dict_G) in E2 as [_ E2].
    rewrite (aux_paths k x Hk) in P1. apply (elem_look _ _ _ _ D'). rewrite Hp. split; [exact P1|]. rewrite (Hn p P1), map2_nth, E1, E2. reflexivity.
Qed.

(** Elements of the direction *)
Lemma direction_elem delta p i x : In p ps -> nth_error (delta p) i = Some x -> elem (map (fun p => (p, delta p)) ps) p i x.
Proof. intros H E. exists (delta p). split; [apply in_map_iff; exists p; auto|exact E]. Qed.

Lemma G_elem p i x : elem G p i x -> In p ps /\ nth_error (look G p) i = Some x.
Proof. intros H. apply (elem_look _ _ _ _ dict_G) in H as [H1 H2]. rewrite paths_G in H1. auto. Qed.

Lemma aux_elem k y p i x : In (k, y) (kinds m) -> elem (aux s k) p i x -> nth_error (look (aux s k) p) i = Some x.
Proof.
  intros Hk H. apply elem_look in H as [_ H]; [exact H|]. unfold is_dict. rewrite (aux_paths k y Hk). apply net_dict.
Qed.

End Rules.

Ltac in_updates H :=
  repeat (rewrite in_app_iff in H || rewrite in_map_iff in H || rewrite in_concat in H || rewrite in_flat_map in H).

Section Methods.
Variables (o : options) (s : store) (alpha : R) (g : list tensor).
Hypothesis Hg : gradient_of s g.
Hypothesis Hmax : 0 <= max_norm o.
Notation ps := (paths (net s)).
Notation G := (path_gradients s g).

Lemma gradient_items (f : pystr -> tensor -> tensor) m : well_formed m s ->
  map (fun '(p, t) => (p, f p t)) G = map (fun p => (p, f p (look G p))) ps.
Proof. intros Hwf. rewrite <- (paths_G s g Hg). apply (map_items (fun p t => (p, f p t)) G). eapply dict_G; eassumption. Qed.

Lemma gradient_mapM {B} (f : pystr * tensor -> result B) (h : pystr -> B) m : well_formed m s ->
  (forall p, In p ps -> f (p, look G p) = Ok (h p)) -> mapM f G = Ok (map h ps).
Proof.
  intros Hwf H. rewrite <- (paths_G s g Hg). apply mapM_items; [eapply dict_G; eassumption|]. rewrite (paths_G s g Hg). exact H.
Qed.

(** *** Stochastic gradient descent *)
Lemma sgd_rule : well_formed SGD s -> exists ups D, sgd_updates o s alpha g = Ok ups /\
  (forall p i x, elem G p i x -> elem D p i (- x)) /\
  moved o alpha D s (apply_updates ups s) /\ aux (apply_updates ups s) = aux s /\ timestep (apply_updates ups s) = timestep s.
Proof.
  intros Hwf. unfold sgd_updates. rewrite (gradient_items (fun _ t => map Ropp t) SGD Hwf).
  set (delta := fun p => map Ropp (look G p)). change (map (fun p => (p, map Ropp (look G p))) ps) with (map (fun p => (p, delta p)) ps).
  rewrite (step_params_ok SGD o s Hwf Hmax delta alpha). eexists _, (map (fun p => (p, delta p)) ps). split; [reflexivity|].
  set (ups := map (fun p => SetNet p _) ps). split; [|split; [|split]].
  - intros p i x H. destruct (G_elem _ s g Hwf Hg _ _ _ H) as [H1 H2]. apply direction_elem; [exact H1|]. unfold delta. now apply map_nth_error.
  - apply (moved_intro SGD o s Hwf); [|apply apply_paths|].
    + intros p Hp. unfold delta. rewrite map_length. eapply G_length; eassumption.
    + intros p Hp. apply (apply_net_set ups (fun p => map2 _ (look (net s) p) _)); [| |exact Hp].
      * intros t H. unfold ups in H. apply in_map_iff in H as (q & [= -> <-] & _). reflexivity.
      * unfold ups. apply in_map_iff. eauto.
  - assert (N : forall k p t, ~ In (SetAux k p t) ups) by (intros k p t H; unfold ups in H; apply in_map_iff in H as (q & [=] & _)).
    clearbody ups. clear - N. revert s. unfold apply_updates. induction ups as [|u ups IH]; intros s; cbn [fold_left]; [reflexivity|].
    rewrite IH by (intros k p t H; apply (N k p t); now right). destruct u as [q t|k q t|n]; [reflexivity|destruct (N k q t); now left|reflexivity].
  - apply apply_timestep_kept. intros n H. unfold ups in H. apply in_map_iff in H as (q & [=] & _).
Qed.

(** *** Nesterov momentum, given the direction of the step *)
Lemma velocities_rule m delta y : well_formed m s -> In (Velocity, y) (kinds m) -> (forall p, In p ps -> length (delta p) = length (look (net s) p)) ->
  let D := map (fun p => (p, delta p)) ps in
  exists ups, step_velocities o s alpha (normalize o D) = Ok ups /\
  let s' := apply_updates ups s in
  same_shape (net s) D /\ same_shape (net s) (net s') /\ same_shape (net s) (aux s' Velocity) /\
  (forall p i x v d, elem (net s) p i x -> elem (aux s Velocity) p i v -> elem D p i d ->
     let v' := momentum o * v + alpha * (factor o (norm D) * d) in
     elem (aux s' Velocity) p i v' /\ elem (net s') p i (x + momentum o * v' + alpha * (factor o (norm D) * d))) /\
  (forall k, k <> Velocity -> aux s' k = aux s k) /\ timestep s' = timestep s.
Proof.
  intros Hwf Hk L D. pose proof (net_dict m s Hwf) as Dn.
  set (V := fun p => map2 (fun v d => momentum o * v + alpha * d) (look (aux s Velocity) p) (map (fun x => factor o (norm D) * x) (delta p))).
  set (P := fun p => map2 (fun x d => x + alpha * d) (map2 (fun x v => x + momentum o * v) (look (net s) p) (V p)) (map (fun x => factor o (norm D) * x) (delta p))).
  set (ups := concat (map (fun p => [SetAux Velocity p (V p); SetNet p (P p)]) ps)).
  exists ups. assert (E : step_velocities o s alpha (normalize o D) = Ok ups).
  { unfold step_velocities. rewrite (mapM_items _ (fun p => [SetAux Velocity p (V p); SetNet p (P p)]) _ Dn); [reflexivity|].
    intros p Hp. unfold D. rewrite (lookup_normalize o s Hmax delta p Hp). cbn [bind].
    rewrite (aux_lookup m s Hwf Velocity y p Hk Hp). reflexivity. }
  split; [exact E|]. cbn zeta. set (s' := apply_updates ups s).
  assert (LV : forall p, In p ps -> length (V p) = length (look (net s) p)).
  { intros p Hp. unfold V. rewrite map2_length; [eapply aux_length; eassumption|]. rewrite map_length, (L p Hp). eapply aux_length; eassumption. }
  assert (EV : forall p, In p ps -> look (aux s' Velocity) p = V p).
  { intros p Hp. unfold s'. apply (apply_aux_set ups Velocity V); [| |rewrite (aux_paths m s Hwf Velocity y Hk); exact Hp].
    - intros t H. unfold ups in H. apply in_concat in H as (l & H1 & H2). apply in_map_iff in H1 as (q & <- & _).
      destruct H2 as [H2|[H2|[]]]; [injection H2 as -> <-; reflexivity|discriminate].
    - unfold ups. apply in_concat. eexists. split; [apply in_map_iff; exists p; split; [reflexivity|exact Hp]|now left]. }
  assert (EP : forall p, In p ps -> look (net s') p = P p).
  { intros p Hp. unfold s'. apply (apply_net_set ups P); [| |exact Hp].
    - intros t H. unfold ups in H. apply in_concat in H as (l & H1 & H2). apply in_map_iff in H1 as (q & <- & _).
      destruct H2 as [H2|[H2|[]]]; [discriminate|injection H2 as -> <-; reflexivity].
    - unfold ups. apply in_concat. eexists. split; [apply in_map_iff; exists p; split; [reflexivity|exact Hp]|right; now left]. }
  assert (Hps : paths (net s') = ps) by apply apply_paths.
  assert (Hpv : paths (aux s' Velocity) = ps) by (unfold s'; rewrite apply_aux_paths; eapply aux_paths; eassumption).
  assert (D' : is_dict (net s')) by (unfold is_dict; now rewrite Hps).
  assert (Dv : is_dict (aux s Velocity)) by (unfold is_dict; rewrite (aux_paths m s Hwf Velocity y Hk); exact Dn).
  assert (Dv' : is_dict (aux s' Velocity)) by (unfold is_dict; now rewrite Hpv).
  assert (DD : is_dict D) by (unfold is_dict, D; rewrite paths_map; exact Dn).
  split; [|split; [|split; [|split; [|split]]]].
  - apply (same_shape_look _ _ Dn). unfold D. rewrite paths_map. split; [reflexivity|]. intros p H. rewrite (look_map delta ps p H). symmetry. auto.
  - apply (same_shape_look _ _ Dn). split; [now symmetry|]. intros p H. rewrite (EP p H). symmetry. unfold P.
    rewrite map2_length; [apply map2_length; symmetry; auto|]. rewrite map2_length by (symmetry; auto). rewrite map_length. symmetry. auto.
  - apply (same_shape_look _ _ Dn). split; [now symmetry|]. intros p H. rewrite (EV p H). symmetry. auto.
  - intros p i x v d E1 E2 E3. apply (elem_look _ _ _ _ Dn) in E1 as [P1 E1]. apply (elem_look _ _ _ _ Dv) in E2 as [_ E2].
    apply (elem_look _ _ _ _ DD) in E3 as [_ E3]. unfold D in E3. rewrite (look_map delta ps p P1) in E3.
    assert (Ev : nth_error (V p) i = Some (momentum o * v + alpha * (factor o (norm D) * d))).
    { unfold V. rewrite map2_nth, E2, (map_nth_error _ _ _ E3). reflexivity. }
    split.
    + apply (elem_look _ _ _ _ Dv'). rewrite Hpv. split; [exact P1|]. now rewrite (EV p P1).
    + apply (elem_look _ _ _ _ D'). rewrite Hps. split; [exact P1|]. rewrite (EP p P1). unfold P.
      rewrite !map2_nth, E1, Ev, (map_nth_error _ _ _ E3). reflexivity.
  - intros k N. unfold s'. apply apply_aux_kept. intros p t H. unfold ups in H. apply in_concat in H as (l & H1 & H2).
    apply in_map_iff in H1 as (q & <- & _). destruct H2 as [H2|[H2|[]]]; congruence.
  - apply apply_timestep_kept. intros n H. unfold ups in H. apply in_concat in H as (l & H1 & H2).
    apply in_map_iff in H1 as (q & <- & _). destruct H2 as [H2|[H2|[]]]; congruence.
Qed.

Lemma nesterov_rule : well_formed Nesterov s -> exists ups D, nesterov_updates o s alpha g = Ok ups /\
  let s' := apply_updates ups s in
  (forall p i x, elem G p i x -> elem D p i (- x)) /\
  same_shape (net s) D /\ same_shape (net s) (net s') /\ same_shape (net s) (aux s' Velocity) /\
  (forall p i x v d, elem (net s) p i x -> elem (aux s Velocity) p i v -> elem D p i d ->
     let v' := momentum o * v + alpha * (factor o (norm D) * d) in
     elem (aux s' Velocity) p i v' /\ elem (net s') p i (x + momentum o * v' + alpha * (factor o (norm D) * d))) /\
  (forall k, k <> Velocity -> aux s' k = aux s k) /\ timestep s' = timestep s.
Proof.
  intros Hwf. unfold nesterov_updates. rewrite (gradient_items (fun _ t => map Ropp t) Nesterov Hwf).
  set (delta := fun p => map Ropp (look G p)). change (map (fun p => (p, map Ropp (look G p))) ps) with (map (fun p => (p, delta p)) ps).
  destruct (velocities_rule Nesterov delta 0 Hwf) as (ups & E & H); [now left| |].
  - intros p Hp. unfold delta. rewrite map_length. eapply G_length; eassumption.
  - exists ups, (map (fun p => (p, delta p)) ps). split; [exact E|]. split; [|exact H].
    intros p i x Hx. destruct (G_elem _ s g Hwf Hg _ _ _ Hx) as [H1 H2]. apply direction_elem; [exact H1|]. unfold delta. now apply map_nth_error.
Qed.

(** *** Methods with one accumulator that is updated before the step *)
Lemma accumulator_rule m k y (f : R -> R -> R) (a : R) delta rest :
  well_formed m s -> In (k, y) (kinds m) -> (forall p, In p ps -> length (delta p) = length (look (net s) p)) ->
  let D := map (fun p => (p, delta p)) ps in
  let A := fun p => map2 f (look (aux s k) p) (look G p) in
  let ups := map (fun p => SetAux k p (A p)) ps ++
             map (fun p => SetNet p (map2 (fun x d => x + a * d) (look (net s) p) (map (fun x => factor o (norm D) * x) (delta p)))) ps in
  (forall u, In u rest -> match u with SetTimestep _ => True | SetAux k' _ _ => k' <> k | SetNet _ _ => False end) ->
  let s' := apply_updates (rest ++ ups) s in
  moved o a D s s' /\ updated k f G s s' /\
  ((forall u, In u rest -> False) -> timestep s' = timestep s) /\
  forall k', k' <> k -> (forall p t, ~ In (SetAux k' p t) rest) -> aux s' k' = aux s k'.
Proof.
  intros Hwf Hk L D A ups Hr s'. split; [|split; [|split]].
  - apply (moved_intro m o s Hwf); [exact L|apply apply_paths|]. intros p Hp.
    apply (apply_net_set _ (fun p => map2 _ (look (net s) p) (map (fun x => factor o (norm D) * x) (delta p)))); [| |exact Hp].
    + intros t H. apply in_app_iff in H as [H|H]; [destruct (Hr _ H)|]. unfold ups in H. apply in_app_iff in H as [H|H]; apply in_map_iff in H as (q & H & _); [discriminate|].
      injection H as -> <-. reflexivity.
    + apply in_app_iff. right. unfold ups. apply in_app_iff. right. apply in_map_iff. eauto.
  - apply (updated_intro m s g Hwf Hg k y); [exact Hk|unfold s'; rewrite apply_aux_paths; eapply aux_paths; eassumption|].
    intros p Hp. apply (apply_aux_set _ k A); [| |rewrite (aux_paths m s Hwf k y Hk); exact Hp].
    + intros t H. apply in_app_iff in H as [H|H]; [destruct (Hr _ H); reflexivity|]. unfold ups in H. apply in_app_iff in H as [H|H]; apply in_map_iff in H as (q & H & _); [|discriminate].
      injection H as -> <-. reflexivity.
    + apply in_app_iff. right. unfold ups. apply in_app_iff. left. apply in_map_iff. eauto.
  - intros N. apply apply_timestep_kept. intros n H. apply in_app_iff in H as [H|H]; [destruct (N _ H)|].
    unfold ups in H. apply in_app_iff in H as [H|H]; apply in_map_iff in H as (q & H & _); discriminate.
  - intros k' N1 N2. apply apply_aux_kept. intros p t H. apply in_app_iff in H as [H|H]; [destruct (N2 _ _ H)|].
    unfold ups in H. apply in_app_iff in H as [H|H]; apply in_map_iff in H as (q & H & _); congruence.
Qed.

Lemma adagrad_rule : well_formed AdaGrad s -> exists ups D, adagrad_updates o s alpha g = Ok ups /\
  let s' := apply_updates ups s in
  (forall p i a x, elem (aux s SumSqrGradient) p i a -> elem G p i x -> elem D p i (- x / sqrt (a + x² + epsilon o))) /\
  moved o alpha D s s' /\ updated SumSqrGradient (fun a x => a + x²) G s s' /\ timestep s' = timestep s /\
  forall k, k <> SumSqrGradient -> aux s' k = aux s k.
Proof.
  intros Hwf. assert (Hk : In (SumSqrGradient, 0) (kinds AdaGrad)) by now left.
  set (A := fun p => map2 (fun a x => a + x²) (look (aux s SumSqrGradient) p) (look G p)).
  set (delta := fun p => map2 (fun x a => - x / sqrt (a + epsilon o)) (look G p) (A p)).
  assert (LA : forall p, In p ps -> length (A p) = length (look (net s) p)).
  { intros p Hp. unfold A. rewrite map2_length; rewrite (aux_length _ s Hwf _ _ p Hk Hp); [reflexivity|]. symmetry. eapply G_length; eassumption. }
  assert (L : forall p, In p ps -> length (delta p) = length (look (net s) p)).
  { intros p Hp. unfold delta. rewrite map2_length; rewrite (G_length _ s g Hwf Hg p Hp); [reflexivity|]. symmetry. auto. }
  unfold adagrad_updates.
  rewrite (gradient_mapM _ (fun p => (SetAux SumSqrGradient p (A p), (p, delta p))) AdaGrad Hwf)
    by (intros p Hp; rewrite (aux_lookup _ s Hwf _ _ p Hk Hp); reflexivity).
  cbn [bind]. rewrite !map_map. cbn [fst snd]. rewrite (step_params_ok AdaGrad o s Hwf Hmax delta alpha). cbn [bind].
  eexists _, (map (fun p => (p, delta p)) ps). split; [reflexivity|]. cbn zeta.
  destruct (accumulator_rule AdaGrad SumSqrGradient 0 (fun a x => a + x²) alpha delta [] Hwf Hk L) as (H1 & H2 & H3 & H4); [contradiction|].
  cbn [app] in *. split; [|split; [exact H1|split; [exact H2|split; [apply H3; auto|intros k N; apply H4; auto]]]].
  intros p i a x E1 E2. apply (aux_elem _ s Hwf _ _ _ _ _ Hk) in E1. destruct (G_elem _ s g Hwf Hg _ _ _ E2) as [P1 E3].
  apply direction_elem; [exact P1|]. unfold delta, A. rewrite !map2_nth, E1, E3. reflexivity.
Qed.

Lemma rmsprop_deltas_ok m y : well_formed m s -> In (MeanSqrGradient, y) (kinds m) ->
  exists A delta, rmsprop_deltas o s g = Ok (map (fun p => (SetAux MeanSqrGradient p (A p), (p, delta p))) ps) /\
  (A = fun p => map2 (fun a x => gamma o * a + (1 - gamma o) * x²) (look (aux s MeanSqrGradient) p) (look G p)) /\
  (forall p, In p ps -> length (delta p) = length (look (net s) p)) /\
  (forall p i a x, elem (aux s MeanSqrGradient) p i a -> elem G p i x ->
     elem (map (fun p => (p, delta p)) ps) p i (- x / sqrt (gamma o * a + (1 - gamma o) * x² + epsilon o))).
Proof.
  intros Hwf Hk.
  set (A := fun p => map2 (fun a x => gamma o * a + (1 - gamma o) * x²) (look (aux s MeanSqrGradient) p) (look G p)).
  set (delta := fun p => map2 (fun x r => - x / r) (look G p) (map (fun a => sqrt (a + epsilon o)) (A p))).
  assert (LA : forall p, In p ps -> length (A p) = length (look (net s) p)).
  { intros p Hp. unfold A. rewrite map2_length; rewrite (aux_length _ s Hwf _ _ p Hk Hp); [reflexivity|]. symmetry. eapply G_length; eassumption. }
  exists A, delta. split; [|split; [reflexivity|split]].
  - unfold rmsprop_deltas. apply (gradient_mapM _ _ m Hwf). intros p Hp. rewrite (aux_lookup _ s Hwf _ _ p Hk Hp). reflexivity.
  - intros p Hp. unfold delta. rewrite map2_length; rewrite (G_length _ s g Hwf Hg p Hp); [reflexivity|]. rewrite map_length. symmetry. auto.
  - intros p i a x E1 E2. apply (aux_elem _ s Hwf _ _ _ _ _ Hk) in E1. destruct (G_elem _ s g Hwf Hg _ _ _ E2) as [P1 E3].
    apply direction_elem; [exact P1|]. unfold delta. rewrite map2_nth, E3.
    assert (EA : nth_error (A p) i = Some (gamma o * a + (1 - gamma o) * x²)) by (unfold A; now rewrite map2_nth, E1, E3).
    rewrite (map_nth_error _ _ _ EA). reflexivity.
Qed.

Lemma rmsprop_sgd_rule : well_formed RMSPropSGD s -> exists ups D, rmsprop_sgd_updates o s alpha g = Ok ups /\
  let s' := apply_updates ups s in
  (forall p i a x, elem (aux s MeanSqrGradient) p i a -> elem G p i x -> elem D p i (- x / sqrt (gamma o * a + (1 - gamma o) * x² + epsilon o))) /\
  moved o alpha D s s' /\ updated MeanSqrGradient (fun a x => gamma o * a + (1 - gamma o) * x²) G s s' /\ timestep s' = timestep s /\
  forall k, k <> MeanSqrGradient -> aux s' k = aux s k.
Proof.
  intros Hwf. assert (Hk : In (MeanSqrGradient, 1) (kinds RMSPropSGD)) by now left.
  destruct (rmsprop_deltas_ok _ _ Hwf Hk) as (A & delta & E & EA & L & Hd). unfold rmsprop_sgd_updates. rewrite E. cbn [bind].
  rewrite !map_map. cbn [fst snd]. rewrite (step_params_ok RMSPropSGD o s Hwf Hmax delta alpha). cbn [bind].
  eexists _, (map (fun p => (p, delta p)) ps). split; [reflexivity|]. cbn zeta.
  destruct (accumulator_rule RMSPropSGD MeanSqrGradient 1 (fun a x => gamma o * a + (1 - gamma o) * x²) alpha delta [] Hwf Hk L) as (H1 & H2 & H3 & H4); [contradiction|].
  cbn [app] in *. rewrite EA. split; [exact Hd|split; [exact H1|split; [exact H2|split; [apply H3; auto|intros k N; apply H4; auto]]]].
Qed.

Lemma rmsprop_nesterov_rule : well_formed RMSPropNesterov s -> exists ups D, rmsprop_nesterov_updates o s alpha g = Ok ups /\
  let s' := apply_updates ups s in
  (forall p i a x, elem (aux s MeanSqrGradient) p i a -> elem G p i x -> elem D p i (- x / sqrt (gamma o * a + (1 - gamma o) * x² + epsilon o))) /\
  same_shape (net s) D /\ same_shape (net s) (net s') /\ same_shape (net s) (aux s' Velocity) /\
  (forall p i x v d, elem (net s) p i x -> elem (aux s Velocity) p i v -> elem D p i d ->
     let v' := momentum o * v + alpha * (factor o (norm D) * d) in
     elem (aux s' Velocity) p i v' /\ elem (net s') p i (x + momentum o * v' + alpha * (factor o (norm D) * d))) /\
  (forall k, k <> Velocity -> aux s' k = aux s k) /\ timestep s' = timestep s.
Proof.
  intros Hwf. assert (Hk : In (MeanSqrGradient, 1) (kinds RMSPropNesterov)) by now left.
  destruct (rmsprop_deltas_ok _ _ Hwf Hk) as (A & delta & E & EA & L & Hd). unfold rmsprop_nesterov_updates. rewrite E. cbn [bind].
  rewrite !map_map. cbn [fst snd].
  destruct (velocities_rule RMSPropNesterov delta 0 Hwf) as (ups & E' & H); [right; now left|exact L|].
  exists ups, (map (fun p => (p, delta p)) ps). split; [exact E'|]. split; [exact Hd|exact H].
Qed.

Lemma adadelta_rule : well_formed Adadelta s -> exists ups D, adadelta_updates o s alpha g = Ok ups /\
  let s' := apply_updates ups s in
  (forall p i a b x, elem (aux s MeanSqrGradient) p i a -> elem (aux s MeanSqrDelta) p i b -> elem G p i x ->
     elem D p i (- x * sqrt (b + epsilon o) / sqrt (gamma o * a + (1 - gamma o) * x² + epsilon o))) /\
  moved o alpha D s s' /\ updated MeanSqrGradient (fun a x => gamma o * a + (1 - gamma o) * x²) G s s' /\
  same_shape (net s) (aux s' MeanSqrDelta) /\
  (forall p i b d, elem (aux s MeanSqrDelta) p i b -> elem D p i d ->
     elem (aux s' MeanSqrDelta) p i (gamma o * b + (1 - gamma o) * (factor o (norm D) * d)²)) /\
  timestep s' = timestep s /\
  forall k, k <> MeanSqrGradient -> k <> MeanSqrDelta -> aux s' k = aux s k.
Proof.
  intros Hwf. pose proof (net_dict _ s Hwf) as Dn.
  assert (Hk : In (MeanSqrGradient, 0) (kinds Adadelta)) by now left.
  assert (Hk2 : In (MeanSqrDelta, 0) (kinds Adadelta)) by (right; now left).
  set (A := fun p => map2 (fun a x => gamma o * a + (1 - gamma o) * x²) (look (aux s MeanSqrGradient) p) (look G p)).
  set (delta := fun p => map2 (fun x r => x / r) (map2 (fun x r => - x * r) (look G p) (map (fun a => sqrt (a + epsilon o)) (look (aux s MeanSqrDelta) p)))
                              (map (fun a => sqrt (a + epsilon o)) (A p))).
  assert (LA : forall p, In p ps -> length (A p) = length (look (net s) p)).
  { intros p Hp. unfold A. rewrite map2_length; rewrite (aux_length _ s Hwf _ _ p Hk Hp); [reflexivity|]. symmetry. eapply G_length; eassumption. }
  assert (L : forall p, In p ps -> length (delta p) = length (look (net s) p)).
  { intros p Hp. unfold delta. assert (E : length (map2 (fun x r => - x * r) (look G p) (map (fun a => sqrt (a + epsilon o)) (look (aux s MeanSqrDelta) p))) = length (look (net s) p)).
    { rewrite map2_length; rewrite (G_length _ s g Hwf Hg p Hp); [reflexivity|]. rewrite map_length. symmetry. eapply aux_length; eassumption. }
    rewrite map2_length; rewrite E; [reflexivity|]. rewrite map_length. symmetry. auto. }
  unfold adadelta_updates.
  rewrite (gradient_mapM _ (fun p => (SetAux MeanSqrGradient p (A p), (p, delta p))) Adadelta Hwf)
    by (intros p Hp; rewrite (aux_lookup _ s Hwf _ _ p Hk Hp); cbn [bind]; rewrite (aux_lookup _ s Hwf _ _ p Hk2 Hp); reflexivity).
  cbn [bind]. rewrite !map_map. cbn [fst snd]. set (D := map (fun p => (p, delta p)) ps).
  set (B := fun p => map2 (fun a d => gamma o * a + (1 - gamma o) * d²) (look (aux s MeanSqrDelta) p) (map (fun x => factor o (norm D) * x) (delta p))).
  set (P := fun p => map2 (fun x d => x + alpha * d) (look (net s) p) (map (fun x => factor o (norm D) * x) (delta p))).
  rewrite (mapM_items _ (fun p => [SetAux MeanSqrDelta p (B p); SetNet p (P p)]) _ Dn)
    by (intros p Hp; unfold D; rewrite (lookup_normalize o s Hmax delta p Hp); cbn [bind]; rewrite (aux_lookup _ s Hwf _ _ p Hk2 Hp); reflexivity).
  cbn [bind]. set (ups := _ ++ concat _). exists ups, D. split; [reflexivity|]. cbn zeta. set (s' := apply_updates ups s).
  assert (Iu : forall u, In u ups <-> (exists p, In p ps /\ u = SetAux MeanSqrGradient p (A p)) \/
                                      (exists p, In p ps /\ (u = SetAux MeanSqrDelta p (B p) \/ u = SetNet p (P p)))).
  { intros u. unfold ups. rewrite in_app_iff, in_map_iff, in_concat. split.
    - intros [(p & <- & Hp)|(l & H1 & H2)]; [left; eauto|]. right. apply in_map_iff in H1 as (p & <- & Hp). exists p. split; [exact Hp|].
      destruct H2 as [<-|[<-|[]]]; auto.
    - intros [(p & Hp & ->)|(p & Hp & H)]; [left; eauto|]. right. eexists. split; [apply in_map_iff; eauto|]. destruct H as [->| ->]; cbn; auto. }
  clearbody ups.
  split; [|split; [|split; [|split; [|split; [|split]]]]].
  - intros p i a b x E1 E2 E3. apply (aux_elem _ s Hwf _ _ _ _ _ Hk) in E1. apply (aux_elem _ s Hwf _ _ _ _ _ Hk2) in E2.
    destruct (G_elem _ s g Hwf Hg _ _ _ E3) as [P1 E4]. apply direction_elem; [exact P1|]. unfold delta.
    assert (EA : nth_error (A p) i = Some (gamma o * a + (1 - gamma o) * x²)) by (unfold A; now rewrite map2_nth, E1, E4).
    rewrite !map2_nth, E4, (map_nth_error _ _ _ E2), (map_nth_error _ _ _ EA). reflexivity.
  - apply (moved_intro Adadelta o s Hwf); [exact L|apply apply_paths|]. intros p Hp. apply (apply_net_set _ P); [| |exact Hp].
    + intros t H. apply Iu in H as [(q & _ & H)|(q & _ & [H|H])]; [discriminate|discriminate|]. injection H as -> ->. reflexivity.
    + apply Iu. right. exists p. auto.
  - apply (updated_intro Adadelta s g Hwf Hg MeanSqrGradient 0); [exact Hk|unfold s'; rewrite apply_aux_paths; eapply aux_paths; eassumption|].
    intros p Hp. apply (apply_aux_set _ MeanSqrGradient A); [| |rewrite (aux_paths _ s Hwf _ _ Hk); exact Hp].
    + intros t H. apply Iu in H as [(q & _ & H)|(q & _ & [H|H])]; [|discriminate|discriminate]. injection H as -> ->. reflexivity.
    + apply Iu. left. exists p. auto.
  - assert (EB : forall p, In p ps -> look (aux s' MeanSqrDelta) p = B p).
    { intros p Hp. apply (apply_aux_set _ MeanSqrDelta B); [| |rewrite (aux_paths _ s Hwf _ _ Hk2); exact Hp].
      - intros t H. apply Iu in H as [(q & _ & H)|(q & _ & [H|H])]; [discriminate| |discriminate]. injection H as -> ->. reflexivity.
      - apply Iu. right. exists p. auto. }
    apply (same_shape_look _ _ Dn). split; [unfold s'; rewrite apply_aux_paths; symmetry; eapply aux_paths; eassumption|].
    intros p Hp. rewrite (EB p Hp). unfold B. rewrite map2_length; [symmetry; eapply aux_length; eassumption|]. rewrite map_length, (L p Hp). eapply aux_length; eassumption.
  - intros p i b d E1 E2.
    assert (Dk : is_dict (aux s MeanSqrDelta)) by (unfold is_dict; rewrite (aux_paths _ s Hwf _ _ Hk2); exact Dn).
    apply (elem_look _ _ _ _ Dk) in E1 as [P1 E1]. rewrite (aux_paths _ s Hwf _ _ Hk2) in P1.
    apply elem_look in E2 as [_ E2]; [|unfold is_dict, D; rewrite paths_map; exact Dn]. unfold D in E2. rewrite (look_map delta ps p P1) in E2.
    assert (Pd : paths (aux s' MeanSqrDelta) = ps) by (unfold s'; rewrite apply_aux_paths; eapply aux_paths; eassumption).
    apply elem_look; [unfold is_dict; rewrite Pd; exact Dn|]. rewrite Pd. split; [exact P1|].
    assert (EB : look (aux s' MeanSqrDelta) p = B p).
    { apply (apply_aux_set _ MeanSqrDelta B); [| |rewrite (aux_paths _ s Hwf _ _ Hk2); exact P1].
      - intros t H. apply Iu in H as [(q & _ & H)|(q & _ & [H|H])]; [discriminate| |discriminate]. injection H as -> ->. reflexivity.
      - apply Iu. right. exists p. auto. }
    rewrite EB. unfold B. rewrite map2_nth, E1, (map_nth_error _ _ _ E2). reflexivity.
  - apply apply_timestep_kept. intros n H. apply Iu in H as [(q & _ & H)|(q & _ & [H|H])]; discriminate.
  - intros k N1 N2. apply apply_aux_kept. intros p t H. apply Iu in H as [(q & _ & H)|(q & _ & [H|H])]; congruence.
Qed.

Lemma adam_rule : well_formed Adam s -> exists ups D, adam_updates o s alpha g = Ok ups /\
  let s' := apply_updates ups s in
  let n := S (timestep s) in
  (forall p i a b x, elem (aux s MeanGradient) p i a -> elem (aux s MeanSqrGradient) p i b -> elem G p i x ->
     elem D p i (- (gamma o * a + (1 - gamma o) * x) / (sqrt (gamma_ms o * b + (1 - gamma_ms o) * x²) + epsilon o))) /\
  moved o (alpha * sqrt (1 - gamma_ms o ^ n) / (1 - gamma o ^ n)) D s s' /\
  updated MeanGradient (fun a x => gamma o * a + (1 - gamma o) * x) G s s' /\
  updated MeanSqrGradient (fun b x => gamma_ms o * b + (1 - gamma_ms o) * x²) G s s' /\
  timestep s' = n /\
  forall k, k <> MeanSqrGradient -> k <> MeanGradient -> aux s' k = aux s k.
Proof.
  intros Hwf. pose proof (net_dict _ s Hwf) as Dn.
  assert (Hk : In (MeanGradient, 0) (kinds Adam)) by now left.
  assert (Hk2 : In (MeanSqrGradient, 0) (kinds Adam)) by (right; now left).
  set (A := fun p => map2 (fun a x => gamma o * a + (1 - gamma o) * x) (look (aux s MeanGradient) p) (look G p)).
  set (B := fun p => map2 (fun a x => gamma_ms o * a + (1 - gamma_ms o) * x²) (look (aux s MeanSqrGradient) p) (look G p)).
  set (delta := fun p => map2 (fun m r => - m / r) (A p) (map (fun a => sqrt a + epsilon o) (B p))).
  assert (LA : forall p, In p ps -> length (A p) = length (look (net s) p)).
  { intros p Hp. unfold A. rewrite map2_length; rewrite (aux_length _ s Hwf _ _ p Hk Hp); [reflexivity|]. symmetry. eapply G_length; eassumption. }
  assert (LB : forall p, In p ps -> length (B p) = length (look (net s) p)).
  { intros p Hp. unfold B. rewrite map2_length; rewrite (aux_length _ s Hwf _ _ p Hk2 Hp); [reflexivity|]. symmetry. eapply G_length; eassumption. }
  assert (L : forall p, In p ps -> length (delta p) = length (look (net s) p)).
  { intros p Hp. unfold delta. rewrite map2_length; rewrite (LA p Hp); [reflexivity|]. rewrite map_length. symmetry. auto. }
  unfold adam_updates.
  rewrite (gradient_mapM _ (fun p => ([SetAux MeanGradient p (A p); SetAux MeanSqrGradient p (B p)], (p, delta p))) Adam Hwf)
    by (intros p Hp; rewrite (aux_lookup _ s Hwf _ _ p Hk Hp); cbn [bind]; rewrite (aux_lookup _ s Hwf _ _ p Hk2 Hp); reflexivity).
  cbn [bind]. rewrite !map_map. cbn [fst snd]. set (n := S (timestep s)). set (a' := alpha * sqrt (1 - gamma_ms o ^ n) / (1 - gamma o ^ n)).
  rewrite (step_params_ok Adam o s Hwf Hmax delta a'). cbn [bind]. set (D := map (fun p => (p, delta p)) ps).
  set (P := fun p => map2 (fun x d => x + a' * d) (look (net s) p) (map (fun x => factor o (norm D) * x) (delta p))).
  rewrite app_assoc. set (ups := concat _ ++ map _ ps). exists (ups ++ [SetTimestep n]), D. split; [reflexivity|]. cbn zeta.
  assert (Iu : forall u, In u (ups ++ [SetTimestep n]) <-> (exists p, In p ps /\ (u = SetAux MeanGradient p (A p) \/ u = SetAux MeanSqrGradient p (B p))) \/
                                      (exists p, In p ps /\ u = SetNet p (P p)) \/ u = SetTimestep n).
  { intros u. unfold ups. rewrite !in_app_iff, in_map_iff, in_concat. split.
    - intros [[(l & H1 & H2)|(p & <- & Hp)]|[<-|[]]]; [left|right; left; exists p; split; [exact Hp|reflexivity]|auto]. apply in_map_iff in H1 as (p & <- & Hp). exists p. split; [exact Hp|].
      destruct H2 as [<-|[<-|[]]]; auto.
    - intros [(p & Hp & H)|[(p & Hp & ->)| ->]]; [left; left|left; right; exists p; split; [reflexivity|exact Hp]|right; now left].
      eexists. split; [apply in_map_iff; eauto|]. destruct H as [->| ->]; cbn; auto. }
  set (s' := apply_updates (ups ++ [SetTimestep n]) s).
  split; [|split; [|split; [|split; [|split]]]].
  - intros p i a b x E1 E2 E3. apply (aux_elem _ s Hwf _ _ _ _ _ Hk) in E1. apply (aux_elem _ s Hwf _ _ _ _ _ Hk2) in E2.
    destruct (G_elem _ s g Hwf Hg _ _ _ E3) as [P1 E4]. apply direction_elem; [exact P1|]. unfold delta.
    assert (EA : nth_error (A p) i = Some (gamma o * a + (1 - gamma o) * x)) by (unfold A; now rewrite map2_nth, E1, E4).
    assert (EB : nth_error (B p) i = Some (gamma_ms o * b + (1 - gamma_ms o) * x²)) by (unfold B; now rewrite map2_nth, E2, E4).
    rewrite !map2_nth, EA, (map_nth_error _ _ _ EB). reflexivity.
  - apply (moved_intro Adam o s Hwf); [exact L|apply apply_paths|]. intros p Hp. apply (apply_net_set _ P); [| |exact Hp].
    + intros t H. apply Iu in H as [(q & _ & [H|H])|[(q & _ & H)|H]]; try discriminate. injection H as -> ->. reflexivity.
    + apply Iu. right. left. exists p. auto.
  - apply (updated_intro Adam s g Hwf Hg MeanGradient 0); [exact Hk|unfold s'; rewrite apply_aux_paths; eapply aux_paths; eassumption|].
    intros p Hp. apply (apply_aux_set _ MeanGradient A); [| |rewrite (aux_paths _ s Hwf _ _ Hk); exact Hp].
    + intros t H. apply Iu in H as [(q & _ & [H|H])|[(q & _ & H)|H]]; try discriminate. injection H as -> ->. reflexivity.
    + apply Iu. left. exists p. auto.
  - apply (updated_intro Adam s g Hwf Hg MeanSqrGradient 0); [exact Hk2|unfold s'; rewrite apply_aux_paths; eapply aux_paths; eassumption|].
    intros p Hp. apply (apply_aux_set _ MeanSqrGradient B); [| |rewrite (aux_paths _ s Hwf _ _ Hk2); exact Hp].
    + intros t H. apply Iu in H as [(q & _ & [H|H])|[(q & _ & H)|H]]; try discriminate. injection H as -> ->. reflexivity.
    + apply Iu. left. exists p. auto.
  - apply apply_timestep.
  - intros k N1 N2. apply apply_aux_kept. intros p t H. apply Iu in H as [(q & _ & [H|H])|[(q & _ & H)|H]]; congruence.
Qed.
End Methods.
