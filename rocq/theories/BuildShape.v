(** The dimensions of what layers compute. *)
From Verif Require Import Base BaseLib ListLib Strings NumStr ParamModel NetModel NetSpec NetColumns NetSteps NetShape
  DeviceModel DeviceSpec DeviceProofs DeviceNet BuildModel BuildSpec.
Local Open Scope nat_scope.

Section Shape.
Context {A : arith}.
Notation num := (num A).
Notation vec := (list num).
Notation matrix := (list (list num)).
Notation tensor := (list (list (list num))).
Notation params := (list (pystr * param A)).
Notation box := tensor_shape.

Lemma len_map2 X Y Z (f : X -> Y -> Z) a b n : length a = n -> length b = n -> length (map2 f a b) = n.
Proof. revert b n; induction a as [|x a IH]; intros [|y b] n H H'; cbn in *; subst; try discriminate; [reflexivity|]. f_equal. apply IH; lia. Qed.
Lemma F_map2 X Y Z (P : X -> Prop) (Q : Y -> Prop) (R : Z -> Prop) (f : X -> Y -> Z) a b :
  (forall x y, P x -> Q y -> R (f x y)) -> Forall P a -> Forall Q b -> Forall R (map2 f a b).
Proof. intros H F. revert b; induction F as [|x a Hx _ IH]; intros b G; [constructor|]. destruct G; cbn [map2]; constructor; auto. Qed.
Lemma rect_map X Y (f : X -> Y) N F (m : list (list X)) : rectangle N F m -> rectangle N F (map (map f) m).
Proof.
  intros [L H]. split; [now rewrite map_length|]. rewrite Forall_map. eapply Forall_impl; [|exact H]. cbn. intros r Hr. now rewrite map_length.
Qed.
Lemma rect_rows X Y (f : list X -> list Y) N F G (m : list (list X)) : (forall r, length r = F -> length (f r) = G) ->
  rectangle N F m -> rectangle N G (map f m).
Proof. intros Hf [L H]. split; [now rewrite map_length|]. rewrite Forall_map. eapply Forall_impl; [|exact H]. auto. Qed.
Lemma rect_map2 X Y Z (f : X -> Y -> Z) N F a b : rectangle N F a -> rectangle N F b -> rectangle N F (map2 (map2 f) a b).
Proof.
  intros [L H] [L' H']. split; [now apply len_map2|]. eapply F_map2; [|exact H|exact H']. intros x y Hx Hy. now apply len_map2.
Qed.
Lemma rect_app X N F G (a b : list (list X)) : rectangle N F a -> rectangle N G b -> rectangle N (F + G) (map2 (@app X) a b).
Proof.
  intros [L H] [L' H']. split; [now apply len_map2|]. eapply F_map2; [|exact H|exact H']. cbv beta. intros x y Hx Hy. rewrite app_length. lia.
Qed.
Lemma rect_mdot N F (m : matrix) (w : list vec) : rectangle N F m -> rectangle N (length w) (mdot m w).
Proof. apply rect_rows. intros r _. apply map_length. Qed.
Lemma rect_sub N count size i j (m : matrix) : i <= j -> j < count -> rectangle N (count * size) m ->
  rectangle N ((j + 1 - i) * size) (get_submatrix m i size j).
Proof.
  intros I J. apply rect_rows. intros r Hr. rewrite firstn_length, skipn_length, Hr.
  assert (E : (j + 1) * size - i * size = (j + 1 - i) * size) by (rewrite Nat.mul_sub_distr_r; reflexivity).
  rewrite E. apply Nat.min_l. rewrite <- E. apply Nat.sub_le_mono_r. apply Nat.mul_le_mono_r. lia.
Qed.
Lemma rect_sub1 N count size i (m : matrix) : i < count -> rectangle N (count * size) m ->
  rectangle N size (get_submatrix m i size i).
Proof. intros H R. pose proof (rect_sub N count size i i m (le_n _) H R) as S. replace ((i + 1 - i) * size) with size in S; [exact S|]. replace (i + 1 - i) with 1 by lia. lia. Qed.
Lemma rect_switch N F mask (a b : matrix) : length mask = N -> rectangle N F a -> rectangle N F b -> rectangle N F (switch mask a b).
Proof.
  intros L [La Ha] [Lb Hb]. unfold switch. split.
  - apply len_map2; [exact L|]. rewrite combine_length. lia.
  - apply (F_map2 _ _ _ (fun _ => True) (fun p => length (fst p) = F /\ length (snd p) = F)).
    + intros m0 [x y] _ [Hx Hy]. destruct m0; assumption.
    + apply Forall_forall. auto.
    + rewrite Forall_forall in Ha, Hb |- *. intros [x y] H. split; [apply Ha; exact (in_combine_l _ _ _ _ H)|apply Hb; exact (in_combine_r _ _ _ _ H)].
Qed.
Lemma rect_zeros N F : rectangle N F (zeros (A := A) N F).
Proof. split; [apply repeat_length|]. apply Forall_forall. intros r H. apply repeat_spec in H. subst r. apply repeat_length. Qed.

Lemma lstm_step_rect N size act (w : list vec) mask (x : matrix) C h : length w = 4 * size -> length mask = N ->
  rectangle N (4 * size) x -> rectangle N size C -> rectangle N size h ->
  rectangle N size (fst (lstm_step size act w mask x (C, h))) /\ rectangle N size (snd (lstm_step size act w mask x (C, h))).
Proof.
  intros Lw Lm Rx RC Rh. unfold lstm_step.
  assert (P : rectangle N (4 * size) (madd (mdot h w) x)).
  { apply rect_map2; [|exact Rx]. rewrite <- Lw. eapply rect_mdot. exact Rh. }
  assert (S : forall i, i < 4 -> rectangle N size (get_submatrix (madd (mdot h w) x) i size i)) by (intros; eapply rect_sub1; eauto).
  cbn [fst snd]. split; apply rect_switch; try assumption; repeat first [apply rect_map2|apply rect_map|apply S; lia|assumption].
Qed.
Lemma gru_step_rect N size (w : list vec) mask (x : matrix) h : length w = 3 * size -> length mask = N ->
  rectangle N (3 * size) x -> rectangle N size h -> rectangle N size (gru_step size w mask x h).
Proof.
  intros Lw Lm Rx Rh. unfold gru_step.
  assert (P : rectangle N (3 * size) (mdot h w)) by (rewrite <- Lw; eapply rect_mdot; exact Rh).
  assert (S2 : forall m : matrix, rectangle N (3 * size) m -> rectangle N (2 * size) (get_submatrix m 0 size 1)) by (intros m R; apply (rect_sub N 3 size 0 1); auto; lia).
  assert (S3 : forall m : matrix, rectangle N (3 * size) m -> rectangle N size (get_submatrix m 2 size 2)) by (intros m R; apply (rect_sub1 N 3); auto; lia).
  assert (Pg : rectangle N (2 * size) (madd (get_submatrix (mdot h w) 0 size 1) (get_submatrix x 0 size 1))) by (apply rect_map2; auto).
  assert (S : forall i, i < 2 -> rectangle N size (get_submatrix (madd (get_submatrix (mdot h w) 0 size 1) (get_submatrix x 0 size 1)) i size i)) by (intros; eapply rect_sub1; eauto).
  apply rect_switch; try assumption. repeat first [apply rect_map2|apply rect_map|apply S; lia|apply S3; assumption|assumption].
Qed.

Lemma scan_length S (step : list bool -> matrix -> S -> S) xs : forall s, length (scan step xs s) = length xs.
Proof. induction xs as [|[m x] xs IH]; intro s; cbn [scan length]; [reflexivity|]. now rewrite IH. Qed.
Lemma scan_invariant S (P : S -> Prop) (Q : list bool -> matrix -> Prop) (step : list bool -> matrix -> S -> S) xs :
  (forall m x s, Q m x -> P s -> P (step m x s)) -> Forall (fun mx => Q (fst mx) (snd mx)) xs -> forall s, P s -> Forall P (scan step xs s).
Proof.
  intro H. induction 1 as [|[m x] xs Hx _ IH]; intros s Hs; cbn [scan]; constructor; auto.
Qed.

Lemma box_map T N F G (f : vec -> vec) (x : tensor) : (forall r, length r = F -> length (f r) = G) -> box T N F x -> box T N G (map (map f) x).
Proof.
  intros Hf [L H]. split; [now rewrite map_length|]. rewrite Forall_map. eapply Forall_impl; [|exact H]. intros m. now apply rect_rows.
Qed.
Lemma box_mapm T N F G (f : matrix -> matrix) (x : tensor) : (forall m, rectangle N F m -> rectangle N G (f m)) -> box T N F x -> box T N G (map f x).
Proof. intros Hf [L H]. split; [now rewrite map_length|]. rewrite Forall_map. eapply Forall_impl; [|exact H]. auto. Qed.
Lemma box_map2 T N F G H (f : matrix -> matrix -> matrix) (x y : tensor) :
  (forall a b, rectangle N F a -> rectangle N G b -> rectangle N H (f a b)) -> box T N F x -> box T N G y -> box T N H (map2 f x y).
Proof. intros Hf [L Hx] [L' Hy]. split; [now apply len_map2|]. eapply F_map2; [exact Hf|exact Hx|exact Hy]. Qed.

Lemma box_preact T N F G ub (x : tensor) w b : box T N F x -> length w = G -> (ub = true -> length b = G) -> box T N G (preact_part ub x (w, b)).
Proof.
  intros B Lw Lb. unfold preact_part. cbn [fst snd].
  assert (B1 : box T N G (map (fun m => mdot m w) x)) by (eapply box_mapm; [|exact B]; intros m; rewrite <- Lw; apply rect_mdot).
  destruct ub; [|exact B1]. eapply box_map; [|exact B1]. intros r Hr. apply len_map2; auto.
Qed.

Lemma box_concat T N (xs : list tensor) sizes : xs <> [] -> Forall2 (fun x s => box T N s x) xs sizes ->
  exists x, concat_features xs = Ok x /\ box T N (sum sizes) x.
Proof.
  destruct xs as [|x xs]; [contradiction|]. intros _ F. inversion F as [|? s ? ss B F']; subst. cbn [concat_features]. eexists. split; [reflexivity|].
  cbn [sum fold_right]. fold (sum ss). clear F. revert x s B. induction F' as [|y s' xs ss B' _ IH]; intros x s B; cbn [fold_left].
  - cbn [sum fold_right]. now rewrite Nat.add_0_r.
  - cbn [sum fold_right]. fold (sum ss). rewrite Nat.add_assoc. apply IH. eapply box_map2; [|exact B|exact B']. intros. now apply rect_app.
Qed.
Lemma box_sum T N size (xs : list tensor) : xs <> [] -> Forall (box T N size) xs -> exists x, sum_tensors xs = Ok x /\ box T N size x.
Proof.
  destruct xs as [|x xs]; [contradiction|]. intros _ F. inversion F as [|? ? B F']; subst. cbn [sum_tensors]. eexists. split; [reflexivity|]. clear F.
  revert x B. induction F' as [|y xs B' _ IH]; intros x B; cbn [fold_left]; [exact B|]. apply IH. eapply box_map2; [|exact B|exact B']. intros. now apply rect_map2.
Qed.

Lemma box_rev T N F (x : tensor) : box T N F x -> box T N F (rev x).
Proof. intros [L H]. split; [now rewrite rev_length|]. apply Forall_rev. exact H. Qed.

(** What a recurrent layer iterates over *)
Definition steps_ok (T N F : nat) (xs : list (list bool * matrix)) : Prop :=
  length xs = T /\ Forall (fun mx => length (fst mx) = N /\ rectangle N F (snd mx)) xs.
Lemma steps_combine T N F mask (x : tensor) : rectangle T N mask -> T <= length x -> Forall (rectangle N F) x -> steps_ok T N F (combine mask x).
Proof.
  intros [L H] L' H'. split; [rewrite combine_length; lia|]. rewrite Forall_forall in H, H' |- *. intros [m y] I. cbn [fst snd].
  split; [apply H; exact (in_combine_l _ _ _ _ I)|apply H'; exact (in_combine_r _ _ _ _ I)].
Qed.
Lemma steps_shifted T N F mask (x : tensor) : rectangle T N mask -> box T N F x -> steps_ok T N F (combine (rev mask) (rev (shifted x N))).
Proof.
  intros [L H] [L' H']. destruct T as [|T]; [destruct mask; [|discriminate]; split; [reflexivity|constructor]|].
  apply steps_combine.
  - split; [now rewrite rev_length|]. now apply Forall_rev.
  - rewrite rev_length. unfold shifted. rewrite app_length, skipn_length. cbn [length]. lia.
  - apply Forall_rev. unfold shifted. apply Forall_app. split.
    + rewrite <- (firstn_skipn 2 x) in H'. apply Forall_app in H'. tauto.
    + assert (Z : rectangle N F (zeros (A := A) N (num_features x))).
      { destruct x as [|[|r m] x]; [cbn in L'; lia| |]; inversion H' as [|? ? [L0 H0]]; subst.
        - cbn. split; [reflexivity|constructor].
        - cbn [num_features]. inversion H0; subst. apply rect_zeros. }
      repeat constructor; apply Z.
Qed.

Lemma lstm_scan T N size act (w : list vec) xs C h : length w = 4 * size -> steps_ok T N (4 * size) xs -> rectangle N size C -> rectangle N size h ->
  box T N size (map snd (scan (lstm_step size act w) xs (C, h))).
Proof.
  intros Lw [L H] RC Rh. split; [now rewrite map_length, scan_length|]. rewrite Forall_map.
  eapply Forall_impl; [|apply (scan_invariant _ (fun s => rectangle N size (fst s) /\ rectangle N size (snd s)) (fun m x => length m = N /\ rectangle N (4 * size) x))].
  - intros s Hs. exact (proj2 Hs).
  - intros m x [C' h'] [Hm Hx] [HC Hh]. now apply lstm_step_rect.
  - exact H.
  - auto.
Qed.
Lemma gru_scan T N size (w : list vec) xs h : length w = 3 * size -> steps_ok T N (3 * size) xs -> rectangle N size h ->
  box T N size (scan (gru_step size w) xs h).
Proof.
  intros Lw [L H] Rh. split; [now rewrite scan_length|].
  apply (scan_invariant _ (rectangle N size) (fun m x => length m = N /\ rectangle N (3 * size) x)); [|exact H|exact Rh].
  intros m x h' [Hm Hx] Hh. now apply gru_step_rect.
Qed.

Lemma sequences_box T N F (x : tensor) : T <> 0 -> box T N F x -> num_sequences x = N.
Proof. intros HT [L H]. destruct x as [|m x]; [cbn in L; lia|]. inversion H as [|? ? [Lm _] _]. exact Lm. Qed.
Lemma sequences_none F N (x : tensor) : box 0 N F x -> x = [].
Proof. intros [L _]. destruct x; [reflexivity|discriminate]. Qed.

Lemma lstm_box T N F devices (ps : params) name size act rv mask (x : tensor) w h b : length w = 4 * size -> length b = length w -> length h = 4 * size ->
  Forall (placed devices ps) (recurrent_params name w h b) -> rectangle T N mask -> box T N F x ->
  exists y, lstm_minibatch ps name devices size act rv mask x = Ok y /\ box T N size y.
Proof.
  intros Lw Lb Lh P M B. unfold lstm_minibatch. rewrite (recurrent_preact _ _ _ _ _ _ _ Lb P). cbn [bind].
  rewrite (recurrent_step_weight _ _ _ _ _ _ P). cbn [bind]. eexists. split; [reflexivity|].
  assert (PB : box T N (4 * size) (preact_part true x (w, b))) by (eapply box_preact; [exact B|exact Lw|intros _; congruence]).
  destruct (Nat.eq_dec T 0) as [->|HT].
  - apply sequences_none in B as ->. destruct M as [LM _]. destruct mask; [|discriminate].
    destruct rv; cbn; (split; [reflexivity|constructor]).
  - rewrite (sequences_box T N F x HT B). destruct rv.
    + rewrite map_rev. apply box_rev, lstm_scan; auto using rect_zeros. now apply steps_shifted.
    + apply lstm_scan; auto using rect_zeros. apply steps_combine; [exact M|destruct PB; lia|exact (proj2 PB)].
Qed.
Lemma gru_box T N F devices (ps : params) name size rv mask (x : tensor) w h b : length w = 3 * size -> length b = length w -> length h = 3 * size ->
  Forall (placed devices ps) (recurrent_params name w h b) -> rectangle T N mask -> box T N F x ->
  exists y, gru_minibatch ps name devices size rv mask x = Ok y /\ box T N size y.
Proof.
  intros Lw Lb Lh P M B. unfold gru_minibatch. rewrite (recurrent_preact _ _ _ _ _ _ _ Lb P). cbn [bind].
  rewrite (recurrent_step_weight _ _ _ _ _ _ P). cbn [bind]. eexists. split; [reflexivity|].
  assert (PB : box T N (3 * size) (preact_part true x (w, b))) by (eapply box_preact; [exact B|exact Lw|intros _; congruence]).
  destruct (Nat.eq_dec T 0) as [->|HT].
  - apply sequences_none in B as ->. destruct M as [LM _]. destruct mask; [|discriminate].
    destruct rv; cbn; (split; [reflexivity|constructor]).
  - rewrite (sequences_box T N F x HT B). destruct rv.
    + apply box_rev, gru_scan; auto using rect_zeros. now apply steps_shifted.
    + apply gru_scan; auto using rect_zeros. apply steps_combine; [exact M|destruct PB; lia|exact (proj2 PB)].
Qed.

(** Convolution: [k] filters, and [k - 1] time steps of padding *)
Lemma windows_length X k (l : list X) : k <> 0 -> length (windows k l) = length l - (k - 1).
Proof.
  intro Hk. induction l as [|x l IH]; cbn [windows length]; [reflexivity|].
  destruct (Nat.ltb_spec (S (length l)) k); cbn [length]; [lia|]. rewrite IH. lia.
Qed.
Lemma windows_in X k (l : list X) w : In w (windows k l) -> length w = k /\ incl w l.
Proof.
  induction l as [|x l IH]; cbn [windows]; [intros []|]. destruct (Nat.ltb_spec (length (x :: l)) k) as [Hl|Hl]; [intros []|].
  intros [<-|H].
  - split; [apply firstn_length_le; lia|]. intros y Hy. rewrite <- (firstn_skipn k (x :: l)). apply in_or_app. now left.
  - apply IH in H as [L I]. split; [exact L|]. intros y Hy. right. auto.
Qed.
Lemma conv_box T N F G (x : tensor) (filters : list (list vec)) : filters <> [] ->
  Forall (fun w => length w = G) filters -> box (T + (length filters - 1)) N F x -> box T N G (conv1d x filters).
Proof.
  intros Hk LF [L H]. assert (Hk' : length filters <> 0) by (destruct filters; [contradiction|discriminate]). unfold conv1d. split.
  - rewrite map_length, windows_length by assumption. lia.
  - rewrite Forall_map. apply Forall_forall. intros ws I. apply windows_in in I as [Lw I].
    assert (P : Forall (rectangle N G) (map2 mdot ws filters)).
    { apply (F_map2 _ _ _ (rectangle N F) (fun w => length w = G)); [|rewrite Forall_forall in H |- *; auto|exact LF].
      intros m w R <-. eapply rect_mdot. exact R. }
    destruct (map2 mdot ws filters) as [|m r] eqn:E.
    + exfalso. destruct ws as [|m' ws]; [cbn in Lw; lia|]. destruct filters; [contradiction|]. discriminate.
    + inversion P as [|? ? P0 P']; subst. clear E P. revert m P0. induction P' as [|m' r R _ IH]; intros m P0; cbn [fold_left]; [exact P0|].
      apply IH. now apply rect_map2.
Qed.
End Shape.
