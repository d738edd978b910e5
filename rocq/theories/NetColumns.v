(** The sequences of a mini-batch are independent: evaluating one column of the input
    gives that column of the output. *)
From Verif Require Import Base BaseLib ListLib Strings ParamModel NetModel.

(** The list of the [s]th element *)
Definition sel {X} (s : nat) (l : list X) : list X := match nth_error l s with Some x => [x] | None => [] end.

Lemma sel_map X Y (f : X -> Y) s l : sel s (map f l) = map f (sel s l).
Proof. unfold sel. rewrite nth_error_map. destruct (nth_error l s); reflexivity. Qed.
Lemma nth_error_map2 X Y Z (f : X -> Y -> Z) a b s :
  nth_error (map2 f a b) s = match nth_error a s, nth_error b s with Some x, Some y => Some (f x y) | _, _ => None end.
Proof.
  revert b s; induction a as [|x a IH]; intros [|y b] [|s]; cbn [map2 nth_error]; auto.
  - destruct (nth_error a s); auto.
Qed.
Lemma sel_map2 X Y Z (f : X -> Y -> Z) s a b : sel s (map2 f a b) = map2 f (sel s a) (sel s b).
Proof. unfold sel. rewrite nth_error_map2. destruct (nth_error a s), (nth_error b s); reflexivity. Qed.
Lemma combine_map2 X Y (a : list X) (b : list Y) : combine a b = map2 pair a b.
Proof. revert b; induction a; intros [|]; cbn; auto. f_equal; auto. Qed.
Lemma sel_combine X Y s (a : list X) (b : list Y) : sel s (combine a b) = combine (sel s a) (sel s b).
Proof. rewrite !combine_map2. apply sel_map2. Qed.
Lemma sel_repeat X (x : X) s n : sel s (repeat x n) = repeat x (if s <? n then 1 else 0).
Proof.
  unfold sel. destruct (Nat.ltb_spec s n) as [H|H].
  - rewrite nth_error_repeat by lia; reflexivity.
  - rewrite (proj2 (nth_error_None _ _)); [reflexivity|]. rewrite repeat_length; lia.
Qed.
Lemma sel_length X s (l : list X) : length (sel s l) = if s <? length l then 1 else 0.
Proof.
  unfold sel. destruct (Nat.ltb_spec s (length l)) as [H|H].
  - apply nth_error_Some in H. destruct (nth_error l s); [reflexivity|congruence].
  - apply nth_error_None in H. rewrite H. reflexivity.
Qed.
Lemma map2_map_r X Y Z W (f : X -> Y -> Z) (g : W -> Y) a b : map2 f a (map g b) = map2 (fun x y => f x (g y)) a b.
Proof. revert b; induction a; intros [|]; cbn; auto. f_equal; auto. Qed.
Lemma map2_map_l X Y Z W (f : X -> Y -> Z) (g : W -> X) a b : map2 f (map g a) b = map2 (fun x y => f (g x) y) a b.
Proof. revert b; induction a; intros [|]; cbn; auto. f_equal; auto. Qed.
Lemma map_map2 X Y Z W (g : Z -> W) (f : X -> Y -> Z) a b : map g (map2 f a b) = map2 (fun x y => g (f x y)) a b.
Proof. revert b; induction a; intros [|]; cbn; auto. f_equal; auto. Qed.
Lemma map2_ext X Y Z (f g : X -> Y -> Z) a b : (forall x y, f x y = g x y) -> map2 f a b = map2 g a b.
Proof. intro H. revert b; induction a; intros [|]; cbn; auto. f_equal; auto. Qed.
(** An operation on two matrices, at each time step *)
Lemma map_sel_map2 X Y Z s (f : list X -> list Y -> list Z) a b :
  (forall x y, sel s (f x y) = f (sel s x) (sel s y)) ->
  map (sel s) (map2 f a b) = map2 f (map (sel s) a) (map (sel s) b).
Proof. intro H. rewrite map_map2, map2_map_l, map2_map_r. apply map2_ext, H. Qed.
Lemma map_sel_map X Y s (f : list X -> list Y) a :
  (forall x, sel s (f x) = f (sel s x)) -> map (sel s) (map f a) = map f (map (sel s) a).
Proof. intro H. rewrite !map_map. apply map_ext, H. Qed.
Lemma map_sel_maps X Y s (f : X -> Y) a : map (sel s) (map (map f) a) = map (map f) (map (sel s) a).
Proof. apply map_sel_map. intro; apply sel_map. Qed.

Lemma mapM_sel X Y (f : X -> result Y) s l r : mapM f l = Ok r -> mapM f (sel s l) = Ok (sel s r).
Proof.
  revert s r; induction l as [|x l IH]; intros s r H; cbn [mapM] in H.
  - assert (r = []) as -> by congruence. destruct s; reflexivity.
  - destruct (f x) as [y|] eqn:E; cbn [bind] in H; [|discriminate].
    destruct (mapM f l) as [ys|] eqn:E'; cbn [bind] in H; [|discriminate].
    assert (r = y :: ys) as -> by congruence.
    destruct s as [|s]; unfold sel; cbn [nth_error].
    + cbn [mapM]. rewrite E. reflexivity.
    + exact (IH s ys eq_refl).
Qed.
Lemma mapM_map_ok X X' Y Y' (f : X -> result Y) (f' : X' -> result Y') (g : X -> X') (h : Y -> Y') l r :
  (forall x y, In x l -> f x = Ok y -> f' (g x) = Ok (h y)) -> mapM f l = Ok r -> mapM f' (map g l) = Ok (map h r).
Proof.
  revert r; induction l as [|x l IH]; intros r F H; cbn [mapM] in H.
  - assert (r = []) as -> by congruence. reflexivity.
  - destruct (f x) as [y|] eqn:E; cbn [bind] in H; [|discriminate].
    destruct (mapM f l) as [ys|] eqn:E'; cbn [bind] in H; [|discriminate].
    assert (r = y :: ys) as -> by congruence. cbn [map mapM].
    rewrite (F x y (or_introl eq_refl) E). cbn [bind].
    rewrite (IH ys); [reflexivity| |reflexivity]. intros; apply F; [right|]; assumption.
Qed.

Lemma mapM_in X Y (f : X -> result Y) l r y : mapM f l = Ok r -> In y r -> exists x, In x l /\ f x = Ok y.
Proof.
  intro H. apply mapM_inv in H. induction H as [|a b l r H _ IH]; intros Hy; [destruct Hy|].
  destruct Hy as [<-|Hy]; [exists a; split; [now left|exact H]|].
  destruct (IH Hy) as (x & Hx & Rx). exists x. split; [now right|exact Rx].
Qed.

Section Columns.
Context {A : arith}.
Notation num := (num A).
Notation vec := (list num).
Notation matrix := (list (list num)).
Notation tensor := (list (list (list num))).
Variable s : nat.

Notation colt := (map (sel s)).
Definition colv (v : value A) : value A := match v with IDs x => IDs (colt x) | Features x => Features (colt x) end.
Definition colo (o : value A * nat) : value A * nat := (colv (fst o), snd o).
Definition col (b : batch) : batch :=
  mkBatch (colt (b_words b)) (colt (b_classes b)) (colt (b_mask b))
          (match b_dropout b with Some f => Some (fun l t _ i => f l t s i) | None => None end).

Lemma sel_mmap (f : num -> num) m : sel s (mmap f m) = mmap f (sel s m).
Proof. apply sel_map. Qed.
Lemma sel_mmap2 (f : num -> num -> num) a b : sel s (mmap2 f a b) = mmap2 f (sel s a) (sel s b).
Proof. apply sel_map2. Qed.
Lemma sel_madd (a b : matrix) : sel s (madd a b) = madd (sel s a) (sel s b).
Proof. apply sel_map2. Qed.
Lemma sel_mmul (a b : matrix) : sel s (mmul a b) = mmul (sel s a) (sel s b).
Proof. apply sel_map2. Qed.
Lemma sel_mdot (x : matrix) w : sel s (mdot x w) = mdot (sel s x) w.
Proof. apply sel_map. Qed.
Lemma sel_submatrix (m : matrix) i z e : sel s (get_submatrix m i z e) = get_submatrix (sel s m) i z e.
Proof. apply sel_map. Qed.
Lemma sel_switch mask (a b : matrix) : sel s (switch mask a b) = switch (sel s mask) (sel s a) (sel s b).
Proof. unfold switch. rewrite sel_map2, sel_combine. reflexivity. Qed.

Lemma num_sequences_col (x : tensor) : num_sequences (colt x) = if s <? num_sequences x then 1 else 0.
Proof. destruct x as [|m x]; cbn; [reflexivity|]. apply sel_length. Qed.
Lemma sel_zeros n c : sel s (zeros (A := A) n c) = zeros (if s <? n then 1 else 0) c.
Proof. apply sel_repeat. Qed.

Lemma concat_features_col (l : list tensor) r : concat_features l = Ok r -> concat_features (map colt l) = Ok (colt r).
Proof.
  destruct l as [|x l]; cbn [concat_features map]; [discriminate|]. intro H.
  assert (r = fold_left (map2 (map2 (@app num))) l x) as -> by congruence. f_equal.
  clear H. revert x; induction l as [|y l IH]; intro x; cbn [fold_left map]; [reflexivity|].
  rewrite <- IH. f_equal. symmetry. apply map_sel_map2. intros; apply sel_map2.
Qed.

Lemma preact_part_col ub (x : tensor) p : colt (preact_part ub x p) = preact_part ub (colt x) p.
Proof.
  unfold preact_part. destruct ub.
  - rewrite map_sel_maps. f_equal. apply map_sel_map. intro; apply sel_mdot.
  - apply map_sel_map. intro; apply sel_mdot.
Qed.
Lemma tensor_preact_col ps name devices (x : tensor) pn ub r :
  tensor_preact ps name devices x pn ub = Ok r -> tensor_preact ps name devices (colt x) pn ub = Ok (colt r).
Proof.
  unfold tensor_preact. destruct (mapM _ devices) as [parts|e]; cbn [bind]; [|discriminate].
  destruct parts as [|p parts]; [discriminate|]. intro H.
  apply concat_features_col in H. rewrite map_map in H.
  erewrite map_ext in H; [exact H|]. intro; apply preact_part_col.
Qed.

(** All the rows of a preactivation have the same number of features. *)
Definition uniform c (x : tensor) := forall m v, In m x -> In v m -> length v = c.
Lemma map2_length' X Y Z (f : X -> Y -> Z) a b : length (map2 f a b) = Nat.min (length a) (length b).
Proof. revert b; induction a; intros [|]; cbn; auto. Qed.
Lemma in_map2 X Y Z (f : X -> Y -> Z) a b z : In z (map2 f a b) -> exists x y, In x a /\ In y b /\ z = f x y.
Proof.
  revert b; induction a as [|x a IH]; intros [|y b]; cbn; try tauto. intros [<-|H].
  - exists x, y; auto.
  - destruct (IH _ H) as (x' & y' & ? & ? & ?). exists x', y'; auto.
Qed.
Lemma uniform_part ub (x : tensor) p : exists c, uniform c (preact_part ub x p).
Proof.
  unfold preact_part. destruct ub.
  - exists (Nat.min (length (fst p)) (length (snd p))). intros m v Hm Hv.
    apply in_map_iff in Hm as (m1 & <- & Hm). apply in_map_iff in Hm as (m0 & <- & _).
    apply in_map_iff in Hv as (v1 & <- & Hv). apply in_map_iff in Hv as (v0 & <- & _).
    rewrite map2_length', map_length. reflexivity.
  - exists (length (fst p)). intros m v Hm Hv.
    apply in_map_iff in Hm as (m0 & <- & _). apply in_map_iff in Hv as (v0 & <- & _).
    rewrite map_length. reflexivity.
Qed.
Lemma uniform_concat l : (forall x, In x l -> exists c, uniform c x) -> forall r, concat_features l = Ok r -> exists c, uniform c r.
Proof.
  destruct l as [|x l]; cbn [concat_features]; [discriminate|]. intros H r E.
  assert (r = fold_left (map2 (map2 (@app num))) l x) as -> by congruence. clear E.
  assert (H0 : exists c, uniform c x) by (apply H; left; reflexivity).
  assert (H1 : forall y, In y l -> exists c, uniform c y) by (intros; apply H; right; assumption). clear H.
  revert x H0; induction l as [|y l IH]; intros x (c & Hc); cbn [fold_left]; [exists c; exact Hc|].
  apply IH; [intros; apply H1; right; assumption|].
  destruct (H1 y (or_introl eq_refl)) as (d & Hd). exists (c + d). intros m v Hm Hv.
  apply in_map2 in Hm as (m1 & m2 & ? & ? & ->). apply in_map2 in Hv as (v1 & v2 & ? & ? & ->).
  rewrite app_length, (Hc m1 v1), (Hd m2 v2); auto.
Qed.
Lemma uniform_preact ps name devices (x : tensor) pn ub r :
  tensor_preact ps name devices x pn ub = Ok r -> exists c, uniform c r.
Proof.
  unfold tensor_preact. destruct (mapM _ devices) as [parts|e]; cbn [bind]; [|discriminate].
  destruct parts as [|p parts]; [discriminate|]. apply uniform_concat.
  intros y Hy. apply in_map_iff in Hy as (q & <- & _). apply uniform_part.
Qed.
Lemma uniform_features c (x : tensor) : uniform c x -> num_sequences x <> 0 -> num_features x = c.
Proof.
  destruct x as [|[|v m] x]; cbn; try congruence. intros H _. apply (H (v :: m) v); left; reflexivity.
Qed.
Lemma uniform_col c (x : tensor) : uniform c x -> uniform c (colt x).
Proof.
  intros H m v Hm Hv. apply in_map_iff in Hm as (m0 & <- & Hm). apply (H m0); auto.
  unfold sel in Hv. destruct (nth_error m0 s) as [w|] eqn:E; [|destruct Hv]. destruct Hv as [<-|[]]. eapply nth_error_In; eauto.
Qed.

Lemma shifted_col c (x : tensor) n : uniform c x -> (x <> [] -> n = num_sequences x) ->
  colt (shifted x n) = shifted (colt x) (if s <? n then 1 else 0).
Proof.
  intros U N. unfold shifted. rewrite map_app, skipn_map. f_equal. cbn [map].
  assert (E : sel s (zeros n (num_features x)) = zeros (A := A) (if s <? n then 1 else 0) (num_features (colt x))).
  { rewrite sel_zeros. destruct (Nat.ltb_spec s n) as [H|H]; [|reflexivity]. f_equal.
    destruct x as [|m x]; [reflexivity|]. specialize (N ltac:(discriminate)).
    rewrite (uniform_features c) by (auto; lia). symmetry. apply uniform_features; [apply uniform_col, U|].
    rewrite num_sequences_col, <- N. destruct (Nat.ltb_spec s n); lia. }
  rewrite E. reflexivity.
Qed.

(** The number of sequences stays. *)
Lemma preact_sequences ps name devices (x : tensor) pn ub r :
  tensor_preact ps name devices x pn ub = Ok r -> num_sequences r = num_sequences x /\ length r = length x.
Proof.
  unfold tensor_preact. destruct (mapM _ devices) as [parts|e]; cbn [bind]; [|discriminate].
  destruct parts as [|p parts]; [discriminate|]. cbn [map concat_features]. intro H.
  assert (r = fold_left (map2 (map2 (@app num))) (map (preact_part ub x) parts) (preact_part ub x p)) as -> by congruence.
  clear H.
  assert (P : forall q, map (@length _) (preact_part ub x q) = map (@length _) x).
  { intro q. unfold preact_part. destruct ub; rewrite ?map_map; apply map_ext; intro m; unfold mdot; rewrite ?map_length; reflexivity. }
  assert (G : forall l (y : tensor), map (@length _) y = map (@length _) x -> (forall z, In z l -> map (@length _) z = map (@length _) x) ->
              map (@length _) (fold_left (map2 (map2 (@app num))) l y) = map (@length _) x).
  { induction l as [|z l IH]; intros y Hy Hl; cbn [fold_left]; [exact Hy|]. apply IH; [|intros; apply Hl; right; assumption].
    rewrite map_map2. specialize (Hl z (or_introl eq_refl)). rewrite <- Hl in Hy. clear - Hy Hl.
    rewrite <- Hl. clear Hl. revert z Hy; induction y as [|m y IHy]; intros [|m' z] Hy; cbn in *; try discriminate; auto.
    injection Hy as E1 E2. rewrite map2_length', E1, Nat.min_id. f_equal. apply IHy, E2. }
  assert (E : map (@length _) (fold_left (map2 (map2 (@app num))) (map (preact_part ub x) parts) (preact_part ub x p)) = map (@length _) x).
  { apply G; [apply P|]. intros z Hz. apply in_map_iff in Hz as (q & <- & _). apply P. }
  split.
  - destruct (fold_left _ _ _) as [|m r], x as [|m' x]; cbn in *; try discriminate; [reflexivity|]. congruence.
  - rewrite <- (map_length (@length _)), E, map_length. reflexivity.
Qed.

(** Scan *)
Lemma scan_map S S' (step : list bool -> matrix -> S -> S) (step' : list bool -> matrix -> S' -> S') (T : S -> S') fm fx :
  (forall m x st, T (step m x st) = step' (fm m) (fx x) (T st)) ->
  forall xs st, map T (scan step xs st) = scan step' (map (fun p => (fm (fst p), fx (snd p))) xs) (T st).
Proof.
  intros H xs; induction xs as [|[m x] xs IH]; intro st; cbn [scan map fst snd]; [reflexivity|].
  rewrite IH, H. reflexivity.
Qed.
Definition sel2 (st : matrix * matrix) : matrix * matrix := (sel s (fst st), sel s (snd st)).
Lemma lstm_step_col size act w m x st : sel2 (lstm_step size act w m x st) = lstm_step size act w (sel s m) (sel s x) (sel2 st).
Proof.
  destruct st as [C h]. unfold sel2, lstm_step. cbn [fst snd].
  rewrite !sel_switch, !sel_mmul, !sel_mmap, !sel_madd, !sel_mmul, !sel_mmap, !sel_submatrix, !sel_madd, !sel_mdot. reflexivity.
Qed.
Lemma gru_step_col size w m x h : sel s (gru_step (A := A) size w m x h) = gru_step size w (sel s m) (sel s x) (sel s h).
Proof.
  unfold gru_step.
  repeat (rewrite sel_switch || rewrite sel_mmul || rewrite sel_mmap || rewrite sel_madd || rewrite sel_submatrix || rewrite sel_mdot).
  reflexivity.
Qed.
Lemma combine_col X Y (a : list (list X)) (b : list (list Y)) :
  map (fun p => (sel s (fst p), sel s (snd p))) (combine a b) = combine (colt a) (colt b).
Proof. revert b; induction a; intros [|]; cbn; auto. f_equal; auto. Qed.

Lemma lstm_minibatch_col ps name devices size act rv mask (x : tensor) r :
  lstm_minibatch ps name devices size act rv mask x = Ok r ->
  lstm_minibatch ps name devices size act rv (colt mask) (colt x) = Ok (colt r).
Proof.
  unfold lstm_minibatch. destruct (tensor_preact ps name devices x _ _) as [p|e] eqn:P; cbn [bind]; [|discriminate].
  rewrite (tensor_preact_col _ _ _ _ _ _ _ P). cbn [bind].
  destruct (get_weight _ _ _ _) as [w|e]; cbn [bind]; [|discriminate].
  intro H. match type of H with Ok ?z = _ => assert (r = z) as -> by congruence end. clear H. f_equal.
  rewrite num_sequences_col.
  set (n := num_sequences x).
  replace (zeros (if s <? n then 1 else 0) size, zeros (if s <? n then 1 else 0) size) with (sel2 (zeros (A := A) n size, zeros n size))
    by (unfold sel2; cbn [fst snd]; rewrite !sel_zeros; reflexivity).
  destruct (uniform_preact _ _ _ _ _ _ _ P) as (c & U). destruct (preact_sequences _ _ _ _ _ _ _ P) as [N _].
  destruct rv.
  - rewrite <- (shifted_col c p n U) by (intros; symmetry; exact N).
    rewrite <- !map_rev, <- combine_col.
    rewrite <- (scan_map _ _ _ _ sel2 (sel s) (sel s) (lstm_step_col size act w)).
    rewrite <- map_rev, !map_map. reflexivity.
  - rewrite <- combine_col.
    rewrite <- (scan_map _ _ _ _ sel2 (sel s) (sel s) (lstm_step_col size act w)).
    rewrite !map_map. reflexivity.
Qed.
Lemma gru_minibatch_col ps name devices size rv mask (x : tensor) r :
  gru_minibatch ps name devices size rv mask x = Ok r ->
  gru_minibatch ps name devices size rv (colt mask) (colt x) = Ok (colt r).
Proof.
  unfold gru_minibatch. destruct (tensor_preact ps name devices x _ _) as [p|e] eqn:P; cbn [bind]; [|discriminate].
  rewrite (tensor_preact_col _ _ _ _ _ _ _ P). cbn [bind].
  destruct (get_weight _ _ _ _) as [w|e]; cbn [bind]; [|discriminate].
  intro H. match type of H with Ok ?z = _ => assert (r = z) as -> by congruence end. clear H. f_equal.
  rewrite num_sequences_col.
  set (n := num_sequences x).
  rewrite <- sel_zeros.
  destruct (uniform_preact _ _ _ _ _ _ _ P) as (c & U). destruct (preact_sequences _ _ _ _ _ _ _ P) as [N _].
  destruct rv.
  - rewrite <- (shifted_col c p n U) by (intros; symmetry; exact N).
    rewrite <- !map_rev, <- combine_col.
    rewrite <- (scan_map _ _ _ _ (sel s) (sel s) (sel s) (gru_step_col size w)).
    rewrite <- map_rev. reflexivity.
  - rewrite <- combine_col.
    rewrite <- (scan_map _ _ _ _ (sel s) (sel s) (sel s) (gru_step_col size w)). reflexivity.
Qed.

(** Convolution *)
Lemma windows_map X Y (f : X -> Y) k l : windows k (map f l) = map (map f) (windows k l).
Proof.
  induction l as [|x l IH]; [reflexivity|]. cbn [map windows]. cbn [length]. rewrite map_length.
  destruct (S (length l) <? k); [reflexivity|]. cbn [map]. rewrite IH. f_equal.
  change (f x :: map f l) with (map f (x :: l)). rewrite firstn_map. reflexivity.
Qed.
Lemma conv1d_col (x : tensor) fs : colt (conv1d x fs) = conv1d (colt x) fs.
Proof.
  unfold conv1d. rewrite windows_map, !map_map. apply map_ext. intro w.
  assert (E : map2 mdot (map (sel s) w) fs = map (sel s) (map2 mdot w fs)).
  { rewrite map2_map_l, map_map2. apply map2_ext. intros; symmetry; apply sel_mdot. }
  rewrite E. destruct (map2 mdot w fs) as [|m r]; [destruct s; reflexivity|]. cbn [map].
  clear. revert m; induction r as [|y r IH]; intro m; cbn [fold_left map]; [reflexivity|].
  rewrite IH, sel_madd. reflexivity.
Qed.
Lemma tensor_conv1d_col ps name devices (x : tensor) pn r :
  tensor_conv1d ps name devices x pn = Ok r -> tensor_conv1d ps name devices (colt x) pn = Ok (colt r).
Proof.
  unfold tensor_conv1d. destruct (mapM _ devices) as [parts|e]; cbn [bind]; [|discriminate].
  destruct parts as [|p parts]; [discriminate|].
  destruct (concat_features (map (conv1d x) (p :: parts))) as [y|e] eqn:E; cbn [bind]; [|discriminate].
  apply concat_features_col in E. rewrite map_map in E.
  rewrite (map_ext _ (conv1d (colt x)) (fun a => conv1d_col x a)) in E. rewrite E. cbn [bind].
  destruct (get_bias _ _ _ _) as [b|e]; cbn [bind]; [|discriminate]. intro H.
  match type of H with Ok ?z = _ => assert (r = z) as -> by congruence end. f_equal. symmetry. apply map_sel_maps.
Qed.

(** Dropout *)
Lemma seq_map2_sel X Y (f : nat -> X -> Y) n (l : list X) k :
  sel k (map2 f (seq n (length l)) l) = map2 (fun _ => f (n + k)) (seq 0 (length (sel k l))) (sel k l).
Proof.
  revert n k; induction l as [|x l IH]; intros n k; [destruct k; reflexivity|].
  destruct k as [|k]; unfold sel; cbn [length seq map2 nth_error].
  - rewrite Nat.add_0_r. reflexivity.
  - fold (sel k (map2 f (seq (S n) (length l)) l)). fold (sel k l). rewrite IH. replace (S n + k) with (n + S k) by lia. reflexivity.
Qed.
Lemma dropout_col scale f (x : tensor) :
  colt (dropout scale (Some f) x) = dropout scale (Some (fun t _ i => f t s i)) (colt x).
Proof.
  unfold dropout, mapi. rewrite map_length, map_map2, map2_map_r. apply map2_ext. intros t m.
  rewrite seq_map2_sel. reflexivity.
Qed.

Lemma features_col v x : features v = Ok x -> features (colv v) = Ok (colt x).
Proof. destruct v; cbn; congruence. Qed.
Lemma layer_input_col (ins : list (value A * nat)) x :
  (do fs <- mapM (fun v => features (fst v)) ins; concat_features fs) = Ok x ->
  (do fs <- mapM (fun v => features (fst v)) (map colo ins); concat_features fs) = Ok (colt x).
Proof.
  destruct (mapM _ ins) as [fs|e] eqn:E; cbn [bind]; [|discriminate]. intro H.
  rewrite (mapM_map_ok _ _ _ _ _ (fun v : value A * nat => features (fst v)) colo colt _ _ ltac:(intros v y _; apply features_col) E).
  cbn [bind]. apply concat_features_col, H.
Qed.

Lemma addition_col ps name devices size (xs : list (tensor * nat)) k ts :
  mapM (addition_input ps name devices size) (combine (seq k (length xs)) xs) = Ok ts ->
  mapM (addition_input ps name devices size) (combine (seq k (length xs)) (map (fun p => (colt (fst p), snd p)) xs)) = Ok (map colt ts).
Proof.
  revert k ts; induction xs as [|[x z] xs IH]; intros k ts; cbn [length seq combine map mapM].
  - intro H. assert (ts = []) as -> by congruence. reflexivity.
  - destruct (addition_input _ _ _ _ (k, (x, z))) as [y|e] eqn:E; cbn [bind]; [|discriminate].
    destruct (mapM _ (combine _ xs)) as [ys|e] eqn:E'; cbn [bind]; [|discriminate]. intro H.
    assert (ts = y :: ys) as -> by congruence. rewrite (IH _ _ E').
    assert (F : addition_input ps name devices size (k, (colt (fst (x, z)), snd (x, z))) = Ok (colt y)).
    { unfold addition_input in *. cbn [fst snd]. destruct (z =? size); [congruence|]. apply tensor_preact_col, E. }
    rewrite F. reflexivity.
Qed.
Lemma sum_tensors_col (l : list tensor) r : sum_tensors l = Ok r -> sum_tensors (map colt l) = Ok (colt r).
Proof.
  destruct l as [|x l]; cbn [sum_tensors map]; [discriminate|]. intro H.
  assert (r = fold_left (map2 madd) l x) as -> by congruence. f_equal.
  clear H. revert x; induction l as [|y l IH]; intro x; cbn [fold_left map]; [reflexivity|].
  rewrite <- IH. f_equal. symmetry. apply map_sel_map2. intros; apply sel_madd.
Qed.

Lemma eval_layer_col b outs i j l v st :
  eval_layer Minibatch b outs i j l = Ok (v, st) ->
  eval_layer Minibatch (col b) (map colo outs) i j l = Ok (colv v, st).
Proof.
  unfold eval_layer.
  destruct (mapM (py_index outs) (l_inputs l)) as [ins|e] eqn:EI; cbn [bind]; [|discriminate].
  assert (EI' : mapM (py_index (map colo outs)) (l_inputs l) = Ok (map colo ins)).
  { rewrite <- (map_id (l_inputs l)). revert EI. apply mapM_map_ok.
    intros k o _ H. unfold py_index in *. rewrite nth_error_map. destruct (nth_error outs k); cbn; congruence. }
  rewrite EI'. cbn [bind].
  pose proof (layer_input_col ins) as LI.
  destruct (do fs <- mapM (fun v => features (fst v)) ins; concat_features fs) as [x|e] eqn:EX; cbn [bind].
  2: { destruct (l_kind l); try discriminate.
    - (* inputs *) intro H. injection H as <- <-. reflexivity.
    - intro H. injection H as <- <-. reflexivity.
    - (* projection *) destruct ins as [|[[ids|?] z] [|? ?]]; cbn [map colo colv fst snd]; try discriminate.
      destruct (mapM _ (l_devices l)) as [parts|] eqn:E; cbn [bind]; [|discriminate].
      assert (E' : mapM (fun d => do w <- get_weight (l_params l) (l_name l) (str "W") d;
                  mapM (mapM (fun i0 => mapM (fun column => py_index column i0) w)) (colt ids)) (l_devices l) = Ok (map colt parts)).
      { rewrite <- (map_id (l_devices l)). revert E. apply mapM_map_ok.
        intros d y _. destruct (get_weight _ _ _ _) as [w|]; cbn [bind]; [|discriminate].
        apply mapM_map_ok. intros r y' _. apply mapM_sel. }
      rewrite E'. cbn [bind]. destruct (concat_features parts) as [y|] eqn:C; cbn [bind]; [|discriminate].
      rewrite (concat_features_col _ _ C). cbn [bind]. intro H. injection H as <- <-. reflexivity.
    - (* GLU *) destruct ins as [|[[?|x] z] [|? ?]]; cbn [map colo colv fst snd] in *; try discriminate.
    - (* addition *) destruct (mapM (fun v => do x <- features (fst v); Ok (x, snd v)) ins) as [xs|] eqn:E; cbn [bind]; [|discriminate].
      intro H0. exfalso. destruct ins as [|o ins].
      + cbn in E. assert (xs = []) as -> by congruence. cbn in *. discriminate.
      + assert (F : forall l r, mapM (fun v => do x <- features (fst v); Ok (x, snd v)) l = Ok r ->
                     exists r', mapM (fun v : value A * nat => features (fst v)) l = Ok r').
        { clear. induction l as [|a l IH]; intros r H; cbn [mapM] in *; [eauto|].
          destruct (features (fst a)); cbn [bind] in *; [|discriminate].
          destruct (mapM _ l) as [q|] eqn:E; cbn [bind] in H; [|discriminate]. destruct (IH _ eq_refl) as (r' & ->). cbn. eauto. }
        destruct (F _ _ E) as (r' & Er). cbn [mapM] in Er, EX.
        destruct (features (fst o)) as [y|]; cbn [bind] in *; [|discriminate].
        destruct (mapM (fun v : value A * nat => features (fst v)) ins) as [ys|]; cbn [bind] in *; [|discriminate].
        cbn in EX. discriminate. }
  specialize (LI x eq_refl). rewrite LI.
  cbn [bind].
  destruct (l_kind l) as [| | | | | | | | |fz| | | | | |]; cbn [col b_words b_classes b_mask b_dropout].
  - intro H. injection H as <- <-. reflexivity.
  - intro H. injection H as <- <-. reflexivity.
  - destruct ins as [|[[ids|?] z] [|? ?]]; cbn [map colo colv fst snd] in *; try discriminate.
  - destruct (tensor_preact _ _ _ x _ _) as [p|e] eqn:P; cbn [bind]; [|discriminate].
    rewrite (tensor_preact_col _ _ _ _ _ _ _ P). cbn [bind]. intro H. injection H as <- <-.
    cbn [colv]. do 3 f_equal. symmetry. apply map_sel_map. intro; apply sel_mmap.
  - destruct (lstm_minibatch _ _ _ _ _ _ _ x) as [p|e] eqn:P; cbn [bind]; [|discriminate].
    rewrite (lstm_minibatch_col _ _ _ _ _ _ _ _ _ P). cbn [bind]. intro H. injection H as <- <-. reflexivity.
  - destruct (gru_minibatch _ _ _ _ _ _ x) as [p|e] eqn:P; cbn [bind]; [|discriminate].
    rewrite (gru_minibatch_col _ _ _ _ _ _ _ _ P). cbn [bind]. intro H. injection H as <- <-. reflexivity.
  - destruct (lstm_minibatch _ _ _ _ _ false _ x) as [p|e] eqn:P; cbn [bind]; [|discriminate].
    rewrite (lstm_minibatch_col _ _ _ _ _ _ _ _ _ P). cbn [bind].
    destruct (lstm_minibatch _ _ _ _ _ true _ x) as [q|e] eqn:Q; cbn [bind]; [|discriminate].
    rewrite (lstm_minibatch_col _ _ _ _ _ _ _ _ _ Q). cbn [bind].
    destruct (concat_features [p; q]) as [y|] eqn:C; cbn [bind]; [|discriminate].
    apply concat_features_col in C. cbn [map] in C. rewrite C. cbn [bind]. intro H. injection H as <- <-. reflexivity.
  - destruct (gru_minibatch _ _ _ _ false _ x) as [p|e] eqn:P; cbn [bind]; [|discriminate].
    rewrite (gru_minibatch_col _ _ _ _ _ _ _ _ P). cbn [bind].
    destruct (gru_minibatch _ _ _ _ true _ x) as [q|e] eqn:Q; cbn [bind]; [|discriminate].
    rewrite (gru_minibatch_col _ _ _ _ _ _ _ _ Q). cbn [bind].
    destruct (concat_features [p; q]) as [y|] eqn:C; cbn [bind]; [|discriminate].
    apply concat_features_col in C. cbn [map] in C. rewrite C. cbn [bind]. intro H. injection H as <- <-. reflexivity.
  - destruct (tensor_preact _ _ _ x _ _) as [p|e] eqn:P; cbn [bind]; [|discriminate].
    rewrite (tensor_preact_col _ _ _ _ _ _ _ P). cbn [bind]. intro H. injection H as <- <-.
    cbn [colv]. do 3 f_equal. symmetry.
    rewrite map_sel_map2 by (intros; apply sel_madd). rewrite !map_sel_map2 by (intros; apply sel_mmul).
    rewrite !map_sel_map by (intros; repeat (rewrite sel_mmap || rewrite sel_submatrix); reflexivity). reflexivity.
  - destruct ins as [|[[ids|y] z] [|? ?]]; cbn [map colo colv fst snd] in *; try discriminate.
    destruct (tensor_conv1d _ _ _ _ _) as [p|e] eqn:P; cbn [bind]; [|discriminate].
    apply tensor_conv1d_col in P. rewrite map_app, map_repeat, sel_zeros, <- num_sequences_col in P.
    rewrite P. cbn [bind]. intro H. injection H as <- <-. cbn [colv]. do 3 f_equal. symmetry.
    apply map_sel_map. intro; repeat (rewrite sel_mmul || rewrite sel_mmap || rewrite sel_submatrix); reflexivity.
  - destruct (mapM (fun v => do x <- features (fst v); Ok (x, snd v)) ins) as [xs|e] eqn:E; cbn [bind]; [|discriminate].
    assert (E' : mapM (fun v => do x <- features (fst v); Ok (x, snd v)) (map colo ins) = Ok (map (fun p : tensor * nat => (colt (fst p), snd p)) xs)).
    { revert E. apply mapM_map_ok. intros o y _. cbn [colo fst snd]. destruct (features (fst o)) as [z|] eqn:F; cbn [bind]; [|discriminate].
      rewrite (features_col _ _ F). cbn [bind]. intro H. injection H as <-. reflexivity. }
    rewrite E'. cbn [bind]. rewrite map_length.
    destruct (mapM (addition_input _ _ _ _) _) as [ts|e] eqn:F; cbn [bind]; [|discriminate].
    rewrite (addition_col _ _ _ _ _ _ _ F). cbn [bind].
    destruct (sum_tensors ts) as [y|] eqn:G; cbn [bind]; [|discriminate]. rewrite (sum_tensors_col _ _ G). cbn [bind].
    intro H. injection H as <- <-. reflexivity.
  - intro H. injection H as <- <-. cbn [colv]. do 3 f_equal.
    destruct (b_dropout b) as [f|]; [symmetry; apply dropout_col|reflexivity].
  - destruct (lstm_minibatch _ _ _ _ _ _ _ x) as [p|e] eqn:P; cbn [bind]; [|discriminate].
    rewrite (lstm_minibatch_col _ _ _ _ _ _ _ _ _ P). cbn [bind]. intro H. injection H as <- <-. reflexivity.
  - destruct (gru_minibatch _ _ _ _ _ _ x) as [p|e] eqn:P; cbn [bind]; [|discriminate].
    rewrite (gru_minibatch_col _ _ _ _ _ _ _ _ P). cbn [bind]. intro H. injection H as <- <-. reflexivity.
  - destruct (lstm_minibatch _ _ _ (l_size l - _) _ _ _ x) as [p|e] eqn:P; cbn [bind]; [|discriminate].
    rewrite (lstm_minibatch_col _ _ _ _ _ _ _ _ _ P). cbn [bind].
    destruct (lstm_minibatch _ _ _ (l_size l / 2) _ _ _ x) as [q|e] eqn:Q; cbn [bind]; [|discriminate].
    rewrite (lstm_minibatch_col _ _ _ _ _ _ _ _ _ Q). cbn [bind].
    destruct (concat_features [p; q]) as [y|] eqn:C; cbn [bind]; [|discriminate].
    apply concat_features_col in C. cbn [map] in C. rewrite C. cbn [bind]. intro H. injection H as <- <-. reflexivity.
  - destruct (gru_minibatch _ _ _ (l_size l - _) _ _ x) as [p|e] eqn:P; cbn [bind]; [|discriminate].
    rewrite (gru_minibatch_col _ _ _ _ _ _ _ _ P). cbn [bind].
    destruct (gru_minibatch _ _ _ (l_size l / 2) _ _ x) as [q|e] eqn:Q; cbn [bind]; [|discriminate].
    rewrite (gru_minibatch_col _ _ _ _ _ _ _ _ Q). cbn [bind].
    destruct (concat_features [p; q]) as [y|] eqn:C; cbn [bind]; [|discriminate].
    apply concat_features_col in C. cbn [map] in C. rewrite C. cbn [bind]. intro H. injection H as <- <-. reflexivity.
Qed.

Lemma eval_layers_col b ls : forall outs i j outs' st,
  eval_layers Minibatch b outs i j ls = Ok (outs', st) ->
  eval_layers Minibatch (col b) (map colo outs) i j ls = Ok (map colo outs', st).
Proof.
  induction ls as [|l ls IH]; intros outs i j outs' st; cbn [eval_layers].
  - intro H. injection H as <- <-. reflexivity.
  - destruct (eval_layer _ _ outs _ _ l) as [[v st1]|e] eqn:E; cbn [bind]; [|discriminate].
    destruct (eval_layers _ _ (outs ++ _) _ _ ls) as [[o2 st2]|e] eqn:F; cbn [bind]; [|discriminate].
    intro H. injection H as <- <-. rewrite (eval_layer_col _ _ _ _ _ _ _ E). cbn [bind].
    apply IH in F. rewrite map_app in F. cbn [map] in F. unfold colo at 2 in F. cbn [fst snd] in F. rewrite F. reflexivity.
Qed.

Lemma output_inputs_col (n : network A) outs ins :
  mapM (py_index outs) (n_inputs n) = Ok ins -> mapM (py_index (map colo outs)) (n_inputs n) = Ok (map colo ins).
Proof.
  rewrite <- (map_id (n_inputs n)) at 2. apply mapM_map_ok.
  intros k o _ H. unfold py_index in *. rewrite nth_error_map. destruct (nth_error outs k); cbn; congruence.
Qed.

Theorem eval_network_col (n : network A) b p st :
  eval_network n Minibatch b = Ok (p, st) -> eval_network n Minibatch (col b) = Ok (colt p, st).
Proof.
  unfold eval_network.
  destruct (eval_layers _ b [] _ _ _) as [[outs st']|e] eqn:E; cbn [bind]; [|discriminate].
  rewrite (eval_layers_col _ _ _ _ _ _ _ E : eval_layers Minibatch (col b) [] 0 0 (n_layers n) = _). cbn [bind].
  destruct (mapM (py_index outs) (n_inputs n)) as [ins|e] eqn:EI; cbn [bind]; [|discriminate].
  rewrite (output_inputs_col _ _ _ EI). cbn [bind].
  pose proof (layer_input_col ins) as LI.
  destruct (mapM _ ins) as [fs|e] eqn:EF; cbn [bind] in *; [|discriminate].
  destruct (concat_features fs) as [x|e]; cbn [bind]; [|discriminate]. specialize (LI x eq_refl).
  destruct (mapM _ (map colo ins)) as [fs'|e]; cbn [bind] in *; [|discriminate]. rewrite LI. cbn [bind].
  destruct (n_kind n).
  - unfold softmax_layer. destruct (tensor_preact _ _ _ x _ _) as [q|e] eqn:P; cbn [bind]; [|discriminate].
    rewrite (tensor_preact_col _ _ _ _ _ _ _ P). cbn [bind].
    match goal with |- context [if 1 <? ?k then ?y else ?z] => destruct (if 1 <? k then y else z) as [u|] end; cbn [bind]; [|discriminate].
    intro H. injection H as <- <-. rewrite map_sel_maps. reflexivity.
  - unfold hsoftmax_layer. destruct (1 <? _); cbn [bind]; [discriminate|].
    destruct (get_weight _ _ _ _); cbn [bind]; [|discriminate]. destruct (get_bias _ _ _ _); cbn [bind]; [|discriminate].
    destruct (get_level_weight _ _ _ _); cbn [bind]; [|discriminate]. destruct (get_level_bias _ _ _ _); cbn [bind]; [|discriminate].
    intro H. injection H as <- <-. rewrite map_sel_maps. reflexivity.
Qed.
End Columns.
