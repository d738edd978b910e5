(** Arrays that are given by a function of the indices. *)
From Verif Require Import Base BaseLib ListLib Strings NumStr ParamModel NetModel NetSpec NetColumns NetSteps NetShape
  DeviceModel BuildModel BuildSpec BuildShape EquationSpec.
Local Open Scope nat_scope.

Definition tabv {X} (F : nat) (f : nat -> X) : list X := map f (seq 0 F).
Definition tabm {X} (N F : nat) (f : nat -> nat -> X) : list (list X) := tabv N (fun s => tabv F (f s)).
Definition tab {X} (T N F : nat) (f : nat -> nat -> nat -> X) : list (list (list X)) := tabv T (fun t => tabm N F (f t)).

Lemma tabv_ext X F (f g : nat -> X) : (forall k, k < F -> f k = g k) -> tabv F f = tabv F g.
Proof. intro H. apply map_ext_in. intros k Hk. apply in_seq in Hk. apply H. lia. Qed.
Lemma tabm_ext X N F (f g : nat -> nat -> X) : (forall s k, s < N -> k < F -> f s k = g s k) -> tabm N F f = tabm N F g.
Proof. intro H. apply tabv_ext. intros s Hs. apply tabv_ext. auto. Qed.
Lemma tab_ext X T N F (f g : nat -> nat -> nat -> X) : (forall t s k, t < T -> s < N -> k < F -> f t s k = g t s k) -> tab T N F f = tab T N F g.
Proof. intro H. apply tabv_ext. intros t Ht. apply tabm_ext. auto. Qed.
Lemma tabv_length X F (f : nat -> X) : length (tabv F f) = F.
Proof. unfold tabv. now rewrite map_length, seq_length. Qed.
Lemma tabv_nth X F (f : nat -> X) k : k < F -> nth_error (tabv F f) k = Some (f k).
Proof. intro H. unfold tabv. rewrite nth_error_map, nth_error_seq. destruct (Nat.ltb_spec k F); [reflexivity|lia]. Qed.
Lemma map_tabv X Y (g : X -> Y) F f : map g (tabv F f) = tabv F (fun k => g (f k)).
Proof. unfold tabv. apply map_map. Qed.
Lemma map2_tabv X Y Z (g : X -> Y -> Z) F f f' : map2 g (tabv F f) (tabv F f') = tabv F (fun k => g (f k) (f' k)).
Proof. unfold tabv. induction (seq 0 F) as [|k l IH]; cbn [map map2]; [reflexivity|]. now rewrite IH. Qed.
Lemma combine_tabv X Y F (f : nat -> X) (g : nat -> Y) : combine (tabv F f) (tabv F g) = tabv F (fun k => (f k, g k)).
Proof. unfold tabv. induction (seq 0 F) as [|k l IH]; cbn [map combine]; [reflexivity|]. now rewrite IH. Qed.
Lemma seq_shift' a n : seq a n = map (fun k => a + k) (seq 0 n).
Proof.
  revert a; induction n as [|n IH]; intro a; cbn [seq map]; [reflexivity|]. rewrite Nat.add_0_r, IH, (IH 1), map_map. f_equal. apply map_ext. intro. lia.
Qed.
Lemma app_tabv X F G (f g : nat -> X) : tabv F f ++ tabv G g = tabv (F + G) (fun k => if k <? F then f k else g (k - F)).
Proof.
  unfold tabv. rewrite seq_app, map_app. f_equal.
  - apply map_ext_in. intros k Hk. apply in_seq in Hk. destruct (Nat.ltb_spec k F); [reflexivity|lia].
  - cbn [Nat.add]. rewrite (seq_shift' F), map_map. apply map_ext. intro k. destruct (Nat.ltb_spec (F + k) F); [lia|]. f_equal. lia.
Qed.
Lemma skipn_tabv X n F (f : nat -> X) : skipn n (tabv F f) = tabv (F - n) (fun k => f (n + k)).
Proof.
  unfold tabv. rewrite skipn_map. revert f F; induction n as [|n IH]; intros f F; cbn [skipn]; [now rewrite Nat.sub_0_r|].
  destruct F as [|F]; [reflexivity|]. cbn [seq skipn]. rewrite <- seq_shift, skipn_map, map_map, (IH (fun x => f (S x)) F). reflexivity.
Qed.
Lemma firstn_seq' m a F : firstn m (seq a F) = seq a (Nat.min m F).
Proof. revert a F; induction m as [|m IH]; intros a [|F]; cbn; try reflexivity. now rewrite IH. Qed.
Lemma firstn_tabv X n F (f : nat -> X) : firstn n (tabv F f) = tabv (Nat.min n F) f.
Proof. unfold tabv. now rewrite firstn_map, firstn_seq'. Qed.
Lemma rev_tabv X F (f : nat -> X) : rev (tabv F f) = tabv F (fun k => f (F - 1 - k)).
Proof.
  apply nth_error_ext. intro i. destruct (Nat.ltb_spec i F) as [H|H].
  - rewrite tabv_nth by exact H. rewrite (nth_error_nth' _ (f 0)); [|rewrite rev_length, tabv_length; exact H]. f_equal.
    rewrite rev_nth by (now rewrite tabv_length). rewrite tabv_length. apply nth_error_nth. rewrite tabv_nth by lia. f_equal. f_equal. lia.
  - rewrite !(proj2 (nth_error_None _ _)); [reflexivity|rewrite tabv_length; exact H|rewrite rev_length, tabv_length; exact H].
Qed.
Lemma list_tabv X (d : X) l n : length l = n -> l = tabv n (fun i => nth i l d).
Proof.
  intros <-. apply nth_error_ext. intro i. destruct (Nat.ltb_spec i (length l)) as [H|H].
  - rewrite tabv_nth by exact H. now apply nth_error_nth'.
  - rewrite !(proj2 (nth_error_None _ _)); [reflexivity|rewrite tabv_length; exact H|exact H].
Qed.
Lemma rect_tabm X (d : X) N F (m : list (list X)) : rectangle N F m -> m = tabm N F (fun s k => nth k (nth s m []) d).
Proof.
  intros [L H]. rewrite (list_tabv _ [] m N L) at 1. apply tabv_ext. intros s Hs. apply list_tabv.
  rewrite Forall_forall in H. apply H. apply nth_In. lia.
Qed.
Lemma repeat_tabv X n (x : X) : repeat x n = tabv n (fun _ => x).
Proof. unfold tabv. generalize 0. induction n as [|n IH]; intro a; cbn; [reflexivity|]. f_equal. apply IH. Qed.
Lemma mapi_tabv X Y (g : nat -> X -> Y) F f : mapi g (tabv F f) = tabv F (fun k => g k (f k)).
Proof. unfold mapi. rewrite tabv_length. replace (seq 0 F) with (tabv F (fun k => k)) by apply map_id. apply map2_tabv. Qed.
Lemma tab_box X T N F (f : nat -> nat -> nat -> X) : tensor_shape T N F (tab T N F f).
Proof.
  split; [apply tabv_length|]. unfold tab, tabv at 1. apply Forall_map, Forall_forall. intros t _. split; [apply tabv_length|].
  unfold tabm, tabv at 1. apply Forall_map, Forall_forall. intros s _. apply tabv_length.
Qed.

Lemma nth_firstn_lt X n : forall (l : list X) c, c < n -> nth_error (firstn n l) c = nth_error l c.
Proof. induction n as [|n IH]; intros [|x l] [|c] H; cbn; try lia; try reflexivity. apply IH. lia. Qed.

Section Tab.
Context {A : arith}.
Notation num := (num A).
Notation vec := (list num).
Notation matrix := (list (list num)).
Notation tensor := (list (list (list num))).
Variable initial : pystr -> pystr -> nat -> nat -> nat -> num.
Notation linear := (linear initial).
Notation affine := (affine initial).

Lemma mmap_tab (g : num -> num) N F f : mmap g (tabm N F f) = tabm N F (fun s k => g (f s k)).
Proof. unfold mmap, tabm. rewrite map_tabv. apply tabv_ext. intros s _. apply map_tabv. Qed.
Lemma mmap2_tab (g : num -> num -> num) N F f f' : mmap2 g (tabm N F f) (tabm N F f') = tabm N F (fun s k => g (f s k) (f' s k)).
Proof. unfold mmap2, tabm. rewrite map2_tabv. apply tabv_ext. intros s _. apply map2_tabv. Qed.
Lemma sum_tab F (f : nat -> num) : vsum (tabv F f) = sum_to F f.
Proof. reflexivity. Qed.
Lemma sum_to_ext F (f g : nat -> num) : (forall k, k < F -> f k = g k) -> sum_to F f = sum_to F g.
Proof. intro H. unfold sum_to. f_equal. now apply tabv_ext. Qed.
Lemma dot_tab F (x w : nat -> num) : dotv (tabv F x) (tabv F w) = sum_to F (fun j => mul (x j) (w j)).
Proof. unfold dotv. rewrite map2_tabv. apply sum_tab. Qed.
Lemma matrix_tab layer name i r c : new_matrix initial layer name i r c = tabv c (fun k => tabv r (fun j => initial layer name i j k)).
Proof. reflexivity. Qed.
Lemma bias_tab layer name c : new_bias initial layer name c = tabv c (fun k => initial layer name 0 0 k).
Proof. reflexivity. Qed.
Lemma linear_ext layer name i n x y k : (forall j, j < n -> x j = y j) -> linear layer name i n x k = linear layer name i n y k.
Proof. intro H. apply sum_to_ext. intros j Hj. now rewrite H. Qed.
Lemma affine_ext layer name n x y k : (forall j, j < n -> x j = y j) -> affine layer name n x k = affine layer name n y k.
Proof. intro H. unfold EquationSpec.affine. f_equal. now apply linear_ext. Qed.
Lemma row_tab layer name i n c x : map (dotv (tabv n x)) (new_matrix initial layer name i n c) = tabv c (fun k => linear layer name i n x k).
Proof. rewrite matrix_tab, map_tabv. apply tabv_ext. intros k _. apply dot_tab. Qed.
Lemma mdot_tab layer name i N n c x : mdot (tabm N n x) (new_matrix initial layer name i n c) = tabm N c (fun s k => linear layer name i n (x s) k).
Proof. unfold mdot, tabm. rewrite map_tabv. apply tabv_ext. intros s _. apply row_tab. Qed.
Lemma preact_tab layer name T N n c x : preact_part true (tab T N n x) (new_matrix initial layer (name ++ str "/W")%list 0 n c, new_bias initial layer (name ++ str "/b")%list c) =
  tab T N c (fun t s k => affine layer name n (x t s) k).
Proof.
  unfold preact_part. cbn [fst snd]. unfold tab. rewrite !map_tabv. apply tabv_ext. intros t _. rewrite mdot_tab. unfold tabm. rewrite map_tabv.
  apply tabv_ext. intros s _. rewrite bias_tab, map2_tabv. reflexivity.
Qed.
Lemma preact_tab_no_bias layer name T N n c x : preact_part false (tab T N n x) (new_matrix initial layer name 0 n c, []) =
  tab T N c (fun t s k => linear layer name 0 n (x t s) k).
Proof. unfold preact_part. cbn [fst snd]. unfold tab. rewrite !map_tabv. apply tabv_ext. intros t _. apply mdot_tab. Qed.
Lemma sub_tab N F size i j (f : nat -> nat -> num) : i <= j -> (j + 1) * size <= F ->
  get_submatrix (tabm N F f) i size j = tabm N ((j + 1 - i) * size) (fun s k => f s (i * size + k)).
Proof.
  intros I H. unfold get_submatrix, tabm. rewrite map_tabv. apply tabv_ext. intros s _. rewrite skipn_tabv, firstn_tabv.
  replace (Nat.min _ _) with ((j + 1 - i) * size); [reflexivity|]. rewrite <- Nat.mul_sub_distr_r. rewrite Nat.min_l; [reflexivity|].
  rewrite Nat.mul_sub_distr_r. apply Nat.sub_le_mono_r. exact H.
Qed.
Lemma sub1_tab N F size i (f : nat -> nat -> num) : (i + 1) * size <= F ->
  get_submatrix (tabm N F f) i size i = tabm N size (fun s k => f s (i * size + k)).
Proof. intro H. rewrite sub_tab by (auto; lia). replace (i + 1 - i) with 1 by lia. now rewrite Nat.mul_1_l. Qed.
Lemma switch_tab N F (m : nat -> bool) (f g : nat -> nat -> num) :
  switch (tabv N m) (tabm N F f) (tabm N F g) = tabm N F (fun s k => if m s then f s k else g s k).
Proof.
  unfold switch, tabm. rewrite combine_tabv, map2_tabv. apply tabv_ext. intros s _. destruct (m s); reflexivity.
Qed.
Lemma zeros_tab N F : zeros (A := A) N F = tabm N F (fun _ _ => zero).
Proof. unfold zeros, tabm. rewrite !repeat_tabv. reflexivity. Qed.

(** ** Recurrent layers *)
Lemma tuple_eq X Y (a c : X) (d e : Y) : a = c -> d = e -> (a, d) = (c, e).
Proof. now intros -> ->. Qed.
Lemma lstm_step_tab layer N size act (valid : nat -> nat -> bool) (z : nat -> nat -> nat -> num) u :
  lstm_step size act (new_matrix initial layer (str "step_input/W") 0 size (4 * size)) (tabv N (valid u)) (tabm N (4 * size) (z u))
    (tabm N size (fun s => fst (lstm initial layer size act (fun u => valid u s) (fun u => z u s) u)),
     tabm N size (fun s => snd (lstm initial layer size act (fun u => valid u s) (fun u => z u s) u))) =
  (tabm N size (fun s => fst (lstm initial layer size act (fun u => valid u s) (fun u => z u s) (S u))),
   tabm N size (fun s => snd (lstm initial layer size act (fun u => valid u s) (fun u => z u s) (S u)))).
Proof.
  unfold lstm_step. rewrite mdot_tab. unfold madd, mmul. rewrite !mmap2_tab. rewrite !sub1_tab by lia. rewrite !mmap_tab, !mmap2_tab, !mmap_tab, !mmap2_tab, !switch_tab.
  apply tuple_eq; apply tabm_ext; intros s k _ _; cbn [EquationSpec.lstm];
    destruct (EquationSpec.lstm initial layer size act (fun u0 => valid u0 s) (fun u0 => z u0 s) u) as [c h]; cbn [fst snd];
    rewrite ?Nat.mul_0_l, ?Nat.mul_1_l, ?Nat.add_0_l; destruct (valid u s); reflexivity.
Qed.
Lemma gru_step_tab layer N size (valid : nat -> nat -> bool) (z : nat -> nat -> nat -> num) u :
  gru_step size (new_matrix initial layer (str "step_input/W") 0 size (3 * size)) (tabv N (valid u)) (tabm N (3 * size) (z u))
    (tabm N size (fun s => gru initial layer size (fun u => valid u s) (fun u => z u s) u)) =
  tabm N size (fun s => gru initial layer size (fun u => valid u s) (fun u => z u s) (S u)).
Proof.
  unfold gru_step. rewrite mdot_tab. unfold madd, mmul. rewrite !(sub_tab N (3 * size) size 0 1) by lia. rewrite mmap2_tab.
  rewrite !(sub1_tab N (3 * size) size 2) by lia. rewrite !(sub1_tab N ((1 + 1 - 0) * size)) by lia.
  rewrite !mmap_tab, !mmap2_tab, !mmap_tab, !mmap2_tab, !switch_tab.
  apply tabm_ext; intros s k _ _. cbn [gru]. rewrite ?Nat.mul_0_l, ?Nat.mul_1_l, ?Nat.add_0_l. destruct (valid u s); reflexivity.
Qed.
Lemma scan_tab S (step : list bool -> matrix -> S -> S) (m : nat -> list bool) (z : nat -> matrix) (st : nat -> S) :
  (forall u, step (m u) (z u) (st u) = st (1 + u)) -> forall n a, scan step (map (fun u => (m u, z u)) (seq a n)) (st a) = map (fun u => st (1 + u)) (seq a n).
Proof. intros H n. induction n as [|n IH]; intro a; cbn [seq map scan]; [reflexivity|]. rewrite H. cbv zeta. f_equal. apply IH. Qed.
Lemma lstm_scan_tab layer T N size act (valid : nat -> nat -> bool) (z : nat -> nat -> nat -> num) :
  map snd (scan (lstm_step size act (new_matrix initial layer (str "step_input/W") 0 size (4 * size)))
                (tabv T (fun u => (tabv N (valid u), tabm N (4 * size) (z u)))) (zeros N size, zeros N size)) =
  tab T N size (fun t s k => snd (lstm initial layer size act (fun u => valid u s) (fun u => z u s) (1 + t)) k).
Proof.
  rewrite zeros_tab. unfold tabv at 1.
  eapply eq_trans; [apply (f_equal (map snd)); exact (scan_tab _ _ (fun u => tabv N (valid u)) (fun u => tabm N (4 * size) (z u))
    (fun u => (tabm N size (fun s => fst (lstm initial layer size act (fun u => valid u s) (fun u => z u s) u)),
               tabm N size (fun s => snd (lstm initial layer size act (fun u => valid u s) (fun u => z u s) u)))) (fun u => lstm_step_tab layer N size act valid z u) T 0)|].
  rewrite map_map. reflexivity.
Qed.
Lemma gru_scan_tab layer T N size (valid : nat -> nat -> bool) (z : nat -> nat -> nat -> num) :
  scan (gru_step size (new_matrix initial layer (str "step_input/W") 0 size (3 * size)))
                (tabv T (fun u => (tabv N (valid u), tabm N (3 * size) (z u)))) (zeros N size) =
  tab T N size (fun t s k => gru initial layer size (fun u => valid u s) (fun u => z u s) (1 + t) k).
Proof.
  rewrite zeros_tab. unfold tabv at 1.
  exact (scan_tab _ _ (fun u => tabv N (valid u)) (fun u => tabm N (3 * size) (z u))
    (fun u => tabm N size (fun s => gru initial layer size (fun u => valid u s) (fun u => z u s) u)) (fun u => gru_step_tab layer N size valid z u) T 0).
Qed.
Lemma lstm_ext layer size act valid (z z' : nat -> nat -> num) n : (forall u k, u < n -> k < 4 * size -> z u k = z' u k) ->
  forall k, k < size -> fst (lstm initial layer size act valid z n) k = fst (lstm initial layer size act valid z' n) k /\
                        snd (lstm initial layer size act valid z n) k = snd (lstm initial layer size act valid z' n) k.
Proof.
  induction n as [|n IH]; intros H k Hk; cbn [EquationSpec.lstm]; [auto|].
  assert (H' : forall u k, u < n -> k < 4 * size -> z u k = z' u k) by (intros; apply H; lia). specialize (IH H').
  destruct (EquationSpec.lstm initial layer size act valid z n) as [c h]. destruct (EquationSpec.lstm initial layer size act valid z' n) as [c' h']. cbn [fst snd] in IH.
  destruct (valid n); cbn [fst snd]; [|now apply IH].
  assert (L : forall j, linear layer (str "step_input/W") 0 size h j = linear layer (str "step_input/W") 0 size h' j) by (intro j; apply linear_ext; intros i Hi; apply (IH i Hi)).
  rewrite !L, (proj1 (IH k Hk)), !(H n) by lia. auto.
Qed.
Lemma gru_ext layer size valid (z z' : nat -> nat -> num) n : (forall u k, u < n -> k < 3 * size -> z u k = z' u k) ->
  forall k, k < size -> gru initial layer size valid z n k = gru initial layer size valid z' n k.
Proof.
  induction n as [|n IH]; intros H k Hk; cbn [gru]; [auto|].
  assert (H' : forall u k, u < n -> k < 3 * size -> z u k = z' u k) by (intros; apply H; lia). specialize (IH H').
  destruct (valid n); [|now apply IH].
  assert (L : forall j, linear layer (str "step_input/W") 0 size (gru initial layer size valid z n) j = linear layer (str "step_input/W") 0 size (gru initial layer size valid z' n) j) by (intro j; apply linear_ext; intros i Hi; apply (IH i Hi)).
  rewrite !L, (IH k Hk), !(H n) by lia. reflexivity.
Qed.
(** What a layer that processes the sequence in reverse gets *)
Lemma shifted_tab T N F (z : nat -> nat -> nat -> num) : T <> 0 ->
  firstn T (rev (shifted (tab T N F z) N)) =
  tabv T (fun u => tabm N F (fun s k => if T - 1 - u + 2 <? T then z (T - 1 - u + 2) s k else zero)).
Proof.
  intro HT. unfold shifted. assert (EZ : zeros (A := A) N (num_features (tab T N F z)) = tabm N F (fun _ _ => zero)).
  { rewrite zeros_tab. destruct T as [|T]; [contradiction|]. destruct N as [|n]; [reflexivity|]. replace (num_features (tab (S T) (S n) F z)) with F; [reflexivity|]. symmetry. apply (tabv_length _ F (z 0 0)). }
  rewrite EZ. change [tabm N F (fun _ _ => @zero A); tabm N F (fun _ _ => zero)] with (tabv 2 (fun _ => tabm N F (fun _ _ => @zero A))).
  unfold tab. rewrite skipn_tabv, app_tabv, rev_tabv, firstn_tabv. replace (Nat.min T (T - 2 + 2)) with T by lia.
  apply tabv_ext. intros u Hu. destruct (Nat.ltb_spec (T - 2 + 2 - 1 - u) (T - 2)) as [L|L]; destruct (Nat.ltb_spec (T - 1 - u + 2) T) as [L'|L']; try lia; [|reflexivity].
  replace (2 + (T - 2 + 2 - 1 - u)) with (T - 1 - u + 2) by lia. reflexivity.
Qed.

(** ** Concatenation and sums *)
Lemma total_app (l : list (nat * (nat -> nat -> nat -> num))) sz x : total_size (l ++ [(sz, x)]) = total_size l + sz.
Proof. unfold total_size. rewrite map_app, fold_right_app. cbn. induction l as [|[s y] l IH]; cbn in *; lia. Qed.
Lemma joined_app (l : list (nat * (nat -> nat -> nat -> num))) sz x t s k : joined (l ++ [(sz, x)]) t s k =
  if k <? total_size l then joined l t s k else if k - total_size l <? sz then x t s (k - total_size l) else zero.
Proof.
  revert k. induction l as [|[z y] l IH]; intro k.
  - cbn [app joined total_size map fold_right]. rewrite Nat.sub_0_r. destruct (k <? 0) eqn:E; [apply Nat.ltb_lt in E; lia|reflexivity].
  - cbn [app joined]. rewrite IH. unfold total_size. cbn [map fst fold_right]. fold (total_size l).
    change (fold_right Nat.add 0 (map fst l)) with (total_size l).
    destruct (Nat.ltb_spec k z), (Nat.ltb_spec k (z + total_size l)), (Nat.ltb_spec (k - z) (total_size l)); try lia; try reflexivity.
    replace (k - z - total_size l) with (k - (z + total_size l)) by lia. reflexivity.
Qed.
Lemma app_tab T N F G (f g : nat -> nat -> nat -> num) : map2 (map2 (@app num)) (tab T N F f) (tab T N G g) =
  tab T N (F + G) (fun t s k => if k <? F then f t s k else g t s (k - F)).
Proof.
  unfold tab, tabm. rewrite map2_tabv. apply tabv_ext. intros t _. rewrite map2_tabv. apply tabv_ext. intros s _. apply app_tabv.
Qed.
Lemma fold_tab T N rest : forall l, fold_left (map2 (map2 (@app num))) (map (fun '(sz, x) => tab T N sz x) rest) (tab T N (total_size l) (joined l)) =
  tab T N (total_size (l ++ rest)) (joined (l ++ rest)).
Proof.
  induction rest as [|[sz x] rest IH]; intro l; cbn [map fold_left]; [now rewrite app_nil_r|].
  rewrite app_tab.
  assert (E : tab T N (total_size l + sz) (fun t s k => if k <? total_size l then joined l t s k else x t s (k - total_size l)) =
              tab T N (total_size (l ++ [(sz, x)])) (joined (l ++ [(sz, x)]))).
  { rewrite total_app. apply tab_ext. intros t s k _ _ Hk. rewrite joined_app. destruct (Nat.ltb_spec k (total_size l)); [reflexivity|].
    destruct (Nat.ltb_spec (k - total_size l) sz); [reflexivity|lia]. }
  rewrite E, IH, <- app_assoc. reflexivity.
Qed.
Lemma concat_tab T N l : l <> [] -> concat_features (map (fun '(sz, x) => tab (X := num) T N sz x) l) = Ok (tab T N (total_size l) (joined l)).
Proof.
  destruct l as [|[sz x] l]; [contradiction|]. intros _. cbn [map concat_features]. f_equal.
  assert (E : tab T N sz x = tab T N (total_size [(sz, x)]) (joined [(sz, x)])).
  { unfold total_size. cbn [map fst fold_right]. rewrite Nat.add_0_r. apply tab_ext. intros t s k _ _ Hk. cbn [joined]. destruct (Nat.ltb_spec k sz); [reflexivity|lia]. }
  rewrite E. exact (fold_tab T N l [(sz, x)]).
Qed.
Lemma sum_from_left_ext n (f g : nat -> num) : (forall i, i < n -> f i = g i) -> n <> 0 -> sum_from_left n f = sum_from_left n g.
Proof.
  intros H Hn. unfold sum_from_left. rewrite (H 0) by lia. generalize (g 0).
  assert (G : forall l a, (forall i, In i l -> f i = g i) -> fold_left (fun s i => add s (f i)) l a = fold_left (fun s i => add s (g i)) l a).
  { induction l as [|i l IH]; intros a K; cbn [fold_left]; [reflexivity|]. rewrite (K i) by now left. apply IH. intros. apply K. now right. }
  intro a. apply G. intros i Hi. apply in_seq in Hi. apply H. lia.
Qed.
Lemma fold_madd N F (x : nat -> nat -> nat -> num) l : forall a,
  fold_left madd (map (fun i => tabm N F (x i)) l) (tabm N F a) = tabm N F (fun s k => fold_left (fun v i => add v (x i s k)) l (a s k)).
Proof. induction l as [|i l IH]; intro a; cbn [map fold_left]; [reflexivity|]. unfold madd at 2. rewrite mmap2_tab. exact (IH _). Qed.
Lemma sum_left_tab N F n (x : nat -> nat -> nat -> num) : n <> 0 ->
  match tabv n (fun i => tabm N F (x i)) with [] => [] | m :: r => fold_left madd r m end = tabm N F (fun s k => sum_from_left n (fun i => x i s k)).
Proof.
  destruct n as [|n]; [contradiction|]. intros _. unfold tabv at 1. cbn [seq map]. rewrite fold_madd. unfold sum_from_left. cbn [Nat.sub]. rewrite Nat.sub_0_r. reflexivity.
Qed.
Lemma fold_tensors T N F (x : nat -> nat -> nat -> nat -> num) l : forall a,
  fold_left (map2 madd) (map (fun i => tab T N F (x i)) l) (tab T N F a) = tab T N F (fun t s k => fold_left (fun v i => add v (x i t s k)) l (a t s k)).
Proof.
  induction l as [|i l IH]; intro a; cbn [map fold_left]; [reflexivity|]. unfold tab at 2 3. rewrite map2_tabv.
  assert (E : tabv T (fun t => madd (tabm N F (a t)) (tabm N F (x i t))) = tab T N F (fun t s k => add (a t s k) (x i t s k))).
  { apply tabv_ext. intros t _. unfold madd. apply mmap2_tab. }
  rewrite E. exact (IH _).
Qed.
Lemma sum_tensors_tab T N F n (x : nat -> nat -> nat -> nat -> num) : n <> 0 ->
  sum_tensors (tabv n (fun i => tab T N F (x i))) = Ok (tab T N F (fun t s k => sum_from_left n (fun i => x i t s k))).
Proof.
  destruct n as [|n]; [contradiction|]. intros _. unfold tabv. cbn [seq map sum_tensors]. rewrite fold_tensors. unfold sum_from_left. cbn [Nat.sub]. rewrite Nat.sub_0_r. reflexivity.
Qed.

(** ** Convolution *)
Lemma windows_tab X k (f : nat -> X) n : forall a, k <> 0 ->
  windows k (map f (seq a n)) = map (fun t => map (fun i => f (t + i)) (seq 0 k)) (seq a (n + 1 - k)).
Proof.
  induction n as [|n IH]; intros a Hk; cbn [seq map windows].
  - replace (0 + 1 - k) with 0 by lia. reflexivity.
  - cbn [length]. rewrite map_length, seq_length. destruct (Nat.ltb_spec (S n) k) as [H|H].
    + replace (S n + 1 - k) with 0 by lia. reflexivity.
    + replace (S n + 1 - k) with (S (n + 1 - k)) by lia. cbn [seq map]. f_equal; [|now apply IH].
      change (f a :: map f (seq (S a) n)) with (map f (seq a (S n))). rewrite firstn_map, firstn_seq', Nat.min_l by lia. rewrite (seq_shift' a k), map_map. reflexivity.
Qed.
Lemma conv_tab layer name T N n c region (x : nat -> nat -> nat -> num) : region <> 0 ->
  conv1d (repeat (zeros N n) (region - 1) ++ tab T N n x) (new_matrices initial layer name region n c) =
  tab T N c (fun t s k => sum_from_left region (fun i => linear layer name i n
    (fun j => if t + i <? region - 1 then zero else x (t + i - (region - 1)) s j) k)).
Proof.
  intro HR. rewrite zeros_tab, repeat_tabv. unfold tab at 1. rewrite app_tabv. unfold conv1d.
  replace (length (new_matrices initial layer name region n c)) with region by (unfold new_matrices; now rewrite map_length, seq_length).
  unfold tabv at 1. rewrite windows_tab by exact HR. rewrite map_map. replace (region - 1 + T + 1 - region) with T by lia.
  apply tabv_ext. intros t _. cbv beta.
  unfold new_matrices. change (map (fun i => new_matrix initial layer name i n c) (seq 0 region)) with (tabv region (fun i => new_matrix initial layer name i n c)).
  match goal with |- context [map2 mdot ?w _] => change w with (tabv region (fun i => (fun k => if k <? region - 1 then tabm N n (fun _ _ => @zero A) else tabm N n (x (k - (region - 1)))) (t + i))) end.
  rewrite map2_tabv. rewrite <- sum_left_tab by exact HR.
  replace (tabv region _) with (tabv region (fun i => tabm N c (fun s k => linear layer name i n (fun j => if t + i <? region - 1 then zero else x (t + i - (region - 1)) s j) k))); [reflexivity|].
  apply tabv_ext. intros i _. cbv beta. destruct (t + i <? region - 1); now rewrite mdot_tab.
Qed.
Lemma dropout_tab T N F scale (p : nat -> nat -> nat -> bool) (x : nat -> nat -> nat -> num) :
  dropout scale (Some p) (tab T N F x) = tab T N F (fun t s k => mul (mul (x t s k) scale) (if p t s k then one else zero)).
Proof.
  unfold dropout, tab, tabm. rewrite mapi_tabv. apply tabv_ext. intros t _. rewrite mapi_tabv. apply tabv_ext. intros s _. apply mapi_tabv.
Qed.
End Tab.
