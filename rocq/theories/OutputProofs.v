(** Proofs about output layers. *)
From Coq Require Import Reals Lra.
From Verif Require Import Base BaseLib ListLib Strings ParamModel NetModel NetSpec NetColumns NetVisible NetReal DeviceModel DeviceSpec DeviceProofs DeviceNet OutputModel OutputSpec.
Local Open Scope nat_scope.

(** ** The levels *)
Lemma levels_ok n : 1 <= n -> exists l1 l2, level_sizes n = Ok (l1, l2) /\ (l1 - 1) * (l1 - 1) < n /\ n <= l1 * l1 /\
  n <= l1 * l2 /\ (l1 - 1) * l2 < n /\ l1 * (l2 - 1) < n /\ (l1 = l2 \/ l1 = l2 + 1).
Proof.
  intro H. pose proof (Nat.sqrt_up_spec n ltac:(lia)) as [L U]. unfold level_sizes. set (l1 := Nat.sqrt_up n) in *. clearbody l1.
  assert (P : l1 <> 0) by (intros ->; lia). set (l2 := (n + (l1 - 1)) / l1).
  assert (D : n <= l1 * l2 /\ l1 * (l2 - 1) < n).
  { unfold l2. pose proof (Nat.div_mod (n + (l1 - 1)) l1 P) as E. pose proof (Nat.mod_upper_bound (n + (l1 - 1)) l1 P). nia. }
  clearbody l2. destruct D as [D1 D2]. replace (Nat.pred l1) with (l1 - 1) in L by lia.
  assert (Q : l1 = l2 \/ l1 = l2 + 1) by nia. assert (R : (l1 - 1) * l2 < n) by nia.
  exists l1, l2. split; [|repeat split; lia].
  destruct (Nat.eqb_spec l1 0); [lia|]. destruct (Nat.leb_spec n (l1 * l2)); [|lia]. cbn [negb].
  destruct (Nat.ltb_spec ((l1 - 1) * l2) n); [|lia]. cbn [negb]. destruct (Nat.ltb_spec (l1 * (l2 - 1)) n); [|lia]. cbn [negb].
  destruct (Nat.eqb_spec l1 l2); [reflexivity|]. destruct (Nat.eqb_spec l1 (l2 + 1)); [reflexivity|lia].
Qed.

(** ** Rows *)
Lemma softmax_length A (v : list (option (num A))) : length (softmax v) = length v.
Proof. unfold softmax. now rewrite !map_length. Qed.
Lemma mapi_length X Y (f : nat -> X -> Y) l : length (mapi f l) = length l.
Proof. unfold mapi. rewrite map2_length', seq_length. lia. Qed.
Lemma nth_mapi X Y (f : nat -> X -> Y) l i : nth_error (mapi f l) i = option_map (f i) (nth_error l i).
Proof.
  unfold mapi. rewrite nth_error_map2. destruct (nth_error l i) eqn:E; cbn [option_map].
  - assert (i < length l) by (apply nth_error_Some; congruence).
    rewrite (nth_error_nth' (seq 0 (length l)) 0) by now rewrite seq_length. rewrite seq_nth by assumption. reflexivity.
  - destruct (nth_error (seq 0 (length l)) i); reflexivity.
Qed.
Lemma cell_map X Y (f : X -> Y) x t s y : cell (map (map f) x) t s = Some y -> exists z, cell x t s = Some z /\ y = f z.
Proof.
  unfold cell. rewrite nth_error_map. destruct (nth_error x t) as [row|]; cbn [option_map]; [|discriminate].
  rewrite nth_error_map. destruct (nth_error row s) as [z|]; cbn [option_map]; [|discriminate]. intro H. exists z. split; congruence.
Qed.
Lemma cell_map' X Y (f : X -> Y) x t s : cell (map (map f) x) t s = option_map f (cell x t s).
Proof.
  unfold cell. rewrite nth_error_map. destruct (nth_error x t) as [row|]; cbn [option_map]; [|reflexivity]. apply nth_error_map.
Qed.

Section Rows.
Context {A : arith}.

(** The features that the output layer gets *)
Definition output_input (n : network A) m b : result (list (list (list (num A)))) :=
  do '(outs, _) <- eval_layers m b [] 0 0 (n_layers n);
  do ins <- mapM (py_index outs) (n_inputs n);
  do fs <- mapM (fun v => features (fst v)) ins;
  concat_features fs.
Lemma eval_output (n : network A) m b p st : eval_network n m b = Ok (p, st) -> exists x, output_input n m b = Ok x /\
  match n_kind n with Softmax => softmax_layer n x | HSoftmax _ _ => hsoftmax_layer n x end = Ok p.
Proof.
  unfold eval_network, output_input. destruct (eval_layers m b [] 0 0 (n_layers n)) as [[outs st']|]; cbn [bind]; [|discriminate].
  destruct (mapM _ (n_inputs n)) as [ins|]; cbn [bind]; [|discriminate]. destruct (mapM _ ins) as [fs|]; cbn [bind]; [|discriminate].
  destruct (concat_features fs) as [x|]; cbn [bind]; [|discriminate]. intro H. exists x. split; [reflexivity|].
  destruct (match n_kind n with Softmax => _ | HSoftmax _ _ => _ end); cbn [bind] in H; [|discriminate]. congruence.
Qed.

Lemma eval_output_state (n : network A) m b p st : eval_network n m b = Ok (p, st) ->
  exists outs, eval_layers m b [] 0 0 (n_layers n) = Ok (outs, st).
Proof.
  unfold eval_network. destruct (eval_layers m b [] 0 0 (n_layers n)) as [[outs st']|]; cbn [bind]; [|discriminate].
  destruct (mapM _ (n_inputs n)) as [ins|]; cbn [bind]; [|discriminate]. destruct (mapM _ ins) as [fs|]; cbn [bind]; [|discriminate].
  destruct (concat_features fs) as [x|]; cbn [bind]; [|discriminate].
  destruct (match n_kind n with Softmax => _ | HSoftmax _ _ => _ end); cbn [bind]; [|discriminate]. intros [= _ <-]. eauto.
Qed.

(** A row of the output of a softmax layer *)
Definition softmax_row (o : output_description A) (row : list (num A)) : list (num A) :=
  softmax (if o_exclude_unk o then set_log_zero (o_unk_class o) (map Some row) else map Some row).
Lemma softmax_rows ds (o : output_description A) n m b p st : create_network ds o = Ok n -> softmax_dimensions o ->
  output_works_on_devices o -> eval_network n m b = Ok (p, st) ->
  exists x, p = map (map (softmax_row o)) x /\ forall t s row, cell x t s = Some row -> length row = o_size o.
Proof.
  intros C D W E. unfold softmax_dimensions in D. destruct (o_kind o) eqn:K; [|contradiction]. destruct (o_values o) as [w bb|] eqn:V; [|contradiction].
  destruct D as [D1 D2]. destruct (created_network _ _ _ C) as (ls & _ & EN & F). destruct (eval_output _ _ _ _ _ E) as (x & _ & S).
  rewrite EN in S. cbn [n_kind] in S. rewrite K in S.
  pose proof (softmax_created o ls (n_params n) x w bb K V ltac:(lia) W) as SC. rewrite K, V in SC, F. rewrite (SC F) in S. injection S as <-.
  exists (preact_part true x (w, bb)). split; [reflexivity|]. intros t s row. unfold preact_part. cbn [fst snd]. intro H.
  apply cell_map in H as (z & H & ->). rewrite map2_length', D2. unfold cell in H. rewrite nth_error_map in H.
  destruct (nth_error x t) as [mm|]; cbn [option_map] in H; [|discriminate]. unfold mdot in H. rewrite nth_error_map in H.
  destruct (nth_error mm s); cbn [option_map] in H; [|discriminate]. injection H as <-. rewrite map_length. lia.
Qed.
Lemma softmax_row_length o row : length (softmax_row o row) = length row.
Proof. unfold softmax_row. rewrite softmax_length. destruct (o_exclude_unk o); [unfold set_log_zero; rewrite mapi_length|]; apply map_length. Qed.

Lemma hsoftmax_rows ds (o : output_description A) n m b p st l1 l2 : create_network ds o = Ok n -> hsoftmax_dimensions o l1 l2 ->
  o_devices o = [None] -> eval_network n m b = Ok (p, st) ->
  exists w bb w2 b2 x, o_values o = HSoftmaxValues w bb w2 b2 /\ p = map (map (h_softmax (o_size o) w bb w2 b2)) x.
Proof.
  intros C [K D] W E. destruct (o_values o) as [|w bb w2 b2] eqn:V; [contradiction|].
  destruct (created_network _ _ _ C) as (ls & _ & EN & F). destruct (eval_output _ _ _ _ _ E) as (x & _ & S).
  rewrite EN in S. cbn [n_kind] in S. rewrite K in S. unfold hsoftmax_layer in S. cbn [n_devices n_params n_name n_size] in S. rewrite W in *. cbn [length Nat.ltb Nat.leb] in S.
  rewrite K, V in F. cbn [output_params] in F.
  pose proof (F_in _ _ _ _ F (or_introl eq_refl)) as [[_ Q1]|[Q1 _]]; [|congruence].
  pose proof (F_in _ _ _ _ F (or_intror (or_introl eq_refl))) as [[_ Q2]|[Q2 _]]; [|congruence].
  pose proof (F_in _ _ _ _ F (or_intror (or_intror (or_introl eq_refl)))) as [[_ Q3]|[Q3 _]]; [|congruence].
  pose proof (F_in _ _ _ _ F (or_intror (or_intror (or_intror (or_introl eq_refl))))) as [[_ Q4]|[Q4 _]]; [|congruence].
  unfold get_weight, get_bias, get_level_weight, get_level_bias, get_param in S. rewrite Q1, Q2, Q3, Q4 in S. cbn [bind] in S.
  exists w, bb, w2, b2, x. split; [reflexivity|]. congruence.
Qed.

(** ** The probability of the target *)
Lemma nth_concat X k (l : list (list X)) : Forall (fun r => length r = k) l -> 0 < k -> forall i j row, nth_error l i = Some row -> j < k ->
  nth_error (concat l) (i * k + j) = nth_error row j.
Proof.
  intros F K. induction F as [|r l Hr _ IH]; intros [|i] j row; cbn [nth_error concat]; try discriminate.
  - intro H. injection H as <-. intro Hj. cbn [Nat.mul Nat.add]. rewrite nth_error_app1 by lia. reflexivity.
  - intros H Hj. rewrite nth_error_app2 by (cbn [Nat.mul]; lia). replace (S i * k + j - length r) with (i * k + j) by (cbn [Nat.mul]; lia). now apply IH.
Qed.
Lemma h_target size l2 (w1 : list (list (num A))) b1 w2 b2 x target v : length w1 = length b1 -> length w2 = length w1 -> length b2 = length w1 ->
  Forall (fun m => length m = l2) w2 -> Forall (fun v => length v = l2) b2 -> target < size ->
  h_softmax_target l2 w1 b1 w2 b2 x target = Ok v -> nth_error (h_softmax size w1 b1 w2 b2 x) target = Some v.
Proof.
  intros L1 L2 L3 F2 F3 T. unfold h_softmax_target, h_softmax. set (P := softmax (map Some (map2 add (map (dotv x) w1) b1))).
  unfold py_index. destruct (nth_error P (target / l2)) as [p|] eqn:E1; cbn [bind]; [|discriminate].
  destruct (nth_error w2 (target / l2)) as [w|] eqn:E2; cbn [bind]; [|discriminate].
  destruct (nth_error b2 (target / l2)) as [b|] eqn:E3; cbn [bind]; [|discriminate].
  set (Q := softmax (map Some (map2 add (map (dotv x) w) b))). destruct (nth_error Q (target mod l2)) as [q|] eqn:E4; cbn [bind]; [|discriminate].
  intro H. assert (Ev : mul p q = v) by congruence. clear H.
  rewrite nth_firstn by exact T.
  assert (LQ : length Q = l2).
  { unfold Q. rewrite softmax_length, map_length, map2_length', map_length. rewrite Forall_forall in F2, F3.
    rewrite (F2 w (nth_error_In _ _ E2)), (F3 b (nth_error_In _ _ E3)). lia. }
  assert (K : target mod l2 < l2) by (rewrite <- LQ at 2; apply nth_error_Some; congruence).
  rewrite (Nat.div_mod target l2) by lia. rewrite (Nat.mul_comm l2).
  rewrite nth_concat with (k := l2) (row := map (mul p) Q); [rewrite nth_error_map, E4; cbn [option_map]; congruence| |lia| |exact K].
  - apply Forall_forall. intros r Hr. apply in_map2 in Hr as (p' & q' & _ & Hq & ->). rewrite map_length.
    apply in_map2 in Hq as (w' & b' & Hw & Hb & ->). rewrite softmax_length, map_length, map2_length', map_length. rewrite Forall_forall in F2, F3.
    rewrite (F2 _ Hw), (F3 _ Hb). lia.
  - rewrite nth_error_map2, E1, nth_error_map2, E2, E3. reflexivity.
Qed.

Lemma nth_combine X Y (a : list X) (b : list Y) i x y : nth_error (combine a b) i = Some (x, y) -> nth_error a i = Some x /\ nth_error b i = Some y.
Proof.
  revert b i. induction a as [|x0 a IH]; intros [|y0 b] [|i]; cbn [combine nth_error]; try discriminate; [|apply IH].
  intro H. injection H as <- <-. auto.
Qed.
Lemma mapM_nth_fwd X Y (f : X -> result Y) l r i x : mapM f l = Ok r -> nth_error l i = Some x -> exists y, nth_error r i = Some y /\ f x = Ok y.
Proof.
  revert r i. induction l as [|x0 l IH]; intros r i; cbn [mapM]; [destruct i; discriminate|].
  destruct (f x0) as [z|] eqn:E; cbn [bind]; [|discriminate]. destruct (mapM f l) as [zs|] eqn:F; cbn [bind]; [|discriminate].
  intro H. injection H as <-. destruct i as [|i]; cbn [nth_error]; [intro H; injection H as <-; eauto|]. now apply IH.
Qed.
Lemma mapM_total X Y (f : X -> result Y) l : (forall x, In x l -> exists y, f x = Ok y) -> exists r, mapM f l = Ok r.
Proof.
  induction l as [|x l IH]; intro H; cbn [mapM]; [eauto|]. destruct (H x (or_introl eq_refl)) as [y ->]. cbn [bind].
  destruct IH as [r ->]; [intros; apply H; now right|]. cbn [bind]. eauto.
Qed.
Lemma nth_combine_fwd X Y (a : list X) (b : list Y) i x y : nth_error a i = Some x -> nth_error b i = Some y -> nth_error (combine a b) i = Some (x, y).
Proof.
  revert b i. induction a as [|x0 a IH]; intros [|y0 b] [|i]; cbn [combine nth_error]; try discriminate; [|apply IH]. congruence.
Qed.
Lemma mapM_len X Y (f : X -> result Y) l r : mapM f l = Ok r -> length r = length l.
Proof. intro R. apply mapM_inv in R. induction R; cbn [length]; congruence. Qed.
Definition same_rows {X Y Z} (a : list (list X)) (b : list (list Y)) (r : list (list Z)) : Prop :=
  length r = Nat.min (length a) (length b) /\
  forall t m ts, nth_error a t = Some m -> nth_error b t = Some ts ->
  exists row, nth_error r t = Some row /\ length row = Nat.min (length m) (length ts).
Lemma mapM_cells_ok X Y Z (f : X * Y -> result Z) a b :
  (forall t s x y, cell a t s = Some x -> cell b t s = Some y -> exists v, f (x, y) = Ok v) ->
  exists r, mapM (fun '(m, ts) => mapM f (combine m ts)) (combine a b) = Ok r /\ same_rows a b r /\
  forall t s x y, cell a t s = Some x -> cell b t s = Some y -> exists v, cell r t s = Some v /\ f (x, y) = Ok v.
Proof.
  intro H. destruct (mapM_total _ _ (fun '(m, ts) => mapM f (combine m ts)) (combine a b)) as [r R].
  - intros [m ts] Hi. apply In_nth_error in Hi as [t Ht]. apply nth_combine in Ht as [Ha Hb].
    apply mapM_total. intros [x y] Hx. apply In_nth_error in Hx as [s Hs]. apply nth_combine in Hs as [Hm Hts].
    apply (H t s); unfold cell; [now rewrite Ha|now rewrite Hb].
  - exists r. split; [exact R|]. split.
    { split; [now rewrite <- combine_length, (mapM_len _ _ _ _ _ R)|]. intros t m ts A1 B1.
      destruct (mapM_nth_fwd _ _ _ _ _ _ _ R (nth_combine_fwd _ _ _ _ _ _ _ A1 B1)) as (row & Hr & E). exists row. split; [exact Hr|].
      now rewrite <- combine_length, (mapM_len _ _ _ _ _ E). }
   
    intros t s x y Ha Hb. unfold cell in *. destruct (nth_error a t) as [m|] eqn:A1; [|discriminate].
    destruct (nth_error b t) as [ts|] eqn:B1; [|discriminate].
    destruct (mapM_nth_fwd _ _ _ _ _ _ _ R (nth_combine_fwd _ _ _ _ _ _ _ A1 B1)) as (row & Hr & E). rewrite Hr.
    apply (mapM_nth_fwd _ _ _ _ _ _ _ E (nth_combine_fwd _ _ _ _ _ _ _ Ha Hb)).
Qed.
Lemma cell_Forall X (P : X -> Prop) (x : list (list X)) t s y : Forall (Forall P) x -> cell x t s = Some y -> P y.
Proof.
  unfold cell. intros F H. destruct (nth_error x t) as [row|] eqn:E; [|discriminate]. rewrite Forall_forall in F.
  apply nth_error_In in E, H. specialize (F _ E). rewrite Forall_forall in F. auto.
Qed.

Lemma eval_targets_softmax ds o (n : network A) m b targets p st : create_network ds o = Ok n -> softmax_dimensions o -> output_works_on_devices o ->
  eval_network n m b = Ok (p, st) -> Forall (Forall (fun c => c < o_size o)) targets ->
  exists q, eval_targets n m b targets = Ok (q, st) /\ same_rows p targets q /\
  forall t s d target, cell p t s = Some d -> cell targets t s = Some target -> exists v, cell q t s = Some v /\ nth_error d target = Some v.
Proof.
  intros C D W E F. destruct (softmax_rows _ _ _ _ _ _ _ C D W E) as (y & Hy & L).
  assert (K : n_kind n = Softmax).
  { destruct (created_network _ _ _ C) as (ls & _ & EN & _). rewrite EN. cbn [n_kind]. unfold softmax_dimensions in D. destruct (o_kind o); [reflexivity|contradiction]. }
  destruct (mapM_cells_ok _ _ _ (fun '(row, t) => py_index row t) p targets) as (q & Q & LQ & HQ).
  { intros t s d target Hd Ht. apply (cell_Forall _ _ _ _ _ _ F) in Ht. rewrite Hy, cell_map' in Hd.
    destruct (cell y t s) as [row|] eqn:R; [|discriminate]. cbn [option_map] in Hd. injection Hd as <-.
    unfold py_index. destruct (nth_error (softmax_row o row) target) eqn:N; [eauto|]. apply nth_error_None in N. rewrite softmax_row_length, (L _ _ _ R) in N. lia. }
  exists q. split; [|split; [exact LQ|]].
  - destruct (eval_output _ _ _ _ _ E) as (x & I & S). pose proof (eval_output_state _ _ _ _ _ E) as [outs0 ES]. rewrite K in S. unfold output_input in I. unfold eval_targets.
    rewrite ES in I |- *. cbn [bind] in *.
    destruct (mapM _ (n_inputs n)) as [ins|]; cbn [bind] in *; [|discriminate]. destruct (mapM _ ins) as [fs|]; cbn [bind] in *; [|discriminate].
    rewrite I. cbn [bind]. rewrite K, S. cbn [bind]. rewrite Q. reflexivity.
  - intros t s d target Hd Ht. destruct (HQ t s d target Hd Ht) as (v & Hv & P). exists v. split; [exact Hv|]. unfold py_index in P.
    destruct (nth_error d target); congruence.
Qed.
Lemma eval_targets_hsoftmax ds o (n : network A) m b targets p st l1 l2 : create_network ds o = Ok n -> hsoftmax_dimensions o l1 l2 ->
  o_devices o = [None] -> o_size o <= l1 * l2 ->
  eval_network n m b = Ok (p, st) -> Forall (Forall (fun c => c < o_size o)) targets ->
  exists q, eval_targets n m b targets = Ok (q, st) /\ same_rows p targets q /\
  forall t s d target, cell p t s = Some d -> cell targets t s = Some target -> exists v, cell q t s = Some v /\ nth_error d target = Some v.
Proof.
  intros C [K D] W Z E F. destruct (eval_output _ _ _ _ _ E) as (x & I & S). pose proof (eval_output_state _ _ _ _ _ E) as [outs0 ES].
  destruct (created_network _ _ _ C) as (ls & _ & EN & PL).
  assert (KN : n_kind n = HSoftmax l1 l2 /\ n_size n = o_size o /\ n_devices n = [None] /\ n_name n = o_name o) by (rewrite EN; cbn [n_kind n_size n_devices n_name]; auto).
  destruct KN as (KN & SN & DN & NN). rewrite KN in S. unfold hsoftmax_layer in S. rewrite DN, NN, SN in S. cbn [length Nat.ltb Nat.leb] in S.
  destruct (o_values o) as [|w bb w2 b2] eqn:V; [contradiction|]. destruct D as (D1 & D2 & D3 & D4 & D5 & D6).
  rewrite K, W in PL. cbn [output_params] in PL.
  pose proof (F_in _ _ _ _ PL (or_introl eq_refl)) as [[_ Q1]|[Q1 _]]; [|congruence].
  pose proof (F_in _ _ _ _ PL (or_intror (or_introl eq_refl))) as [[_ Q2]|[Q2 _]]; [|congruence].
  pose proof (F_in _ _ _ _ PL (or_intror (or_intror (or_introl eq_refl)))) as [[_ Q3]|[Q3 _]]; [|congruence].
  pose proof (F_in _ _ _ _ PL (or_intror (or_intror (or_intror (or_introl eq_refl))))) as [[_ Q4]|[Q4 _]]; [|congruence].
  unfold get_weight, get_bias, get_level_weight, get_level_bias, get_param in S. rewrite Q1, Q2, Q3, Q4 in S. cbn [bind] in S.
  injection S as <-.
  destruct (mapM_cells_ok _ _ _ (fun '(row, t) => h_softmax_target l2 w bb w2 b2 row t) x targets) as (q & Q & LQ & HQ).
  { intros t s row target _ Ht. apply (cell_Forall _ _ _ _ _ _ F) in Ht. unfold h_softmax_target, py_index.
    assert (P2 : l2 <> 0) by lia. assert (T1 : target / l2 < l1) by (apply Nat.div_lt_upper_bound; lia). pose proof (Nat.mod_upper_bound target l2 P2) as T2.
    destruct (nth_error (softmax _) (target / l2)) eqn:N1; cbn [bind].
    2: { apply nth_error_None in N1. rewrite softmax_length, map_length, map2_length', map_length in N1. lia. }
    destruct (nth_error w2 (target / l2)) as [w'|] eqn:N2; cbn [bind]; [|apply nth_error_None in N2; lia].
    destruct (nth_error b2 (target / l2)) as [b'|] eqn:N3; cbn [bind]; [|apply nth_error_None in N3; lia].
    destruct (nth_error (softmax _) (target mod l2)) eqn:N4; cbn [bind]; [eauto|].
    apply nth_error_None in N4. rewrite softmax_length, map_length, map2_length', map_length in N4.
    rewrite Forall_forall in D5, D6. rewrite (D5 _ (nth_error_In _ _ N2)), (D6 _ (nth_error_In _ _ N3)) in N4. lia. }
  exists q. split; [|split; [destruct LQ as [L1 L2]; split; [now rewrite map_length|]; intros t m' ts Hm; rewrite nth_error_map in Hm;
    destruct (nth_error x t) as [row|] eqn:Ex; cbn [option_map] in Hm; [|discriminate]; injection Hm as <-; intro Hts; rewrite map_length; exact (L2 t row ts Ex Hts)|]].
  - unfold output_input in I. unfold eval_targets.
    rewrite ES in I |- *. cbn [bind] in *.
    destruct (mapM _ (n_inputs n)) as [ins|]; cbn [bind] in *; [|discriminate]. destruct (mapM _ ins) as [fs|]; cbn [bind] in *; [|discriminate].
    rewrite I. cbn [bind]. rewrite KN, DN, NN. cbn [length Nat.ltb Nat.leb]. unfold get_weight, get_bias, get_level_weight, get_level_bias, get_param.
    rewrite Q1, Q2, Q3, Q4. cbn [bind]. rewrite Q. reflexivity.
  - intros t s d target Hd Ht. rewrite cell_map' in Hd. destruct (cell x t s) as [row|] eqn:R; [|discriminate]. cbn [option_map] in Hd. injection Hd as <-.
    destruct (HQ t s row target R Ht) as (v & Hv & P). exists v. split; [exact Hv|]. apply (h_target _ l2); try assumption; try lia.
    apply (cell_Forall _ _ _ _ _ _ F Ht).
Qed.
Lemma eval_targets_output ds o (n : network A) m b targets p st :
  create_network ds o = Ok n -> output_works_on_devices o ->
  (softmax_dimensions o \/ exists l1 l2, level_sizes (o_size o) = Ok (l1, l2) /\ hsoftmax_dimensions o l1 l2) ->
  eval_network n m b = Ok (p, st) -> Forall (Forall (fun c => c < o_size o)) targets ->
  exists q, eval_targets n m b targets = Ok (q, st) /\ same_rows p targets q /\
  forall t s d target, cell p t s = Some d -> cell targets t s = Some target -> exists v, cell q t s = Some v /\ nth_error d target = Some v.
Proof.
  intros C W [D|(l1 & l2 & L & D)] E F.
  - now apply (eval_targets_softmax ds o n m b targets p st).
  - apply (eval_targets_hsoftmax ds o n m b targets p st l1 l2); try assumption.
    + unfold output_works_on_devices in W. destruct D as [K _]. now rewrite K in W.
    + destruct (o_size o) as [|k] eqn:Z; [lia|]. destruct (levels_ok (S k) ltac:(lia)) as (l1' & l2' & L' & _ & _ & G & _). rewrite L' in L.
      injection L as <- <-. exact G.
Qed.
Lemma step_targets_output ds o (n : network A) words classes state p st targets :
  create_network ds o = Ok n -> output_works_on_devices o ->
  (softmax_dimensions o \/ exists l1 l2, level_sizes (o_size o) = Ok (l1, l2) /\ hsoftmax_dimensions o l1 l2) ->
  step_network n words classes state = Ok (p, st) ->
  Forall (fun c => c < o_size o) targets ->
  exists q, step_targets n words classes targets state = Ok (q, st) /\ length q = Nat.min (length p) (length targets) /\
  forall s d target, nth_error p s = Some d -> nth_error targets s = Some target -> exists v, nth_error q s = Some v /\ nth_error d target = Some v.
Proof.
  unfold step_network, step_targets. intros C W D E F.
  destruct (eval_network _ _ _) as [[p' st']|] eqn:EN; cbn [bind] in E; [|discriminate].
  destruct (eval_targets_output _ _ _ _ _ [targets] _ _ C W D EN (Forall_cons _ F (Forall_nil _))) as (q & -> & [_ L] & H). cbn [bind].
  unfold py_index in *. destruct p' as [|p0 p']; cbn [nth_error bind] in E; [discriminate|]. injection E as <- <-.
  destruct (L 0 p0 targets eq_refl eq_refl) as (q0 & E0 & L0). rewrite E0. exists q0. split; [reflexivity|]. split; [exact L0|]. intros s d target Hd Ht. destruct (H 0 s d target Hd Ht) as (x & Hx & Hd'). exists x. split; [|exact Hd']. unfold cell in Hx. now rewrite E0 in Hx.
Qed.
End Rows.

(** ** Distributions *)
Local Open Scope R_scope.
Lemma total_app a b : total (a ++ b) = total a + total b.
Proof. induction a as [|x a IH]; cbn [total fold_right app]; [unfold total; lra|]. unfold total in *. rewrite IH. lra. Qed.
Lemma total_nonneg l : Forall (Rle 0) l -> 0 <= total l.
Proof. induction 1; cbn [total fold_right]; [lra|]. unfold total in *. lra. Qed.
Lemma total_pos l : Forall (Rle 0) l -> (exists i x, nth_error l i = Some x /\ 0 < x) -> 0 < total l.
Proof.
  intros F (i & x & H & P). revert i H. induction F as [|y l Hy F IH]; intros [|i] H; try discriminate; cbn [total fold_right].
  - injection H as ->. pose proof (total_nonneg l F). unfold total in *. lra.
  - apply IH in H. unfold total in *. lra.
Qed.
Lemma total_div l c : total (map (fun x => x / c) l) = total l / c.
Proof. induction l as [|x l IH]; cbn [map total fold_right]; unfold total in *; [|rewrite IH]; unfold Rdiv; ring. Qed.
Lemma total_mul l c : total (map (Rmult c) l) = c * total l.
Proof. induction l as [|x l IH]; cbn [map total fold_right]; unfold total in *; [|rewrite IH]; ring. Qed.

Definition weight (x : option R) : R := match x with Some y => Rtrigo_def.exp y | None => 0 end.
Lemma softmax_reals (v : list (option R)) : softmax (A := reals) v = map (fun y => y / total (map weight v)) (map weight v).
Proof. reflexivity. Qed.
Lemma weight_nonneg v : Forall (Rle 0) (map weight v).
Proof. apply Forall_forall. intros x H. apply in_map_iff in H as ([y|] & <- & _); cbn [weight]; [apply Rlt_le, exp_pos|lra]. Qed.
Lemma softmax_distribution (v : list (option R)) i y : nth_error v i = Some (Some y) ->
  distribution (softmax (A := reals) v) /\
  (forall j z, nth_error v j = Some (Some z) -> exists p, nth_error (softmax (A := reals) v) j = Some p /\ 0 < p) /\
  (forall j, nth_error v j = Some None -> nth_error (softmax (A := reals) v) j = Some 0).
Proof.
  intro H. rewrite softmax_reals. set (c := total (map weight v)).
  assert (P : 0 < c).
  { apply total_pos; [apply weight_nonneg|]. exists i, (Rtrigo_def.exp y). rewrite nth_error_map, H. split; [reflexivity|apply exp_pos]. }
  split; [split|split].
  - apply Forall_forall. intros x Hx. apply in_map_iff in Hx as (z & <- & Hz).
    pose proof (weight_nonneg v) as F. rewrite Forall_forall in F. apply F in Hz. unfold Rdiv.
    apply Rmult_le_pos; [exact Hz|]. apply Rlt_le, Rinv_0_lt_compat, P.
  - rewrite total_div. fold c. field. lra.
  - intros j z Hz. rewrite !nth_error_map, Hz. cbn [option_map weight]. eexists. split; [reflexivity|]. unfold Rdiv.
    apply Rmult_lt_0_compat; [apply exp_pos|apply Rinv_0_lt_compat, P].
  - intros j Hz. rewrite !nth_error_map, Hz. cbn [option_map weight]. f_equal. unfold Rdiv. ring.
Qed.

Lemma positive_softmax (v : list (num reals)) : v <> [] -> Forall (Rlt 0) (softmax (A := reals) (map Some v)) /\ total (softmax (A := reals) (map Some v)) = 1.
Proof.
  destruct v as [|y v]; [congruence|]. intros _. destruct (softmax_distribution (map Some (y :: v)) 0 y eq_refl) as ([_ T] & P & _).
  split; [|exact T]. apply Forall_forall. intros x Hx. apply In_nth_error in Hx as [j Hj].
  assert (L : (j < length (map Some (y :: v)))%nat) by (rewrite <- (softmax_length reals); apply nth_error_Some; intro E2; pose proof (eq_trans (eq_sym Hj) E2); discriminate). rewrite map_length in L.
  destruct (nth_error (y :: v) j) as [z|] eqn:E; [|apply nth_error_None in E; lia].
  destruct (P j z) as (p & Hp & P0); [rewrite nth_error_map, E; reflexivity|].
  assert (E2 : Some x = Some p) by exact (eq_trans (eq_sym Hj) Hp). injection E2 as ->. exact P0.
Qed.
Lemma product_total P Q : length P = length Q -> Forall (fun q => total q = 1) Q ->
  total (concat (map2 (fun p v => map (Rmult p) v) P Q)) = total P.
Proof.
  intros L F. revert P L. induction F as [|q Q Hq _ IH]; intros [|p P] L; try discriminate; cbn [map2 concat]; [reflexivity|].
  rewrite total_app, total_mul, Hq, IH by (cbn in L; lia). cbn [total fold_right]. unfold total. lra.
Qed.
Lemma product_length k (P : list R) Q : length P = length Q -> Forall (fun q => length q = k) Q ->
  length (concat (map2 (fun p v => map (Rmult p) v) P Q)) = (length Q * k)%nat.
Proof.
  intros L F. revert P L. induction F as [|q Q Hq _ IH]; intros [|p P] L; try discriminate; cbn [map2 concat length] in *; [reflexivity|].
  rewrite app_length, map_length, IH by lia. lia.
Qed.
Lemma firstn_total l n : Forall (Rlt 0) l -> (n < length l)%nat -> total (firstn n l) < total l.
Proof.
  intros F L. rewrite <- (firstn_skipn n l) at 2. rewrite total_app.
  assert (X : 0 < total (skipn n l)).
  { apply total_pos.
    - apply Forall_forall. intros x Hx. rewrite Forall_forall in F. apply Rlt_le, F. rewrite <- (firstn_skipn n l). apply in_or_app. now right.
    - destruct (skipn n l) as [|x r] eqn:E; [apply (f_equal (@length R)) in E; rewrite skipn_length in E; cbn in E; lia|].
      exists 0%nat, x. split; [reflexivity|]. rewrite Forall_forall in F. apply F. rewrite <- (firstn_skipn n l), E. apply in_or_app. right. now left. }
  lra.
Qed.
Lemma h_distribution size l1 l2 (w1 : list (list (num reals))) b1 w2 b2 x : length w1 = l1 -> length b1 = l1 -> length w2 = l1 -> length b2 = l1 ->
  Forall (fun m => length m = l2) w2 -> Forall (fun v => length v = l2) b2 -> (0 < l1)%nat -> (0 < l2)%nat -> (size <= l1 * l2)%nat ->
  let d := h_softmax (A := reals) size w1 b1 w2 b2 x in
  length d = size /\ Forall (Rlt 0) d /\ total d <= 1 /\ (total d = 1 <-> size = (l1 * l2)%nat).
Proof.
  intros L1 L2 L3 L4 F2 F3 P1 P2 S. cbv zeta. unfold h_softmax.
  set (P := softmax (A := reals) (map Some (map2 add (map (dotv (A := reals) x) w1) b1))).
  assert (HP : Forall (Rlt 0) P /\ total P = 1).
  { apply positive_softmax. intro H. apply (f_equal (@length _)) in H. rewrite map2_length', map_length in H. cbn [length] in H. lia. }
  assert (LP : length P = l1) by (unfold P; rewrite softmax_length, map_length, map2_length', map_length; lia). clearbody P.
  set (Q := map2 _ w2 b2).
  assert (LQ : length Q = l1) by (unfold Q; rewrite map2_length'; lia).
  assert (HQ : Forall (fun q => length q = l2 /\ Forall (Rlt 0) q /\ total q = 1) Q).
  { apply Forall_forall. intros q Hq. apply in_map2 in Hq as (w & b & Hw & Hb & ->). rewrite Forall_forall in F2, F3. apply F2 in Hw. apply F3 in Hb.
    cbv beta. split; [rewrite (softmax_length reals), map_length, map2_length', map_length; lia|]. apply positive_softmax. intro H. apply (f_equal (@length _)) in H.
    rewrite map2_length', map_length in H. cbn [length] in H. lia. }
  clearbody Q. change (mul (a := reals)) with Rmult. set (D := concat _).
  assert (TD : total D = 1).
  { unfold D. rewrite product_total; [apply HP|exact (eq_trans LP (eq_sym LQ))|]. eapply Forall_impl; [|exact HQ]. cbv beta. tauto. }
  assert (LD : length D = (l1 * l2)%nat).
  { unfold D. refine (eq_trans (product_length l2 P Q (eq_trans LP (eq_sym LQ)) _) (f_equal (fun n => (n * l2)%nat) LQ)). eapply Forall_impl; [|exact HQ]. cbv beta. tauto. }
  assert (PD : Forall (Rlt 0) D).
  { unfold D. apply Forall_forall. intros y Hy. apply in_concat in Hy as (r & Hr & Hy). apply in_map2 in Hr as (p & q & Hp & Hq & ->).
    apply in_map_iff in Hy as (z & <- & Hz). destruct HP as [HP _]. rewrite Forall_forall in HP, HQ. specialize (HP p Hp). destruct (HQ q Hq) as (_ & HZ & _).
    rewrite Forall_forall in HZ. apply Rmult_lt_0_compat; auto. }
  clearbody D. split; [rewrite firstn_length; lia|]. split.
  { apply Forall_forall. intros y Hy. rewrite Forall_forall in PD. apply PD. rewrite <- (firstn_skipn size D). apply in_or_app. now left. }
  destruct (Nat.eq_dec size (l1 * l2)) as [E|E].
  - rewrite firstn_all2 by lia. split; [lra|tauto].
  - pose proof (firstn_total D size PD ltac:(change (@length R D) with (@length (num reals) D); lia)). change (total (firstn size D)) with (@total (@firstn R size D)). split; [rewrite <- TD; now apply Rlt_le|]. split; [intro X; rewrite X, TD in *; lra|contradiction].
Qed.
