(** Networks that are built from the same description differ only in the values of their
    parameters, and the paths of parameters are different. *)
From Coq Require Import ZArith.
From Verif Require Import Base BaseLib ListLib Strings NumStr Dict VocabModel ArchModel ArchSpec ParamModel ParamSpec NetModel DeviceModel OutputModel BuildModel
  SavedModel SavedSpec SavedArrays.
Local Open Scope nat_scope.
Local Open Scope list_scope.

(** ** Results that are alike *)
Definition sim {X Y} (R : X -> Y -> Prop) (r : result X) (r' : result Y) : Prop :=
  match r, r' with Ok x, Ok y => R x y | Err e, Err e' => e = e' | _, _ => False end.
Lemma sim_bind X Y Z W (R : X -> Y -> Prop) (S : Z -> W -> Prop) r r' k k' : sim R r r' -> (forall x y, R x y -> sim S (k x) (k' y)) ->
  sim S (do x <- r; k x) (do y <- r'; k' y).
Proof. destruct r, r'; cbn; try contradiction; auto. Qed.
Lemma sim_foldM X Y P Q (R : X -> Y -> Prop) (T : P -> Q -> Prop) (f : X -> P -> result X) (f' : Y -> Q -> result Y) :
  (forall s s' x y, R s s' -> T x y -> sim R (f s x) (f' s' y)) ->
  forall l l', Forall2 T l l' -> forall s s', R s s' -> sim R (foldM f l s) (foldM f' l' s').
Proof.
  intros H l l'. induction 1 as [|x y l l' HT F IH]; intros s s' HR; cbn [foldM]; [exact HR|]. eapply sim_bind; [now apply H|]. auto.
Qed.
Lemma sim_eq X (r : result X) : sim eq r r.
Proof. destruct r; reflexivity. Qed.

Section Params.
Context {A : arith}.
Notation num := (num A).
Notation params := (list (pystr * param A)).
Notation item := (pystr * pystr * bool * param A)%type.

Definition same_item (i j : item) : Prop := fst i = fst j /\ same_dimensions (snd i) (snd j).
Lemma other_get path (ps qs : params) : other_params ps qs -> (dict_get path ps = None <-> dict_get path qs = None).
Proof.
  induction 1 as [|[x p] [y q] ps qs [E D] F IH]; cbn [dict_get]; [tauto|]. cbn [fst] in E. subst y. destruct (pystr_eqb x path); [split; discriminate|exact IH].
Qed.
Lemma add_sim path (p q : param A) ps qs : same_dimensions p q -> other_params ps qs -> sim other_params (add_param path p ps) (add_param path q qs).
Proof.
  intros D O. unfold add_param. pose proof (other_get path _ _ O) as G. destruct (dict_get path ps), (dict_get path qs); cbn [sim]; try reflexivity.
  - destruct G as [_ G]. discriminate (G eq_refl).
  - destruct G as [G _]. discriminate (G eq_refl).
  - apply Forall2_app; [exact O|]. constructor; [now split|constructor].
Qed.
Lemma slice_F2 X Y (R : X -> Y -> Prop) r l l' : Forall2 R l l' -> Forall2 R (slice_range r l) (slice_range r l').
Proof.
  unfold slice_range. generalize (snd r - fst r). intro k. generalize (fst r). intros j H.
  assert (G : Forall2 R (skipn j l) (skipn j l')) by (revert j; induction H; intros [|j]; cbn [skipn]; auto).
  revert G. generalize k. generalize (skipn j l) (skipn j l'). clear. intros l l' k G. revert k. induction G; intros [|k]; cbn [firstn]; auto.
Qed.
Lemma length_F2 X Y (l : list X) (l' : list Y) : length l = length l' <-> Forall2 (fun _ _ => True) l l'.
Proof.
  split; [|induction 1; cbn [length]; auto]. revert l'. induction l as [|x l IH]; intros [|y l']; try discriminate; constructor; auto.
Qed.
Lemma part_dims r (p q : param A) : same_dimensions p q -> same_dimensions (part r p) (part r q).
Proof.
  assert (L : forall b b' : list num, length b = length b' -> length (slice_range r b) = length (slice_range r b')).
  { intros b b' H. apply length_F2. apply length_F2 in H. now apply slice_F2. }
  destruct p, q; cbn [same_dimensions part]; try contradiction; [apply slice_F2|apply L| | |]; induction 1; cbn [map]; constructor; auto; now apply slice_F2.
Qed.
Lemma last_dims (p q : param A) : same_dimensions p q -> last_dimension p = last_dimension q.
Proof.
  destruct p, q; cbn [same_dimensions last_dimension]; try contradiction; intro H; auto.
  - now apply same_width in H.
  - now apply same_depth in H.
  - now apply same_depth in H.
  - now apply same_width in H.
Qed.
Lemma F2_refl X (R : X -> X -> Prop) : (forall x, R x x) -> forall l, Forall2 R l l.
Proof. induction l; constructor; auto. Qed.
Lemma init_sim devices (ps qs : params) i j : other_params ps qs -> same_item i j -> sim other_params (init_param devices ps i) (init_param devices qs j).
Proof.
  intros O [E D]. destruct i as [[[layer name] sp] p], j as [[[layer' name'] sp'] q]. cbn [fst snd] in *. injection E as <- <- <-. unfold init_param.
  assert (S : sim other_params (do ranges <- split_per_device (length devices) (last_dimension p);
     foldM (fun ps '(device, range) => match device with None => Err AssertionError
       | Some d => add_param (param_path layer name None ++ str "/" ++ d) (part range p) ps end) (combine devices ranges) ps)
    (do ranges <- split_per_device (length devices) (last_dimension q);
     foldM (fun ps '(device, range) => match device with None => Err AssertionError
       | Some d => add_param (param_path layer name None ++ str "/" ++ d) (part range q) ps end) (combine devices ranges) qs)).
  { rewrite (last_dims _ _ D). eapply sim_bind; [apply sim_eq|]. intros r r' <-. apply (sim_foldM _ _ _ _ _ eq); [|now apply F2_refl|exact O].
    intros s s' [[d|] g] y Os <-; [|reflexivity]. apply add_sim; [now apply part_dims|exact Os]. }
  destruct sp; cbn [negb]; [|now apply add_sim]. destruct devices as [|[d|] [|e devices]]; try exact S. now apply add_sim.
Qed.

(** ** Parameters of one layer *)
Definition in_layer (name path : pystr) : Prop := exists suffix, path = str "layers/" ++ name ++ str "/" ++ suffix.
Definition item_ok (name : pystr) (i : item) : Prop :=
  regular_param (snd i) /\ (fst (fst (fst i)) = name \/ exists t, fst (fst (fst i)) = name ++ str "/" ++ t).
Record params_ok (name : pystr) (ps : params) : Prop := {
  po_dict : is_dict ps;
  po_regular : Forall (fun v => regular_param (snd v)) ps;
  po_layer : Forall (in_layer name) (paths ps) }.
Lemma params_ok_nil name : params_ok name [].
Proof. constructor; constructor. Qed.
Lemma params_dict_get path (ps : params) : dict_get path ps = None -> ~ In path (paths ps).
Proof.
  induction ps as [|[x p] ps IH]; cbn [dict_get paths map fst]; [intros _ []|]. destruct (ParamProofs.pystr_eqb_spec x path) as [->|N]; [discriminate|].
  intros H [E|G]; [contradiction|now apply IH].
Qed.
Lemma add_params_ok name path p (ps ps' : params) : add_param path p ps = Ok ps' -> in_layer name path -> regular_param p -> params_ok name ps -> params_ok name ps'.
Proof.
  unfold add_param. destruct (dict_get path ps) eqn:E; [discriminate|]. intros [= <-] I R []. apply params_dict_get in E. constructor.
  - unfold is_dict, paths. rewrite map_app. apply NoDup_app_iff. split; [exact po_dict0|]. split; [repeat constructor; intros []|].
    intros x Hx [<-|[]]. contradiction.
  - apply Forall_app. split; [exact po_regular0|]. constructor; [exact R|constructor].
  - unfold paths. rewrite map_app. apply Forall_app. split; [exact po_layer0|]. constructor; [exact I|constructor].
Qed.
Lemma slice_Forall X (P : X -> Prop) r l : Forall P l -> Forall P (slice_range r l).
Proof.
  rewrite !Forall_forall. unfold slice_range. intros H x Hx. apply H.
  rewrite <- (firstn_skipn (fst r) l). apply in_or_app. right. rewrite <- (firstn_skipn (snd r - fst r) (skipn (fst r) l)). apply in_or_app. now left.
Qed.
Lemma regular_of X (w : list (list X)) n : Forall (fun r => length r = n) w -> regular w.
Proof. intro H. unfold regular. destruct H as [|r w E F]; [constructor|]. cbn [width]. constructor; [reflexivity|]. rewrite E. exact F. Qed.
Lemma regular3_of X (w : list (list (list X))) c n : Forall (fun m => length m = c /\ Forall (fun r => length r = n) m) w -> regular3 w.
Proof.
  intro H. unfold regular3. destruct H as [|m w [E F] G]; [constructor|]. cbn [width depth].
  assert (D : forall m' : list (list X), length m' = c -> Forall (fun r => length r = n) m' -> length m' = length m /\ Forall (fun r => length r = width m) m').
  { intros m' E' F'. split; [congruence|]. destruct F as [|r m Er F].
    - cbn in E. subst c. destruct m'; [constructor|discriminate].
    - cbn [width]. now rewrite Er. }
  constructor; [now apply D|]. revert G. apply Forall_impl. intros m' [E' F']. now apply D.
Qed.
Lemma part_regular r (p : param A) : regular_param p -> regular_param (part r p).
Proof.
  assert (R3 : forall w : list (list (list num)), regular3 w -> regular3 (map (slice_range r) w)).
  { intros w R. apply (regular3_of _ _ (length (slice_range r (seq 0 (width w)))) (depth w)). apply Forall_map. revert R. apply Forall_impl.
    intros m [E F]. split; [|now apply slice_Forall]. apply length_F2, slice_F2, length_F2. now rewrite seq_length. }
  destruct p; cbn [regular_param part]; intro R; auto.
  - eapply regular_of. apply slice_Forall. exact R.
  - apply (regular_of _ _ (length (slice_range r (seq 0 (width b))))). apply Forall_map. revert R. apply Forall_impl.
    intros m E. apply length_F2, slice_F2, length_F2. now rewrite seq_length.
Qed.
Lemma in_layer_path name layer pname tail : (layer = name \/ exists t, layer = name ++ str "/" ++ t) -> in_layer name (param_path layer pname None ++ tail).
Proof.
  intros [->|(t & ->)]; unfold param_path.
  - exists (pname ++ tail). now rewrite app_nil_r, <- !app_assoc.
  - exists (t ++ str "/" ++ pname ++ tail). now rewrite app_nil_r, <- !app_assoc.
Qed.
Lemma init_params_ok name devices (ps : params) i ps' : init_param devices ps i = Ok ps' -> item_ok name i -> params_ok name ps -> params_ok name ps'.
Proof.
  destruct i as [[[layer pname] sp] p]. intros E [R L] O. cbn [fst snd] in R, L. unfold init_param in E.
  assert (S : add_param (param_path layer pname None) p ps = Ok ps' -> params_ok name ps').
  { intro H. eapply add_params_ok; eauto. rewrite <- (app_nil_r (param_path _ _ _)). now apply in_layer_path. }
  assert (T : (do ranges <- split_per_device (length devices) (last_dimension p);
     foldM (fun ps '(device, range) => match device with None => Err AssertionError
       | Some d => add_param (param_path layer pname None ++ str "/" ++ d) (part range p) ps end) (combine devices ranges) ps) = Ok ps' -> params_ok name ps').
  { destruct (split_per_device _ _) as [ranges|]; cbn [bind]; [|discriminate]. generalize (combine devices ranges). clear E S. intro l. revert ps O.
    induction l as [|[[d|] r] l IH]; intros ps O; cbn [foldM]; [intros [= <-]; exact O| |discriminate].
    destruct (add_param _ _ ps) as [s|] eqn:E; cbn [bind]; [|discriminate]. apply IH. eapply add_params_ok; eauto; [now apply in_layer_path|now apply part_regular]. }
  destruct sp; cbn [negb] in E; [|auto]. destruct devices as [|[d|] [|e devices]]; auto.
Qed.
Lemma init_all_ok name devices is : forall ps ps', foldM (init_param devices) is ps = Ok ps' -> Forall (item_ok name) is -> params_ok name ps -> params_ok name ps'.
Proof.
  induction is as [|i is IH]; intros ps ps'; cbn [foldM]; [intros [= <-]; auto|]. destruct (init_param devices ps i) as [s|] eqn:E; cbn [bind]; [|discriminate].
  intros H F O. inversion F; subst. eapply IH; eauto. eapply init_params_ok; eauto.
Qed.

(** ** Initial values *)
Variables initial initial' : pystr -> pystr -> nat -> nat -> nat -> num.
Lemma matrix_dims layer name i r c : same_rows (new_matrix initial layer name i r c) (new_matrix initial' layer name i r c).
Proof. unfold new_matrix. induction (seq 0 c); cbn [map]; constructor; auto. now rewrite !map_length. Qed.
Lemma matrices_dims layer name k r c : Forall2 same_rows (new_matrices initial layer name k r c) (new_matrices initial' layer name k r c).
Proof. unfold new_matrices. induction (seq 0 k); cbn [map]; constructor; auto using matrix_dims. Qed.
Lemma biases_dims layer name l1 l2 : same_rows (map (fun i => map (initial layer name 0 i) (seq 0 l2)) (seq 0 l1)) (map (fun i => map (initial' layer name 0 i) (seq 0 l2)) (seq 0 l1)).
Proof. unfold same_rows. induction (seq 0 l1); cbn [map]; constructor; auto. now rewrite !map_length. Qed.
Lemma bias_dims layer name n : length (new_bias initial layer name n) = length (new_bias initial' layer name n).
Proof. unfold new_bias. now rewrite !map_length. Qed.
Ltac items := repeat first [apply Forall2_nil | apply Forall2_cons; [split; [reflexivity|cbn [snd same_dimensions]; auto using matrix_dims, bias_dims, matrices_dims, biases_dims]|]].
Lemma new_values_sim k name sizes sizes' size :
  Forall2 same_item (initial_params k name sizes' size (new_values initial k name sizes size)) (initial_params k name sizes' size (new_values initial' k name sizes size)).
Proof.
  destruct k; cbn [new_values initial_params recurrent_matrices recurrent_params app]; items.
  induction (combine (seq 0 (length sizes')) sizes') as [|[i s] l IH]; cbn [flat_map]; [constructor|]. apply Forall2_app; [|exact IH].
  destruct (s =? size); items.
Qed.
Lemma matrix_regular layer name i r c : regular (new_matrix initial layer name i r c).
Proof. apply (regular_of _ _ r). unfold new_matrix. apply Forall_map, Forall_forall. intros. now rewrite map_length, seq_length. Qed.
Lemma matrices_regular layer name k r c : regular3 (new_matrices initial layer name k r c).
Proof.
  apply (regular3_of _ _ c r). unfold new_matrices. apply Forall_map, Forall_forall. intros. unfold new_matrix. split; [now rewrite map_length, seq_length|].
  apply Forall_map, Forall_forall. intros. now rewrite map_length, seq_length.
Qed.
Lemma biases_regular layer name l1 l2 : regular (map (fun i => map (initial layer name 0 i) (seq 0 l2)) (seq 0 l1)).
Proof. apply (regular_of _ _ l2). apply Forall_map, Forall_forall. intros. now rewrite map_length, seq_length. Qed.
Ltac good := repeat first [apply Forall_nil | apply Forall_cons; [split; [cbn [snd regular_param]; auto using matrix_regular, matrices_regular, biases_regular|cbn [fst]; first [left; reflexivity | right; exists (str "forward"); reflexivity | right; exists (str "backward"); reflexivity]]|]].
Lemma new_values_ok k name sizes sizes' size :
  Forall (item_ok name) (initial_params k name sizes' size (new_values initial k name sizes size)).
Proof.
  destruct k; cbn [new_values initial_params recurrent_matrices recurrent_params app]; good.
  induction (combine (seq 0 (length sizes')) sizes') as [|[i s] l IH]; cbn [flat_map]; [constructor|]. apply Forall_app. split; [|exact IH].
  destruct (s =? size); good.
Qed.
End Params.
