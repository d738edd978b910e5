(** Splitting layers to devices: C47. *)
From Verif Require Import Base BaseLib ListLib Strings NumStr ParamModel NetModel DeviceModel DeviceSpec DeviceProofs DeviceNet NetExamples NetReal.
Local Open Scope nat_scope.

(** ** How a parameter is split *)

(** A dimension can be split exactly to 1, …, as many devices as its size. The parts are
    consecutive, they cover it exactly, and their sizes differ by at most one. *)
Theorem C47_split (devices size : nat) :
  (1 <= devices <= size ->
   exists ranges, split_per_device devices size = Ok ranges /\ length ranges = devices /\ consecutive 0 size ranges /\
   forall first last, In (first, last) ranges -> last - first = size / devices \/ last - first = size / devices + 1) /\
  (devices = 0 -> split_per_device devices size = Err RuntimeError) /\
  (devices <> 0 -> size < devices -> split_per_device devices size = Err ValueError).
Proof.
  split; [|split].
  - intro H. pose proof (split_ok devices size ltac:(lia) ltac:(lia)) as E. eexists. split; [exact E|]. apply split_inv in E. tauto.
  - intros ->. reflexivity.
  - intros H L. unfold split_per_device. destruct (Nat.ltb_spec devices 1); [lia|]. destruct (Nat.ltb_spec size devices); [reflexivity|lia].
Qed.
Print Assumptions C47_split.
Example C47_split_example : split_per_device 3 8 = Ok [(0, 3); (3, 6); (6, 8)].
Proof. reflexivity. Qed.

(** The parts, one after another, are the whole parameter. *)
Theorem C47_parts X (l : list X) devices ranges : split_per_device devices (length l) = Ok ranges ->
  concat (map (fun r => slice_range r l) ranges) = l.
Proof.
  intro H. apply split_inv in H as (_ & _ & C & _). apply (slices_concat _ l ranges 0 C).
Qed.
Print Assumptions C47_parts.

(** ** What a network computes *)

(** Two networks with the same layers and the same initial parameters, on different
    devices, compute the same probabilities and recurrent states from every input, or
    raise the same exception. *)
Theorem C47_same_output A (ds ds' : list (description A)) o o' n n' :
  Forall2 same_layer ds ds' -> same_output o o' ->
  Forall (fun d => right_values (d_kind d) (d_values d) /\ fitting_values (d_values d)) ds -> fitting_output o ->
  Forall works_on_devices ds -> Forall works_on_devices ds' -> output_works_on_devices o -> output_works_on_devices o' ->
  create_network ds o = Ok n -> create_network ds' o' = Ok n' ->
  (forall m b, eval_network n m b = eval_network n' m b) /\
  (forall b targets, target_probs n b targets = target_probs n' b targets).
Proof.
  intros S SO V VO W W' WO WO'. apply network_created; try assumption. clear - S V W W'.
  induction S as [|d d' ds ds' S _ IH]; [constructor|]. inversion_clear V as [|? ? [R F] V']. inversion_clear W. inversion_clear W'.
  constructor; [|auto]. unfold good. auto.
Qed.
Print Assumptions C47_same_output.

(** ** Devices that do not work *)

Lemma dict_get_in X k (v : X) d : dict_get k d = Some v -> In (k, v) d.
Proof.
  induction d as [|[k' v'] d IH]; cbn [dict_get]; [discriminate|]. unfold pystr_eqb. destruct (pystr_eq_dec k' k) as [E|E].
  - intro H. left. congruence.
  - intro H. right. auto.
Qed.
Section Absent.
Context {A : arith}.
Notation params := (list (pystr * param A)).
(** Where the parameters of a layer with named devices can be *)
Definition named (is : list (pystr * pystr * bool * param A)) (ps : params) : Prop :=
  forall p v, In (p, v) ps -> exists layer name s u d, In (layer, name, s, u) is /\ p = param_path layer name (Some d).
Lemma add_inv p (v : param A) ps ps' : add_param p v ps = Ok ps' -> ps' = ps ++ [(p, v)].
Proof. unfold add_param. destruct (dict_get p ps); congruence. Qed.
Lemma init_named devices : devices <> [None] -> forall is is' (ps ps' : params), incl is is' ->
  Forall (fun '(_, _, s, _) => s = true) is ->
  named is' ps -> foldM (init_param devices) is ps = Ok ps' -> named is' ps'.
Proof.
  intros D. induction is as [|[[[layer name] s] u] is IH]; intros is' ps ps' I F N; cbn [foldM].
  - intro H. injection H as <-. exact N.
  - inversion_clear F as [|? ? F0 F']; cbv beta iota in F0; subst s. destruct (init_param devices ps _) as [ps1|] eqn:E; cbn [bind]; [|discriminate]. apply IH; [|exact F'|].
    { intros x Hx. apply I. now right. }
    clear IH. cbn [init_param negb] in E.
    assert (E' : (do ranges <- split_per_device (length devices) (last_dimension u);
        foldM (fun ps '(device, range) =>
          match device with
          | None => Err AssertionError
          | Some d => add_param (param_path layer name None ++ str "/" ++ d)%list (part range u) ps
          end) (combine devices ranges) ps) = Ok ps1).
    { destruct devices as [|[d|] [|? ?]]; try exact E. congruence. }
    clear E. destruct (split_per_device _ _) as [ranges|]; cbn [bind] in E'; [|discriminate].
    revert ps N E'. generalize (combine devices ranges). intro l. induction l as [|[[d|] r] l IHl]; intros ps N; cbn [foldM].
    + intro H. injection H as <-. exact N.
    + destruct (add_param _ _ ps) as [ps2|] eqn:E2; cbn [bind]; [|discriminate]. apply IHl. apply add_inv in E2 as ->.
      intros p v Hp. apply in_app_iff in Hp as [Hp|[Hp|[]]]; [now apply (N p v)|]. injection Hp as <- <-.
      exists layer, name, true, u, d. split; [apply I; now left|]. unfold param_path. rewrite !app_nil_r, <- !app_assoc. reflexivity.
    + discriminate.
Qed.

Lemma named_none is (ps : params) layer name : named is ps ->
  (forall l' n' s u d, In (l', n', s, u) is -> param_path l' n' (Some d) <> param_path layer name None) ->
  get_param ps layer name None = Err KeyError.
Proof.
  intros N H. unfold get_param. destruct (dict_get _ ps) as [v|] eqn:E; [|reflexivity]. apply dict_get_in in E.
  destruct (N _ _ E) as (l' & n' & s & u & d & I & P). exfalso. exact (H _ _ _ _ _ I (eq_sym P)).
Qed.
Lemma path_longer layer name d : param_path layer name (Some d) <> param_path layer name None.
Proof.
  unfold param_path. intro H. apply (f_equal (@length N)) in H. rewrite !app_length in H. cbn [length] in H. unfold str in H.
  cbn [length map] in H. cbn in H. lia.
Qed.
Lemma path_w_b layer d : param_path layer (str "input/W") (Some d) <> param_path layer (str "input/b") None.
Proof.
  unfold param_path. intro H. apply app_inv_head, app_inv_head in H. vm_compute in H. discriminate H.
Qed.
End Absent.

(** A softmax layer that has been assigned to one device by name: no input can be
    evaluated. *)
Theorem C47_softmax_one_named_device_refuted A (ds : list (description A)) (o : output_description A) n device w bias :
  o_kind o = Softmax -> o_values o = SoftmaxValues w bias -> o_devices o = [Some device] -> create_network ds o = Ok n ->
  (forall m b, exists e, eval_network n m b = Err e) /\ (forall b targets, exists e, target_probs n b targets = Err e).
Proof.
  intros K V D C. unfold create_network in C. rewrite K, V, D in C. cbn [bind output_params] in C.
  destruct (create_layers [] ds) as [ls|]; cbn [bind] in C; [|discriminate].
  destruct (foldM _ _ _) as [ps|] eqn:F; cbn [bind] in C; [|discriminate]. injection C as <-.
  eapply init_named in F; [|discriminate|apply incl_refl|repeat constructor|intros ? ? []].
  assert (G : get_param ps (o_name o) (str "input/W") None = Err KeyError).
  { apply (named_none _ _ _ _ F). intros l' n' s u d [E|[E|[]]]; injection E as <- <- <- <-; [apply path_longer|].
    unfold param_path. intro H. apply app_inv_head, app_inv_head in H. vm_compute in H. discriminate H. }
  assert (S : forall x, exists e, softmax_layer (mkNetwork ls Softmax (o_name o) (o_inputs o) (o_size o) [Some device] ps (o_unk_class o) (o_exclude_unk o)) x = Err e).
  { intro x. unfold softmax_layer. cbn [n_params n_name n_devices length Nat.ltb Nat.leb]. destruct (tensor_preact _ _ _ _ _ _); cbn [bind]; [|eauto].
    unfold get_weight. rewrite G. cbn [bind]. eauto. }
  split; intros; [unfold eval_network|unfold target_probs, eval_targets]; cbn [n_layers n_inputs n_kind];
    (destruct (eval_layers _ _ _ _ _ _) as [[outs st]|]; cbn [bind]; [|eauto]);
    (destruct (mapM _ (o_inputs o)) as [ins|]; cbn [bind]; [|eauto]);
    (destruct (mapM _ ins) as [fs|]; cbn [bind]; [|eauto]);
    (destruct (concat_features fs) as [x|]; cbn [bind]; [|eauto]);
    destruct (S x) as [e ->]; cbn [bind]; eauto.
Qed.
Print Assumptions C47_softmax_one_named_device_refuted.

(** Hierarchical softmax works only on the default device. *)
Theorem C47_hsoftmax_named_devices_refuted A (ds : list (description A)) (o : output_description A) n l1 l2 w bias w2 bias2 :
  o_kind o = HSoftmax l1 l2 -> o_values o = HSoftmaxValues w bias w2 bias2 -> o_devices o <> [None] -> create_network ds o = Ok n ->
  (forall m b, exists e, eval_network n m b = Err e) /\ (forall b targets, exists e, target_probs n b targets = Err e).
Proof.
  intros K V D C. unfold create_network in C. rewrite K, V in C. cbn [output_params] in C.
  destruct (create_layers [] ds) as [ls|]; cbn [bind] in C; [|discriminate].
  destruct (1 <? length (o_devices o)) eqn:L; cbn [bind] in C; [discriminate|].
  destruct (foldM _ _ _) as [ps|] eqn:F; cbn [bind] in C; [|discriminate]. injection C as <-.
  eapply init_named in F; [|exact D|apply incl_refl|repeat constructor|intros ? ? []].
  assert (G : get_param ps (o_name o) (str "input/W") None = Err KeyError).
  { apply (named_none _ _ _ _ F). intros l' n' s u d [E|[E|[E|[E|[]]]]]; injection E as <- <- <- <-; [apply path_longer| | |];
    unfold param_path; intro H; apply app_inv_head, app_inv_head in H; vm_compute in H; discriminate H. }
  split; intros; [unfold eval_network|unfold target_probs, eval_targets]; cbn [n_layers n_inputs n_kind];
    (destruct (eval_layers _ _ _ _ _ _) as [[outs st]|]; cbn [bind]; [|eauto]);
    (destruct (mapM _ (o_inputs o)) as [ins|]; cbn [bind]; [|eauto]);
    (destruct (mapM _ ins) as [fs|]; cbn [bind]; [|eauto]);
    (destruct (concat_features fs) as [x|]; cbn [bind]; [|eauto]);
    unfold hsoftmax_layer; cbn [n_devices n_params n_name]; rewrite L; unfold get_weight; rewrite G; cbn [bind]; eauto.
Qed.
Print Assumptions C47_hsoftmax_named_devices_refuted.

(** A gated linear unit works only on the default device, too. *)
Theorem C47_glu_named_devices_refuted A (before after_ : list (description A)) d o n filter_size w bias :
  d_kind d = GLU filter_size -> d_values d = Convolution w bias -> d_devices d <> [None] ->
  create_network (before ++ d :: after_) o = Ok n ->
  (forall m b, exists e, eval_network n m b = Err e) /\ (forall b targets, exists e, target_probs n b targets = Err e).
Proof.
  intros K V D C. destruct (created_network _ _ _ C) as (ls & CL & EN & _).
  assert (S : forall m b outs i j, exists e, eval_layers m b outs i j ls = Err e).
  { clear - K V D CL. revert ls CL. generalize (@nil nat). induction before as [|d0 before IH]; intros sizes ls; cbn [app create_layers].
    - destruct (create_layer sizes d) as [l|] eqn:E; cbn [bind]; [|discriminate]. destruct (create_layers _ after_) as [r|]; cbn [bind]; [|discriminate].
      intro H. injection H as <-. intros m b outs i j. cbn [eval_layers].
      enough (X : exists e, eval_layer m b outs i j l = Err e) by (destruct X as [e ->]; cbn [bind]; eauto).
      unfold create_layer in E. rewrite K, V in E. destruct (mapM _ _) as [input_sizes|]; cbn [bind] in E; [|discriminate].
      cbn [initial_params] in E. destruct (foldM _ _ _) as [ps|] eqn:F; cbn [bind] in E; [|discriminate]. injection E as <-.
      eapply init_named in F; [|exact D|apply incl_refl|repeat constructor|intros ? ? []].
      assert (G : get_param ps (d_name d) (str "input/b") None = Err KeyError).
      { apply (named_none _ _ _ _ F). intros l' n' s u d' [E|[E|[]]]; injection E as <- <- <- <-; [apply path_w_b|apply path_longer]. }
      unfold eval_layer. cbn [l_kind l_inputs l_params l_name l_devices l_size]. destruct (mapM _ _) as [ins|]; cbn [bind]; [|eauto].
      destruct m; [|eauto]. destruct ins as [|[[?|x] ?] [|? ?]]; eauto. unfold tensor_conv1d.
      destruct (mapM _ _) as [parts|]; cbn [bind]; [|eauto]. destruct parts as [|p parts]; [cbn [bind]; eauto|].
      destruct (concat_features _); cbn [bind]; [|eauto]. unfold get_bias. change (str "input" ++ str "/b") with (str "input/b"). rewrite G. cbn [bind]. eauto.
    - destruct (create_layer sizes d0) as [l|] eqn:E; cbn [bind]; [|discriminate].
      destruct (create_layers _ (before ++ d :: after_)) as [r|] eqn:R; cbn [bind]; [|discriminate]. intro H. injection H as <-.
      intros m b outs i j. cbn [eval_layers]. destruct (eval_layer m b outs i j l) as [[v st]|]; cbn [bind]; [|eauto].
      destruct (IH _ _ R m b (outs ++ [(v, l_size l)]) (i + 1) (j + length (state_sizes l))) as [e ->]. cbn [bind]. eauto. }
  rewrite EN. split; intros; [unfold eval_network|unfold target_probs, eval_targets]; cbn [n_layers];
    match goal with |- context [eval_layers ?m ?b ?o ?i ?j ls] => destruct (S m b o i j) as [e ->] end; cbn [bind]; eauto.
Qed.
Print Assumptions C47_glu_named_devices_refuted.

(** ** Examples *)
Definition dev (names : list pystr) : list (option pystr) := map Some names.
Definition ex_descriptions (devices : list (option pystr)) : list (description integers) :=
  let z : num integers := zero in let o : num integers := one in
  [mkDescription WordInput (str "i") [] 3 Tanh devices NoValues z;
   mkDescription Projection (str "p") [0] 2 Tanh devices (Table [[z; o; o]; [o; o; z]]) z;
   mkDescription LSTM (str "l") [1] 2 Tanh devices
     (Recurrent [[o; z]; [o; o]; [z; z]; [o; z]; [o; z]; [o; o]; [z; z]; [o; z]] [[o; o]; [o; o]; [z; z]; [o; z]; [o; z]; [o; o]; [z; z]; [o; z]]
                [o; o; z; o; o; z; z; o]) z;
   mkDescription FullyConnected (str "f") [2] 3 ReLU devices (Affine [[o; z]; [o; o]; [z; o]] [o; z; o]) z;
   mkDescription Addition (str "a") [2; 3] 3 Tanh devices (Projections (fun i => [[o; z]; [o; o]; [z; o]])) z].
Definition ex_output (devices : list (option pystr)) : output_description integers :=
  let z : num integers := zero in let o : num integers := one in
  mkOutput Softmax (str "o") [4] 3 devices (SoftmaxValues [[o; z; o]; [o; o; z]; [z; z; o]] [o; z; z]) 0 false.
Definition ex_devices := [str "gpu0"; str "gpu1"].

Definition ex_created (devices : list (option pystr)) : network integers :=
  match create_network (ex_descriptions devices) (ex_output devices) with Ok n => n | Err _ => ex_forward end.
Definition ex_two : batch := mkBatch [[1; 2]; [0; 1]] [[1; 2]; [0; 1]] [[true; true]; [true; false]] None.

Example C47_same_output_created : forall devices, In devices [[None]; dev ex_devices] ->
  create_network (ex_descriptions devices) (ex_output devices) = Ok (ex_created devices).
Proof. intros devices [<-|[<-|[]]]; vm_compute; reflexivity. Qed.
Example C47_same_output_differ : ex_created [None] <> ex_created (dev ex_devices).
Proof. intro H. apply (f_equal (fun n => n_devices n)) in H. vm_compute in H. discriminate. Qed.
Example C47_same_output_hypotheses :
  Forall2 same_layer (ex_descriptions [None]) (ex_descriptions (dev ex_devices)) /\
  same_output (ex_output [None]) (ex_output (dev ex_devices)) /\
  Forall (fun d => right_values (d_kind d) (d_values d) /\ fitting_values (d_values d)) (ex_descriptions [None]) /\
  fitting_output (ex_output [None]) /\
  Forall works_on_devices (ex_descriptions [None]) /\ Forall works_on_devices (ex_descriptions (dev ex_devices)) /\
  output_works_on_devices (ex_output [None]) /\ output_works_on_devices (ex_output (dev ex_devices)).
Proof.
  repeat match goal with |- _ /\ _ => split end; try reflexivity; try (repeat constructor; fail).
  right. discriminate.
Qed.
Example C47_same_output_evaluates : match eval_network (ex_created (dev ex_devices)) Minibatch ex_two with Ok (p, _) => length p = 2 | Err _ => False end.
Proof. vm_compute. reflexivity. Qed.

(** One named device *)
Example C47_one_named_device_example :
  (exists n, create_network (ex_descriptions (dev [str "gpu0"])) (ex_output (dev [str "gpu0"])) = Ok n) /\
  eval_network (ex_created (dev [str "gpu0"])) Minibatch ex_two = Err KeyError.
Proof. split; [exists (ex_created (dev [str "gpu0"]))|]; vm_compute; reflexivity. Qed.

(** A gated linear unit on two devices, and hierarchical softmax on one *)
Definition ex_glu_descriptions (devices : list (option pystr)) : list (description integers) :=
  let z : num integers := zero in let o : num integers := one in
  [mkDescription WordInput (str "i") [] 3 Tanh devices NoValues z;
   mkDescription Projection (str "p") [0] 2 Tanh devices (Table [[z; o; o]; [o; o; z]]) z;
   mkDescription (GLU 2) (str "g") [1] 3 Tanh devices (Convolution [[[o; z]; [o; o]; [z; o]; [z; o]; [o; o]; [o; z]]; [[o; z]; [o; o]; [z; o]; [z; o]; [o; o]; [o; z]]] [o; z; o; z; o; z]) z].
Definition ex_hsoftmax (devices : list (option pystr)) : output_description integers :=
  let z : num integers := zero in let o : num integers := one in
  mkOutput (HSoftmax 2 2) (str "o") [2] 3 devices (HSoftmaxValues [[o; z; o]; [z; o; o]] [o; z] [[[o; z; o]; [z; o; o]]; [[o; o; o]; [z; o; z]]] [[z; o]; [o; o]]) 0 false.
Definition ex_outcome (ds : list (description integers)) (o : output_description integers) : option exn :=
  match create_network ds o with
  | Ok n => match eval_network n Minibatch ex_two with Ok _ => None | Err e => Some e end
  | Err _ => None
  end.
Example C47_glu_hsoftmax_example :
  (exists n, create_network (ex_glu_descriptions [None]) (ex_hsoftmax [None]) = Ok n /\ exists r, eval_network n Minibatch ex_two = Ok r) /\
  ex_outcome (ex_glu_descriptions (dev ex_devices)) (ex_hsoftmax [None]) = Some KeyError /\
  ex_outcome (ex_glu_descriptions [None]) (ex_hsoftmax (dev [str "gpu0"])) = Some KeyError /\
  create_network (ex_glu_descriptions [None]) (ex_hsoftmax (dev ex_devices)) = Err ValueError.
Proof.
  split.
  - destruct (create_network (ex_glu_descriptions [None]) (ex_hsoftmax [None])) as [n|] eqn:E; [|vm_compute in E; discriminate].
    exists n. split; [reflexivity|]. destruct (eval_network n Minibatch ex_two) as [r|] eqn:E'; [eauto|].
    assert (X : ex_outcome (ex_glu_descriptions [None]) (ex_hsoftmax [None]) <> None) by (unfold ex_outcome; rewrite E, E'; discriminate).
    vm_compute in X. congruence.
  - vm_compute. auto.
Qed.
