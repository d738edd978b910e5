(** From the conditions on an architecture description to the layers of the network, and
    back. *)
From Coq Require Import ZArith.
From Verif Require Import Base BaseLib ListLib Strings NumStr Dict VocabModel ArchModel ArchSpec ParamModel NetModel NetSpec
  DeviceModel DeviceSpec DeviceProofs DeviceNet OutputModel OutputProofs BuildModel BuildSpec BuildShape BuildLayers BuildNet BuildProofs
  DescribedSpec EquationProps AcceptSpec AcceptParams.
Local Open Scope nat_scope.

(** ** Options *)
Lemma elements_ok o key ns : listed o key ns -> exists v, oget o key = Some v /\ elements v = Ok (map SStr ns).
Proof.
  intros [H|(s & H & ->)]; (eexists; split; [exact H|]); cbn [elements]; [reflexivity|]. now rewrite map_map.
Qed.
Lemma texts_ok ns : mapM (fun e => do s <- text_of e; Ok (Some s)) (map SStr ns) = Ok (map Some ns).
Proof. induction ns as [|x ns IH]; cbn [map mapM text_of bind]; [reflexivity|]. now rewrite IH. Qed.
Lemma devices_iff default o devices : device_names default o = Ok devices <-> devices_option default o devices.
Proof.
  split.
  - intro H. unfold devices_option. destruct (devices_inv _ _ _ H) as [(-> & _)|(ns & Hn & L & ->)]; [|left; eauto].
    unfold device_names in H. change (option_value o (str "devices")) with (oget o (str "devices")).
    destruct (oget o (str "devices")) as [v|] eqn:E; [|right; split; [now left|reflexivity]].
    destruct (falsy v) eqn:F.
    + right. split; [|reflexivity]. destruct v as [[[|c s]|z]|[|x l]]; try discriminate F; cbn [In]; auto. destruct z; try discriminate F. auto.
    + destruct (elements v) as [es|] eqn:EE; cbn [bind] in H; [|discriminate]. destruct (texts_inv _ _ H) as (ns & -> & Q). left. exists ns.
      split; [|split; [eapply elements_listed; eauto|exact Q]]. intros ->. discriminate Q.
  - unfold devices_option, device_names. change (option_value o (str "devices")) with (oget o (str "devices")). intros [(ns & Hn & L & ->)|[H ->]].
    + destruct (elements_ok _ _ _ L) as (v & E & EE). rewrite E. replace (falsy v) with false; [rewrite EE; apply texts_ok|].
      destruct v as [[[|c s]|z]|[|x l]]; cbn [elements] in EE; try reflexivity; try discriminate EE; injection EE as EE; destruct ns; try discriminate EE; contradiction.
    + cbn [In] in H. destruct H as [<-|[<-|[<-|[<-|[]]]]]; reflexivity.
Qed.
Lemma some_devices_option default o devices : devices_option default o devices -> some_devices devices.
Proof. intros [(ns & Hn & _ & ->)|[_ ->]]; [right; eauto|]. destruct default as [d|]; [|now left]. right. exists [d]. split; [discriminate|reflexivity]. Qed.
Lemma activation_iff o act : activation_of o = Ok act <-> activation_option o act.
Proof.
  split; [apply activation_inv|]. unfold activation_of, activation_option. change (option_value o (str "activation")) with (oget o (str "activation")).
  destruct (oget o (str "activation")) as [[[t|z]|l]|]; try tauto; [|now intros ->]. intros []; reflexivity.
Qed.

Lemma position_ok (known : list (pystr * nat)) name size : NoDup (map fst known) -> In (name, size) known ->
  exists i, position (map fst known) (SStr name) = Ok i /\ py_index (map snd known) i = Ok size.
Proof.
  induction known as [|[n s] known IH]; cbn [map fst snd position scalar_eqb]; [intros _ []|]. intros ND H. inversion ND as [|? ? Hn ND']; subst.
  destruct (pystr_eqb_spec n name) as [->|Hne].
  - exists 0. split; [reflexivity|]. destruct H as [[= ->]|H]; [reflexivity|]. destruct Hn. apply in_map_iff. now exists (name, size).
  - destruct H as [[= -> _]|H]; [contradiction|]. destruct (IH ND' H) as (i & -> & E). exists (S i). split; [reflexivity|exact E].
Qed.
Lemma inputs_ok (known : list (pystr * nat)) o sizes : NoDup (map fst known) -> inputs_found known o sizes ->
  exists inputs, input_positions (map fst known) o = Ok inputs /\ mapM (py_index (map snd known)) inputs = Ok sizes.
Proof.
  intros ND (ns & L & F). destruct (elements_ok _ _ _ L) as (v & E & EE). unfold input_positions, ArchModel.lookup. rewrite E. cbn [bind]. rewrite EE. cbn [bind].
  clear L E EE. induction F as [|n s ns sizes H F IH]; [exists []; auto|]. destruct IH as (inputs & I1 & I2). destruct (position_ok _ _ _ ND H) as (i & P1 & P2).
  exists (i :: inputs). cbn [map mapM]. rewrite P1, I1, P2, I2. auto.
Qed.
Lemma inputs_back (known : list (pystr * nat)) o inputs sizes : input_positions (map fst known) o = Ok inputs -> mapM (py_index (map snd known)) inputs = Ok sizes ->
  inputs_found known o sizes.
Proof.
  intros H M. destruct (inputs_inv _ _ _ H) as (ns & L & F). exists ns. split; [exact L|]. apply mapM_inv in M. clear H L. revert sizes M.
  induction F as [|i n inputs ns Hi F IH]; intros sizes M; inversion M as [|? s ? sizes' Hs M']; subst; [constructor|]. constructor; [|now apply IH].
  rewrite nth_error_map in Hi. unfold py_index in Hs. rewrite nth_error_map in Hs. destruct (nth_error known i) as [[n' s']|] eqn:E; [|discriminate]. cbn in Hi, Hs.
  injection Hi as ->. injection Hs as ->. now apply nth_error_In in E.
Qed.

Section Layers.
Context {A : arith}.
Variable parse_int : pystr -> result Z.
Variable dropout_scale : option ArchModel.value -> result (num A).
Variable initial : pystr -> pystr -> nat -> nat -> nat -> num A.
Variable default : option pystr.
Variable v : vocabulary.
Notation hidden := (hidden_layer parse_int dropout_scale initial default).
Notation accepted_layer := (accepted_layer parse_int dropout_scale default).
Definition known (ds : list (description A)) : list (pystr * nat) := map (fun d => (d_name d, d_size d)) ds.
Lemma known_names ds : map fst (known ds) = map d_name ds.
Proof. unfold known. rewrite map_map. reflexivity. Qed.
Lemma known_sizes ds : map snd (known ds) = map d_size ds.
Proof. unfold known. rewrite map_map. reflexivity. Qed.
Lemma known_app ds es : known (ds ++ es) = (known ds ++ known es)%list.
Proof. apply map_app. Qed.

Lemma number_ok (check : Z -> bool) o key default' size : number_option parse_int o key default' size -> (oget o key <> None -> check (Z.of_nat size) = false) ->
  match oget o key with
  | None => Ok default'
  | Some w => do s <- single w; do z <- int_of parse_int s; if check z then Err ValueError else Ok (Z.to_nat z)
  end = Ok size.
Proof.
  unfold number_option. change (option_value o key) with (oget o key). destruct (oget o key) as [[[t|z]|l]|]; cbn [single bind int_of]; try tauto.
  - intros -> H. cbn [bind]. rewrite H by discriminate. now rewrite Nat2Z.id.
  - intros -> H. rewrite H by discriminate. now rewrite Nat2Z.id.
  - now intros -> _.
Qed.
Lemma filter_iff o region : filter_size parse_int o = Ok region <-> number_option parse_int o (str "filter_size") 5 region /\ 0 < region.
Proof.
  unfold filter_size. split.
  - intro H. split; [apply (integer_inv parse_int (fun z => z <=? 0)%Z); [exact H|intros z Hz; apply Z.leb_gt in Hz; lia]|].
    destruct (oget o _) as [w|]; [|injection H as <-; lia]. destruct (single w) as [s|]; cbn [bind] in H; [|discriminate]. destruct (int_of parse_int s) as [z|]; cbn [bind] in H; [|discriminate].
    destruct (Z.leb_spec z 0); [discriminate|]. injection H as <-. lia.
  - intros [H P]. apply (number_ok (fun z => z <=? 0)%Z); [exact H|]. intros _. apply Z.leb_gt. lia.
Qed.
Lemma kind_iff o type k : kind_of parse_int o type = Ok k <-> type_name (reverse_option o) type k /\ forall region, k = GLU region -> number_option parse_int o (str "filter_size") 5 region /\ 0 < region.
Proof.
  split.
  - intro H. destruct (kind_described parse_int _ _ _ H) as [T _]. split; [exact T|]. intros region ->. apply filter_iff.
    inversion T as [| | | | | | | | | | | | | |r Et Er|]; subst. cbn in H. destruct (filter_size parse_int o) as [g|]; cbn [bind] in H; [|discriminate]. injection H as ->. reflexivity.
  - intros [T G]. destruct T as [| | | |R|R|R|R|R|R|R|R| | | |]; try reflexivity; try (cbn; rewrite reverse_iff, R; reflexivity). cbn. specialize (G _ eq_refl). apply filter_iff in G. now rewrite G.
Qed.
Lemma size_iff k o sizes size : layer_size parse_int k o sizes = Ok size <->
  number_option parse_int o (str "size") (match k with Addition => hd 0 | _ => total end sizes) size /\
  (k = Addition -> option_value o (str "size") = None -> sizes <> []).
Proof.
  unfold layer_size. change (option_value o (str "size")) with (oget o (str "size")). split.
  - intro H. split.
    + apply (integer_inv parse_int (fun z => z <? 0)%Z); [|intros z Hz; apply Z.ltb_ge in Hz; exact Hz].
      destruct (oget o (str "size")); [exact H|]. destruct k; try exact H. unfold py_index in H. destruct sizes; [discriminate|exact H].
    + intros -> E. rewrite E in H. unfold py_index in H. destruct sizes; discriminate.
  - intros [H N]. apply (number_ok (fun z => z <? 0)%Z) in H; [|intros _; apply Z.ltb_ge; lia].
    destruct (oget o (str "size")); [exact H|]. destruct k; try exact H. unfold py_index. destruct sizes; [now destruct N|exact H].
Qed.
Lemma check_iff k sizes size : check_inputs k sizes size = Ok tt <->
  (k = Highway \/ k = Dropout -> size = total sizes) /\ (forall region, k = GLU region -> length sizes = 1).
Proof.
  unfold check_inputs. change sum with total. split.
  - intro H. split.
    + intros [->| ->]; destruct (Nat.eqb_spec (total sizes) size); congruence.
    + intros region ->. destruct (Nat.eqb_spec (length sizes) 1); congruence.
  - intros [H G]. destruct k; try reflexivity.
    + now rewrite H, Nat.eqb_refl by auto.
    + now rewrite (G _ eq_refl).
    + now rewrite H, Nat.eqb_refl by auto.
Qed.

Lemma accepts_hidden earlier o name k size sizes : NoDup (map d_name earlier) -> 
  accepted_layer (known earlier) o name k size sizes ->
  exists d l, hidden earlier o = Ok d /\ d_name d = name /\ d_size d = size /\ create_layer (map d_size earlier) d = Ok l.
Proof.
  intros ND [Hn (type & HT & TN) HI HZ (act & HA) HR HS (devices & HD & HC) H1 H2 H3].
  rewrite <- known_names in ND. destruct (inputs_ok _ _ _ ND HI) as (inputs & P1 & P2). rewrite known_names in P1. rewrite known_sizes in P2.
  assert (EK : kind_of parse_int o type = Ok k) by (apply kind_iff; auto).
  assert (EZ : layer_size parse_int k o sizes = Ok size) by (apply size_iff; auto).
  assert (EC : check_inputs k sizes size = Ok tt) by (apply check_iff; auto).
  assert (ES : exists scale, match k with Dropout => dropout_scale (oget o (str "dropout_rate")) | _ => Ok one end = Ok scale).
  { destruct k; eauto. }
  destruct ES as [scale ES]. apply text_inv in Hn. apply text_inv in HT. apply activation_iff in HA. pose proof (some_devices_option _ _ _ HD) as SD. apply devices_iff in HD.
  unfold hidden_layer. rewrite P1. cbn [bind]. rewrite HD. cbn [bind]. rewrite Hn. cbn [bind]. rewrite HT. cbn [bind]. rewrite EK. cbn [bind]. rewrite P2. cbn [bind].
  rewrite EZ. cbn [bind]. rewrite HA. cbn [bind]. rewrite EC. cbn [bind]. rewrite ES. cbn [bind].
  eexists. destruct (kind_inv parse_int _ _ _ EK) as (K1 & _ & _ & K2 & _).
  destruct (init_all_ok devices (initial_params k name sizes size (new_values initial k name sizes size)) SD []) as (ps & EP).
  { apply (divides_iff _ _ _ (layer_divides initial k name sizes size K1 K2)). exact HC. }
  { apply layer_diverge. }
  { intros key i []. }
  eexists. split; [reflexivity|]. cbn [d_name d_size]. split; [reflexivity|]. split; [reflexivity|]. unfold create_layer. cbn [d_inputs d_devices d_kind d_name d_size d_values].
  rewrite P2. cbn [bind]. rewrite EP. reflexivity.
Qed.

Lemma hidden_accepts earlier o d l : hidden earlier o = Ok d -> create_layer (map d_size earlier) d = Ok l ->
  exists sizes, accepted_layer (known earlier) o (d_name d) (d_kind d) (d_size d) sizes.
Proof.
  unfold hidden_layer. destruct (input_positions _ o) as [inputs|] eqn:EI; cbn [bind]; [|discriminate].
  destruct (device_names default o) as [devices|] eqn:ED; cbn [bind]; [|discriminate]. destruct (text o (str "name")) as [name|] eqn:EN; cbn [bind]; [|discriminate].
  destruct (text o (str "type")) as [type|] eqn:ET; cbn [bind]; [|discriminate]. destruct (kind_of parse_int o type) as [k|] eqn:EK; cbn [bind]; [|discriminate].
  destruct (mapM _ inputs) as [sizes|] eqn:ES; cbn [bind]; [|discriminate]. destruct (layer_size parse_int k o sizes) as [size|] eqn:EZ; cbn [bind]; [|discriminate].
  destruct (activation_of o) as [act|] eqn:EA; cbn [bind]; [|discriminate].
  destruct (check_inputs k sizes size) as [[]|] eqn:EC; cbn [bind]; [|discriminate].
  match goal with |- context [bind ?z _] => destruct z as [scale|] eqn:EX; cbn [bind]; [|discriminate] end.
  intro H. injection H as <-. cbn [d_name d_kind d_size]. unfold create_layer. cbn [d_inputs d_devices d_kind d_name d_size d_values]. rewrite ES. cbn [bind].
  destruct (foldM _ _ _) as [ps|] eqn:EP; cbn [bind]; [|discriminate]. intros _. exists sizes.
  destruct (kind_inv parse_int _ _ _ EK) as (K1 & _ & _ & K2 & _). apply kind_iff in EK as [TN GL]. apply size_iff in EZ as [Z1 Z2]. apply check_iff in EC as [C1 C2].
  constructor.
  - now apply text_inv.
  - exists type. split; [|exact TN]. now apply text_inv.
  - rewrite <- known_names in EI. rewrite <- known_sizes in ES. eapply inputs_back; eauto.
  - exact Z1.
  - exists act. now apply activation_iff.
  - exact GL.
  - intros ->. exists scale. exact EX.
  - exists devices. split; [now apply devices_iff|]. apply (divides_iff _ _ _ (layer_divides initial k name sizes size K1 K2)). eapply init_all_splits; eauto.
  - exact C1.
  - exact C2.
  - exact Z2.
Qed.

Lemma input_iff o name size : (exists d, input_layer (A := A) v o = Ok d /\ d_name d = name /\ d_size d = size) <-> accepted_input v o (name, size).
Proof.
  unfold input_layer, accepted_input. cbn [fst snd]. split.
  - intros (d & H & <- & <-). destruct (text o (str "type")) as [type|] eqn:ET; cbn [bind] in H; [|discriminate]. apply text_inv in ET.
    destruct (pystr_eqb_spec type (str "word")) as [->|]; [|destruct (pystr_eqb_spec type (str "class")) as [->|]; [|discriminate]]; cbn [bind] in H;
      (destruct (text o (str "name")) as [name|] eqn:EN; cbn [bind] in H; [|discriminate]); (destruct (activation_of o) as [act|] eqn:EA; cbn [bind] in H; [|discriminate]);
      injection H as <-; cbn [d_name d_size]; (split; [now apply text_inv|]); (split; [|exists act; now apply activation_iff]); [left|right]; auto.
  - intros (Hn & HT & act & HA). apply text_inv in Hn. apply activation_iff in HA. destruct HT as [[HT ->]|[HT ->]]; apply text_inv in HT; rewrite HT; cbn [bind];
      [change (pystr_eqb (str "word") (str "word")) with true|change (pystr_eqb (str "class") (str "word")) with false; change (pystr_eqb (str "class") (str "class")) with true];
      cbn [bind]; rewrite Hn; cbn [bind]; rewrite HA; cbn [bind]; eexists; (split; [reflexivity|]); auto.
Qed.
Lemma input_created sizes o d : input_layer v o = Ok d -> exists l, create_layer (A := A) sizes d = Ok l.
Proof.
  unfold input_layer. destruct (text o (str "type")) as [type|]; cbn [bind]; [|discriminate].
  destruct (pystr_eqb type (str "word")); [|destruct (pystr_eqb type (str "class")); [|discriminate]]; cbn [bind];
    (destruct (text o (str "name")) as [name|]; cbn [bind]; [|discriminate]); (destruct (activation_of o) as [act|]; cbn [bind]; [|discriminate]);
    intro H; injection H as <-; unfold create_layer; cbn; eauto.
Qed.

(** ** The output layer *)
Notation output := (output_layer parse_int initial default).
Definition create_output (o : output_description A) : result (list (pystr * param A)) :=
  do _ <- match o_kind o with
          | HSoftmax _ _ => if 1 <? length (o_devices o) then Err ValueError else Ok tt
          | Softmax => Ok tt
          end;
  foldM (init_param (o_devices o)) (output_params (o_kind o) (o_name o) (o_values o)) [].

Lemma one_device default' o devices : devices_option default' o devices -> (length devices = 1 <-> (1 <? length devices) = false).
Proof.
  intro H. apply some_devices_option in H as [->|(ns & Hn & ->)]; [cbn; tauto|]. rewrite map_length. destruct ns as [|? ns]; [contradiction|]. cbn [length].
  destruct (Nat.ltb_spec 1 (S (length ns))); split; intros; try lia; discriminate.
Qed.
Ltac pairwise := repeat match goal with
    | |- ForallOrdPairs _ (_ :: _) => constructor
    | |- ForallOrdPairs _ [] => constructor
    | |- Forall _ (_ :: _) => constructor
    | |- Forall _ [] => constructor
    end.
Lemma softmax_divides name rows size :
  divides [size] (output_params Softmax name (SoftmaxValues (new_matrix initial name (str "input/W") 0 rows size) (new_bias initial name (str "input/b") size))).
Proof.
  cbn [output_params]. split.
  - intros l n u [H|[H|[]]]; injection H; clear H; intros; subst; cbn [last_dimension]; rewrite ?new_matrix_length, ?new_bias_length; now left.
  - intros s [<-|[]]. do 3 eexists. split; [now left|]. apply new_matrix_length.
Qed.
Lemma accepts_output exclude_unk earlier o : NoDup (map d_name earlier) -> accepted_output default v (known earlier) o ->
  exists out ps, output exclude_unk v earlier o = Ok out /\ create_output out = Ok ps.
Proof.
  intros ND [(name & Hn) (sizes & HI) (act & HA) (devices & HD & HT)]. rewrite <- known_names in ND.
  destruct (inputs_ok _ _ _ ND HI) as (inputs & P1 & P2). rewrite known_names in P1. rewrite known_sizes in P2.
  apply text_inv in Hn. apply activation_iff in HA. pose proof (some_devices_option _ _ _ HD) as SD. pose proof (one_device _ _ _ HD) as OD. apply devices_iff in HD.
  unfold output_layer. rewrite P1. cbn [bind]. rewrite HD. cbn [bind]. rewrite Hn. cbn [bind].
  destruct HT as [(HT & HC & unk_id & unk_class & HU & HU')|(HT & HL & HN)]; apply text_inv in HT; rewrite HT; cbn [bind]; rewrite P2; cbn [bind]; rewrite HA; cbn [bind].
  - change (pystr_eqb (str "softmax") (str "softmax")) with true. rewrite HU. cbn [bind]. unfold py_index. rewrite HU'. cbn [bind].
    eexists. destruct (init_all_ok devices (output_params Softmax name (SoftmaxValues (new_matrix initial name (str "input/W") 0 (sum sizes) (num_classes v)) (new_bias initial name (str "input/b") (num_classes v)))) SD []) as (ps & EP).
    { apply (divides_iff _ _ _ (softmax_divides _ _ _)). exact HC. }
    { cbn [output_params]. pairwise; unfold base, param_path; rewrite <- ?app_assoc; apply diverge_after, diverge_after; vm_compute; repeat first [left; discriminate | right]. }
    { intros key i []. }
    exists ps. split; [reflexivity|]. exact EP.
  - change (pystr_eqb (str "hsoftmax") (str "softmax")) with false. change (pystr_eqb (str "hsoftmax") (str "hsoftmax")) with true.
    destruct (levels_ok (num_classes v) HN) as (l1 & l2 & EL & _ & L1 & L2 & _). rewrite EL. cbn [bind]. eexists.
    assert (L1' : l1 <> 0) by (intros ->; lia). assert (L2' : l2 <> 0) by (intros ->; lia).
    destruct (init_all_ok devices (output_params (HSoftmax l1 l2) name (HSoftmaxValues (new_matrix initial name (str "input/W") 0 (sum sizes) l1) (new_bias initial name (str "input/b") l1)
             (new_matrices initial name (str "level1/W") l1 (sum sizes) l2) (map (fun i => map (initial name (str "level1/b") 0 i) (seq 0 l2)) (seq 0 l1)))) SD []) as (ps & EP).
    { assert (G : forall s, s <> 0 -> length devices <= s /\ NoDup devices).
      { intros s Hs. rewrite HL. split; [lia|]. destruct devices as [|d [|? ?]]; try discriminate HL. constructor; [intros []|constructor]. }
      cbn [output_params]. pairwise; cbn [splits last_dimension]; intros _; right; apply G; rewrite ?new_matrix_length, ?new_bias_length, ?new_matrices_dim by assumption; try assumption.
      destruct l1; [contradiction|]. cbn [seq map]. now rewrite map_length, seq_length. }
    { cbn [output_params]. pairwise; unfold base, param_path; rewrite <- ?app_assoc; apply diverge_after, diverge_after; vm_compute; repeat first [left; discriminate | right]. }
    { intros key i []. }
    exists ps. split; [reflexivity|]. unfold create_output. cbn [o_kind o_devices o_name o_values]. apply OD in HL. rewrite HL. exact EP.
Qed.
Lemma output_accepts exclude_unk earlier o out ps : output exclude_unk v earlier o = Ok out -> create_output out = Ok ps -> accepted_output default v (known earlier) o.
Proof.
  unfold output_layer. destruct (input_positions _ o) as [inputs|] eqn:EI; cbn [bind]; [|discriminate].
  destruct (device_names default o) as [devices|] eqn:ED; cbn [bind]; [|discriminate]. destruct (text o (str "name")) as [name|] eqn:EN; cbn [bind]; [|discriminate].
  destruct (text o (str "type")) as [type|] eqn:ET; cbn [bind]; [|discriminate].
  destruct (mapM _ inputs) as [sizes|] eqn:ES; cbn [bind]; [|discriminate].
  destruct (activation_of o) as [act|] eqn:EA; cbn [bind]; [|discriminate].
  rewrite <- known_names in EI. rewrite <- known_sizes in ES. apply devices_iff in ED. apply text_inv in ET.
  intros H C. constructor; [exists name; now apply text_inv|exists sizes; eapply inputs_back; eauto|exists act; now apply activation_iff|].
  exists devices. split; [exact ED|]. destruct (pystr_eqb_spec type (str "softmax")) as [->|].
  - left. split; [exact ET|]. destruct (word_to_id v UNK) as [unk_id|]; cbn [bind] in H; [|discriminate]. unfold py_index in H. destruct (nth_error (v_w2c v) unk_id) as [unk_class|] eqn:EU; cbn [bind] in H; [|discriminate].
    injection H as <-. split; [|eauto]. unfold create_output in C. cbn [o_kind o_devices o_name o_values bind] in C.
    apply (divides_iff _ _ devices (softmax_divides name (sum sizes) (num_classes v))). eapply init_all_splits. exact C.
  - destruct (pystr_eqb_spec type (str "hsoftmax")) as [->|]; [|destruct (kind_of parse_int o type); cbn [bind] in H; discriminate].
    right. split; [exact ET|]. destruct (level_sizes (num_classes v)) as [[l1 l2]|] eqn:EL; cbn [bind] in H; [|discriminate]. injection H as <-.
    unfold create_output in C. cbn [o_kind o_devices o_name o_values] in C. split.
    + apply (one_device _ _ _ ED). destruct (1 <? length devices); [discriminate|reflexivity].
    + destruct (num_classes v); [discriminate EL|lia].
Qed.

(** ** All layers *)
Lemma create_layers_app (ds es : list (description A)) : forall sizes, create_layers sizes (ds ++ es) =
  do ls <- create_layers sizes ds; do ls' <- create_layers (sizes ++ map d_size ds) es; Ok (ls ++ ls').
Proof.
  induction ds as [|d ds IH]; intro sizes; cbn [app create_layers map].
  - rewrite app_nil_r. cbn [bind]. now destruct (create_layers sizes es).
  - destruct (create_layer sizes d) as [l|]; cbn [bind]; [|reflexivity]. rewrite IH. rewrite <- app_assoc. cbn [app].
    destruct (create_layers (sizes ++ [d_size d]) ds) as [ls|]; cbn [bind]; [|reflexivity]. destruct (create_layers _ es); reflexivity.
Qed.
Fixpoint chain (known : list (pystr * nat)) (os : list option_dict) (result : list (pystr * nat)) : Prop :=
  match os with
  | [] => result = known
  | o :: r => exists name k size sizes, accepted_layer known o name k size sizes /\ chain (known ++ [(name, size)])%list r result
  end.
Lemma accepted_chain os last : forall known, accepted_layers parse_int dropout_scale default v known (os ++ [last]) <->
  exists known', chain known os known' /\ accepted_output default v known' last.
Proof.
  induction os as [|o os IH]; intro known0.
  - cbn [app accepted_layers chain]. split; [eauto|]. now intros (? & -> & H).
  - change (accepted_layers parse_int dropout_scale default v known0 ((o :: os) ++ [last])) with
      (match (os ++ [last])%list with [] => accepted_output default v known0 o
       | _ => exists name k size sizes, accepted_layer known0 o name k size sizes /\ accepted_layers parse_int dropout_scale default v (known0 ++ [(name, size)])%list (os ++ [last]) end).
    assert (NE : (os ++ [last])%list <> []) by (destruct os; discriminate). destruct (os ++ [last])%list as [|x l] eqn:E; [contradiction|]. rewrite <- E in *. clear E NE x l.
    cbn [chain]. split.
    + intros (name & k & size & sizes & H & R). apply IH in R as (known' & C & O). exists known'. split; [|exact O]. eauto 8.
    + intros (known' & (name & k & size & sizes & H & C) & O). exists name, k, size, sizes. split; [exact H|]. apply IH. eauto.
Qed.
Lemma added_chain os : forall earlier ds ls, added hidden earlier ds os -> create_layers (map d_size earlier) ds = Ok ls -> chain (known earlier) os (known (earlier ++ ds)).
Proof.
  induction os as [|o os IH]; intros earlier [|d ds] ls; cbn [added]; try tauto.
  - intros _ _. cbn [chain]. now rewrite app_nil_r.
  - intros (H & _ & G) C. cbn [create_layers] in C. destruct (create_layer _ d) as [l|] eqn:EL; cbn [bind] in C; [|discriminate].
    destruct (create_layers _ ds) as [r|] eqn:EC; cbn [bind] in C; [|discriminate]. destruct (hidden_accepts _ _ _ _ H EL) as (sizes & Ac).
    cbn [chain]. exists (d_name d), (d_kind d), (d_size d), sizes. split; [exact Ac|].
    assert (EC' : create_layers (map d_size (earlier ++ [d])) ds = Ok r) by (rewrite map_app; exact EC).
    specialize (IH (earlier ++ [d])%list ds r G EC'). rewrite <- app_assoc in IH. rewrite known_app in IH at 1. exact IH.
Qed.
Definition oname (o : option_dict) := option_value o (str "name").
Definition dname (d : description A) := Some (One (SStr (d_name d))).
Lemma dname_nodup ds rest : NoDup (map dname ds ++ rest) -> NoDup (map d_name ds) /\ forall name, In (Some (One (SStr name))) rest -> ~ In name (map d_name ds).
Proof.
  intro ND. apply NoDup_app_iff in ND as (N1 & _ & N3). split.
  - apply (NoDup_map_inv (fun n => Some (One (SStr n)))). rewrite map_map. exact N1.
  - intros name Hr Hi. apply in_map_iff in Hi as (d & <- & Hi). apply (N3 (dname d)); [now apply in_map|exact Hr].
Qed.
Lemma add_fresh earlier (d : description A) : ~ In (d_name d) (map d_name earlier) -> add_layer earlier d = Ok (earlier ++ [d])%list.
Proof.
  intro H. unfold add_layer. destruct (existsb _ _) eqn:E; [|reflexivity]. apply existsb_exists in E as (x & Hx & E). destruct (pystr_eqb_spec (d_name d) x) as [<-|]; [contradiction|discriminate].
Qed.
Lemma move_name earlier (d : description A) o rest : oname o = dname d -> NoDup (map dname earlier ++ oname o :: rest) -> NoDup (map dname (earlier ++ [d]) ++ rest).
Proof. intros E ND. rewrite map_app, <- app_assoc. cbn [map app]. now rewrite <- E. Qed.
Lemma chain_added os rest : forall earlier known', NoDup (map dname earlier ++ map oname os ++ rest) ->
  chain (known earlier) os known' ->
  exists ds ls, foldM (fun ds o => do d <- hidden ds o; add_layer ds d) os earlier = Ok (earlier ++ ds)%list /\ known' = known (earlier ++ ds) /\
    create_layers (map d_size earlier) ds = Ok ls /\ NoDup (map dname (earlier ++ ds) ++ rest).
Proof.
  induction os as [|o os IH]; intros earlier known' ND; cbn [chain].
  - intros ->. exists [], []. rewrite app_nil_r. cbn [foldM create_layers]. auto.
  - intros (name & k & size & sizes & Ac & C). cbn [map app] in ND. destruct (dname_nodup _ _ ND) as [N1 N2].
    destruct (accepts_hidden _ _ _ _ _ _ N1 Ac) as (d & l & H & En & Ez & CL).
    assert (EO : oname o = dname d) by (unfold oname, dname; rewrite En; apply (al_name _ _ _ _ _ _ _ _ _ Ac)).
    apply (move_name _ _ _ _ EO) in ND.
    assert (C' : chain (known (earlier ++ [d])) os known') by (rewrite known_app; cbn [known map]; rewrite En, Ez; exact C).
    destruct (IH (earlier ++ [d])%list known' ND) as (ds & ls & F & K & CR & ND'); [exact C'|].
    exists (d :: ds), (l :: ls). rewrite <- app_assoc in F, K, ND'. cbn [foldM]. rewrite H. cbn [bind]. rewrite add_fresh. 2: { rewrite En. apply N2. left. rewrite EO. unfold dname. now rewrite En. }
    cbn [bind]. split; [exact F|]. split; [exact K|]. split; [|exact ND']. cbn [create_layers]. rewrite CL. cbn [bind]. rewrite map_app in CR. cbn [map] in CR. now rewrite CR.
Qed.
Lemma inputs_accepts os : forall earlier ds, added (fun _ o => input_layer v o) earlier ds os -> Forall2 (accepted_input v) os (known ds).
Proof.
  induction os as [|o os IH]; intros earlier [|d ds]; cbn [added]; try tauto; [constructor|]. intros (H & _ & G). cbn [known map]. constructor; [|eapply IH; exact G].
  apply input_iff. eauto.
Qed.
Lemma accepts_inputs os rest : forall earlier kn, NoDup (map dname earlier ++ map oname os ++ rest) -> Forall2 (accepted_input v) os kn ->
  exists ds ls, foldM (fun ds o => do d <- input_layer v o; add_layer ds d) os earlier = Ok (earlier ++ ds)%list /\ kn = known ds /\
    create_layers (map d_size earlier) ds = Ok ls /\ NoDup (map dname (earlier ++ ds) ++ rest).
Proof.
  induction os as [|o os IH]; intros earlier kn ND F; inversion F as [|? [name size] ? kn' Ac F']; subst.
  - exists [], []. rewrite app_nil_r. cbn [foldM create_layers]. auto.
  - cbn [map app] in ND. destruct (dname_nodup _ _ ND) as [N1 N2]. pose proof (proj1 Ac) as Hn. cbn [fst] in Hn. apply input_iff in Ac as (d & H & En & Ez).
    assert (EO : oname o = dname d) by (unfold oname, dname; rewrite En; exact Hn). apply (move_name _ _ _ _ EO) in ND.
    destruct (IH (earlier ++ [d])%list kn' ND F') as (ds & ls & Fo & K & CR & ND'). destruct (input_created (map d_size earlier) _ _ H) as (l & CL).
    exists (d :: ds), (l :: ls). rewrite <- app_assoc in Fo, ND'. cbn [foldM]. rewrite H. cbn [bind]. rewrite add_fresh. 2: { rewrite En. apply N2. left. exact Hn. }
    cbn [bind]. split; [exact Fo|]. split; [cbn [known map]; rewrite En, Ez; f_equal; exact K|]. split; [|exact ND']. cbn [create_layers]. rewrite CL. cbn [bind]. rewrite map_app in CR. cbn [map] in CR. now rewrite CR.
Qed.

Notation build := (build parse_int dropout_scale initial).
Lemma create_network_iff (ds : list (description A)) out : (exists n, create_network ds out = Ok n) <-> (exists ls ps, create_layers [] ds = Ok ls /\ create_output out = Ok ps).
Proof.
  unfold create_network, create_output. destruct (create_layers [] ds) as [ls|]; cbn [bind].
  - match goal with |- context [bind ?z _] => destruct z as [[]|] end; cbn [bind].
    + destruct (foldM _ _ _) as [ps|]; cbn [bind]; split; [eauto|eauto|intros (? & H); discriminate H|intros (? & ? & _ & H); discriminate H].
    + split; [intros (? & H); discriminate H|intros (? & ? & _ & H); discriminate H].
  - split; [intros (? & H); discriminate H|intros (? & ? & H & _); discriminate H].
Qed.
Lemma build_accepts exclude_unk a n : build default exclude_unk a v = Ok n -> accepted parse_int dropout_scale default v a.
Proof.
  unfold BuildModel.build. destruct (foldM _ (a_inputs a) []) as [ins|] eqn:EI; cbn [bind]; [|discriminate].
  destruct (rev (a_layers a)) as [|o r] eqn:ER; [discriminate|]. destruct (foldM _ (rev r) ins) as [ds|] eqn:EH; cbn [bind]; [|discriminate].
  destruct (text o (str "name")) as [name|] eqn:EN; cbn [bind]; [|discriminate]. destruct (_ || _) eqn:EB; [discriminate|].
  destruct (output _ _ _ _) as [out|] eqn:EO; cbn [bind]; [|discriminate]. intro C.
  assert (EL : a_layers a = rev r ++ [o]) by (rewrite <- (rev_involutive (a_layers a)), ER; reflexivity).
  destruct (fold_added (fun _ o => input_layer v o) _ _ _ EI) as (ds1 & E1 & A1). cbn [app] in E1. subst ins.
  destruct (fold_added _ _ _ _ EH) as (ds2 & -> & A2).
  destruct (proj1 (create_network_iff _ _) (ex_intro _ _ C)) as (ls & ps & CL & CO). rewrite create_layers_app in CL. cbn [app] in CL.
  destruct (create_layers [] ds1) as [ls1|]; cbn [bind] in CL; [|discriminate]. destruct (create_layers (map d_size ds1) ds2) as [ls2|] eqn:C2; cbn [bind] in CL; [|discriminate].
  exists (known ds1). split; [eapply inputs_accepts; exact A1|]. rewrite EL. apply accepted_chain. exists (known (ds1 ++ ds2)). split.
  - eapply added_chain; eauto.
  - eapply output_accepts; eauto.
Qed.
Lemma accepts_build exclude_unk a : ordinary a -> accepted parse_int dropout_scale default v a -> exists n, build default exclude_unk a v = Ok n.
Proof.
  intros [O1 O2 _] (kn & FI & AL). destruct (rev (a_layers a)) as [|o r] eqn:ER.
  { assert (E : a_layers a = []) by (rewrite <- (rev_involutive (a_layers a)), ER; reflexivity). rewrite E in AL. destruct AL. }
  assert (EL : a_layers a = rev r ++ [o]) by (rewrite <- (rev_involutive (a_layers a)), ER; reflexivity). rewrite EL in AL, O1, O2.
  apply accepted_chain in AL as (kn' & CH & AO).
  assert (ND : NoDup (map dname [] ++ map oname (a_inputs a) ++ map oname (rev r) ++ [oname o])).
  { rewrite map_app, map_app in O1. exact O1. }
  destruct (accepts_inputs _ _ _ _ ND FI) as (ds1 & ls1 & F1 & K1 & C1 & ND1). cbn [app] in F1, ND1. subst kn.
  destruct (chain_added (rev r) _ ds1 kn' ND1) as (ds2 & ls2 & F2 & K2 & C2 & ND2); [exact CH|]. subst kn'.
  destruct (dname_nodup _ _ ND2) as [N1 N2]. destruct (accepts_output exclude_unk _ _ N1 AO) as (out & ps & EO & CO).
  assert (CN : exists n, create_network (ds1 ++ ds2) out = Ok n).
  { apply create_network_iff. exists (ls1 ++ ls2)%list, ps. split; [|exact CO]. rewrite create_layers_app. change (map d_size []) with (@nil nat) in C1. rewrite C1. cbn [bind app]. rewrite C2. reflexivity. }
  destruct CN as (n & CN). exists n. unfold BuildModel.build. rewrite F1. cbn [bind]. rewrite ER. rewrite F2. cbn [bind].
  rewrite last_last in O2. destruct (ao_name _ _ _ _ AO) as (name & Hn). pose proof Hn as Hn'. rewrite O2 in Hn'. injection Hn' as EA. apply text_inv in Hn. rewrite Hn. cbn [bind].
  rewrite EA. cbn [scalar_eqb]. destruct (pystr_eqb_spec name name); [|congruence]. cbn [negb orb].
  replace (existsb (pystr_eqb name) (map d_name (ds1 ++ ds2))) with false; [rewrite EO; exact CN|]. symmetry. apply Bool.not_true_is_false. intro C.
  apply existsb_exists in C as (x & Hx & C). destruct (pystr_eqb_spec name x) as [<-|]; [|discriminate]. apply (N2 name); [|exact Hx]. left. unfold oname. rewrite O2, EA. reflexivity.
Qed.
End Layers.
