(** From the layers of an architecture description to the layers of the network. *)
From Coq Require Import ZArith.
From Verif Require Import Base BaseLib ListLib Strings NumStr Dict VocabModel ArchModel ArchSpec NetModel NetSpec
  DeviceModel DeviceSpec DeviceProofs DeviceNet DeviceProps OutputModel BuildModel BuildSpec BuildShape BuildLayers BuildNet.
Local Open Scope nat_scope.

(** ** Options *)
Lemma pystr_eqb_spec a c : reflect (a = c) (pystr_eqb a c).
Proof. unfold pystr_eqb. destruct (pystr_eq_dec a c); now constructor. Qed.
Lemma text_inv o key s : text o key = Ok s <-> option_value o key = Some (One (SStr s)).
Proof.
  unfold text, ArchModel.lookup, oget, option_value. destruct (dict_get _ o key) as [[[t|z]|l]|]; cbn; split; intro H; try discriminate; first [now injection H as ->|now inversion H].
Qed.
Lemma has_type_iff o type t : text o (str "type") = Ok type -> (has_type o t <-> type = t).
Proof. intro H. apply text_inv in H. unfold has_type. split; [congruence|intros <-; exact H]. Qed.
Lemma position_inv names x i : position names x = Ok i -> exists n, x = SStr n /\ nth_error names i = Some n.
Proof.
  revert i; induction names as [|n names IH]; intros i; cbn [position]; [discriminate|].
  destruct (scalar_eqb (SStr n) x) eqn:E.
  - intro H. injection H as <-. exists n. split; [|reflexivity]. destruct x as [s|z]; cbn in E; [|discriminate]. now destruct (pystr_eqb_spec n s) as [->|].
  - destruct (position names x) as [j|]; cbn [bind]; [|discriminate]. intro H. injection H as <-. destruct (IH j eq_refl) as (m & -> & Em). eauto.
Qed.
Lemma positions_inv names es inputs : mapM (position names) es = Ok inputs ->
  exists ns, es = map SStr ns /\ Forall2 (fun i n => nth_error names i = Some n) inputs ns.
Proof.
  revert inputs; induction es as [|e es IH]; intros inputs; cbn [mapM].
  - intro H. injection H as <-. exists []. split; [reflexivity|constructor].
  - destruct (position names e) as [i|] eqn:E; cbn [bind]; [|discriminate]. destruct (mapM _ es) as [r|]; cbn [bind]; [|discriminate].
    intro H. injection H as <-. destruct (position_inv _ _ _ E) as (n & -> & En). destruct (IH r eq_refl) as (ns & -> & F). exists (n :: ns). split; [reflexivity|now constructor].
Qed.
Lemma map_SStr_inj a c : map SStr a = map SStr c -> a = c.
Proof. revert c; induction a as [|x a IH]; intros [|y c] H; cbn in H; try discriminate; [reflexivity|]. injection H as -> H. f_equal. auto. Qed.
Lemma listed_unique o key a c : listed o key a -> listed o key c -> a = c.
Proof.
  intros [H|(s & H & ->)] [H'|(s' & H' & ->)]; try congruence; rewrite H in H'; injection H' as H'; now apply map_SStr_inj.
Qed.
Lemma elements_listed o key v es ns : option_value o key = Some v -> elements v = Ok es -> es = map SStr ns -> listed o key ns.
Proof.
  intros H E ->. destruct v as [[s|z]|l]; cbn [elements] in E; [|discriminate|].
  - right. exists s. split; [exact H|]. injection E as E. apply map_SStr_inj. rewrite <- E, map_map. reflexivity.
  - left. injection E as ->. exact H.
Qed.
Lemma inputs_inv names o inputs : input_positions names o = Ok inputs ->
  exists ns, listed o (str "inputs") ns /\ Forall2 (fun i n => nth_error names i = Some n) inputs ns.
Proof.
  unfold input_positions, ArchModel.lookup, oget. destruct (dict_get _ o (str "inputs")) as [v|] eqn:E; cbn [bind]; [|discriminate].
  destruct (elements v) as [es|] eqn:EE; cbn [bind]; [|discriminate]. intro H. destruct (positions_inv _ _ _ H) as (ns & -> & F).
  exists ns. split; [|exact F]. eapply elements_listed; eauto.
Qed.

(** ** Devices *)
Lemma texts_inv es (r : list (option pystr)) : mapM (fun e => do s <- text_of e; Ok (Some s)) es = Ok r -> exists ns, es = map SStr ns /\ r = map Some ns.
Proof.
  revert r; induction es as [|[s|z] es IH]; intros r; cbn [mapM text_of bind]; [|destruct (mapM _ es) as [q|]; cbn [bind]; [|discriminate]|discriminate].
  - intro H. injection H as <-. exists []. auto.
  - intro H. injection H as <-. destruct (IH q eq_refl) as (ns & -> & ->). exists (s :: ns). auto.
Qed.
Lemma devices_inv default o r : device_names default o = Ok r ->
  (r = [default] /\ forall ns, listed o (str "devices") ns -> ns = []) \/
  (exists ns, ns <> [] /\ listed o (str "devices") ns /\ r = map Some ns).
Proof.
  unfold device_names, oget. destruct (dict_get _ o (str "devices")) as [v|] eqn:E.
  - destruct (falsy v) eqn:F.
    + intro H. injection H as <-. left. split; [reflexivity|]. intros ns L. unfold listed, option_value in L. rewrite E in L.
      destruct v as [[[|c s]|z]|[|x l]]; try discriminate F; destruct L as [L|(s0 & L & L')]; try discriminate L.
      * injection L as <-. exact L'.
      * injection L as L. destruct ns; [reflexivity|discriminate].
    + destruct (elements v) as [es|] eqn:EE; cbn [bind]; [|discriminate]. intro H. destruct (texts_inv _ _ H) as (ns & -> & ->). right. exists ns.
      split; [|split; [eapply elements_listed; eauto|reflexivity]]. intros ->. destruct v as [[[|c s]|z]|[|x l]]; cbn in EE; try discriminate.
  - intro H. injection H as <-. left. split; [reflexivity|]. intros ns [L|(s & L & _)]; unfold option_value in L; congruence.
Qed.
Lemma no_device_iff default o r : device_names default o = Ok r -> (no_device default o <-> r = [None]).
Proof.
  intro H. unfold no_device. destruct (devices_inv _ _ _ H) as [(-> & D)|(ns & Hn & L & ->)].
  - split; [intros [-> _]; reflexivity|]. intro E. injection E as ->. auto.
  - split; [intros [_ D]; now apply D in L|]. destruct ns; discriminate.
Qed.
Lemma two_devices_iff default o r : device_names default o = Ok r ->
  (no_device default o \/ (exists d d' names, listed o (str "devices") (d :: d' :: names))) <-> (r = [None] \/ length r <> 1).
Proof.
  intro H. rewrite (no_device_iff _ _ _ H). destruct (devices_inv _ _ _ H) as [(-> & D)|(ns & Hn & L & ->)].
  - split; [intros [E|(d & d' & ns & L)]; [auto|apply D in L; discriminate]|]. intros [E|E]; [auto|]. cbn in E. lia.
  - split.
    + intros [E|(d & d' & ns' & L')]; [auto|]. right. rewrite (listed_unique _ _ _ _ L L'). cbn. lia.
    + intros [E|E]; [auto|]. right. destruct ns as [|d [|d' ns]]; [contradiction|cbn in E; lia|eauto].
Qed.

Section Build.
Context {A : arith}.
Variable parse_int : pystr -> result Z.
Variable dropout_scale : option ArchModel.value -> result (num A).
Variable initial : pystr -> pystr -> nat -> nat -> nat -> num A.
Variable default : option pystr.
Variable a : architecture.
Variable v : vocabulary.

Ltac types H := repeat match type of H with
  | context [pystr_eqb ?x ?y] => destruct (pystr_eqb_spec x y) as [?|?]; cbn [orb] in H
  end.
Definition one_of (types : list (list N)) (t : pystr) : Prop := In t types.
Definition ahead (k : kind) : Prop :=
  match k with BLSTM | BGRU | ReverseLSTM | ReverseGRU | ReverseBLSTM | ReverseBGRU => True | _ => False end.
Lemma reverse_iff o : reverse_time o = reverse_option o.
Proof.
  unfold reverse_time, reverse_option. change (option_value o (str "reverse_time")) with (oget o (str "reverse_time")).
  destruct (oget o (str "reverse_time")) as [[[[|c s]|[|p|p]]|[|x l]]|]; reflexivity.
Qed.
Lemma kind_inv o type k : kind_of parse_int o type = Ok k ->
  input_kind k = false /\ (k = Projection <-> type = str "projection") /\ ((exists f, k = GLU f) <-> type = str "glu") /\
  (forall f, k = GLU f -> f <> 0) /\ type <> str "softmax" /\ type <> str "hsoftmax" /\
  (ahead k <-> type = str "blstm" \/ type = str "bgru" \/ (type = str "lstm" \/ type = str "gru") /\ reverse_option o = true).
Proof.
  intro H. unfold kind_of in H. rewrite <- reverse_iff.
  assert (G : forall f, k = GLU f -> f <> 0).
  { intros f ->. types H; try discriminate; try (destruct (reverse_time o); discriminate).
    unfold filter_size in H. destruct (oget o _) as [w|]; cbn [bind] in H; [|injection H as <-; discriminate].
    destruct (single w) as [s|]; cbn [bind] in H; [|discriminate]. destruct (int_of parse_int s) as [z|]; cbn [bind] in H; [|discriminate].
    destruct (z <=? 0)%Z eqn:E; cbn [bind] in H; [discriminate|]. injection H as <-. apply Z.leb_gt in E. lia. }
  split; [|split; [|split; [|split; [exact G|]]]].
  all: types H; subst; try discriminate; try (destruct (filter_size parse_int o); cbn [bind] in H; [|discriminate]);
    try (destruct (reverse_time o) eqn:RT); injection H as <-; try reflexivity;
    repeat split; intros; try congruence; try (destruct H as (? & ?); discriminate); eauto; try discriminate; try exact I; try contradiction.
  all: repeat match goal with H : _ \/ _ |- _ => destruct H | H : _ /\ _ |- _ => destruct H end; try discriminate; try contradiction; auto.
Qed.

Lemma hidden_inv earlier o d : hidden_layer parse_int dropout_scale initial default earlier o = Ok d ->
  exists type, text o (str "name") = Ok (d_name d) /\ text o (str "type") = Ok type /\ kind_of parse_int o type = Ok (d_kind d) /\
    input_positions (map d_name earlier) o = Ok (d_inputs d) /\ device_names default o = Ok (d_devices d) /\ desc_ok initial v earlier d.
Proof.
  unfold hidden_layer. destruct (input_positions _ o) as [inputs|] eqn:EI; cbn [bind]; [|discriminate].
  destruct (device_names default o) as [devices|] eqn:ED; cbn [bind]; [|discriminate]. destruct (text o (str "name")) as [name|] eqn:EN; cbn [bind]; [|discriminate].
  destruct (text o (str "type")) as [type|] eqn:ET; cbn [bind]; [|discriminate]. destruct (kind_of parse_int o type) as [k|] eqn:EK; cbn [bind]; [|discriminate].
  destruct (mapM _ inputs) as [sizes|] eqn:ES; cbn [bind]; [|discriminate]. destruct (layer_size parse_int k o sizes) as [size|]; cbn [bind]; [|discriminate].
  destruct (activation_of o) as [act|]; cbn [bind]; [|discriminate].
  destruct (check_inputs k sizes size) as [[]|] eqn:EC; cbn [bind]; [|discriminate].
  match goal with |- context [bind ?z _] => destruct z as [scale|]; cbn [bind]; [|discriminate] end.
  intro H. injection H as <-. exists type. cbn [d_name d_kind d_inputs d_devices]. repeat (split; [first [assumption|reflexivity]|]).
  destruct (kind_inv _ _ _ EK) as (K1 & _ & _ & K2 & _). constructor; cbn [d_name d_kind d_inputs d_size d_values].
  - exists sizes. auto.
  - exact K2.
  - intros ->. discriminate.
  - intros ->. discriminate.
Qed.
Lemma input_inv o d : input_layer v o = Ok d ->
  text o (str "name") = Ok (d_name d) /\ input_kind (d_kind d) = true /\ d_inputs d = [] /\ forall earlier, desc_ok initial v earlier d.
Proof.
  unfold input_layer. destruct (text o (str "type")) as [type|]; cbn [bind]; [|discriminate].
  destruct (pystr_eqb type (str "word")); [|destruct (pystr_eqb type (str "class")); [|discriminate]]; cbn [bind];
    (destruct (text o (str "name")) as [name|]; cbn [bind]; [|discriminate]); (destruct (activation_of o) as [act|]; cbn [bind]; [|discriminate]);
    intro H; injection H as <-; cbn [d_name d_kind d_inputs]; repeat (split; [reflexivity|]); intro earlier; constructor; cbn; try discriminate; auto; exists []; auto.
Qed.

(** ** The layers one after another *)
Fixpoint added (step : list (description A) -> option_dict -> result (description A)) (earlier ds : list (description A)) (os : list option_dict) : Prop :=
  match ds, os with
  | [], [] => True
  | d :: ds', o :: os' => step earlier o = Ok d /\ ~ In (d_name d) (map d_name earlier) /\ added step (earlier ++ [d]) ds' os'
  | _, _ => False
  end.
Lemma add_inv earlier d r : add_layer (A := A) earlier d = Ok r -> r = (earlier ++ [d])%list /\ ~ In (d_name d) (map d_name earlier).
Proof.
  unfold add_layer. destruct (existsb _ _) eqn:E; [discriminate|]. intro H. injection H as <-. split; [reflexivity|]. intro I.
  assert (E' : existsb (pystr_eqb (d_name d)) (map d_name earlier) = true); [|congruence].
  apply existsb_exists. exists (d_name d). split; [exact I|]. destruct (pystr_eqb_spec (d_name d) (d_name d)); congruence.
Qed.
Lemma fold_added step os : forall earlier r, foldM (fun ds o => do d <- step ds o; add_layer ds d) os earlier = Ok r ->
  exists ds, r = (earlier ++ ds)%list /\ added step earlier ds os.
Proof.
  induction os as [|o os IH]; intros earlier r; cbn [foldM].
  - intro H. injection H as <-. exists []. rewrite app_nil_r. split; [reflexivity|exact I].
  - destruct (step earlier o) as [d|] eqn:E; cbn [bind]; [|discriminate]. destruct (add_layer earlier d) as [e|] eqn:EA; cbn [bind]; [|discriminate].
    destruct (add_inv _ _ _ EA) as [-> Hn]. intro H. destruct (IH _ _ H) as (ds & -> & G). exists (d :: ds). rewrite <- app_assoc. split; [reflexivity|]. cbn [added]. auto.
Qed.

(** The layers that have been created: names are unique, and the inputs are those of the
    description. *)
Record named (ds : list (description A)) : Prop := {
  nm_nodup : NoDup (map d_name ds);
  nm_input : forall d, In d ds -> (input_kind (d_kind d) = true <-> is_input a (d_name d)) }.
Lemma nodup_snoc X (l : list X) x : NoDup l -> ~ In x l -> NoDup (l ++ [x]).
Proof. intros H Hn. apply NoDup_app_iff. split; [exact H|]. split; [constructor; [intros []|constructor]|]. intros y Hy [->|[]]. contradiction. Qed.

Lemma inputs_added os : forall earlier ds, added (fun _ o => input_layer v o) earlier ds os -> incl os (a_inputs a) -> named earlier ->
  named (earlier ++ ds) /\ descs_ok initial v earlier ds /\ all_fit earlier ds /\ Forall works_on_devices ds /\
  (forall o, In o os -> exists d, In d ds /\ option_value o (str "name") = Some (One (SStr (d_name d)))).
Proof.
  induction os as [|o os IH]; intros earlier [|d ds]; cbn [added]; try tauto.
  - intros _ _ Hm. rewrite app_nil_r. cbn [descs_ok all_fit]. split; [exact Hm|]. split; [exact I|]. split; [exact I|]. split; [constructor|intros ? []].
  - intros (E & Hn & G) Inc Hm. destruct (input_inv _ _ E) as (N1 & K & Ei & Dk). apply text_inv in N1.
    destruct (IH (earlier ++ [d])%list ds G) as (M & D & F & W & Ex).
    { intros x Hx. apply Inc. now right. }
    { destruct Hm as [Hm1 Hm2]. constructor.
      - rewrite map_app. now apply nodup_snoc.
      - intros x Hx. apply in_app_iff in Hx as [Hx|[<-|[]]]; [now apply Hm2|]. rewrite K. split; [|auto]. intros _. exists o. split; [apply Inc; now left|exact N1]. }
    rewrite <- app_assoc in M. split; [exact M|]. cbn [descs_ok all_fit]. split; [auto|]. split; [split; [|exact F]|].
    { unfold fits_desc. destruct (d_kind d); try discriminate; exact I. }
    split. { constructor; [|exact W]. unfold works_on_devices. destruct (d_kind d); try discriminate; exact I. }
    intros x [<-|Hx]; [exists d; split; [now left|exact N1]|]. destruct (Ex x Hx) as (d' & I1 & I2). exists d'. split; [now right|exact I2].
Qed.

(** Inputs of a layer: the same layers as in the description *)
Lemma inputs_kind earlier o inputs : named earlier -> input_positions (map d_name earlier) o = Ok inputs ->
  exists ns, listed o (str "inputs") ns /\
    Forall2 (fun i n => exists d, nth_error earlier i = Some d /\ (input_kind (d_kind d) = true <-> is_input a n)) inputs ns.
Proof.
  intros M H. destruct (inputs_inv _ _ _ H) as (ns & L & F). exists ns. split; [exact L|]. eapply F2_impl; [|exact F].
  intros i n E. cbn beta in E. rewrite nth_error_map in E. destruct (nth_error earlier i) as [d|] eqn:Ed; [|discriminate]. injection E as <-. exists d. split; [reflexivity|].
  apply (nm_input _ M). eapply nth_error_In; eauto.
Qed.
Lemma others_iff earlier o inputs : named earlier -> input_positions (map d_name earlier) o = Ok inputs ->
  (inputs <> [] /\ forall i, In i inputs -> exists e, nth_error earlier i = Some e /\ input_kind (d_kind e) = false) <->
  (exists names, listed o (str "inputs") names /\ names <> [] /\ Forall (fun x => ~ is_input a x) names).
Proof.
  intros M H. destruct (inputs_kind _ _ _ M H) as (ns & L & F). split.
  - intros [Hn Hi]. exists ns. split; [exact L|]. split; [inversion F; subst; [contradiction|discriminate]|].
    clear Hn L H. induction F as [|i n is ns (d & Ed & K) F IH]; constructor.
    + destruct (Hi i (or_introl eq_refl)) as (e & Ee & Ke). rewrite <- K. congruence.
    + apply IH. intros j Hj. apply Hi. now right.
  - intros (names & L' & Hn & Fn). rewrite (listed_unique _ _ _ _ L' L) in *. clear L L' H names. split; [inversion F; subst; [contradiction|discriminate]|].
    clear Hn. induction F as [|i n is ns (d & Ed & K) F IH]; intros j Hj; [contradiction|]. inversion_clear Fn as [|? ? Fn0 Fn1]. destruct Hj as [<-|Hj]; [|auto].
    exists d. split; [exact Ed|]. destruct (input_kind (d_kind d)); [exfalso; apply Fn0, K; reflexivity|reflexivity].
Qed.
Lemma connected_iff earlier o d : named earlier -> hidden_layer parse_int dropout_scale initial default earlier o = Ok d ->
  (connected a o <-> fits_desc earlier (d_kind d) (d_inputs d)).
Proof.
  intros M H. destruct (hidden_inv _ _ _ H) as (type & _ & ET & EK & EI & _ & _). destruct (kind_inv _ _ _ EK) as (K1 & KP & _).
  unfold connected. rewrite !(has_type_iff _ _ _ ET), <- KP, <- (others_iff _ _ _ M EI).
  destruct (inputs_kind _ _ _ M EI) as (ns & L & F). unfold fits_desc. destruct (d_kind d) eqn:K; try discriminate K1.
  2-14: (split; [intros [_ X]; apply X; discriminate|intro X; split; [discriminate|intros _; exact X]]).
  split.
  - intros [X _]. destruct (X eq_refl) as (x & L' & Ix). rewrite (listed_unique _ _ _ _ L L') in F. inversion F as [|i ? is ? (e & Ee & Ke) F' E1 E2]; subst.
    inversion F'; subst. exists i, e. split; [auto|]. split; [exact Ee|]. now apply Ke.
  - intros (i & e & Ei & Ee & Ke). split; [intros _|intros X; contradiction]. rewrite Ei in F. inversion F as [|? n ? ns' (e' & Ee' & Ke') F' E1 E2]; subst. inversion F'; subst.
    exists n. split; [exact L|]. apply Ke'. congruence.
Qed.
Lemma placed_iff earlier o d : hidden_layer parse_int dropout_scale initial default earlier o = Ok d -> (placed_well default o <-> works_on_devices d).
Proof.
  intros H. destruct (hidden_inv _ _ _ H) as (type & _ & ET & EK & _ & ED & _). destruct (kind_inv _ _ _ EK) as (_ & _ & KG & _ & K1 & K2 & _).
  unfold placed_well. rewrite !(has_type_iff _ _ _ ET), (no_device_iff _ _ _ ED). unfold works_on_devices. split.
  - intros [X _]. destruct (d_kind d) eqn:K; try exact I. apply X. left. apply KG. eauto.
  - intro X. split; [|tauto]. intros [E|E]; [|contradiction]. apply KG in E as (f & Ef). rewrite Ef in X. exact X.
Qed.

Lemma hidden_added os : forall earlier ds, added (hidden_layer parse_int dropout_scale initial default) earlier ds os -> named earlier ->
  (forall x, is_input a x -> In x (map d_name earlier)) ->
  named (earlier ++ ds) /\ descs_ok initial v earlier ds /\
  (Forall (connected a) os <-> all_fit earlier ds) /\ (Forall (placed_well default) os <-> Forall works_on_devices ds) /\
  (Forall stepwise_type os <-> Forall (fun d => match d_kind d with BLSTM | BGRU | ReverseLSTM | ReverseGRU | ReverseBLSTM | ReverseBGRU | GLU _ => False | _ => True end) ds) /\
  (Forall unidirectional_type os <-> Forall (fun d => match d_kind d with BLSTM | BGRU | ReverseLSTM | ReverseGRU | ReverseBLSTM | ReverseBGRU => False | _ => True end) ds).
Proof.
  induction os as [|o os IH]; intros earlier [|d ds]; cbn [added]; try tauto.
  - intros _ M _. rewrite app_nil_r. cbn [all_fit descs_ok]. split; [exact M|]. repeat split; auto; constructor.
  - intros (E & Hn & G) M Inp. destruct (hidden_inv _ _ _ E) as (type & EN & ET & EK & EI & ED & Dk). destruct (kind_inv _ _ _ EK) as (K1 & _ & KG & _ & _ & _ & KL).
    destruct (IH (earlier ++ [d])%list ds G) as (M' & D & F & W & S & U).
    { destruct M as [M1 M2]. constructor; [rewrite map_app; now apply nodup_snoc|]. intros x Hx. apply in_app_iff in Hx as [Hx|[<-|[]]]; [now apply M2|].
      rewrite K1. split; [discriminate|]. intro X. apply Inp in X. contradiction. }
    { intros x Hx. rewrite map_app. apply in_app_iff. left. now apply Inp. }
    rewrite <- app_assoc in M'. split; [exact M'|]. cbn [descs_ok all_fit]. split; [auto|]. rewrite !Forall_cons_iff, F, W, S, U.
    rewrite (connected_iff _ _ _ M E), (placed_iff _ _ _ E). split; [tauto|]. split; [tauto|].
    unfold stepwise_type, unidirectional_type, reversed_type. rewrite !(has_type_iff _ _ _ ET), <- KG. split; apply and_iff_compat_r.
    + transitivity (~ ahead (d_kind d) /\ ~ exists f, d_kind d = GLU f); [rewrite KL; tauto|].
      destruct (d_kind d); cbn [ahead]; split; try tauto; try (intros _; split; [tauto|intros (? & X); discriminate]).
      intros (_ & X). apply X. eauto.
    + transitivity (~ ahead (d_kind d)); [rewrite KL; tauto|]. destruct (d_kind d); cbn [ahead]; tauto.
Qed.

(** ** The output layer *)
Lemma output_inv exclude earlier o d : output_layer parse_int initial default exclude v earlier o = Ok d ->
  exists type, text o (str "name") = Ok (o_name d) /\ text o (str "type") = Ok type /\
    input_positions (map d_name earlier) o = Ok (o_inputs d) /\ device_names default o = Ok (o_devices d) /\ output_ok initial v earlier d /\
    (o_kind d = Softmax <-> type = str "softmax") /\ ((exists l1 l2, o_kind d = HSoftmax l1 l2) <-> type = str "hsoftmax") /\
    type <> str "projection" /\ type <> str "glu" /\ type <> str "blstm" /\ type <> str "bgru" /\ type <> str "lstm" /\ type <> str "gru".
Proof.
  unfold output_layer. destruct (input_positions _ o) as [inputs|] eqn:EI; cbn [bind]; [|discriminate].
  destruct (device_names default o) as [devices|] eqn:ED; cbn [bind]; [|discriminate]. destruct (text o (str "name")) as [name|] eqn:EN; cbn [bind]; [|discriminate].
  destruct (text o (str "type")) as [type|] eqn:ET; cbn [bind]; [|discriminate]. destruct (mapM _ inputs) as [sizes|] eqn:ES; cbn [bind]; [|discriminate].
  destruct (activation_of o) as [act|]; cbn [bind]; [|discriminate].
  destruct (pystr_eqb_spec type (str "softmax")) as [->|N1]; [|destruct (pystr_eqb_spec type (str "hsoftmax")) as [->|N2]].
  - destruct (word_to_id v UNK) as [u|]; cbn [bind]; [|discriminate]. destruct (py_index _ u) as [c|]; cbn [bind]; [|discriminate]. intro H. injection H as <-.
    exists (str "softmax"). cbn [o_name o_inputs o_devices o_kind]. repeat (split; [first [assumption|reflexivity]|]).
    split; [|repeat split; try discriminate; intros (? & ? & ?); discriminate]. split; [reflexivity|]. exists sizes. cbn. auto.
  - destruct (level_sizes (num_classes v)) as [[l1 l2]|] eqn:EL; cbn [bind]; [|discriminate]. intro H. injection H as <-.
    exists (str "hsoftmax"). cbn [o_name o_inputs o_devices o_kind]. repeat (split; [first [assumption|reflexivity]|]).
    split; [|repeat split; try discriminate; eauto]. split; [reflexivity|]. exists sizes. cbn. auto.
  - destruct (kind_of parse_int o type); discriminate.
Qed.
Lemma output_connected_iff exclude earlier o d : named earlier -> output_layer parse_int initial default exclude v earlier o = Ok d ->
  (connected a o <-> (o_inputs d <> [] /\ forall i, In i (o_inputs d) -> exists e, nth_error earlier i = Some e /\ input_kind (d_kind e) = false)).
Proof.
  intros M H. destruct (output_inv _ _ _ _ H) as (type & _ & ET & EI & _ & _ & _ & _ & NP & _). unfold connected. rewrite !(has_type_iff _ _ _ ET), (others_iff _ _ _ M EI). tauto.
Qed.
Lemma output_placed_iff exclude earlier o d : output_layer parse_int initial default exclude v earlier o = Ok d ->
  (placed_well default o <-> output_works_on_devices d).
Proof.
  intros H. destruct (output_inv _ _ _ _ H) as (type & _ & ET & _ & ED & _ & KS & KH & _ & NG & _). unfold placed_well. rewrite !(has_type_iff _ _ _ ET).
  rewrite (two_devices_iff _ _ _ ED), (no_device_iff _ _ _ ED), <- KS, <- KH. unfold output_works_on_devices. destruct (o_kind d) as [|l1 l2]; split; intro X.
  - apply X. reflexivity.
  - split; [intros [E|(? & ? & E)]; [contradiction|discriminate]|auto].
  - apply X. right. eauto.
  - split; [auto|discriminate].
Qed.

(** What building does *)
Lemma build_inv exclude n : build parse_int dropout_scale initial default exclude a v = Ok n ->
  exists ds out, create_network ds out = Ok n /\ descs_ok initial v [] ds /\ output_ok initial v ds out /\
    (Forall (connected a) (a_layers a) <->
     all_fit [] ds /\ o_inputs out <> [] /\ forall i, In i (o_inputs out) -> exists e, nth_error ds i = Some e /\ input_kind (d_kind e) = false) /\
    (Forall (placed_well default) (a_layers a) <-> Forall works_on_devices ds /\ output_works_on_devices out) /\
    (Forall stepwise_type (a_layers a) <-> Forall (fun d => match d_kind d with BLSTM | BGRU | ReverseLSTM | ReverseGRU | ReverseBLSTM | ReverseBGRU | GLU _ => False | _ => True end) ds) /\
    o_exclude_unk out = exclude /\
    (Forall unidirectional_type (a_layers a) <-> Forall (fun d => match d_kind d with BLSTM | BGRU | ReverseLSTM | ReverseGRU | ReverseBLSTM | ReverseBGRU => False | _ => True end) ds).
Proof.
  unfold build. destruct (foldM _ (a_inputs a) []) as [ins|] eqn:EI; cbn [bind]; [|discriminate].
  destruct (rev (a_layers a)) as [|o r] eqn:ER; [discriminate|]. destruct (foldM _ (rev r) ins) as [ds|] eqn:EH; cbn [bind]; [|discriminate].
  destruct (text o (str "name")) as [name|] eqn:EN; cbn [bind]; [|discriminate]. destruct (_ || _); [discriminate|].
  destruct (output_layer _ _ _ _ _ _ _) as [out|] eqn:EO; cbn [bind]; [|discriminate]. intro C.
  assert (EL : a_layers a = (rev r ++ [o])%list) by (rewrite <- (rev_involutive (a_layers a)), ER; reflexivity).
  destruct (fold_added (fun _ o => input_layer v o) _ _ _ EI) as (ds1 & E1 & A1). cbn [app] in E1. subst ins.
  destruct (inputs_added _ _ _ A1 (incl_refl _)) as (M1 & D1 & F1 & W1 & X1). { constructor; [constructor|intros ? []]. } cbn [app] in M1.
  destruct (fold_added _ _ _ _ EH) as (ds2 & -> & A2). destruct (hidden_added _ _ _ A2 M1) as (M2 & D2 & F2 & W2 & S2 & U2).
  { intros x (q & Hq & Hx). destruct (X1 q Hq) as (d & Hd & Ed). apply in_map_iff. exists d. split; [congruence|exact Hd]. }
  destruct (output_inv _ _ _ _ EO) as (type & _ & ET & _ & _ & OO & _ & _ & _ & NG & NL & NR & NL' & NR').
  assert (app_ok : forall e d1 d2, descs_ok initial v e (d1 ++ d2) <-> descs_ok initial v e d1 /\ descs_ok initial v (e ++ d1) d2).
  { intros e d1; revert e; induction d1 as [|d d1 IH]; intros e d2; cbn [app descs_ok]; [rewrite app_nil_r; tauto|]. rewrite IH, <- app_assoc. cbn. tauto. }
  assert (app_fit : forall e d1 d2, all_fit (A := A) e (d1 ++ d2) <-> all_fit e d1 /\ all_fit (e ++ d1) d2).
  { intros e d1; revert e; induction d1 as [|d d1 IH]; intros e d2; cbn [app all_fit]; [rewrite app_nil_r; tauto|]. rewrite IH, <- app_assoc. cbn. tauto. }
  exists (ds1 ++ ds2)%list, out. split; [exact C|]. split; [now apply app_ok|]. split; [exact OO|].
  rewrite EL, !Forall_app, !Forall_cons_iff, F2, W2, S2, U2, app_fit, (output_connected_iff _ _ _ _ M2 EO), (output_placed_iff _ _ _ _ EO).
  assert (Z : forall P, Forall P (@nil option_dict) <-> True) by (intro P; split; [auto|constructor]). rewrite !Z.
  split; [tauto|]. split; [tauto|]. split; [|split].
  - assert (S1 : Forall (fun d : description A => match d_kind d with BLSTM | BGRU | ReverseLSTM | ReverseGRU | ReverseBLSTM | ReverseBGRU | GLU _ => False | _ => True end) ds1).
    { clear - A1 initial. revert A1. generalize (@nil (description A)) as e. generalize (a_inputs a). induction ds1 as [|d ds1 IH]; intros [|o os] e; cbn [added]; try tauto; intros; [constructor|].
      destruct A1 as (E & _ & G). constructor; [|eapply IH; eauto]. destruct (input_inv _ _ E) as (_ & K & _). destruct (d_kind d); try discriminate; exact I. }
    unfold stepwise_type, reversed_type. rewrite !(has_type_iff _ _ _ ET). tauto.
  - unfold output_layer in EO. repeat (match type of EO with
      | bind ?z _ = _ => destruct z as [?|]; cbn [bind] in EO; [|discriminate]
      | (if ?c then _ else _) = _ => destruct c
      | (let '(_, _) := ?p in _) = _ => destruct p
      | Err _ = _ => discriminate end); injection EO as <-; reflexivity.
  - assert (S1 : Forall (fun d : description A => match d_kind d with BLSTM | BGRU | ReverseLSTM | ReverseGRU | ReverseBLSTM | ReverseBGRU => False | _ => True end) ds1).
    { clear - A1 initial. revert A1. generalize (@nil (description A)) as e. generalize (a_inputs a). induction ds1 as [|d ds1 IH]; intros [|o os] e; cbn [added]; try tauto; intros; [constructor|].
      destruct A1 as (E & _ & G). constructor; [|eapply IH; eauto]. destruct (input_inv _ _ E) as (_ & K & _). destruct (d_kind d); try discriminate; exact I. }
    unfold unidirectional_type, reversed_type. rewrite !(has_type_iff _ _ _ ET). tauto.
Qed.
End Build.
