(** Building a network again, from a description that has the same options: the networks
    differ only in the values of their parameters. The paths of the parameters. *)
From Coq Require Import ZArith.
From Verif Require Import Base BaseLib ListLib Strings NumStr Dict VocabModel ArchModel ArchSpec ParamModel ParamSpec NetModel DeviceModel OutputModel BuildModel BuildProofs
  SavedModel SavedSpec SavedArrays SavedBuild.
Local Open Scope nat_scope.
Local Open Scope list_scope.

(** ** Options *)
Lemma same_get o o' k : same_options o o' -> oget o k = oget o' k.
Proof. intro H. apply H. Qed.
Lemma same_lookup o o' k : same_options o o' -> ArchModel.lookup o k = ArchModel.lookup o' k.
Proof. intro H. unfold ArchModel.lookup. now rewrite (same_get _ _ k H). Qed.
Lemma same_text o o' k : oget o k = oget o' k -> text o k = text o' k.
Proof. intro H. unfold text, ArchModel.lookup. now rewrite H. Qed.
Lemma same_positions names o o' : same_options o o' -> input_positions names o = input_positions names o'.
Proof. intro H. unfold input_positions. now rewrite (same_lookup _ _ _ H). Qed.
Lemma same_devices default o o' : same_options o o' -> device_names default o = device_names default o'.
Proof. intro H. unfold device_names. now rewrite (same_get _ _ _ H). Qed.
Lemma same_activation o o' : oget o (str "activation") = oget o' (str "activation") -> activation_of o = activation_of o'.
Proof. intro H. unfold activation_of. now rewrite H. Qed.
Lemma same_kind parse_int o o' type : same_options o o' -> kind_of parse_int o type = kind_of parse_int o' type.
Proof. intro H. unfold kind_of, filter_size, reverse_time. now rewrite !(same_get _ _ _ H). Qed.
Lemma same_size parse_int k o o' sizes : same_options o o' -> layer_size parse_int k o sizes = layer_size parse_int k o' sizes.
Proof. intro H. unfold layer_size. now rewrite (same_get _ _ _ H). Qed.

Section Again.
Context {A : arith}.
Notation num := (num A).
Variable parse_int : pystr -> result Z.
Variable dropout_scale : option ArchModel.value -> result num.
Variables initial initial' : pystr -> pystr -> nat -> nat -> nat -> num.
Variable default : option pystr.

Record desc_sim (d d' : description A) : Prop := {
  ds_kind : d_kind d' = d_kind d; ds_name : d_name d' = d_name d; ds_inputs : d_inputs d' = d_inputs d; ds_size : d_size d' = d_size d;
  ds_activation : d_activation d' = d_activation d; ds_devices : d_devices d' = d_devices d; ds_scale : d_scale d' = d_scale d;
  ds_values : forall sizes, Forall2 same_item (initial_params (d_kind d) (d_name d) sizes (d_size d) (d_values d))
                                              (initial_params (d_kind d') (d_name d') sizes (d_size d') (d_values d')) }.
Lemma sim_names e e' : Forall2 desc_sim e e' -> map d_name e' = map d_name e.
Proof. induction 1 as [|d d' e e' [] F IH]; cbn [map]; congruence. Qed.
Lemma sim_sizes e e' : Forall2 desc_sim e e' -> map d_size e' = map d_size e.
Proof. induction 1 as [|d d' e e' [] F IH]; cbn [map]; congruence. Qed.

Lemma input_again v o o' : (forall k, In k [str "type"; str "name"; str "activation"] -> oget o k = oget o' k) ->
  sim desc_sim (input_layer v o) (input_layer v o').
Proof.
  intro H. unfold input_layer. rewrite <- !(same_text o o'), <- (same_activation o o') by (apply H; cbn; auto).
  destruct (text o (str "type")) as [type|]; cbn [bind sim]; [|reflexivity].
  match goal with |- context [bind ?z _] => destruct z as [[k size]|] eqn:Ek; cbn [bind sim]; [|reflexivity] end.
  destruct (text o (str "name")) as [name|]; cbn [bind sim]; [|reflexivity]. destruct (activation_of o) as [act|]; cbn [bind sim]; [|reflexivity].
  constructor; try reflexivity. cbn [d_kind d_name d_size d_values]. intro sizes. destruct k; constructor.
Qed.
Lemma hidden_again e e' o o' : Forall2 desc_sim e e' -> same_options o o' ->
  sim desc_sim (hidden_layer parse_int dropout_scale initial default e o) (hidden_layer parse_int dropout_scale initial' default e' o').
Proof.
  intros F H. unfold hidden_layer. rewrite (sim_names _ _ F), (sim_sizes _ _ F), <- (same_positions _ _ _ H), <- (same_devices _ _ _ H).
  rewrite <- !(same_text o o'), <- (same_activation o o') by apply H.
  destruct (input_positions _ o) as [inputs|]; cbn [bind sim]; [|reflexivity]. destruct (device_names default o) as [devices|]; cbn [bind sim]; [|reflexivity].
  destruct (text o (str "name")) as [name|]; cbn [bind sim]; [|reflexivity]. destruct (text o (str "type")) as [type|]; cbn [bind sim]; [|reflexivity].
  rewrite <- (same_kind parse_int _ _ type H). destruct (kind_of parse_int o type) as [k|]; cbn [bind sim]; [|reflexivity].
  destruct (mapM _ inputs) as [sizes|]; cbn [bind sim]; [|reflexivity]. rewrite <- (same_size parse_int k _ _ sizes H).
  destruct (layer_size parse_int k o sizes) as [size|]; cbn [bind sim]; [|reflexivity]. destruct (activation_of o) as [act|]; cbn [bind sim]; [|reflexivity].
  destruct (check_inputs k sizes size); cbn [bind sim]; [|reflexivity].
  rewrite <- (same_get o o' (str "dropout_rate") H). match goal with |- context [bind ?z _] => destruct z as [scale|]; cbn [bind sim]; [|reflexivity] end.
  constructor; try reflexivity. cbn [d_kind d_name d_size d_values]. intro sizes'. apply new_values_sim.
Qed.

Record out_sim (o o' : output_description A) : Prop := {
  os_kind : o_kind o' = o_kind o; os_name : o_name o' = o_name o; os_inputs : o_inputs o' = o_inputs o; os_size : o_size o' = o_size o;
  os_devices : o_devices o' = o_devices o; os_unk_class : o_unk_class o' = o_unk_class o;
  os_values : Forall2 same_item (output_params (o_kind o) (o_name o) (o_values o)) (output_params (o_kind o') (o_name o') (o_values o')) }.
Lemma output_again exclude exclude' v e e' o o' : Forall2 desc_sim e e' -> same_options o o' ->
  sim (fun x y => out_sim x y /\ o_exclude_unk x = exclude /\ o_exclude_unk y = exclude')
    (output_layer parse_int initial default exclude v e o) (output_layer parse_int initial' default exclude' v e' o').
Proof.
  intros F H. unfold output_layer. rewrite (sim_names _ _ F), (sim_sizes _ _ F), <- (same_positions _ _ _ H), <- (same_devices _ _ _ H).
  rewrite <- !(same_text o o'), <- (same_activation o o') by apply H.
  destruct (input_positions _ o) as [inputs|]; cbn [bind sim]; [|reflexivity]. destruct (device_names default o) as [devices|]; cbn [bind sim]; [|reflexivity].
  destruct (text o (str "name")) as [name|]; cbn [bind sim]; [|reflexivity]. destruct (text o (str "type")) as [type|]; cbn [bind sim]; [|reflexivity].
  destruct (mapM _ inputs) as [sizes|]; cbn [bind sim]; [|reflexivity]. destruct (activation_of o) as [act|]; cbn [bind sim]; [|reflexivity].
  destruct (pystr_eqb type (str "softmax")); [|destruct (pystr_eqb type (str "hsoftmax"))].
  - destruct (word_to_id v UNK) as [i|]; cbn [bind sim]; [|reflexivity]. destruct (py_index (v_w2c v) i) as [c|]; cbn [bind sim]; [|reflexivity].
    split; [|split; reflexivity]. constructor; try reflexivity. cbn [o_kind o_name o_values output_params].
    repeat (apply Forall2_cons; [split; [reflexivity|cbn [snd same_dimensions]; auto using matrix_dims, bias_dims, matrices_dims, biases_dims]|]). constructor.
  - destruct (level_sizes (num_classes v)) as [[l1 l2]|]; cbn [bind sim]; [|reflexivity].
    split; [|split; reflexivity]. constructor; try reflexivity. cbn [o_kind o_name o_values output_params].
    repeat (apply Forall2_cons; [split; [reflexivity|cbn [snd same_dimensions]; auto using matrix_dims, bias_dims, matrices_dims, biases_dims]|]). constructor.
  - rewrite <- (same_kind parse_int _ _ type H). destruct (kind_of parse_int o type); reflexivity.
Qed.

Lemma add_again e e' d d' : Forall2 desc_sim e e' -> desc_sim d d' -> sim (Forall2 desc_sim) (add_layer e d) (add_layer e' d').
Proof.
  intros F D. unfold add_layer. rewrite (sim_names _ _ F), (ds_name _ _ D). destruct (existsb _ _); [reflexivity|]. apply Forall2_app; auto.
Qed.
Lemma layer_again sizes d d' : desc_sim d d' -> sim other_layer (create_layer sizes d) (create_layer sizes d').
Proof.
  intros []. unfold create_layer. rewrite ds_inputs0, ds_devices0. destruct (mapM _ (d_inputs d)) as [is|]; cbn [bind sim]; [|reflexivity].
  pose proof (sim_foldM _ _ _ _ other_params same_item (init_param (d_devices d)) (init_param (d_devices d)) (init_sim (d_devices d)) _ _ (ds_values0 is) [] [] (Forall2_nil _)) as S.
  destruct (foldM _ _ []) as [ps|], (foldM _ (initial_params (d_kind d') _ _ _ _) []) as [ps'|]; cbn [bind sim] in *; try contradiction; [|exact S].
  constructor; cbn; auto.
Qed.
Lemma layers_again ds : forall sizes ds', Forall2 desc_sim ds ds' -> sim (Forall2 other_layer) (create_layers sizes ds) (create_layers sizes ds').
Proof.
  induction ds as [|d ds IH]; intros sizes ds' F; inversion F as [|? d' ? ds0 D F']; subst; cbn [create_layers sim]; [constructor|].
  rewrite (ds_size _ _ D). eapply sim_bind; [now apply layer_again|]. intros l l' L. eapply sim_bind; [now apply IH|]. intros ls ls' Ls. now constructor.
Qed.

Definition again (exclude exclude' : bool) (n n' : network A) : Prop := other_values n (with_exclude_unk exclude n') /\ n_exclude_unk n = exclude /\ n_exclude_unk n' = exclude'.
Lemma network_again exclude exclude' ds ds' o o' : Forall2 desc_sim ds ds' -> out_sim o o' -> o_exclude_unk o = exclude -> o_exclude_unk o' = exclude' ->
  sim (again exclude exclude') (create_network ds o) (create_network ds' o').
Proof.
  intros F [] X X'. unfold create_network. eapply sim_bind; [now apply layers_again|]. intros ls ls' L. rewrite os_kind0, os_devices0.
  match goal with |- context [bind ?z _] => destruct z as [[]|]; cbn [bind sim]; [|reflexivity] end.
  pose proof (sim_foldM _ _ _ _ other_params same_item (init_param (o_devices o)) (init_param (o_devices o)) (init_sim (o_devices o)) _ _ os_values0 [] [] (Forall2_nil _)) as S.
  rewrite os_kind0 in S. destruct (foldM _ _ []) as [ps|], (foldM _ (output_params (o_kind o) (o_name o') _) []) as [ps'|]; cbn [bind sim] in *; try contradiction; [|exact S].
  repeat split; cbn; auto.
Qed.

(** The two architectures describe the same network. *)
Definition input_agrees (o o' : option_dict) : Prop := forall k, In k [str "type"; str "name"; str "activation"] -> oget o k = oget o' k.
Lemma F2_rev X Y (R : X -> Y -> Prop) l l' : Forall2 R l l' -> Forall2 R (rev l) (rev l').
Proof. induction 1; cbn [rev]; [constructor|]. apply Forall2_app; auto. Qed.
Lemma build_again exclude exclude' a a' v : Forall2 input_agrees (a_inputs a) (a_inputs a') -> Forall2 same_options (a_layers a) (a_layers a') ->
  a_output a' = a_output a ->
  sim (again exclude exclude') (build parse_int dropout_scale initial default exclude a v) (build parse_int dropout_scale initial' default exclude' a' v).
Proof.
  intros FI FL EO. unfold build. eapply sim_bind.
  { apply (sim_foldM _ _ _ _ (Forall2 desc_sim) input_agrees); [|exact FI|constructor]. intros e e' o o' E H. eapply sim_bind; [now apply input_again|].
    intros d d' D. now apply add_again. }
  intros ins ins' SI. rewrite EO. apply F2_rev in FL. destruct FL as [|o o' r r' Ho FL]; [reflexivity|]. eapply sim_bind.
  { apply (sim_foldM _ _ _ _ (Forall2 desc_sim) same_options); [|now apply F2_rev|exact SI]. intros e e' q q' E H. eapply sim_bind; [now apply hidden_again|].
    intros d d' D. now apply add_again. }
  intros ds ds' SD. rewrite <- (same_text o o') by apply Ho. destruct (text o (str "name")) as [name|]; cbn [bind]; [|reflexivity].
  rewrite (sim_names _ _ SD). destruct (_ || _); [reflexivity|]. eapply sim_bind; [now apply output_again|]. intros out out' (S & X & X'). now apply network_again.
Qed.
End Again.

(** ** The paths of the parameters *)
Lemma before_slash (x y s t : pystr) : ~ In 47%N x -> ~ In 47%N y -> x ++ str "/" ++ s = y ++ str "/" ++ t -> x = y.
Proof.
  revert y. induction x as [|c x IH]; intros [|d y] Hx Hy E; [reflexivity| | |].
  - injection E as <- _. exfalso. apply Hy. now left.
  - injection E as -> _. exfalso. apply Hx. now left.
  - injection E as <- E. f_equal. apply IH; auto; intro G; [apply Hx|apply Hy]; now right.
Qed.
Lemma in_one_layer x y path : ~ In 47%N x -> ~ In 47%N y -> in_layer x path -> in_layer y path -> x = y.
Proof. intros Hx Hy (s & ->) (t & E). apply app_inv_head in E. eapply before_slash; eauto. Qed.

Section Paths.
Context {A : arith}.
Notation num := (num A).
Notation params := (list (pystr * param A)).
(** Layers with different names, that have plain names if they have parameters *)
Lemma paths_different (l : list (pystr * params)) : NoDup (map fst l) ->
  (forall name ps, In (name, ps) l -> params_ok name ps /\ (ps = [] \/ ~ In 47%N name)) -> NoDup (flat_map (fun x => paths (snd x)) l).
Proof.
  induction l as [|[name ps] l IH]; intros D H; cbn [flat_map]; [constructor|]. cbn [map fst] in D. inversion D as [|? ? Nn D']; subst.
  destruct (H name ps (or_introl eq_refl)) as ([] & E). cbn [snd]. apply NoDup_app_iff. split; [exact po_dict|]. split.
  - apply IH; [exact D'|]. intros; apply H; now right.
  - intros path Hp Hq. apply in_flat_map in Hq as ([name' qs] & Hq & Hp'). cbn [snd] in Hp'. destruct (H name' qs (or_intror Hq)) as ([] & E').
    assert (In name (map fst l)); [|contradiction]. rewrite Forall_forall in po_layer, po_layer0.
    replace name with name'; [apply in_map_iff; exists (name', qs); auto|].
    destruct E as [->|E]; [contradiction|]. destruct E' as [->|E']; [contradiction|]. symmetry. eapply in_one_layer; eauto.
Qed.

Variable parse_int : pystr -> result Z.
Variable dropout_scale : option ArchModel.value -> result num.
Variable initial : pystr -> pystr -> nat -> nat -> nat -> num.
Variable default : option pystr.

(** What is needed of a description: its name is plain if it has parameters. *)
Definition desc_fine (d : description A) : Prop :=
  (forall sizes, Forall (item_ok (d_name d)) (initial_params (d_kind d) (d_name d) sizes (d_size d) (d_values d))) /\
  ((forall sizes, initial_params (d_kind d) (d_name d) sizes (d_size d) (d_values d) = []) \/ ~ In 47%N (d_name d)).
Lemma input_fine v o d : input_layer v o = Ok d -> desc_fine d.
Proof.
  unfold input_layer. destruct (text o (str "type")) as [type|]; cbn [bind]; [|discriminate].
  destruct (pystr_eqb type (str "word")); [|destruct (pystr_eqb type (str "class")); [|discriminate]]; cbn [bind];
    (destruct (text o (str "name")) as [name|]; cbn [bind]; [|discriminate]); (destruct (activation_of o) as [act|]; cbn [bind]; [|discriminate]);
    intros [= <-]; (split; [intro; constructor|left; reflexivity]).
Qed.
Lemma plain_text o name : plain_name o -> text o (str "name") = Ok name -> ~ In 47%N name.
Proof. intros P T. apply P. now apply text_inv. Qed.
Lemma hidden_fine e o d : plain_name o -> hidden_layer parse_int dropout_scale initial default e o = Ok d -> desc_fine d.
Proof.
  intros P. unfold hidden_layer. destruct (input_positions _ o) as [inputs|]; cbn [bind]; [|discriminate].
  destruct (device_names default o) as [devices|]; cbn [bind]; [|discriminate]. destruct (text o (str "name")) as [name|] eqn:En; cbn [bind]; [|discriminate].
  destruct (text o (str "type")) as [type|]; cbn [bind]; [|discriminate]. destruct (kind_of parse_int o type) as [k|]; cbn [bind]; [|discriminate].
  destruct (mapM _ inputs) as [sizes|]; cbn [bind]; [|discriminate]. destruct (layer_size parse_int k o sizes) as [size|]; cbn [bind]; [|discriminate].
  destruct (activation_of o) as [act|]; cbn [bind]; [|discriminate].
  destruct (check_inputs k sizes size) as [[]|]; cbn [bind]; [|discriminate].
  match goal with |- context [bind ?z _] => destruct z as [scale|]; cbn [bind]; [|discriminate] end.
  intros [= <-]. unfold desc_fine. cbn [d_kind d_name d_size d_values]. split; [intro; apply new_values_ok|right; eapply plain_text; eauto].
Qed.
Lemma output_fine exclude v e o d : plain_name o -> output_layer parse_int initial default exclude v e o = Ok d ->
  text o (str "name") = Ok (o_name d) /\ Forall (item_ok (o_name d)) (output_params (o_kind d) (o_name d) (o_values d)).
Proof.
  intros P. unfold output_layer. destruct (input_positions _ o) as [inputs|]; cbn [bind]; [|discriminate].
  destruct (device_names default o) as [devices|]; cbn [bind]; [|discriminate]. destruct (text o (str "name")) as [name|] eqn:En; cbn [bind]; [|discriminate].
  destruct (text o (str "type")) as [type|]; cbn [bind]; [|discriminate]. destruct (mapM _ inputs) as [sizes|]; cbn [bind]; [|discriminate].
  destruct (activation_of o) as [act|]; cbn [bind]; [|discriminate].
  destruct (pystr_eqb type (str "softmax")); [|destruct (pystr_eqb type (str "hsoftmax"))].
  - destruct (word_to_id v UNK) as [i|]; cbn [bind]; [|discriminate]. destruct (py_index (v_w2c v) i) as [c|]; cbn [bind]; [|discriminate].
    intros [= <-]. cbn [o_kind o_name o_values output_params]. split; [reflexivity|].
    repeat (apply Forall_cons; [split; [cbn [snd regular_param]; auto using matrix_regular|left; reflexivity]|]). constructor.
  - destruct (level_sizes (num_classes v)) as [[l1 l2]|]; cbn [bind]; [|discriminate].
    intros [= <-]. cbn [o_kind o_name o_values output_params]. split; [reflexivity|].
    repeat (apply Forall_cons; [split; [cbn [snd regular_param]; auto using matrix_regular, matrices_regular, biases_regular|left; reflexivity]|]). constructor.
  - destruct (kind_of parse_int o type); discriminate.
Qed.
Lemma layers_fine ds : forall sizes ls, create_layers sizes ds = Ok ls -> Forall desc_fine ds ->
  map l_name ls = map d_name ds /\ Forall (fun l => params_ok (l_name l) (l_params l) /\ (l_params l = [] \/ ~ In 47%N (l_name l))) ls.
Proof.
  induction ds as [|d ds IH]; intros sizes ls; cbn [create_layers]; [intros [= <-] _; split; [reflexivity|constructor]|].
  unfold create_layer. destruct (mapM _ (d_inputs d)) as [is|]; cbn [bind]; [|discriminate]. destruct (foldM _ _ []) as [ps|] eqn:E; cbn [bind]; [|discriminate].
  destruct (create_layers _ ds) as [r|] eqn:Er; cbn [bind]; [|discriminate]. intros [= <-] F. inversion F as [|? ? [H1 H2] F']; subst.
  destruct (IH _ _ Er F') as [I1 I2]. cbn [map l_name]. split; [now f_equal|]. constructor; [|exact I2]. cbn [l_name l_params]. split.
  - eapply init_all_ok; [exact E|apply H1|apply params_ok_nil].
  - destruct H2 as [H2|H2]; [left|now right]. rewrite H2 in E. cbn [foldM] in E. congruence.
Qed.
Lemma added_fine (P : option_dict -> Prop) step os : (forall e o d, P o -> step e o = Ok d -> desc_fine d) -> Forall P os -> forall e ds,
  foldM (fun ds o => do d <- step ds o; add_layer ds d) os e = Ok ds -> Forall desc_fine e -> NoDup (map d_name e) -> Forall desc_fine ds /\ NoDup (map d_name ds).
Proof.
  intros H F. induction F as [|o os Po F IH]; intros e ds; cbn [foldM]; [intros [= <-]; auto|].
  destruct (step e o) as [d|] eqn:E; cbn [bind]; [|discriminate]. destruct (add_layer e d) as [e'|] eqn:Ea; cbn [bind]; [|discriminate].
  destruct (add_inv _ _ _ Ea) as [-> Nn]. intros G Fe D. eapply IH; [exact G| |].
  - apply Forall_app. split; [exact Fe|]. constructor; [eauto|constructor].
  - rewrite map_app. now apply nodup_snoc.
Qed.
Lemma build_fine exclude a v n : plain_names a -> build parse_int dropout_scale initial default exclude a v = Ok n ->
  NoDup (parameter_paths n) /\ all_regular n.
Proof.
  intros PN. unfold build. destruct (foldM _ (a_inputs a) []) as [ins|] eqn:EI; cbn [bind]; [|discriminate].
  destruct (rev (a_layers a)) as [|o r] eqn:ER; [discriminate|]. destruct (foldM _ (rev r) ins) as [ds|] eqn:EH; cbn [bind]; [|discriminate].
  destruct (text o (str "name")) as [name|] eqn:EN; cbn [bind]; [|discriminate]. destruct (_ || _) eqn:EX; [discriminate|].
  destruct (output_layer _ _ _ _ _ _ _) as [out|] eqn:EO; cbn [bind]; [|discriminate]. intro C.
  assert (EL : a_layers a = (rev r ++ [o])%list) by (rewrite <- (rev_involutive (a_layers a)), ER; reflexivity).
  unfold plain_names in PN. rewrite EL in PN. apply Forall_app in PN as [P1 P2]. inversion P2 as [|? ? Po _]; subst.
  destruct (added_fine (fun _ => True) (fun _ o => input_layer v o) (a_inputs a)) with (e := @nil (description A)) (ds := ins) as [F1 D1]; auto.
  { intros e q d _. apply input_fine. } { clear. induction (a_inputs a); constructor; auto. } { constructor. }
  destruct (added_fine plain_name _ (rev r) (fun e q d => hidden_fine e q d) P1 _ _ EH F1 D1) as [F2 D2].
  destruct (output_fine _ _ _ _ _ Po EO) as [On Oi]. assert (En : o_name out = name) by congruence.
  assert (Nn : ~ In name (map d_name ds)).
  { apply Bool.orb_false_elim in EX as [_ EX]. intro I. assert (existsb (pystr_eqb name) (map d_name ds) = true); [|congruence].
    apply existsb_exists. exists name. split; [exact I|]. destruct (BuildProofs.pystr_eqb_spec name name); congruence. }
  unfold create_network in C. destruct (create_layers [] ds) as [ls|] eqn:El; cbn [bind] in C; [|discriminate].
  match type of C with context [bind ?z _] => destruct z as [[]|]; cbn [bind] in C; [|discriminate] end.
  destruct (foldM _ (output_params _ _ _) []) as [ps|] eqn:Ep; cbn [bind] in C; [|discriminate]. injection C as <-.
  destruct (layers_fine _ _ _ El F2) as [L1 L2]. pose proof (init_all_ok _ _ _ _ _ Ep Oi (params_ok_nil _)) as PO. split.
  - unfold parameter_paths. cbn [n_layers n_params].
    pose proof (paths_different (map (fun l => (l_name l, l_params l)) ls ++ [(o_name out, ps)])) as G. rewrite flat_map_app in G. cbn [flat_map snd] in G. rewrite app_nil_r in G.
    replace (flat_map (fun l => paths (l_params l)) ls) with (flat_map (fun x => paths (snd x)) (map (fun l => (l_name l, l_params l)) ls))
      by (clear; induction ls; cbn [map flat_map snd]; congruence).
    apply G; clear G.
    + rewrite map_app, map_map. cbn [map fst]. change (map (fun x : layer A => l_name x) ls) with (map l_name ls). rewrite L1, En. now apply nodup_snoc.
    + intros x qs I. apply in_app_or in I as [I|[[= <- <-]|[]]].
      * apply in_map_iff in I as (l & [= <- <-] & I). rewrite Forall_forall in L2. now apply L2.
      * split; [exact PO|]. right. eapply plain_text; eauto.
  - unfold all_regular, all_params. cbn [n_layers n_params]. apply Forall_app. split; [|constructor; [now destruct PO|constructor]].
    apply Forall_map. revert L2. apply Forall_impl. intros l [[] _]. assumption.
Qed.
End Paths.
