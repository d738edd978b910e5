(** What networks that have been built from a description compute. *)
From Coq Require Import ZArith String.
From Verif Require Import Base BaseLib ListLib Strings NumStr Dict VocabModel ArchModel ArchSpec NetModel NetSpec NetExamples
  DeviceModel DeviceSpec DeviceProofs DeviceNet OutputModel BuildModel BuildSpec BuildShape BuildLayers BuildNet BuildProofs BuildProps LinkProofs
  EquationSpec EquationTab EquationLayers EquationNet DescribedSpec.
Local Open Scope nat_scope.
Local Open Scope list_scope.

Section Equations.
Context {A : arith}.
Notation num := (num A).
Variable parse_int : pystr -> result Z.
Variable dropout_scale : option ArchModel.value -> result num.
Variable initial : pystr -> pystr -> nat -> nat -> nat -> num.
Notation build := (build parse_int dropout_scale initial).

(** The probability of every class is what the equations of the layers give. *)
Theorem C63_probabilities default exclude_unk a v n : build default exclude_unk a v = Ok n ->
  Forall (connected a) (a_layers a) -> Forall (placed_well default) (a_layers a) ->
  forall T N b, T <> 0 -> valid_batch v T N b ->
  exists p, output_probs n b = Ok p /\ tensor_shape T N (num_classes v) p /\
  forall t s c, t < T -> s < N -> c < num_classes v ->
  exists m r, nth_error p t = Some m /\ nth_error m s = Some r /\ nth_error r c = Some (network_probability initial n b T t s c).
Proof.
  intros B CN PW T N b HT [[DW DC DM] VW VC]. destruct (build_inv _ _ _ _ _ _ _ _ B) as (ds & out & C & D & OO & EC & EP & _).
  apply EC in CN as (AF & ON & OF). apply EP in PW as [W OW].
  destruct (network_is initial v T N HT b (conj DW VW) (conj DC VC) DM ds out n D AF W OO ON OF OW C) as (p & st & E & S & P).
  exists p. split; [unfold output_probs; now rewrite E|]. split; [exact S|]. intros t s c Ht Hs Hc. specialize (P t s c Ht Hs Hc).
  destruct (nth_error p t) as [m|]; [|discriminate]. destruct (nth_error m s) as [r|] eqn:Er; [|discriminate]. exists m, r. auto.
Qed.

(** ** The layers *)
Definition same_layer (d : description A) (l : layer A) : Prop :=
  l_kind l = d_kind d /\ l_name l = d_name d /\ l_inputs l = d_inputs d /\ l_size l = d_size d /\
  l_activation l = d_activation d /\ l_scale l = d_scale d.
Lemma layers_created ds : forall sizes ls, create_layers sizes ds = Ok ls -> Forall2 same_layer ds ls.
Proof.
  induction ds as [|d ds IH]; intros sizes ls; cbn [create_layers].
  - intro H. injection H as <-. constructor.
  - destruct (create_layer sizes d) as [l|] eqn:E; cbn [bind]; [|discriminate]. destruct (create_layers _ ds) as [r|] eqn:E'; cbn [bind]; [|discriminate].
    intro H. injection H as <-. constructor; [|eauto]. destruct (created_layer _ _ _ E) as (? & _ & -> & _). repeat split.
Qed.
Lemma added_nth step ds : forall os earlier, added step earlier ds os -> length os = length ds /\
  forall i o d, nth_error os i = Some o -> nth_error ds i = Some d -> step (earlier ++ firstn i ds) o = Ok (d : description A).
Proof.
  induction ds as [|d ds IH]; intros [|o os] earlier; cbn [added]; try tauto; [intros _; split; [reflexivity|]; intros [|i]; discriminate|].
  intros (E & _ & G). destruct (IH _ _ G) as [L H]. split; [cbn [length]; now rewrite L|]. intros [|i] o' d'; cbn [nth_error firstn].
  - intros [= <-] [= <-]. now rewrite app_nil_r.
  - intros Ho Hd. specialize (H i o' d' Ho Hd). now rewrite <- app_assoc in H.
Qed.
Lemma added_names step ds : forall os earlier, added step earlier ds os -> NoDup (map d_name earlier) -> NoDup (map d_name (earlier ++ ds : list (description A))).
Proof.
  induction ds as [|d ds IH]; intros [|o os] earlier; cbn [added]; try tauto; [rewrite app_nil_r; auto|].
  intros (_ & Hn & G) ND. specialize (IH _ _ G). rewrite <- app_assoc in IH. apply IH. rewrite map_app. now apply nodup_snoc.
Qed.

Lemma integer_inv (check : Z -> bool) o key default size :
  match oget o key with
  | None => Ok default
  | Some w => do s <- single w; do z <- int_of parse_int s; if check z then Err ValueError else Ok (Z.to_nat z)
  end = Ok size -> (forall z, check z = false -> (0 <= z)%Z) -> number_option parse_int o key default size.
Proof.
  unfold number_option. change (option_value o key) with (oget o key). destruct (oget o key) as [[[t|z]|l]|]; cbn [single bind int_of]; try discriminate.
  - destruct (parse_int t) as [z|]; cbn [bind]; [|discriminate]. destruct (check z) eqn:E; [discriminate|]. intros [= <-] H. rewrite Z2Nat.id by auto. reflexivity.
  - destruct (check z) eqn:E; [discriminate|]. intros [= <-] H. rewrite Z2Nat.id by auto. reflexivity.
  - intros [= ->] _. reflexivity.
Qed.
Lemma activation_inv o act : activation_of o = Ok act -> activation_option o act.
Proof.
  unfold activation_of, activation_option. change (option_value o (str "activation")) with (oget o (str "activation")). destruct (oget o (str "activation")) as [[[t|z]|l]|]; try discriminate.
  - destruct (pystr_eqb_spec t (str "tanh")) as [->|]; [intros [= <-]; constructor|]. destruct (pystr_eqb_spec t (str "relu")) as [->|]; [intros [= <-]; constructor|].
    destruct (pystr_eqb_spec t (str "leakyrelu")) as [->|]; [intros [= <-]; constructor|discriminate].
  - now intros [= <-].
Qed.
Lemma kind_described o type k : kind_of parse_int o type = Ok k -> type_name (reverse_option o) type k /\ forall region, k = GLU region -> number_option parse_int o (str "filter_size") 5 region.
Proof.
  intro H. assert (G : forall region, k = GLU region -> number_option parse_int o (str "filter_size") 5 region).
  { intros f ->. unfold kind_of in H. repeat match type of H with context [pystr_eqb ?x ?y] => destruct (pystr_eqb_spec x y) as [?|?]; cbn [orb] in H end; try discriminate; try (destruct (reverse_time o); discriminate).
    destruct (filter_size parse_int o) as [g|] eqn:E; cbn [bind] in H; [|discriminate]. injection H as ->.
    apply (integer_inv (fun z => z <=? 0)%Z); [exact E|]. intros z Hz. apply Z.leb_gt in Hz. lia. }
  split; [|exact G]. unfold kind_of in H. rewrite <- reverse_iff.
  repeat match type of H with context [pystr_eqb ?x ?y] => destruct (pystr_eqb_spec x y) as [->|?]; cbn [orb] in H;
    [try (destruct (filter_size parse_int o) as [g|]; cbn [bind] in H; [|discriminate]); try (destruct (reverse_time o)); injection H as <-; constructor; reflexivity|] end. discriminate.
Qed.
Lemma hidden_details default earlier o d : hidden_layer parse_int dropout_scale initial default earlier o = Ok d ->
  exists sizes, mapM (py_index (map d_size earlier)) (d_inputs d) = Ok sizes /\ layer_size parse_int (d_kind d) o sizes = Ok (d_size d) /\
    activation_of o = Ok (d_activation d) /\ (d_kind d = Dropout -> dropout_scale (oget o (str "dropout_rate")) = Ok (d_scale d)).
Proof.
  unfold hidden_layer. destruct (input_positions _ o) as [inputs|] eqn:EI; cbn [bind]; [|discriminate].
  destruct (device_names default o) as [devices|] eqn:ED; cbn [bind]; [|discriminate]. destruct (text o (str "name")) as [name|] eqn:EN; cbn [bind]; [|discriminate].
  destruct (text o (str "type")) as [type|] eqn:ET; cbn [bind]; [|discriminate]. destruct (kind_of parse_int o type) as [k|] eqn:EK; cbn [bind]; [|discriminate].
  destruct (mapM _ inputs) as [sizes|] eqn:ES; cbn [bind]; [|discriminate]. destruct (layer_size parse_int k o sizes) as [size|] eqn:EZ; cbn [bind]; [|discriminate].
  destruct (activation_of o) as [act|]; cbn [bind]; [|discriminate].
  destruct (check_inputs k sizes size) as [[]|] eqn:EC; cbn [bind]; [|discriminate].
  destruct k; try (intro H; injection H as <-; exists sizes; cbn; repeat (split; [assumption||reflexivity|]); discriminate).
  destruct (dropout_scale _) as [scale|] eqn:E; cbn [bind]; [|discriminate]. intro H; injection H as <-; exists sizes; cbn. auto.
Qed.

Section Network.
Variables (v : vocabulary) (n : network A) (ds : list (description A)).
Hypothesis SL : Forall2 same_layer ds (n_layers n).
Lemma inputs_described earlier o inputs position : (forall i d, nth_error earlier i = Some d -> nth_error ds i = Some d /\ i < position) ->
  input_positions (map d_name earlier) o = Ok inputs -> inputs_option n o position inputs.
Proof.
  intros HE EI. apply inputs_inv in EI as (names & L & F). exists names. split; [exact L|]. refine (ArchProofs.Forall2_weaken _ _ _ _ _ F).
  intros i x H. cbv beta in H. rewrite nth_error_map in H. destruct (nth_error earlier i) as [d|] eqn:E; [|discriminate]. injection H as <-. destruct (HE _ _ E) as [E' Hi].
  split; [exact Hi|]. destruct (F2_nth _ _ _ _ _ _ _ SL E') as (l & El & _ & EN & _). eauto.
Qed.
Lemma sizes_described earlier inputs sizes : (forall i d, nth_error earlier i = Some d -> nth_error ds i = Some d) ->
  mapM (py_index (map d_size earlier)) inputs = Ok sizes -> sizes = input_sizes n inputs.
Proof.
  intro HE. revert sizes. induction inputs as [|i inputs IH]; intro sizes; cbn [mapM]; [now intros [= <-]|].
  unfold py_index at 1. rewrite nth_error_map. destruct (nth_error earlier i) as [d|] eqn:E; cbn [option_map bind]; [|discriminate].
  destruct (mapM _ inputs) as [r|]; cbn [bind]; [|discriminate]. intros [= <-]. unfold input_sizes. cbn [map]. f_equal; [|now apply IH].
  destruct (F2_nth _ _ _ _ _ _ _ SL (HE _ _ E)) as (l & El & _ & _ & _ & EZ & _). symmetry. rewrite <- EZ. apply nth_error_nth. now rewrite nth_error_map, El.
Qed.
Lemma hidden_is_described default earlier o d l position : hidden_layer parse_int dropout_scale initial default earlier o = Ok d ->
  (forall i e, nth_error earlier i = Some e -> nth_error ds i = Some e /\ i < position) -> same_layer d l ->
  layer_described parse_int dropout_scale n o position l.
Proof.
  intros H HE (EK & EN & EI & EZ & EA & ES).
  destruct (hidden_inv parse_int dropout_scale initial default v earlier o d H) as (type & N1 & T1 & K1 & I1 & _).
  destruct (hidden_details _ _ _ _ H) as (sizes & M & Z & Ac & Sc). destruct (kind_described _ _ _ K1) as [TN GL].
  apply text_inv in N1. constructor; rewrite ?EK, ?EN, ?EI, ?EZ, ?EA, ?ES.
  - exact N1.
  - exists type. split; [now apply (has_type_iff _ _ _ T1)|exact TN].
  - eapply inputs_described; eauto.
  - rewrite <- (sizes_described earlier (d_inputs d) sizes); [|intros i e He; now destruct (HE i e He)|exact M].
    unfold layer_size in Z. apply (integer_inv (fun z => z <? 0)%Z); [|intros z Hz; apply Z.ltb_ge in Hz; exact Hz].
    destruct (oget o (str "size")); [exact Z|]. destruct (d_kind d); try exact Z. unfold py_index in Z. destruct sizes; [discriminate|exact Z].
  - now apply activation_inv.
  - exact GL.
  - exact Sc.
Qed.
End Network.

Theorem C63_described default exclude_unk a v n : build default exclude_unk a v = Ok n ->
  network_described parse_int dropout_scale v n exclude_unk a.
Proof.
  unfold BuildModel.build. destruct (foldM _ (a_inputs a) []) as [ins|] eqn:EI; cbn [bind]; [|discriminate].
  destruct (rev (a_layers a)) as [|o r] eqn:ER; [discriminate|]. destruct (foldM _ (rev r) ins) as [ds|] eqn:EH; cbn [bind]; [|discriminate].
  destruct (text o (str "name")) as [name|] eqn:EN; cbn [bind]; [|discriminate]. destruct (_ || _) eqn:EB; [discriminate|].
  destruct (output_layer _ _ _ _ _ _ _) as [out|] eqn:EO; cbn [bind]; [|discriminate]. intro C.
  assert (EL : a_layers a = rev r ++ [o]) by (rewrite <- (rev_involutive (a_layers a)), ER; reflexivity).
  destruct (fold_added (fun _ o => input_layer v o) _ _ _ EI) as (ds1 & E1 & A1). cbn [app] in E1. subst ins.
  destruct (fold_added _ _ _ _ EH) as (ds2 & -> & A2).
  destruct (created_network _ _ _ C) as (ls & CL & ENW & _). assert (ENL : n_layers n = ls) by now rewrite ENW.
  pose proof (layers_created _ _ _ CL) as SL. rewrite <- ENL in SL.
  destruct (Forall2_app_inv_l _ _ SL) as (inputs & layers & S1 & S2 & EQ).
  destruct (added_nth _ _ _ _ A1) as [L1 H1]. destruct (added_nth _ _ _ _ A2) as [L2 H2].
  pose proof (ArchProofs.Forall2_len _ _ _ S1) as LS1. pose proof (ArchProofs.Forall2_len _ _ _ S2) as LS2.
  exists inputs, layers, (rev r), o. split; [exact EQ|]. split; [exact EL|]. split; [|split; [congruence|split; [|split]]].
  - apply LinkProofs.Forall2_nth_intro; [congruence|]. intros i q l Hq Hl.
    destruct (nth_error ds1 i) as [d|] eqn:Ed; [|apply nth_error_None in Ed; assert (i < length inputs) by (apply nth_error_Some; congruence); lia].
    specialize (H1 i q d Hq Ed). destruct (F2_nth _ _ _ _ _ _ _ S1 Ed) as (l' & El' & EK & ENm & _ & EZ & _). rewrite Hl in El'. injection El' as <-.
    unfold input_described. rewrite EK, ENm, EZ. cbv beta in H1. clear - H1 initial. unfold input_layer in H1. destruct (text q (str "type")) as [type|] eqn:ET; cbn [bind] in H1; [|discriminate].
    destruct (pystr_eqb_spec type (str "word")) as [->|]; [|destruct (pystr_eqb_spec type (str "class")) as [->|]; [|discriminate]]; cbn [bind] in H1;
      (destruct (text q (str "name")) as [name|] eqn:EN; cbn [bind] in H1; [|discriminate]); (destruct (activation_of q) as [act|]; cbn [bind] in H1; [|discriminate]);
      injection H1 as <-; cbn [d_name d_kind d_size]; apply text_inv in EN; apply text_inv in ET; (split; [exact EN|]); [left|right]; auto.
  - intros i q l Hq Hl.
    destruct (nth_error ds2 i) as [d|] eqn:Ed; [|apply nth_error_None in Ed; assert (i < length layers) by (apply nth_error_Some; congruence); lia].
    specialize (H2 i q d Hq Ed). destruct (F2_nth _ _ _ _ _ _ _ S2 Ed) as (l' & El' & SLl). rewrite Hl in El'. injection El' as <-.
    eapply (hidden_is_described v n (ds1 ++ ds2)); [exact SL|exact H2| |exact SLl].
    assert (Hi : i < length ds2) by (apply nth_error_Some; congruence). intros k e He.
    assert (Hk : k < length (ds1 ++ firstn i ds2)) by (apply nth_error_Some; congruence). rewrite app_length, firstn_length, Nat.min_l in Hk by lia. split; [|lia].
    destruct (Nat.ltb_spec k (length ds1)) as [Lk|Lk]; [rewrite nth_error_app1 in * by exact Lk; exact He|]. rewrite nth_error_app2 in * by exact Lk.
    rewrite nth_firstn_lt in He by lia. exact He.
  - destruct (output_inv _ _ _ _ _ _ _ _ EO) as (type & N1 & T1 & I1 & _ & [OS _] & _). rewrite ENW. constructor; cbn [n_name n_inputs n_size n_layers n_kind n_exclude_unk n_unk_class].
    + now apply text_inv.
    + rewrite <- ENW. eapply inputs_described; [exact SL| |exact I1]. intros i e He. split; [exact He|].
      rewrite <- ENL, <- (ArchProofs.Forall2_len _ _ _ SL). apply nth_error_Some. congruence.
    + exact OS.
    + rewrite OS. unfold output_layer in EO. rewrite N1, T1 in EO. apply text_inv in T1.
      destruct (input_positions _ o) as [is|]; cbn [bind] in EO; [|discriminate]. destruct (device_names default o) as [devices|]; cbn [bind] in EO; [|discriminate].
      destruct (mapM _ is) as [sizes|]; cbn [bind] in EO; [|discriminate]. destruct (activation_of o) as [act|]; cbn [bind] in EO; [|discriminate].
      destruct (pystr_eqb_spec type (str "softmax")) as [->|N2]; [left|destruct (pystr_eqb_spec type (str "hsoftmax")) as [->|N3]; [right|destruct (kind_of parse_int o type); discriminate]].
      * destruct (word_to_id v UNK) as [u|]; cbn [bind] in EO; [|discriminate]. unfold py_index in EO. destruct (nth_error (v_w2c v) u) as [c|] eqn:Ec; cbn [bind] in EO; [|discriminate].
        injection EO as <-. cbn [o_kind o_exclude_unk o_unk_class]. repeat (split; [first [exact T1|reflexivity]|]). exists u. auto.
      * destruct (level_sizes (num_classes v)) as [[l1 l2]|] eqn:LS; cbn [bind] in EO; [|discriminate]. injection EO as <-. cbn [o_kind]. split; [exact T1|]. exists l1, l2. split; [reflexivity|].
        clear - LS. unfold level_sizes in LS. set (m := num_classes v) in *. clearbody m. destruct (Nat.eqb_spec (Nat.sqrt_up m) 0) as [|HN]; [discriminate|].
        destruct (m <=? _) eqn:B1; cbn [negb] in LS; [|discriminate]. destruct (_ <? m) eqn:B2; cbn [negb] in LS; [|discriminate].
        destruct (Nat.sqrt_up m * _ <? m) eqn:B3; cbn [negb] in LS; [|discriminate]. destruct (_ || _); cbn [negb] in LS; [|discriminate]. injection LS as <- <-.
        apply Nat.leb_le in B1. apply Nat.ltb_lt in B3. split; [|split; [exact B3|exact B1]].
        assert (Hm : 0 < m) by (destruct m; [exfalso; apply HN; reflexivity|lia]). pose proof (Nat.sqrt_up_spec m Hm) as [Q1 Q2]. rewrite <- Nat.sub_1_r in Q1. auto.
  - assert (EM : map l_name (n_layers n) = map d_name (ds1 ++ ds2)).
    { clear - SL. induction SL as [|d l ds0 ls0 (_ & E & _) _ IH]; cbn [map]; congruence. }
    rewrite EM, ENW. cbn [n_name]. destruct (output_inv _ _ _ _ _ _ _ _ EO) as (type & N1 & _). rewrite EN in N1. injection N1 as <-.
    apply orb_false_iff in EB as [_ EB]. apply nodup_snoc.
    + eapply added_names; [exact A2|]. apply (added_names _ _ _ [] A1). constructor.
    + intro I. assert (X : existsb (pystr_eqb name) (map d_name (ds1 ++ ds2)) = true); [|congruence].
      apply existsb_exists. exists name. split; [exact I|]. now destruct (pystr_eqb_spec name name).
Qed.
End Equations.
Print Assumptions C63_probabilities.
Print Assumptions C63_described.

(** ** Examples *)
(** The networks of BuildProps.v: all the layers that can be evaluated one time step at a
    time, and bidirectional and convolutional layers with a hierarchical softmax *)
Example ex_equations_lines : exists n p m r, ex_build None ex_lines = Ok n /\ output_probs n ex_batch = Ok p /\
  nth_error p 2 = Some m /\ nth_error m 1 = Some r /\ nth_error r 4 = Some (network_probability ex_initial n ex_batch 3 2 1 4).
Proof.
  destruct ex_lines_meet as (CN & PW & _ & _ & n & B).
  destruct (C63_probabilities _ _ _ _ _ _ _ _ B CN PW 3 2 ex_batch ltac:(discriminate) ex_batch_valid) as (p & E & _ & P).
  destruct (P 2 1 4) as (m & r & Em & Er & Ec); [repeat constructor..|exists n, p, m, r; exact (conj B (conj E (conj Em (conj Er Ec))))].
Qed.
Example ex_equations_bidirectional : exists n p m r, ex_build None ex_bidirectional_lines = Ok n /\ output_probs n ex_batch = Ok p /\
  nth_error p 0 = Some m /\ nth_error m 1 = Some r /\ nth_error r 3 = Some (network_probability ex_initial n ex_batch 3 0 1 3).
Proof.
  destruct ex_bidirectional_meet as (CN & PW & n & B).
  destruct (C63_probabilities _ _ _ _ _ _ _ _ B CN PW 3 2 ex_batch ltac:(discriminate) ex_batch_valid) as (p & E & _ & P).
  destruct (P 0 1 3) as (m & r & Em & Er & Ec); [repeat constructor..|exists n, p, m, r; exact (conj B (conj E (conj Em (conj Er Ec))))].
Qed.
Example ex_described_layers : match ex_build None ex_bidirectional_lines with
  | Ok n => map (fun l => (l_kind l, l_size l, l_inputs l)) (n_layers n) =
      [(ClassInput, 5, []); (Projection, 3, [0]); (BLSTM, 5, [1]); (GLU 3, 2, [2])] /\ n_kind n = HSoftmax 3 2 /\ n_inputs n = [3; 1]
  | Err _ => False
  end.
Proof. vm_compute. repeat split. Qed.
