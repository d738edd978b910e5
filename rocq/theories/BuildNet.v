(** A network that has been built computes arrays of the right dimensions. *)
From Verif Require Import Base BaseLib ListLib Strings NumStr ParamModel VocabModel NetModel NetSpec NetColumns NetSteps NetShape
  DeviceModel DeviceSpec DeviceProofs DeviceNet OutputModel BuildModel BuildSpec BuildShape BuildLayers.
Local Open Scope nat_scope.

Section Nets.
Context {A : arith}.
Notation num := (num A).
Notation vec := (list num).
Notation matrix := (list (list num)).
Notation tensor := (list (list (list num))).
Notation params := (list (pystr * param A)).
Notation box := tensor_shape.
Variable initial : pystr -> pystr -> nat -> nat -> nat -> num.
Variable v : vocabulary.

(** What building guarantees of a layer, after the earlier layers *)
Record desc_ok (earlier : list (description A)) (d : description A) : Prop := {
  do_values : exists input_sizes, mapM (py_index (map d_size earlier)) (d_inputs d) = Ok input_sizes /\
    d_values d = new_values initial (d_kind d) (d_name d) input_sizes (d_size d) /\
    check_inputs (d_kind d) input_sizes (d_size d) = Ok tt;
  do_glu : forall k, d_kind d = GLU k -> k <> 0;
  do_word : d_kind d = WordInput -> d_size d = num_shortlist_words v;
  do_class : d_kind d = ClassInput -> d_size d = num_classes v }.
Fixpoint descs_ok (earlier ds : list (description A)) : Prop :=
  match ds with
  | [] => True
  | d :: r => desc_ok earlier d /\ descs_ok (earlier ++ [d]) r
  end.
(** The inputs of a layer are of the right kind *)
Definition fits_desc (earlier : list (description A)) (k : kind) (inputs : list nat) : Prop :=
  match k with
  | WordInput | ClassInput => True
  | Projection => exists i e, inputs = [i] /\ nth_error earlier i = Some e /\ input_kind (d_kind e) = true
  | _ => inputs <> [] /\ forall i, In i inputs -> exists e, nth_error earlier i = Some e /\ input_kind (d_kind e) = false
  end.
Fixpoint all_fit (earlier ds : list (description A)) : Prop :=
  match ds with
  | [] => True
  | d :: r => fits_desc earlier (d_kind d) (d_inputs d) /\ all_fit (earlier ++ [d]) r
  end.

Variables T N : nat.
Hypothesis HT : T <> 0.
Variable b : batch.
Hypothesis Hwords : rectangle T N (b_words b) /\ Forall (Forall (fun w => w < num_shortlist_words v)) (b_words b).
Hypothesis Hclasses : rectangle T N (b_classes b) /\ Forall (Forall (fun c => c < num_classes v)) (b_classes b).

Definition same_kind (d : description A) (o : value A * nat) : Prop := is_ids (fst o) = input_kind (d_kind d) /\ snd o = d_size d.
Lemma same_sizes ds outs : Forall2 same_kind ds outs -> map snd outs = map d_size ds.
Proof. induction 1 as [|d o ds outs [_ E] _ IH]; cbn [map]; [reflexivity|]. now rewrite E, IH. Qed.
Lemma F2_nth X Y (R : X -> Y -> Prop) l m i x : Forall2 R l m -> nth_error l i = Some x -> exists y, nth_error m i = Some y /\ R x y.
Proof. intros H. revert i. induction H as [|a c l m Hac _ IH]; intros [|i] E; cbn in *; try discriminate; [injection E as ->; eauto|auto]. Qed.
Lemma fits_outs earlier outs k inputs : Forall2 same_kind earlier outs -> fits_desc earlier k inputs -> fits (A := A) outs k inputs.
Proof.
  intros S H. assert (G : forall i e c, nth_error earlier i = Some e -> input_kind (d_kind e) = c -> exists o, nth_error outs i = Some o /\ is_ids (fst o) = c).
  { intros i e c E K. destruct (F2_nth _ _ _ _ _ _ _ S E) as (o & Eo & [Ko _]). exists o. split; [exact Eo|congruence]. }
  unfold fits, fits_desc in *. destruct k; try exact I.
  1: { destruct H as (i & e & Ei & Ee & K). destruct (G i e _ Ee K) as (o & Eo & Ko). eauto. }
  all: destruct H as [H1 H2]; (split; [exact H1|]); intros i Hi; destruct (H2 i Hi) as (e & Ee & K); eapply G; eauto.
Qed.

Definition step_ok (m : mode A) (j : nat) (ls : list (layer A)) : Prop :=
  match m with
  | Minibatch => True
  | Step state => T = 1 /\ Forall stepwise_layer ls /\ Forall2 (fun s x => rectangle N s x) (flat_map state_sizes ls) (skipn j state)
  end.
Lemma nth_skipn X (l : list X) j k : nth_error (skipn j l) k = nth_error l (j + k).
Proof. revert l; induction j as [|j IH]; intros [|x l]; cbn; try reflexivity; [destruct k; reflexivity|apply IH]. Qed.
Lemma F2_split X Y (R : X -> Y -> Prop) a c m : Forall2 R (a ++ c) m -> Forall2 R a (firstn (length a) m) /\ Forall2 R c (skipn (length a) m).
Proof. revert m; induction a as [|x a IH]; intros m H; cbn in *; [auto|]. inversion H; subst. cbn. destruct (IH _ H4). split; [constructor|]; auto. Qed.

Lemma layers_run m ds : forall earlier outs i j ls,
  descs_ok earlier ds -> all_fit earlier ds -> Forall works_on_devices ds ->
  Forall2 same_kind earlier outs -> Forall (out_ok T N) outs ->
  create_layers (map d_size earlier) ds = Ok ls -> rectangle T N (mask_of m b) -> step_ok m j ls ->
  exists outs' st, eval_layers m b outs i j ls = Ok (outs', st) /\ Forall2 same_kind (earlier ++ ds) outs' /\ Forall (out_ok T N) outs' /\
    match m with Step _ => Forall2 (fun s x => rectangle N s x) (flat_map state_sizes ls) st | Minibatch => True end.
Proof.
  induction ds as [|d ds IH]; intros earlier outs i j ls; cbn [descs_ok all_fit create_layers].
  - intros _ _ _ S F C RM SO. injection C as <-. cbn [eval_layers]. exists outs, []. rewrite app_nil_r. split; [reflexivity|]. split; [exact S|]. split; [exact F|]. destruct m; constructor.
  - intros [D DS] [Fit FS] W S F C RM SO. inversion_clear W as [|? ? Wd Ws].
    destruct (create_layer _ d) as [l|] eqn:CL; cbn [bind] in C; [|discriminate].
    destruct (create_layers _ ds) as [r|] eqn:CR; cbn [bind] in C; [|discriminate]. injection C as <-. cbn [eval_layers].
    destruct D as [(input_sizes & EI & V & CH) HG DW DC]. rewrite <- (same_sizes _ _ S) in CL, EI.
    assert (ES : l_size l = d_size d) by (destruct (created_layer _ _ _ CL) as (? & _ & -> & _); reflexivity).
    destruct (layer_runs initial T N HT m b outs i j d l input_sizes CL EI V CH HG Wd F (fits_outs _ _ _ _ S Fit) RM) as (x & st & E & O & K & ST).
    + intro K. cbn [out_ok fst snd]. now rewrite (DW K).
    + intro K. cbn [out_ok fst snd]. now rewrite (DC K).
    + destruct m as [|state]; [exact I|]. destruct SO as (T1 & SL & SS). inversion_clear SL as [|? ? SL0 _]. split; [exact T1|]. split; [exact SL0|].
      intros k s Hk. destruct (F2_nth _ _ _ _ _ k s SS) as (y & Ey & Ry).
      { cbn [flat_map]. rewrite nth_error_app1; [exact Hk|]. apply nth_error_Some. congruence. }
      rewrite nth_skipn in Ey. eauto.
    + rewrite E. cbn [bind]. rewrite ES.
      destruct (IH (earlier ++ [d]) (outs ++ [(x, d_size d)]) (i + 1) (j + length (state_sizes l)) r DS FS Ws) as (outs' & st' & E' & S' & F' & ST').
      * apply Forall2_app; [exact S|]. constructor; [split; [exact K|reflexivity]|constructor].
      * apply Forall_app. split; [exact F|]. constructor; [exact O|constructor].
      * rewrite map_app. exact CR.
      * exact RM.
      * destruct m as [|state]; [exact I|]. destruct SO as (T1 & SL & SS). inversion_clear SL as [|? ? _ SL']. split; [exact T1|]. split; [exact SL'|].
        cbn [flat_map] in SS. apply F2_split in SS as [_ SS]. rewrite skipn_skipn in SS. rewrite Nat.add_comm. exact SS.
      * rewrite E'. cbn [bind]. exists outs', (st ++ st')%list. split; [reflexivity|]. rewrite <- app_assoc in S'. split; [exact S'|]. split; [exact F'|].
        destruct m; [exact I|]. cbn [flat_map]. apply Forall2_app; assumption.
Qed.

(** ** Output layers *)
Lemma softmax_length (x : list (option num)) : length (softmax x) = length x.
Proof. unfold softmax. now rewrite !map_length. Qed.
Lemma log_zero_length i (x : list (option num)) : length (set_log_zero i x) = length x.
Proof. unfold set_log_zero. apply mapi_len. Qed.
Lemma concat_length X (l : list (list X)) n : Forall (fun r => length r = n) l -> length (concat l) = length l * n.
Proof. induction 1 as [|r l Hr _ IH]; cbn [concat length]; [reflexivity|]. rewrite app_length, IH, Hr. reflexivity. Qed.

Definition output_ok (earlier : list (description A)) (o : output_description A) : Prop :=
  o_size o = num_classes v /\
  exists input_sizes, mapM (py_index (map d_size earlier)) (o_inputs o) = Ok input_sizes /\
  match o_kind o with
  | Softmax => o_values o = SoftmaxValues (new_matrix initial (o_name o) (str "input/W") 0 (sum input_sizes) (o_size o)) (new_bias initial (o_name o) (str "input/b") (o_size o))
  | HSoftmax l1 l2 => level_sizes (o_size o) = Ok (l1, l2) /\
    o_values o = HSoftmaxValues (new_matrix initial (o_name o) (str "input/W") 0 (sum input_sizes) l1) (new_bias initial (o_name o) (str "input/b") l1)
             (new_matrices initial (o_name o) (str "level1/W") l1 (sum input_sizes) l2)
             (map (fun i => map (initial (o_name o) (str "level1/b") 0 i) (seq 0 l2)) (seq 0 l1))
  end.
Lemma level_sizes_inv n l1 l2 : level_sizes n = Ok (l1, l2) -> l1 <> 0 /\ n <= l1 * l2.
Proof.
  unfold level_sizes. destruct (Nat.eqb_spec (Nat.sqrt_up n) 0) as [|H1]; [discriminate|]. destruct (n <=? _) eqn:L; cbn [negb]; [|discriminate].
  repeat (match goal with |- context [if ?c then _ else _] => destruct c end; try discriminate). intro H. injection H as <- <-. apply Nat.leb_le in L. auto.
Qed.

Section HSoftmax.
Variables (l1 l2 size F : nat) (w1 : list vec) (b1 : vec) (w2 : list (list vec)) (b2 : list vec).
Hypothesis Hw1 : length w1 = l1.
Hypothesis Hb1 : length b1 = l1.
Hypothesis Hw2 : rectangle l1 l2 w2.
Hypothesis Hb2 : rectangle l1 l2 b2.
Hypothesis Hsize : size <= l1 * l2.
Lemma level1_length (x : vec) : length (softmax (map Some (map2 add (map (dotv x) w1) b1))) = l1.
Proof. rewrite softmax_length, map_length. apply len_map2; [now rewrite map_length|assumption]. Qed.
Lemma level2_length (x : vec) w bb : length w = l2 -> length bb = l2 -> length (softmax (map Some (map2 add (map (dotv x) w) bb))) = l2.
Proof. intros. rewrite softmax_length, map_length. apply len_map2; [now rewrite map_length|assumption]. Qed.
Lemma h_softmax_length (x : vec) : length (h_softmax size w1 b1 w2 b2 x) = size.
Proof.
  unfold h_softmax. rewrite firstn_length, (concat_length _ _ l2).
  - rewrite (len_map2 _ _ _ _ _ _ l1); [lia|apply level1_length|]. destruct Hw2, Hb2. apply len_map2; assumption.
  - apply (F_map2 _ _ _ (fun _ => True) (fun r => length r = l2)); [intros p r _ Hr; now rewrite map_length|now apply Forall_forall|].
    destruct Hw2 as [_ H2], Hb2 as [_ H2']. eapply F_map2; [|exact H2|exact H2']. intros. now apply level2_length.
Qed.
Lemma h_target (x : vec) t : t < size -> exists p, h_softmax_target l2 w1 b1 w2 b2 x t = Ok p.
Proof.
  intro Ht. assert (L2 : l2 <> 0) by (intro; subst l2; rewrite Nat.mul_0_r in Hsize; lia).
  assert (D : t / l2 < l1) by (apply Nat.div_lt_upper_bound; [exact L2|]; rewrite Nat.mul_comm; lia).
  assert (M : t mod l2 < l2) by now apply Nat.mod_upper_bound.
  assert (G : forall X (l : list X) i, i < length l -> exists y, py_index l i = Ok y /\ In y l).
  { intros X l i Hi. unfold py_index. destruct (nth_error l i) as [y|] eqn:E; [|apply nth_error_None in E; lia]. exists y. split; [reflexivity|]. eapply nth_error_In; eauto. }
  unfold h_softmax_target. destruct (G _ (softmax (map Some (map2 add (map (dotv x) w1) b1))) (t / l2)) as (p & -> & _); [now rewrite level1_length|]. cbn [bind].
  destruct Hw2 as [Lw Fw], Hb2 as [Lb Fb]. rewrite Forall_forall in Fw, Fb.
  destruct (G _ w2 (t / l2)) as (w & -> & Iw); [now rewrite Lw|]. cbn [bind]. destruct (G _ b2 (t / l2)) as (bb & -> & Ib); [now rewrite Lb|]. cbn [bind].
  destruct (G _ (softmax (map Some (map2 add (map (dotv x) w) bb))) (t mod l2)) as (q & -> & _); [rewrite level2_length; auto|]. cbn [bind]. eauto.
Qed.
End HSoftmax.
Lemma new_matrices_rect layer name count r c : rectangle count c (new_matrices initial layer name count r c).
Proof. unfold new_matrices. split; [now rewrite map_length, seq_length|]. apply Forall_map, Forall_forall. intros. apply new_matrix_length. Qed.
Lemma new_biases_rect layer l1 l2 : rectangle l1 l2 (map (fun i => map (initial layer (str "level1/b") 0 i) (seq 0 l2)) (seq 0 l1)).
Proof. split; [now rewrite map_length, seq_length|]. apply Forall_map, Forall_forall. intros. now rewrite map_length, seq_length. Qed.

Lemma cells_ok X Y (f : X -> nat -> result Y) (P : X -> Prop) (x : list (list X)) targets size :
  (forall r t, P r -> t < size -> exists y, f r t = Ok y) -> rectangle T N x -> Forall (Forall P) x ->
  rectangle T N targets -> Forall (Forall (fun t => t < size)) targets ->
  exists p, mapM (fun '(m, ts) => mapM (fun '(row, t) => f row t) (combine m ts)) (combine x targets) = Ok p /\ rectangle T N p.
Proof.
  intros H [L R] PX [L' R'] B.
  assert (G : forall m ts, length m = N -> length ts = N -> Forall P m -> Forall (fun t => t < size) ts ->
    exists q, mapM (fun '(row, t) => f row t) (combine m ts) = Ok q /\ length q = N).
  { clear - H. intros m. generalize N. induction m as [|r m IH]; intros n [|t ts] Lm Lt Pm Bt; cbn in Lm, Lt; subst n; try discriminate; cbn [combine mapM]; [exists []; auto|].
    inversion_clear Pm as [|? ? Pr Pm']. inversion_clear Bt as [|? ? Ht Bt']. destruct (H r t Pr Ht) as (y & ->). cbn [bind].
    destruct (IH _ ts eq_refl (f_equal pred Lt) Pm' Bt') as (q & -> & Lq). cbn [bind]. eexists. split; [reflexivity|]. cbn. now rewrite Lq. }
  assert (K : forall n, length x = n -> length targets = n -> exists p, mapM (fun '(m, ts) => mapM (fun '(row, t) => f row t) (combine m ts)) (combine x targets) = Ok p /\ rectangle n N p).
  2: { exact (K T L L'). }
  clear L L' . revert targets R' B. induction x as [|m x IH]; intros [|ts targets] R' B n L L'; cbn in L, L'; subst n; try discriminate; cbn [combine mapM]; [exists []; repeat split; constructor|].
  inversion_clear R as [|? ? Rm R0]. inversion_clear R' as [|? ? Rt R0']. inversion_clear PX as [|? ? Pm P0]. inversion_clear B as [|? ? Bt B0].
  destruct (G m ts Rm Rt Pm Bt) as (q & -> & Lq). cbn [bind]. destruct (IH R0 P0 targets R0' B0 _ eq_refl (f_equal pred L')) as (p & -> & [Lp Rp]). cbn [bind].
  eexists. split; [reflexivity|]. split; [cbn; now rewrite Lp|now constructor].
Qed.
Lemma box_rect F (x : tensor) : box T N F x -> rectangle T N x /\ Forall (Forall (fun r => length r = F)) x.
Proof.
  intros [L H]. split; [split; [exact L|]|]; (eapply Forall_impl; [|exact H]); intros m [Lm Hm]; assumption.
Qed.

Theorem network_runs m ds o n : descs_ok [] ds -> all_fit [] ds -> Forall works_on_devices ds ->
  output_ok ds o -> o_inputs o <> [] -> (forall i, In i (o_inputs o) -> exists e, nth_error ds i = Some e /\ input_kind (d_kind e) = false) ->
  output_works_on_devices o -> create_network ds o = Ok n -> rectangle T N (mask_of m b) -> step_ok m 0 (n_layers n) ->
  (exists p st, eval_network n m b = Ok (p, st) /\ box T N (num_classes v) p /\
    match m with Step _ => Forall2 (fun s x => rectangle N s x) (flat_map state_sizes (n_layers n)) st | Minibatch => True end) /\
  (forall targets, rectangle T N targets -> Forall (Forall (fun c => c < num_classes v)) targets ->
   exists q st, eval_targets n m b targets = Ok (q, st) /\ rectangle T N q).
Proof.
  intros D Fit W [OS (input_sizes & EI & OV)] ON OF OW C RM SO. pose proof C as C0.
  destruct (created_network _ _ _ C) as (ls & CL & EN & P). assert (ENL : n_layers n = ls) by now rewrite EN. rewrite ENL in *.
  destruct (layers_run m ds [] [] 0 0 ls D Fit W (Forall2_nil _) (Forall_nil _) CL RM SO) as (outs & st & E & S & F & ST). cbn [app] in S.
  assert (INS : exists ins, mapM (py_index outs) (o_inputs o) = Ok ins /\ Forall (fun o => is_ids (fst o) = false) ins /\ length ins = length (o_inputs o)).
  { destruct (inputs_found outs (o_inputs o) (fun o => is_ids (fst o) = false)) as (ins & Ei & Li & Fi).
    - intros i Hi. destruct (OF i Hi) as (e & Ee & K). destruct (F2_nth _ _ _ _ _ _ _ S Ee) as (u & Eu & [Ku _]). exists u. split; [exact Eu|congruence].
    - eauto. }
  destruct INS as (ins & Ei & Fi & Li).
  assert (EZ : input_sizes = map snd ins) by (apply mapM_sizes in Ei; rewrite (same_sizes _ _ S) in Ei; congruence).
  destruct (layer_input T N ins (outs_in _ _ _ _ _ F Ei) Fi) as (x & Ex & Bx).
  { intro. subst ins. destruct (o_inputs o); [contradiction|discriminate]. }
  rewrite <- EZ in Bx. assert (EB : exists fs, mapM (fun v : value A * nat => features (fst v)) ins = Ok fs /\ concat_features fs = Ok x).
  { destruct (mapM _ ins) as [fs|]; cbn [bind] in Ex; [eauto|discriminate]. }
  destruct EB as (fs & Ef & Ec).
  assert (RUN : eval_layers m b [] 0 0 (n_layers n) = Ok (outs, st)) by now rewrite ENL.
  assert (NI : n_inputs n = o_inputs o) by now rewrite EN. assert (NK : n_kind n = o_kind o) by now rewrite EN.
  destruct (o_kind o) as [|l1 l2] eqn:KO.
  - assert (SM := softmax_created o ls (n_params n) x _ _ KO OV ltac:(now rewrite new_bias_length, new_matrix_length) OW ltac:(rewrite KO; exact P)).
    rewrite KO, <- EN in SM.
    match type of SM with _ = Ok ?q => assert (Bq : box T N (num_classes v) q) end.
    { rewrite <- OS. eapply box_map; [|eapply (box_preact T N _ (o_size o)); [exact Bx|apply new_matrix_length|intros _; apply new_bias_length]].
      intros r Hr. cbv zeta. rewrite softmax_length. destruct (o_exclude_unk o); rewrite ?log_zero_length, map_length; exact Hr. }
    match type of SM with _ = Ok ?q => set (p := q) in * end. clearbody p. split.
    + exists p, st. split; [|split; [exact Bq|exact ST]]. unfold eval_network. rewrite RUN. cbn [bind]. rewrite NI, Ei. cbn [bind]. rewrite Ef. cbn [bind]. rewrite Ec. cbn [bind].
      rewrite NK, SM. reflexivity.
    + intros targets RT BT. unfold eval_targets. rewrite RUN. cbn [bind]. rewrite NI, Ei. cbn [bind]. rewrite Ef. cbn [bind]. rewrite Ec. cbn [bind]. rewrite NK, SM. cbn [bind].
      destruct (box_rect _ _ Bq) as [Rp Pp]. destruct (cells_ok _ _ (fun row t => py_index row t) (fun r => length r = num_classes v) p targets (num_classes v)) as (q & Eq & Rq); auto.
      { intros r t Hr Ht. unfold py_index. destruct (nth_error r t) eqn:En; [eauto|apply nth_error_None in En; lia]. }
      rewrite Eq. cbn [bind]. eauto.
  - destruct OV as [LS OV]. rewrite OV in P. unfold output_works_on_devices in OW. rewrite KO in OW. rewrite OW in P. cbn [output_params] in P.
    assert (Q : forall name u, In (o_name o, name, true, u) (output_params (HSoftmax l1 l2) (o_name o) (o_values o)) -> get_param (n_params n) (o_name o) name None = Ok u).
    { rewrite OV. cbn [output_params]. intros name u Hu. destruct (F_in _ _ _ _ P Hu) as [[_ Q]|[Q _]]; [|congruence]. unfold get_param. now rewrite Q. }
    rewrite OV in Q. cbn [output_params] in Q. apply level_sizes_inv in LS as [L1 L12].
    assert (Q1 := Q (str "input/W") _ (or_introl eq_refl)). assert (Q2 := Q (str "input/b") _ (or_intror (or_introl eq_refl))).
    assert (Q3 := Q (str "level1/W") _ (or_intror (or_intror (or_introl eq_refl)))). assert (Q4 := Q (str "level1/b") _ (or_intror (or_intror (or_intror (or_introl eq_refl))))). clear Q.
    assert (ND : n_devices n = [None]) by (rewrite EN; exact OW). assert (NN : n_name n = o_name o) by now rewrite EN. assert (NS : n_size n = o_size o) by now rewrite EN.
    split.
    + unfold eval_network. rewrite RUN. cbn [bind]. rewrite NI, Ei. cbn [bind]. rewrite Ef. cbn [bind]. rewrite Ec. cbn [bind]. rewrite NK.
      unfold hsoftmax_layer. rewrite ND. cbn [length Nat.ltb Nat.leb]. unfold get_weight, get_bias, get_level_weight, get_level_bias. rewrite NN, Q1. cbn [bind]. rewrite Q2. cbn [bind].
      rewrite Q3. cbn [bind]. rewrite Q4. cbn [bind]. eexists _, st. split; [reflexivity|]. split; [|exact ST]. rewrite NS, <- OS.
      eapply box_map; [|exact Bx]. intros r _. apply (h_softmax_length l1 l2); auto using new_matrix_length, new_bias_length, new_matrices_rect, new_biases_rect.
    + intros targets RT BT. unfold eval_targets. rewrite RUN. cbn [bind]. rewrite NI, Ei. cbn [bind]. rewrite Ef. cbn [bind]. rewrite Ec. cbn [bind]. rewrite NK.
      rewrite ND. cbn [length Nat.ltb Nat.leb]. unfold get_weight, get_bias, get_level_weight, get_level_bias. rewrite NN, Q1. cbn [bind]. rewrite Q2. cbn [bind].
      rewrite Q3. cbn [bind]. rewrite Q4. cbn [bind]. destruct (box_rect _ _ Bx) as [Rx Px].
      match goal with |- context [h_softmax_target l2 ?w ?b0 ?w2 ?b2 _ _] =>
        destruct (cells_ok _ _ (fun row t => h_softmax_target l2 w b0 w2 b2 row t) (fun _ => True) x targets (num_classes v)) as (q & Eq & Rq); auto;
        [| |rewrite Eq; cbn [bind]; eauto] end.
      * intros r t _ Ht. apply (h_target l1 l2 (o_size o)); auto using new_matrix_length, new_bias_length, new_matrices_rect, new_biases_rect. lia.
      * apply Forall_forall. intros. apply Forall_forall. auto.
Qed.
End Nets.
