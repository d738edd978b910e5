(** A network that has been built computes what the equations say. *)
From Verif Require Import Base BaseLib ListLib Strings NumStr ParamModel VocabModel NetModel NetSpec NetColumns NetSteps NetShape
  DeviceModel DeviceSpec DeviceProofs DeviceNet OutputModel BuildModel BuildSpec BuildShape BuildLayers BuildNet EquationSpec EquationTab EquationLayers.
Local Open Scope nat_scope.

Section Nets.
Context {A : arith}.
Notation num := (num A).
Notation vec := (list num).
Notation matrix := (list (list num)).
Notation tensor := (list (list (list num))).
Notation params := (list (pystr * param A)).
Notation activity := (nat -> nat -> nat -> num).
Variable initial : pystr -> pystr -> nat -> nat -> nat -> num.
Variable v : vocabulary.
Variables T N : nat.
Hypothesis HT : T <> 0.
Variable b : batch.
Hypothesis Hwords : rectangle T N (b_words b) /\ Forall (Forall (fun w => w < num_shortlist_words v)) (b_words b).
Hypothesis Hclasses : rectangle T N (b_classes b) /\ Forall (Forall (fun c => c < num_classes v)) (b_classes b).
Hypothesis Hmask : rectangle T N (b_mask b).

Lemma layers_are ds : forall earlier outs done i j ls,
  descs_ok initial v earlier ds -> all_fit earlier ds -> Forall works_on_devices ds ->
  Forall2 same_kind earlier outs -> Forall (out_ok T N) outs -> Forall2 (out_is T N b) outs done -> i = length done ->
  create_layers (map d_size earlier) ds = Ok ls ->
  exists outs' st, eval_layers Minibatch b outs i j ls = Ok (outs', st) /\
    Forall2 same_kind (earlier ++ ds) outs' /\ Forall2 (out_is T N b) outs' (fold_left (next_activity initial b T) ls done).
Proof.
  induction ds as [|d ds IH]; intros earlier outs done i j ls; cbn [descs_ok all_fit create_layers].
  - intros _ _ _ S F O Hi C. injection C as <-. cbn [eval_layers fold_left]. exists outs, []. rewrite app_nil_r. auto.
  - intros [D DS] [Fit FS] W S F O Hi C. inversion_clear W as [|? ? Wd Ws].
    destruct (create_layer _ d) as [l|] eqn:CL; cbn [bind] in C; [|discriminate].
    destruct (create_layers _ ds) as [r|] eqn:CR; cbn [bind] in C; [|discriminate]. injection C as <-. cbn [eval_layers fold_left].
    destruct D as [(input_sizes & EI & V & CH) HG DW DC]. rewrite <- (same_sizes _ _ S) in CL, EI.
    assert (ES : l_size l = d_size d) by (destruct (created_layer _ _ _ CL) as (? & _ & -> & _); reflexivity).
    pose proof (fits_outs _ _ _ _ S Fit) as Fit'.
    destruct (layer_runs initial T N HT Minibatch b outs i j d l input_sizes CL EI V CH HG Wd F Fit' Hmask) as (x & st & E & OK & K & _).
    + intro K. cbn [out_ok fst snd]. now rewrite (DW K).
    + intro K. cbn [out_ok fst snd]. now rewrite (DC K).
    + exact I.
    + destruct (layer_is initial T N HT b outs done i j d l input_sizes CL EI V CH HG Wd F Fit' Hmask (proj1 Hwords) (proj1 Hclasses) O Hi) as (x' & E' & p & EP & EPl & OP).
      rewrite E in E'. injection E' as <- ->. rewrite E. cbn [bind]. rewrite ES, EP.
      destruct (IH (earlier ++ [d]) (outs ++ [(x, d_size d)]) (done ++ [p]) (i + 1) (j + length (state_sizes l)) r DS FS Ws) as (outs' & st' & E' & S' & O').
      * apply Forall2_app; [exact S|]. constructor; [split; [exact K|reflexivity]|constructor].
      * apply Forall_app. split; [exact F|]. constructor; [exact OK|constructor].
      * apply Forall2_app; [exact O|]. constructor; [exact OP|constructor].
      * rewrite app_length. cbn. lia.
      * rewrite map_app. exact CR.
      * rewrite E'. cbn [bind]. rewrite <- app_assoc in S'. eexists outs', _. split; [reflexivity|]. auto.
Qed.

(** ** Output layers *)
Lemma softmax_tab F (o : nat -> option num) : softmax (tabv F o) =
  tabv F (fun c => let e i := match o i with Some y => exp y | None => zero end in div (e c) (sum_to F e)).
Proof. unfold softmax. cbv zeta. rewrite !map_tabv. reflexivity. Qed.
Lemma nth_concat X l2 (g : nat -> nat -> X) l1 c : c < l1 * l2 -> forall a,
  nth_error (concat (map (fun i => tabv l2 (g i)) (seq a l1))) c = Some (g (a + c / l2) (c mod l2)).
Proof.
  intros Hc a. assert (L2 : l2 <> 0) by (intro; subst l2; lia). revert a c Hc. induction l1 as [|l1 IH]; intros a c Hc; [lia|]. cbn [seq map concat].
  destruct (Nat.ltb_spec c l2) as [H|H].
  - rewrite nth_error_app1 by (now rewrite tabv_length). rewrite tabv_nth by exact H. now rewrite Nat.div_small, Nat.mod_small, Nat.add_0_r by exact H.
  - rewrite nth_error_app2 by (now rewrite tabv_length). rewrite tabv_length. rewrite IH by lia. f_equal.
    assert (Ec : c = (c - l2) + 1 * l2) by lia. rewrite Ec at 3 4. rewrite Nat.div_add, Nat.mod_add by exact L2. f_equal. lia.
Qed.

Definition inputs_of (done : list (layer A * activity)) (inputs : list nat) : list (nat * activity) :=
  map (fun i => match nth_error done i with Some (l, x) => (l_size l, x) | None => (0, fun _ _ _ => zero) end) inputs.
Lemma picked_inputs outs done inputs ins : Forall2 (out_is T N b) outs done -> mapM (py_index outs) inputs = Ok ins ->
  exists ps, Forall2 (out_is T N b) ins ps /\ map sized ps = inputs_of done inputs.
Proof.
  intro F. revert ins. induction inputs as [|i inputs IH]; intros ins; cbn [mapM]; [intro H; injection H as <-; exists []; split; [constructor|reflexivity]|].
  unfold py_index at 1. destruct (nth_error outs i) as [o|] eqn:E; cbn [bind]; [|discriminate].
  destruct (mapM (py_index outs) inputs) as [r|]; cbn [bind]; [|discriminate]. intro H. injection H as <-.
  destruct (F2_nth _ _ _ _ _ _ _ F E) as ([l x] & Ep & R). destruct (IH _ eq_refl) as (ps & FP & EP). exists ((l, x) :: ps). split; [now constructor|].
  cbn [map sized inputs_of]. rewrite Ep, EP. reflexivity.
Qed.

Lemma level_row layer name i n c (x : nat -> num) : map2 add (map (dotv (tabv n x)) (new_matrix initial layer name i n c)) (map (initial layer (str "level1/b") 0 i) (seq 0 c)) =
  tabv c (fun j => add (linear initial layer name i n x j) (initial layer (str "level1/b") 0 i j)).
Proof. rewrite row_tab. change (map (initial layer (str "level1/b") 0 i) (seq 0 c)) with (tabv c (initial layer (str "level1/b") 0 i)). apply map2_tabv. Qed.
Lemma h_softmax_is layer n size l1 l2 (x : nat -> num) c : c < size -> size <= l1 * l2 ->
  nth_error (h_softmax size (new_matrix initial layer (str "input/W") 0 n l1) (new_bias initial layer (str "input/b") l1)
      (new_matrices initial layer (str "level1/W") l1 n l2) (map (fun i => map (initial layer (str "level1/b") 0 i) (seq 0 l2)) (seq 0 l1)) (tabv n x)) c =
  Some (let e i := exp (affine initial layer (str "input") n x i) in
        let e' i j := exp (add (linear initial layer (str "level1/W") i n x j) (initial layer (str "level1/b") 0 i j)) in
        mul (div (e (c / l2)) (sum_to l1 e)) (div (e' (c / l2) (c mod l2)) (sum_to l2 (e' (c / l2))))).
Proof.
  intros Hc Hs. unfold h_softmax. cbv zeta. rewrite row_tab, bias_tab, map2_tabv, map_tabv, softmax_tab.
  change (map (fun i => map (initial layer (str "level1/b") 0 i) (seq 0 l2)) (seq 0 l1)) with (tabv l1 (fun i => map (initial layer (str "level1/b") 0 i) (seq 0 l2))).
  unfold new_matrices. change (map (fun i => new_matrix initial layer (str "level1/W") i n l2) (seq 0 l1)) with (tabv l1 (fun i => new_matrix initial layer (str "level1/W") i n l2)).
  rewrite !map2_tabv.
  match goal with |- nth_error (firstn _ (concat ?m)) _ = Some ?r =>
    transitivity (nth_error (concat m) c); [|replace m with (tabv l1 (fun i => tabv l2 (fun j => mul
      (div (exp (affine initial layer (str "input") n x i)) (sum_to l1 (fun i => exp (affine initial layer (str "input") n x i))))
      (div (exp (add (linear initial layer (str "level1/W") i n x j) (initial layer (str "level1/b") 0 i j)))
           (sum_to l2 (fun j => exp (add (linear initial layer (str "level1/W") i n x j) (initial layer (str "level1/b") 0 i j))))))))] end.
  - now apply nth_firstn_lt.
  - apply (nth_concat _ l2 (fun i j => mul _ _) l1 c ltac:(lia) 0).
  - apply tabv_ext. intros i _. rewrite level_row, map_tabv, softmax_tab, map_tabv. reflexivity.
Qed.

Lemma tab_cell X F (f : nat -> nat -> nat -> X) t s c : t < T -> s < N -> c < F ->
  (match nth_error (tab T N F f) t with Some m => match nth_error m s with Some r => nth_error r c | None => None end | None => None end) = Some (f t s c).
Proof. intros Ht Hs Hc. unfold tab, tabm. rewrite tabv_nth, tabv_nth, tabv_nth by assumption. reflexivity. Qed.

Theorem network_is ds o n : descs_ok initial v [] ds -> all_fit [] ds -> Forall works_on_devices ds ->
  output_ok initial v ds o -> o_inputs o <> [] -> (forall i, In i (o_inputs o) -> exists e, nth_error ds i = Some e /\ input_kind (d_kind e) = false) ->
  output_works_on_devices o -> create_network ds o = Ok n ->
  exists p st, eval_network n Minibatch b = Ok (p, st) /\ tensor_shape T N (num_classes v) p /\
    forall t s c, t < T -> s < N -> c < num_classes v ->
    (match nth_error p t with Some m => match nth_error m s with Some r => nth_error r c | None => None end | None => None end) =
    Some (network_probability initial n b T t s c).
Proof.
  intros D Fit W OO ON OF OW C.
  destruct (network_runs initial v T N HT b Hwords Hclasses Minibatch ds o n D Fit W OO ON OF OW C Hmask I) as [(p & st & EV & BX & _) _].
  exists p, st. split; [exact EV|]. split; [exact BX|]. intros t s c Ht Hs Hc.
  destruct OO as [OS (input_sizes & EI & OV)].
  destruct (created_network _ _ _ C) as (ls & CL & EN & P). assert (ENL : n_layers n = ls) by now rewrite EN.
  destruct (layers_are ds [] [] [] 0 0 ls D Fit W (Forall2_nil _) (Forall_nil _) (Forall2_nil _) eq_refl CL) as (outs & st' & E & S & O). cbn [app] in S.
  fold (activities initial b T ls) in O.
  assert (INS : exists ins, mapM (py_index outs) (o_inputs o) = Ok ins /\ Forall (fun o => is_ids (fst o) = false) ins /\ length ins = length (o_inputs o)).
  { destruct (inputs_found outs (o_inputs o) (fun o => is_ids (fst o) = false)) as (ins & Ei & Li & Fi).
    - intros i Hi. destruct (OF i Hi) as (e & Ee & K). destruct (F2_nth _ _ _ _ _ _ _ S Ee) as (u & Eu & [Ku _]). exists u. split; [exact Eu|congruence].
    - eauto. }
  destruct INS as (ins & Ei & Fi & Li).
  assert (EZ : input_sizes = map snd ins) by (apply mapM_sizes in Ei; rewrite (same_sizes _ _ S) in Ei; congruence).
  destruct (picked_inputs _ _ _ _ O Ei) as (ps & PK & EPS).
  assert (Hn : ins <> []) by (intro; subst ins; destruct (o_inputs o); [contradiction|discriminate]).
  assert (SZ : sum input_sizes = total_size (map sized ps)) by (rewrite EZ, (sizes_picked _ _ _ _ _ PK); reflexivity).
  pose proof (input_tab _ _ _ _ _ PK Fi Hn) as Ex. rewrite EPS in Ex, SZ.
  assert (EB : exists fs, mapM (fun v : value A * nat => features (fst v)) ins = Ok fs /\ concat_features fs = Ok (tab T N (sum input_sizes) (joined (inputs_of (activities initial b T ls) (o_inputs o))))).
  { rewrite SZ. destruct (mapM _ ins) as [fs|]; cbn [bind] in Ex; [eauto|discriminate]. }
  destruct EB as (fs & Ef & Ec). clear Ex.
  assert (NI : n_inputs n = o_inputs o) by now rewrite EN. assert (NK : n_kind n = o_kind o) by now rewrite EN.
  assert (NN : n_name n = o_name o) by now rewrite EN. assert (NS : n_size n = o_size o) by now rewrite EN.
  assert (NU : n_unk_class n = o_unk_class o) by now rewrite EN. assert (NX : n_exclude_unk n = o_exclude_unk o) by now rewrite EN.
  unfold eval_network in EV. rewrite ENL, E in EV. cbn [bind] in EV. rewrite NI, Ei in EV. cbn [bind] in EV. rewrite Ef in EV. cbn [bind] in EV. rewrite Ec in EV. cbn [bind] in EV. rewrite NK in EV.
  unfold network_probability. rewrite ENL, NI. fold (inputs_of (activities initial b T ls) (o_inputs o)).
  unfold class_probability. cbv zeta. rewrite NK, NN, NS, NU, NX, <- SZ.
  set (x := joined (inputs_of (activities initial b T ls) (o_inputs o))) in *. clearbody x.
  destruct (o_kind o) as [|l1 l2] eqn:KO.
  - assert (SM := softmax_created o ls (n_params n) (tab T N (sum input_sizes) x) _ _ KO OV ltac:(now rewrite new_bias_length, new_matrix_length) OW ltac:(rewrite KO; exact P)).
    rewrite KO, <- EN in SM. rewrite SM in EV. cbn [bind] in EV. apply (f_equal (fun r => match r with Ok z => fst z | Err _ => p end)) in EV. cbn [fst] in EV. rewrite <- EV. clear EV SM.
    rewrite (preact_tab initial (o_name o) (str "input")). unfold tab, tabm. rewrite map_tabv, tabv_nth by exact Ht. rewrite map_tabv, tabv_nth by exact Hs. cbv zeta.
    rewrite map_tabv. set (a := fun k => affine initial (o_name o) (str "input") (sum input_sizes) (x t s) k).
    assert (EL : (if o_exclude_unk o then set_log_zero (o_unk_class o) (tabv (o_size o) (fun k => Some (a k))) else tabv (o_size o) (fun k => Some (a k))) =
      tabv (o_size o) (fun k => if o_exclude_unk o && (k =? o_unk_class o) then None else Some (a k))).
    { destruct (o_exclude_unk o); cbn [andb]; [|reflexivity]. unfold set_log_zero. rewrite mapi_tabv. reflexivity. }
    rewrite EL, softmax_tab, tabv_nth by (now rewrite OS). cbv zeta. f_equal.
    assert (EE : forall k, match (if o_exclude_unk o && (k =? o_unk_class o) then None else Some (a k)) with Some y => exp y | None => zero end =
      if o_exclude_unk o && (k =? o_unk_class o) then zero else exp (a k)) by (intro k; destruct (_ && _); reflexivity).
    apply (f_equal2 div); [exact (EE c)|apply sum_to_ext; intros k _; exact (EE k)].
  - destruct OV as [LS OV]. rewrite OV in P. unfold output_works_on_devices in OW. rewrite KO in OW. rewrite OW in P. cbn [output_params] in P.
    assert (Q : forall name u, In (o_name o, name, true, u) (output_params (HSoftmax l1 l2) (o_name o) (o_values o)) -> get_param (n_params n) (o_name o) name None = Ok u).
    { rewrite OV. cbn [output_params]. intros name u Hu. destruct (F_in _ _ _ _ P Hu) as [[_ Q]|[Q _]]; [|congruence]. unfold get_param. now rewrite Q. }
    rewrite OV in Q. cbn [output_params] in Q. apply level_sizes_inv in LS as [L1 L12].
    assert (Q1 := Q (str "input/W") _ (or_introl eq_refl)). assert (Q2 := Q (str "input/b") _ (or_intror (or_introl eq_refl))).
    assert (Q3 := Q (str "level1/W") _ (or_intror (or_intror (or_introl eq_refl)))). assert (Q4 := Q (str "level1/b") _ (or_intror (or_intror (or_intror (or_introl eq_refl))))). clear Q.
    assert (ND : n_devices n = [None]) by (rewrite EN; exact OW).
    unfold hsoftmax_layer in EV. rewrite ND in EV. cbn [length Nat.ltb Nat.leb] in EV. unfold get_weight, get_bias, get_level_weight, get_level_bias in EV. rewrite NN, Q1 in EV. cbn [bind] in EV. rewrite Q2 in EV. cbn [bind] in EV.
    rewrite Q3 in EV. cbn [bind] in EV. rewrite Q4 in EV. cbn [bind] in EV. rewrite NS in EV. apply (f_equal (fun r => match r with Ok z => fst z | Err _ => p end)) in EV. cbn [fst] in EV. rewrite <- EV. clear EV.
    unfold tab, tabm. rewrite map_tabv, tabv_nth by exact Ht. rewrite map_tabv, tabv_nth by exact Hs.
    apply (h_softmax_is (o_name o) (sum input_sizes) (o_size o) l1 l2 (x t s) c); [now rewrite OS|exact L12].
Qed.
End Nets.
