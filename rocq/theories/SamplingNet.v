(** The unnormalized probabilities of a network that has been built. *)
From Verif Require Import Base BaseLib ListLib Strings NumStr ParamModel VocabModel NetModel NetSpec NetColumns NetSteps NetShape
  DeviceModel DeviceSpec DeviceProofs DeviceNet OutputModel OutputProofs BuildModel BuildSpec BuildShape BuildLayers BuildNet EquationSpec EquationTab EquationLayers EquationNet
  SamplingModel SamplingSpec.
Local Open Scope nat_scope.
Local Open Scope list_scope.

(** ** Lists *)
Lemma mapM_is X Y (f : X -> result Y) g l : (forall x, In x l -> f x = Ok (g x)) -> mapM f l = Ok (map g l).
Proof.
  induction l as [|x l IH]; intros H; cbn [mapM map]; [reflexivity|]. rewrite H by (now left). cbn [bind]. rewrite IH by (intros; apply H; now right). reflexivity.
Qed.
Lemma at2_map X Y (f : X -> Y) (m : list (list X)) t s : at2 (map (map f) m) t s = option_map f (at2 m t s).
Proof. unfold at2. rewrite nth_error_map. destruct (nth_error m t); cbn [option_map]; [apply nth_error_map|reflexivity]. Qed.
Lemma rect_at2 X T N (m : list (list X)) t s : rectangle T N m -> t < T -> s < N -> exists x, at2 m t s = Some x.
Proof.
  intros [L F] Ht Hs. unfold at2. destruct (nth_error m t) as [r|] eqn:E; [|apply nth_error_None in E; lia].
  rewrite Forall_forall in F. specialize (F r (nth_error_In _ _ E)). destruct (nth_error r s) as [x|] eqn:E'; [eauto|apply nth_error_None in E'; lia].
Qed.
Lemma at2_range X T N (m : list (list X)) t s x : rectangle T N m -> at2 m t s = Some x -> t < T /\ s < N.
Proof.
  intros [L F]. unfold at2. destruct (nth_error m t) as [r|] eqn:E; [|discriminate]. intros E'. rewrite Forall_forall in F. specialize (F r (nth_error_In _ _ E)).
  split; [rewrite <- L|rewrite <- F]; apply nth_error_Some; congruence.
Qed.
Lemma at2_Forall X (P : X -> Prop) (m : list (list X)) t s x : Forall (Forall P) m -> at2 m t s = Some x -> P x.
Proof.
  unfold at2. intros F. destruct (nth_error m t) as [r|] eqn:E; [|discriminate]. intros E'. rewrite Forall_forall in F. specialize (F r (nth_error_In _ _ E)).
  rewrite Forall_forall in F. exact (F x (nth_error_In _ _ E')).
Qed.
Lemma at2_map2 X Y Z (f : X -> Y -> Z) (a : list (list X)) (b : list (list Y)) t s x y : at2 a t s = Some x -> at2 b t s = Some y ->
  at2 (map2 (map2 f) a b) t s = Some (f x y).
Proof.
  assert (G : forall U V W (g : U -> V -> W) l m i u v, nth_error l i = Some u -> nth_error m i = Some v -> nth_error (map2 g l m) i = Some (g u v)).
  { clear. intros U V W g l. induction l as [|p l IH]; intros [|q m] [|i] u v; cbn [nth_error map2]; try discriminate; [congruence|apply IH]. }
  unfold at2. destruct (nth_error a t) as [r|] eqn:Ea; [|discriminate]. destruct (nth_error b t) as [r'|] eqn:Eb; [|discriminate]. intros H1 H2.
  erewrite G by eassumption. now apply G.
Qed.
Lemma rows_length X n size (l : list X) : length (rows_of n size l) = n.
Proof. revert l; induction n as [|n IH]; intros l; cbn [rows_of length]; [reflexivity|]. now rewrite IH. Qed.
Lemma rows_nth X n size (l : list X) i : i < n -> nth_error (rows_of n size l) i = Some (firstn size (skipn (i * size) l)).
Proof.
  revert l i; induction n as [|n IH]; intros l i Hi; [lia|]. cbn [rows_of]. destruct i as [|i]; [reflexivity|]. cbn [nth_error]. rewrite IH by lia.
  f_equal. f_equal. cbn [Nat.mul]. generalize (i * size). clear. intros k. revert size l; induction size as [|size IH]; intros l; [reflexivity|]. destruct l as [|x l]; [now rewrite !skipn_nil|]. cbn [skipn Nat.add]. apply IH.
Qed.

Lemma nth_Forall X (P : X -> Prop) (l : list X) i d : Forall P l -> P d -> P (nth i l d).
Proof. intros F D. destruct (nth_in_or_default i l d) as [H|H]; [|now rewrite H]. rewrite Forall_forall in F. auto. Qed.
Lemma nth_cells X (P : X -> Prop) (ids : list (list (list X))) t s c : Forall (Forall (Forall P)) ids -> In c (nth s (nth t ids []) []) -> P c.
Proof.
  intros F I. pose proof (nth_Forall _ _ _ s [] (nth_Forall _ _ _ t [] F (Forall_nil _)) (Forall_nil _)) as G. rewrite Forall_forall in G. auto.
Qed.

Section Nets.
Context {A : arith}.
Notation num := (num A).
Notation vec := (list num).
Notation matrix := (list (list num)).
Notation tensor := (list (list (list num))).
Notation params := (list (pystr * param A)).
Variable initial : pystr -> pystr -> nat -> nat -> nat -> num.
Variable v : vocabulary.
Variables T N : nat.
Hypothesis HT : T <> 0.
Variable b : batch.
Hypothesis Hwords : rectangle T N (b_words b) /\ Forall (Forall (fun w => w < num_shortlist_words v)) (b_words b).
Hypothesis Hclasses : rectangle T N (b_classes b) /\ Forall (Forall (fun c => c < num_classes v)) (b_classes b).
Hypothesis Hmask : rectangle T N (b_mask b).

(** The input of the output layer, and its weights when they are not split *)
Record reads (n : network A) (size : nat) (x : nat -> nat -> nat -> num) : Prop := {
  rd_input : output_input n Minibatch b = Ok (tab T N size x);
  rd_weights : length (n_devices n) <= 1 -> output_weights n =
     Ok (new_matrix initial (n_name n) (str "input" ++ str "/W") 0 size (n_size n), new_bias initial (n_name n) (str "input" ++ str "/b") (n_size n));
  rd_size : n_size n = num_classes v;
  rd_score : forall t s c, class_score initial n b T t s c = affine initial (n_name n) (str "input") size (x t s) c }.

Lemma network_reads ds o n : descs_ok initial v [] ds -> all_fit [] ds -> Forall works_on_devices ds ->
  output_ok initial v ds o -> o_inputs o <> [] -> (forall i, In i (o_inputs o) -> exists e, nth_error ds i = Some e /\ input_kind (d_kind e) = false) ->
  output_works_on_devices o -> create_network ds o = Ok n -> n_kind n = Softmax -> exists size x, reads n size x.
Proof.
  intros D Fit W OO ON OF OW C KO0.
  destruct OO as [OS (input_sizes & EI & OV)].
  destruct (created_network _ _ _ C) as (ls & CL & EN & P). assert (ENL : n_layers n = ls) by now rewrite EN.
  destruct (layers_are initial v T N HT b Hwords Hclasses Hmask ds [] [] [] 0 0 ls D Fit W (Forall2_nil _) (Forall_nil _) (Forall2_nil _) eq_refl CL) as (outs & st' & E & S & O). cbn [app] in S.
  fold (activities initial b T ls) in O.
  assert (INS : exists ins, mapM (py_index outs) (o_inputs o) = Ok ins /\ Forall (fun o => is_ids (fst o) = false) ins /\ length ins = length (o_inputs o)).
  { destruct (inputs_found outs (o_inputs o) (fun o => is_ids (fst o) = false)) as (ins & Ei & Li & Fi).
    - intros i Hi. destruct (OF i Hi) as (e & Ee & K). destruct (F2_nth _ _ _ _ _ _ _ S Ee) as (u & Eu & [Ku _]). exists u. split; [exact Eu|congruence].
    - eauto. }
  destruct INS as (ins & Ei & Fi & Li).
  assert (EZ : input_sizes = map snd ins) by (apply mapM_sizes in Ei; rewrite (same_sizes _ _ S) in Ei; congruence).
  destruct (picked_inputs _ _ _ _ _ _ _ O Ei) as (ps & PK & EPS).
  assert (Hn : ins <> []) by (intro; subst ins; destruct (o_inputs o); [contradiction|discriminate]).
  assert (SZ : sum input_sizes = total_size (map sized ps)) by (rewrite EZ, (sizes_picked _ _ _ _ _ PK); reflexivity).
  pose proof (input_tab _ _ _ _ _ PK Fi Hn) as Ex. rewrite EPS in Ex, SZ.
  assert (EB : exists fs, mapM (fun v : value A * nat => features (fst v)) ins = Ok fs /\ concat_features fs = Ok (tab T N (sum input_sizes) (joined (inputs_of (activities initial b T ls) (o_inputs o))))).
  { rewrite SZ. destruct (mapM _ ins) as [fs|]; cbn [bind] in Ex; [eauto|discriminate]. }
  destruct EB as (fs & Ef & Ec). clear Ex.
  assert (NI : n_inputs n = o_inputs o) by now rewrite EN. assert (NK : n_kind n = o_kind o) by now rewrite EN.
  assert (NN : n_name n = o_name o) by now rewrite EN. assert (NS : n_size n = o_size o) by now rewrite EN.
  assert (ND : n_devices n = o_devices o) by now rewrite EN.
  exists (sum input_sizes), (joined (inputs_of (activities initial b T ls) (o_inputs o))). constructor.
  - unfold output_input. rewrite ENL, E. cbn [bind]. rewrite NI, Ei. cbn [bind]. rewrite Ef. cbn [bind]. exact Ec.
  - intros L1. rewrite ND in L1. assert (KO : o_kind o = Softmax) by congruence. rewrite KO in OV. rewrite OV, KO in P. unfold output_works_on_devices in OW. rewrite KO in OW.
    destruct OW as [OW|OW]; [|exfalso; cbn [output_params] in P; pose proof (F_in _ _ _ _ P (or_introl eq_refl)) as [[D0 _]|[_ (ranges & SP & _)]];
      [rewrite D0 in OW; cbn in OW; lia|]; apply split_inv in SP as (SP & _); lia].
    rewrite OW in P. cbn [output_params] in P.
    pose proof (F_in _ _ _ _ P (or_introl eq_refl)) as [[_ Q1]|[Q1 _]]; [|congruence].
    pose proof (F_in _ _ _ _ P (or_intror (or_introl eq_refl))) as [[_ Q2]|[Q2 _]]; [|congruence].
    unfold output_weights, get_weight, get_bias, get_param. rewrite NN, NS, Q1, Q2. reflexivity.
  - congruence.
  - intros t s c. unfold class_score. rewrite ENL, NI. fold (inputs_of (activities initial b T ls) (o_inputs o)). rewrite NN, <- SZ. reflexivity.
Qed.

Lemma class_preact_is name size (x : nat -> num) F c : c < F ->
  class_preact (new_matrix initial name (str "input" ++ str "/W") 0 size F) (new_bias initial name (str "input" ++ str "/b") F) (tabv size x) c = Ok (affine initial name (str "input") size x c).
Proof.
  intros Hc. unfold class_preact, py_index. rewrite matrix_tab, tabv_nth by exact Hc. cbn [bind]. unfold new_bias.
  change (map (initial name (str "input" ++ str "/b") 0 0) (seq 0 F)) with (tabv F (initial name (str "input" ++ str "/b") 0 0)). rewrite tabv_nth by exact Hc. cbn [bind].
  f_equal. unfold affine, linear. f_equal. pose proof (row_tab initial name (str "input" ++ str "/W") 0 size (S c) x) as R.
  apply (f_equal (fun l => nth_error l c)) in R. rewrite nth_error_map, matrix_tab, !tabv_nth in R by lia. now injection R.
Qed.

Section One.
Variable n : network A.
Variable size : nat.
Variable x : nat -> nat -> nat -> num.
Hypothesis R : reads n size x.
Hypothesis L1 : length (n_devices n) <= 1.
Notation score := (class_score initial n b T).

Lemma cells_tab X (f : vec -> X) : map (map f) (tab T N size x) = tabm T N (fun t s => f (tabv size (x t s))).
Proof. unfold tab, tabm. rewrite map_tabv. apply tabv_ext. intros t _. now rewrite map_tabv. Qed.
Lemma at2_tabm X (f : nat -> nat -> X) t s : t < T -> s < N -> at2 (tabm T N f) t s = Some (f t s).
Proof. intros Ht Hs. unfold at2, tabm. rewrite tabv_nth by exact Ht. now apply tabv_nth. Qed.

Lemma target_preact_is ids : rectangle T N ids -> Forall (Forall (Forall (fun c => c < num_classes v))) ids ->
  target_preact n (tab T N size x) ids = Ok (tabm T N (fun t s => map (score t s) (nth s (nth t ids []) []))).
Proof.
  intros RI BI. unfold target_preact. rewrite (rd_weights _ _ _ R L1). cbn [bind].
  rewrite (rect_tabm _ [] _ _ ids RI) at 1. unfold tab, tabm. rewrite combine_tabv.
  rewrite (mapM_is _ _ _ (fun '(m, is) => map (fun '(row, cs) => map (fun c => match class_preact (new_matrix initial (n_name n) (str "input" ++ str "/W") 0 size (n_size n)) (new_bias initial (n_name n) (str "input" ++ str "/b") (n_size n)) row c with Ok z => z | Err _ => zero end) cs) (combine m is))).
  - f_equal. rewrite map_tabv. apply tabv_ext. intros t Ht. unfold tabm. rewrite combine_tabv, map_tabv. apply tabv_ext. intros s Hs.
    apply map_ext_in. intros c Hc. rewrite class_preact_is; [now rewrite (rd_score _ _ _ R)|]. rewrite (rd_size _ _ _ R).
    exact (nth_cells _ (fun c => c < num_classes v) ids t s c BI Hc).
  - intros [m is] Hi. apply In_nth_error in Hi as [t Et]. assert (Ht : t < T) by (rewrite <- (tabv_length _ T (fun t => (tabm N size (x t), tabv N (fun s => nth s (nth t ids []) [])))); apply nth_error_Some; unfold tabm in *; congruence).
    rewrite tabv_nth in Et by exact Ht. apply mapM_is. injection Et as <- <-. intros [row cs] Hi. unfold tabm in Hi. rewrite combine_tabv in Hi. apply In_nth_error in Hi as [s Es].
    assert (Hs : s < N) by (rewrite <- (tabv_length _ N (fun s => (tabv size (x t s), nth s (nth t ids []) []))); apply nth_error_Some; congruence).
    rewrite tabv_nth in Es by exact Hs. injection Es as <- <-. apply mapM_is. intros c Hc. rewrite class_preact_is; [reflexivity|]. rewrite (rd_size _ _ _ R).
    exact (nth_cells _ (fun c => c < num_classes v) ids t s c BI Hc).
Qed.
Lemma with_repeat X Y Z (g : X -> Y -> result Z) c (m : list X) : mapM (fun r => g r c) m = mapM (fun '(r, c) => g r c) (combine m (repeat c (length m))).
Proof. induction m as [|r m IH]; cbn [mapM combine repeat length]; [reflexivity|]. now rewrite IH. Qed.
Lemma target_seq_preact_is (ids : list (list nat)) : length ids = T -> Forall (Forall (fun c => c < num_classes v)) ids ->
  target_seq_preact n (tab T N size x) ids = Ok (tabm T N (fun t s => map (score t s) (nth t ids []))).
Proof.
  intros LI BI. transitivity (target_preact n (tab T N size x) (map (fun cs => repeat cs N) ids)).
  - unfold target_seq_preact, target_preact. destruct (output_weights n) as [[w bb]|]; cbn [bind]; [|reflexivity].
    assert (FR : Forall (fun row => length row = N) (tab T N size x)) by (apply Forall_forall; intros row I; unfold tab, tabm, tabv in I; apply in_map_iff in I; destruct I as [t [E _]]; subst row; now rewrite map_length, seq_length).
    clear -FR. revert ids. induction FR as [|row m LR FR IH]; intros [|cs ids]; cbn [combine map mapM]; try reflexivity.
    rewrite (with_repeat _ _ _ (fun row cs => mapM (class_preact w bb row) cs)), LR. now rewrite IH.
  - rewrite target_preact_is.
    + f_equal. apply tabm_ext. intros t s Ht Hs. f_equal. rewrite (nth_indep _ [] (repeat [] N)) by (rewrite map_length; lia). rewrite (map_nth (fun cs => repeat cs N)). clear -Hs.
      revert s Hs; induction N as [|k IH]; intros [|s] Hs; cbn [repeat nth]; try lia; [reflexivity|]. apply IH. lia.
    + split; [now rewrite map_length|]. apply Forall_forall. intros r Hr. apply in_map_iff in Hr as (cs & <- & _). apply repeat_length.
    + apply Forall_forall. intros r Hr. apply in_map_iff in Hr as (cs & <- & Hc). apply Forall_forall. intros c' Hc'. apply repeat_spec in Hc' as ->. rewrite Forall_forall in BI. auto.
Qed.
Lemma target_list_preact_is (ids : list nat) : Forall (fun c => c < num_classes v) ids ->
  target_list_preact n (tab T N size x) ids = Ok (tabm T N (fun t s => map (score t s) ids)).
Proof.
  intros BI. transitivity (target_seq_preact n (tab T N size x) (repeat ids T)).
  - unfold target_seq_preact, target_list_preact. destruct (output_weights n) as [[w bb]|]; cbn [bind]; [|reflexivity].
    etransitivity; [exact (with_repeat _ _ _ (fun m cs => mapM (fun row => mapM (class_preact w bb row) cs) m) ids (tab T N size x))|].
    assert (LT : length (tab T N size x) = T) by apply tabv_length. now rewrite LT.
  - rewrite target_seq_preact_is.
    + f_equal. apply tabm_ext. intros t s Ht Hs. f_equal. clear -Ht. revert t Ht; induction T as [|k IH]; intros [|t] Ht; cbn [repeat nth]; try lia; [reflexivity|]. apply IH. lia.
    + apply repeat_length.
    + apply Forall_forall. intros c' Hc'. now apply repeat_spec in Hc' as ->.
Qed.
End One.
End Nets.
