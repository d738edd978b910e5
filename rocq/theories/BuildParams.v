(** What evaluation requires of a description, and the dimensions of the parameters. *)
From Verif Require Import Base BaseLib ListLib Strings NumStr VocabModel ParamModel NetModel NetSpec
  DeviceModel DeviceSpec DeviceProofs DeviceNet DeviceProps OutputModel BuildModel BuildSpec BuildShape BuildLayers BuildNet.
Local Open Scope nat_scope.

Section Needs.
Context {A : arith}.
Implicit Types (outs : list (value A * nat)) (m : mode A).

(** ** A layer that can be evaluated has inputs of the right kind *)
Lemma found outs inputs ins : mapM (py_index outs) inputs = Ok ins -> Forall2 (fun i o => nth_error outs i = Some o) inputs ins.
Proof.
  intro H. apply mapM_inv in H. eapply F2_impl; [|exact H]. intros i o E. cbn beta in E. unfold py_index in E. destruct (nth_error outs i); congruence.
Qed.
Lemma features_needs outs inputs ins fs : mapM (py_index outs) inputs = Ok ins -> mapM (fun v : value A * nat => features (fst v)) ins = Ok fs ->
  (fs <> [] -> inputs <> []) /\ forall i, In i inputs -> exists o, nth_error outs i = Some o /\ is_ids (fst o) = false.
Proof.
  intros H G. apply found in H. apply mapM_inv in G. split.
  - intros Hn ->. inversion H; subst. inversion G; subst. contradiction.
  - revert fs G. induction H as [|i o is os Hi _ IH]; intros fs G j Hj; [contradiction|]. inversion G as [|? f ? fs' Hf G']; subst.
    destruct Hj as [<-|Hj]; [|eapply IH; eauto]. exists o. split; [exact Hi|]. destruct (fst o); [discriminate|reflexivity].
Qed.
Lemma layer_input_needs outs inputs ins x : mapM (py_index outs) inputs = Ok ins ->
  (do fs <- mapM (fun v : value A * nat => features (fst v)) ins; concat_features fs) = Ok x ->
  inputs <> [] /\ forall i, In i inputs -> exists o, nth_error outs i = Some o /\ is_ids (fst o) = false.
Proof.
  intros H G. destruct (mapM _ ins) as [fs|] eqn:E; cbn [bind] in G; [|discriminate]. destruct (features_needs _ _ _ _ H E) as [P Q]. split; [|exact Q].
  apply P. intros ->. discriminate.
Qed.
Lemma layer_needs m b outs i j l x st : eval_layer m b outs i j l = Ok (x, st) ->
  fits outs (l_kind l) (l_inputs l) /\ is_ids x = input_kind (l_kind l).
Proof.
  unfold eval_layer. destruct (mapM _ (l_inputs l)) as [ins|] eqn:E; cbn [bind]; [|discriminate].
  destruct (l_kind l) eqn:K; cbn [fits input_kind].
  1-2: intro H; injection H as <- <-; split; [exact I|reflexivity].
  1: { destruct ins as [|[[ids|?] s] [|? ?]]; try discriminate. destruct (mapM _ (l_devices l)) as [ps|]; cbn [bind]; [|discriminate].
       destruct (concat_features ps); cbn [bind]; [|discriminate]. intro H. injection H as <- <-. split; [|reflexivity].
       apply found in E. inversion E as [|k ? ks ? Hk E' E1 E2]; subst. inversion E'; subst. exists k, (IDs ids, s). auto. }
  all: try (match goal with |- bind ?z _ = _ -> _ => destruct z as [y|] eqn:EX; cbn [bind]; [|discriminate] end;
    match type of EX with bind (mapM (fun v => features (fst v)) _) _ = _ => pose proof (layer_input_needs _ _ _ _ E EX) as P end;
    intro H; split; [exact P|]; clear - H;
    repeat match type of H with
    | bind ?z _ = _ => destruct z; cbn [bind] in H; [|discriminate]
    | match ?mm with Minibatch => _ | Step _ => _ end = _ => destruct mm; try discriminate
    | (let (_, _) := ?z in _) = _ => destruct z
    end; injection H as <- <-; reflexivity).
  - destruct m; [|discriminate]. destruct ins as [|[[?|y] s] [|? ?]]; try discriminate. destruct (tensor_conv1d _ _ _ _ _); cbn [bind]; [|discriminate]. intro H. injection H as <- <-.
    split; [|reflexivity]. apply found in E. inversion E as [|k ? ks ? Hk E' E1 E2]; subst. inversion E'; subst. split; [discriminate|]. intros q [<-|[]]. exists (Features y, s). auto.
  - destruct (mapM _ ins) as [xs|] eqn:EX; cbn [bind]; [|discriminate]. destruct (mapM _ (combine _ xs)) as [ts|] eqn:ET; cbn [bind]; [|discriminate].
    destruct (sum_tensors ts) as [t|] eqn:ES; cbn [bind]; [|discriminate]. intro H. injection H as <- <-. split; [|reflexivity].
    assert (EF : exists fs, mapM (fun v : value A * nat => features (fst v)) ins = Ok fs /\ length fs = length xs).
    { clear - EX. revert xs EX. induction ins as [|v ins IH]; intros xs; cbn [mapM]; [intro H; injection H as <-; exists []; auto|].
      destruct (features (fst v)) as [f|]; cbn [bind]; [|discriminate]. destruct (mapM _ ins) as [r|]; cbn [bind]; [|discriminate]. intro H. injection H as <-.
      destruct (IH r eq_refl) as (fs & -> & L). cbn [bind]. exists (f :: fs). cbn. auto. }
    destruct EF as (fs & EF & L). destruct (features_needs _ _ _ _ E EF) as [P Q]. split; [|exact Q]. apply P. intros ->. destruct xs; [|discriminate]. cbn in ET. injection ET as <-. discriminate.
Qed.

(** ** The same for the layers of a network *)
Definition same_kind' (d : description A) (o : value A * nat) : Prop := is_ids (fst o) = input_kind (d_kind d).
Lemma F2_nth' X Y (R : X -> Y -> Prop) l (k : list Y) i y : Forall2 R l k -> nth_error k i = Some y -> exists x, nth_error l i = Some x /\ R x y.
Proof. intros H. revert i. induction H as [|a c l k Hac _ IH]; intros [|i] E; cbn in *; try discriminate; [injection E as ->; eauto|auto]. Qed.
Lemma outs_fits earlier outs k inputs : Forall2 same_kind' earlier outs -> fits outs k inputs -> fits_desc earlier k inputs.
Proof.
  intros S H. assert (G : forall i o c, nth_error outs i = Some o -> is_ids (fst o) = c -> exists e, nth_error earlier i = Some e /\ input_kind (d_kind e) = c).
  { intros i o c E K. destruct (F2_nth' _ _ _ _ _ _ _ S E) as (e & Ee & Ke). exists e. split; [exact Ee|]. unfold same_kind' in Ke. congruence. }
  unfold fits, fits_desc in *. destruct k; try exact I.
  1: { destruct H as (i & o & Ei & Eo & K). destruct (G i o _ Eo K) as (e & Ee & Ke). eauto. }
  all: destruct H as [H1 H2]; (split; [exact H1|]); intros i Hi; destruct (H2 i Hi) as (o & Eo & K); eapply G; eauto.
Qed.
Lemma layers_need m b ds : forall earlier outs i j ls outs' st, Forall2 same_kind' earlier outs ->
  create_layers (map d_size earlier) ds = Ok ls -> eval_layers m b outs i j ls = Ok (outs', st) ->
  all_fit earlier ds /\ Forall2 same_kind' (earlier ++ ds) outs'.
Proof.
  induction ds as [|d ds IH]; intros earlier outs i j ls outs' st S; cbn [create_layers all_fit].
  - intro H. injection H as <-. cbn [eval_layers]. intro H. injection H as <- <-. rewrite app_nil_r. auto.
  - destruct (create_layer _ d) as [l|] eqn:CL; cbn [bind]; [|discriminate]. destruct (create_layers _ ds) as [r|] eqn:CR; cbn [bind]; [|discriminate].
    intro H. injection H as <-. cbn [eval_layers]. destruct (eval_layer _ _ _ _ _ l) as [[x st0]|] eqn:E; cbn [bind]; [|discriminate].
    destruct (eval_layers _ _ _ _ _ r) as [[o' st1]|] eqn:ER; cbn [bind]; [|discriminate]. intro H. injection H as <- <-.
    destruct (layer_needs _ _ _ _ _ _ _ _ E) as [F K]. destruct (created_layer _ _ _ CL) as (? & _ & EL & _). rewrite EL in F, K, ER. cbn [l_kind l_inputs] in F, K.
    destruct (IH (earlier ++ [d])%list (outs ++ [(x, l_size l)])%list (i + 1) (j + length (state_sizes l)) r o' st1) as [P Q].
    + apply Forall2_app; [exact S|]. constructor; [exact K|constructor].
    + rewrite map_app. exact CR.
    + rewrite <- EL in ER. exact ER.
    + rewrite <- app_assoc in Q. split; [|exact Q]. split; [|exact P]. eapply outs_fits; eauto.
Qed.
Lemma network_needs ds o n : create_network ds o = Ok n ->
  ((exists m b r, eval_network n m b = Ok r) \/ (exists b t r, target_probs n b t = Ok r)) ->
  all_fit [] ds /\ o_inputs o <> [] /\ forall i, In i (o_inputs o) -> exists e, nth_error ds i = Some e /\ input_kind (d_kind e) = false.
Proof.
  intros C H. destruct (created_network _ _ _ C) as (ls & CL & EN & _).
  assert (G : exists m b outs st ins x, eval_layers m b [] 0 0 ls = Ok (outs, st) /\ mapM (py_index outs) (o_inputs o) = Ok ins /\
    (do fs <- mapM (fun v : value A * nat => features (fst v)) ins; concat_features fs) = Ok x).
  { rewrite EN in H. unfold eval_network, target_probs, eval_targets in H. cbn [n_layers n_inputs] in H. destruct H as [(m & b & r & H)|(b & t & r & H)].
    - exists m, b. destruct (eval_layers _ _ _ _ _ _) as [[outs st]|]; cbn [bind] in H; [|discriminate]. exists outs, st. destruct (mapM _ (o_inputs o)) as [ins|] eqn:EI; cbn [bind] in H; [|discriminate].
      exists ins. destruct (mapM _ ins) as [fs|] eqn:EF; cbn [bind] in *; [|discriminate]. destruct (concat_features fs) as [x|] eqn:EX; cbn [bind] in H; [|discriminate]. exists x. auto.
    - exists Minibatch, b. destruct (eval_layers _ _ _ _ _ _) as [[outs st]|]; cbn [bind] in H; [|discriminate]. exists outs, st. destruct (mapM _ (o_inputs o)) as [ins|] eqn:EI; cbn [bind] in H; [|discriminate].
      exists ins. destruct (mapM _ ins) as [fs|] eqn:EF; cbn [bind] in *; [|discriminate]. destruct (concat_features fs) as [x|] eqn:EX; cbn [bind] in H; [|discriminate]. exists x. auto. }
  destruct G as (m & b & outs & st & ins & x & E & EI & EX). destruct (layers_need m b ds [] [] 0 0 ls outs st (Forall2_nil _) CL E) as [F S]. split; [exact F|].
  destruct (layer_input_needs _ _ _ _ EI EX) as [P Q]. split; [exact P|]. intros i Hi. destruct (Q i Hi) as (q & Eq & Kq). destruct (F2_nth' _ _ _ _ _ _ _ S Eq) as (e & Ee & Ke).
  exists e. split; [exact Ee|]. unfold same_kind' in Ke. congruence.
Qed.
Lemma devices_need initial v ds o n : create_network ds o = Ok n -> descs_ok initial v [] ds -> output_ok initial v ds o ->
  ((exists m b r, eval_network n m b = Ok r) \/ (exists b t r, target_probs n b t = Ok r)) -> Forall works_on_devices ds /\ output_works_on_devices o.
Proof.
  intros C D OO H.
  assert (Z : (forall m b, exists e, eval_network n m b = Err e) /\ (forall b t, exists e, target_probs n b t = Err e) -> False).
  { intros [P Q]. destruct H as [(m & b & r & H)|(b & t & r & H)]; [destruct (P m b) as (e & He)|destruct (Q b t) as (e & He)]; congruence. }
  split.
  - apply Forall_forall. intros d Hd. apply in_split in Hd as (ds1 & ds2 & ->). unfold works_on_devices. destruct (d_kind d) eqn:K; try exact I.
    assert (V : exists w bias, d_values d = Convolution w bias).
    { clear - D K. revert D. generalize (@nil (description A)). induction ds1 as [|d1 ds1 IH]; intros e; cbn [app descs_ok]; intros [D1 D2]; [|eapply IH; eauto].
      destruct D1 as [(? & _ & V & _) _ _ _]. rewrite K in V. cbn [new_values] in V. eauto. }
    destruct V as (w & bias & V). destruct (list_eq_dec (fun x y : option pystr => ltac:(decide equality; apply pystr_eq_dec)) (d_devices d) [None]) as [E|E]; [exact E|].
    exfalso. apply Z. exact (C47_glu_named_devices_refuted A ds1 ds2 d o n _ w bias K V E C).
  - unfold output_works_on_devices. destruct OO as (_ & sizes & _ & OV). destruct (o_kind o) as [|l1 l2] eqn:K.
    + destruct (o_devices o) as [|[x|] [|? ?]] eqn:ED; cbn [length]; try (right; discriminate); [|left; reflexivity].
      exfalso. apply Z. exact (C47_softmax_one_named_device_refuted A ds o n x _ _ K OV ED C).
    + destruct OV as [_ OV]. destruct (list_eq_dec (fun x y : option pystr => ltac:(decide equality; apply pystr_eq_dec)) (o_devices o) [None]) as [E|E]; [exact E|].
      exfalso. apply Z. exact (C47_hsoftmax_named_devices_refuted A ds o n l1 l2 _ _ _ _ K OV E C).
Qed.

(** ** Parameters *)
Variable initial : pystr -> pystr -> nat -> nat -> nat -> num A.
Lemma in_firstn X n (l : list X) x : In x (firstn n l) -> In x l.
Proof. intro H. rewrite <- (firstn_skipn n l). apply in_app_iff. now left. Qed.
Lemma in_skipn X n (l : list X) x : In x (skipn n l) -> In x l.
Proof. intro H. rewrite <- (firstn_skipn n l). apply in_app_iff. now right. Qed.
Lemma rows_slice r range (w : list (list (num A))) : rows r w -> rows r (slice_range range w).
Proof. unfold rows, slice_range. rewrite !Forall_forall. intros H x Hx. apply H. eapply in_skipn, in_firstn, Hx. Qed.
Definition param_rows (r : nat) (p : param A) : Prop :=
  match p with Weight w => rows r w | Filters w | LevelWeight w => Forall (rows r) w | _ => True end.
Definition param_count (p : param A) : nat := match p with Filters w => length w | _ => 0 end.
Lemma part_rows r range p : param_rows r p -> param_rows r (part range p) /\ param_count (part range p) = param_count p.
Proof.
  destruct p; cbn [param_rows part param_count]; auto using rows_slice; intro H; (split; [|now rewrite ?map_length]); apply Forall_map; (eapply Forall_impl; [|exact H]); intros; now apply rows_slice.
Qed.
Lemma placed_rows devices ps layer name p r d q : placed devices ps (layer, name, true, p) -> param_rows r p -> In d devices ->
  get_param ps layer name d = Ok q -> param_rows r q /\ param_count q = param_count p.
Proof.
  cbn [placed negb]. intros [[-> H]|(_ & ranges & _ & F)] R Hd G.
  - destruct Hd as [<-|[]]. unfold get_param in G. rewrite H in G. injection G as <-. auto.
  - assert (X : exists range, dict_get (param_path layer name d) ps = Some (part range p)).
    { clear - F Hd. induction F as [|d0 r0 ds rs [_ H] _ IH]; [contradiction|]. destruct Hd as [<-|Hd]; [eauto|auto]. }
    destruct X as (range & X). unfold get_param in G. rewrite X in G. injection G as <-. now apply part_rows.
Qed.
Lemma placed_weight devices ps layer name (w : list (list (num A))) r d w' : placed devices ps (layer, name, true, Weight w) -> rows r w -> In d devices ->
  get_weight ps layer name d = Ok w' -> rows r w'.
Proof.
  intros P R Hd G. unfold get_weight in G. destruct (get_param ps layer name d) as [q|] eqn:E; cbn [bind] in G; [|discriminate].
  destruct (placed_rows _ _ _ _ _ r _ _ P R Hd E) as [X _]. destruct q; try discriminate. injection G as <-. exact X.
Qed.
Lemma placed_whole devices ps layer name (w : list (list (num A))) r w' : placed devices ps (layer, name, false, Weight w) -> rows r w ->
  get_weight ps layer name None = Ok w' -> rows r w'.
Proof.
  cbn [placed negb]. intros P R G. unfold get_weight, get_param in G. rewrite P in G. cbn [bind] in G. injection G as <-. exact R.
Qed.
Lemma combine_seq_in X (l : list X) i x k : nth_error l i = Some x -> In (k + i, x) (combine (seq k (length l)) l).
Proof.
  revert i k; induction l as [|y l IH]; intros [|i] k; cbn [length seq combine nth_error]; try discriminate.
  - intro H. injection H as ->. left. now rewrite Nat.add_0_r.
  - intro H. right. replace (k + S i) with (S k + i) by lia. now apply IH.
Qed.
Lemma created_weights sizes d l input_sizes : create_layer sizes d = Ok l -> mapM (py_index sizes) (d_inputs d) = Ok input_sizes ->
  d_values d = new_values initial (d_kind d) (d_name d) input_sizes (d_size d) -> check_inputs (d_kind d) input_sizes (d_size d) = Ok tt ->
  weights_match l input_sizes.
Proof.
  intros C EI V CH. destruct (created_layer _ _ _ C) as (sz & EI' & EL & P). rewrite EI in EI'. injection EI' as <-. rewrite V in P.
  unfold weights_match. set (ps := l_params l) in *. clearbody ps. subst l. cbn [l_kind l_devices l_params l_name l_size]. change total with sum.
  assert (R : forall layer count input size, let '(w, h, b) := recurrent_matrices initial layer count input size in
    Forall (placed (d_devices d) ps) (recurrent_params layer w h b) ->
    (forall dev w, In dev (d_devices d) -> get_weight ps layer (str "layer_input/W") dev = Ok w -> rows input w) /\
    (forall w, get_weight ps layer (str "step_input/W") None = Ok w -> rows size w)).
  { intros layer count input size. unfold recurrent_matrices, recurrent_params. intro F. inversion_clear F as [|? ? F1 F']. inversion_clear F' as [|? ? F2 F'']. inversion_clear F'' as [|? ? F3 _].
    split; intros.
    - eapply placed_weight; [exact F1|apply new_matrix_rows|eassumption|eassumption].
    - eapply placed_whole; [exact F2|apply new_matrix_rows|eassumption]. }
  assert (W : forall layer name i r c dev w, placed (d_devices d) ps (layer, name, true, Weight (new_matrix initial layer name i r c)) -> In dev (d_devices d) ->
    get_weight ps layer name dev = Ok w -> rows r w).
  { intros layer name i r c dev w P1 Hd G. eapply placed_weight; [exact P1|apply new_matrix_rows|exact Hd|exact G]. }
  destruct (d_kind d) eqn:K; cbn [new_values initial_params] in P; try exact I.
  - inversion_clear P as [|? ? P1 _]. intros dev w. exact (W _ _ _ _ _ _ _ P1).
  - inversion_clear P as [|? ? P1 _]. intros dev w. exact (W _ _ _ _ _ _ _ P1).
  - exact (R (d_name d) 4 (sum input_sizes) (d_size d) P).
  - exact (R (d_name d) 3 (sum input_sizes) (d_size d) P).
  - apply Forall_app in P as [P1 P2]. split; [exact (R _ 4 (sum input_sizes) (d_size d - d_size d / 2) P1)|exact (R _ 4 (sum input_sizes) (d_size d / 2) P2)].
  - apply Forall_app in P as [P1 P2]. split; [exact (R _ 3 (sum input_sizes) (d_size d - d_size d / 2) P1)|exact (R _ 3 (sum input_sizes) (d_size d / 2) P2)].
  - inversion_clear P as [|? ? P1 _]. cbn [check_inputs] in CH. destruct (sum input_sizes =? d_size d) eqn:E; [|discriminate]. apply Nat.eqb_eq in E. split; [|exact E].
    intros dev w. exact (W _ _ _ _ _ _ _ P1).
  - inversion_clear P as [|? ? P1 _]. intros dev w Hd G. unfold get_filters in G. destruct (get_param ps (d_name d) (str "input/W") dev) as [q|] eqn:E; cbn [bind] in G; [|discriminate].
    destruct (fun H => placed_rows _ _ _ _ _ (sum input_sizes) dev q P1 H Hd E) as [X Y].
    { cbn [param_rows]. unfold new_matrices. apply Forall_map, Forall_forall. intros i _. apply new_matrix_rows. }
    destruct q; try discriminate. injection G as <-. cbn [param_rows param_count] in X, Y. split; [|exact X]. rewrite Y. unfold new_matrices. now rewrite map_length, seq_length.
  - intros i size Hi Hs dev w. apply (W _ _ 0 _ (d_size d)). eapply F_in; [exact P|]. apply in_flat_map. exists (i, size). split.
    + exact (combine_seq_in _ _ i size 0 Hi).
    + destruct (Nat.eqb_spec size (d_size d)) as [E|_]; [contradiction|]. left. now rewrite (nth_error_nth _ _ 0 Hi).
  - exact (R (d_name d) 4 (sum input_sizes) (d_size d) P).
  - exact (R (d_name d) 3 (sum input_sizes) (d_size d) P).
  - apply Forall_app in P as [P1 P2]. split; [exact (R _ 4 (sum input_sizes) (d_size d - d_size d / 2) P1)|exact (R _ 4 (sum input_sizes) (d_size d / 2) P2)].
  - apply Forall_app in P as [P1 P2]. split; [exact (R _ 3 (sum input_sizes) (d_size d - d_size d / 2) P1)|exact (R _ 3 (sum input_sizes) (d_size d / 2) P2)].
Qed.

Lemma py_indices (sizes : list nat) inputs r : mapM (py_index sizes) inputs = Ok r -> Forall (fun i => i < length sizes) inputs /\ forall more, r = map (fun i => nth i (sizes ++ more) 0) inputs.
Proof.
  revert r; induction inputs as [|i inputs IH]; intros r; cbn [mapM]; [intro H; injection H as <-; split; [constructor|reflexivity]|].
  unfold py_index at 1. destruct (nth_error sizes i) as [s|] eqn:E; cbn [bind]; [|discriminate]. destruct (mapM _ inputs) as [q|]; cbn [bind]; [|discriminate]. intro H. injection H as <-.
  assert (L : i < length sizes) by (apply nth_error_Some; congruence). destruct (IH q eq_refl) as [F G]. split; [now constructor|]. intro more. cbn [map].
  rewrite (G more), app_nth1 by exact L. now rewrite (nth_error_nth _ _ 0 E).
Qed.
Lemma created_sizes ds : forall sizes ls, create_layers (A := A) sizes ds = Ok ls -> map l_size ls = map d_size ds.
Proof.
  induction ds as [|d ds IH]; intros sizes ls; cbn [create_layers]; [intro H; now injection H as <-|]. destruct (create_layer sizes d) as [l|] eqn:CL; cbn [bind]; [|discriminate].
  destruct (create_layers _ ds) as [r|] eqn:CR; cbn [bind]; [|discriminate]. intro H. injection H as <-. cbn [map]. destruct (created_layer _ _ _ CL) as (? & _ & -> & _). cbn [l_size]. f_equal. eauto.
Qed.
Lemma layers_match v ds : forall earlier ls k l, descs_ok initial v earlier ds -> create_layers (map d_size earlier) ds = Ok ls -> nth_error ls k = Some l ->
  Forall (fun i => i < length earlier + k) (l_inputs l) /\ weights_match l (map (fun i => nth i (map d_size (earlier ++ ds)) 0) (l_inputs l)).
Proof.
  induction ds as [|d ds IH]; intros earlier ls k l; cbn [descs_ok create_layers].
  - intros _ H. injection H as <-. destruct k; discriminate.
  - intros [[(sz & EI & V & CH) _ _ _] D]. destruct (create_layer _ d) as [l0|] eqn:CL; cbn [bind]; [|discriminate]. destruct (create_layers _ ds) as [r|] eqn:CR; cbn [bind]; [|discriminate].
    intro H. injection H as <-. destruct k as [|k]; cbn [nth_error]; intro Hk.
    + injection Hk as <-. destruct (created_layer _ _ _ CL) as (? & _ & EL & _). destruct (py_indices _ _ _ EI) as [F G]. rewrite map_length in F.
      assert (E : l_inputs l0 = d_inputs d) by now rewrite EL. rewrite E, Nat.add_0_r. split; [exact F|]. rewrite map_app, <- (G (map d_size (d :: ds))). eapply created_weights; eauto.
    + specialize (IH (earlier ++ [d])%list r k l D). rewrite map_app in IH. destruct (IH CR Hk) as [F M]. rewrite app_length in F. cbn [length] in F. rewrite <- app_assoc in M. cbn [app] in M.
      split; [|exact M]. eapply Forall_impl; [|exact F]. cbn. intros. lia.
Qed.
Lemma output_match v ds o n : create_network ds o = Ok n -> output_ok initial v ds o ->
  Forall (fun i => i < length ds) (n_inputs n) /\ output_weights_match n (total (map (fun i => nth i (map d_size ds) 0) (n_inputs n))).
Proof.
  intros C (_ & sz & EI & OV). destruct (created_network _ _ _ C) as (ls & _ & EN & P). set (ps := n_params n) in *. clearbody ps. subst n. cbn [n_inputs].
  destruct (py_indices _ _ _ EI) as [F G]. rewrite map_length in F. specialize (G []). rewrite app_nil_r in G. rewrite <- G. split; [exact F|].
  unfold output_weights_match. cbn [n_devices n_params n_name n_kind]. change total with sum. destruct (o_kind o) as [|l1 l2] eqn:K.
  - rewrite OV in P. cbn [output_params] in P. inversion_clear P as [|? ? P1 _]. split; [|discriminate]. intros dev w Hd GW. eapply placed_weight; [exact P1|apply new_matrix_rows|exact Hd|exact GW].
  - destruct OV as [_ OV]. rewrite OV in P. cbn [output_params] in P. inversion_clear P as [|? ? P1 P']. inversion_clear P' as [|? ? _ P'']. inversion_clear P'' as [|? ? P3 _]. split.
    + intros dev w Hd GW. eapply placed_weight; [exact P1|apply new_matrix_rows|exact Hd|exact GW].
    + intros _ _ dev w _ Hd GW. unfold get_level_weight in GW. destruct (get_param ps (o_name o) (str "level1/W") dev) as [q|] eqn:E; cbn [bind] in GW; [|discriminate].
      destruct (fun H => placed_rows _ _ _ _ _ (sum sz) dev q P3 H Hd E) as [X _].
      { cbn [param_rows]. unfold new_matrices. apply Forall_map, Forall_forall. intros i _. apply new_matrix_rows. }
      destruct q; try discriminate. injection GW as <-. exact X.
Qed.
End Needs.
