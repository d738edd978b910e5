(** Saving a language model and loading it. *)
From Coq Require Import ZArith Sorting.Permutation.
From Verif Require Import Base BaseLib ListLib Strings NumStr Dict VocabModel VocabSpec VocabProps ArchModel ArchSpec ArchProofs ArchProps ParamModel ParamSpec ParamProofs NetModel DeviceModel
  OutputModel BuildModel BuildProofs SavedModel SavedSpec SavedArrays SavedBuild SavedNetwork.
Local Open Scope nat_scope.
Local Open Scope list_scope.

(** ** The options of the inputs *)
Definition set_keys : list pystr := [str "size"; str "input_layers"; str "devices"].
Lemma input_options_other v o k : ~ In k set_keys -> oget (input_options v o) k = oget o k.
Proof.
  intro N. unfold input_options, oget, oset. rewrite !dict_get_set_other; [reflexivity| | |]; intros E; apply N; rewrite <- E; cbn; auto.
Qed.
Lemma key_other k : In k [str "type"; str "name"; str "activation"] -> ~ In k set_keys.
Proof. intros [<-|[<-|[<-|[]]]] [E|[E|[E|[]]]]; discriminate. Qed.
Lemma input_options_same v o o' : same_options (input_options v o) o' -> same_options (input_options v o) (input_options v o').
Proof.
  intros H k. change (oget (input_options v o) k = oget (input_options v o') k).
  assert (T : text o' (str "type") = text o (str "type")).
  { apply same_text. rewrite <- (input_options_other v o) by (apply key_other; cbn; auto). symmetry. apply H. }
  destruct (in_dec pystr_eq_dec k set_keys) as [I|N].
  - unfold input_options. rewrite T. unfold oget, oset. destruct (pystr_eq_dec (str "devices") k) as [<-|N1]; [now rewrite !dict_get_set_same|].
    rewrite !(dict_get_set_other _ _ (str "devices") k) by exact N1. destruct (pystr_eq_dec (str "input_layers") k) as [<-|N2]; [now rewrite !dict_get_set_same|].
    rewrite !(dict_get_set_other _ _ (str "input_layers") k) by exact N2. destruct (pystr_eq_dec (str "size") k) as [<-|N3]; [now rewrite !dict_get_set_same|].
    exfalso. destruct I as [I|[I|[I|[]]]]; contradiction.
  - rewrite (input_options_other v o') by exact N. apply H.
Qed.
Lemma input_options_dictionary v o : dictionary o -> dictionary (input_options v o).
Proof. intro D. unfold dictionary, input_options, oset in *. now repeat apply dict_set_nodup. Qed.
Lemma valid_input_options v a : valid a -> valid (with_input_options v a).
Proof.
  intros []. constructor; cbn; auto; [|destruct (a_inputs a); [contradiction|discriminate]].
  apply Forall_map. revert va_inputs. apply Forall_impl. apply input_options_dictionary.
Qed.
Lemma at_most_input_options v a : at_most 10 a -> at_most 10 (with_input_options v a).
Proof.
  intros []. constructor; cbn; auto; [now rewrite map_length|]. apply Forall_map. revert am_input_lists. apply Forall_impl. intros o H k vs E.
  change (oget (input_options v o) k = Some (Many vs)) in E. unfold input_options, oget, oset in E.
  destruct (pystr_eq_dec (str "devices") k) as [<-|N1]; [rewrite dict_get_set_same in E; injection E as <-; cbn; lia|].
  rewrite (dict_get_set_other _ _ (str "devices") k) in E by exact N1. destruct (pystr_eq_dec (str "input_layers") k) as [<-|N2]; [rewrite dict_get_set_same in E; injection E as <-; cbn; lia|].
  rewrite (dict_get_set_other _ _ (str "input_layers") k) in E by exact N2. destruct (pystr_eq_dec (str "size") k) as [<-|N3]; [rewrite dict_get_set_same in E; discriminate|].
  rewrite dict_get_set_other in E by exact N3. exact (H k vs E).
Qed.

(** [b] describes the same network as [a], of which the inputs have been changed. *)
Record described_alike (a b : architecture) : Prop := {
  da_inputs : Forall2 input_agrees (a_inputs a) (a_inputs b);
  da_layers : Forall2 same_options (a_layers a) (a_layers b);
  da_output : a_output b = a_output a }.
Lemma same_alike v a b : same_architecture (with_input_options v a) b -> described_alike a b.
Proof.
  intros [S1 S2 S3]. constructor; [|exact S2|auto]. cbn [a_inputs with_input_options] in S1. remember (a_inputs b) as l eqn:E. clear E. revert l S1.
  induction (a_inputs a) as [|o os IH]; intros l S; inversion S; subst; constructor; auto. intros k I. rewrite <- (input_options_other v o) by now apply key_other. auto.
Qed.
Lemma same_input_options v a b : same_architecture (with_input_options v a) b -> same_architecture (with_input_options v a) (with_input_options v b).
Proof.
  intros [S1 S2 S3]. constructor; [|exact S2|exact S3]. cbn [a_inputs with_input_options] in *. remember (a_inputs b) as l eqn:E. clear E. revert l S1.
  induction (a_inputs a) as [|o os IH]; intros l S; inversion S; subst; constructor; auto. now apply input_options_same.
Qed.

(** ** Loaded options that pass the check are the same *)
Lemma loaded_covered o o' k : 
  match option_value o k with
  | None => option_value o' k = None
  | Some (One v) => option_value o' k = Some (One v)
  | Some (Many vs) => exists vs', option_value o' k = Some (Many vs') /\ reordered eq vs vs'
  end ->
  (forall v, option_value o' k = Some v -> match v with One _ => option_value o k = Some v
     | Many vs => (exists rest, option_value o k = Some (Many (vs ++ rest))) \/ (k = str "devices" /\ vs = [] /\ forall ws, option_value o k <> Some (Many ws)) end) ->
  option_value o k = option_value o' k.
Proof.
  intros L C. destruct (option_value o k) as [[v|vs]|]; [congruence| |congruence]. destruct L as (vs' & E & order & [P _] & F). rewrite E in *. specialize (C _ eq_refl).
  apply Permutation_length in P. rewrite seq_length in P. apply Forall2_len in F. cbn in C. destruct C as [(rest & R)|(_ & _ & R)]; [|exfalso; eapply R; reflexivity].
  injection R as ->. rewrite app_length in P. destruct rest as [|x rest]; [now rewrite app_nil_r|]. cbn [length] in P. lia.
Qed.
Lemma loaded_layers l l' : Forall2 loaded_options l l' -> covered_list l' l -> Forall2 same_options l l'.
Proof.
  intros F. induction F as [|o o' l l' L F IH]; intro C; constructor.
  - intro k. apply loaded_covered; [apply L|]. destruct (C 0 o' eq_refl) as (q & Eq & Cq). injection Eq as <-. apply Cq.
  - apply IH. intros i q Hq. apply (C (S i) q Hq).
Qed.
Lemma nodup_index (l : list pystr) i j x : NoDup l -> nth_error l i = Some x -> nth_error l j = Some x -> i = j.
Proof. intros D Hi Hj. eapply NoDup_nth_error; [exact D|apply nth_error_Some; congruence|congruence]. Qed.
Lemma loaded_inputs v os bs names : NoDup names ->
  Forall2 (fun o x => text o (str "name") = Ok x) os names ->
  reordered loaded_options (map (input_options v) os) bs -> covered_list (map (input_options v) bs) (map (input_options v) os) ->
  Forall2 input_agrees os bs.
Proof.
  intros D N (order & [P _] & F) C.
  assert (Lo : length order = length os) by (apply Permutation_length in P; now rewrite seq_length, map_length in P).
  assert (Lb : length bs = length os) by (rewrite <- Lo; symmetry; eapply Forall2_len; exact F).
  assert (G : forall i o y, nth_error os i = Some o -> nth_error bs i = Some y -> input_agrees o y).
  { intros i o y Ho Hy. destruct (nth_error order i) as [j|] eqn:Ej; [|apply nth_error_None in Ej; assert (i < length os) by (apply nth_error_Some; congruence); lia].
    assert (X : exists x, nth_error (map (input_options v) os) j = Some x /\ loaded_options x y).
    { clear - F Ej Hy. revert i Ej Hy. induction F as [|k z ks zs H F IH]; intros [|i]; cbn; try discriminate; [intros [= <-] [= <-]; exact H|apply IH]. }
    destruct X as (x & Ex & Lx). rewrite nth_error_map in Ex. destruct (nth_error os j) as [oj|] eqn:Eo; [|discriminate]. injection Ex as <-.
    destruct (C i (input_options v y)) as (w & Ew & Cw); [now rewrite nth_error_map, Hy|]. rewrite nth_error_map, Ho in Ew. injection Ew as <-.
    assert (Nx : forall i o, nth_error os i = Some o -> exists x, nth_error names i = Some x /\ option_value o (str "name") = Some (One (SStr x))).
    { clear - N. induction N as [|q x os names E N IH]; intros [|i] o; cbn; try discriminate; [|apply IH]. intros [= <-]. exists x. split; [reflexivity|]. now apply text_inv. }
    destruct (Nx _ _ Ho) as (x & Hx & Vx). destruct (Nx _ _ Eo) as (z & Hz & Vz).
    assert (K : forall k, In k [str "type"; str "name"; str "activation"] -> forall o, option_value (input_options v o) k = option_value o k).
    { intros k I q. now apply (input_options_other v q k), key_other. }
    assert (Y : option_value y (str "name") = Some (One (SStr z))).
    { specialize (Lx (str "name")). rewrite K in Lx by (cbn; auto). rewrite Vz in Lx. exact Lx. }
    assert (Z : x = z).
    { specialize (Cw (str "name") (One (SStr z))). rewrite !K in Cw by (cbn; auto). specialize (Cw Y). change (option_value o (str "name") = Some (One (SStr z))) in Cw. congruence. }
    subst z. assert (i = j) by (eapply nodup_index; eauto). subst j. rewrite Ho in Eo. injection Eo as <-.
    intros k I. apply loaded_covered.
    - specialize (Lx k). rewrite K in Lx by exact I. exact Lx.
    - intros w Hw. specialize (Cw k w). rewrite !K in Cw by exact I. specialize (Cw Hw). exact Cw. }
  clear - G Lb. revert bs G Lb. induction os as [|o os IH]; intros [|y bs] G L; try discriminate; constructor.
  - apply (G 0); reflexivity.
  - apply IH; [|now injection L]. intros i q z. apply (G (S i)).
Qed.

Section Main.
Context {A : arith}.
Notation num := (num A).
Variable parse_int : pystr -> result Z.
Variable dropout_scale : option ArchModel.value -> result num.
Notation build := (build parse_int dropout_scale).
Notation new_network := (new_network parse_int dropout_scale).
Notation from_file := (from_file parse_int dropout_scale).

Lemma input_names initial default exclude a v n : build initial default exclude a v = Ok n ->
  exists names, NoDup names /\ Forall2 (fun o x => text o (str "name") = Ok x) (a_inputs a) names.
Proof.
  unfold BuildModel.build. destruct (foldM _ (a_inputs a) []) as [ins|] eqn:EI; cbn [bind]; [|discriminate]. intros _.
  destruct (fold_added (fun _ o => input_layer v o) _ _ _ EI) as (ds & E & AD). cbn [app] in E. subst ins. exists (map d_name ds).
  assert (G : forall os e, added (fun _ o => input_layer v o) e ds os -> NoDup (map d_name e) -> NoDup (map d_name e ++ map d_name ds) /\
     Forall2 (fun o x => text o (str "name") = Ok x) os (map d_name ds)).
  { clear. induction ds as [|d ds IH]; intros [|o os] e; cbn [added map]; try tauto; [rewrite app_nil_r; auto|].
    intros (E & Nn & G) D. destruct (IH os (e ++ [d]) G) as [I1 I2]; [rewrite map_app; now apply nodup_snoc|].
    rewrite map_app, <- app_assoc in I1. split; [exact I1|]. constructor; [|exact I2].
    unfold input_layer in E. repeat (match type of E with bind ?z _ = _ => destruct z as [?|] eqn:?; cbn [bind] in E; [|discriminate] | (let '(_, _) := ?p in _) = _ => destruct p end).
    now injection E as <-. }
  destruct (G _ [] AD (NoDup_nil _)) as [G1 G2]. split; [exact G1|exact G2].
Qed.

Lemma other_exclude e e' (n0 n n2 : network A) : again e e' n0 n2 -> other_values n0 n -> other_values n2 (with_exclude_unk e' n).
Proof.
  intros (O & X & X') O'. apply other_sym in O. pose proof (other_trans _ _ _ O O') as []. constructor; auto.
Qed.

(** ** What loading does when the description is the same *)
Lemma load_alike initial initial' default exclude exclude' a b v n0 n st (f : model_file A) :
  plain_names a -> build initial default exclude a v = Ok n0 -> other_values n0 n -> described_alike a b ->
  vocab_from_state (f_vocabulary f) = Ok v -> f_architecture f = st -> from_state st = Ok b ->
  is_dict (f_arrays f) -> (forall path x, In (path, x) (vars n) -> In (path, x) (f_arrays f)) ->
  from_file initial' default exclude' f = do _ <- check_state (with_input_options v b) st; Ok (mkModel v (with_input_options v b) (with_exclude_unk exclude' n)).
Proof.
  intros PN B O [D1 D2 D3] EV <- EA Df Hf. destruct (build_fine _ _ _ _ _ _ _ _ PN B) as [ND R].
  pose proof (build_again parse_int dropout_scale initial initial' default exclude exclude' a b v D1 D2 D3) as S. rewrite B in S.
  destruct (build initial' default exclude' b v) as [n2|] eqn:B2; [|contradiction S]. cbn [sim] in S. pose proof (other_exclude _ _ _ _ _ S O) as O2.
  unfold SavedModel.from_file, SavedModel.new_network. rewrite EV. cbn [bind]. rewrite EA. cbn [bind]. rewrite B2. cbn [bind].
  destruct (read_arrays n2 (with_exclude_unk exclude' n) (f_arrays f) O2 Df Hf) as (new & En & Es).
  unfold read_network. cbn [m_network m_architecture m_vocabulary]. rewrite En.
  rewrite Es by exact (regular_other _ _ O R). reflexivity.
Qed.

(** ** Saving *)
Lemma writes (v : vocabulary) a (n0 : network A) history : valid a -> NoDup (parameter_paths n0) -> Forall (other_values n0) history -> forall f,
  fit n0 (f_arrays f) -> (f_architecture f = None \/ f_architecture f = ArchModel.get_state a None) ->
  exists f', foldM (fun f n => write_network (mkModel v a n) f) history f = Ok f' /\ fit n0 (f_arrays f') /\ f_vocabulary f' = f_vocabulary f /\
    (f_architecture f' = None \/ f_architecture f' = ArchModel.get_state a None) /\
    (forall path x, ~ In path (parameter_paths n0) -> In (path, x) (f_arrays f') <-> In (path, x) (f_arrays f)) /\
    forall h n, history = h ++ [n] -> f_architecture f' = ArchModel.get_state a None /\ forall path x, In (path, x) (vars n) -> In (path, x) (f_arrays f').
Proof.
  intros V ND F. induction F as [|n h O F IH]; intros f Ff Fa; cbn [foldM].
  - exists f. split; [reflexivity|]. split; [exact Ff|]. split; [reflexivity|]. split; [exact Fa|]. split; [tauto|]. intros [|] ? E; discriminate.
  - unfold write_network at 1. cbn [m_network m_architecture]. destruct (write_arrays _ _ _ ND O Ff) as (s & Es & Fs & Os). rewrite Es. cbn [bind].
    assert (Ea : ArchModel.get_state a (f_architecture f) = ArchModel.get_state a None).
    { destruct Fa as [->| ->]; [reflexivity|]. exact (C50_save_again a 1 V). }
    rewrite Ea. edestruct (IH (mkFile (f_vocabulary f) (ArchModel.get_state a None) s)) as (f' & Ef & H1 & H2 & H3 & H4 & H5); [exact Fs|right; reflexivity|].
    cbn [f_vocabulary f_architecture f_arrays] in *. exists f'. split; [exact Ef|]. split; [exact H1|]. split; [exact H2|]. split; [exact H3|]. split.
    { intros path x Np. rewrite H4 by exact Np. destruct Os as [_ Os]. rewrite Os, vars_paths, (other_paths _ _ O).
      split; [intros [I|I]; [|tauto]|tauto]. exfalso. apply Np. rewrite <- (other_paths _ _ O), <- vars_paths. eapply in_paths. exact I. }
    intros [|n' h'] k E.
    + cbn [app] in E. injection E as -> ->. cbn [foldM] in Ef. injection Ef as <-. cbn [f_architecture f_arrays]. split; [reflexivity|].
      intros path x I. apply Os. now left.
    + cbn [app] in E. injection E as -> ->. now apply (H5 h' k).
Qed.
Lemma saved initial default exclude a v n0 history n extra : reachable_vocab v -> valid a -> plain_names a ->
  build initial default exclude a v = Ok n0 -> Forall (other_values n0) history -> other_values n0 n ->
  is_dict extra -> (forall path, In path (paths extra) -> ~ In path (parameter_paths n0)) ->
  exists f, save v (with_input_options v a) (history ++ [n]) (mkFile None None (extra : list (pystr * array num))) = Ok f /\
    vocab_from_state (f_vocabulary f) = Ok v /\ f_architecture f = ArchModel.get_state (with_input_options v a) None /\
    is_dict (f_arrays f) /\ (forall path x, In (path, x) (vars n) -> In (path, x) (f_arrays f)) /\
    (forall path x, In (path, x) extra -> In (path, x) (f_arrays f)).
Proof.
  intros RV V PN B Fh O De Ne. destruct (build_fine _ _ _ _ _ _ _ _ PN B) as [ND _]. destruct (C14_saving_succeeds v RV) as (vs & Ev).
  unfold save, write_vocabulary. cbn [f_vocabulary f_architecture f_arrays]. rewrite Ev. cbn [bind].
  destruct (writes v (with_input_options v a) n0 (history ++ [n]) (valid_input_options v a V) ND) with (f := mkFile (Some vs) (@None h5_arch) extra)
    as (f & Ef & [H1 _] & H2 & _ & H4 & H5).
  - apply Forall_app. auto.
  - split; [exact De|]. intros path x y Hx Hy. exfalso. apply (Ne path); [eapply in_paths; exact Hy|]. rewrite <- vars_paths. eapply in_paths. exact Hx.
  - now left.
  - destruct (H5 history n eq_refl) as [H6 H7]. exists f. split; [exact Ef|]. cbn [f_vocabulary f_arrays] in H2, H4. rewrite H2. split.
    + eapply C14_state_round_trip; [exact RV|exact Ev|reflexivity].
    + split; [exact H6|]. split; [exact H1|]. split; [exact H7|]. intros path x I. apply H4; [|exact I]. apply Ne. eapply in_paths. exact I.
Qed.

(** ** Loading a saved model *)
Lemma load_same initial initial' default exclude exclude' a v n0 n f : valid a -> at_most 10 a -> plain_names a ->
  build initial default exclude a v = Ok n0 -> other_values n0 n ->
  vocab_from_state (f_vocabulary f) = Ok v -> f_architecture f = ArchModel.get_state (with_input_options v a) None ->
  is_dict (f_arrays f) -> (forall path x, In (path, x) (vars n) -> In (path, x) (f_arrays f)) ->
  exists b, from_file initial' default exclude' f = Ok (mkModel v b (with_exclude_unk exclude' n)) /\ same_architecture (with_input_options v a) b.
Proof.
  intros V AM PN B O EV EA Df Hf. pose proof (valid_input_options v a V) as Va. destruct (C50_load _ Va) as (b & Eb & Vb & _).
  destruct (C50_load_same _ Va (at_most_input_options v a AM)) as (b' & Eb' & Sb & _). rewrite Eb in Eb'. injection Eb' as <-.
  pose proof (load_alike initial initial' default exclude exclude' a b v n0 n _ f PN B O (same_alike _ _ _ Sb) EV EA Eb Df Hf) as L.
  exists (with_input_options v b). pose proof (same_input_options v a b Sb) as [S1 S2 S3]. split; [|constructor; assumption]. rewrite L.
  assert (C : check_state (with_input_options v b) (ArchModel.get_state (with_input_options v a) None) = Ok tt); [|rewrite C; reflexivity].
  apply C50_check_exact; [now apply valid_input_options|exact Va|]. constructor; [now apply same_covered_list|now apply same_covered_list|auto].
Qed.
Lemma load_never_different initial initial' default exclude exclude' a v n0 n f m : valid a -> plain_names a ->
  build initial default exclude a v = Ok n0 -> other_values n0 n ->
  vocab_from_state (f_vocabulary f) = Ok v -> f_architecture f = ArchModel.get_state (with_input_options v a) None ->
  is_dict (f_arrays f) -> (forall path x, In (path, x) (vars n) -> In (path, x) (f_arrays f)) ->
  from_file initial' default exclude' f = Ok m -> m_vocabulary m = v /\ m_network m = with_exclude_unk exclude' n.
Proof.
  intros V PN B O EV EA Df Hf EF. pose proof (valid_input_options v a V) as Va. destruct (C50_load _ Va) as (b & Eb & Vb & Ri & Rl & Ro).
  assert (D : described_alike a b).
  { unfold SavedModel.from_file, SavedModel.new_network in EF. rewrite EV in EF. cbn [bind] in EF. rewrite EA, Eb in EF. cbn [bind] in EF.
    destruct (build initial' default exclude' b v) as [n2|]; cbn [bind] in EF; [|discriminate]. unfold read_network in EF. cbn [m_network m_architecture m_vocabulary] in EF.
    destruct (network_set_state _ _) as [new [u|]]; [|discriminate]. rewrite EA in EF. destruct (check_state _ _) as [[]|] eqn:EC; cbn [bind] in EF; [|discriminate].
    apply C50_check_exact in EC as [C1 C2 C3]; [|now apply valid_input_options|exact Va]. destruct (input_names _ _ _ _ _ _ B) as (names & ND & Nm). constructor.
    - exact (loaded_inputs v _ _ names ND Nm Ri C1).
    - now apply loaded_layers.
    - exact Ro. }
  rewrite (load_alike initial initial' default exclude exclude' a b v n0 n _ f PN B O D EV EA Eb Df Hf) in EF.
  destruct (check_state _ _) as [[]|]; cbn [bind] in EF; [|discriminate]. injection EF as <-. split; reflexivity.
Qed.

(** ** Training again from a saved state: commands/train.py builds the network from the
    description, and the trainer restores the state. *)
Lemma resume initial initial' default exclude exclude' a v n0 n f : valid a -> plain_names a ->
  build initial default exclude a v = Ok n0 -> other_values n0 n -> f_architecture f = ArchModel.get_state (with_input_options v a) None ->
  is_dict (f_arrays f) -> (forall path x, In (path, x) (vars n) -> In (path, x) (f_arrays f)) ->
  exists m, new_network initial' default exclude' a v = Ok m /\
    read_network f m = Ok (mkModel v (with_input_options v a) (with_exclude_unk exclude' n)).
Proof.
  intros V PN B O EA Df Hf. destruct (build_fine _ _ _ _ _ _ _ _ PN B) as [ND R]. pose proof (valid_input_options v a V) as Va.
  assert (R1 : Forall2 input_agrees (a_inputs a) (a_inputs a)) by (apply F2_refl; intros o k _; reflexivity).
  assert (R2 : Forall2 same_options (a_layers a) (a_layers a)) by (apply F2_refl; intros o k; reflexivity).
  pose proof (build_again parse_int dropout_scale initial initial' default exclude exclude' a a v R1 R2 eq_refl) as S. rewrite B in S.
  destruct (build initial' default exclude' a v) as [n2|] eqn:B2; [|contradiction S]. cbn [sim] in S. pose proof (other_exclude _ _ _ _ _ S O) as O2.
  unfold SavedModel.new_network. rewrite B2. cbn [bind]. eexists. split; [reflexivity|].
  destruct (read_arrays n2 (with_exclude_unk exclude' n) (f_arrays f) O2 Df Hf) as (new & En & Es).
  unfold read_network. cbn [m_network m_architecture m_vocabulary]. rewrite En, Es, EA by exact (regular_other _ _ O R).
  assert (C : check_state (with_input_options v a) (ArchModel.get_state (with_input_options v a) None) = Ok tt); [|rewrite C; reflexivity].
  apply C50_check_exact; [exact Va|exact Va|]. now apply covered_refl.
Qed.
End Main.
