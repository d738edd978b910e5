(** C64: a language model that is loaded from a file is the language model that was saved.
    The trained network may have any values of the parameters; they can have been saved to
    the same file any number of times before. *)
From Coq Require Import ZArith QArith Qcanon Ascii String.
From Verif Require Import Base BaseLib ListLib Strings NumStr VocabModel VocabSpec VocabProps LatticeExamples ArchModel ArchSpec ParamModel ParamSpec NetModel NetSpec NetExamples
  DeviceModel OutputModel BuildModel BuildSpec BuildProps SavedModel SavedSpec SavedArrays SavedBuild SavedNetwork SavedProofs.
Local Open Scope nat_scope.
Local Open Scope list_scope.

Section Props.
Context {A : arith}.
Notation num := (num A).
Variable parse_int : pystr -> result Z.
Variable dropout_scale : option ArchModel.value -> result num.
Notation new_network := (new_network parse_int dropout_scale).
Notation from_file := (from_file parse_int dropout_scale).

Lemma new_inv initial default exclude a v m : new_network initial default exclude a v = Ok m ->
  exists n, build parse_int dropout_scale initial default exclude a v = Ok n /\ m = mkModel v (with_input_options v a) n.
Proof. unfold SavedModel.new_network. destruct (build _ _ _ _ _ _ _) as [n|]; cbn [bind]; [|discriminate]. intros [= <-]. eauto. Qed.
Lemma excluded initial default exclude a v n : build parse_int dropout_scale initial default exclude a v = Ok n -> n_exclude_unk n = exclude.
Proof.
  intros B. assert (R1 : Forall2 input_agrees (a_inputs a) (a_inputs a)) by (apply F2_refl; intros o k _; reflexivity).
  assert (R2 : Forall2 same_options (a_layers a) (a_layers a)) by (apply F2_refl; intros o k; reflexivity).
  pose proof (build_again parse_int dropout_scale initial initial default exclude exclude a a v R1 R2 eq_refl) as S. rewrite B in S. apply S.
Qed.
Lemma with_excluded (n : network A) : with_exclude_unk (n_exclude_unk n) n = n.
Proof. now destruct n. Qed.

(** Saving succeeds, and the network that is loaded is the one that was saved last,
    whatever values its parameters have before they are loaded. *)
Theorem C64_load initial initial' default exclude exclude' a v m history n file :
  reachable_vocab v -> valid a -> at_most 10 a -> plain_names a ->
  new_network initial default exclude a v = Ok m ->
  Forall (other_values (m_network m)) history -> other_values (m_network m) n -> file_for m file ->
  exists saved, save v (m_architecture m) (history ++ [n]) file = Ok saved /\
    exists loaded, from_file initial' default exclude' saved = Ok loaded /\
      m_vocabulary loaded = v /\ same_architecture (m_architecture m) (m_architecture loaded) /\
      m_network loaded = with_exclude_unk exclude' n /\ (exclude' = exclude -> m_network loaded = n).
Proof.
  intros RV V AM PN B F O [F1 F2 F3 F4]. apply new_inv in B as (n0 & B & ->). cbn [m_network m_architecture m_vocabulary] in *.
  destruct file as [fv fa extra]. cbn [f_vocabulary f_architecture f_arrays] in *. subst fv fa.
  destruct (saved parse_int dropout_scale initial default exclude a v n0 history n extra RV V PN B F O F3) as (f & E & H1 & H2 & H3 & H4 & _).
  { intros path I J. exact (F4 path J I). }
  exists f. split; [exact E|].
  destruct (load_same parse_int dropout_scale initial initial' default exclude exclude' a v n0 n f V AM PN B O H1 H2 H3 H4) as (b & L & S).
  eexists. split; [exact L|]. cbn [m_vocabulary m_architecture m_network]. split; [reflexivity|]. split; [exact S|]. split; [reflexivity|].
  intros ->. rewrite <- (excluded _ _ _ _ _ _ B), <- (ov_exclude_unk _ _ O). apply with_excluded.
Qed.

(** The probabilities that it computes are the same: of a batch, and when the network is
    evaluated one step at a time. *)
Corollary C64_same_probabilities initial initial' default exclude a v m history n file :
  reachable_vocab v -> valid a -> at_most 10 a -> plain_names a ->
  new_network initial default exclude a v = Ok m ->
  Forall (other_values (m_network m)) history -> other_values (m_network m) n -> file_for m file ->
  exists saved loaded, save v (m_architecture m) (history ++ [n]) file = Ok saved /\
    from_file initial' default exclude saved = Ok loaded /\
    (forall mode b, eval_network (m_network loaded) mode b = eval_network n mode b) /\
    (forall b, output_probs (m_network loaded) b = output_probs n b) /\
    (forall b targets, target_probs (m_network loaded) b targets = target_probs n b targets).
Proof.
  intros RV V AM PN B F O FF. destruct (C64_load initial initial' default exclude exclude a v m history n file RV V AM PN B F O FF) as (s & E & l & L & _ & _ & _ & N).
  exists s, l. rewrite (N eq_refl). auto.
Qed.

(** Without the limit of ten inputs, the model that is loaded still cannot be another one,
    but loading may fail. *)
Theorem C64_never_different initial initial' default exclude exclude' a v m history n file :
  reachable_vocab v -> valid a -> plain_names a ->
  new_network initial default exclude a v = Ok m ->
  Forall (other_values (m_network m)) history -> other_values (m_network m) n -> file_for m file ->
  exists saved, save v (m_architecture m) (history ++ [n]) file = Ok saved /\
    forall loaded, from_file initial' default exclude' saved = Ok loaded ->
      m_vocabulary loaded = v /\ m_network loaded = with_exclude_unk exclude' n.
Proof.
  intros RV V PN B F O [F1 F2 F3 F4]. apply new_inv in B as (n0 & B & ->). cbn [m_network m_architecture m_vocabulary] in *.
  destruct file as [fv fa extra]. cbn [f_vocabulary f_architecture f_arrays] in *. subst fv fa.
  destruct (saved parse_int dropout_scale initial default exclude a v n0 history n extra RV V PN B F O F3) as (f & E & H1 & H2 & H3 & H4 & _).
  { intros path I J. exact (F4 path J I). }
  exists f. split; [exact E|]. intros l L.
  exact (load_never_different parse_int dropout_scale initial initial' default exclude exclude' a v n0 n f l V PN B O H1 H2 H3 H4 L).
Qed.

(** Training that is continued: the network is built from the description again, and it
    gets the values that were saved. What else was in the file is still there. *)
Theorem C64_resume initial initial' default exclude exclude' a v m history n file :
  reachable_vocab v -> valid a -> plain_names a ->
  new_network initial default exclude a v = Ok m ->
  Forall (other_values (m_network m)) history -> other_values (m_network m) n -> file_for m file ->
  exists saved m', save v (m_architecture m) (history ++ [n]) file = Ok saved /\
    new_network initial' default exclude' a v = Ok m' /\
    read_network saved m' = Ok (mkModel v (m_architecture m) (with_exclude_unk exclude' n)) /\
    vocab_from_state (f_vocabulary saved) = Ok v /\
    forall path x, In (path, x) (f_arrays file) -> In (path, x) (f_arrays saved).
Proof.
  intros RV V PN B F O [F1 F2 F3 F4]. apply new_inv in B as (n0 & B & ->). cbn [m_network m_architecture m_vocabulary] in *.
  destruct file as [fv fa extra]. cbn [f_vocabulary f_architecture f_arrays] in *. subst fv fa.
  destruct (saved parse_int dropout_scale initial default exclude a v n0 history n extra RV V PN B F O F3) as (f & E & H1 & H2 & H3 & H4 & H5).
  { intros path I J. exact (F4 path J I). }
  destruct (resume parse_int dropout_scale initial initial' default exclude exclude' a v n0 n f V PN B O H2 H3 H4) as (m' & N & R).
  exists f, m'. auto.
Qed.
End Props.
Print Assumptions C64_load.
Print Assumptions C64_same_probabilities.
Print Assumptions C64_never_different.
Print Assumptions C64_resume.

(** ** Examples *)
Lemma ex_reachable : reachable_vocab ex_words.
Proof.
  apply (rv_file ex_int ex_float Words [str "a"; str "b"] []). unfold ex_words. destruct (VocabModel.from_file _ _ _ _ _) eqn:E; [reflexivity|]. vm_compute in E. discriminate.
Qed.
(** Checks of the conditions *)
Fixpoint ex_nodup (l : list pystr) : bool :=
  match l with [] => true | x :: l => negb (existsb (pystr_eqb x) l) && ex_nodup l end.
Lemma ex_nodup_ok l : ex_nodup l = true -> NoDup l.
Proof.
  induction l as [|x l IH]; cbn [ex_nodup]; intros H; constructor; apply andb_prop in H as [H1 H2]; [|auto]. intros I.
  apply Bool.negb_true_iff in H1. rewrite <- Bool.not_true_iff_false in H1. apply H1. apply existsb_exists. exists x. split; [exact I|]. apply ArchRead.pystr_eqb_refl.
Qed.
Definition ex_valid_check (a : architecture) : bool :=
  forallb (fun o => ex_nodup (map fst o)) (a_inputs a) && forallb (fun o => ex_nodup (map fst o)) (a_layers a) &&
  negb (List.length (a_inputs a) =? 0) && negb (List.length (a_layers a) =? 0).
Lemma ex_valid_ok a : ex_valid_check a = true -> valid a.
Proof.
  unfold ex_valid_check. intros H. apply andb_prop in H as [H H4]. apply andb_prop in H as [H H3]. apply andb_prop in H as [H1 H2]. constructor.
  - apply Forall_forall. intros o I. rewrite forallb_forall in H1. apply ex_nodup_ok, (H1 _ I).
  - apply Forall_forall. intros o I. rewrite forallb_forall in H2. apply ex_nodup_ok, (H2 _ I).
  - intros E. rewrite E in H3. discriminate.
  - intros E. rewrite E in H4. discriminate.
Qed.
Definition ex_short_check (o : option_dict) : bool :=
  forallb (fun x => match snd x with Many vs => List.length vs <=? 10 | One _ => true end) o.
Definition ex_ten_check (a : architecture) : bool :=
  (List.length (a_inputs a) <=? 10) && forallb ex_short_check (a_inputs a) && forallb ex_short_check (a_layers a).
Lemma ex_short_ok o : ex_short_check o = true -> short_lists 10 o.
Proof.
  unfold ex_short_check. rewrite forallb_forall. intros H k vs E. unfold option_value in E. apply Dict.dict_get_in in E. apply H in E. cbn [snd] in E. now apply Nat.leb_le.
Qed.
Lemma ex_ten_ok a : ex_ten_check a = true -> at_most 10 a.
Proof.
  unfold ex_ten_check. intros H. apply andb_prop in H as [H H3]. apply andb_prop in H as [H1 H2]. constructor; [now apply Nat.leb_le| |].
  - apply Forall_forall. intros o I. rewrite forallb_forall in H2. apply ex_short_ok, (H2 _ I).
  - apply Forall_forall. intros o I. rewrite forallb_forall in H3. apply ex_short_ok, (H3 _ I).
Qed.
Definition ex_plain_check (a : architecture) : bool :=
  forallb (fun o => match option_value o (str "name") with Some (One (SStr x)) => negb (existsb (N.eqb 47) x) | _ => true end) (a_layers a).
Lemma ex_plain_ok a : ex_plain_check a = true -> plain_names a.
Proof.
  unfold ex_plain_check. rewrite forallb_forall. intros H. apply Forall_forall. intros o I x E J. specialize (H _ I). rewrite E in H.
  apply Bool.negb_true_iff in H. rewrite <- Bool.not_true_iff_false in H. apply H. apply existsb_exists. exists 47%N. split; [exact J|]. apply N.eqb_refl.
Qed.

(** Two descriptions that meet the conditions: the second one has bidirectional layers,
    convolution and hierarchical softmax. *)
Example ex_saved_conditions : Forall (fun lines => let a := ex_described lines in valid a /\ at_most 10 a /\ plain_names a) [ex_lines; ex_bidirectional_lines].
Proof. repeat apply Forall_cons; try apply Forall_nil; cbv zeta; (split; [apply ex_valid_ok|split; [apply ex_ten_ok|apply ex_plain_ok]]; vm_compute; reflexivity). Qed.

(** Parameters that have other values *)
Definition ex_trained (layer name : pystr) (i r c : nat) : num integers := Z.of_nat (3 * List.length layer + 2 * i + r * c + 1).
Definition ex_new initial lines := new_network ex_parse_int ex_scale initial None true (ex_described lines) ex_words.
Lemma ex_other initial initial' lines m m' : ex_new initial lines = Ok m -> ex_new initial' lines = Ok m' -> other_values (m_network m) (m_network m').
Proof.
  intros B B'. apply new_inv in B as (n & B & ->). apply new_inv in B' as (n' & B' & ->). cbn [m_network].
  assert (R1 : Forall2 input_agrees (a_inputs (ex_described lines)) (a_inputs (ex_described lines))) by (apply F2_refl; intros o k _; reflexivity).
  assert (R2 : Forall2 same_options (a_layers (ex_described lines)) (a_layers (ex_described lines))) by (apply F2_refl; intros o k; reflexivity).
  pose proof (build_again ex_parse_int ex_scale initial initial' None true true (ex_described lines) (ex_described lines) ex_words R1 R2 eq_refl) as S.
  rewrite B, B' in S. destruct S as (S & _ & E). rewrite <- E, with_excluded in S. exact S.
Qed.
(** All the conditions of the theorems, for a network that has been saved twice, with other
    values first, to a file that has something else too *)
Definition ex_file : model_file integers := @mkFile integers None None [(str "trainer/cost_history", mkArray [2] [5%Z; 4%Z])].
Example ex_saved_meets : Forall (fun lines => exists m n, ex_new ex_initial lines = Ok m /\ ex_new ex_trained lines = Ok n /\
  Forall (other_values (m_network m)) [m_network m] /\ other_values (m_network m) (m_network n) /\ file_for m ex_file) [ex_lines; ex_bidirectional_lines].
Proof.
  assert (G : forall lines, (if ex_new ex_initial lines then true else false) = true -> (if ex_new ex_trained lines then true else false) = true ->
    (match ex_new ex_initial lines with Ok m => negb (existsb (pystr_eqb (str "trainer/cost_history")) (parameter_paths (m_network m))) | Err _ => false end) = true ->
    exists m n, ex_new ex_initial lines = Ok m /\ ex_new ex_trained lines = Ok n /\
      Forall (other_values (m_network m)) [m_network m] /\ other_values (m_network m) (m_network n) /\ file_for m ex_file).
  { intros lines H1 H2 H3. destruct (ex_ok _ _ H1) as (m & E1). destruct (ex_ok _ _ H2) as (n & E2). rewrite E1 in H3. exists m, n.
    split; [exact E1|]. split; [exact E2|]. split; [exact (Forall_cons _ (ex_other _ _ _ _ _ E1 E1) (Forall_nil _))|]. split; [exact (ex_other _ _ _ _ _ E1 E2)|].
    constructor; [reflexivity|reflexivity|unfold is_dict; cbn [paths ex_file f_arrays map fst]; constructor; [intros []|constructor]|].
    intros path I [<-|[]]. apply Bool.negb_true_iff in H3. rewrite <- Bool.not_true_iff_false in H3. apply H3. apply existsb_exists. eexists. split; [exact I|]. apply ArchRead.pystr_eqb_refl. }
  apply Forall_cons; [|apply Forall_cons; [|apply Forall_nil]]; apply G; vm_compute; reflexivity.
Qed.

(** What is loaded, computed: the probabilities of the trained network, which are not
    those of the network before training *)
Definition ex_save lines : result (model integers * model integers * model integers) :=
  do m <- ex_new ex_initial lines; do n <- ex_new ex_trained lines;
  do f <- save ex_words (m_architecture m) [m_network m; m_network n] ex_file;
  do l <- from_file ex_parse_int ex_scale (fun _ _ _ _ _ => 0%Z : num integers) None true f; Ok (m, n, l).
Definition ex_probs_of (m : model integers) := output_probs (m_network m) ex_batch.
Example ex_loaded : exists m n l p q, ex_save ex_bidirectional_lines = Ok (m, n, l) /\ ex_probs_of l = Ok p /\ ex_probs_of n = Ok p /\ ex_probs_of m = Ok q /\ p <> q.
Proof.
  assert (C : match ex_save ex_bidirectional_lines with
              | Ok (m, n, l) => match ex_probs_of m, ex_probs_of n, ex_probs_of l with
                | Ok q, Ok p, Ok p' => (if list_eq_dec (list_eq_dec (list_eq_dec Z.eq_dec)) p p' then true else false) &&
                                       negb (if list_eq_dec (list_eq_dec (list_eq_dec Z.eq_dec)) p q then true else false)
                | _, _, _ => false end
              | Err _ => false end = true) by (vm_compute; reflexivity).
  destruct (ex_save _) as [[[m n] l]|]; [|discriminate]. destruct (ex_probs_of m) as [q|] eqn:Em; [|discriminate].
  destruct (ex_probs_of n) as [p|] eqn:En; [|discriminate]. destruct (ex_probs_of l) as [p'|] eqn:El; [|discriminate].
  exists m, n, l, p, q. change (num integers) with Z in *.
  destruct (list_eq_dec _ p p') as [<-|]; [|discriminate]. destruct (list_eq_dec _ p q); [discriminate|]. exact (conj eq_refl (conj El (conj En (conj Em n0)))).
Qed.

(** ** What is not true *)
(** A slash in the name of a layer: the weights of layer "h/input" are saved to the place
    where the input weights of layer "h" were saved. *)
Definition ex_slash_lines : list string :=
  ["input type=class name=class_input"; "layer type=projection name=h/input input=class_input size=5";
   "layer type=fc name=h input=h/input size=5"; "layer type=softmax name=output_layer input=h"]%string.
(** Eleven inputs of a layer *)
Definition ex_eleven_lines : list string :=
  ("input type=class name=class_input" ::
   map (fun x => "layer type=projection name=p" ++ x ++ " input=class_input size=2")
     ["0"; "1"; "2"; "3"; "4"; "5"; "6"; "7"; "8"; "9"; "10"] ++
   ["layer type=softmax name=output_layer input=p0 input=p1 input=p2 input=p3 input=p4 input=p5 input=p6 input=p7 input=p8 input=p9 input=p10"])%string%list.
Definition ex_load_from (default : option pystr) lines : result (model integers) :=
  do n <- ex_new ex_trained lines;
  do f <- save ex_words (m_architecture n) [m_network n] empty_file;
  from_file ex_parse_int ex_scale ex_initial default true f.

Lemma ex_empty_file (m : model integers) : file_for m empty_file.
Proof. constructor; [reflexivity|reflexivity|constructor|intros ? _ []]. Qed.
(** The model that is loaded computes other probabilities. *)
Theorem C64_slash_refuted :
  ~ (forall a v (m : model integers), reachable_vocab v -> valid a -> at_most 10 a ->
     new_network ex_parse_int ex_scale ex_trained None true a v = Ok m ->
     forall f loaded, save v (m_architecture m) [m_network m] empty_file = Ok f ->
       from_file ex_parse_int ex_scale ex_initial None true f = Ok loaded ->
       forall b, output_probs (m_network loaded) b = output_probs (m_network m) b).
Proof.
  intros H. assert (C : match ex_new ex_trained ex_slash_lines, ex_load_from None ex_slash_lines with
              | Ok m, Ok l => match ex_probs_of m, ex_probs_of l with
                | Ok p, Ok p' => negb (if list_eq_dec (list_eq_dec (list_eq_dec Z.eq_dec)) p p' then true else false)
                | _, _ => false end
              | _, _ => false end = true) by (vm_compute; reflexivity).
  unfold ex_load_from in C. destruct (ex_new ex_trained ex_slash_lines) as [m|] eqn:E; [|discriminate]. cbn [bind] in C.
  destruct (save _ _ _ _) as [f|] eqn:S; [|discriminate]. cbn [bind] in C. destruct (from_file _ _ _ _ _ _) as [l|] eqn:L; [|discriminate].
  specialize (H _ _ _ ex_reachable ltac:(apply (ex_valid_ok (ex_described ex_slash_lines)); vm_compute; reflexivity)
    ltac:(apply ex_ten_ok; vm_compute; reflexivity) E _ _ S L ex_batch). unfold ex_probs_of in C. rewrite H in C.
  destruct (output_probs (m_network m) ex_batch) as [p|]; [|discriminate C]. change (num integers) with Z in *. destruct (list_eq_dec _ p p) as [|Np]; [discriminate C|]. now apply Np.
Qed.
Print Assumptions C64_slash_refuted.

(** A network where a layer has eleven inputs can be saved, but it cannot be loaded. *)
Theorem C64_eleven_refuted :
  exists a v (m : model integers) f, reachable_vocab v /\ valid a /\ plain_names a /\
    new_network ex_parse_int ex_scale ex_trained None true a v = Ok m /\
    save v (m_architecture m) [m_network m] empty_file = Ok f /\
    from_file ex_parse_int ex_scale ex_initial None true f = Err IncompatibleStateError.
Proof.
  assert (C : ex_load_from None ex_eleven_lines = Err IncompatibleStateError) by (vm_compute; reflexivity).
  assert (C1 : (if ex_new ex_trained ex_eleven_lines then true else false) = true) by (vm_compute; reflexivity).
  unfold ex_load_from in C. destruct (ex_new ex_trained ex_eleven_lines) as [m|] eqn:E; [|discriminate C1]. cbn [bind] in C.
  assert (V : valid (ex_described ex_eleven_lines)) by (apply ex_valid_ok; vm_compute; reflexivity).
  assert (PN : plain_names (ex_described ex_eleven_lines)) by (apply ex_plain_ok; vm_compute; reflexivity).
  destruct (C64_never_different ex_parse_int ex_scale ex_trained ex_initial None true true (ex_described ex_eleven_lines) ex_words m [] (m_network m) empty_file
     ex_reachable V PN E (Forall_nil _) (ex_other _ _ _ _ _ E E) (ex_empty_file m)) as (f & S & _).
  cbn [app] in S. rewrite S in C. cbn [bind] in C.
  exists (ex_described ex_eleven_lines), ex_words, m, f. exact (conj ex_reachable (conj V (conj PN (conj E (conj S C))))).
Qed.
Print Assumptions C64_eleven_refuted.

(** The names of the parameters depend on the default device: a network that was saved on
    one device cannot be loaded to another one. *)
Theorem C64_default_device_refuted :
  exists a v (m : model integers) f, reachable_vocab v /\ valid a /\ at_most 10 a /\ plain_names a /\
    new_network ex_parse_int ex_scale ex_trained None true a v = Ok m /\
    save v (m_architecture m) [m_network m] empty_file = Ok f /\
    from_file ex_parse_int ex_scale ex_initial (Some (str "dev0")) true f = Err IncompatibleStateError.
Proof.
  assert (C : ex_load_from (Some (str "dev0")) ex_lines = Err IncompatibleStateError) by (vm_compute; reflexivity).
  assert (C1 : (if ex_new ex_trained ex_lines then true else false) = true) by (vm_compute; reflexivity).
  unfold ex_load_from in C. destruct (ex_new ex_trained ex_lines) as [m|] eqn:E; [|discriminate C1]. cbn [bind] in C.
  pose proof (Forall_inv ex_saved_conditions) as (V & T & PN). cbv zeta in V, T, PN.
  destruct (C64_never_different ex_parse_int ex_scale ex_trained ex_initial None true true (ex_described ex_lines) ex_words m [] (m_network m) empty_file
     ex_reachable V PN E (Forall_nil _) (ex_other _ _ _ _ _ E E) (ex_empty_file m)) as (f & S & _).
  cbn [app] in S. rewrite S in C. cbn [bind] in C.
  exists (ex_described ex_lines), ex_words, m, f. exact (conj ex_reachable (conj V (conj T (conj PN (conj E (conj S C)))))).
Qed.
Print Assumptions C64_default_device_refuted.
