(** C76: the reverse_time option of recurrent layers. *)
From Coq Require Import ZArith QArith Qcanon Ascii String.
From Verif Require Import Base BaseLib ListLib Strings NumStr Dict TextModel VocabModel VocabProps LatticeExamples SlfSpec ArchModel ArchSpec ArchProofs NetModel NetSpec NetExamples NetProps
  DeviceModel DeviceSpec DeviceNet OutputModel BuildModel BuildSpec BuildShape BuildLayers BuildNet BuildProofs BuildParams BuildProps SavedNetwork.
Local Open Scope nat_scope.
Local Open Scope list_scope.

(** ** Specification *)
(** The two layers have the same options, except that the value of reverse_time may be
    another one that turns it on, or another one that does not. *)
Record same_but_reverse (o o' : option_dict) : Prop := {
  sr_options : forall k, k <> str "reverse_time" -> option_value o k = option_value o' k;
  sr_reverse : reverse_option o = reverse_option o' }.

(** ** Proofs *)
Section Same.
Variables o o' : option_dict.
Hypothesis H : same_but_reverse o o'.
Lemma rget k : k <> str "reverse_time" -> oget o k = oget o' k.
Proof. exact (sr_options _ _ H k). Qed.
Lemma rlookup k : k <> str "reverse_time" -> ArchModel.lookup o k = ArchModel.lookup o' k.
Proof. intro N. unfold ArchModel.lookup. now rewrite (rget _ N). Qed.
Lemma rtext k : k <> str "reverse_time" -> text o k = text o' k.
Proof. intro N. unfold text. now rewrite (rlookup _ N). Qed.
Lemma rpositions names : input_positions names o = input_positions names o'.
Proof. unfold input_positions. now rewrite rlookup by discriminate. Qed.
Lemma rdevices default : device_names default o = device_names default o'.
Proof. unfold device_names. now rewrite rget by discriminate. Qed.
Lemma ractivation : activation_of o = activation_of o'.
Proof. unfold activation_of. now rewrite rget by discriminate. Qed.
Lemma rkind parse_int type : kind_of parse_int o type = kind_of parse_int o' type.
Proof. unfold kind_of, filter_size. rewrite !reverse_iff, (sr_reverse _ _ H). now rewrite rget by discriminate. Qed.
Lemma rsize parse_int k sizes : layer_size parse_int k o sizes = layer_size parse_int k o' sizes.
Proof. unfold layer_size. now rewrite rget by discriminate. Qed.
Section Layers.
Context {A : arith}.
Variable parse_int : pystr -> result Z.
Variable dropout_scale : option ArchModel.value -> result (num A).
Variable initial : pystr -> pystr -> nat -> nat -> nat -> num A.
Lemma rhidden default earlier : hidden_layer parse_int dropout_scale initial default earlier o = hidden_layer parse_int dropout_scale initial default earlier o'.
Proof.
  unfold hidden_layer. rewrite rpositions, rdevices, !rtext by discriminate. rewrite ractivation.
  destruct (input_positions _ o') as [inputs|]; cbn [bind]; [|reflexivity]. destruct (device_names default o') as [devices|]; cbn [bind]; [|reflexivity].
  destruct (text o' (str "name")) as [name|]; cbn [bind]; [|reflexivity]. destruct (text o' (str "type")) as [type|]; cbn [bind]; [|reflexivity].
  rewrite rkind. destruct (kind_of parse_int o' type) as [k|]; cbn [bind]; [|reflexivity].
  destruct (mapM _ inputs) as [sizes|]; cbn [bind]; [|reflexivity]. rewrite rsize.
  now rewrite (rget (str "dropout_rate")) by discriminate.
Qed.
Lemma routput default exclude v earlier : output_layer parse_int initial default exclude v earlier o = output_layer parse_int initial default exclude v earlier o'.
Proof.
  unfold output_layer. rewrite rpositions, rdevices, !rtext by discriminate. rewrite ractivation.
  destruct (input_positions _ o') as [inputs|]; cbn [bind]; [|reflexivity]. destruct (device_names default o') as [devices|]; cbn [bind]; [|reflexivity].
  destruct (text o' (str "name")) as [name|]; cbn [bind]; [|reflexivity]. destruct (text o' (str "type")) as [type|]; cbn [bind]; [|reflexivity].
  now rewrite rkind.
Qed.
End Layers.
End Same.

Section Props.
Context {A : arith}.
Variable parse_int : pystr -> result Z.
Variable dropout_scale : option ArchModel.value -> result (num A).
Variable initial : pystr -> pystr -> nat -> nat -> nat -> num A.
Notation build := (build parse_int dropout_scale initial).

(** Only whether the value is empty matters: with the same other options, the same network
    is built, or the same exception is raised. *)
Theorem C76_value_ignored default exclude_unk a a' v :
  a_inputs a = a_inputs a' -> Forall2 same_but_reverse (a_layers a) (a_layers a') -> a_output a = a_output a' ->
  build default exclude_unk a v = build default exclude_unk a' v.
Proof.
  intros EI FL EO. unfold BuildModel.build. rewrite EI, EO. destruct (foldM _ (a_inputs a') []) as [ins|]; cbn [bind]; [|reflexivity].
  apply F2_rev in FL. destruct FL as [|o o' r r' Ho FL]; [reflexivity|]. apply F2_rev in FL.
  assert (E : forall e, foldM (fun ds o => do d <- hidden_layer parse_int dropout_scale initial default ds o; add_layer ds d) (rev r) e =
                        foldM (fun ds o => do d <- hidden_layer parse_int dropout_scale initial default ds o; add_layer ds d) (rev r') e).
  { clear - FL. induction FL as [|q q' l l' Hq FL IH]; intro e; cbn [foldM]; [reflexivity|]. rewrite (rhidden _ _ Hq).
    match goal with |- bind ?z _ = _ => destruct z; cbn [bind]; [apply IH|reflexivity] end. }
  rewrite E. destruct (foldM _ (rev r') ins) as [ds|]; cbn [bind]; [|reflexivity]. rewrite (rtext _ _ Ho) by discriminate.
  destruct (text o' (str "name")) as [name|]; cbn [bind]; [|reflexivity]. destruct (_ || _); [reflexivity|]. now rewrite (routput _ _ Ho).
Qed.

(** In a description file, the option is on if the last value given is not empty. *)
Theorem C76_on r o : layer_options parse_int r o ->
  reverse_option o = true <-> exists value, last_value [str "reverse_time"] r = Some value /\ value <> [].
Proof.
  intro L. unfold reverse_option. rewrite (lo_values _ _ _ L).
  2: { cbn [In]. intros [C|[C|[C|[]]]]; discriminate C. }
  change (name_in [str "input"; str "device"] (str "reverse_time")) with false. cbn iota.
  destruct (last_value [str "reverse_time"] r) as [[|c s]|]; split; intro X; try discriminate; try reflexivity.
  - destruct X as (x & E & N). injection E as <-. contradiction.
  - exists (c :: s). split; [reflexivity|discriminate].
  - destruct X as (x & E & N). discriminate.
Qed.

(** A network that has such a layer cannot be run one time step at a time, as sampling
    and lattice decoding do. *)
Theorem C76_no_steps default exclude_unk a v n o : build default exclude_unk a v = Ok n ->
  In o (a_layers a) -> reversed_type o -> forall words classes state, exists e, step_network n words classes state = Err e.
Proof.
  intros B Ho R words classes state. apply C46_refused.
  destruct (build_inv _ _ _ _ _ _ _ _ B) as (ds & out & C & _ & _ & _ & _ & ES & _).
  assert (NS : ~ Forall stepwise_type (a_layers a)).
  { intro F. rewrite Forall_forall in F. destruct (F o Ho) as (_ & _ & _ & X). contradiction. }
  rewrite ES in NS. clear - C NS. destruct (created_network _ _ _ C) as (ls & CL & -> & _). cbn [n_layers]. clear - CL NS. revert ls CL NS. generalize (@nil nat).
  induction ds as [|d ds IH]; intros sizes ls; cbn [create_layers]; [intros _ NS; exfalso; apply NS; constructor|].
  destruct (create_layer sizes d) as [l|] eqn:CL; cbn [bind]; [|discriminate]. destruct (create_layers _ ds) as [r|] eqn:CR; cbn [bind]; [|discriminate].
  intros E NS. injection E as <-. destruct (created_layer _ _ _ CL) as (? & _ & EL & _).
  assert (EK : l_kind l = d_kind d) by now rewrite EL.
  rewrite Forall_cons_iff in NS. unfold stepwise_layer.
  destruct (d_kind d) eqn:K; try (apply Exists_cons_tl; eapply IH; [exact CR|]; intro; apply NS; split; [exact I|assumption]);
    apply Exists_cons_hd; rewrite EK; exact (fun x => x).
Qed.
End Props.
Print Assumptions C76_value_ignored.
Print Assumptions C76_on.
Print Assumptions C76_no_steps.

(** ** Examples *)
(** A description that tries to turn the option off *)
Definition ex_reverse_lines (value : string) : list string :=
  ["input type=class name=class_input"; "layer type=projection name=p input=class_input size=2";
   "layer type=lstm name=h input=p size=2 " ++ value; "layer type=softmax name=output_layer input=h"]%string.
Example ex_reverse_meets :
  Forall (connected (ex_described (ex_reverse_lines "reverse_time=false"))) (a_layers (ex_described (ex_reverse_lines "reverse_time=false"))) /\
  Forall (placed_well None) (a_layers (ex_described (ex_reverse_lines "reverse_time=false"))) /\
  (exists n, ex_build None (ex_reverse_lines "reverse_time=false") = Ok n) /\
  exists o, In o (a_layers (ex_described (ex_reverse_lines "reverse_time=false"))) /\ reversed_type o.
Proof.
  split; [ex_layers ex_connected|]. split; [ex_layers ex_placed|]. split; [apply ex_ok; vm_compute; reflexivity|].
  eexists. split; [vm_compute; right; left; reflexivity|]. split; [left; reflexivity|reflexivity].
Qed.
(** It gives the same network as a description that turns it on, *)
Example ex_reverse_false : ex_build None (ex_reverse_lines "reverse_time=false") = ex_build None (ex_reverse_lines "reverse_time=1").
Proof.
  apply C76_value_ignored; try (vm_compute; reflexivity).
  match goal with |- Forall2 _ ?l ?l' => let x := eval vm_compute in l in let y := eval vm_compute in l' in change (Forall2 same_but_reverse x y) end.
  repeat constructor; try reflexivity. intros k Hk. unfold option_value. cbn [Dict.dict_get].
  repeat (destruct (pystr_eq_dec k _) as [->|?]; [first [reflexivity|exfalso; apply Hk; reflexivity]|]). reflexivity.
Qed.
(** and an empty value one that does not mention it. *)
Example ex_reverse_empty : ex_build None (ex_reverse_lines "reverse_time=") = ex_build None (ex_reverse_lines "").
Proof.
  apply C76_value_ignored; try (vm_compute; reflexivity).
  match goal with |- Forall2 _ ?l ?l' => let x := eval vm_compute in l in let y := eval vm_compute in l' in change (Forall2 same_but_reverse x y) end.
  repeat constructor; try reflexivity. intros k Hk. unfold option_value. cbn [Dict.dict_get].
  repeat (destruct (pystr_eq_dec k _) as [->|?]; [first [reflexivity|exfalso; apply Hk; reflexivity]|]). reflexivity.
Qed.
Definition ex_reverse_probs (value : string) (c : nat) : result (list (list (num integers))) :=
  do n <- ex_build None (ex_reverse_lines value);
  let w := [[3]; [0]; [c]; [1]] in
  do p <- output_probs n (mkBatch w w [[true]; [true]; [true]; [true]] None); py_index p 0.
(** So the probabilities of the first prediction change with a later word, *)
Example ex_reverse_later : ex_reverse_probs "reverse_time=false" 0 <> ex_reverse_probs "reverse_time=false" 1 /\
  ex_reverse_probs "reverse_time=" 0 = ex_reverse_probs "reverse_time=" 1 /\ exists p, ex_reverse_probs "reverse_time=false" 0 = Ok p.
Proof. split; [vm_compute; discriminate|]. split; [vm_compute; reflexivity|]. eexists. vm_compute. reflexivity. Qed.
(** and the network cannot generate text. *)
Example ex_reverse_no_steps : exists n, ex_build None (ex_reverse_lines "reverse_time=false") = Ok n /\
  forall words classes state, exists e, step_network n words classes state = Err e.
Proof.
  destruct ex_reverse_meets as (_ & _ & (n & B) & o & Ho & R). exists n. split; [exact B|].
  exact (C76_no_steps _ _ _ _ _ _ _ _ _ B Ho R).
Qed.
