(** C66: which architecture descriptions a network can be built from. *)
From Coq Require Import ZArith String.
From Verif Require Import Base BaseLib ListLib Strings NumStr VocabModel LatticeExamples ArchModel ArchSpec NetModel NetSpec NetExamples
  DeviceModel OutputModel BuildModel BuildSpec BuildProps DescribedSpec AcceptSpec AcceptParams AcceptProofs.
Local Open Scope nat_scope.
Local Open Scope list_scope.

Section Props.
Context {A : arith}.
Variable parse_int : pystr -> result Z.
Variable dropout_scale : option ArchModel.value -> result (num A).
Variable initial : pystr -> pystr -> nat -> nat -> nat -> num A.
Notation build := (build parse_int dropout_scale initial).
Notation accepted := (accepted parse_int dropout_scale).

Theorem C66_accepted default exclude_unk a v : ordinary a ->
  ((exists n, build default exclude_unk a v = Ok n) <-> accepted default v a).
Proof.
  intro O. split; [intros (n & B); eapply build_accepts; exact B|]. now apply accepts_build.
Qed.

(** Every network satisfies the conditions, even if the description is not ordinary. *)
Theorem C66_necessary default exclude_unk a v n : build default exclude_unk a v = Ok n -> accepted default v a.
Proof. apply build_accepts. Qed.

(** If the layers are also connected properly, and placed on devices that they support,
    there is a network, and the probabilities can be computed for every mini-batch. *)
Theorem C66_network default exclude_unk a v : ordinary a -> accepted default v a ->
  Forall (connected a) (a_layers a) -> Forall (placed_well default) (a_layers a) ->
  exists n, build default exclude_unk a v = Ok n /\
  forall T N b, T <> 0 -> valid_batch v T N b -> exists p, output_probs n b = Ok p /\ tensor_shape T N (num_classes v) p.
Proof.
  intros O Ac CN PW. destruct (accepts_build parse_int dropout_scale initial default v exclude_unk a O Ac) as (n & B). exists n. split; [exact B|].
  intros T N b HT HV. exact (proj1 (C61_evaluates _ _ _ _ _ _ _ _ B CN PW T N b HT HV)).
Qed.

(** A layer that has been placed on [count] devices has to have at least that many
    outputs, and a bidirectional layer has to have twice as many. *)
Theorem C66_devices default exclude_unk a v n o names : build default exclude_unk a v = Ok n ->
  In o (removelast (a_layers a)) -> names <> [] -> listed o (str "devices") names ->
  has_type o (str "projection") \/ has_type o (str "fc") \/ has_type o (str "blstm") \/ has_type o (str "bgru") ->
  NoDup names /\ exists size, 
    (has_type o (str "projection") \/ has_type o (str "fc") -> List.length names <= size) /\
    (has_type o (str "blstm") -> List.length names <= 4 * (size / 2)) /\ (has_type o (str "bgru") -> List.length names <= 3 * (size / 2)) /\
    exists known input_sizes name k, accepted_layer parse_int dropout_scale default known o name k size input_sizes.
Proof.
  intros B Ho Hn L HT. apply C66_necessary in B as (kn & _ & AL).
  assert (X : exists known name k size sizes, accepted_layer parse_int dropout_scale default known o name k size sizes).
  { revert kn Ho AL. induction (a_layers a) as [|x l IH]; intros kn Ho; [destruct Ho|]. destruct l as [|y l]; [destruct Ho|].
    change (removelast (x :: y :: l)) with (x :: removelast (y :: l)) in Ho.
    change (AcceptSpec.accepted_layers parse_int dropout_scale default v kn (x :: y :: l)) with
      (exists name k size sizes, accepted_layer parse_int dropout_scale default kn x name k size sizes /\ accepted_layers parse_int dropout_scale default v (kn ++ [(name, size)]) (y :: l)).
    intros (name & k & size & sizes & Ac & R). destruct Ho as [->|Ho]; [eauto 8|eapply IH; eauto]. }
  destruct X as (known & name & k & size & sizes & Ac). destruct (al_devices _ _ _ _ _ _ _ _ _ Ac) as (devices & HD & HC).
  assert (ED : devices = map Some names).
  { destruct HD as [(ns & _ & L' & ->)|[HD _]]; [now rewrite (BuildProofs.listed_unique _ _ _ _ L' L)|]. exfalso.
    cbn [In] in HD. destruct L as [L|(s & L & ->)]; rewrite L in HD; destruct HD as [HD|[HD|[HD|[HD|[]]]]]; try discriminate HD.
    - injection HD as HD. destruct names; [contradiction|discriminate HD].
    - injection HD as HD. subst s. contradiction. }
  subst devices. destruct (al_type _ _ _ _ _ _ _ _ _ Ac) as (type & HT' & TN).
  assert (Ty : forall t, has_type o t -> t = type) by (intros t Ht; unfold has_type in *; congruence).
  assert (NE : divided k sizes size <> []).
  { destruct HT as [H|[H|[H|H]]]; apply Ty in H; subst type; inversion TN; subst; discriminate. }
  unfold can_divide in HC. rewrite map_length in HC. destruct HC as [C|[C|[F ND]]]; [destruct names as [|? [|]]; discriminate C|contradiction|].
  split; [exact (NoDup_map_inv _ _ ND)|]. exists size. split; [|split; [|split; [|eauto 8]]].
  - intros [H|H]; apply Ty in H; subst type; inversion TN; subst; now inversion F.
  - intro H; apply Ty in H; subst type; inversion TN; subst; inversion F as [|? ? _ F']; subst; now inversion F'.
  - intro H; apply Ty in H; subst type; inversion TN; subst; inversion F as [|? ? _ F']; subst; now inversion F'.
Qed.
End Props.
Print Assumptions C66_accepted.
Print Assumptions C66_necessary.
Print Assumptions C66_network.
Print Assumptions C66_devices.

(** ** Examples *)
Ltac ex_ordinary := constructor;
  [vm_compute; repeat (constructor; [let H := fresh in intro H; repeat (destruct H as [H|H]; [discriminate H|]); exact H|]); constructor
  |vm_compute; reflexivity
  |let o := fresh in let H := fresh in intros o H; vm_compute in H; repeat (destruct H as [<-|H]; [split; ex_not_type|]); destruct H].
Example ex_lines_ordinary : ordinary (ex_described ex_lines). Proof. ex_ordinary. Qed.
Example ex_bidirectional_ordinary : ordinary (ex_described ex_bidirectional_lines). Proof. ex_ordinary. Qed.
Notation ex_accepted := (accepted (A := integers) ex_parse_int ex_scale).
Example ex_lines_accepted : ex_accepted None ex_words (ex_described ex_lines).
Proof.
  apply (C66_accepted ex_parse_int ex_scale ex_initial None true); [exact ex_lines_ordinary|].
  destruct (ex_build None ex_lines) as [n|e] eqn:E; [exists n; exact E|vm_compute in E; discriminate E].
Qed.
(** The conditions can also be checked without building the network. *)
Definition ex_small_lines : list string :=
  ["input type=word name=word_input"; "layer type=projection name=p input=word_input size=3 device=x device=y device=z";
   "layer type=tanh name=t input=p"; "layer type=softmax name=output_layer input=t"]%string.
Example ex_small_accepted : ex_accepted None ex_words (ex_described ex_small_lines).
Proof.
  exists [(str "word_input", 5)]. split.
  { constructor; [|constructor]. split; [vm_compute; reflexivity|]. split; [left; split; vm_compute; reflexivity|]. exists Tanh. vm_compute. reflexivity. }
  exists (str "p"), Projection, 3, [5]. split.
  { constructor; try (vm_compute; reflexivity); try discriminate; try (intros ? C; discriminate C); try (intros [C|C]; discriminate C).
    - exists (str "projection"). split; [vm_compute; reflexivity|constructor].
    - exists [str "word_input"]. split; [left; vm_compute; reflexivity|]. constructor; [now left|constructor].
    - exists Tanh. vm_compute. reflexivity.
    - exists [Some (str "x"); Some (str "y"); Some (str "z")]. split.
      + left. exists [str "x"; str "y"; str "z"]. split; [discriminate|]. split; [vm_compute; tauto|reflexivity].
      + right. right. split; [constructor; [cbn; lia|constructor]|]. repeat constructor; vm_compute; intro H; repeat (destruct H as [H|H]; [discriminate H|]); exact H. }
  exists (str "t"), FullyConnected, 3, [3]. split.
  { constructor; try (vm_compute; reflexivity); try discriminate; try (intros ? C; discriminate C); try (intros [C|C]; discriminate C).
    - exists (str "tanh"). split; [vm_compute; reflexivity|constructor].
    - exists [str "p"]. split; [left; vm_compute; reflexivity|]. constructor; [vm_compute; tauto|constructor].
    - exists Tanh. vm_compute. reflexivity.
    - exists [None]. split; [right; split; [vm_compute; tauto|reflexivity]|now left]. }
  constructor.
  - exists (str "output_layer"). vm_compute. reflexivity.
  - exists [3], [str "t"]. split; [left; vm_compute; reflexivity|]. constructor; [vm_compute; tauto|constructor].
  - exists Tanh. vm_compute. reflexivity.
  - exists [None]. split; [right; split; [vm_compute; tauto|reflexivity]|]. left. split; [vm_compute; reflexivity|]. split; [now left|]. exists 4, 4. vm_compute. auto.
Qed.
Example ex_small_network : exists n, ex_build None ex_small_lines = Ok n.
Proof. apply (C66_accepted ex_parse_int ex_scale ex_initial None true); [ex_ordinary|exact ex_small_accepted]. Qed.

(** Descriptions that are not accepted: three outputs on four devices, a bidirectional
    layer with one output on a device, a highway layer that has fewer outputs than inputs,
    an unknown layer, and a layer that is described later *)
Ltac ex_rejected := match goal with |- ~ accepted _ _ ?d _ ?a => let H := fresh in let O := fresh in intro H; assert (O : ordinary a) by ex_ordinary;
  apply (C66_accepted ex_parse_int ex_scale ex_initial d true a ex_words O) in H; destruct H as (? & H); vm_compute in H; discriminate H end.
Definition ex_with (line : string) : architecture :=
  ex_described ["input type=word name=word_input"; "layer type=projection name=p input=word_input size=3"; line; "layer type=softmax name=output_layer input=h"]%string.
Example ex_too_many_devices : ~ ex_accepted None ex_words (ex_with "layer type=fc name=h input=p device=a device=b device=c device=d"). Proof. ex_rejected. Qed.
Example ex_same_device : ~ ex_accepted None ex_words (ex_with "layer type=fc name=h input=p device=a device=a"). Proof. ex_rejected. Qed.
Example ex_no_backward : ~ ex_accepted (Some (str "cuda0")) ex_words (ex_with "layer type=blstm name=h input=p size=1"). Proof. ex_rejected. Qed.
Example ex_narrow_highway : ~ ex_accepted None ex_words (ex_with "layer type=highway name=h input=p size=2"). Proof. ex_rejected. Qed.
Example ex_unknown_input : ~ ex_accepted None ex_words (ex_with "layer type=fc name=h input=x"). Proof. ex_rejected. Qed.
Example ex_later_input : ~ ex_accepted None ex_words (ex_with "layer type=fc name=h input=output_layer"). Proof. ex_rejected. Qed.
