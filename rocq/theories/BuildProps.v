(** C61: a network that has been built from an architecture description and a vocabulary
    computes probabilities of the right dimensions, for every mini-batch. *)
From Coq Require Import ZArith QArith Qcanon Ascii String.
From Verif Require Import Base BaseLib ListLib Strings NumStr VocabModel VocabProps LatticeExamples ArchModel ArchSpec NetModel NetSpec NetExamples
  DeviceModel DeviceSpec DeviceNet OutputModel BuildModel BuildSpec BuildShape BuildLayers BuildNet BuildProofs BuildParams ArchProofs.
Local Open Scope nat_scope.
Local Open Scope list_scope.

Section Props.
Context {A : arith}.
Variable parse_int : pystr -> result Z.
Variable dropout_scale : option ArchModel.value -> result (num A).
Variable initial : pystr -> pystr -> nat -> nat -> nat -> num A.
Notation build := (build parse_int dropout_scale initial).

(** If the layers are connected properly, and placed on devices that they support, the
    probabilities of all the classes, and of any targets, can be computed. *)
Theorem C61_evaluates default exclude_unk a v n : build default exclude_unk a v = Ok n ->
  Forall (connected a) (a_layers a) -> Forall (placed_well default) (a_layers a) ->
  forall T N b, T <> 0 -> valid_batch v T N b ->
  (exists p, output_probs n b = Ok p /\ tensor_shape T N (num_classes v) p) /\
  (forall targets, rectangle T N targets -> Forall (Forall (fun c => c < num_classes v)) targets ->
   exists q, target_probs n b targets = Ok q /\ rectangle T N q).
Proof.
  intros B CN PW T N b HT [[DW DC DM] VW VC]. destruct (build_inv _ _ _ _ _ _ _ _ B) as (ds & out & C & D & OO & EC & EP & _).
  apply EC in CN as (AF & ON & OF). apply EP in PW as [W OW].
  destruct (network_runs initial v T N HT b (conj DW VW) (conj DC VC) Minibatch ds out n D AF W OO ON OF OW C DM I) as [(p & st & E & S & _) TP].
  split; [exists p; split; [unfold output_probs; now rewrite E|exact S]|]. 
  intros targets RT BT. destruct (TP targets RT BT) as (q & st' & Eq & Rq). exists q. unfold target_probs. rewrite Eq. auto.
Qed.

(** Otherwise nothing can be computed, whatever the mini-batch is. *)
Theorem C61_otherwise default exclude_unk a v n : build default exclude_unk a v = Ok n ->
  ~ (Forall (connected a) (a_layers a) /\ Forall (placed_well default) (a_layers a)) ->
  (forall m b, exists e, eval_network n m b = Err e) /\ (forall b targets, exists e, target_probs n b targets = Err e).
Proof.
  intros B H. destruct (build_inv _ _ _ _ _ _ _ _ B) as (ds & out & C & D & OO & EC & EP & _).
  assert (Z : ((exists m b r, eval_network n m b = Ok r) \/ (exists b t r, target_probs n b t = Ok r)) -> False).
  { intro Z. apply H. rewrite EC, EP. split; [exact (network_needs _ _ _ C Z)|exact (devices_need _ _ _ _ _ C D OO Z)]. }
  split.
  - intros m b. destruct (eval_network n m b) as [r|e] eqn:E; [|eauto]. exfalso. apply Z. left. eauto.
  - intros b t. destruct (target_probs n b t) as [r|e] eqn:E; [|eauto]. exfalso. apply Z. right. eauto.
Qed.

(** One time step at a time: any number of steps, for any number of sequences *)
Theorem C61_steps default exclude_unk a v n : build default exclude_unk a v = Ok n ->
  Forall (connected a) (a_layers a) -> Forall (placed_well default) (a_layers a) -> Forall stepwise_type (a_layers a) ->
  forall N, state_shape n N (initial_state n N) /\
  forall xs state, Forall (valid_step v N) xs -> state_shape n N state ->
  exists ps state', run_steps n xs state = Ok (ps, state') /\ tensor_shape (length xs) N (num_classes v) ps /\ state_shape n N state'.
Proof.
  intros B CN PW SW N. destruct (build_inv _ _ _ _ _ _ _ _ B) as (ds & out & C & D & OO & EC & EP & ES & _).
  apply EC in CN as (AF & ON & OF). apply EP in PW as [W OW]. apply ES in SW. split.
  - unfold state_shape, initial_state. induction (flat_map state_sizes (n_layers n)) as [|s l IH]; cbn [map]; constructor; [|exact IH].
    split; [apply repeat_length|]. apply Forall_forall. intros x Hx. apply repeat_spec in Hx as ->. apply repeat_length.
  - assert (SL : Forall stepwise_layer (n_layers n)).
    { destruct (created_network _ _ _ C) as (ls & CL & -> & _). cbn [n_layers]. clear - CL SW. revert ls CL. generalize (@nil nat).
      induction ds as [|d ds IH]; intros sizes ls; cbn [create_layers]; [intro H; injection H as <-; constructor|].
      destruct (create_layer sizes d) as [l|] eqn:CL; cbn [bind]; [|discriminate]. destruct (create_layers _ ds) as [r|] eqn:CR; cbn [bind]; [|discriminate].
      intro H. injection H as <-. inversion_clear SW as [|? ? S1 S2]. constructor; [|eapply IH; eauto]. destruct (created_layer _ _ _ CL) as (? & _ & -> & _). exact S1. }
    induction xs as [|[w c] xs IH]; intros state VS SS; cbn [run_steps]; [exists [], state; split; [reflexivity|]; split; [split; [reflexivity|constructor]|exact SS]|].
    apply Forall_cons_iff in VS as [(L1 & L2 & F1 & F2) VS']. cbn [fst snd] in L1, L2, F1, F2.
    assert (R : forall X (l : list X), length l = N -> rectangle 1 N [l]) by (intros; split; [reflexivity|constructor; [assumption|constructor]]).
    assert (RM : rectangle 1 N (mask_of (Step state) (mkBatch [w] [c] [] None))) by (cbn [mask_of b_words map]; apply R; now rewrite map_length).
    assert (SO : step_ok 1 N (Step state) 0 (n_layers n)) by (split; [reflexivity|]; split; [exact SL|exact SS]).
    assert (VW : Forall (Forall (fun w => w < num_shortlist_words v)) [w]) by (constructor; [exact F1|constructor]).
    assert (VC : Forall (Forall (fun c => c < num_classes v)) [c]) by (constructor; [exact F2|constructor]).
    destruct (network_runs initial v 1 N ltac:(discriminate) (mkBatch [w] [c] [] None) (conj (R _ w L1) VW) (conj (R _ c L2) VC) (Step state)
      ds out n D AF W OO ON OF OW C RM SO) as [(p & st & E & S & ST) _].
    unfold step_network. rewrite E. cbn [bind]. destruct S as [Lp Fp]. destruct p as [|p0 [|? ?]]; try discriminate. unfold py_index. cbn [nth_error bind].
    destruct (IH st VS' ST) as (ps & st' & -> & [Lps Fps] & ST'). cbn [bind]. eexists _, st'. split; [reflexivity|]. split; [|exact ST'].
    inversion_clear Fp as [|? ? Fp0 _]. split; [cbn; now rewrite Lps|]. constructor; [exact Fp0|exact Fps].
Qed.

(** A layer reads only layers before it, and its weights have as many rows as it has
    input features. *)
Theorem C61_parameters default exclude_unk a v n : build default exclude_unk a v = Ok n ->
  (forall k l, nth_error (n_layers n) k = Some l -> Forall (fun i => i < k) (l_inputs l) /\ weights_match l (input_sizes n (l_inputs l))) /\
  Forall (fun i => i < length (n_layers n)) (n_inputs n) /\ output_weights_match n (total (input_sizes n (n_inputs n))) /\
  n_size n = num_classes v.
Proof.
  intros B. destruct (build_inv _ _ _ _ _ _ _ _ B) as (ds & out & C & D & OO & _). destruct (created_network _ _ _ C) as (ls & CL & EN & _).
  assert (EL : n_layers n = ls) by now rewrite EN. unfold input_sizes. rewrite EL, (created_sizes _ _ _ CL). split; [|split; [|split]].
  - intros k l Hk. exact (layers_match initial v ds [] ls k l D CL Hk).
  - destruct (output_match initial v ds out n C OO) as [F _]. rewrite <- (map_length l_size), (created_sizes _ _ _ CL), map_length. exact F.
  - exact (proj2 (output_match initial v ds out n C OO)).
  - rewrite EN. cbn [n_size]. exact (proj1 OO).
Qed.

(** When a default device is given, and the description does not name the devices of the
    output layer, nothing can be computed. *)
Theorem C61_default_device_refuted device exclude_unk a v n output : build (Some device) exclude_unk a v = Ok n ->
  In output (a_layers a) -> has_type output (str "softmax") \/ has_type output (str "hsoftmax") -> (forall names, listed output (str "devices") names -> names = []) ->
  (forall m b, exists e, eval_network n m b = Err e) /\ (forall b targets, exists e, target_probs n b targets = Err e).
Proof.
  intros B Ho Ht Hd. eapply C61_otherwise; [exact B|]. intros [_ P]. rewrite Forall_forall in P. destruct (P _ Ho) as [P1 P2].
  destruct Ht as [Ht|Ht].
  - destruct (P2 Ht) as [[? _]|(d & d' & names & L)]; [discriminate|]. apply Hd in L. discriminate.
  - destruct (P1 (or_intror Ht)) as [? _]. discriminate.
Qed.
End Props.
Print Assumptions C61_evaluates.
Print Assumptions C61_otherwise.
Print Assumptions C61_steps.
Print Assumptions C61_parameters.
Print Assumptions C61_default_device_refuted.

(** ** Examples *)
(** Words, and nothing for the special tokens *)
Definition ex_words := get_vocab (from_file ex_int ex_float Words [str "a"; str "b"] []).
Definition ex_described (lines : list string) : architecture :=
  match from_description ex_parse_int (map str lines) with Ok a => a | Err _ => mkArch [] [] (SInt 0) end.
Definition ex_initial (layer name : pystr) (i r c : nat) : num integers := Z.of_nat (i + r + c).
Definition ex_scale (rate : option ArchModel.value) : result (num integers) := Ok 2%Z.
Definition ex_build (default : option pystr) (lines : list string) : result (network integers) :=
  build ex_parse_int ex_scale ex_initial default true (ex_described lines) ex_words.
Definition ex_lines : list string :=
  ["input type=word name=word_input"; "input type=class name=class_input";
   "layer type=projection name=p input=word_input size=3"; "layer type=projection name=q input=class_input size=2";
   "layer type=lstm name=hidden_layer_1 input=p input=q size=4 device=x device=y"; "layer type=dropout name=d input=hidden_layer_1";
   "layer type=highway name=hidden_layer_2 input=d device=x"; "layer type=gru name=hidden_layer_3 input=hidden_layer_2 input=p size=3";
   "layer type=add name=sum input=hidden_layer_3 input=p input=hidden_layer_2"; "layer type=softmax name=output_layer input=sum"]%string.
Definition ex_bidirectional_lines : list string :=
  ["input type=class name=class_input"; "layer type=projection name=p input=class_input size=3";
   "layer type=blstm name=b input=p size=5"; "layer type=glu name=g input=b size=2 filter_size=3";
   "layer type=hsoftmax name=output_layer input=g input=p"]%string.
(** The output layer reads the network input. *)
Definition ex_wrong_lines : list string :=
  ["input type=class name=class_input"; "layer type=projection name=p input=class_input size=3"; "layer type=softmax name=output_layer input=class_input"]%string.

Definition ex_names (o : option_dict) (key : pystr) : list pystr :=
  match oget o key with Some (Many l) => map (fun x => match x with SStr t => t | SInt _ => [] end) l | _ => [] end.
Ltac ex_not_type := let H := fresh in intro H; vm_compute in H; discriminate H.
Ltac ex_only_forward := hnf; repeat match goal with |- _ /\ _ => split end; first [ex_not_type|let H := fresh in intros [_ H]; vm_compute in H; discriminate H].
Ltac ex_not_input := let H := fresh in let Hi := fresh in intros (? & Hi & H); vm_compute in Hi;
  repeat (destruct Hi as [Hi|Hi]; [subst; vm_compute in H; discriminate H|]); exact Hi.
Ltac ex_is_input := match goal with |- is_input ?a _ =>
  first [exists (nth 0 (a_inputs a) []); split; [vm_compute; left; reflexivity|vm_compute; reflexivity]
        |exists (nth 1 (a_inputs a) []); split; [vm_compute; right; left; reflexivity|vm_compute; reflexivity]] end.
Ltac ex_connected := unfold connected;
  match goal with |- (has_type ?o _ -> _) /\ _ => split;
    [first [ex_not_type|intros _; exists (hd [] (ex_names o (str "inputs"))); split; [left; vm_compute; reflexivity|ex_is_input]]
    |let Ht := fresh in intro Ht; first [exfalso; apply Ht; vm_compute; reflexivity|
       exists (ex_names o (str "inputs")); split; [left; vm_compute; reflexivity|]; split; [vm_compute; discriminate|];
       match goal with |- Forall _ ?l => let l' := eval vm_compute in l in change l with l' end;
       repeat (apply Forall_cons; [ex_not_input|]); apply Forall_nil]] end.
Ltac ex_no_names := let L := fresh in let x := fresh in intros x [L|(? & L & _)]; [destruct x; [reflexivity|]|]; exfalso; vm_compute in L; discriminate L.
Ltac ex_no_device := split; [reflexivity|ex_no_names].
Ltac ex_placed := let H := fresh in split; [intros [H|H]|intro H; first [vm_compute in H; discriminate H|left]]; first [vm_compute in H; discriminate H|ex_no_device].
Ltac ex_layers tac := match goal with |- Forall _ ?l => let l' := eval vm_compute in l in change l with l' end;
  repeat (apply Forall_cons; [solve [tac]|]); apply Forall_nil.
Lemma ex_ok X (r : result X) : (if r then true else false) = true -> exists x, r = Ok x.
Proof. destruct r; [eauto|discriminate]. Qed.

Example ex_lines_meet : Forall (connected (ex_described ex_lines)) (a_layers (ex_described ex_lines)) /\
  Forall (placed_well None) (a_layers (ex_described ex_lines)) /\ Forall stepwise_type (a_layers (ex_described ex_lines)) /\
  List.length (a_layers (ex_described ex_lines)) = 8 /\ exists n, ex_build None ex_lines = Ok n.
Proof.
  split; [ex_layers ex_connected|]. split; [ex_layers ex_placed|]. split; [ex_layers ex_only_forward|]. split; [vm_compute; reflexivity|].
  apply ex_ok. vm_compute. reflexivity.
Qed.
Example ex_bidirectional_meet : Forall (connected (ex_described ex_bidirectional_lines)) (a_layers (ex_described ex_bidirectional_lines)) /\
  Forall (placed_well None) (a_layers (ex_described ex_bidirectional_lines)) /\ exists n, ex_build None ex_bidirectional_lines = Ok n.
Proof. split; [ex_layers ex_connected|]. split; [ex_layers ex_placed|]. apply ex_ok. vm_compute. reflexivity. Qed.
Definition ex_batch : batch := mkBatch [[3; 3]; [0; 1]; [1; 0]] [[3; 3]; [0; 1]; [1; 0]] [[true; true]; [true; true]; [false; true]] None.
Ltac ex_shape := repeat (split || constructor); vm_compute; lia.
Example ex_batch_valid : valid_batch ex_words 3 2 ex_batch.
Proof. constructor; [constructor| |]; ex_shape. Qed.
(** Both networks compute probabilities of the five classes, for the two sequences. *)
Example ex_lines_probs : exists n p, ex_build None ex_lines = Ok n /\ output_probs n ex_batch = Ok p /\ tensor_shape 3 2 5 p.
Proof.
  destruct ex_lines_meet as (CN & PW & _ & _ & n & B). destruct (C61_evaluates _ _ _ _ _ _ _ _ B CN PW 3 2 ex_batch ltac:(discriminate) ex_batch_valid) as [(p & E & S) _].
  exists n, p. auto.
Qed.
Example ex_lines_steps : exists n ps state, ex_build None ex_lines = Ok n /\
  run_steps n [([3; 3; 3], [3; 3; 3]); ([0; 1; 2], [0; 1; 2])] (initial_state n 3) = Ok (ps, state) /\ tensor_shape 2 3 5 ps /\ List.length state = 3.
Proof.
  destruct ex_lines_meet as (CN & PW & SW & _ & n & B). destruct (C61_steps _ _ _ _ _ _ _ _ B CN PW SW 3) as [SI ST].
  destruct (ST [([3; 3; 3], [3; 3; 3]); ([0; 1; 2], [0; 1; 2])] (initial_state n 3)) as (ps & st & E & S & F); [ex_shape|exact SI|].
  exists n, ps, st. repeat (split; [assumption|]). unfold state_shape in F. apply Forall2_len in F. rewrite <- F.
  assert (X : match ex_build None ex_lines with Ok n => List.length (flat_map state_sizes (n_layers n)) = 3 | Err _ => False end) by (vm_compute; reflexivity).
  now rewrite B in X.
Qed.
(** With a default device the network is built, but nothing can be computed with it. *)
Example ex_lines_default : exists n, ex_build (Some (str "cuda0")) ex_lines = Ok n /\ forall m b, exists e, eval_network n m b = Err e.
Proof.
  destruct (ex_ok _ (ex_build (Some (str "cuda0")) ex_lines) ltac:(vm_compute; reflexivity)) as (n & B). exists n. split; [exact B|].
  refine (proj1 (C61_default_device_refuted _ _ _ _ _ _ _ _ (last (a_layers (ex_described ex_lines)) []) B _ (or_introl _) _)).
  - vm_compute. do 7 right. now left.
  - vm_compute. reflexivity.
  - ex_no_names.
Qed.
Example ex_wrong_network : exists n, ex_build None ex_wrong_lines = Ok n /\ forall m b, exists e, eval_network n m b = Err e.
Proof.
  destruct (ex_ok _ (ex_build None ex_wrong_lines) ltac:(vm_compute; reflexivity)) as (n & B). exists n. split; [exact B|].
  refine (proj1 (C61_otherwise _ _ _ _ _ _ _ _ B _)). intros [C _]. rewrite Forall_forall in C.
  destruct (C (last (a_layers (ex_described ex_wrong_lines)) [])) as [_ C1]; [vm_compute; right; now left|].
  destruct C1 as (names & L & _ & F); [ex_not_type|].
  assert (E : names = [str "class_input"]).
  { eapply listed_unique; [exact L|]. left. vm_compute. reflexivity. }
  subst names. inversion_clear F as [|? ? F1 _]. apply F1. ex_is_input.
Qed.
