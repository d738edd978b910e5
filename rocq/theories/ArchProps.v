(** Theorems about architecture descriptions (C50, C60). *)
From Coq Require Import Sorting.Permutation Sorting.Sorted Ascii String.
From Verif Require Import Base BaseLib ListLib Strings Dict NumStr TextSpec SlfSpec LatticeExamples ArchModel ArchSpec ArchProofs ArchRead.
Local Open Scope nat_scope.
Local Open Scope list_scope.

(** ** C50 *)
(** Saving again over the state changes nothing, however many times. *)
Theorem C50_save_again a n : valid a ->
  Nat.iter n (get_state a) (get_state a None) = get_state a None.
Proof.
  intros V. induction n as [|n IH]; cbn [Nat.iter nat_rect]; [reflexivity|].
  change (get_state a (Nat.iter n (get_state a) (get_state a None)) = get_state a None).
  rewrite IH, get_state_new by exact V. now apply get_state_old.
Qed.
Print Assumptions C50_save_again.

(** Loading a saved architecture succeeds.  The inputs, and the elements of every
    list, come back in the order of their numbers as strings. *)
Theorem C50_load a : valid a ->
  exists b, from_state (get_state a None) = Ok b /\ valid b /\
    reordered loaded_options (a_inputs a) (a_inputs b) /\
    Forall2 loaded_options (a_layers a) (a_layers b) /\
    a_output b = a_output a.
Proof. intros V. rewrite get_state_new by exact V. now apply load_saved. Qed.
Print Assumptions C50_load.

(** With at most ten inputs and ten elements in a list nothing changes, and the
    loaded architecture is accepted by the check.  The number of layers is not
    limited. *)
Theorem C50_load_same a : valid a -> at_most 10 a ->
  exists b, from_state (get_state a None) = Ok b /\ same_architecture a b /\
    check_state b (get_state a None) = Ok tt /\ check_state a (get_state a None) = Ok tt.
Proof.
  intros V [Li Si Sl]. destruct (C50_load a V) as (b & E & Vb & Ri & Rl & Ro). exists b.
  assert (Sm : same_architecture a b).
  { constructor; [|now apply loaded_all_small|congruence].
    apply loaded_all_small; [exact Si|]. now apply reordered_small. }
  split; [exact E|]. split; [exact Sm|].
  rewrite get_state_new by exact V. split; apply check_saved; auto; [|now apply covered_refl].
  destruct Sm as [S1 S2 S3]. constructor; [now apply same_covered_list|now apply same_covered_list|congruence].
Qed.
Print Assumptions C50_load_same.

(** An order of more than ten numbers as strings is never the order of the numbers. *)
Theorem C50_more_than_ten n order : 10 < n -> string_order n order -> order <> seq 0 n.
Proof. apply order_large. Qed.
Print Assumptions C50_more_than_ten.

(** What the check compares *)
Theorem C50_check_exact a b : valid a -> valid b ->
  check_state a (get_state b None) = Ok tt <-> covered a b.
Proof. intros Va Vb. rewrite get_state_new by exact Vb. now apply check_saved. Qed.
Print Assumptions C50_check_exact.

Theorem C50_check_same_shape a b : valid a -> valid b -> same_shapes a b ->
  check_state a (get_state b None) = Ok tt <-> same_architecture a b.
Proof.
  intros Va Vb [H1 H2]. rewrite C50_check_exact by assumption. split.
  - intros [C1 C2 C3]. constructor; [now apply shape_covered_list|now apply shape_covered_list|exact C3].
  - assert (Sym : forall l l' : list options, Forall2 same_options l l' -> Forall2 same_options l' l).
    { induction 1 as [|o o' l l' H F IH]; constructor; [|exact IH]. intros k. symmetry. apply H. }
    intros [S1 S2 S3]. constructor; [apply same_covered_list|apply same_covered_list|exact S3]; now apply Sym.
Qed.
Print Assumptions C50_check_same_shape.

Theorem C50_check_errors a st e : check_state a st = Err e -> e = IncompatibleStateError \/ e = KeyError.
Proof. apply check_errors. Qed.
Print Assumptions C50_check_errors.

(** ** Examples *)
Definition ex_opt (k v : string) : pystr * value := (str k, One (SStr (str v))).
Definition ex_strs (l : list string) : value := Many (map (fun s => SStr (str s)) l).
Definition ex_layer (name type : string) (inputs devices : list string) : options :=
  [(str "inputs", ex_strs inputs); (str "devices", ex_strs devices); ex_opt "type" type; ex_opt "name" name].
Definition ex_input (name : string) : options := [ex_opt "type" "class"; ex_opt "name" name].

Definition ex_arch : architecture :=
  mkArch [ex_input "class_input"]
         [ex_layer "projection_layer" "projection" ["class_input"%string] [];
          ex_layer "hidden_layer_1" "lstm" ["projection_layer"%string] ["dev0"; "dev1"]%string;
          ex_layer "output_layer" "softmax" ["hidden_layer_1"; "projection_layer"]%string []]
         (SStr (str "output_layer")).

Ltac ex_nodup := unfold dictionary, ex_layer, ex_input, ex_opt; cbn [map fst];
  repeat (constructor; [cbn [In]; intros H; repeat (destruct H as [H|H]; [vm_compute in H; discriminate|]); exact H|]); constructor.
Lemma ex_layer_dictionary n t i d : dictionary (ex_layer n t i d).
Proof. ex_nodup. Qed.
Lemma ex_input_dictionary n : dictionary (ex_input n).
Proof. ex_nodup. Qed.
Lemma ex_layer_lists n t i d : List.length i <= 10 -> List.length d <= 10 -> short_lists 10 (ex_layer n t i d).
Proof.
  intros Hi Hd k vs. unfold option_value, ex_layer, ex_opt. cbn [dict_get].
  destruct (pystr_eq_dec k (str "inputs")).
  { intros [= <-]. now rewrite map_length. }
  destruct (pystr_eq_dec k (str "devices")).
  { intros [= <-]. now rewrite map_length. }
  destruct (pystr_eq_dec k (str "type")); [discriminate|]. destruct (pystr_eq_dec k (str "name")); discriminate.
Qed.
Lemma ex_input_lists n : short_lists 10 (ex_input n).
Proof.
  intros k vs. unfold option_value, ex_input, ex_opt. cbn [dict_get].
  destruct (pystr_eq_dec k (str "type")); [discriminate|]. destruct (pystr_eq_dec k (str "name")); discriminate.
Qed.

Ltac ex_dictionaries :=
  repeat (apply Forall_cons; [first [apply ex_input_dictionary|apply ex_layer_dictionary]|]); apply Forall_nil.
Example ex_arch_valid : valid ex_arch /\ at_most 10 ex_arch.
Proof.
  split; constructor; cbn [a_inputs a_layers ex_arch]; try discriminate.
  - ex_dictionaries.
  - ex_dictionaries.
  - cbn. lia.
  - constructor; [apply ex_input_lists|constructor].
  - constructor; [|constructor; [|constructor; [|constructor]]]; apply ex_layer_lists; cbn; lia.
Qed.
Example ex_arch_loads :
  exists b, from_state (get_state ex_arch None) = Ok b /\ same_architecture ex_arch b /\ List.length (a_layers b) = 3.
Proof.
  destruct (C50_load_same ex_arch (proj1 ex_arch_valid) (proj2 ex_arch_valid)) as (b & E & Sm & _).
  exists b. split; [exact E|]. split; [exact Sm|]. apply sa_layers in Sm. apply Forall2_len in Sm.
  rewrite <- Sm. reflexivity.
Qed.

(** A layer with eleven inputs cannot be loaded back: the inputs are reordered, and
    the check that follows loading rejects the state. *)
Definition ex_eleven : architecture :=
  mkArch [ex_input "i0"]
         [ex_layer "sum" "add" ["a0"; "a1"; "a2"; "a3"; "a4"; "a5"; "a6"; "a7"; "a8"; "a9"; "a10"]%string []]
         (SStr (str "sum")).
Theorem C50_eleven_inputs_refuted :
  ~ (forall a, valid a -> exists b, from_state (get_state a None) = Ok b /\ same_architecture a b) /\
  ~ (forall a b, valid a -> from_state (get_state a None) = Ok b -> check_state b (get_state a None) = Ok tt).
Proof.
  assert (V : valid ex_eleven).
  { constructor; cbn [a_inputs a_layers ex_eleven]; try discriminate; ex_dictionaries. }
  assert (L : match from_state (get_state ex_eleven None) with
              | Ok b => check_state b (get_state ex_eleven None) = Err IncompatibleStateError
              | Err _ => False end) by (vm_compute; reflexivity).
  split; intros H.
  - destruct (H ex_eleven V) as (b & E & Sm). rewrite E in L.
    rewrite get_state_new in L by exact V.
    assert (C : check_state b (saved ex_eleven) = Ok tt); [|congruence].
    destruct (load_saved ex_eleven V) as (b' & E' & Vb & _). rewrite get_state_new in E by exact V.
    assert (b' = b) as -> by congruence. apply check_saved; auto.
    destruct Sm as [S1 S2 S3]. constructor; [now apply same_covered_list|now apply same_covered_list|congruence].
  - destruct (from_state (get_state ex_eleven None)) as [b|e] eqn:E; [|exact L].
    specialize (H ex_eleven b V E). congruence.
Qed.
Print Assumptions C50_eleven_inputs_refuted.

(** The state of a network with more layers, or with more inputs to a layer, is
    accepted when the rest is the same. *)
Definition ex_more : architecture :=
  mkArch (a_inputs ex_arch ++ [ex_input "word_input"])
         (a_layers ex_arch ++ [ex_layer "extra_layer" "tanh" ["output_layer"%string] []])
         (SStr (str "output_layer")).
Theorem C50_different_architecture_refuted :
  ~ (forall a b, valid a -> valid b -> check_state a (get_state b None) = Ok tt -> same_architecture a b).
Proof.
  intros H. assert (V : valid ex_more).
  { constructor; cbn [a_inputs a_layers ex_arch ex_more app]; try discriminate; ex_dictionaries. }
  specialize (H ex_arch ex_more (proj1 ex_arch_valid) V ltac:(vm_compute; reflexivity)).
  apply sa_layers, Forall2_len in H. discriminate.
Qed.
Print Assumptions C50_different_architecture_refuted.

(** The check rejects a state in which one option differs. *)
Definition ex_other : architecture :=
  mkArch [ex_input "class_input"]
         [ex_layer "projection_layer" "projection" ["class_input"%string] [];
          ex_layer "hidden_layer_1" "gru" ["projection_layer"%string] ["dev0"; "dev1"]%string;
          ex_layer "output_layer" "softmax" ["hidden_layer_1"; "projection_layer"]%string []]
         (SStr (str "output_layer")).
Example ex_other_rejected : check_state ex_arch (get_state ex_other None) = Err IncompatibleStateError.
Proof. vm_compute. reflexivity. Qed.

(** ** C60 *)
(** A description file is read to the inputs and layers that its lines hold. *)
Theorem C60_reads parse_int lines a :
  (forall es, Forall2 line_holds lines es -> Forall no_reserved (layer_rows es)) ->
  from_description parse_int lines = Ok a ->
  exists es, Forall2 line_holds lines es /\ describes parse_int es a.
Proof. apply from_description_ok. Qed.
Print Assumptions C60_reads.

Theorem C60_accepts parse_int lines es a :
  Forall no_reserved (layer_rows es) -> Forall2 line_holds lines es -> describes parse_int es a ->
  exists b, from_description parse_int lines = Ok b /\ same_architecture a b.
Proof. apply from_description_complete. Qed.
Print Assumptions C60_accepts.

(** The exceptions: InputError, what int() raises for a size, and AttributeError
    when a layer has a field [inputs] or [devices]. *)
Theorem C60_errors parse_int lines e : from_description parse_int lines = Err e ->
  e = InputError \/ (exists v, parse_int v = Err e) \/ e = AttributeError.
Proof. apply from_description_errors. Qed.
Print Assumptions C60_errors.

Theorem C60_attribute_error parse_int lines : from_description parse_int lines = Err AttributeError ->
  (exists v, parse_int v = Err AttributeError) \/
  exists line toks field n v, In line lines /\ tokens line (str "layer" :: toks) /\ In field toks /\
    is_field field (n, v) /\ (n = str "inputs" \/ n = str "devices").
Proof.
  intros H. destruct (from_description_attribute parse_int lines H) as [?|(l & t & f & Hl & Ht & Hf & n & v & Hv & Hn)]; [now left|].
  right. exists l, t, f, n, v. repeat split; auto; try apply Hv. destruct Hn as [<-|[<-|[]]]; auto.
Qed.
Print Assumptions C60_attribute_error.

(** lstm300.arch of the package, with a second input to the third layer *)
Definition ex_lines : list pystr :=
  map str ["input type=class name=class_input"; "# comment"; "";
           "layer type=projection name=projection_layer input=class_input size=100";
           "layer type=lstm name=hidden_layer_1 input=projection_layer size=300";
           "layer  type=tanh  name=hidden_layer_2 input=hidden_layer_1 input=projection_layer size=300";
           "layer type=softmax name=output_layer input=hidden_layer_2"]%string.
Example ex_lines_read :
  match from_description ex_parse_int ex_lines with
  | Ok a => List.length (a_inputs a) = 1 /\ List.length (a_layers a) = 4 /\ a_output a = SStr (str "output_layer") /\
            option_value (nth 2 (a_layers a) []) (str "inputs") = Some (ex_strs ["hidden_layer_1"; "projection_layer"]%string) /\
            option_value (nth 0 (a_layers a) []) (str "size") = Some (One (SInt 100))
  | Err _ => False
  end.
Proof. vm_compute. repeat split; reflexivity. Qed.
Definition ex_row (l : list (string * string)) : row := map (fun nv => (str (fst nv), str (snd nv))) l.
Definition ex_elements : list (option element) :=
  [Some (EInput (ex_row [("type", "class"); ("name", "class_input")]%string)); None; None;
   Some (ELayer (ex_row [("type", "projection"); ("name", "projection_layer"); ("input", "class_input"); ("size", "100")]%string));
   Some (ELayer (ex_row [("type", "lstm"); ("name", "hidden_layer_1"); ("input", "projection_layer"); ("size", "300")]%string));
   Some (ELayer (ex_row [("type", "tanh"); ("name", "hidden_layer_2"); ("input", "hidden_layer_1"); ("input", "projection_layer"); ("size", "300")]%string));
   Some (ELayer (ex_row [("type", "softmax"); ("name", "output_layer"); ("input", "hidden_layer_2")]%string))].
Lemma ex_tokens line toks : split line = toks -> tokens line toks.
Proof. intros <-. apply TextProofs.split_tokens. Qed.
Ltac ex_fields := repeat (apply Forall2_cons; [split; [vm_compute; reflexivity|vm_compute; intuition discriminate]|]); apply Forall2_nil.
Example ex_lines_hold : Forall2 line_holds ex_lines ex_elements /\ Forall no_reserved (layer_rows ex_elements).
Proof.
  split.
  - unfold ex_lines, ex_elements. cbn [map].
    apply Forall2_cons; [eapply lh_input; [apply ex_tokens; vm_compute; reflexivity|ex_fields]|].
    apply Forall2_cons; [eapply lh_comment; apply ex_tokens; vm_compute; reflexivity|].
    apply Forall2_cons; [apply lh_blank; apply ex_tokens; vm_compute; reflexivity|].
    repeat (apply Forall2_cons; [eapply lh_layer; [apply ex_tokens; vm_compute; reflexivity|ex_fields]|]). apply Forall2_nil.
  - repeat constructor; vm_compute; intuition discriminate.
Qed.
Example ex_lines_described : exists a, from_description ex_parse_int ex_lines = Ok a /\ describes ex_parse_int ex_elements a.
Proof.
  destruct (from_description ex_parse_int ex_lines) as [a|e] eqn:E.
  - exists a. split; [reflexivity|]. destruct ex_lines_hold as [H R]. apply C60_reads in E as (es & F & D).
    + now rewrite (holds_all_unique _ _ _ H F).
    + intros es F. now rewrite <- (holds_all_unique _ _ _ H F).
  - exfalso. pose proof ex_lines_read as L. now rewrite E in L.
Qed.
(** Without the restriction the fields would not be the options: a field [inputs]
    replaces the list of inputs by a string. *)
Example ex_reserved :
  from_description ex_parse_int [str "input type=class name=i"; str "layer type=a name=x inputs=i input=i"] = Err AttributeError /\
  from_description ex_parse_int [str "input type=class name=i"; str "layer type=a name=x input=i inputs=i"] =
  Ok (mkArch [[ex_opt "type" "class"; ex_opt "name" "i"]]
             [[ex_opt "inputs" "i"; (str "devices", Many []); ex_opt "type" "a"; ex_opt "name" "x"]] (SStr (str "x"))).
Proof. split; vm_compute; reflexivity. Qed.
