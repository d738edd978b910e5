(** Recurrent states: C49. *)
From Verif Require Import Base BaseLib ListLib Strings ParamModel NetModel NetSpec NetColumns NetStepCols NetReal NetExamples StateModel StateSpec StateProofs.
Local Open Scope nat_scope.

(** A new state has a vector of zeros for every layer and sequence. *)
Theorem C49_initial_state X (zero : X) sizes sequences : exists st, construct zero sizes sequences None = Ok st /\ state_of sizes sequences st /\
  state_vectors st = map (fun size => repeat (repeat zero size) sequences) sizes.
Proof.
  eexists. split; [reflexivity|]. split; [apply zero_state_of|]. unfold state_vectors. cbn [r_variables]. rewrite map_map. apply map_ext.
  intro size. unfold vectors. cbn [a_data zero_array concat]. apply app_nil_r.
Qed.
Print Assumptions C49_initial_state.

(** Setting a state succeeds exactly when there is an array of the right shape for every
    layer, and then the arrays can be read back. *)
Theorem C49_set X (st : state X) arrays :
  (Forall2 (fun a size => a_shape a = (1, r_sequences st, size)) arrays (r_sizes st) ->
   exists st', set st arrays = Ok st' /\ get_all st' = arrays /\ r_sizes st' = r_sizes st /\ r_sequences st' = r_sequences st) /\
  (~ Forall2 (fun a size => a_shape a = (1, r_sequences st, size)) arrays (r_sizes st) -> set st arrays = Err ValueError).
Proof.
  destruct (set_cases st arrays) as [[E F]|[E F]]; split; intro H; try contradiction; [|exact E].
  eexists. split; [exact E|]. repeat split.
Qed.
Print Assumptions C49_set.
Example C49_set_example : let st := mkState [2; 1] 1 [] in
  let a := mkArray (1, 1, 2) [[[true; false]]] in let b := mkArray (1, 1, 1) [[[true]]] in
  set st [a; b] = Ok (mkState [2; 1] 1 [a; b]) /\ set st [b; a] = Err ValueError /\ set st [a] = Err ValueError.
Proof. repeat split. Qed.

(** Combining states of the same layers: the sequences one after another, in the same
    order *)
Theorem C49_combine X (zero : X) sizes (states : list (state X)) : states <> [] ->
  Forall (fun st => exists sequences, state_of sizes sequences st) states ->
  exists whole, combine_sequences zero states = Ok whole /\
  state_of sizes (fold_right (fun st n => r_sequences st + n) 0 states) whole /\
  forall layer, layer < length sizes ->
    nth layer (state_vectors whole) [] = concat (map (fun st => nth layer (state_vectors st) []) states).
Proof. apply combine_ok. Qed.
Print Assumptions C49_combine.
Theorem C49_combine_nothing X (zero : X) : combine_sequences zero [] = Err ValueError.
Proof. reflexivity. Qed.
Print Assumptions C49_combine_nothing.

(** Combining the states of hypotheses and extracting that of one of them, the way
    lattice decoding does *)
Theorem C49_extract X (zero : X) sizes (states : list (state X)) i st :
  Forall (state_of sizes 1) states -> nth_error states i = Some st ->
  exists whole, combine_sequences zero states = Ok whole /\ token_state zero sizes (get_all whole) i = Ok st.
Proof. apply combine_extract. Qed.
Print Assumptions C49_extract.
Definition ex_state (a b : nat) : state nat := mkState [2; 1] 1 [mkArray (1, 1, 2) [[[a; b]]]; mkArray (1, 1, 1) [[[a + b]]]].
Example C49_extract_example : Forall (state_of [2; 1] 1) [ex_state 1 2; ex_state 3 4; ex_state 5 6] /\
  combine_sequences 0 [ex_state 1 2; ex_state 3 4; ex_state 5 6] =
    Ok (mkState [2; 1] 3 [mkArray (1, 3, 2) [[[1; 2]; [3; 4]; [5; 6]]]; mkArray (1, 3, 1) [[[3]; [7]; [11]]]]).
Proof.
  split; [|reflexivity]. assert (H : forall a b, state_of [2; 1] 1 (ex_state a b)) by (intros; repeat (constructor || split)). repeat constructor; apply H.
Qed.

(** ** Hypotheses that are processed in parallel *)

(** When words are appended to many hypotheses in one step, each hypothesis gets the
    distribution and the recurrent state that it gets when it is processed alone. *)
Theorem C49_parallel_steps A (n : network A) sizes (states : list (state (num A))) whole words classes p new_state :
  Forall (state_of sizes 1) states -> combine_sequences zero states = Ok whole ->
  step_network n words classes (state_vectors whole) = Ok (p, new_state) ->
  forall i w c st, nth_error words i = Some w -> nth_error classes i = Some c -> nth_error states i = Some st ->
  step_network n [w] [c] (state_vectors st) = Ok (sel i p, map (sel i) new_state).
Proof.
  intros F C E i w c st Hw Hc Hs.
  destruct (combine_extract zero sizes states i st F Hs) as (whole' & C' & T). assert (whole' = whole) as -> by congruence.
  assert (W : state_of sizes (length states) whole).
  { assert (NE : states <> []) by (intros ->; destruct i; discriminate).
    destruct (combine_ok zero sizes states NE) as (w' & E' & W & _); [eapply Forall_impl; [|exact F]; intros s0 H0; now exists 1|].
    assert (w' = whole) as -> by congruence.
    replace (length states) with (fold_right (fun st n => r_sequences st + n) 0 states); [exact W|].
    clear - F. induction F as [|s0 l (_ & H & _) _ IH]; cbn [fold_right length]; [reflexivity|]. rewrite H, IH. reflexivity. }
  assert (Hi : i < length states) by (apply nth_error_Some; congruence).
  destruct (token_state_ok zero sizes (length states) whole i W Hi) as (st' & T' & _ & V). rewrite T in T'. injection T' as <-.
  assert (VS : state_vectors st = map (sel i) (state_vectors whole)).
  { rewrite V. apply map_ext_in. intros m Hm. unfold sel.
    assert (L : length m = length states).
    { unfold state_vectors in Hm. apply in_map_iff in Hm as (a & <- & Ha). destruct W as (_ & _ & FW).
      clear - FW Ha. induction FW as [|v z vs zs [S [L G]] _ IH]; [destruct Ha|]. destruct Ha as [<-|Ha]; [|auto].
      unfold vectors. unfold shape0, shape1, shape2 in *. rewrite S in L, G. cbn [fst snd] in *. destruct (a_data v) as [|m [|? ?]]; try discriminate.
      cbn [concat]. rewrite app_nil_r. inversion_clear G as [|? ? [H _] _]. exact H. }
    destruct (nth_error m i) as [x|] eqn:X; [|apply nth_error_None in X; lia]. now rewrite (nth_error_nth m i [] X). }
  rewrite VS. clear - E Hw Hc. unfold step_network in *.
  destruct (eval_network n (Step (state_vectors whole)) _) as [[q st']|] eqn:EN; cbn [bind] in E; [|discriminate].
  apply (eval_network_step_col i) in EN. unfold col in EN. cbn [b_words b_classes b_mask b_dropout map] in EN.
  unfold sel at 2 3 in EN. rewrite Hw, Hc in EN. rewrite EN. cbn [bind].
  unfold py_index in *. rewrite nth_error_map. destruct (nth_error q 0) as [p0|]; cbn [bind option_map] in *; [|discriminate].
  injection E as <- <-. reflexivity.
Qed.
Print Assumptions C49_parallel_steps.

(** Two hypotheses, in a network with recurrent layers *)
Definition ex_hypothesis (x : nat) : state (num integers) :=
  let v := if x =? 0 then zero else one in
  mkState [1; 1; 1] 1 [mkArray (1, 1, 1) [[[v]]]; mkArray (1, 1, 1) [[[v]]]; mkArray (1, 1, 1) [[[v]]]].
Example C49_parallel_steps_example :
  Forall (state_of [1; 1; 1] 1) [ex_hypothesis 0; ex_hypothesis 1] /\
  match combine_sequences zero [ex_hypothesis 0; ex_hypothesis 1] with
  | Ok whole => match step_network (@ex_forward integers) [1; 2] [1; 2] (state_vectors whole) with Ok (p, _) => length p = 2 | Err _ => False end
  | Err _ => False
  end.
Proof.
  split; [|vm_compute; reflexivity].
  assert (H : forall x, state_of [1; 1; 1] 1 (ex_hypothesis x)) by (intros; repeat (constructor || split)). repeat constructor; apply H.
Qed.
