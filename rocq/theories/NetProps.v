(** Properties of networks: C44, C45, C46. *)
From Coq Require Import Reals Lra.
From Verif Require Import Base BaseLib ListLib Strings ParamModel NetModel NetSpec NetColumns NetTime NetSteps NetVisible NetShape NetReal NetExamples.
Local Open Scope nat_scope.

Lemma proper_well_formed A (n : network A) : Forall proper_layer (n_layers n) ->
  Forall well_formed (n_layers n) /\ Forall some_filter (n_layers n).
Proof.
  intro F. split; eapply Forall_impl; try exact F; intros l; unfold proper_layer, well_formed, some_filter; destruct (l_kind l); tauto.
Qed.
Lemma proper_forward A (n : network A) : Forall proper_layer (n_layers n) -> Forall unidirectional_layer (n_layers n) ->
  Forall forward_layer (n_layers n).
Proof.
  intros F G. rewrite Forall_forall in *. intros l Hl. specialize (F l Hl). specialize (G l Hl).
  unfold proper_layer, unidirectional_layer, forward_layer in *. destruct (l_kind l); tauto.
Qed.

Lemma cell_sel X (x : list (list X)) t s v : cell x t s = Some v <-> nth_error (map (sel s) x) t = Some [v].
Proof.
  unfold cell. rewrite nth_error_map. destruct (nth_error x t) as [row|]; cbn [option_map]; [|split; discriminate].
  unfold sel. destruct (nth_error row s); split; congruence.
Qed.
Lemma cell_rectangle X (x : list (list X)) T N t s : rectangle T N x -> t < T -> s < N -> exists v, cell x t s = Some v.
Proof.
  intros [L F] Ht Hs. unfold cell. destruct (nth_error x t) as [row|] eqn:E; [|apply nth_error_None in E; lia].
  rewrite Forall_forall in F. specialize (F row (nth_error_In _ _ E)). destruct (nth_error row s) as [v|] eqn:E'; eauto.
  apply nth_error_None in E'. lia.
Qed.
Lemma first_cells X Y (x : list (list X)) s (ws : list Y) (f : Y -> X) : (forall t w, nth_error ws t = Some w -> cell x t s = Some (f w)) ->
  firstn (length ws) (map (sel s) x) = map (fun w => [f w]) ws.
Proof.
  intro H. apply nth_error_ext. intro i. destruct (Nat.lt_ge_cases i (length ws)) as [C|C].
  - rewrite nth_firstn by exact C. rewrite (nth_error_map _ _ ws). destruct (nth_error ws i) as [w|] eqn:E; [|apply nth_error_None in E; lia].
    cbn [option_map]. apply cell_sel, H, E.
  - rewrite !(proj2 (nth_error_None _ _)); [reflexivity|rewrite map_length; lia|]. rewrite firstn_length. lia.
Qed.
Lemma first_alone b s ws : b_dropout b = None -> starts_with b s ws -> first_steps (length ws) (col s b) = alone ws.
Proof.
  intros D H. unfold first_steps, col, alone, unpadded. cbn [b_words b_classes b_mask b_dropout]. rewrite D. f_equal.
  - apply (first_cells _ _ _ s ws fst). intros t [w c] E. now apply H in E.
  - apply (first_cells _ _ _ s ws snd). intros t [w c] E. now apply H in E.
  - rewrite map_map. apply (first_cells _ _ _ s ws (fun _ => true)). intros t [w c] E. now apply H in E.
Qed.

(** ** C44: what shares the mini-batch with a sequence *)

(** The distributions that a network without bidirectional layers predicts after each
    word of a sequence are those that it predicts when the sequence is evaluated alone,
    without padding. *)
Theorem C44_sequence_alone A (n : network A) b T N s ws p st :
  Forall proper_layer (n_layers n) -> Forall unidirectional_layer (n_layers n) ->
  b_dropout b = None -> dimensions b T N -> s < N -> starts_with b s ws ->
  eval_network n Minibatch b = Ok (p, st) ->
  exists p1 st1, eval_network n Minibatch (alone ws) = Ok (p1, st1) /\
  forall t, t < length ws -> exists distribution, cell p t s = Some distribution /\ cell p1 t 0 = Some distribution.
Proof.
  intros FP FU D [Dw Dc Dm] Hs H E. pose proof (eval_network_col s _ _ _ _ E) as E1.
  apply (eval_network_cut (length ws)) in E1; [|now apply proper_forward]. rewrite first_alone in E1 by assumption.
  exists (firstn (length ws) (map (sel s) p)), st. split; [exact E1|]. intros t Ht.
  destruct (nth_error ws t) as [[w c]|] eqn:EW; [|apply nth_error_None in EW; lia].
  assert (HT : t < T).
  { destruct (H _ _ _ EW) as [C _]. unfold cell in C. destruct (nth_error (b_words b) t) eqn:C'; [|discriminate].
    rewrite <- (proj1 Dw). apply nth_error_Some. congruence. }
  destruct (proper_well_formed _ _ FP) as [W1 W2].
  pose proof (eval_network_rect T N ltac:(lia) n b p st W1 W2 Dw Dc Dm E) as R.
  destruct (cell_rectangle _ _ _ _ t s R HT Hs) as [d Ed]. exists d. split; [exact Ed|].
  unfold cell. rewrite nth_firstn by exact Ht. apply cell_sel in Ed. rewrite Ed. reflexivity.
Qed.

(** So they are the same in any two mini-batches. *)
Corollary C44_any_batch A (n : network A) b T N s b' T' N' s' ws p st p' st' :
  Forall proper_layer (n_layers n) -> Forall unidirectional_layer (n_layers n) ->
  b_dropout b = None -> dimensions b T N -> s < N -> starts_with b s ws ->
  b_dropout b' = None -> dimensions b' T' N' -> s' < N' -> starts_with b' s' ws ->
  eval_network n Minibatch b = Ok (p, st) -> eval_network n Minibatch b' = Ok (p', st') ->
  forall t, t < length ws -> exists distribution, cell p t s = Some distribution /\ cell p' t s' = Some distribution.
Proof.
  intros FP FU D Dim Hs H D' Dim' Hs' H' E E' t Ht.
  destruct (C44_sequence_alone _ _ _ _ _ _ _ _ _ FP FU D Dim Hs H E) as (p1 & st1 & E1 & G).
  destruct (C44_sequence_alone _ _ _ _ _ _ _ _ _ FP FU D' Dim' Hs' H' E') as (p2 & st2 & E2 & G').
  destruct (G t Ht) as (d & C1 & C2). destruct (G' t Ht) as (d' & C1' & C2'). exists d. split; congruence.
Qed.

(** With bidirectional layers too the other sequences make no difference, if the
    sequence is padded to the same length. *)
Theorem C44_other_sequences A (n : network A) b T N s b' N' s' p st p' st' :
  Forall proper_layer (n_layers n) -> b_dropout b = None -> b_dropout b' = None ->
  dimensions b T N -> s < N -> dimensions b' T N' -> s' < N' ->
  (forall t, cell (b_words b) t s = cell (b_words b') t s' /\ cell (b_classes b) t s = cell (b_classes b') t s' /\
             cell (b_mask b) t s = cell (b_mask b') t s') ->
  eval_network n Minibatch b = Ok (p, st) -> eval_network n Minibatch b' = Ok (p', st') ->
  forall t, t < T -> exists distribution, cell p t s = Some distribution /\ cell p' t s' = Some distribution.
Proof.
  intros FP D D' [Dw Dc Dm] Hs [Dw' Dc' Dm'] Hs' H E E' t Ht.
  assert (G : forall X (x x' : list (list X)), rectangle T N x -> rectangle T N' x' -> (forall t, cell x t s = cell x' t s') ->
    map (sel s) x = map (sel s') x').
  { intros X x x' R R' C. apply nth_error_ext. intro i. destruct (Nat.lt_ge_cases i T) as [L|L].
    - destruct (cell_rectangle _ _ _ _ i s R L Hs) as [v Ev]. pose proof Ev as Ev'. rewrite C in Ev'. apply cell_sel in Ev, Ev'. congruence.
    - destruct R as [R _], R' as [R' _]. rewrite !(proj2 (nth_error_None _ _)); [reflexivity|rewrite map_length; lia|rewrite map_length; lia]. }
  pose proof (eval_network_col s _ _ _ _ E) as E1. pose proof (eval_network_col s' _ _ _ _ E') as E2.
  assert (EC : col s b = col s' b').
  { unfold col. rewrite D, D'. f_equal; apply G; auto; intro; apply H. }
  rewrite EC, E2 in E1. assert (EP : map (sel s) p = map (sel s') p') by congruence.
  destruct (proper_well_formed _ _ FP) as [W1 W2].
  pose proof (eval_network_rect T N ltac:(lia) n b p st W1 W2 Dw Dc Dm E) as R.
  destruct (cell_rectangle _ _ _ _ t s R Ht Hs) as [d Ed]. exists d. split; [exact Ed|]. apply cell_sel. rewrite <- EP. now apply cell_sel.
Qed.

Lemma ex_batch_dimensions : dimensions ex_batch 3 2.
Proof. split; split; try reflexivity; repeat constructor. Qed.
Lemma ex_batch_start : starts_with ex_batch 0 [(1, 1)].
Proof. intros [|[|t]] w c H; cbn in H; try discriminate. injection H as <- <-. repeat split. Qed.
Lemma ex_batch_start1 : starts_with ex_batch 1 [(1, 1); (2, 2); (1, 1)].
Proof. intros [|[|[|[|t]]]] w c H; cbn in H; try discriminate; injection H as <- <-; repeat split. Qed.
Lemma ex_proper A : Forall proper_layer (n_layers (@ex_forward A)) /\ Forall proper_layer (n_layers (@ex_convolution A)) /\
  Forall proper_layer (n_layers (@ex_bidirectional A)) /\ Forall proper_layer (n_layers (@ex_stacked A)).
Proof.
  repeat split; repeat constructor; try (intro H; discriminate H).
  intros d w [<-|[]] H. cbn in H. injection H as <-. reflexivity.
Qed.

(** But the padding makes a difference with bidirectional layers. *)
Theorem C44_bidirectional_padding_refuted :
  ~ (forall (n : network reals) b T N s ws p st,
     Forall proper_layer (n_layers n) -> b_dropout b = None -> dimensions b T N -> s < N -> starts_with b s ws ->
     eval_network n Minibatch b = Ok (p, st) ->
     exists p1 st1, eval_network n Minibatch (alone ws) = Ok (p1, st1) /\ forall t, t < length ws -> cell p t s = cell p1 t 0).
Proof.
  intro H. destruct ex_bidirectional_padded as (p & st & h & E & C & Hh). destruct ex_bidirectional_alone as (p1 & st1 & E1 & C1).
  destruct (H ex_bidirectional ex_batch 3 2 0 [(1, 1)] p st (proj1 (proj2 (proj2 (ex_proper _)))) eq_refl ex_batch_dimensions
              (Nat.lt_0_succ _) ex_batch_start E) as (p2 & st2 & E2 & G).
  specialize (G 0 (Nat.lt_0_succ _)). apply (ex_probs_differ h Hh). congruence.
Qed.

(** ** C45: what a prediction depends on *)

(** The distribution that a network without bidirectional layers predicts for the word
    after the first [t + 1] words of a sequence depends only on those words. *)
Theorem C45_only_the_past A (n : network A) b T N s b' T' N' s' history future future' p st p' st' :
  Forall proper_layer (n_layers n) -> Forall unidirectional_layer (n_layers n) ->
  b_dropout b = None -> dimensions b T N -> s < N -> starts_with b s (history ++ future) ->
  b_dropout b' = None -> dimensions b' T' N' -> s' < N' -> starts_with b' s' (history ++ future') ->
  eval_network n Minibatch b = Ok (p, st) -> eval_network n Minibatch b' = Ok (p', st') ->
  forall t, t < length history -> exists distribution, cell p t s = Some distribution /\ cell p' t s' = Some distribution.
Proof.
  assert (P : forall b s f, starts_with b s (history ++ f) -> starts_with b s history).
  { intros c u f H t w k E. apply H. rewrite nth_error_app1; [exact E|]. apply nth_error_Some. congruence. }
  intros FP FU D Dim Hs H D' Dim' Hs' H' E E'.
  exact (C44_any_batch A n b T N s b' T' N' s' history p st p' st' FP FU D Dim Hs (P _ _ _ H) D' Dim' Hs' (P _ _ _ H') E E').
Qed.

(** With bidirectional layers the prediction for a word does not depend on that word, if
    no layer that looks at other time steps is above or below a bidirectional layer. *)
Theorem C45_not_the_predicted_word A (n : network A) b b' t p st p' st' :
  Forall proper_layer (n_layers n) -> network_sight n <> None -> differ_at (1 + t) b b' ->
  eval_network n Minibatch b = Ok (p, st) -> eval_network n Minibatch b' = Ok (p', st') ->
  nth_error p t = nth_error p' t.
Proof.
  intros FP S Hd E E'. destruct (proper_well_formed _ _ FP) as [W1 _].
  apply sel_eq. exact (eval_network_similar _ _ _ _ Hd eq_refl n p p' st st' W1 S E E').
Qed.

(** A recurrent layer above a bidirectional layer lets the network see the word that it
    is going to predict. *)
Theorem C45_stacked_layers_refuted :
  ~ (forall (n : network reals) b b' t p st p' st',
     Forall proper_layer (n_layers n) -> differ_at (1 + t) b b' ->
     eval_network n Minibatch b = Ok (p, st) -> eval_network n Minibatch b' = Ok (p', st') ->
     nth_error p t = nth_error p' t).
Proof.
  intro H. destruct ex_stacked_0 as (p & st & h & E & C & Hh). destruct ex_stacked_1 as (p1 & st1 & E1 & C1).
  assert (Hd : differ_at (1 + 1) (alone (ex_sentence 0)) (alone (ex_sentence 1))).
  { constructor; try reflexivity; try (intros [|[|[|i]]] Hi; try reflexivity; exfalso; apply Hi; reflexivity); repeat split. }
  pose proof (H ex_stacked _ _ 1 p st p1 st1 (proj2 (proj2 (proj2 (ex_proper _)))) Hd E E1) as G.
  apply (ex_probs_differ h Hh). unfold cell in C, C1. rewrite G in C. congruence.
Qed.

(** ** C46: one time step at a time *)

(** Evaluating a network one time step at a time, starting from the initial state and
    passing the state from each time step to the next one, gives the output of the
    mini-batch. *)
Theorem C46_stepwise A (n : network A) T N words classes p st :
  Forall stepwise_layer (n_layers n) -> T <> 0 -> rectangle T N words -> rectangle T N classes ->
  eval_network n Minibatch (unpadded words classes) = Ok (p, st) ->
  exists final_state, run_steps n (combine words classes) (initial_state n N) = Ok (p, final_state).
Proof.
  intros F HT Rw Rc E. destruct (eval_network_steps T N HT words classes Rw Rc n p st F E) as ((Lp & _) & S & S0 & HS).
  exists (S T). rewrite <- S0.
  exact (run_steps_from T N HT words classes Rw Rc n p S Lp HS T 0 ltac:(lia)).
Qed.

(** Other layers refuse it. *)
Theorem C46_refused A (n : network A) state words classes :
  Exists (fun l => ~ stepwise_layer l) (n_layers n) ->
  exists e, step_network n words classes state = Err e.
Proof.
  intro H. unfold step_network, eval_network.
  enough (G : forall b ls outs i j, Exists (fun l : layer A => ~ stepwise_layer l) ls -> exists e, eval_layers (Step state) b outs i j ls = Err e).
  { destruct (G (mkBatch [words] [classes] [] None) _ [] 0 0 H) as [e ->]. cbn [bind]. eauto. }
  clear H. intros b ls. induction ls as [|l ls IH]; intros outs i j H; [inversion H|]. cbn [eval_layers].
  destruct (eval_layer (Step state) b outs i j l) as [[v s1]|e] eqn:E; cbn [bind]; [|eauto].
  apply Exists_cons in H as [H|H].
  - exfalso. revert E. unfold eval_layer. unfold stepwise_layer in H.
    destruct (mapM _ _) as [ins|]; cbn [bind]; [|discriminate].
    destruct (l_kind l); try (exfalso; exact (H I)); try discriminate;
    (destruct (mapM (fun v => features (fst v)) ins) as [fs|]; cbn [bind]; [|discriminate];
     destruct (concat_features fs) as [x|]; cbn [bind]; discriminate).
  - destruct (IH (outs ++ [(v, l_size l)]) (i + 1) (j + length (state_sizes l)) H) as [e ->]. cbn [bind]. eauto.
Qed.

(** ** The networks of NetExamples satisfy the hypotheses. *)
Example C44_case : exists p st, eval_network (@ex_forward integers) Minibatch ex_batch = Ok (p, st) /\
  Forall proper_layer (n_layers (@ex_forward integers)) /\ Forall unidirectional_layer (n_layers (@ex_forward integers)) /\
  dimensions ex_batch 3 2 /\ starts_with ex_batch 1 [(1, 1); (2, 2); (1, 1)].
Proof.
  eexists; eexists. split; [vm_compute; reflexivity|]. split; [apply ex_proper|]. split; [repeat constructor|].
  split; [apply ex_batch_dimensions|apply ex_batch_start1].
Qed.
Example C44_convolution_case : exists p st, eval_network (@ex_convolution integers) Minibatch ex_batch = Ok (p, st) /\
  Forall proper_layer (n_layers (@ex_convolution integers)) /\ Forall unidirectional_layer (n_layers (@ex_convolution integers)).
Proof. eexists; eexists. split; [vm_compute; reflexivity|]. split; [apply ex_proper|repeat constructor]. Qed.
Example C45_case : exists p st p' st', eval_network (@ex_bidirectional integers) Minibatch (unpadded (ex_words 0) (ex_words 0)) = Ok (p, st) /\
  eval_network (@ex_bidirectional integers) Minibatch (unpadded (ex_words 2) (ex_words 2)) = Ok (p', st') /\ p <> p' /\
  Forall proper_layer (n_layers (@ex_bidirectional integers)) /\ network_sight (@ex_bidirectional integers) <> None /\
  differ_at 2 (unpadded (ex_words 0) (ex_words 0)) (unpadded (ex_words 2) (ex_words 2)).
Proof.
  do 4 eexists. split; [vm_compute; reflexivity|]. split; [vm_compute; reflexivity|]. split; [discriminate|].
  split; [apply ex_proper|]. split; [discriminate|].
  constructor; try reflexivity; try (intros [|[|[|i]]] Hi; try reflexivity; exfalso; apply Hi; reflexivity); repeat split.
Qed.
Example C46_case : exists p st, eval_network (@ex_forward integers) Minibatch (unpadded (ex_words 0) (ex_words 0)) = Ok (p, st) /\
  Forall stepwise_layer (n_layers (@ex_forward integers)) /\ rectangle 3 2 (ex_words 0).
Proof. eexists; eexists. split; [vm_compute; reflexivity|]. split; [repeat constructor|]. split; [reflexivity|repeat constructor]. Qed.
Example C46_refused_case : Exists (fun l => ~ stepwise_layer l) (n_layers (@ex_convolution integers)).
Proof. apply Exists_cons_tl, Exists_cons_tl, Exists_cons_hd. intros []. Qed.

Print Assumptions C44_sequence_alone.
Print Assumptions C44_any_batch.
Print Assumptions C44_other_sequences.
Print Assumptions C44_bidirectional_padding_refuted.
Print Assumptions C45_only_the_past.
Print Assumptions C45_not_the_predicted_word.
Print Assumptions C45_stacked_layers_refuted.
Print Assumptions C46_stepwise.
Print Assumptions C46_refused.
