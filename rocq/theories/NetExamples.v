(** Small networks: they show that the theorems about networks apply, and where they do
    not. The numbers are left open, except in the counterexamples, which use real
    numbers. *)
From Coq Require Import Reals Lra.
From Verif Require Import Base Strings ParamModel NetModel NetSpec NetReal.
Local Open Scope nat_scope.

Section Examples.
Context {A : arith}.

Definition prm (l : pystr) (xs : list (pystr * param A)) : list (pystr * param A) :=
  map (fun x => (param_path l (fst x) None, snd x)) xs.
Definition z : num A := zero.
Definition o : num A := one.

(** Three words; word 0 is also used for padding. *)
Definition ex_input : layer A := mkLayer WordInput (str "i") [] 1 Tanh [None] [] o.
Definition ex_projection : layer A :=
  mkLayer Projection (str "p") [0] 1 Tanh [None] (prm (str "p") [(str "W", Weight [[o; z; z]])]) o.
Definition ex_gru (input : nat) (w : list (num A)) : layer A :=
  mkLayer GRU (str "g") [input] 1 Tanh [None]
    (prm (str "g") [(str "layer_input/W", Weight [map (fun _ => z) w; map (fun _ => z) w; w]); (str "layer_input/b", Bias [z; z; z]);
                    (str "step_input/W", Weight [[z]; [z]; [z]])]) o.
Definition ex_lstm (input : nat) : layer A :=
  mkLayer LSTM (str "l") [input] 1 ReLU [None]
    (prm (str "l") [(str "layer_input/W", Weight [[o]; [z]; [o]; [o]]); (str "layer_input/b", Bias [z; o; z; o]);
                    (str "step_input/W", Weight [[o]; [z]; [o]; [o]])]) o.
Definition ex_glu (input : nat) : layer A :=
  mkLayer (GLU 2) (str "c") [input] 1 Tanh [None]
    (prm (str "c") [(str "input/W", Filters [[[o]; [z]]; [[o]; [o]]]); (str "input/b", Bias [z; o])]) o.
Definition ex_highway (input : nat) : layer A :=
  mkLayer Highway (str "h") [input] 1 LeakyReLU [None]
    (prm (str "h") [(str "input/W", Weight [[o]; [o]]); (str "input/b", Bias [z; o])]) o.
Definition ex_dense (input : nat) : layer A :=
  mkLayer FullyConnected (str "f") [input] 1 Tanh [None]
    (prm (str "f") [(str "input/W", Weight [[o]]); (str "input/b", Bias [z])]) o.
Definition ex_addition (i j : nat) : layer A := mkLayer Addition (str "a") [i; j] 1 Tanh [None] [] o.
Definition ex_dropout (i : nat) : layer A := mkLayer Dropout (str "d") [i] 1 Tanh [None] [] o.
Definition ex_bgru (input : nat) : layer A :=
  mkLayer BGRU (str "b") [input] 2 Tanh [None]
    (prm (str "b/forward") [(str "layer_input/W", Weight [[z]; [z]; [z]]); (str "layer_input/b", Bias [z; z; z]);
                            (str "step_input/W", Weight [[z]; [z]; [z]])] ++
     prm (str "b/backward") [(str "layer_input/W", Weight [[z]; [z]; [o]]); (str "layer_input/b", Bias [z; z; z]);
                             (str "step_input/W", Weight [[z]; [z]; [z]])]) o.

(** Two output classes *)
Definition ex_network (layers : list (layer A)) (w : list (num A)) : network A :=
  mkNetwork layers Softmax (str "o") [length layers - 1] 2 [None]
    (prm (str "o") [(str "input/W", Weight [w; map (fun _ => z) w]); (str "input/b", Bias [z; z])]) 0 false.

Definition ex_forward : network A :=
  ex_network [ex_input; ex_projection; ex_lstm 1; ex_gru 2 [o]; ex_dense 3; ex_highway 4; ex_addition 1 5; ex_dropout 6] [o].
Definition ex_convolution : network A := ex_network [ex_input; ex_projection; ex_glu 1; ex_lstm 2] [o].
Definition ex_bidirectional : network A := ex_network [ex_input; ex_projection; ex_bgru 1] [z; o].
Definition ex_stacked : network A := ex_network [ex_input; ex_projection; ex_bgru 1; ex_gru 2 [z; o]] [o].

(** One sequence of one word and another of three words *)
Definition ex_batch : batch :=
  mkBatch [[1; 1]; [0; 2]; [0; 1]] [[1; 1]; [0; 2]; [0; 1]] [[true; true]; [false; true]; [false; true]] None.
(** Two sequences of three words *)
Definition ex_words (last : nat) : list (list nat) := [[1; 2]; [1; 1]; [last; 1]].

End Examples.

(** ** Real numbers *)
Local Open Scope R_scope.
Ltac real_norm :=
  repeat progress rewrite ?Rmult_0_l, ?Rmult_0_r, ?Rmult_1_l, ?Rmult_1_r, ?Rplus_0_l, ?Rplus_0_r, ?Rminus_0_r, ?Ropp_0, ?exp_0, ?tanh_0.
Ltac real_cbv := cbv -[Rplus Rmult Rminus Rdiv Rinv Ropp Rtrigo_def.exp Rtrigo_def.tanh Rmax Rle_dec gru_step IZR].

Definition ex_step (m : bool) (x h : R) : R := if m then / 2 * h + / 2 * Rtrigo_def.tanh x else h.
Lemma half : 1 - / (1 + 1) = / 2.
Proof. field. Qed.
Lemma ex_gru_step m x h :
  gru_step (A := reals) 1 [[0]; [0]; [0]] [m] [[0; 0; x]] [[h]] = [[ex_step m x h]].
Proof.
  unfold ex_step. destruct m; cbv -[Rplus Rmult Rminus Rdiv Rinv Ropp Rtrigo_def.exp Rtrigo_def.tanh IZR]; [|reflexivity].
  real_norm. do 2 f_equal. rewrite half. replace (1 + 1) with 2 by lra. reflexivity.
Qed.
Lemma ex_gru_step2 m m' x x' h h' :
  gru_step (A := reals) 1 [[0]; [0]; [0]] [m; m'] [[0; 0; x]; [0; 0; x']] [[h]; [h']] = [[ex_step m x h]; [ex_step m' x' h']].
Proof.
  unfold ex_step. destruct m, m'; cbv -[Rplus Rmult Rminus Rdiv Rinv Ropp Rtrigo_def.exp Rtrigo_def.tanh IZR]; try reflexivity;
  real_norm; rewrite half; replace (1 + 1) with 2 by lra; reflexivity.
Qed.

Lemma ex_step_0 m : ex_step m 0 0 = 0.
Proof. unfold ex_step. destruct m; real_norm; reflexivity. Qed.
Ltac real_norm' := repeat progress (real_norm; rewrite ?ex_gru_step, ?ex_gru_step2, ?ex_step_0).

(** The probabilities of the two output classes *)
Definition ex_probs (h : R) : list R := [Rtrigo_def.exp h / (Rtrigo_def.exp h + 1); 1 / (Rtrigo_def.exp h + 1)].
Lemma ex_probs_differ h : 0 < h -> ex_probs h <> ex_probs 0.
Proof.
  intros H E. unfold ex_probs in E. rewrite exp_0 in E. assert (E1 : 1 / (Rtrigo_def.exp h + 1) = 1 / (1 + 1)) by congruence. clear E.
  pose proof (exp_ineq1 h ltac:(lra)) as G.
  assert (Rtrigo_def.exp h + 1 = 1 + 1) by (apply (f_equal Rinv) in E1; unfold Rdiv in E1; rewrite !Rmult_1_l, !Rinv_inv in E1; lra). lra.
Qed.

Lemma ex_bidirectional_padded : exists p st h, eval_network (@ex_bidirectional reals) Minibatch ex_batch = Ok (p, st) /\
  cell p 0 0 = Some (ex_probs h) /\ 0 < h.
Proof.
  eexists; eexists; exists (ex_step true 1 0). unfold ex_step at 2. split; [|split].
  - real_cbv. real_norm'. reflexivity.
  - unfold cell, ex_probs. cbn [nth_error]. reflexivity.
  - pose proof (tanh_pos 1 ltac:(lra)). lra.
Qed.
Lemma ex_bidirectional_alone : exists p st, eval_network (@ex_bidirectional reals) Minibatch (alone [(1, 1)]%nat) = Ok (p, st) /\
  cell p 0 0 = Some (ex_probs 0).
Proof.
  eexists; eexists. split.
  - real_cbv. real_norm'. reflexivity.
  - unfold cell, ex_probs. cbn [nth_error]. real_norm'. reflexivity.
Qed.

(** The third word is 0 or 1. *)
Definition ex_sentence (last : nat) : list (nat * nat) := [(1, 1); (1, 1); (last, last)]%nat.
Lemma ex_stacked_0 : exists p st h, eval_network (@ex_stacked reals) Minibatch (alone (ex_sentence 0)) = Ok (p, st) /\
  cell p 1 0 = Some (ex_probs h) /\ 0 < h.
Proof.
  eexists; eexists; exists (ex_step true 0 (ex_step true (ex_step true 1 0) 0)). unfold ex_step at 4 5 6. split; [|split].
  - real_cbv. real_norm'. reflexivity.
  - unfold cell, ex_probs. cbn [nth_error]. reflexivity.
  - pose proof (tanh_pos 1 ltac:(lra)) as H1. pose proof (tanh_pos (/ 2 * Rtrigo_def.tanh 1) ltac:(lra)) as H2. real_norm. lra.
Qed.
Lemma ex_stacked_1 : exists p st, eval_network (@ex_stacked reals) Minibatch (alone (ex_sentence 1)) = Ok (p, st) /\
  cell p 1 0 = Some (ex_probs 0).
Proof.
  eexists; eexists. split.
  - real_cbv. real_norm'. reflexivity.
  - unfold cell, ex_probs. cbn [nth_error]. real_norm'. reflexivity.
Qed.

(** ** Integers, with simple functions instead of the real ones: evaluating these networks
    succeeds. *)
Definition integers : arith :=
  mkArith Z 0%Z 1%Z Z.add Z.sub Z.mul (fun x _ => x) (fun x => x * x + 1)%Z (fun x => x + 1)%Z (fun x => x) (Z.max 0) (fun x => x).
