(** Real numbers as the numbers of a network. Floating point numbers are not modelled. *)
From Coq Require Import Reals Lra.
From Verif Require Import Base NetModel.
Local Open Scope R_scope.

(** basiclayer.py 46-51 and the functions of Theano *)
Definition reals : arith :=
  mkArith R 0 1 Rplus Rminus Rmult Rdiv
    Rtrigo_def.exp (fun x => / (1 + Rtrigo_def.exp (- x))) Rtrigo_def.tanh (Rmax 0) (fun x => if Rle_dec 0 x then x else 3 / 10 * x).

Lemma tanh_0 : Rtrigo_def.tanh 0 = 0.
Proof. unfold Rtrigo_def.tanh, sinh. rewrite Ropp_0, Rminus_diag_eq by reflexivity. unfold Rdiv. now rewrite !Rmult_0_l. Qed.
Lemma cosh_pos x : 0 < cosh x.
Proof. unfold cosh. pose proof (exp_pos x). pose proof (exp_pos (- x)). lra. Qed.
Lemma tanh_pos x : 0 < x -> 0 < Rtrigo_def.tanh x.
Proof.
  intro H. unfold Rtrigo_def.tanh, Rdiv. apply Rmult_lt_0_compat; [|apply Rinv_0_lt_compat, cosh_pos].
  unfold sinh. pose proof (exp_increasing (- x) x ltac:(lra)). lra.
Qed.
Lemma sigmoid_0 : / (1 + Rtrigo_def.exp (- 0)) = / 2.
Proof. rewrite Ropp_0, exp_0. reflexivity. Qed.
Lemma sigmoid_pos x : 0 < / (1 + Rtrigo_def.exp (- x)).
Proof. apply Rinv_0_lt_compat. pose proof (exp_pos (- x)). lra. Qed.
