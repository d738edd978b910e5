(** A hash without collisions, a small network and decoding options, used to show
    that the hypotheses of the decoder theorems can be met. *)
From Coq Require Import QArith Qcanon.
From Verif Require Import Base Strings VocabModel LatticeModel LatticeExamples DecoderModel DecoderSpec.
Local Open Scope nat_scope.

(** Prefix codes *)
Definition unary (n : nat) : list bool := repeat true n ++ [false].
Lemma unary_inj : forall n m r r', unary n ++ r = unary m ++ r' -> n = m /\ r = r'.
Proof.
  unfold unary. induction n as [|n IH]; intros [|m] r r'; cbn; intros H; try discriminate.
  - injection H as ->. auto.
  - injection H as H. destruct (IH _ _ _ H) as [-> ->]. auto.
Qed.
Section CodeList.
Context {A} (code : A -> list bool).
Hypothesis code_inj : forall x y r r', code x ++ r = code y ++ r' -> x = y /\ r = r'.
Fixpoint code_list (l : list A) : list bool :=
  match l with
  | [] => [false]
  | x :: l' => true :: code x ++ code_list l'
  end.
Lemma code_list_inj : forall l l' r r', code_list l ++ r = code_list l' ++ r' -> l = l' /\ r = r'.
Proof.
  induction l as [|x l IH]; intros [|y l'] r r'; cbn; intros H; try discriminate.
  - injection H as ->. auto.
  - injection H as H. rewrite <- !app_assoc in H. apply code_inj in H as [-> H].
    destruct (IH _ _ _ H) as [-> ->]. auto.
Qed.
End CodeList.
Definition code_char (c : N) : list bool := unary (N.to_nat c).
Lemma code_char_inj c d r r' : code_char c ++ r = code_char d ++ r' -> c = d /\ r = r'.
Proof. intros H. apply unary_inj in H as [H ->]. split; [lia|reflexivity]. Qed.
Definition code_word (w : hword) : list bool :=
  match w with inl i => true :: unary i | inr s => false :: code_list code_char s end.
Lemma code_word_inj x y r r' : code_word x ++ r = code_word y ++ r' -> x = y /\ r = r'.
Proof.
  destruct x as [i|s], y as [j|u]; cbn; intros H; try discriminate; injection H as H.
  - apply unary_inj in H as [-> ->]. auto.
  - apply (code_list_inj _ code_char_inj) in H as [-> ->]. auto.
Qed.
Fixpoint bits (l : list bool) : positive :=
  match l with
  | [] => xH
  | true :: l' => xI (bits l')
  | false :: l' => xO (bits l')
  end.
Lemma bits_inj : forall l l', bits l = bits l' -> l = l'.
Proof.
  induction l as [|[|] l IH]; intros [|[|] l']; cbn; intros H; try discriminate; auto;
    injection H as H; f_equal; now apply IH.
Qed.
Definition ex_hash (h : list hword) : Z := Zpos (bits (code_list code_word h)).
Lemma ex_hash_inj h h' : ex_hash h = ex_hash h' -> h = h'.
Proof.
  unfold ex_hash. intros [= H]. apply bits_inj in H.
  destruct (code_list_inj _ code_word_inj h h' [] []) as [E _]; [|exact E]. now rewrite !app_nil_r.
Qed.

(** A network whose state is a number *)
Definition ex_step (x : nat * nat * nat * nat) : Qc * nat :=
  let '(w, c, target, st) := x in (Q2Qc (1 # Pos.of_nat (2 + c + target + st)), st + w + 1).
Definition ex_net_step (l : list (nat * nat * nat * nat)) : list (Qc * nat) := map ex_step l.
Lemma ex_step_independent v : step_independent v ex_net_step ex_step.
Proof. intros l _. reflexivity. Qed.
Definition ex_lin (x y w : Qc) : Qc := if Qclt_le_dec x y then y else x.

Definition ex_options : options :=
  mkOptions (q 1 2) None (Some (q (-1) 2)) None false false false None None None None 0%Qc 0%Z.
Definition ex_pruning : options :=
  mkOptions (q 1 2) (Some (q 3 1)) None (Some (q (-9) 1)) false true false (Some 2%Z) (Some (q 5 1)) (Some 1%Z) None 0%Qc 0%Z.
