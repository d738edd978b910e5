(** str() of a non-negative integer. *)
From Coq Require Import DecimalNat.
From Verif Require Import Base.

Fixpoint uint_chars (d : Decimal.uint) : pystr :=
  match d with
  | Decimal.Nil => []
  | Decimal.D0 d => 48%N :: uint_chars d
  | Decimal.D1 d => 49%N :: uint_chars d
  | Decimal.D2 d => 50%N :: uint_chars d
  | Decimal.D3 d => 51%N :: uint_chars d
  | Decimal.D4 d => 52%N :: uint_chars d
  | Decimal.D5 d => 53%N :: uint_chars d
  | Decimal.D6 d => 54%N :: uint_chars d
  | Decimal.D7 d => 55%N :: uint_chars d
  | Decimal.D8 d => 56%N :: uint_chars d
  | Decimal.D9 d => 57%N :: uint_chars d
  end.
Definition str_of_nat (n : nat) : pystr := uint_chars (Nat.to_uint n).

Lemma uint_chars_inj a b : uint_chars a = uint_chars b -> a = b.
Proof. revert b; induction a; intros [] H; cbn in H; try discriminate; auto; f_equal; apply IHa; congruence. Qed.
Lemma str_of_nat_inj a b : str_of_nat a = str_of_nat b -> a = b.
Proof. intro H. apply Unsigned.to_uint_inj, uint_chars_inj, H. Qed.
