(** Sums of canonical rationals. *)
From Coq Require Import QArith Qcanon Qcabs Permutation.
From Verif Require Import Base ListLib.
Local Open Scope nat_scope.

Definition qsum (l : list Qc) : Qc := fold_right Qcplus 0%Qc l.
Definition qc_of_nat (n : nat) : Qc := Q2Qc (inject_Z (Z.of_nat n)).

Lemma qsum_cons a l : qsum (a :: l) = (a + qsum l)%Qc.
Proof. reflexivity. Qed.
Lemma qsum_nil : qsum [] = 0%Qc.
Proof. reflexivity. Qed.
Lemma qsum_app a b : qsum (a ++ b) = (qsum a + qsum b)%Qc.
Proof.
  induction a as [|x a IH]; cbn [app]; rewrite ?qsum_cons, ?qsum_nil; [ring|]. rewrite IH. ring.
Qed.

Lemma qsum_map_mult {A} (f : A -> Qc) c l :
  qsum (map (fun x => (c * f x)%Qc) l) = (c * qsum (map f l))%Qc.
Proof. induction l as [|x l IH]; cbn [map]; rewrite ?qsum_cons, ?qsum_nil; [ring|]. rewrite IH. ring. Qed.

Lemma qsum_map_div {A} (f : A -> Qc) c l :
  qsum (map (fun x => (f x / c)%Qc) l) = (qsum (map f l) / c)%Qc.
Proof.
  induction l as [|x l IH]; cbn [map]; rewrite ?qsum_cons, ?qsum_nil; unfold Qcdiv in *; [ring|].
  rewrite IH. ring.
Qed.

Lemma qsum_map_plus {A} (f g : A -> Qc) l :
  qsum (map (fun x => (f x + g x)%Qc) l) = (qsum (map f l) + qsum (map g l))%Qc.
Proof. induction l as [|x l IH]; cbn [map]; rewrite ?qsum_cons, ?qsum_nil; [ring|]. rewrite IH. ring. Qed.

Lemma qsum_map_const0 {A} (l : list A) : qsum (map (fun _ => 0%Qc) l) = 0%Qc.
Proof. induction l as [|x l IH]; cbn [map]; rewrite ?qsum_cons, ?qsum_nil; [reflexivity|]. rewrite IH. ring. Qed.

Lemma qsum_nonneg l : (forall p, In p l -> (0 <= p)%Qc) -> (0 <= qsum l)%Qc.
Proof.
  induction l as [|a l IH]; intros H; [apply Qcle_refl|]. rewrite qsum_cons.
  replace 0%Qc with (0 + 0)%Qc by ring. apply Qcplus_le_compat; [apply H; now left|].
  apply IH. intros p Hp. apply H. now right.
Qed.

Lemma qsum_perm l1 l2 : Permutation l1 l2 -> qsum l1 = qsum l2.
Proof.
  induction 1; rewrite ?qsum_cons; try congruence; ring.
Qed.

Lemma qc_of_nat_add a b : qc_of_nat (a + b) = (qc_of_nat a + qc_of_nat b)%Qc.
Proof.
  unfold qc_of_nat. rewrite Nat2Z.inj_add, inject_Z_plus. apply Qc_is_canon. cbn [this Q2Qc Qcplus].
  rewrite !Qred_correct. reflexivity.
Qed.
Lemma qc_of_nat_0 : qc_of_nat 0 = 0%Qc.
Proof. reflexivity. Qed.
Lemma qc_of_nat_1 : qc_of_nat 1 = 1%Qc.
Proof. reflexivity. Qed.
Lemma qc_of_nat_nonneg n : (0 <= qc_of_nat n)%Qc.
Proof.
  induction n as [|n IH]; [apply Qcle_refl|].
  change (S n) with (1 + n). rewrite qc_of_nat_add.
  replace 0%Qc with (0 + 0)%Qc by ring. apply Qcplus_le_compat; [discriminate|exact IH].
Qed.
Lemma qc_of_nat_pos n : 0 < n -> (0 < qc_of_nat n)%Qc.
Proof.
  intros H. destruct n as [|n]; [lia|]. change (S n) with (1 + n). rewrite qc_of_nat_add.
  apply Qclt_le_trans with 1%Qc; [reflexivity|].
  pose proof (qc_of_nat_nonneg n) as Hn.
  replace 1%Qc with (1 + 0)%Qc at 1 by ring. apply Qcplus_le_compat; [apply Qcle_refl|exact Hn].
Qed.
Lemma qc_of_nat_neq n : 0 < n -> qc_of_nat n <> 0%Qc.
Proof. intros H E. apply qc_of_nat_pos in H. rewrite E in H. discriminate. Qed.
Lemma qsum_of_nat l : qsum (map qc_of_nat l) = qc_of_nat (list_sum l).
Proof.
  induction l as [|a l IH]; [reflexivity|]. cbn [map]. rewrite qsum_cons, IH.
  change (list_sum (a :: l)) with (a + list_sum l). now rewrite qc_of_nat_add.
Qed.
Lemma qsum_const {A} (c : Qc) (l : list A) : qsum (map (fun _ => c) l) = (qc_of_nat (length l) * c)%Qc.
Proof.
  induction l as [|a l IH]; [cbn [map length]; rewrite qc_of_nat_0, qsum_nil; ring|].
  cbn [map length]. rewrite qsum_cons, IH. change (S (length l)) with (1 + length l).
  rewrite qc_of_nat_add, qc_of_nat_1. ring.
Qed.

Lemma qc_div_self a : a <> 0%Qc -> (a / a)%Qc = 1%Qc.
Proof. intros H. unfold Qcdiv. now apply Qcmult_inv_r. Qed.
Lemma qc_div_1 a : (a / 1)%Qc = a.
Proof.
  unfold Qcdiv. replace (/ 1)%Qc with 1%Qc by reflexivity. ring.
Qed.
Lemma qc_inv_nonneg a : (0 < a)%Qc -> (0 <= / a)%Qc.
Proof.
  intros H. destruct (Qclt_le_dec (/ a) 0) as [Hn|Hn]; [|exact Hn].
  exfalso. assert (Ha : a <> 0%Qc) by (intros ->; discriminate).
  pose proof (Qcmult_inv_r a Ha) as E.
  assert (H2 : (/ a * a < 0 * a)%Qc) by (apply Qcmult_lt_compat_r; [exact H|exact Hn]).
  rewrite Qcmult_comm, E in H2. replace (0 * a)%Qc with 0%Qc in H2 by ring. discriminate.
Qed.
Lemma qc_div_nonneg a b : (0 <= a)%Qc -> (0 <= b)%Qc -> (0 <= a / b)%Qc.
Proof.
  intros Ha Hb. unfold Qcdiv. destruct (Qc_eq_dec b 0) as [->|Hn].
  - replace (/ 0)%Qc with 0%Qc by reflexivity. replace (a * 0)%Qc with 0%Qc by ring. apply Qcle_refl.
  - assert (H : (0 < b)%Qc) by (apply Qcle_lt_or_eq in Hb as [H|H]; [exact H|congruence]).
    replace 0%Qc with (0 * / b)%Qc by ring. apply Qcmult_le_compat_r; [exact Ha|now apply qc_inv_nonneg].
Qed.
