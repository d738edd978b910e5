(** Lemmas about the shared definitions of [Base]. *)
From Verif Require Import Base ListLib.

Lemma upd_length {A} (l : list A) i a : length (upd l i a) = length l.
Proof. revert i; induction l as [|x l IH]; intros [|i]; cbn; auto. Qed.

Lemma nth_error_upd {A} (l : list A) i a j :
  nth_error (upd l i a) j =
  if j =? i then (if i <? length l then Some a else None) else nth_error l j.
Proof.
  revert i j; induction l as [|x l IH]; intros i j; cbn [upd length].
  - destruct (j =? i); [|destruct j; reflexivity]. destruct j; reflexivity.
  - destruct i as [|i], j as [|j]; cbn [nth_error Nat.eqb]; try reflexivity.
    rewrite IH. destruct (j =? i); [|reflexivity].
    replace (S i <? S (length l)) with (i <? length l); [reflexivity|].
    destruct (i <? length l) eqn:E; symmetry; [apply Nat.ltb_lt in E; apply Nat.ltb_lt; lia|].
    apply Nat.ltb_ge in E; apply Nat.ltb_ge; lia.
Qed.

Lemma nth_error_map_seq {A} (g : nat -> A) n i :
  nth_error (map g (seq 0 n)) i = if i <? n then Some (g i) else None.
Proof.
  rewrite nth_error_map, nth_error_seq. destruct (i <? n); reflexivity.
Qed.

Lemma upd_map_seq {A} (g g' : nat -> A) n c y :
  c < n -> g' c = y -> (forall k, k < n -> k <> c -> g' k = g k) ->
  upd (map g (seq 0 n)) c y = map g' (seq 0 n).
Proof.
  intros Hc Hy Hg. apply nth_error_ext. intros i.
  rewrite nth_error_upd, map_length, seq_length, !nth_error_map_seq.
  destruct (i =? c) eqn:E.
  - apply Nat.eqb_eq in E. subst i. destruct (c <? n) eqn:E2; [now rewrite Hy|].
    apply Nat.ltb_ge in E2. lia.
  - apply Nat.eqb_neq in E. destruct (i <? n) eqn:E2; [|reflexivity].
    apply Nat.ltb_lt in E2. now rewrite Hg.
Qed.

Lemma mapM_ok {A B} (f : A -> result B) (g : A -> B) l :
  (forall a, In a l -> f a = Ok (g a)) -> mapM f l = Ok (map g l).
Proof.
  induction l as [|a l IH]; intros H; cbn; [reflexivity|].
  rewrite H by (left; reflexivity). cbn. rewrite IH; [reflexivity|]. intros b Hb. apply H. now right.
Qed.

Lemma mapM_inv {A B} (f : A -> result B) l bs :
  mapM f l = Ok bs -> Forall2 (fun a b => f a = Ok b) l bs.
Proof.
  revert bs; induction l as [|a l IH]; intros bs; cbn.
  - intros E. injection E as <-. constructor.
  - destruct (f a) as [b|] eqn:Ea; cbn; [|discriminate].
    destruct (mapM f l) as [bs'|]; cbn; [|discriminate].
    intros E. injection E as <-. constructor; auto.
Qed.

Lemma foldM_app {S A} (f : S -> A -> result S) l1 l2 s :
  foldM f (l1 ++ l2) s = do s' <- foldM f l1 s; foldM f l2 s'.
Proof.
  revert s; induction l1 as [|a l1 IH]; intros s; cbn; [reflexivity|].
  destruct (f s a); cbn; [apply IH|reflexivity].
Qed.
