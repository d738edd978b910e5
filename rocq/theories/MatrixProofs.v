(** Elementwise operations on matrices (lists of rows). *)
From Coq Require Import QArith Qcanon.
From Verif Require Import Base ListLib QcLib VocabModel ScoreModel ScoreSpec IterModel IterSpec SubwordProofs.
Local Open Scope nat_scope.

Lemma nth_error_zip_with {A B C} (f : A -> B -> C) a b i :
  nth_error (zip_with f a b) i =
  match nth_error a i, nth_error b i with Some x, Some y => Some (f x y) | _, _ => None end.
Proof.
  unfold zip_with. revert b i; induction a as [|x a IH]; intros [|y b] [|i]; cbn; try reflexivity.
  - now destruct (nth_error a i).
  - apply IH.
Qed.
Lemma zip_with_length {A B C} (f : A -> B -> C) a b :
  length (zip_with f a b) = Nat.min (length a) (length b).
Proof. unfold zip_with. now rewrite map_length, combine_length. Qed.

Lemma cell_mmap {A B} (f : A -> B) m t j : cell (mmap f m) t j = option_map f (cell m t j).
Proof.
  unfold cell, mmap. rewrite nth_error_map. destruct (nth_error m t) as [row|]; cbn; [|reflexivity].
  apply nth_error_map.
Qed.
Lemma cell_mzip {A B C} (f : A -> B -> C) a b t j :
  cell (mzip f a b) t j =
  match cell a t j, cell b t j with Some x, Some y => Some (f x y) | _, _ => None end.
Proof.
  unfold cell, mzip. rewrite nth_error_zip_with.
  destruct (nth_error a t) as [ra|]; [|reflexivity].
  destruct (nth_error b t) as [rb|]; [|now destruct (nth_error ra j)].
  apply nth_error_zip_with.
Qed.
Lemma cell_tl {A} (m : list (list A)) t j : cell (tl m) t j = cell m (S t) j.
Proof. destruct m as [|r m]; [|reflexivity]. unfold cell. cbn. now destruct t. Qed.
Lemma nth_error_removelast {A} (l : list A) i :
  nth_error (removelast l) i = if S i <? length l then nth_error l i else None.
Proof.
  revert i; induction l as [|a [|b l] IH]; intros i.
  - now destruct i.
  - now destruct i.
  - change (removelast (a :: b :: l)) with (a :: removelast (b :: l)). destruct i as [|i]; [reflexivity|].
    cbn [nth_error]. rewrite IH. reflexivity.
Qed.
Lemma cell_removelast {A} (m : list (list A)) t j :
  cell (removelast m) t j = if S t <? length m then cell m t j else None.
Proof. unfold cell. rewrite nth_error_removelast. now destruct (S t <? length m). Qed.

Lemma is_matrix_mmap {A B} (f : A -> B) r c m : is_matrix r c m -> is_matrix r c (mmap f m).
Proof.
  intros [H1 H2]. split; [unfold mmap; now rewrite map_length|].
  unfold mmap. apply Forall_map. eapply Forall_impl; [|exact H2]. intros row H. now rewrite map_length.
Qed.
Lemma is_matrix_cell {A} r c (m : list (list A)) t j :
  is_matrix r c m -> t < r -> j < c -> exists x, cell m t j = Some x.
Proof.
  intros [H1 H2] Ht Hj. unfold cell. destruct (nth_error m t) as [row|] eqn:E.
  - rewrite Forall_forall in H2. specialize (H2 row (nth_error_In _ _ E)).
    destruct (nth_error row j) as [x|] eqn:E'; [eauto|]. apply nth_error_None in E'. lia.
  - apply nth_error_None in E. lia.
Qed.
Lemma is_matrix_none {A} r c (m : list (list A)) t j :
  is_matrix r c m -> r <= t \/ c <= j -> cell m t j = None.
Proof.
  intros [H1 H2] H. unfold cell. destruct (nth_error m t) as [row|] eqn:E; [|reflexivity].
  assert (t < length m) by (apply nth_error_Some; congruence).
  rewrite Forall_forall in H2. specialize (H2 row (nth_error_In _ _ E)).
  apply nth_error_None. lia.
Qed.
Lemma is_matrix_mzip {A B C} (f : A -> B -> C) r c a b :
  is_matrix r c a -> is_matrix r c b -> is_matrix r c (mzip f a b).
Proof.
  intros [H1 H2] [H3 H4]. split; [unfold mzip; rewrite zip_with_length; lia|].
  apply Forall_forall. intros row Hr. apply In_nth_error in Hr as (t & E). unfold mzip in E.
  rewrite nth_error_zip_with in E. destruct (nth_error a t) as [ra|] eqn:Ea; [|discriminate].
  destruct (nth_error b t) as [rb|] eqn:Eb; [|discriminate].
  assert (Er : row = zip_with f ra rb) by congruence. subst row. rewrite zip_with_length.
  rewrite Forall_forall in H2, H4. rewrite (H2 ra), (H4 rb); [lia|eapply nth_error_In; eauto|eapply nth_error_In; eauto].
Qed.
Lemma is_matrix_tl {A} r c (m : list (list A)) : is_matrix r c m -> is_matrix (r - 1) c (tl m).
Proof.
  intros [H1 H2]. destruct m as [|row m]; cbn in *; [subst r; split; auto|].
  split; [lia|]. now inversion H2.
Qed.
Lemma removelast_length {A} (l : list A) : length (removelast l) = length l - 1.
Proof.
  induction l as [|a [|b l] IH]; [reflexivity|reflexivity|].
  change (removelast (a :: b :: l)) with (a :: removelast (b :: l)). cbn [length] in *. rewrite IH. lia.
Qed.
Lemma is_matrix_removelast {A} r c (m : list (list A)) : is_matrix r c m -> is_matrix (r - 1) c (removelast m).
Proof.
  intros [H1 H2]. split; [rewrite removelast_length; lia|].
  apply Forall_forall. intros x Hx. rewrite Forall_forall in H2. apply H2.
  clear -Hx. induction m as [|a [|b m] IH]; [destruct Hx|destruct Hx|].
  change (removelast (a :: b :: m)) with (a :: removelast (b :: m)) in Hx. destruct Hx as [->|Hx]; [left; reflexivity|right; auto].
Qed.

(** Columns *)
Lemma column_nth {A} r c (m : list (list A)) j t :
  is_matrix r c m -> j < c -> nth_error (column j m) t = cell m t j.
Proof.
  intros [_ H] Hj. unfold column, cell. revert t; induction H as [|row m Hr H IH]; intros t; cbn.
  - now destruct t.
  - destruct (nth_error row j) as [x|] eqn:E; [|apply nth_error_None in E; lia].
    destruct t as [|t]; cbn; [now rewrite E|apply IH].
Qed.
Lemma column_length {A} r c (m : list (list A)) j : is_matrix r c m -> j < c -> length (column j m) = r.
Proof.
  intros [H1 H] Hj. subst r. unfold column. induction H as [|row m Hr H IH]; cbn; [reflexivity|].
  destruct (nth_error row j) as [x|] eqn:E; [|apply nth_error_None in E; lia].
  cbn. now rewrite IH.
Qed.

Lemma select_prefix {A} n (mask : list nat) (values : list A) :
  length mask = length values -> n <= length values ->
  (forall i, i < length mask -> nth_error mask i = Some (if i <? n then 1 else 0)) ->
  select mask values = firstn n values.
Proof.
  revert n values; induction mask as [|m mask IH]; intros n [|x values] Hl Hn H; try discriminate.
  - cbn in Hn. now destruct n.
  - cbn [length] in *. unfold select. cbn [combine filter fst].
    pose proof (H 0 ltac:(lia)) as H0. cbn in H0. injection H0 as ->.
    destruct n as [|n].
    + cbn [Nat.ltb Nat.leb Nat.eqb]. cbn [firstn].
      change (select mask values = []). rewrite (IH 0); [reflexivity|lia|lia|].
      intros i Hi. apply (H (S i)). lia.
    + change (0 <? S n) with true. cbn [Nat.eqb map snd firstn]. f_equal.
      apply IH; [lia|lia|]. intros i Hi. apply (H (S i)). lia.
Qed.

(** ** Sums of matrices *)
Section Monoid.
Context {A : Type} (op : A -> A -> A) (e : A).
Hypothesis op_comm : forall x y, op x y = op y x.
Hypothesis op_assoc : forall x y z, op x (op y z) = op (op x y) z.
Hypothesis op_e : forall x, op e x = x.
Let sum := fold_right op e.

Lemma msum_app a b : sum (a ++ b) = op (sum a) (sum b).
Proof.
  induction a as [|x a IH]; cbn; [now rewrite op_e|].
  change (op x (sum (a ++ b)) = op (op x (sum a)) (sum b)). now rewrite IH, op_assoc.
Qed.
Lemma msum_map_op {B} (f g : B -> A) l :
  sum (map (fun x => op (f x) (g x)) l) = op (sum (map f l)) (sum (map g l)).
Proof.
  induction l as [|x l IH]; cbn; [now rewrite op_e|].
  change (op (op (f x) (g x)) (sum (map (fun x => op (f x) (g x)) l)) =
          op (op (f x) (sum (map f l))) (op (g x) (sum (map g l)))).
  rewrite IH, <- !op_assoc. f_equal. rewrite !op_assoc. f_equal. apply op_comm.
Qed.
Lemma msum_row row : sum row = sum (map (fun j => nth j row e) (seq 0 (length row))).
Proof.
  f_equal. apply nth_error_ext. intros i. rewrite nth_error_map, nth_error_seq.
  destruct (Nat.ltb_spec i (length row)); cbn; [|now apply nth_error_None].
  now apply nth_error_nth'.
Qed.
Lemma msum_columns r c m : is_matrix r c m ->
  sum (concat m) = sum (map (fun j => sum (column j m)) (seq 0 c)).
Proof.
  intros [_ H]. induction H as [|row m Hr H IH].
  - cbn. assert (E : forall l : list nat, sum (map (fun _ => e) l) = e).
    { induction l as [|x l IHl]; cbn; [reflexivity|]. change (op e (sum (map (fun _ => e) l)) = e). now rewrite IHl, op_e. }
    now rewrite E.
  - cbn [concat]. rewrite msum_app, IH, (msum_row row), Hr, <- msum_map_op. f_equal.
    apply map_ext_in. intros j Hj. apply in_seq in Hj. unfold column. cbn [map concat].
    destruct (nth_error row j) as [x|] eqn:E; [|apply nth_error_None in E; lia].
    erewrite nth_error_nth by exact E. reflexivity.
Qed.
Lemma msum_units l : (forall x, In x l -> x = e) -> sum l = e.
Proof.
  induction l as [|x l IH]; intros H; [reflexivity|].
  change (op x (sum l) = e). rewrite (H x), op_e by (left; reflexivity). apply IH. intros y Hy. apply H. now right.
Qed.
End Monoid.
