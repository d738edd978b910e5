(** Class statistics are exact under moves. *)
From Coq Require Import Reals Lia.
From Verif Require Import Base BigramModel BigramSpec.
Local Open Scope Z_scope.

Definition ind (b : bool) : Z := if b then 1 else 0.

Lemma total_nil f : total [] f = 0. Proof. reflexivity. Qed.
Lemma total_cons x l f : total (x :: l) f = f x + total l f. Proof. reflexivity. Qed.
Lemma total_ext l f g : (forall x, In x l -> f x = g x) -> total l f = total l g.
Proof. intros H. induction l as [|x l IH]; [reflexivity|]. rewrite !total_cons, H, IH; [reflexivity| |left; reflexivity]. intros y Hy; apply H; right; exact Hy. Qed.
Lemma total_add l f g : total l (fun x => f x + g x) = total l f + total l g.
Proof. induction l as [|x l IH]; [reflexivity|]. rewrite !total_cons, IH. lia. Qed.
Lemma total_scale l k f : total l (fun x => k * f x) = k * total l f.
Proof. induction l as [|x l IH]; [rewrite !total_nil; lia|]. rewrite !total_cons, IH. lia. Qed.
Lemma total_scale_r l k f : total l (fun x => f x * k) = total l f * k.
Proof. induction l as [|x l IH]; [rewrite !total_nil; lia|]. rewrite !total_cons, IH. lia. Qed.
Lemma total_zero l f : (forall x, In x l -> f x = 0) -> total l f = 0.
Proof. intros H. induction l as [|x l IH]; [reflexivity|]. rewrite total_cons, H, IH; [reflexivity| |left; reflexivity]. intros y Hy; apply H; right; exact Hy. Qed.
Lemma total_filter q l f : total (filter q l) f = total l (fun x => ind (q x) * f x).
Proof. induction l as [|x l IH]; [reflexivity|]. cbn [filter]. rewrite total_cons. destruct (q x); cbn [ind]; rewrite ?total_cons, IH; lia. Qed.
Lemma total_app l m f : total (l ++ m) f = total l f + total m f.
Proof. induction l as [|x l IH]; [rewrite total_nil; reflexivity|]. cbn [app]. rewrite !total_cons, IH. lia. Qed.
Lemma total_swap l m (f : nat -> nat -> Z) : total l (fun x => total m (f x)) = total m (fun y => total l (fun x => f x y)).
Proof.
  induction l as [|x l IH].
  - rewrite total_nil. symmetry. apply total_zero. reflexivity.
  - rewrite total_cons, IH, <- total_add. reflexivity.
Qed.
Lemma total_point n w f : (w < n)%nat -> total (seq 0 n) (fun x => ind (x =? w)%nat * f x) = f w.
Proof.
  intros H. assert (G : forall k m, total (seq m k) (fun x => ind (x =? w)%nat * f x) = if ((m <=? w) && (w <? m + k))%nat%bool then f w else 0).
  { induction k as [|k IH]; intros m.
    - rewrite Nat.add_0_r. destruct (m <=? w)%nat eqn:E1, (w <? m)%nat eqn:E2; cbn [andb]; try reflexivity.
      apply Nat.leb_le in E1. apply Nat.ltb_lt in E2. lia.
    - cbn [seq]. rewrite total_cons, IH. destruct (m =? w)%nat eqn:E.
      + apply Nat.eqb_eq in E. subst m. cbn [ind].
        replace (S w <=? w)%nat with false by (symmetry; apply Nat.leb_gt; lia).
        replace (w <=? w)%nat with true by (symmetry; apply Nat.leb_le; lia).
        replace (w <? w + S k)%nat with true by (symmetry; apply Nat.ltb_lt; lia). cbn [andb]. lia.
      + apply Nat.eqb_neq in E. cbn [ind]. replace (S m + k)%nat with (m + S k)%nat by lia.
        replace (S m <=? w)%nat with (m <=? w)%nat; [lia|].
        destruct (m <=? w)%nat eqn:E1; symmetry; [apply Nat.leb_le in E1; apply Nat.leb_le; lia|apply Nat.leb_gt in E1; apply Nat.leb_gt; lia]. }
  rewrite G. replace (0 <=? w)%nat with true by reflexivity. replace (w <? 0 + n)%nat with true by (symmetry; apply Nat.ltb_lt; lia). reflexivity.
Qed.

Lemma total_flat_map {A} (l : list A) (g : A -> list nat) f : total (flat_map g l) f = fold_right (fun x s => total (g x) f + s) 0 l.
Proof. induction l as [|x l IH]; [reflexivity|]. cbn [flat_map fold_right]. rewrite total_app, IH. reflexivity. Qed.

(** Closed forms of the array operations *)
Definition sum_at (ids : list ((nat * nat) * Z)) (k l : nat) : Z :=
  fold_right (fun '((i, j), v) s => ind ((k =? i) && (l =? j))%nat%bool * v + s) 0 ids.
Lemma sum_at_app a b k l : sum_at (a ++ b) k l = sum_at a k l + sum_at b k l.
Proof. induction a as [|[[i j] v] a IH]; [reflexivity|]. cbn [app sum_at fold_right] in *. fold (sum_at (a ++ b) k l). rewrite IH. unfold sum_at. lia. Qed.
Lemma add2_eq m i j v k l : add2 m i j v k l = m k l + ind ((k =? i) && (l =? j))%nat%bool * v.
Proof. unfold add2. destruct ((k =? i)%nat && (l =? j)%nat)%bool; cbn [ind]; lia. Qed.
Lemma add1_eq a i v k : add1 a i v k = a k + ind (k =? i)%nat * v.
Proof. unfold add1. destruct (k =? i)%nat; cbn [ind]; lia. Qed.
Lemma add_at2_eq ids : forall m k l, add_at2 m ids k l = m k l + sum_at ids k l.
Proof.
  unfold add_at2. induction ids as [|[[i j] v] ids IH]; intros m k l; cbn [fold_left]; [cbn; lia|].
  rewrite IH, add2_eq. cbn [sum_at fold_right]. unfold sum_at. lia.
Qed.
Lemma sum_at_map ids (f : nat -> (nat * nat) * Z) k l :
  sum_at (map f ids) k l = total ids (fun x => ind ((k =? fst (fst (f x))) && (l =? snd (fst (f x))))%nat%bool * snd (f x)).
Proof.
  induction ids as [|x ids IH]; [reflexivity|]. rewrite total_cons, <- IH. cbn [map sum_at fold_right].
  destruct (f x) as [[i j] v]. reflexivity.
Qed.

Lemma inc_row_eq i v : forall ids m k l, NoDup ids ->
  inc_row m i ids v k l = m k l + ind (k =? i)%nat * total ids (fun j => ind (j =? l)%nat * v j).
Proof.
  assert (G : forall ids r (m : nat -> nat -> Z) k l, NoDup ids ->
    fold_left (fun r j => fun k l => if ((k =? i)%nat && (l =? j)%nat)%bool then m i j + v j else r k l) ids r k l
    = if ((k =? i)%nat && existsb (fun j => j =? l)%nat ids)%bool then m k l + total ids (fun j => ind (j =? l)%nat * v j) else r k l).
  { induction ids as [|j ids IH]; intros r m k l N; cbn [fold_left existsb].
    - rewrite andb_false_r. reflexivity.
    - inversion N as [|? ? Hn N']; subst. rewrite IH by exact N'.
      destruct (k =? i)%nat eqn:Ek; cbn [andb]; [|reflexivity]. apply Nat.eqb_eq in Ek. subst k.
      rewrite total_cons. destruct (j =? l)%nat eqn:Ej; cbn [orb ind].
      + apply Nat.eqb_eq in Ej. subst l.
        assert (X : existsb (fun j0 => (j0 =? j)%nat) ids = false).
        { destruct (existsb _ ids) eqn:E; [|reflexivity]. apply existsb_exists in E. destruct E as (y & Hy & E). apply Nat.eqb_eq in E. subst y. contradiction. }
        rewrite X. rewrite Nat.eqb_refl. rewrite (total_zero ids).
        * lia.
        * intros y Hy. destruct (y =? j)%nat eqn:E; [|reflexivity]. apply Nat.eqb_eq in E. subst y. contradiction.
      + rewrite Nat.eqb_sym, Ej. destruct (existsb (fun j0 => (j0 =? l)%nat) ids); [lia|reflexivity]. }
  intros ids m k l N. unfold inc_row. rewrite G by exact N. destruct (k =? i)%nat; cbn [andb ind]; [|lia].
  destruct (existsb (fun j => (j =? l)%nat) ids) eqn:E; [lia|].
  rewrite (total_zero ids); [lia|]. intros y Hy. destruct (y =? l)%nat eqn:E'; [|reflexivity].
  assert (X : existsb (fun j => (j =? l)%nat) ids = true) by (apply existsb_exists; exists y; auto). congruence.
Qed.
Lemma inc_column_eq j v ids m k l : NoDup ids ->
  inc_column m ids j v k l = m k l + ind (l =? j)%nat * total ids (fun i => ind (i =? k)%nat * v i).
Proof.
  intros N. assert (E : inc_column m ids j v k l = inc_row (fun a b => m b a) j ids v l k).
  { unfold inc_column, inc_row. cbv beta.
    assert (G : forall ids r r', (forall k l, r k l = r' l k) -> forall k l,
      fold_left (fun r i => fun k l => if ((k =? i)%nat && (l =? j)%nat)%bool then m i j + v i else r k l) ids r k l =
      fold_left (fun r j0 => fun k0 l0 => if ((k0 =? j)%nat && (l0 =? j0)%nat)%bool then m j0 j + v j0 else r k0 l0) ids r' l k).
    { clear. induction ids as [|i ids IH]; intros r r' H k l; cbn [fold_left]; [apply H|]. apply IH. intros k0 l0. rewrite andb_comm, H. reflexivity. }
    apply G. reflexivity. }
  rewrite E, inc_row_eq by exact N. reflexivity.
Qed.

(** Counts of an assignment after one word has changed its class *)
Lemma class_of_upd a w new u : (w < length a)%nat -> class_of (upd a w new) u = if (u =? w)%nat then new else class_of a u.
Proof.
  unfold class_of. revert w u. induction a as [|x a IH]; intros w u H; [cbn in H; lia|].
  destruct w as [|w]; cbn [upd]; destruct u as [|u]; cbn [nth Nat.eqb]; try reflexivity. apply IH. cbn in H; lia.
Qed.

Definition delta (old new c : nat) : Z := ind (new =? c)%nat - ind (old =? c)%nat.

Lemma members_upd p a w new c f :
  (w < num_words p)%nat -> length a = num_words p ->
  total (members p (upd a w new) c) f = total (members p a c) f + delta (class_of a w) new c * f w.
Proof.
  intros H L. unfold members. rewrite !total_filter.
  rewrite <- (total_point (num_words p) w (fun x => delta (class_of a w) new c * f x) H).
  rewrite <- total_add. apply total_ext. intros x _. rewrite class_of_upd by lia.
  destruct (x =? w)%nat eqn:E; cbn [ind]; [|lia]. apply Nat.eqb_eq in E. subst x. unfold delta. lia.
Qed.

Section Upd.
Variables (p : problem) (a : list nat) (w new : nat).
Hypotheses (Hw : (w < num_words p)%nat) (Hl : length a = num_words p).
Notation d := (delta (class_of a w) new).
Lemma class_count_upd c : class_count p (upd a w new) c = class_count p a c + d c * word_counts p w.
Proof. unfold class_count. apply members_upd; assumption. Qed.
Lemma class_word_upd c v : class_word_count p (upd a w new) c v = class_word_count p a c v + d c * ww_counts p w v.
Proof. unfold class_word_count. rewrite (members_upd p a w new c (fun u => ww_counts p u v)); auto. Qed.
Lemma word_class_upd u c : word_class_count p (upd a w new) u c = word_class_count p a u c + d c * ww_counts p u w.
Proof. unfold word_class_count. apply members_upd; assumption. Qed.
Lemma class_class_upd c e : class_class_count p (upd a w new) c e =
  class_class_count p a c e + d c * word_class_count p a w e + d e * class_word_count p a c w + d c * d e * ww_counts p w w.
Proof.
  unfold class_class_count. rewrite members_upd by assumption.
  rewrite (total_ext (members p a c) (fun u => total (members p (upd a w new) e) (ww_counts p u)) (fun u => total (members p a e) (ww_counts p u) + d e * ww_counts p u w)).
  2:{ intros x _. apply members_upd; assumption. }
  rewrite total_add, total_scale, members_upd by assumption. unfold word_class_count, class_word_count. ring.
Qed.
End Upd.

(** The initial tables *)
Lemma fold_add1 l : forall a f g k,
  fold_left (fun a w => add1 a (g w) (f w)) l a k = a k + total l (fun w => ind (k =? g w)%nat * f w).
Proof.
  induction l as [|x l IH]; intros a f g k; cbn [fold_left]; [rewrite total_nil; lia|]. rewrite IH, add1_eq, total_cons. lia.
Qed.

Lemma sum_at_pairs p f : forall us k l,
  sum_at (map f (flat_map (fun u => map (fun v => (u, v)) (right_words p u)) us)) k l =
  total us (fun u => total (right_words p u) (fun v => ind ((k =? fst (fst (f (u, v)))) && (l =? snd (fst (f (u, v)))))%nat%bool * snd (f (u, v)))).
Proof.
  induction us as [|u us IH]; intros k l; [reflexivity|]. cbn [flat_map]. rewrite map_app, sum_at_app, IH, total_cons. f_equal.
  rewrite map_map, (sum_at_map (right_words p u) (fun v => f (u, v))). reflexivity.
Qed.

Lemma total_right p u f : (forall v, ww_counts p u v = 0 -> f v = 0) -> total (right_words p u) f = total (seq 0 (num_words p)) f.
Proof.
  intros H. unfold right_words. rewrite total_filter. apply total_ext. intros v _. destruct (ww_counts p u v =? 0) eqn:E; cbn [negb ind]; [|lia].
  apply Z.eqb_eq in E. rewrite (H v E). lia.
Qed.
Lemma total_left p v f : (forall u, ww_counts p u v = 0 -> f u = 0) -> total (left_words p v) f = total (seq 0 (num_words p)) f.
Proof.
  intros H. unfold left_words. rewrite total_filter. apply total_ext. intros u _. destruct (ww_counts p u v =? 0) eqn:E; cbn [negb ind]; [|lia].
  apply Z.eqb_eq in E. rewrite (H u E). lia.
Qed.

Lemma ind_and a b : ind (a && b)%bool = ind a * ind b.
Proof. destruct a, b; reflexivity. Qed.

Lemma exact_initial p a : exact p (compute_class_statistics p a).
Proof.
  unfold exact, compute_class_statistics. cbn [word_to_class class_counts cc_counts cw_counts wc_counts].
  split; [|split; [|split]].
  - intros c _. rewrite fold_add1. unfold class_count, members. rewrite total_filter. rewrite Z.add_0_l. apply total_ext.
    intros w _. rewrite Nat.eqb_sym. reflexivity.
  - intros c e _ _. rewrite add_at2_eq, sum_at_pairs. cbn [fst snd]. unfold class_class_count, members. rewrite total_filter, Z.add_0_l.
    apply total_ext. intros u _. rewrite total_right.
    + rewrite total_filter, <- total_scale. apply total_ext. intros v _. rewrite ind_and, (Nat.eqb_sym c), (Nat.eqb_sym e). ring.
    + intros v E. rewrite E. ring.
  - intros c v _ Hv. rewrite add_at2_eq, sum_at_pairs. cbn [fst snd]. unfold class_word_count, members. rewrite total_filter, Z.add_0_l.
    apply total_ext. intros u _. rewrite total_right by (intros x E; rewrite E; ring).
    rewrite <- (total_point (num_words p) v (fun v => ind (class_of a u =? c)%nat * ww_counts p u v) Hv).
    apply total_ext. intros x _. rewrite ind_and, (Nat.eqb_sym c), (Nat.eqb_sym v). ring.
  - intros u e Hu _. rewrite add_at2_eq, sum_at_pairs. cbn [fst snd]. unfold word_class_count, members. rewrite total_filter, Z.add_0_l.
    rewrite <- (total_point (num_words p) u (fun u => total (seq 0 (num_words p)) (fun x => ind (class_of a x =? e)%nat * ww_counts p u x)) Hu).
    apply total_ext. intros x _. rewrite total_right by (intros y E; rewrite E; ring). rewrite <- total_scale. apply total_ext. intros y _.
    rewrite ind_and, (Nat.eqb_sym u), (Nat.eqb_sym e). ring.
Qed.

(** Moving a word *)
Lemma NoDup_right p w q : NoDup (filter q (right_words p w)).
Proof. apply NoDup_filter, NoDup_filter, seq_NoDup. Qed.
Lemma NoDup_left p w q : NoDup (filter q (left_words p w)).
Proof. apply NoDup_filter, NoDup_filter, seq_NoDup. Qed.

Definition moved_state (p : problem) (st : state) (word new : nat) : state :=
  match move Theano p st word new with Ok s => s | Err _ => st end.
Lemma move_theano p st w new : move Theano p st w new = Ok (moved_state p st w new).
Proof. reflexivity. Qed.
(** NumPy: the same, or IndexError when the word has no other neighbour on one side *)
Lemma move_numpy p st w new :
  move Numpy p st w new =
  if existsb (fun v => negb (v =? w)%nat) (right_words p w) && existsb (fun v => negb (v =? w)%nat) (left_words p w)
  then Ok (moved_state p st w new) else Err IndexError.
Proof.
  assert (E : forall l, existsb (fun v => negb (v =? w)%nat) l = match filter (fun v => negb (v =? w)%nat) l with [] => false | _ => true end).
  { induction l as [|x l IH]; [reflexivity|]. cbn [existsb filter]. destruct (negb (x =? w)%nat); [reflexivity|]. exact IH. }
  rewrite !E. unfold moved_state, move.
  destruct (filter (fun v => negb (v =? w)%nat) (right_words p w)) as [|x l]; [reflexivity|].
  destruct (filter (fun v => negb (v =? w)%nat) (left_words p w)) as [|y m]; reflexivity.
Qed.
Lemma move_ok b p st w new st' : move b p st w new = Ok st' -> st' = moved_state p st w new.
Proof.
  destruct b.
  - rewrite move_numpy. destruct (_ && _)%bool; [|discriminate]. intros H; injection H; auto.
  - rewrite move_theano. intros H; injection H; auto.
Qed.

Lemma moved_w2c p st w new : word_to_class (moved_state p st w new) = upd (word_to_class st) w new.
Proof. reflexivity. Qed.

Lemma exact_moved p st w new :
  exact p st -> assignment p (word_to_class st) -> (w < num_words p)%nat -> (new < num_classes p)%nat ->
  exact p (moved_state p st w new).
Proof.
  intros (X1 & X2 & X3 & X4) [L F] Hw Hn. unfold exact. rewrite moved_w2c.
  set (a := word_to_class st) in *.
  assert (Ho : (class_of a w < num_classes p)%nat).
  { rewrite Forall_forall in F. apply F. unfold class_of. apply nth_In. lia. }
  unfold moved_state, move. cbn [bind]. cbn [word_to_class class_counts cc_counts cw_counts wc_counts]. fold a.
  set (old := class_of a w) in *.
  assert (Rr : forall f, total (filter (fun v => negb (v =? w)%nat) (right_words p w)) (fun v => f v * ww_counts p w v)
             = total (seq 0 (num_words p)) (fun v => f v * ww_counts p w v) - f w * ww_counts p w w).
  { intros f. rewrite total_filter.
    rewrite (total_ext _ _ (fun v => f v * ww_counts p w v + ind (v =? w)%nat * (- (f v * ww_counts p w v)))).
    2:{ intros x _. destruct (x =? w)%nat; cbn [negb ind]; ring. }
    rewrite total_add, !total_right by (intros v E; rewrite E; ring).
    rewrite (total_point (num_words p) w (fun v => - (f v * ww_counts p w v)) Hw). ring. }
  assert (Rl : forall f, total (filter (fun v => negb (v =? w)%nat) (left_words p w)) (fun v => f v * ww_counts p v w)
             = total (seq 0 (num_words p)) (fun v => f v * ww_counts p v w) - f w * ww_counts p w w).
  { intros f. rewrite total_filter.
    rewrite (total_ext _ _ (fun v => f v * ww_counts p v w + ind (v =? w)%nat * (- (f v * ww_counts p v w)))).
    2:{ intros x _. destruct (x =? w)%nat; cbn [negb ind]; ring. }
    rewrite total_add, !total_left by (intros v E; rewrite E; ring).
    rewrite (total_point (num_words p) w (fun v => - (f v * ww_counts p v w)) Hw). ring. }
  split; [|split; [|split]].
  - intros c Hc. rewrite !add1_eq, X1 by exact Hc. rewrite class_count_upd by assumption. fold old. unfold delta.
    rewrite (Nat.eqb_sym c old), (Nat.eqb_sym c new). ring.
  - intros c e Hc He. rewrite !add2_eq, !add_at2_eq, X2 by assumption. rewrite !sum_at_map. cbn [fst snd].
    rewrite class_class_upd by assumption. fold old.
    assert (A : forall k s, (s = 1 \/ s = -1) ->
       total (filter (fun v => negb (v =? w)%nat) (right_words p w)) (fun x => ind ((c =? k)%nat && (e =? class_of a x)%nat) * (s * ww_counts p w x))
       = s * ind (c =? k)%nat * (word_class_count p a w e - ind (old =? e)%nat * ww_counts p w w)).
    { intros k s _. rewrite (total_ext _ _ (fun x => (s * ind (c =? k)%nat * ind (class_of a x =? e)%nat) * ww_counts p w x)).
      2:{ intros x _. rewrite ind_and, (Nat.eqb_sym e). ring. }
      rewrite Rr. unfold word_class_count, members. rewrite total_filter.
      rewrite (total_ext _ _ (fun v => (s * ind (c =? k)%nat) * (ind (class_of a v =? e)%nat * ww_counts p w v))) by (intros; ring).
      rewrite total_scale. fold old. ring. }
    assert (B : forall k s, (s = 1 \/ s = -1) ->
       total (filter (fun v => negb (v =? w)%nat) (left_words p w)) (fun x => ind ((c =? class_of a x)%nat && (e =? k)%nat) * (s * ww_counts p x w))
       = s * ind (e =? k)%nat * (class_word_count p a c w - ind (old =? c)%nat * ww_counts p w w)).
    { intros k s _. rewrite (total_ext _ _ (fun x => (s * ind (e =? k)%nat * ind (class_of a x =? c)%nat) * ww_counts p x w)).
      2:{ intros x _. rewrite ind_and, (Nat.eqb_sym c). ring. }
      rewrite Rl. unfold class_word_count, members. rewrite total_filter.
      rewrite (total_ext _ _ (fun v => (s * ind (e =? k)%nat) * (ind (class_of a v =? c)%nat * ww_counts p v w))) by (intros; ring).
      rewrite total_scale. fold old. ring. }
    assert (A1 := A old (-1) ltac:(auto)). assert (A2 := A new 1 ltac:(auto)).
    assert (B1 := B old (-1) ltac:(auto)). assert (B2 := B new 1 ltac:(auto)). clear A B.
    rewrite (total_ext _ (fun x => ind ((c =? old)%nat && (e =? class_of a x)%nat) * - ww_counts p w x) (fun x => ind ((c =? old)%nat && (e =? class_of a x)%nat) * (-1 * ww_counts p w x))) by (intros; ring).
    rewrite (total_ext _ (fun x => ind ((c =? new)%nat && (e =? class_of a x)%nat) * ww_counts p w x) (fun x => ind ((c =? new)%nat && (e =? class_of a x)%nat) * (1 * ww_counts p w x))) by (intros; ring).
    rewrite (total_ext _ (fun x => ind ((c =? class_of a x)%nat && (e =? old)%nat) * - ww_counts p x w) (fun x => ind ((c =? class_of a x)%nat && (e =? old)%nat) * (-1 * ww_counts p x w))) by (intros; ring).
    rewrite (total_ext _ (fun x => ind ((c =? class_of a x)%nat && (e =? new)%nat) * ww_counts p x w) (fun x => ind ((c =? class_of a x)%nat && (e =? new)%nat) * (1 * ww_counts p x w))) by (intros; ring).
    rewrite A1, A2, B1, B2, !ind_and. unfold delta.
    rewrite (Nat.eqb_sym c old), (Nat.eqb_sym c new), (Nat.eqb_sym e old), (Nat.eqb_sym e new). ring.
  - intros c v Hc Hv. rewrite !add2_eq, !inc_row_eq by apply NoDup_right. rewrite X3 by assumption.
    rewrite class_word_upd by assumption. fold old.
    assert (R1 := Rr (fun j => ind (j =? v)%nat)). cbv beta in R1.
    rewrite (total_ext _ (fun j => ind (j =? v)%nat * - ww_counts p w j) (fun j => -1 * (ind (j =? v)%nat * ww_counts p w j))) by (intros; ring).
    rewrite total_scale, R1, (total_point (num_words p) v (fun j => ww_counts p w j) Hv), !ind_and. unfold delta.
    rewrite (Nat.eqb_sym c old), (Nat.eqb_sym c new), (Nat.eqb_sym v w). destruct (w =? v)%nat eqn:E; cbn [ind]; [|ring].
    apply Nat.eqb_eq in E. subst v. ring.
  - intros u e Hu He. rewrite !add2_eq, !inc_column_eq by apply NoDup_left. rewrite X4 by assumption.
    rewrite word_class_upd by assumption. fold old.
    assert (R1 := Rl (fun j => ind (j =? u)%nat)). cbv beta in R1.
    rewrite (total_ext _ (fun j => ind (j =? u)%nat * - ww_counts p j w) (fun j => -1 * (ind (j =? u)%nat * ww_counts p j w))) by (intros; ring).
    rewrite total_scale, R1, (total_point (num_words p) u (fun j => ww_counts p j w) Hu), !ind_and. unfold delta.
    rewrite (Nat.eqb_sym e old), (Nat.eqb_sym e new), (Nat.eqb_sym u w). destruct (w =? u)%nat eqn:E; cbn [ind]; [|ring].
    apply Nat.eqb_eq in E. subst u. ring.
Qed.

Lemma upd_length {A} (l : list A) i x : length (upd l i x) = length l.
Proof. revert i. induction l as [|y l IH]; intros [|i]; cbn [upd length]; auto. Qed.
Lemma upd_forall {A} (P : A -> Prop) l : forall i x, Forall P l -> P x -> Forall P (upd l i x).
Proof. induction l as [|y l IH]; intros [|i] x F H; cbn [upd]; auto; inversion F; subst; constructor; auto. Qed.
Lemma assignment_upd p a w c : assignment p a -> (c < num_classes p)%nat -> assignment p (upd a w c).
Proof. intros [L F] H. split; [rewrite upd_length; exact L|apply upd_forall; assumption]. Qed.

Lemma exact_moves b p st l st' :
  moves b p st l st' -> exact p st -> assignment p (word_to_class st) ->
  exact p st' /\ assignment p (word_to_class st') /\
  word_to_class st' = fold_left (fun a '(w, c) => upd a w c) l (word_to_class st).
Proof.
  induction 1 as [st|st w c st1 l st2 Hw Hc M H IH]; intros X A; [auto|].
  apply move_ok in M. subst st1. rewrite moved_w2c in IH.
  destruct IH as (I1 & I2 & I3); [apply exact_moved; assumption|apply assignment_upd; assumption|].
  split; [exact I1|split; [exact I2|exact I3]].
Qed.
