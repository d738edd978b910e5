(** The evaluated gain of a move is the change of the log likelihood. *)
From Coq Require Import Reals Lra Lia.
From Verif Require Import Base BigramModel BigramSpec BigramProofs.
Local Open Scope R_scope.

(** [is_num a P v]: the result is a number exactly when [P] holds, and then it is [v] *)
Definition is_num (a : number) (P : Prop) (v : R) : Prop := forall z, a = Num z <-> P /\ z = v.

Lemma is_num_opp a P v : is_num a P v -> is_num (num_opp a) P (- v).
Proof.
  intros H z. destruct a as [x| |]; cbn [num_opp].
  - split.
    + intros E. injection E as <-. destruct (proj1 (H x) eq_refl) as [p ->]. auto.
    + intros [p ->]. assert (E := proj2 (H v) (conj p eq_refl)). injection E as ->. reflexivity.
  - split; [discriminate|]. intros [p _]. assert (E := proj2 (H v) (conj p eq_refl)). discriminate.
  - split; [discriminate|]. intros [p _]. assert (E := proj2 (H v) (conj p eq_refl)). discriminate.
Qed.
Lemma is_num_add a b P Q v u : is_num a P v -> is_num b Q u -> is_num (num_add a b) (P /\ Q) (v + u).
Proof.
  intros Ha Hb z. split.
  - destruct a as [x| |], b as [y| |]; cbn [num_add]; intros E; try discriminate. injection E as <-.
    destruct (proj1 (Ha x) eq_refl) as [p ->]. destruct (proj1 (Hb y) eq_refl) as [q ->]. auto.
  - intros [[p q] ->]. assert (E1 := proj2 (Ha v) (conj p eq_refl)). assert (E2 := proj2 (Hb u) (conj q eq_refl)). rewrite E1, E2. reflexivity.
Qed.
Lemma is_num_sub a b P Q v u : is_num a P v -> is_num b Q u -> is_num (num_sub a b) (P /\ Q) (v - u).
Proof. intros Ha Hb. unfold num_sub, Rminus. apply is_num_add; [exact Ha|apply is_num_opp; exact Hb]. Qed.
Lemma is_num_twice a P v : is_num a P v -> is_num (twice a) P (2 * v).
Proof.
  intros H z. destruct a as [x| |]; cbn [twice].
  - split.
    + intros E. injection E as <-. destruct (proj1 (H x) eq_refl) as [p ->]. auto.
    + intros [p ->]. assert (E := proj2 (H v) (conj p eq_refl)). injection E as ->. reflexivity.
  - split; [discriminate|]. intros [p _]. assert (E := proj2 (H v) (conj p eq_refl)). discriminate.
  - split; [discriminate|]. intros [p _]. assert (E := proj2 (H v) (conj p eq_refl)). discriminate.
Qed.
Lemma is_num_num x : is_num (Num x) True x.
Proof. intros z. split; [intros E; injection E; auto|intros [_ ->]; reflexivity]. Qed.
Lemma is_num_iff a P Q v u : is_num a P v -> (P <-> Q) -> (P -> v = u) -> is_num a Q u.
Proof.
  intros H E1 E2 z. rewrite (H z). split; intros [p ->].
  - split; [apply E1; exact p|apply E2; exact p].
  - apply E1 in p. split; [exact p|rewrite E2; auto].
Qed.

Lemma times_log_num x : (0 <= x)%Z -> is_num (times_log x) (x <> 0%Z) (xlogx x).
Proof.
  intros H z. unfold times_log, xlogx. destruct (0 <? x)%Z eqn:E.
  - apply Z.ltb_lt in E. destruct (x =? 0)%Z eqn:E'; [apply Z.eqb_eq in E'; lia|]. apply Z.eqb_neq in E'.
    split; [intros X; injection X; auto|intros [_ ->]; reflexivity].
  - apply Z.ltb_ge in E. split; [discriminate|]. intros [X _]. lia.
Qed.

Definition sumZ (l : list Z) : R := fold_right (fun x s => xlogx x + s) 0 l.
Lemma sum_xlogx_num b l : Forall (fun x => (0 <= x)%Z) l ->
  is_num (sum_xlogx b l) (b = Theano \/ exists x, In x l /\ x <> 0%Z) (sumZ l).
Proof.
  intros F. destruct b; cbn [sum_xlogx].
  - intros z. unfold masked_sum. destruct (existsb (fun x => (0 <? x)%Z) l) eqn:E.
    + assert (Ev : fold_right (fun x s => (if (0 <? x)%Z then IZR x * ln (IZR x) else 0) + s) 0 l = sumZ l).
      { clear E. induction F as [|x l Hx F IH]; [reflexivity|]. cbn [fold_right sumZ]. rewrite IH. f_equal. unfold xlogx.
        destruct (0 <? x)%Z eqn:E1, (x =? 0)%Z eqn:E2; try reflexivity.
        - apply Z.ltb_lt in E1. apply Z.eqb_eq in E2. lia.
        - apply Z.ltb_ge in E1. apply Z.eqb_neq in E2. lia. }
      rewrite Ev. apply existsb_exists in E. destruct E as (x & Hx & E). apply Z.ltb_lt in E.
      split; [intros X; injection X as <-; split; [right; exists x; split; [exact Hx|lia]|reflexivity]|intros [_ ->]; reflexivity].
    + split; [discriminate|]. intros [[X|(x & Hx & Hne)] _]; [discriminate|]. exfalso.
      rewrite Forall_forall in F. assert (A := F x Hx).
      assert (X : existsb (fun x => (0 <? x)%Z) l = true) by (apply existsb_exists; exists x; split; [exact Hx|apply Z.ltb_lt; lia]). congruence.
  - apply (is_num_iff _ True _ (sumZ l)); [|split; auto|reflexivity].
    unfold switch_sum. induction F as [|x l Hx F IH]; cbn [fold_right sumZ]; [apply is_num_num|].
    apply (is_num_iff _ (True /\ True) _ (xlogx x + sumZ l)); [|tauto|reflexivity].
    apply is_num_add; [|exact IH]. destruct (x =? 0)%Z eqn:E.
    + unfold xlogx. rewrite E. apply is_num_num.
    + apply Z.eqb_neq in E. apply (is_num_iff _ (x <> 0%Z) _ (xlogx x)); [apply times_log_num; exact Hx|tauto|reflexivity].
Qed.

Lemma ll_change_num b o n : (0 <= o)%Z -> (0 <= n)%Z ->
  is_num (ll_change b o n) (b = Theano -> o <> 0%Z /\ n <> 0%Z) (xlogx n - xlogx o).
Proof.
  intros Ho Hn. unfold ll_change. destruct b.
  - apply (is_num_iff _ True _ (xlogx n - xlogx o)); [|split; [intros _ X; discriminate|auto]|reflexivity].
    assert (A : is_num (if (o =? 0)%Z then Num 0 else num_sub (Num 0) (times_log o)) True (- xlogx o)).
    { destruct (o =? 0)%Z eqn:E.
      - apply (is_num_iff _ True _ 0); [apply is_num_num|tauto|]. intros _. unfold xlogx. rewrite E. lra.
      - apply Z.eqb_neq in E. eapply is_num_iff; [apply is_num_sub; [apply is_num_num|apply times_log_num; exact Ho]|tauto|intros _; lra]. }
    destruct (n =? 0)%Z eqn:E.
    + eapply is_num_iff; [exact A|tauto|]. intros _. unfold xlogx at 2. rewrite E. lra.
    + apply Z.eqb_neq in E. eapply is_num_iff; [apply is_num_add; [exact A|apply times_log_num; exact Hn]|tauto|intros _; lra].
  - cbv beta iota. eapply is_num_iff.
    + apply is_num_add; [apply is_num_sub; [apply is_num_num|apply times_log_num; exact Ho]|apply times_log_num; exact Hn].
    + split; [tauto|]. intros H. specialize (H eq_refl). tauto.
    + intros _. lra.
Qed.

(** Sums over classes *)
Lemma sumR_ext l f g : (forall x, In x l -> f x = g x) -> sumR l f = sumR l g.
Proof. intros H. unfold sumR. rewrite (map_ext_in f g l H). reflexivity. Qed.
Lemma sumR_cons x l f : sumR (x :: l) f = f x + sumR l f. Proof. reflexivity. Qed.
Lemma sumR_add l f g : sumR l (fun x => f x + g x) = sumR l f + sumR l g.
Proof. induction l as [|x l IH]; [cbn; lra|]. rewrite !sumR_cons, IH. lra. Qed.
Lemma sumR_filter q l f : sumR l f = sumR (filter q l) f + sumR (filter (fun x => negb (q x)) l) f.
Proof.
  induction l as [|x l IH]; [cbn; lra|]. cbn [filter]. rewrite sumR_cons, IH. destruct (q x); cbn [negb]; rewrite sumR_cons; lra.
Qed.
Lemma filter_eq_seq k n : (k < n)%nat -> filter (fun x => (x =? k)%nat) (seq 0 n) = [k].
Proof.
  intros H. replace n with (k + S (n - S k))%nat by lia. rewrite seq_app, filter_app. cbn [seq filter Nat.add]. rewrite Nat.eqb_refl.
  assert (A : forall m s, (forall x, In x (seq s m) -> x <> k) -> filter (fun x => (x =? k)%nat) (seq s m) = []).
  { induction m as [|m IH]; intros s Hs; [reflexivity|]. cbn [seq filter].
    destruct (s =? k)%nat eqn:E; [apply Nat.eqb_eq in E; exfalso; apply (Hs s); [left; reflexivity|exact E]|].
    apply IH. intros x Hx. apply Hs. right; exact Hx. }
  rewrite !A; [reflexivity| |]; intros x Hx; apply in_seq in Hx; lia.
Qed.
Definition others (o n C : nat) : list nat := filter (fun c => negb (c =? o)%nat && negb (c =? n)%nat) (seq 0 C).
Lemma filter_filter {A} (q r : A -> bool) l : filter q (filter r l) = filter (fun x => r x && q x) l.
Proof. induction l as [|x l IH]; [reflexivity|]. cbn [filter]. destruct (r x); cbn [filter andb]; [destruct (q x); rewrite IH; reflexivity|exact IH]. Qed.
Lemma sumR_split o n C f : o <> n -> (o < C)%nat -> (n < C)%nat -> sumR (seq 0 C) f = f o + f n + sumR (others o n C) f.
Proof.
  intros D Ho Hn. rewrite (sumR_filter (fun x => (x =? o)%nat)), filter_eq_seq by exact Ho.
  rewrite (sumR_filter (fun x => (x =? n)%nat) (filter (fun x => negb (x =? o)%nat) _)). rewrite !filter_filter. unfold others.
  rewrite (filter_ext (fun x => negb (x =? o)%nat && (x =? n)%nat) (fun x => (x =? n)%nat)).
  2:{ intros x. destruct (x =? n)%nat eqn:E; [|rewrite andb_false_r; reflexivity]. apply Nat.eqb_eq in E. subst x.
      replace (n =? o)%nat with false by (symmetry; apply Nat.eqb_neq; auto). reflexivity. }
  rewrite filter_eq_seq by exact Hn. unfold sumR at 1 2. cbn [map fold_right]. lra.
Qed.
Lemma in_others o n C x : In x (others o n C) <-> (x < C)%nat /\ x <> o /\ x <> n.
Proof.
  unfold others. rewrite filter_In, in_seq, andb_true_iff, !negb_true_iff, !Nat.eqb_neq. split; intros H; [|]; [destruct H as (A & B & D); repeat split; auto; lia|].
  destruct H as (A & B & D). repeat split; auto; lia.
Qed.
Lemma sumZ_map l (f : nat -> Z) : sumZ (map f l) = sumR l (fun x => xlogx (f x)).
Proof. induction l as [|x l IH]; [reflexivity|]. cbn [map sumZ fold_right]. rewrite sumR_cons, <- IH. reflexivity. Qed.

(** Counts are not negative *)
Lemma total_nonneg l f : (forall x, (0 <= f x)%Z) -> (0 <= total l f)%Z.
Proof. intros H. induction l as [|x l IH]; [cbn; lia|]. rewrite total_cons. specialize (H x). lia. Qed.
Lemma cc_nonneg p a c d : proper p -> (0 <= class_class_count p a c d)%Z.
Proof. intros (_ & H & _). apply total_nonneg. intros x. apply total_nonneg. apply H. Qed.
Lemma c_nonneg p a c : proper p -> (0 <= class_count p a c)%Z.
Proof. intros (H & _). apply total_nonneg. apply H. Qed.

(** When the gain of moving word [w] to class [new] is a number *)
Definition numeric (b : backend) (p : problem) (a : list nat) (w new : nat) : Prop :=
  let old := class_of a w in
  let a' := upd a w new in
  (class_count p a' old <> 0%Z /\ class_count p a new <> 0%Z) /\
  match b with
  | Numpy => forall s k, In s [a; a'] -> In k [old; new] ->
      (exists x, (x < num_classes p)%nat /\ x <> old /\ x <> new /\ class_class_count p s k x <> 0%Z) /\
      (exists x, (x < num_classes p)%nat /\ x <> old /\ x <> new /\ class_class_count p s x k <> 0%Z)
  | Theano => forall s c d, In s [a; a'] -> In c [old; new] -> In d [old; new] -> class_class_count p s c d <> 0%Z
  end.

Lemma delta_old o n : o <> n -> delta o n o = (-1)%Z.
Proof. intros H. unfold delta. rewrite Nat.eqb_refl. replace (n =? o)%nat with false by (symmetry; apply Nat.eqb_neq; auto). reflexivity. Qed.
Lemma delta_new o n : o <> n -> delta o n n = 1%Z.
Proof. intros H. unfold delta. rewrite Nat.eqb_refl. replace (o =? n)%nat with false by (symmetry; apply Nat.eqb_neq; auto). reflexivity. Qed.
Lemma delta_other o n x : x <> o -> x <> n -> delta o n x = 0%Z.
Proof. intros H H'. unfold delta. replace (o =? x)%nat with false by (symmetry; apply Nat.eqb_neq; auto). replace (n =? x)%nat with false by (symmetry; apply Nat.eqb_neq; auto). reflexivity. Qed.

Lemma evaluate_num b p st w new :
  proper p -> exact p st -> assignment p (word_to_class st) -> (w < num_words p)%nat -> (new < num_classes p)%nat ->
  class_of (word_to_class st) w <> new ->
  is_num (evaluate b p st w new) (numeric b p (word_to_class st) w new)
         (likelihood p (upd (word_to_class st) w new) - likelihood p (word_to_class st)).
Proof.
  intros P (X1 & X2 & X3 & X4) As Hw Hn D. set (a := word_to_class st) in *. set (old := class_of a w) in *.
  set (a' := upd a w new).
  assert (Ho : (old < num_classes p)%nat).
  { destruct As as [L F]. rewrite Forall_forall in F. apply F. unfold old, class_of. apply nth_In. lia. }
  destruct As as [L F].
  assert (CC : forall c e, class_class_count p a' c e = (class_class_count p a c e + delta old new c * word_class_count p a w e + delta old new e * class_word_count p a c w + delta old new c * delta old new e * ww_counts p w w)%Z).
  { intros c e. apply class_class_upd; assumption. }
  assert (C1 : forall c, class_count p a' c = (class_count p a c + delta old new c * word_counts p w)%Z) by (intros c; apply class_count_upd; assumption).
  set (E := others old new (num_classes p)).
  assert (HE : forall x, In x E -> (x < num_classes p)%nat /\ x <> old /\ x <> new) by (intros x; apply in_others).
  set (Q k := class_class_count p a k). set (Q' k := class_class_count p a' k).
  set (row s k := (exists x, In x E /\ class_class_count p s k x <> 0%Z)).
  set (col s k := (exists x, In x E /\ class_class_count p s x k <> 0%Z)).
  (* the pieces *)
  assert (SL : forall (f : nat -> Z) s k, (forall x, In x E -> f x = class_class_count p s k x) ->
            is_num (sum_xlogx b (map f E)) (b = Theano \/ row s k) (sumR E (fun x => xlogx (class_class_count p s k x)))).
  { intros f s k H. rewrite (map_ext_in f _ E H).
    eapply is_num_iff; [apply sum_xlogx_num; apply Forall_forall; intros y Hy; apply in_map_iff in Hy; destruct Hy as (x & <- & _); apply cc_nonneg; exact P| |].
    - unfold row. split; (intros [A|A]; [left; exact A|right]).
      + destruct A as (y & Hy & Hne). apply in_map_iff in Hy. destruct Hy as (x & <- & Hx). exists x; auto.
      + destruct A as (x & Hx & Hne). exists (class_class_count p s k x). split; [|exact Hne]. apply (in_map (class_class_count p s k)). exact Hx.
    - intros _. apply sumZ_map. }
  assert (SC : forall (f : nat -> Z) s k, (forall x, In x E -> f x = class_class_count p s x k) ->
            is_num (sum_xlogx b (map f E)) (b = Theano \/ col s k) (sumR E (fun x => xlogx (class_class_count p s x k)))).
  { intros f s k H. rewrite (map_ext_in f (fun x => class_class_count p s x k) E H).
    eapply is_num_iff; [apply sum_xlogx_num; apply Forall_forall; intros y Hy; apply in_map_iff in Hy; destruct Hy as (x & <- & _); apply cc_nonneg; exact P| |].
    - unfold col. split; (intros [A|A]; [left; exact A|right]).
      + destruct A as (y & Hy & Hne). apply in_map_iff in Hy. destruct Hy as (x & <- & Hx). exists x; auto.
      + destruct A as (x & Hx & Hne). exists (class_class_count p s x k). split; [|exact Hne]. apply (in_map (fun x => class_class_count p s x k)). exact Hx.
    - intros _. rewrite sumZ_map. reflexivity. }
  assert (LC : forall c e oc nc, oc = class_class_count p a c e -> nc = class_class_count p a' c e ->
            is_num (ll_change b oc nc) (b = Theano -> class_class_count p a c e <> 0%Z /\ class_class_count p a' c e <> 0%Z)
                   (xlogx (class_class_count p a' c e) - xlogx (class_class_count p a c e))).
  { intros c e oc nc -> ->. apply ll_change_num; apply cc_nonneg; exact P. }
  assert (TL : forall s c x, x = class_count p s c -> is_num (twice (times_log x)) (class_count p s c <> 0%Z) (2 * xlogx (class_count p s c))).
  { intros s c x ->. apply is_num_twice, times_log_num, c_nonneg; exact P. }
  unfold evaluate. fold a. fold old. fold E. cbv zeta.
  assert (Eold : forall x, In x E -> (cc_counts st old x = class_class_count p a old x /\ (cc_counts st old x - wc_counts st w x)%Z = class_class_count p a' old x)).
  { intros x Hx. destruct (HE x Hx) as (Lx & Nx1 & Nx2). rewrite X2, X4, CC, delta_old, (delta_other old new x) by assumption. fold a. split; [reflexivity|]. ring. }
  assert (Enew : forall x, In x E -> (cc_counts st new x = class_class_count p a new x /\ (cc_counts st new x + wc_counts st w x)%Z = class_class_count p a' new x)).
  { intros x Hx. destruct (HE x Hx) as (Lx & Nx1 & Nx2). rewrite X2, X4, CC, delta_new, (delta_other old new x) by assumption. fold a. split; [reflexivity|]. ring. }
  assert (Fold : forall x, In x E -> (cc_counts st x old = class_class_count p a x old /\ (cc_counts st x old - cw_counts st x w)%Z = class_class_count p a' x old)).
  { intros x Hx. destruct (HE x Hx) as (Lx & Nx1 & Nx2). rewrite X2, X3, CC, delta_old, (delta_other old new x) by assumption. fold a. split; [reflexivity|]. ring. }
  assert (Fnew : forall x, In x E -> (cc_counts st x new = class_class_count p a x new /\ (cc_counts st x new + cw_counts st x w)%Z = class_class_count p a' x new)).
  { intros x Hx. destruct (HE x Hx) as (Lx & Nx1 & Nx2). rewrite X2, X3, CC, delta_new, (delta_other old new x) by assumption. fold a. split; [reflexivity|]. ring. }
  eapply is_num_iff.
  - apply is_num_add; [apply is_num_add; [apply is_num_add; [apply is_num_add; [|]|]|]|].
    + apply is_num_add; [apply is_num_sub; [apply is_num_add; [apply is_num_sub; [apply is_num_add; [apply is_num_sub; [apply is_num_add; [apply is_num_sub; [|]|]|]|]|]|]|]|].
      * apply is_num_sub; [apply is_num_add; [apply is_num_sub|]|].
        -- apply (TL a old). apply X1; exact Ho.
        -- apply (TL a' old). rewrite C1, X1, delta_old by assumption. fold a. ring.
        -- apply (TL a new). apply X1; exact Hn.
        -- apply (TL a' new). rewrite C1, X1, delta_new by assumption. fold a. ring.
      * apply (SL _ a old). intros x Hx. apply Eold; exact Hx.
      * apply (SL _ a' old). intros x Hx. apply Eold; exact Hx.
      * apply (SL _ a new). intros x Hx. apply Enew; exact Hx.
      * apply (SL _ a' new). intros x Hx. apply Enew; exact Hx.
      * apply (SC _ a old). intros x Hx. apply Fold; exact Hx.
      * apply (SC _ a' old). intros x Hx. apply Fold; exact Hx.
      * apply (SC _ a new). intros x Hx. apply Fnew; exact Hx.
      * apply (SC _ a' new). intros x Hx. apply Fnew; exact Hx.
    + apply (LC old new); [apply X2; assumption|]. rewrite CC, X2, X3, X4, delta_old, delta_new by assumption. fold a. ring.
    + apply (LC new old); [apply X2; assumption|]. rewrite CC, X2, X3, X4, delta_old, delta_new by assumption. fold a. ring.
    + apply (LC old old); [apply X2; assumption|]. rewrite CC, X2, X3, X4, delta_old by assumption. fold a. ring.
    + apply (LC new new); [apply X2; assumption|]. rewrite CC, X2, X3, X4, delta_new by assumption. fold a. ring.
  - (* the condition *)
    assert (W0 := proj1 P w). assert (K0 := c_nonneg p a' old P). assert (K1 := c_nonneg p a new P).
    assert (K2 : class_count p a' old <> 0%Z -> class_count p a old <> 0%Z).
    { rewrite C1, delta_old in * by assumption. lia. }
    assert (K3 : class_count p a new <> 0%Z -> class_count p a' new <> 0%Z).
    { rewrite C1, delta_new by assumption. lia. }
    assert (HE' : forall x, (x < num_classes p)%nat -> x <> old -> x <> new -> In x E) by (intros x A1 A2 A3; apply in_others; auto).
    unfold numeric. fold old. fold a'. destruct b.
    + unfold row, col. split.
      * intros H.
        assert (Hrow : forall s k, In s [a; a'] -> In k [old; new] -> (exists x, In x E /\ class_class_count p s k x <> 0%Z) /\ (exists x, In x E /\ class_class_count p s x k <> 0%Z)).
        { intros s k [<-|[<-|[]]] [<-|[<-|[]]]; clear -H; intuition discriminate. }
        split; [tauto|]. intros s k Hs Hk. destruct (Hrow s k Hs Hk) as [(x & Hx & Nx) (y & Hy & Ny)].
        destruct (HE x Hx) as (? & ? & ?). destruct (HE y Hy) as (? & ? & ?). split; [exists x|exists y]; auto.
      * intros [[A1 A2] H].
        assert (Hrow : forall s k, In s [a; a'] -> In k [old; new] -> row s k /\ col s k).
        { intros s k Hs Hk. destruct (H s k Hs Hk) as [(x & ? & ? & ? & ?) (y & ? & ? & ? & ?)].
          split; [exists x|exists y]; split; auto. }
        assert (B1 := Hrow a old ltac:(cbn; auto) ltac:(cbn; auto)). assert (B2 := Hrow a new ltac:(cbn; auto) ltac:(cbn; auto)).
        assert (B3 := Hrow a' old ltac:(cbn; auto) ltac:(cbn; auto)). assert (B4 := Hrow a' new ltac:(cbn; auto) ltac:(cbn; auto)).
        clear Hrow H. repeat split; try tauto; intros X; discriminate.
    + split.
      * intros H. split; [tauto|].
        intros s c d [<-|[<-|[]]] [<-|[<-|[]]] [<-|[<-|[]]]; clear -H; tauto.
      * intros [[A1 A2] H]. unfold row, col. 
        assert (B : forall s c d, In s [a; a'] -> In c [old; new] -> In d [old; new] -> class_class_count p s c d <> 0%Z) by exact H.
        assert (I0 : In a [a; a']) by (left; reflexivity). assert (I1 : In a' [a; a']) by (right; left; reflexivity).
        assert (J0 : In old [old; new]) by (left; reflexivity). assert (J1 : In new [old; new]) by (right; left; reflexivity).
        repeat split; auto.
  - (* the value *)
    intros _. unfold likelihood.
    assert (S1 : forall s, sumR (seq 0 (num_classes p)) (fun c => xlogx (class_count p s c)) = xlogx (class_count p s old) + xlogx (class_count p s new) + sumR E (fun c => xlogx (class_count p s c))).
    { intros s. apply (sumR_split old new (num_classes p) (fun c => xlogx (class_count p s c))); assumption. }
    assert (S2 : forall s, sumR (seq 0 (num_classes p)) (fun c => sumR (seq 0 (num_classes p)) (fun d => xlogx (class_class_count p s c d))) =
       xlogx (class_class_count p s old old) + xlogx (class_class_count p s old new) + sumR E (fun x => xlogx (class_class_count p s old x))
       + (xlogx (class_class_count p s new old) + xlogx (class_class_count p s new new) + sumR E (fun x => xlogx (class_class_count p s new x)))
       + (sumR E (fun x => xlogx (class_class_count p s x old)) + sumR E (fun x => xlogx (class_class_count p s x new))
          + sumR E (fun x => sumR E (fun y => xlogx (class_class_count p s x y))))).
    { intros s. rewrite (sumR_split old new) by assumption. fold E. rewrite (sumR_split old new (num_classes p) (fun d => xlogx (class_class_count p s old d))), (sumR_split old new (num_classes p) (fun d => xlogx (class_class_count p s new d))) by assumption. fold E.
      f_equal. rewrite <- !sumR_add. apply sumR_ext. intros x _. apply (sumR_split old new (num_classes p) (fun d => xlogx (class_class_count p s x d))); assumption. }
    rewrite !S1, !S2.
    assert (U1 : sumR E (fun c => xlogx (class_count p a' c)) = sumR E (fun c => xlogx (class_count p a c))).
    { apply sumR_ext. intros x Hx. destruct (HE x Hx) as (_ & N1 & N2). rewrite C1, delta_other by assumption. f_equal. ring. }
    assert (U2 : sumR E (fun x => sumR E (fun y => xlogx (class_class_count p a' x y))) = sumR E (fun x => sumR E (fun y => xlogx (class_class_count p a x y)))).
    { apply sumR_ext. intros x Hx. apply sumR_ext. intros y Hy. destruct (HE x Hx) as (_ & N1 & N2). destruct (HE y Hy) as (_ & M1 & M2).
      rewrite CC, !delta_other by assumption. f_equal. ring. }
    rewrite U1, U2. lra.
Qed.

(** The reported log likelihood *)
Lemma total_in l f x : (forall y, (0 <= f y)%Z) -> In x l -> (f x <= total l f)%Z.
Proof.
  intros H. induction l as [|y l IH]; [intros []|]. rewrite total_cons. assert (A := total_nonneg l f H). assert (B := H y).
  intros [->|I]; [lia|]. specialize (IH I). lia.
Qed.
Lemma log_likelihood_num b p st :
  proper p -> exact p st -> assignment p (word_to_class st) ->
  log_likelihood b p st = Num (likelihood p (word_to_class st)).
Proof.
  intros P (X1 & X2 & _ & _) [L F]. set (a := word_to_class st) in *.
  assert (Cls : forall w, (w < num_words p)%nat -> (class_of a w < num_classes p)%nat).
  { intros w Hw. rewrite Forall_forall in F. apply F. unfold class_of. apply nth_In. lia. }
  assert (Mem : forall w, (w < num_words p)%nat -> In w (members p a (class_of a w))).
  { intros w Hw. unfold members. rewrite filter_In, in_seq, Nat.eqb_refl. split; [lia|reflexivity]. }
  set (classes := seq 0 (num_classes p)).
  assert (N : is_num (log_likelihood b p st) True (likelihood p a)).
  { unfold log_likelihood. fold classes.
    destruct P as (P1 & P2 & (w0 & Hw0 & Nw0) & (u & v & Hu & Hv & Nuv) & _).
    eapply is_num_iff.
    - apply is_num_sub; [apply is_num_add|apply is_num_twice].
      + apply sum_xlogx_num. apply Forall_forall. intros y Hy. apply in_flat_map in Hy. destruct Hy as (c & Hc & Hy). apply in_map_iff in Hy.
        destruct Hy as (d & <- & Hd). apply in_seq in Hc. apply in_seq in Hd. rewrite X2 by lia. apply total_nonneg. intros x. apply total_nonneg. apply P2.
      + apply sum_xlogx_num. apply Forall_forall. intros y Hy. apply in_map_iff in Hy. destruct Hy as (w & <- & _). apply P1.
      + apply sum_xlogx_num. apply Forall_forall. intros y Hy. apply in_map_iff in Hy. destruct Hy as (c & <- & Hc). apply in_seq in Hc. rewrite X1 by lia. apply total_nonneg. apply P1.
    - split; [auto|]. intros _. split; [split|]; right.
      + exists (cc_counts st (class_of a u) (class_of a v)). split.
        * apply in_flat_map. exists (class_of a u). split; [apply in_seq; specialize (Cls u Hu); lia|]. apply in_map. apply in_seq; specialize (Cls v Hv); lia.
        * rewrite X2 by (apply Cls; assumption). unfold class_class_count. fold a.
          assert (A := total_in (members p a (class_of a u)) (fun u => total (members p a (class_of a v)) (ww_counts p u)) u ltac:(intros; apply total_nonneg; apply P2) (Mem u Hu)).
          assert (B := total_in (members p a (class_of a v)) (ww_counts p u) v (P2 u) (Mem v Hv)). specialize (P2 u v). cbv beta in A. lia.
      + exists (word_counts p w0). split; [apply in_map, in_seq; lia|exact Nw0].
      + exists (class_counts st (class_of a w0)). split; [apply in_map, in_seq; specialize (Cls w0 Hw0); lia|].
        rewrite X1 by (apply Cls; exact Hw0). fold a. unfold class_count.
        assert (A := total_in (members p a (class_of a w0)) (word_counts p) w0 P1 (Mem w0 Hw0)). specialize (P1 w0). lia.
    - intros _. unfold likelihood, all_words. fold classes.
      assert (E1 : sumZ (flat_map (fun c => map (cc_counts st c) classes) classes) = sumR classes (fun c => sumR classes (fun d => xlogx (class_class_count p a c d)))).
      { assert (G : forall cs, incl cs classes -> sumZ (flat_map (fun c => map (cc_counts st c) classes) cs) = sumR cs (fun c => sumR classes (fun d => xlogx (class_class_count p a c d)))).
        { assert (App : forall x y, sumZ (x ++ y) = sumZ x + sumZ y).
          { induction x as [|z x IH]; intros y; [change (sumZ []) with 0; cbn [app]; lra|]. change (xlogx z + sumZ (x ++ y) = xlogx z + sumZ x + sumZ y). rewrite IH. lra. }
          induction cs as [|c cs IH]; intros I; [reflexivity|]. cbn [flat_map]. rewrite App, IH, sumR_cons by (intros z Hz; apply I; right; exact Hz).
          f_equal. rewrite sumZ_map. apply sumR_ext. intros d Hd. apply in_seq in Hd.
          assert (Hc := I c ltac:(left; reflexivity)). apply in_seq in Hc. rewrite X2 by lia. reflexivity. }
        apply G. apply incl_refl. }
      rewrite E1, !sumZ_map. f_equal. f_equal. apply sumR_ext. intros c Hc. apply in_seq in Hc. rewrite X1 by lia. reflexivity. }
  apply N. auto.
Qed.
