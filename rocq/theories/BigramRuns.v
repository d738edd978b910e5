(** Runs of the class optimizer. *)
From Coq Require Import Reals Lra Lia.
From Verif Require Import Base BigramModel BigramSpec BigramProofs BigramGain.
Local Open Scope R_scope.

Definition good (p : problem) (st : state) : Prop := exact p st /\ assignment p (word_to_class st).

(** The best move *)
Definition candidate (b : backend) (p : problem) (st : state) (w c : nat) (x : R) : Prop :=
  (c < num_normal_classes p)%nat /\ class_of (word_to_class st) w <> c /\ evaluate b p st w c = Num x.

Lemma find_best_spec b p st w :
  match find_best_move b p st w with
  | Some (x, c) => candidate b p st w c x /\ forall y d, candidate b p st w d y -> y <= x
  | None => forall y d, ~ candidate b p st w d y
  end.
Proof.
  unfold find_best_move.
  set (old := class_of (word_to_class st) w).
  set (f := fun best c => if (c =? old)%nat then best else match better (evaluate b p st w c) best with Some x => Some (x, c) | None => best end).
  set (K := num_normal_classes p).
  assert (G : forall l best,
    (forall c, In c l -> (c < K)%nat) ->
    match best with Some (x, c) => candidate b p st w c x | None => True end ->
    match fold_left f l best with
    | Some (x, c) => candidate b p st w c x /\ (forall y d, In d l -> d <> old -> evaluate b p st w d = Num y -> y <= x) /\
                     match best with Some (y, _) => y <= x | None => True end
    | None => best = None /\ forall y d, In d l -> d <> old -> evaluate b p st w d <> Num y
    end).
  { induction l as [|c l IH]; intros best Hl Hb; cbn [fold_left].
    - destruct best as [[x c]|]; [split; [exact Hb|split; [intros y d []|lra]]|split; [reflexivity|intros y d []]].
    - set (best' := f best c).
      assert (Hb' : match best' with Some (x, c) => candidate b p st w c x | None => True end).
      { unfold best', f. destruct (c =? old)%nat eqn:E; [exact Hb|]. apply Nat.eqb_neq in E.
        destruct (evaluate b p st w c) as [x| |] eqn:Ev; cbn [better]; try exact Hb.
        destruct best as [[y d]|].
        - destruct (Rlt_dec y x); [|exact Hb]. split; [apply Hl; left; reflexivity|]. split; [exact (fun H => E (eq_sym H))|exact Ev].
        - split; [apply Hl; left; reflexivity|]. split; [exact (fun H => E (eq_sym H))|exact Ev]. }
      assert (Hc : c <> old -> forall y, evaluate b p st w c = Num y -> match best' with Some (x, _) => y <= x | None => False end).
      { intros E y Ev. unfold best', f. replace (c =? old)%nat with false by (symmetry; apply Nat.eqb_neq; exact E). rewrite Ev. cbn [better].
        destruct best as [[z d]|]; [|lra]. destruct (Rlt_dec z y); lra. }
      assert (Hm : match best with Some (y, _) => match best' with Some (x, _) => y <= x | None => False end | None => True end).
      { destruct best as [[y d]|]; [|exact I]. unfold best', f. destruct (c =? old)%nat; [lra|].
        destruct (evaluate b p st w c) as [x| |]; cbn [better]; try lra. destruct (Rlt_dec y x); lra. }
      specialize (IH best' (fun d Hd => Hl d (or_intror Hd)) Hb').
      destruct (fold_left f l best') as [[x d]|].
      + destruct IH as (I1 & I2 & I3). split; [exact I1|]. split.
        * intros y e [<-|He] Ne Ev; [|eapply I2; eauto]. specialize (Hc Ne y Ev). destruct best' as [[z z']|]; [lra|destruct Hc].
        * destruct best as [[y e]|]; [|exact I]. destruct best' as [[z z']|]; [lra|destruct Hm].
      + destruct IH as (I1 & I2). rewrite I1 in *. split.
        * destruct best as [[y e]|]; [destruct Hm|reflexivity].
        * intros y e [<-|He] Ne Ev; [exact (Hc Ne y Ev)|exact (I2 y e He Ne Ev)]. }
  specialize (G (seq 0 K) None ltac:(intros c Hc; apply in_seq in Hc; lia) I).
  fold f. destruct (fold_left f (seq 0 K) None) as [[x c]|].
  - destruct G as (G1 & G2 & _). split; [exact G1|]. intros y d (D1 & D2 & D3). apply (G2 y d); [apply in_seq; fold K in D1; lia|intros E; apply D2; exact (eq_sym E)|exact D3].
  - destruct G as (_ & G2). intros y d (D1 & D2 & D3). apply (G2 y d); [apply in_seq; fold K in D1; lia|intros E; apply D2; exact (eq_sym E)|exact D3].
Qed.

(** Words with a neighbour other than themselves on both sides *)
Definition connected (p : problem) (w : nat) : Prop :=
  (exists v, (v < num_words p)%nat /\ v <> w /\ ww_counts p w v <> 0%Z) /\
  (exists u, (u < num_words p)%nat /\ u <> w /\ ww_counts p u w <> 0%Z).

Lemma move_fails b p st w c :
  (exists st', move b p st w c = Ok st') <-> (b = Theano \/ connected p w).
Proof.
  destruct b.
  - rewrite move_numpy.
    assert (A : existsb (fun v => negb (v =? w)%nat) (right_words p w) = true <-> exists v, (v < num_words p)%nat /\ v <> w /\ ww_counts p w v <> 0%Z).
    { rewrite existsb_exists. unfold right_words. split; intros (v & H).
      - destruct H as [H1 H2]. apply filter_In in H1. destruct H1 as [H1 H3]. apply in_seq in H1. apply negb_true_iff, Nat.eqb_neq in H2. apply negb_true_iff, Z.eqb_neq in H3. exists v. repeat split; auto; lia.
      - destruct H as (H1 & H2 & H3). exists v. split; [apply filter_In; split; [apply in_seq; lia|apply negb_true_iff, Z.eqb_neq; exact H3]|apply negb_true_iff, Nat.eqb_neq; exact H2]. }
    assert (B : existsb (fun v => negb (v =? w)%nat) (left_words p w) = true <-> exists v, (v < num_words p)%nat /\ v <> w /\ ww_counts p v w <> 0%Z).
    { rewrite existsb_exists. unfold left_words. split; intros (v & H).
      - destruct H as [H1 H2]. apply filter_In in H1. destruct H1 as [H1 H3]. apply in_seq in H1. apply negb_true_iff, Nat.eqb_neq in H2. apply negb_true_iff, Z.eqb_neq in H3. exists v. repeat split; auto; lia.
      - destruct H as (H1 & H2 & H3). exists v. split; [apply filter_In; split; [apply in_seq; lia|apply negb_true_iff, Z.eqb_neq; exact H3]|apply negb_true_iff, Nat.eqb_neq; exact H2]. }
    unfold connected. rewrite <- A, <- B.
    destruct (existsb _ (right_words p w)), (existsb _ (left_words p w)); cbn [andb]; split; intros H.
    + right; auto.
    + eexists; reflexivity.
    + destruct H as (s & H); discriminate.
    + destruct H as [H|[_ H]]; discriminate.
    + destruct H as (s & H); discriminate.
    + destruct H as [H|[H _]]; discriminate.
    + destruct H as (s & H); discriminate.
    + destruct H as [H|[_ H]]; discriminate.
  - rewrite move_theano. split; [left; reflexivity|eexists; reflexivity].
Qed.

(** A single step *)
Definition improves (p : problem) (a : list nat) (w c : nat) : Prop := likelihood p a < likelihood p (upd a w c).
Definition size (a : list nat) (c : nat) : nat := length (filter (fun d => d =? c)%nat a).

Lemma step_spec b p st w : proper p -> good p st -> (w < num_words p)%nat ->
  let a := word_to_class st in
  match move_to_best_class b p st w with
  | Ok (st', true) => exists c,
      special (word_name p w) = false /\ (2 <= size a (class_of a w))%nat /\ (c < num_normal_classes p)%nat /\ class_of a w <> c /\ numeric b p a w c /\
      good p st' /\ word_to_class st' = upd a w c /\ improves p a w c /\
      (forall d, (d < num_normal_classes p)%nat -> d <> class_of a w -> numeric b p a w d -> likelihood p (upd a w d) <= likelihood p (upd a w c))
  | Ok (st', false) => st' = st /\
      (special (word_name p w) = true \/ (size a (class_of a w) < 2)%nat \/
       forall d, (d < num_normal_classes p)%nat -> d <> class_of a w -> numeric b p a w d -> ~ improves p a w d)
  | Err e => e = IndexError /\ b = Numpy /\ special (word_name p w) = false /\ ~ connected p w /\ exists c, (c < num_normal_classes p)%nat /\ class_of a w <> c /\ improves p a w c
  end.
Proof.
  intros P [X A] Hw a. unfold move_to_best_class. fold a.
  destruct (special (word_name p w)) eqn:Sp; [split; auto|].
  unfold class_size. fold a. fold (size a (class_of a w)).
  destruct (size a (class_of a w) <? 2)%nat eqn:Sz; [apply Nat.ltb_lt in Sz; split; auto|]. apply Nat.ltb_ge in Sz.
  assert (Kn : (num_normal_classes p <= num_classes p)%nat) by apply P.
  assert (Ev : forall d, (d < num_normal_classes p)%nat -> class_of a w <> d -> is_num (evaluate b p st w d) (numeric b p a w d) (likelihood p (upd a w d) - likelihood p a)).
  { intros d Hd Nd. apply evaluate_num; auto. lia. }
  assert (FB := find_best_spec b p st w). destruct (find_best_move b p st w) as [[x c]|].
  - destruct FB as [(C1 & C2 & C3) Best]. fold a in C2. destruct (proj1 (Ev c C1 C2 x) C3) as [En Ex].
    destruct (Rlt_dec 0 x) as [Pos|Neg].
    + destruct (move b p st w c) as [st'|e] eqn:M; cbn [bind].
      * exists c. apply move_ok in M. split; [reflexivity|]. split; [exact Sz|]. split; [exact C1|]. split; [exact C2|]. split; [exact En|].
        split; [split; [subst st'; apply exact_moved; auto; lia|subst st'; rewrite moved_w2c; apply assignment_upd; [exact A|lia]]|].
        split; [subst st'; apply moved_w2c|]. split; [unfold improves; lra|].
        intros d D1 D2 D3. assert (D2' : class_of a w <> d) by auto.
        assert (E := proj2 (Ev d D1 D2' _) (conj D3 eq_refl)).
        assert (Bd := Best _ d (conj D1 (conj D2' E))). lra.
      * assert (Nok : ~ exists st', move b p st w c = Ok st') by (intros (s & Es); congruence).
        rewrite move_fails in Nok. destruct b; [|exfalso; apply Nok; left; reflexivity].
        rewrite move_numpy in M. destruct (_ && _)%bool; [discriminate|]. injection M as <-.
        split; [reflexivity|]. split; [reflexivity|]. split; [reflexivity|]. split; [tauto|]. exists c. split; [exact C1|]. split; [exact C2|]. unfold improves. lra.
    + split; [reflexivity|]. right; right. intros d D1 D2 D3 I. assert (D2' : class_of a w <> d) by auto.
      assert (E := proj2 (Ev d D1 D2' _) (conj D3 eq_refl)). assert (Bd := Best _ d (conj D1 (conj D2' E))). unfold improves in I. lra.
  - split; [reflexivity|]. right; right. intros d D1 D2 D3 I. assert (D2' : class_of a w <> d) by auto.
    assert (E := proj2 (Ev d D1 D2' _) (conj D3 eq_refl)). apply (FB _ d (conj D1 (conj D2' E))).
Qed.

(** What every step keeps *)
Definition kept (p : problem) (a a' : list nat) : Prop :=
  (forall w, (w < num_words p)%nat -> special (word_name p w) = true -> class_of a' w = class_of a w) /\
  (forall c, (0 < size a c)%nat -> (0 < size a' c)%nat) /\
  likelihood p a <= likelihood p a'.
Lemma kept_refl p a : kept p a a.
Proof. split; [auto|split; [auto|lra]]. Qed.
Lemma kept_trans p a b c : kept p a b -> kept p b c -> kept p a c.
Proof. intros (A1 & A2 & A3) (B1 & B2 & B3). split; [|split; [auto|lra]]. intros w Hw S. rewrite B1, A1; auto. Qed.

Lemma size_upd a w c d : (w < length a)%nat ->
  (size (upd a w c) d + (if class_of a w =? d then 1 else 0) = size a d + (if c =? d then 1 else 0))%nat.
Proof.
  unfold size, class_of. revert w. induction a as [|x a IH]; intros w H; [cbn in H; lia|].
  destruct w as [|w]; cbn [upd filter nth].
  - destruct (x =? d)%nat, (c =? d)%nat; cbn [length]; lia.
  - specialize (IH w ltac:(cbn in H; lia)). destruct (x =? d)%nat; cbn [length]; lia.
Qed.

Lemma kept_move p a w c :
  assignment p a -> (w < num_words p)%nat -> special (word_name p w) = false -> (2 <= size a (class_of a w))%nat -> improves p a w c ->
  kept p a (upd a w c).
Proof.
  intros [L F] Hw Sp Sz I. split; [|split].
  - intros v Hv Sv. rewrite class_of_upd by lia. destruct (v =? w)%nat eqn:E; [|reflexivity]. apply Nat.eqb_eq in E. subst v. congruence.
  - intros d Hd. assert (S := size_upd a w c d ltac:(lia)). destruct (class_of a w =? d)%nat eqn:E; [apply Nat.eqb_eq in E; subst d; lia|lia].
  - unfold improves in I. lra.
Qed.

(** A pass over a list of words *)
Definition settled (b : backend) (p : problem) (a : list nat) (w : nat) : Prop :=
  special (word_name p w) = true \/ (size a (class_of a w) < 2)%nat \/
  forall d, (d < num_normal_classes p)%nat -> d <> class_of a w -> numeric b p a w d -> ~ improves p a w d.

Definition step_fn (b : backend) (p : problem) : state * nat -> nat -> result (state * nat) :=
  fun '(st, n) w => do '(st', moved) <- move_to_best_class b p st w; Ok (st', if moved : bool then S n else n).

Lemma step_fn_eq b p st n w : step_fn b p (st, n) w = do '(st', moved) <- move_to_best_class b p st w; Ok (st', if moved : bool then S n else n).
Proof. reflexivity. Qed.

Lemma pass_spec b p : proper p -> forall l, (forall w, In w l -> (w < num_words p)%nat) ->
  forall st n, good p st ->
  match foldM (step_fn b p) l (st, n) with
  | Ok (st', m) => good p st' /\ kept p (word_to_class st) (word_to_class st') /\ (n <= m)%nat /\
      (m = n -> st' = st /\ forall w, In w l -> settled b p (word_to_class st) w) /\
      ((n < m)%nat -> likelihood p (word_to_class st) < likelihood p (word_to_class st'))
  | Err e => e = IndexError /\ b = Numpy /\ exists w a c, In w l /\ special (word_name p w) = false /\ ~ connected p w /\ assignment p a /\ class_of a w <> c /\ improves p a w c
  end.
Proof.
  intros P. induction l as [|w l IH]; intros Hl st n G.
  - cbn [foldM]. split; [exact G|]. split; [apply kept_refl|]. split; [lia|]. split; [intros _; split; [reflexivity|intros w []]|lia].
  - cbn [foldM]. assert (S := step_spec b p st w P G (Hl w (or_introl eq_refl))). cbv zeta in S. rewrite step_fn_eq.
    destruct (move_to_best_class b p st w) as [[st1 [|]]|e]; cbn [bind].
    + destruct S as (c & Sp & Sz & Hc & Nc & _ & G1 & E1 & I1 & _).
      assert (K1 : kept p (word_to_class st) (word_to_class st1)).
      { rewrite E1. apply kept_move; auto. apply G. apply Hl; left; reflexivity. }
      specialize (IH (fun v Hv => Hl v (or_intror Hv)) st1 (S n) G1).
      destruct (foldM (step_fn b p) l (st1, Datatypes.S n)) as [[st' m]|e'].
      * destruct IH as (J1 & J2 & J3 & J4 & J5). split; [exact J1|]. split; [eapply kept_trans; eauto|]. split; [lia|]. split; [lia|].
        intros _. destruct J2 as (_ & _ & J2). unfold improves in I1. rewrite <- E1 in I1. lra.
      * destruct IH as (J1 & J2 & v & a & d & J3 & J4). split; [exact J1|]. split; [exact J2|]. exists v, a, d. split; [right; exact J3|exact J4].
    + destruct S as [-> Hs]. specialize (IH (fun v Hv => Hl v (or_intror Hv)) st n G).
      destruct (foldM (step_fn b p) l (st, n)) as [[st' m]|e'].
      * destruct IH as (J1 & J2 & J3 & J4 & J5). split; [exact J1|]. split; [exact J2|]. split; [exact J3|]. split; [|exact J5].
        intros E. destruct (J4 E) as [-> J6]. split; [reflexivity|]. intros v [<-|Hv]; [exact Hs|apply J6; exact Hv].
      * destruct IH as (J1 & J2 & v & a & d & J3 & J4). split; [exact J1|]. split; [exact J2|]. exists v, a, d. split; [right; exact J3|exact J4].
    + destruct S as (E & Eb & Sp & Nc & c & _ & N1 & I1). split; [exact E|]. split; [exact Eb|]. exists w, (word_to_class st), c.
      split; [left; reflexivity|]. split; [exact Sp|]. split; [exact Nc|]. split; [apply G|]. auto.
Qed.

Lemma one_pass_spec b p st : proper p -> good p st ->
  match one_pass b p st with
  | Ok (st', m) => good p st' /\ kept p (word_to_class st) (word_to_class st') /\
      (m = 0%nat -> st' = st /\ forall w, (w < num_words p)%nat -> settled b p (word_to_class st) w) /\
      (m <> 0%nat -> likelihood p (word_to_class st) < likelihood p (word_to_class st'))
  | Err e => e = IndexError /\ b = Numpy /\ exists w a c, (w < num_words p)%nat /\ special (word_name p w) = false /\ ~ connected p w /\ assignment p a /\ class_of a w <> c /\ improves p a w c
  end.
Proof.
  intros P G. assert (H := pass_spec b p P (seq 0 (num_words p)) ltac:(intros w Hw; apply in_seq in Hw; lia) st 0%nat G).
  change (one_pass b p st) with (foldM (step_fn b p) (seq 0 (num_words p)) (st, 0%nat)).
  destruct (foldM (step_fn b p) (seq 0 (num_words p)) (st, 0%nat)) as [[st' m]|e].
  - destruct H as (H1 & H2 & _ & H4 & H5). split; [exact H1|]. split; [exact H2|]. split.
    + intros E. destruct (H4 E) as [E1 E2]. split; [exact E1|]. intros w Hw. apply E2, in_seq; lia.
    + intros E. apply H5. lia.
  - destruct H as (H1 & H2 & w & a & c & H3 & H4). split; [exact H1|]. split; [exact H2|]. exists w, a, c. split; [apply in_seq in H3; lia|exact H4].
Qed.

Lemma optimize_spec b p : proper p -> forall k st, good p st -> forall st', optimize k b p st = Ok st' ->
  good p st' /\ kept p (word_to_class st) (word_to_class st') /\ forall w, (w < num_words p)%nat -> settled b p (word_to_class st') w.
Proof.
  intros P. induction k as [|k IH]; intros st G st' E; [discriminate|]. cbn [optimize] in E.
  assert (H := one_pass_spec b p st P G). destruct (one_pass b p st) as [[st1 m]|e]; [|discriminate]. cbn [bind] in E.
  destruct H as (H1 & H2 & H3 & H4). destruct (m =? 0)%nat eqn:Em.
  - apply Nat.eqb_eq in Em. injection E as <-. destruct (H3 Em) as [-> H5]. auto.
  - destruct (IH st1 H1 st' E) as (I1 & I2 & I3). split; [exact I1|]. split; [eapply kept_trans; eauto|exact I3].
Qed.

(** Termination *)
Fixpoint all_lists (C n : nat) : list (list nat) :=
  match n with O => [[]] | S n => flat_map (fun l => map (fun c => c :: l) (seq 0 C)) (all_lists C n) end.
Lemma all_lists_length C n : length (all_lists C n) = (C ^ n)%nat.
Proof.
  induction n as [|n IH]; [reflexivity|]. cbn [all_lists Nat.pow].
  assert (G : forall l : list (list nat), length (flat_map (fun l => map (fun c => c :: l) (seq 0 C)) l) = (C * length l)%nat).
  { induction l as [|x l IH']; cbn [flat_map length]; [lia|]. rewrite app_length, map_length, seq_length, IH'. lia. }
  rewrite G, IH. reflexivity.
Qed.
Lemma in_all_lists C : forall n a, length a = n -> Forall (fun c => (c < C)%nat) a -> In a (all_lists C n).
Proof.
  induction n as [|n IH]; intros [|x a] L F; try discriminate; [left; reflexivity|]. inversion F; subst. cbn [all_lists].
  apply in_flat_map. exists a. split; [apply IH; [cbn in L; lia|assumption]|]. apply (in_map (fun c => c :: a)). apply in_seq; lia.
Qed.

Definition rank (p : problem) (a : list nat) : nat :=
  length (filter (fun x => if Rlt_dec (likelihood p a) (likelihood p x) then true else false) (all_lists (num_classes p) (num_words p))).
Lemma filter_lt {A} (q r : A -> bool) (x : A) l : (forall y, q y = true -> r y = true) -> In x l -> q x = false -> r x = true ->
  (length (filter q l) < length (filter r l))%nat.
Proof.
  intros H. assert (Le : forall m : list A, (length (filter q m) <= length (filter r m))%nat).
  { intros m. induction m as [|y l' IH]; [auto|]. cbn [filter]. destruct (q y) eqn:E; [rewrite (H y E); cbn [length]; lia|]. destruct (r y); cbn [length]; lia. }
  induction l as [|y l IH]; [intros []|]. intros [->|I] Q R0; cbn [filter].
  - rewrite Q, R0. cbn [length]. specialize (Le l). lia.
  - specialize (IH I Q R0). destruct (q y) eqn:E; [rewrite (H y E); cbn [length]; lia|]. destruct (r y); cbn [length]; lia.
Qed.
Lemma rank_decreases p a a' : assignment p a' -> likelihood p a < likelihood p a' -> (rank p a' < rank p a)%nat.
Proof.
  intros [L F] H. unfold rank. apply (filter_lt _ _ a').
  - intros y. destruct (Rlt_dec (likelihood p a') (likelihood p y)); [|discriminate]. intros _. destruct (Rlt_dec (likelihood p a) (likelihood p y)); [reflexivity|lra].
  - apply in_all_lists; assumption.
  - destruct (Rlt_dec (likelihood p a') (likelihood p a')); [lra|reflexivity].
  - destruct (Rlt_dec (likelihood p a) (likelihood p a')); [reflexivity|contradiction].
Qed.
Lemma rank_bound p a : assignment p a -> (rank p a < num_classes p ^ num_words p)%nat.
Proof.
  intros [L F]. rewrite <- all_lists_length. unfold rank.
  assert (T : filter (fun _ => true) (all_lists (num_classes p) (num_words p)) = all_lists (num_classes p) (num_words p)).
  { induction (all_lists (num_classes p) (num_words p)) as [|x l IH]; [reflexivity|]. cbn [filter]. rewrite IH. reflexivity. }
  rewrite <- T at 2. apply (filter_lt _ _ a); auto.
  - apply in_all_lists; assumption.
  - destruct (Rlt_dec (likelihood p a) (likelihood p a)); [lra|reflexivity].
Qed.

Lemma optimize_terminates b p : proper p ->
  (b = Numpy -> forall w a c, (w < num_words p)%nat -> special (word_name p w) = false -> assignment p a -> class_of a w <> c -> improves p a w c -> connected p w) ->
  forall k st, good p st -> (rank p (word_to_class st) < k)%nat -> exists st', optimize k b p st = Ok st'.
Proof.
  intros P Hc. induction k as [|k IH]; intros st G L; [lia|]. cbn [optimize].
  assert (H := one_pass_spec b p st P G). destruct (one_pass b p st) as [[st1 m]|e]; cbn [bind].
  - destruct H as (H1 & _ & H3 & H4). destruct (m =? 0)%nat eqn:Em; [eexists; reflexivity|]. apply Nat.eqb_neq in Em.
    apply IH; [exact H1|]. assert (R0 := rank_decreases p (word_to_class st) (word_to_class st1) (proj2 H1) (H4 Em)). lia.
  - destruct H as (_ & Eb & w & a & c & Hw & Sp & Nc & A & N & I). exfalso. apply Nc. eapply Hc; eauto.
Qed.

(** Moving a word that does not occur changes nothing *)
Lemma absent_word p a w c :
  assignment p a -> (w < num_words p)%nat -> word_counts p w = 0%Z -> (forall v, ww_counts p w v = 0%Z) -> (forall u, ww_counts p u w = 0%Z) ->
  likelihood p (upd a w c) = likelihood p a.
Proof.
  intros [L F] Hw Z1 Z2 Z3. unfold likelihood. f_equal; [f_equal|].
  - apply sumR_ext. intros x _. apply sumR_ext. intros y _. rewrite class_class_upd by assumption.
    assert (E1 : word_class_count p a w y = 0%Z) by (apply total_zero; intros; apply Z2).
    assert (E2 : class_word_count p a x w = 0%Z) by (apply total_zero; intros; apply Z3). rewrite E1, E2, Z2. f_equal. lia.
  - f_equal. apply sumR_ext. intros x _. rewrite class_count_upd by assumption. rewrite Z1. f_equal. lia.
Qed.
