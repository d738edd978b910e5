(** Proofs about topological sorting of lattices. *)
From Coq Require Import QArith Qcanon Sorting.Sorted Sorting.Permutation.
From Verif Require Import Base ListLib BaseLib Strings LatticeModel LatticeSpec.
Local Open Scope nat_scope.

(** ** Stable sorting *)
Section Sort.
Context {A : Type}.
Variable lt : A -> A -> bool.
(** [lt] is a strict weak order. *)
Hypothesis lt_asym : forall x y, lt x y = true -> lt y x = false.
Hypothesis nlt_trans : forall x y z, lt x y = false -> lt y z = false -> lt x z = false.

Lemma insert_desc_perm x l : Permutation (insert_desc lt x l) (x :: l).
Proof.
  induction l as [|y l IH]; cbn; [reflexivity|].
  destruct (lt y x); [reflexivity|].
  rewrite IH. apply perm_swap.
Qed.

Lemma fold_insert_perm l : forall acc,
  Permutation (fold_left (fun acc x => insert_desc lt x acc) l acc) (acc ++ l).
Proof.
  induction l as [|x l IH]; intros acc; cbn; [rewrite app_nil_r; reflexivity|].
  rewrite IH, insert_desc_perm. change (x :: acc) with ([x] ++ acc).
  rewrite <- app_assoc. rewrite (Permutation_app_comm [x]), <- app_assoc.
  apply Permutation_app_head. symmetry. apply Permutation_cons_append.
Qed.
Lemma sort_desc_perm l : Permutation (sort_desc lt l) l.
Proof. unfold sort_desc. rewrite fold_insert_perm. reflexivity. Qed.

Definition desc (l : list A) : Prop := StronglySorted (fun x y => lt x y = false) l.

Lemma insert_desc_sorted x l : desc l -> desc (insert_desc lt x l).
Proof.
  unfold desc. induction l as [|y l IH]; intros H; cbn.
  - repeat constructor.
  - apply StronglySorted_inv in H. destruct H as [H Hy].
    destruct (lt y x) eqn:E.
    + constructor; [constructor; assumption|].
      constructor; [now apply lt_asym|].
      eapply Forall_impl; [|exact Hy]. cbn. intros z Hz.
      eapply nlt_trans; [|exact Hz]. now apply lt_asym.
    + constructor; [auto|].
      rewrite Forall_forall in *. intros z Hz.
      apply (Permutation_in _ (insert_desc_perm x l)) in Hz.
      destruct Hz as [->|Hz]; auto.
Qed.

Lemma sort_desc_sorted l : desc (sort_desc lt l).
Proof.
  unfold sort_desc. assert (H : desc []) by constructor. revert H.
  generalize (@nil A). induction l as [|x l IH]; intros acc H; cbn; auto.
  apply IH. now apply insert_desc_sorted.
Qed.

Lemma desc_app_last l x : desc (l ++ [x]) -> forall y, In y l -> lt y x = false.
Proof.
  induction l as [|z l IH]; cbn; intros H y Hy; [destruct Hy|].
  apply StronglySorted_inv in H. destruct H as [H Hz].
  destruct Hy as [->|Hy]; [|auto].
  rewrite Forall_forall in Hz. apply Hz. apply in_or_app. right. now left.
Qed.
Lemma desc_app_l l l' : desc (l ++ l') -> desc l.
Proof.
  induction l as [|z l IH]; cbn; intros H; [constructor|].
  apply StronglySorted_inv in H. destruct H as [H Hz]. constructor; [exact (IH H)|].
  apply Forall_app in Hz. exact (proj1 Hz).
Qed.
End Sort.

(** ** Times *)
Lemma time_lt_asym x y : time_lt x y = true -> time_lt y x = false.
Proof.
  destruct x as [x|], y as [y|]; cbn; try discriminate; auto.
  destruct (Qclt_le_dec x y) as [H|H]; [|discriminate]. intros _.
  destruct (Qclt_le_dec y x) as [H'|H']; [|reflexivity].
  exfalso. apply (Qclt_not_le _ _ H). now apply Qclt_le_weak.
Qed.
Lemma time_nlt_trans x y z : time_lt x y = false -> time_lt y z = false -> time_lt x z = false.
Proof.
  destruct x as [x|], y as [y|], z as [z|]; cbn; try discriminate; auto.
  destruct (Qclt_le_dec x y); [discriminate|].
  destruct (Qclt_le_dec y z); [discriminate|]. intros _ _.
  destruct (Qclt_le_dec x z) as [H|]; [|reflexivity].
  exfalso. apply (Qclt_not_le _ _ H). eapply Qcle_trans; eassumption.
Qed.
Lemma time_nlt_not_later x y : time_lt y x = false -> not_later x y.
Proof.
  destruct x as [x|], y as [y|]; cbn; try discriminate; auto.
  destruct (Qclt_le_dec y x); [discriminate|auto].
Qed.

(** ** Degrees *)
Definition deg (d : list nat) (v : nat) : nat := nth v d 0.

Lemma deg_upd d v x w : v < length d -> deg (upd d v x) w = if Nat.eq_dec w v then x else deg d w.
Proof.
  unfold deg. revert v w. induction d as [|y d IH]; intros [|v] [|w] H; cbn [upd nth length] in *;
    try lia; auto; try reflexivity.
  rewrite IH by lia. destruct (Nat.eq_dec w v), (Nat.eq_dec (S w) (S v)); try congruence; lia.
Qed.

Lemma py_index_nth (d : list nat) v : v < length d -> py_index d v = Ok (nth v d 0).
Proof.
  intros H. unfold py_index. now rewrite (nth_error_nth' _ 0 H).
Qed.

Section Visit.
Variable nodes : list node.
Let qlt a b := time_lt (node_time nodes a) (node_time nodes b).

(** The loop over the outgoing links, given the end nodes of the links *)
Definition visit_end (st : list nat * list nat) (v : nat) : result (list nat * list nat) :=
  let (d, q) := st in
  do x <- py_index d v;
  match x with
  | 0 => Err InputError
  | 1 => Ok (upd d v 0, sort_queue nodes (q ++ [v]))
  | S x' => Ok (upd d v x', q)
  end.

Lemma visit_end_eq d q v : v < length d ->
  visit_end (d, q) v = match deg d v with
                       | 0 => Err InputError
                       | 1 => Ok (upd d v 0, sort_queue nodes (q ++ [v]))
                       | S x' => Ok (upd d v x', q)
                       end.
Proof. intros H. unfold visit_end. rewrite (py_index_nth _ _ H). reflexivity. Qed.

Lemma visit_out_ends links ks : forall st es,
  map (fun k => nth_error links k) ks = map Some es ->
  foldM (visit_out nodes links) ks st = foldM visit_end (map k_end es) st.
Proof.
  induction ks as [|k ks IH]; intros [d q] [|e es] H; cbn in H; try discriminate; [reflexivity|].
  injection H as Hk Hks. cbn [foldM map].
  assert (Hv : visit_out nodes links (d, q) k = visit_end (d, q) (k_end e)).
  { unfold visit_out, visit_end, py_index at 1. rewrite Hk. reflexivity. }
  rewrite Hv. destruct (visit_end (d, q) (k_end e)) as [st|]; cbn [bind]; auto.
Qed.

Lemma sort_queue_perm q : Permutation (sort_queue nodes q) q.
Proof. apply sort_desc_perm. Qed.
Lemma sort_queue_desc q : desc qlt (sort_queue nodes q).
Proof.
  apply sort_desc_sorted.
  - intros x y. apply time_lt_asym.
  - intros x y z. apply time_nlt_trans.
Qed.

Lemma visit_ok es : forall d q,
  desc qlt q ->
  (forall v, In v es -> v < length d) ->
  (forall v, count_occ Nat.eq_dec es v <= deg d v) ->
  exists d' q' new,
    foldM visit_end es (d, q) = Ok (d', q') /\ length d' = length d /\ desc qlt q' /\
    (forall v, deg d' v + count_occ Nat.eq_dec es v = deg d v) /\
    Permutation q' (q ++ new) /\ NoDup new /\
    (forall v, In v new <-> deg d' v = 0 /\ 0 < deg d v).
Proof.
  induction es as [|e es IH]; intros d q Hs Hr Hc.
  - exists d, q, []. cbn [foldM count_occ]. rewrite app_nil_r.
    split; [reflexivity|]. split; [reflexivity|]. split; [exact Hs|].
    split; [intros v; lia|]. split; [reflexivity|]. split; [constructor|].
    intros v. split; [intros []|]. intros H. exfalso. lia.
  - assert (He : e < length d) by (apply Hr; now left).
    assert (Hd : 1 <= deg d e).
    { specialize (Hc e). cbn in Hc. destruct (Nat.eq_dec e e); [lia|congruence]. }
    cbn [foldM]. rewrite (visit_end_eq d q e He). destruct (deg d e) as [|[|x]] eqn:Ed; [lia| |]; cbn [bind].
    + destruct (IH (upd d e 0) (sort_queue nodes (q ++ [e]))) as (d' & q' & new & E & L & S' & D & P & N & I).
      { apply sort_queue_desc. }
      { intros v Hv. rewrite upd_length. apply Hr. now right. }
      { intros v. rewrite deg_upd by assumption. specialize (Hc v). cbn in Hc.
        destruct (Nat.eq_dec v e) as [->|Hv].
        - destruct (Nat.eq_dec e e); [lia|congruence].
        - destruct (Nat.eq_dec e v); [congruence|lia]. }
      exists d', q', (e :: new). rewrite upd_length in L.
      assert (Hne : ~ In e new).
      { intros Hin. apply I in Hin. rewrite deg_upd in Hin by assumption.
        destruct (Nat.eq_dec e e); [lia|congruence]. }
      split; [exact E|]. split; [exact L|]. split; [exact S'|]. split.
      { intros v. specialize (D v). rewrite deg_upd in D by assumption. cbn.
        destruct (Nat.eq_dec v e) as [->|Hv].
        - destruct (Nat.eq_dec e e); [lia|congruence].
        - destruct (Nat.eq_dec e v); [congruence|lia]. }
      split.
      { rewrite P, sort_queue_perm, <- app_assoc. reflexivity. }
      split; [constructor; assumption|].
      intros v. cbn. specialize (I v). specialize (D v). rewrite deg_upd in I, D by assumption.
      destruct (Nat.eq_dec v e) as [->|Hv].
      * split; intros _; [split; lia|now left].
      * rewrite <- I. split; [intros [<-|H]; [congruence|exact H]|now right].
    + destruct (IH (upd d e (S x)) q) as (d' & q' & new & E & L & S' & D & P & N & I).
      { assumption. }
      { intros v Hv. rewrite upd_length. apply Hr. now right. }
      { intros v. rewrite deg_upd by assumption. specialize (Hc v). cbn in Hc.
        destruct (Nat.eq_dec v e) as [->|Hv].
        - destruct (Nat.eq_dec e e); [lia|congruence].
        - destruct (Nat.eq_dec e v); [congruence|lia]. }
      exists d', q', new. rewrite upd_length in L.
      split; [exact E|]. split; [exact L|]. split; [exact S'|]. split.
      { intros v. specialize (D v). rewrite deg_upd in D by assumption. cbn.
        destruct (Nat.eq_dec v e) as [->|Hv].
        - destruct (Nat.eq_dec e e); [lia|congruence].
        - destruct (Nat.eq_dec e v); [congruence|lia]. }
      split; [exact P|]. split; [exact N|].
      intros v. rewrite I. rewrite deg_upd by assumption.
      destruct (Nat.eq_dec v e) as [->|Hv]; [|reflexivity].
      rewrite Ed. split; intros [? ?]; split; lia.
Qed.

Lemma visit_err es : forall d q v,
  (forall v, In v es -> v < length d) ->
  deg d v < count_occ Nat.eq_dec es v ->
  foldM visit_end es (d, q) = Err InputError.
Proof.
  induction es as [|e es IH]; intros d q v Hr Hc; cbn in Hc; [lia|].
  assert (He : e < length d) by (apply Hr; now left).
  cbn [foldM]. rewrite (visit_end_eq d q e He). destruct (deg d e) as [|[|x]] eqn:Ed; [reflexivity| |]; cbn [bind].
  - apply IH with v.
    + intros w Hw. rewrite upd_length. apply Hr. now right.
    + rewrite deg_upd by assumption.
      destruct (Nat.eq_dec v e) as [->|Hv].
      * destruct (Nat.eq_dec e e); [lia|congruence].
      * destruct (Nat.eq_dec e v); [congruence|lia].
  - apply IH with v.
    + intros w Hw. rewrite upd_length. apply Hr. now right.
    + rewrite deg_upd by assumption.
      destruct (Nat.eq_dec v e) as [->|Hv].
      * destruct (Nat.eq_dec e e); [lia|congruence].
      * destruct (Nat.eq_dec e v); [congruence|lia].
Qed.
End Visit.

(** ** Counting links *)
Section Count.
Variable ls : list link.

Definition outs (i : nat) : list nat := map k_end (filter (fun l => k_start l =? i) ls).
Definition tot (v : nat) : nat := count_occ Nat.eq_dec (map k_end ls) v.
(** Links into [v] from the nodes [R] *)
Definition cR (R : list nat) (v : nat) : nat :=
  length (filter (fun l => (k_end l =? v) && existsb (Nat.eqb (k_start l)) R) ls).
End Count.

Lemma index_filter_gen (f : link -> bool) ls : forall pre,
  map (fun k => nth_error (pre ++ ls) k)
      (filter (fun k => match nth_error (pre ++ ls) k with Some l => f l | None => false end)
              (seq (length pre) (length ls))) = map Some (filter f ls).
Proof.
  induction ls as [|l ls IH]; intros pre; cbn [length seq filter]; [reflexivity|].
  rewrite nth_error_app2, Nat.sub_diag by lia. cbn [nth_error].
  specialize (IH (pre ++ [l])). rewrite <- app_assoc, app_length in IH. cbn in IH.
  rewrite Nat.add_1_r in IH.
  destruct (f l); [|exact IH].
  cbn [map]. rewrite nth_error_app2, Nat.sub_diag by lia. cbn [nth_error]. now rewrite IH.
Qed.
Lemma links_from_links ls i :
  map (fun k => nth_error ls k) (links_from ls i) = map Some (filter (fun l => k_start l =? i) ls).
Proof. exact (index_filter_gen (fun l => k_start l =? i) ls []). Qed.
Lemma links_to_links ls i :
  map (fun k => nth_error ls k) (links_to ls i) = map Some (filter (fun l => k_end l =? i) ls).
Proof. exact (index_filter_gen (fun l => k_end l =? i) ls []). Qed.

Lemma links_to_tot ls v : length (links_to ls v) = tot ls v.
Proof.
  rewrite <- (map_length (fun k => nth_error ls k)), links_to_links, map_length.
  unfold tot. induction ls as [|l ls IH]; cbn; [reflexivity|].
  destruct (Nat.eqb_spec (k_end l) v) as [->|H]; cbn.
  - destruct (Nat.eq_dec v v); [now rewrite IH|congruence].
  - destruct (Nat.eq_dec (k_end l) v); [congruence|exact IH].
Qed.

Lemma cR_nil ls v : cR ls [] v = 0.
Proof.
  unfold cR. rewrite filter_none; [reflexivity|]. intros l _. cbn. apply andb_false_r.
Qed.

Lemma existsb_In x R : existsb (Nat.eqb x) R = true <-> In x R.
Proof.
  rewrite existsb_exists. split.
  - intros (y & H & E). apply Nat.eqb_eq in E. now subst.
  - intros H. exists x. split; [exact H|apply Nat.eqb_refl].
Qed.

Lemma cR_snoc ls R i v : ~ In i R ->
  cR ls (R ++ [i]) v = cR ls R v + count_occ Nat.eq_dec (outs ls i) v.
Proof.
  intros Hi. unfold cR, outs. induction ls as [|l ls IH]; cbn [filter map]; [reflexivity|].
  rewrite existsb_app. cbn [existsb]. rewrite orb_false_r.
  destruct (Nat.eqb_spec (k_start l) i) as [E|E].
  - assert (HR : existsb (Nat.eqb (k_start l)) R = false).
    { apply not_true_is_false. rewrite existsb_In. congruence. }
    rewrite HR, orb_true_r, andb_true_r, andb_false_r.
    cbn [map]. destruct (Nat.eqb_spec (k_end l) v) as [Ev|Ev]; cbn [length].
    + rewrite count_occ_cons_eq by assumption. rewrite IH. lia.
    + rewrite count_occ_cons_neq by assumption. exact IH.
  - rewrite orb_false_r.
    destruct ((k_end l =? v) && existsb (Nat.eqb (k_start l)) R); cbn [length]; rewrite IH; lia.
Qed.

Lemma cR_le ls R v : cR ls R v <= tot ls v.
Proof.
  unfold cR, tot. induction ls as [|l ls IH]; cbn [filter map count_occ]; [cbn; lia|].
  destruct (Nat.eqb_spec (k_end l) v) as [E|E]; cbn [andb].
  - destruct (Nat.eq_dec (k_end l) v); [|congruence].
    destruct (existsb _ R); cbn [length]; lia.
  - destruct (Nat.eq_dec (k_end l) v); [congruence|exact IH].
Qed.

Lemma cR_all ls R v :
  cR ls R v = tot ls v <-> (forall l, In l ls -> k_end l = v -> In (k_start l) R).
Proof.
  induction ls as [|l ls IH].
  - split; [intros _ ? []|reflexivity].
  - pose proof (cR_le ls R v) as Hle.
    unfold cR, tot in *. cbn [filter map count_occ].
    destruct (Nat.eqb_spec (k_end l) v) as [E|E]; cbn [andb].
    + destruct (Nat.eq_dec (k_end l) v); [|congruence].
      destruct (existsb (Nat.eqb (k_start l)) R) eqn:Ex; cbn [length].
      * apply existsb_In in Ex. split.
        -- intros H l' [<-|Hl']; [auto|]. apply IH; [lia|exact Hl'].
        -- intros H. f_equal. apply IH. intros l' Hl'. apply H. now right.
      * split; [lia|]. intros H. exfalso.
        assert (Hin : In (k_start l) R) by (apply H; [now left|exact E]).
        apply existsb_In in Hin. congruence.
    + destruct (Nat.eq_dec (k_end l) v); [congruence|].
      rewrite IH. split; intros H l'; [intros [<-|Hl']; [congruence|auto]|intros Hl'; apply H; now right].
Qed.

Lemma tot_pos ls v : 0 < tot ls v <-> exists l, In l ls /\ k_end l = v.
Proof.
  unfold tot. pose proof (count_occ_In Nat.eq_dec (map k_end ls) v) as H. unfold gt in H.
  rewrite <- H, in_map_iff.
  split; intros (l & A & B); exists l; auto.
Qed.
Lemma outs_pos ls i v : 0 < count_occ Nat.eq_dec (outs ls i) v <->
  exists l, In l ls /\ k_start l = i /\ k_end l = v.
Proof.
  pose proof (count_occ_In Nat.eq_dec (outs ls i) v) as Hc. unfold gt in Hc. rewrite <- Hc.
  unfold outs. rewrite in_map_iff. split.
  - intros (l & E & H). apply filter_In in H. destruct H as [H Es]. apply Nat.eqb_eq in Es. eauto.
  - intros (l & H & Es & E). exists l. split; [exact E|]. apply filter_In. split; [exact H|]. now apply Nat.eqb_eq.
Qed.

Lemma perm_remove i (l : list nat) : NoDup l ->
  Permutation l (remove Nat.eq_dec i l ++ if in_dec Nat.eq_dec i l then [i] else []).
Proof.
  induction l as [|x l IH]; intros H; [reflexivity|].
  inversion H as [|? ? Hx Hl]; subst. specialize (IH Hl). cbn [remove].
  destruct (Nat.eq_dec i x) as [->|E].
  - destruct (in_dec Nat.eq_dec x (x :: l)) as [_|C]; [|exfalso; apply C; now left].
    destruct (in_dec Nat.eq_dec x l) as [C|_]; [contradiction|].
    rewrite app_nil_r in IH. rewrite <- IH. apply Permutation_cons_append.
  - cbn [app].
    destruct (in_dec Nat.eq_dec i (x :: l)) as [C|C], (in_dec Nat.eq_dec i l) as [D|D].
    + now apply perm_skip.
    + destruct C; [congruence|contradiction].
    + exfalso. apply C. now right.
    + now apply perm_skip.
Qed.

(** ** The main loop *)
Section Loop.
Variable a : lattice.
Hypothesis Hok : lattice_ok a.
Let nodes := a_nodes a.
Let ls := a_links a.
Let n := length nodes.
Let ini := a_initial a.
Let qlt x y := time_lt (node_time nodes x) (node_time nodes y).

Record inv (d q R : list nat) (req : bool) (Q : list nat) : Prop := {
  iv_len : length d = n;
  iv_desc : desc qlt q;
  iv_perm : Permutation q (Q ++ if req then [ini] else []);
  iv_nodup : NoDup (R ++ Q);
  iv_range : forall v, In v (R ++ Q) -> v < n;
  iv_deg : forall v, deg d v + cR ls R v = tot ls v;
  iv_in : forall v, v <> ini -> (In v (R ++ Q) <-> deg d v = 0 /\ 0 < tot ls v);
  iv_ini : In ini (R ++ Q);
  iv_req : req = true <-> deg d ini = 0 /\ 0 < tot ls ini;
  iv_start : R = [] -> Q = [ini];
  iv_hd : R <> [] -> exists t, R = ini :: t;
  iv_order : forall p v t, R = p ++ v :: t -> v <> ini -> forall u, edge a u v -> In u p;
  iv_greedy : forall p v t, R = p ++ v :: t -> p <> [] ->
              forall w, ready a p w -> not_later (time_of a v) (time_of a w)
}.

Lemma edge_in u v : edge a u v -> exists l, In l ls /\ k_start l = u /\ k_end l = v.
Proof. auto. Qed.

Lemma preds_all R v : cR ls R v = tot ls v <-> forall u, edge a u v -> In u R.
Proof.
  rewrite cR_all. split.
  - intros H u (l & Hl & <- & E). auto.
  - intros H l Hl E. apply H. exists l. auto.
Qed.
Lemma preds_some v : 0 < tot ls v <-> exists u, edge a u v.
Proof.
  rewrite tot_pos. split.
  - intros (l & Hl & E). exists (k_start l), l. auto.
  - intros (u & l & Hl & _ & E). eauto.
Qed.

Lemma node_step i d q : i < n ->
  exists nd, py_index nodes i = Ok nd /\
    foldM (visit_out nodes ls) (n_out nd) (d, q) = foldM (visit_end nodes) (outs ls i) (d, q).
Proof.
  intros Hi. destruct (nth_error nodes i) as [nd|] eqn:E; [|apply nth_error_None in E; unfold n in Hi; lia].
  exists nd. split; [unfold py_index; now rewrite E|].
  destruct Hok as [[_ Ho _] _]. rewrite (Ho i nd E).
  apply visit_out_ends. apply links_from_links.
Qed.

Lemma outs_range i v : In v (outs ls i) -> v < n.
Proof.
  unfold outs. rewrite in_map_iff. intros (l & <- & H). apply filter_In in H.
  destruct Hok as [[Hr _ _] _]. now apply Hr.
Qed.

Lemma inv_pop d q0 i R req Q :
  inv d (q0 ++ [i]) R req Q -> ~ In i R ->
  exists d' q' req' Q', i < n /\
    foldM (visit_end nodes) (outs ls i) (d, q0) = Ok (d', q') /\ inv d' q' (R ++ [i]) req' Q'.
Proof.
  intros V HiR.
  assert (HiQ : In i Q).
  { assert (Hin : In i (q0 ++ [i])) by (apply in_or_app; right; now left).
    apply (Permutation_in _ (iv_perm _ _ _ _ _ V)) in Hin. apply in_app_or in Hin.
    destruct Hin as [H|H]; [exact H|].
    destruct req; [|destruct H]. destruct H as [<-|[]].
    pose proof (iv_ini _ _ _ _ _ V) as H. apply in_app_or in H. tauto. }
  assert (Hin : i < n) by (apply (iv_range _ _ _ _ _ V); apply in_or_app; now right).
  destruct (in_split _ _ HiQ) as (Q1 & Q2 & EQ).
  set (Q0 := Q1 ++ Q2).
  assert (PQ : Permutation Q (i :: Q0)) by (rewrite EQ; symmetry; apply Permutation_middle).
  assert (Pq0 : Permutation q0 (Q0 ++ if req then [ini] else [])).
  { apply (Permutation_cons_inv (a := i)).
    rewrite Permutation_cons_append, (iv_perm _ _ _ _ _ V), PQ. reflexivity. }
  assert (NDi : NoDup ((R ++ [i]) ++ Q0)).
  { eapply Permutation_NoDup; [|exact (iv_nodup _ _ _ _ _ V)].
    rewrite <- app_assoc. apply Permutation_app_head. exact PQ. }
  assert (Hmem : forall v, In v ((R ++ [i]) ++ Q0) <-> In v (R ++ Q)).
  { intros v. split; apply Permutation_in.
    - rewrite <- app_assoc. apply Permutation_app_head. symmetry. exact PQ.
    - rewrite <- app_assoc. apply Permutation_app_head. exact PQ. }
  destruct (visit_ok nodes (outs ls i) d q0) as (d' & q' & new & E & L & S' & D & P & N & I).
  { exact (desc_app_l _ _ _ (iv_desc _ _ _ _ _ V)). }
  { intros v Hv. rewrite (iv_len _ _ _ _ _ V). now apply outs_range in Hv. }
  { intros v. pose proof (cR_le ls (R ++ [i]) v) as H. rewrite (cR_snoc ls R i v HiR) in H.
    pose proof (iv_deg _ _ _ _ _ V v). lia. }
  pose proof (iv_deg _ _ _ _ _ V) as Vdeg.
  set (new' := remove Nat.eq_dec ini new).
  assert (Hnew' : forall v, In v new' <-> v <> ini /\ deg d' v = 0 /\ 0 < deg d v).
  { intros v. unfold new'. split.
    - intros H. apply in_remove in H. destruct H as [H1 H2]. split; [exact H2|]. now apply I.
    - intros [H1 H2]. apply in_in_remove; [exact H1|]. now apply I. }
  set (inew := if in_dec Nat.eq_dec ini new then true else false).
  assert (Hinew : inew = true <-> deg d' ini = 0 /\ 0 < deg d ini).
  { unfold inew. rewrite <- (I ini). destruct (in_dec Nat.eq_dec ini new); split; auto; discriminate. }
  assert (Hreq := iv_req _ _ _ _ _ V).
  assert (Pnew : Permutation new (new' ++ if inew then [ini] else [])).
  { unfold inew, new'. rewrite (perm_remove ini new N) at 1.
    destruct (in_dec Nat.eq_dec ini new); reflexivity. }
  exists d', q', (req || inew), (Q0 ++ new').
  split; [exact Hin|]. split; [exact E|].
  assert (Hd0 : forall v, deg d v = 0 -> deg d' v = 0) by (intros v Hv; specialize (D v); lia).
  constructor.
  - rewrite L. apply (iv_len _ _ _ _ _ V).
  - exact S'.
  - rewrite P, Pq0, Pnew, <- !app_assoc. apply Permutation_app_head.
    assert (Hx : ~ (req = true /\ inew = true)).
    { rewrite Hreq, Hinew. lia. }
    destruct req, inew; cbn [orb]; try (exfalso; apply Hx; auto; fail).
    + cbn [app]. rewrite app_nil_r. apply Permutation_cons_append.
    + reflexivity.
    + rewrite !app_nil_r. reflexivity.
  - rewrite app_assoc. apply NoDup_app_iff. split; [exact NDi|]. split.
    { unfold new'. clear -N. induction N as [|x l Hx N IH]; cbn; [constructor|].
      destruct (Nat.eq_dec ini x); [exact IH|]. constructor; [|exact IH].
      intros H. apply in_remove in H. tauto. }
    intros v H1 H2. apply Hnew' in H2. apply Hmem in H1.
    apply (iv_in _ _ _ _ _ V) in H1; [|tauto]. lia.
  - intros v Hv. rewrite app_assoc in Hv. apply in_app_or in Hv. destruct Hv as [Hv|Hv].
    + apply Hmem in Hv. now apply (iv_range _ _ _ _ _ V).
    + apply Hnew' in Hv. destruct Hv as (_ & _ & Hv).
      rewrite <- (iv_len _ _ _ _ _ V). unfold deg in Hv.
      destruct (Nat.lt_ge_cases v (length d)) as [|Hge]; [assumption|].
      rewrite nth_overflow in Hv by exact Hge. lia.
  - intros v. rewrite (cR_snoc ls R i v HiR). specialize (D v). specialize (Vdeg v). lia.
  - intros v Hv. rewrite app_assoc. split.
    + intros H. apply in_app_or in H. destruct H as [H|H].
      * apply Hmem in H. apply (iv_in _ _ _ _ _ V) in H; [|exact Hv]. destruct H. auto.
      * apply Hnew' in H. specialize (Vdeg v). split; [tauto|lia].
    + intros [H1 H2]. apply in_or_app. destruct (Nat.eq_dec (deg d v) 0) as [Hz|Hz].
      * left. apply Hmem. apply (iv_in _ _ _ _ _ V); auto.
      * right. apply Hnew'. split; [exact Hv|]. split; [exact H1|lia].
  - rewrite app_assoc. apply in_or_app. left. apply Hmem. apply (iv_ini _ _ _ _ _ V).
  - rewrite orb_true_iff, Hreq, Hinew. specialize (Vdeg ini). specialize (D ini).
    split; [intros [[? ?]|[? ?]]; lia|]. intros [? ?].
    destruct (Nat.eq_dec (deg d ini) 0); [left|right]; lia.
  - intros C. destruct R; discriminate C.
  - intros _. destruct R as [|r R'].
    + rewrite (iv_start _ _ _ _ _ V eq_refl) in HiQ. destruct HiQ as [<-|[]]. exists []. reflexivity.
    + destruct (iv_hd _ _ _ _ _ V) as [t Ht]; [discriminate|]. exists (t ++ [i]). rewrite Ht. reflexivity.
  - intros p v t Hp Hv u Hu.
    destruct (exists_last (l := v :: t)) as (t' & x & Et); [discriminate|].
    rewrite Et, app_assoc in Hp. apply app_inj_tail in Hp. destruct Hp as [Hp <-].
    destruct t' as [|v' t'].
    + cbn in Et. injection Et as -> ->. rewrite app_nil_r in Hp. subst p.
      assert (Hi0 : deg d i = 0).
      { apply (iv_in _ _ _ _ _ V); [exact Hv|]. apply in_or_app. now right. }
      apply (proj1 (preds_all R i)); [|exact Hu]. specialize (Vdeg i). lia.
    + cbn in Et. injection Et as <- _. eapply (iv_order _ _ _ _ _ V); eauto.
  - intros p v t Hp Hpn w Hw.
    destruct (exists_last (l := v :: t)) as (t' & x & Et); [discriminate|].
    rewrite Et, app_assoc in Hp. apply app_inj_tail in Hp. destruct Hp as [Hp <-].
    destruct t' as [|v' t'].
    + cbn in Et. injection Et as -> ->. rewrite app_nil_r in Hp. subst p.
      destruct Hw as (Hw1 & Hw2 & Hw3).
      destruct (iv_hd _ _ _ _ _ V Hpn) as [tl Htl].
      assert (Hwi : w <> ini) by (intros ->; apply Hw1; rewrite Htl; now left).
      assert (HwQ : In w (R ++ Q)).
      { apply (iv_in _ _ _ _ _ V); [exact Hwi|]. apply preds_some in Hw2. split; [|exact Hw2].
        apply preds_all in Hw3. specialize (Vdeg w). lia. }
      apply in_app_or in HwQ. destruct HwQ as [HwQ|HwQ]; [contradiction|].
      destruct (Nat.eq_dec w i) as [->|Hne].
      { destruct (time_of a i) as [x|]; cbn; [apply Qcle_refl|exact Logic.I]. }
      assert (Hwq : In w q0).
      { apply (Permutation_in _ (Permutation_sym Pq0)). apply in_or_app. left.
        apply (Permutation_in _ PQ) in HwQ. destruct HwQ as [E'|H]; [congruence|exact H]. }
      apply time_nlt_not_later. exact (desc_app_last qlt q0 i (iv_desc _ _ _ _ _ V) w Hwq).
    + cbn in Et. injection Et as <- _. eapply (iv_greedy _ _ _ _ _ V); eauto.
Qed.

Lemma inv_nodup_R d q R req Q : inv d q R req Q -> NoDup R /\ length R <= n.
Proof.
  intros V. pose proof (iv_nodup _ _ _ _ _ V) as H. apply NoDup_app_iff in H. destruct H as [H _].
  split; [exact H|].
  rewrite <- (seq_length n 0). apply NoDup_incl_length; [exact H|].
  intros v Hv. apply in_seq. split; [lia|]. apply (iv_range _ _ _ _ _ V). apply in_or_app. now left.
Qed.

(** When the initial node comes up again, the loop raises the exception. *)
Lemma inv_again d q0 R req Q :
  inv d (q0 ++ [ini]) R req Q -> In ini R ->
  req = true /\ ini < n /\ foldM (visit_end nodes) (outs ls ini) (d, q0) = Err InputError.
Proof.
  intros V HiR.
  assert (Hr : req = true).
  { destruct req; [reflexivity|]. exfalso.
    assert (Hin : In ini (q0 ++ [ini])) by (apply in_or_app; right; now left).
    apply (Permutation_in _ (iv_perm _ _ _ _ _ V)) in Hin. rewrite app_nil_r in Hin.
    pose proof (iv_nodup _ _ _ _ _ V) as H. apply NoDup_app_iff in H. destruct H as (_ & _ & H).
    exact (H _ HiR Hin). }
  split; [exact Hr|].
  split; [apply (iv_range _ _ _ _ _ V); apply in_or_app; now left|].
  apply (iv_req _ _ _ _ _ V) in Hr. destruct Hr as [Hd Ht].
  assert (Hall : forall u, edge a u ini -> In u R).
  { apply preds_all. pose proof (iv_deg _ _ _ _ _ V ini). lia. }
  apply preds_some in Ht. destruct Ht as [u Hu].
  assert (Hv : exists v, edge a ini v /\ deg d v = 0).
  { destruct (Nat.eq_dec u ini) as [->|Hne]; [exists ini; auto|].
    destruct (iv_hd _ _ _ _ _ V) as [t Et]; [intros ->; exact HiR|].
    destruct t as [|v t].
    - specialize (Hall u Hu). rewrite Et in Hall. destruct Hall as [E|[]]. congruence.
    - exists v.
      assert (Hvi : v <> ini).
      { destruct (inv_nodup_R _ _ _ _ _ V) as [N _]. rewrite Et in N. inversion N as [|? ? N1 _]; subst.
        intros ->. apply N1. now left. }
      assert (HvR : In v (R ++ Q)) by (rewrite Et; apply in_or_app; left; right; now left).
      apply (iv_in _ _ _ _ _ V) in HvR; [|exact Hvi]. destruct HvR as [Hdv Htv].
      split; [|exact Hdv]. apply preds_some in Htv. destruct Htv as [w Hw].
      pose proof (iv_order _ _ _ _ _ V [ini] v t Et Hvi w Hw) as H. destruct H as [<-|[]]. exact Hw. }
  destruct Hv as (v & Hv & Hdv).
  apply visit_err with v.
  - intros w Hw. rewrite (iv_len _ _ _ _ _ V). now apply outs_range in Hw.
  - rewrite Hdv. apply outs_pos. exact Hv.
Qed.

Lemma sort_loop_spec : forall fuel d q R req Q,
  inv d q R req Q -> n + 2 <= fuel + length R ->
  (exists d' R', sort_loop fuel nodes ls d q R = Ok R' /\ inv d' [] R' false []) \/
  (sort_loop fuel nodes ls d q R = Err InputError /\
   exists d' q' R' Q', inv d' q' R' true Q').
Proof.
  induction fuel as [|fuel IH]; intros d q R req Q V Hf.
  - destruct (inv_nodup_R _ _ _ _ _ V). lia.
  - cbn [sort_loop]. destruct (rev q) as [|i qr] eqn:Eq.
    + left. assert (q = []) by (rewrite <- (rev_involutive q), Eq; reflexivity). subst q.
      exists d, R. split; [reflexivity|].
      pose proof (iv_perm _ _ _ _ _ V) as P. apply Permutation_nil in P.
      apply app_eq_nil in P. destruct P as [-> P]. destruct req; [discriminate|]. exact V.
    + assert (Hq : q = rev qr ++ [i]) by (rewrite <- (rev_involutive q), Eq; reflexivity).
      subst q. destruct (in_dec Nat.eq_dec i R) as [Hi|Hi].
      * assert (i = ini).
        { assert (Hin : In i (rev qr ++ [i])) by (apply in_or_app; right; now left).
          apply (Permutation_in _ (iv_perm _ _ _ _ _ V)) in Hin. apply in_app_or in Hin.
          destruct Hin as [H|H].
          - pose proof (iv_nodup _ _ _ _ _ V) as N. apply NoDup_app_iff in N. destruct N as (_ & _ & N).
            exfalso. exact (N _ Hi H).
          - destruct req; [|destruct H]. destruct H as [<-|[]]. reflexivity. }
        subst i. destruct (inv_again _ _ _ _ _ V Hi) as (-> & Hn & E).
        right. destruct (node_step ini d (rev qr) Hn) as (nd & E1 & E2). rewrite E1. cbn [bind]. rewrite E2, E.
        split; [reflexivity|]. eauto.
      * destruct (inv_pop _ _ _ _ _ _ V Hi) as (d' & q' & req' & Q' & Hn & E & V').
        destruct (node_step i d (rev qr) Hn) as (nd & E1 & E2). rewrite E1. cbn [bind]. rewrite E2, E. cbn [bind].
        apply (IH _ _ _ _ _ V'). rewrite app_length. cbn. lia.
Qed.

Lemma inv_init :
  inv (map (fun nd => length (n_in nd)) nodes) [ini] [] false [ini].
Proof.
  destruct Hok as [[Hr Ho Hi] Hini]. fold nodes in Hr, Ho, Hi. fold ls in Hr, Ho, Hi. fold ini in Hini. fold nodes in Hini. fold n in Hini.
  assert (Hdeg : forall v, deg (map (fun nd => length (n_in nd)) nodes) v = tot ls v).
  { intros v. unfold deg. destruct (nth_error nodes v) as [nd|] eqn:E.
    - rewrite (nth_indep _ 0 (length (n_in nd))).
      + rewrite (map_nth (fun nd => length (n_in nd)) nodes nd v).
        rewrite (nth_error_nth _ _ _ E), (Hi v nd E). apply links_to_tot.
      + rewrite map_length. apply nth_error_Some. congruence.
    - apply nth_error_None in E. rewrite nth_overflow by (rewrite map_length; exact E).
      destruct (tot ls v) eqn:Et; [reflexivity|]. exfalso.
      assert (Hp : 0 < tot ls v) by lia. apply tot_pos in Hp. destruct Hp as (l & Hl & <-).
      apply Hr in Hl. lia. }
  constructor.
  - apply map_length.
  - repeat constructor.
  - reflexivity.
  - cbn. constructor; [intros []|constructor].
  - cbn. intros v [<-|[]]. exact Hini.
  - intros v. rewrite Hdeg, cR_nil. lia.
  - intros v Hv. rewrite Hdeg. cbn. split; [intros [E|[]]; congruence|lia].
  - now left.
  - rewrite Hdeg. split; [discriminate|lia].
  - reflexivity.
  - congruence.
  - intros p v t H. destruct p; discriminate.
  - intros p v t H. destruct p; discriminate.
Qed.

Lemma sorted_nodes_cases :
  (exists d R, sorted_nodes a = Ok R /\ inv d [] R false []) \/
  (sorted_nodes a = Err InputError /\ exists d q R Q, inv d q R true Q).
Proof.
  unfold sorted_nodes. fold nodes ls n ini.
  destruct (sort_loop_spec (S (S n)) _ _ _ _ _ inv_init) as [(d & R & E & V)|[E H]]; [cbn; lia| |].
  - left. exists d, R. rewrite E. cbn [bind]. split; [|exact V].
    destruct (inv_nodup_R _ _ _ _ _ V) as [_ H].
    destruct (Nat.ltb_spec n (length R)); [lia|reflexivity].
  - right. rewrite E. auto.
Qed.

Lemma inv_orderable d q R req Q : inv d q R req Q -> forall v, In v R -> orderable a v.
Proof.
  intros V v Hv. apply in_split in Hv. destruct Hv as (p & t & E). revert v t E.
  induction p as [p IH] using (well_founded_induction (Wf_nat.well_founded_ltof _ (@length nat))).
  intros v t E. destruct (Nat.eq_dec v ini) as [->|Hv]; [constructor|].
  apply ord_step.
  - apply preds_some. apply (iv_in _ _ _ _ _ V v Hv). apply in_or_app. left. rewrite E.
    apply in_or_app. right. now left.
  - intros u Hu. pose proof (iv_order _ _ _ _ _ V p v t E Hv u Hu) as H.
    apply in_split in H. destruct H as (p1 & p2 & ->).
    apply (IH p1) with (t := p2 ++ v :: t).
    + unfold ltof. rewrite app_length. cbn. lia.
    + rewrite E, <- app_assoc. reflexivity.
Qed.

Lemma inv_complete d R : inv d [] R false [] -> forall v, orderable a v -> In v R.
Proof.
  intros V v Hv. induction Hv as [|v Hsome Hall IH].
  - pose proof (iv_ini _ _ _ _ _ V) as H. now rewrite app_nil_r in H.
  - destruct (Nat.eq_dec v ini) as [->|Hne].
    { pose proof (iv_ini _ _ _ _ _ V) as H. now rewrite app_nil_r in H. }
    pose proof (iv_in _ _ _ _ _ V v Hne) as H. rewrite app_nil_r in H. apply H.
    apply preds_some in Hsome. split; [|exact Hsome].
    assert (Hc : cR ls R v = tot ls v) by (apply preds_all; exact IH).
    pose proof (iv_deg _ _ _ _ _ V v). lia.
Qed.

Lemma sorted_nodes_ok R : sorted_nodes a = Ok R ->
  NoDup R /\ (exists t, R = ini :: t) /\ (forall v, In v R -> v < n) /\
  (forall v, In v R <-> orderable a v) /\
  (forall p v t, R = p ++ v :: t -> p <> [] ->
     (forall u, edge a u v -> In u p) /\
     (forall w, ready a p w -> not_later (time_of a v) (time_of a w))) /\
  ~ ((exists u, edge a u ini) /\ forall u, edge a u ini -> orderable a u).
Proof.
  intros H. destruct sorted_nodes_cases as [(d & R' & E & V)|[E _]]; rewrite E in H; [|discriminate].
  injection H as ->. destruct (inv_nodup_R _ _ _ _ _ V) as [N _].
  assert (Hne : R <> []).
  { intros ->. pose proof (iv_ini _ _ _ _ _ V) as H. destruct H. }
  destruct (iv_hd _ _ _ _ _ V Hne) as [t Et].
  split; [exact N|]. split; [eauto|]. split.
  { intros v Hv. apply (iv_range _ _ _ _ _ V). now rewrite app_nil_r. }
  split.
  { intros v. split; [apply (inv_orderable _ _ _ _ _ V)|apply (inv_complete _ _ V)]. }
  split.
  - intros p v t' Ep Hp. split; [|apply (iv_greedy _ _ _ _ _ V p v t' Ep Hp)].
    apply (iv_order _ _ _ _ _ V p v t' Ep).
    intros ->. rewrite Ep in N, Et. destruct p as [|x p]; [congruence|].
    cbn in Et, N. injection Et as -> _. inversion N as [|? ? N1 _]; subst. apply N1.
    apply in_or_app. right. now left.
  - intros [H1 H2]. apply preds_some in H1.
    assert (C : false = true); [|discriminate].
    apply (iv_req _ _ _ _ _ V). split; [|exact H1].
    assert (Hc : cR ls R ini = tot ls ini).
    { apply preds_all. intros u Hu. apply (inv_complete _ _ V). auto. }
    pose proof (iv_deg _ _ _ _ _ V ini). lia.
Qed.

Lemma sorted_nodes_err : sorted_nodes a = Err InputError <->
  (exists u, edge a u ini) /\ forall u, edge a u ini -> orderable a u.
Proof.
  split.
  - intros H. destruct sorted_nodes_cases as [(d & R' & E & V)|[_ (d & q & R & Q & V)]];
      [rewrite E in H; discriminate|].
    destruct (proj1 (iv_req _ _ _ _ _ V) eq_refl) as [Hd Ht].
    split; [now apply preds_some|].
    intros u Hu. apply (inv_orderable _ _ _ _ _ V).
    revert u Hu. apply preds_all. pose proof (iv_deg _ _ _ _ _ V ini). lia.
  - intros H. destruct sorted_nodes_cases as [(d & R' & E & V)|[E _]]; [|exact E].
    apply sorted_nodes_ok in E. destruct E as (_ & _ & _ & _ & _ & E). contradiction.
Qed.

Lemma sorted_nodes_only_error e : sorted_nodes a = Err e -> e = InputError.
Proof.
  intros H. destruct sorted_nodes_cases as [(d & R' & E & V)|[E _]]; congruence.
Qed.
End Loop.

(** ** Cycles *)
Section Cycles.
Variable a : lattice.
Hypothesis Hok : lattice_ok a.

Lemma edge_range u v : edge a u v -> u < length (a_nodes a) /\ v < length (a_nodes a).
Proof. intros (l & Hl & <- & <-). destruct Hok as [[Hr _ _] _]. now apply Hr. Qed.

Lemma sorted_complete_acyclic R :
  sorted_nodes a = Ok R -> length R = length (a_nodes a) -> ~ cyclic a.
Proof.
  intros E L. destruct (sorted_nodes_ok a Hok R E) as (N & (t0 & Et) & Hr & Ho & Hord & Hini).
  assert (Hall : forall v, v < length (a_nodes a) -> In v R).
  { intros v Hv. assert (Hincl : incl (seq 0 (length (a_nodes a))) R).
    { apply NoDup_length_incl; [exact N|rewrite seq_length; lia|].
      intros w Hw. apply in_seq. split; [lia|]. now apply Hr. }
    apply Hincl. apply in_seq. lia. }
  assert (Hedge : forall u v i j, edge a u v -> nth_error R i = Some u -> nth_error R j = Some v -> i < j).
  { intros u v i j Huv Hi Hj.
    destruct j as [|j].
    - exfalso. apply Hini. rewrite Et in Hj. cbn in Hj. injection Hj as <-.
      split; [eauto|]. intros w Hw. apply Ho. apply Hall. apply edge_range in Hw. tauto.
    - destruct (nth_error_split _ _ Hj) as (p & q & Ep & Lp).
      destruct (Hord p v q Ep) as [Hin _]; [intros ->; discriminate Lp|].
      specialize (Hin u Huv). apply In_nth_error in Hin. destruct Hin as [i' Hi'].
      assert (Hlt : i' < length p) by (apply nth_error_Some; congruence).
      assert (Hi2 : nth_error R i' = Some u) by (rewrite Ep, nth_error_app1 by exact Hlt; exact Hi').
      assert (i = i'); [|lia].
      apply (proj1 (NoDup_nth_error R) N); [apply nth_error_Some; congruence|congruence]. }
  assert (Hwalk : forall u v, walk a u v -> forall i j, nth_error R i = Some u -> nth_error R j = Some v -> i < j).
  { intros u v Hw. induction Hw as [u v Huv|u v w Huv Hvw IH]; intros i j Hi Hj; [eauto|].
    assert (Hv : In v R) by (apply Hall; apply edge_range in Huv; tauto).
    apply In_nth_error in Hv. destruct Hv as [m Hm].
    specialize (IH _ _ Hm Hj). specialize (Hedge _ _ _ _ Huv Hi Hm). lia. }
  intros [v Hv]. 
  assert (Hin : In v R).
  { apply Hall. inversion Hv as [? ? Hu|? ? ? Hu ?]; subst; apply edge_range in Hu; tauto. }
  apply In_nth_error in Hin. destruct Hin as [i Hi].
  specialize (Hwalk _ _ Hv _ _ Hi Hi). lia.
Qed.

(** Longest walks backwards end in acyclic lattices. *)
Lemma walk_trans u v w : walk a u v -> walk a v w -> walk a u w.
Proof. induction 1; intros; [eapply walk_step; eassumption|eapply walk_step; eauto]. Qed.

Lemma walk_range u v : walk a u v -> u < length (a_nodes a) /\ v < length (a_nodes a).
Proof.
  induction 1 as [u v H|u v w H _ IH]; apply edge_range in H; tauto.
Qed.

(** In an acyclic lattice every node is reached by a chain of predecessors, so that
    if all the nodes can be reached from the initial node, all of them can be
    ordered. *)
Lemma acyclic_orderable :
  ~ cyclic a -> (forall v, v < length (a_nodes a) -> reachable_node a v) ->
  forall v, v < length (a_nodes a) -> orderable a v.
Proof.
  intros Hc Hreach.
  (* strong induction on the number of nodes that are not yet on the chain *)
  assert (G : forall k chain v, length (a_nodes a) <= k + length chain -> NoDup (v :: chain) ->
              (forall w, In w chain -> walk a v w) -> v < length (a_nodes a) -> orderable a v).
  { induction k as [|k IH]; intros chain v Hk N Hw Hv.
    - exfalso. assert (Hl : length (v :: chain) <= length (a_nodes a)).
      { rewrite <- (seq_length (length (a_nodes a)) 0). apply NoDup_incl_length; [exact N|].
        intros w [<-|Hin]; apply in_seq; [lia|]. apply Hw in Hin. apply walk_range in Hin. lia. }
      cbn in Hl. lia.
    - destruct (Hreach v Hv) as [->|Hr]; [constructor|].
      apply ord_step.
      + clear -Hr. induction Hr as [u v H|u v w _ _ IH]; eauto.
      + intros u Hu. apply (IH (v :: chain)).
        * cbn. lia.
        * constructor; [|exact N]. intros [->|Hin].
          -- apply Hc. exists u. now constructor.
          -- apply Hc. exists u. eapply walk_step; [exact Hu|]. auto.
        * intros w [<-|Hin]; [now constructor|]. eapply walk_step; [exact Hu|]. auto.
        * apply edge_range in Hu. tauto. }
  intros v Hv. apply (G (length (a_nodes a)) [] v); [cbn; lia| |intros ? []|exact Hv].
  constructor; [intros []|constructor].
Qed.

Lemma acyclic_sorted :
  ~ cyclic a -> (forall v, v < length (a_nodes a) -> reachable_node a v) ->
  exists R, sorted_nodes a = Ok R /\ length R = length (a_nodes a).
Proof.
  intros Hc Hreach. pose proof (acyclic_orderable Hc Hreach) as Ho.
  destruct (sorted_nodes a) as [R|e] eqn:E.
  - exists R. split; [reflexivity|].
    destruct (sorted_nodes_ok a Hok R E) as (N & _ & Hr & Hor & _).
    apply Nat.le_antisymm.
    + rewrite <- (seq_length (length (a_nodes a)) 0). apply NoDup_incl_length; [exact N|].
      intros v Hv. apply in_seq. specialize (Hr v Hv). lia.
    + rewrite <- (seq_length (length (a_nodes a)) 0) at 1. apply NoDup_incl_length; [apply seq_NoDup|].
      intros v Hv. apply in_seq in Hv. apply Hor. apply Ho. lia.
  - exfalso. pose proof (sorted_nodes_only_error a Hok e E) as ->.
    apply (sorted_nodes_err a Hok) in E. destruct E as [[u Hu] _].
    pose proof (edge_range _ _ Hu) as [Hun _].
    destruct (Hreach u Hun) as [->|Hw].
    + apply Hc. eexists. constructor. exact Hu.
    + apply Hc. exists (a_initial a). eapply walk_trans; [exact Hw|]. now constructor.
Qed.
End Cycles.
