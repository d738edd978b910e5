(** Proofs about building lattices: adding links keeps the graph consistent, and
    moving words from nodes to links. *)
From Coq Require Import QArith Qcanon.
From Verif Require Import Base Strings ListLib BaseLib LatticeModel SlfModel LatticeSpec SortProofs.
Local Open Scope nat_scope.

(** ** Adding links *)
Lemma links_from_snoc ls l i :
  links_from (ls ++ [l]) i = links_from ls i ++ (if k_start l =? i then [length ls] else []).
Proof.
  unfold links_from. rewrite app_length. cbn [length]. rewrite Nat.add_1_r, seq_S, filter_app. cbn [filter plus].
  rewrite nth_error_app2, Nat.sub_diag by lia. cbn [nth_error]. f_equal.
  apply filter_ext_in. intros k Hk. apply in_seq in Hk. now rewrite nth_error_app1 by lia.
Qed.
Lemma links_to_snoc ls l i :
  links_to (ls ++ [l]) i = links_to ls i ++ (if k_end l =? i then [length ls] else []).
Proof.
  unfold links_to. rewrite app_length. cbn [length]. rewrite Nat.add_1_r, seq_S, filter_app. cbn [filter plus].
  rewrite nth_error_app2, Nat.sub_diag by lia. cbn [nth_error]. f_equal.
  apply filter_ext_in. intros k Hk. apply in_seq in Hk. now rewrite nth_error_app1 by lia.
Qed.

Lemma add_out_length ns i k : length (add_out ns i k) = length ns.
Proof. unfold add_out. destruct (nth_error ns i); [apply upd_length|reflexivity]. Qed.
Lemma add_in_length ns i k : length (add_in ns i k) = length ns.
Proof. unfold add_in. destruct (nth_error ns i); [apply upd_length|reflexivity]. Qed.

Lemma nth_add_out ns i k j :
  nth_error (add_out ns i k) j =
  match nth_error ns j with
  | Some n => Some (mkNode (n_out n ++ if i =? j then [k] else []) (n_in n) (n_time n) (n_final n))
  | None => None
  end.
Proof.
  unfold add_out. destruct (nth_error ns i) as [n|] eqn:E.
  - rewrite nth_error_upd. rewrite (Nat.eqb_sym i j). destruct (Nat.eqb_spec j i) as [->|H].
    + rewrite E. destruct (Nat.ltb_spec i (length ns)) as [_|L]; [reflexivity|].
      apply nth_error_None in L. congruence.
    + destruct (nth_error ns j) as [[]|]; cbn; [now rewrite app_nil_r|reflexivity].
  - destruct (Nat.eqb_spec i j) as [->|H]; [now rewrite E|].
    destruct (nth_error ns j) as [[]|]; cbn; [now rewrite app_nil_r|reflexivity].
Qed.
Lemma nth_add_in ns i k j :
  nth_error (add_in ns i k) j =
  match nth_error ns j with
  | Some n => Some (mkNode (n_out n) (n_in n ++ if i =? j then [k] else []) (n_time n) (n_final n))
  | None => None
  end.
Proof.
  unfold add_in. destruct (nth_error ns i) as [n|] eqn:E.
  - rewrite nth_error_upd. rewrite (Nat.eqb_sym i j). destruct (Nat.eqb_spec j i) as [->|H].
    + rewrite E. destruct (Nat.ltb_spec i (length ns)) as [_|L]; [reflexivity|].
      apply nth_error_None in L. congruence.
    + destruct (nth_error ns j) as [[]|]; cbn; [now rewrite app_nil_r|reflexivity].
  - destruct (Nat.eqb_spec i j) as [->|H]; [now rewrite E|].
    destruct (nth_error ns j) as [[]|]; cbn; [now rewrite app_nil_r|reflexivity].
Qed.

Lemma nth_add_link ns ls l j :
  nth_error (fst (add_link (ns, ls) l)) j =
  match nth_error ns j with
  | Some n => Some (mkNode (n_out n ++ if k_start l =? j then [length ls] else [])
                           (n_in n ++ if k_end l =? j then [length ls] else []) (n_time n) (n_final n))
  | None => None
  end.
Proof.
  cbn [add_link fst]. rewrite nth_add_in, nth_add_out. now destruct (nth_error ns j).
Qed.

Lemma add_link_ok ns ls l :
  graph_ok ns ls -> k_start l < length ns -> k_end l < length ns ->
  graph_ok (fst (add_link (ns, ls) l)) (snd (add_link (ns, ls) l)).
Proof.
  intros [H1 H2 H3] Hs He. constructor.
  - intros x Hx. cbn [add_link snd fst] in *. rewrite add_in_length, add_out_length.
    apply in_app_or in Hx. destruct Hx as [Hx|[<-|[]]]; auto.
  - intros i n Hn. rewrite nth_add_link in Hn. destruct (nth_error ns i) as [n'|] eqn:E; [|discriminate].
    injection Hn as <-. cbn [n_out add_link snd]. rewrite links_from_snoc. now rewrite (H2 _ _ E).
  - intros i n Hn. rewrite nth_add_link in Hn. destruct (nth_error ns i) as [n'|] eqn:E; [|discriminate].
    injection Hn as <-. cbn [n_in add_link snd]. rewrite links_to_snoc. now rewrite (H3 _ _ E).
Qed.
Lemma add_link_length ns ls l : length (fst (add_link (ns, ls) l)) = length ns.
Proof. cbn [add_link fst]. now rewrite add_in_length, add_out_length. Qed.

Lemma graph_empty ns : (forall n, In n ns -> n_out n = [] /\ n_in n = []) -> graph_ok ns [].
Proof.
  intros H. constructor; [intros l []| |]; intros i n Hn; apply nth_error_In in Hn; now apply H.
Qed.

(** Consistency does not depend on words, scores, times and flags. *)
Lemma links_from_same ls ls' i :
  map k_start ls = map k_start ls' -> links_from ls i = links_from ls' i.
Proof.
  intros E. unfold links_from. rewrite <- (map_length k_start ls), E, map_length.
  apply filter_ext. intros k.
  assert (X : nth_error (map k_start ls) k = nth_error (map k_start ls') k) by now rewrite E.
  rewrite !nth_error_map in X. destruct (nth_error ls k), (nth_error ls' k); cbn in X; congruence.
Qed.
Lemma links_to_same ls ls' i :
  map k_end ls = map k_end ls' -> links_to ls i = links_to ls' i.
Proof.
  intros E. unfold links_to. rewrite <- (map_length k_end ls), E, map_length.
  apply filter_ext. intros k.
  assert (X : nth_error (map k_end ls) k = nth_error (map k_end ls') k) by now rewrite E.
  rewrite !nth_error_map in X. destruct (nth_error ls k), (nth_error ls' k); cbn in X; congruence.
Qed.
Lemma map_In_transfer {A B} (f : A -> B) (g : A -> B) ls ls' :
  map f ls = map f ls' -> map g ls = map g ls' ->
  forall x, In x ls' -> exists y, In y ls /\ f y = f x /\ g y = g x.
Proof.
  revert ls'; induction ls as [|a ls IH]; intros [|b ls'] E1 E2 x Hx; cbn in *; try discriminate; [destruct Hx|].
  injection E1 as F1 E1. injection E2 as F2 E2. destruct Hx as [<-|Hx]; [exists a; auto|].
  destruct (IH _ E1 E2 _ Hx) as (y & Hy & ? & ?). exists y. auto.
Qed.
Lemma graph_same ns ns' ls ls' :
  map n_out ns = map n_out ns' -> map n_in ns = map n_in ns' ->
  map k_start ls = map k_start ls' -> map k_end ls = map k_end ls' ->
  graph_ok ns ls -> graph_ok ns' ls'.
Proof.
  intros E1 E2 E3 E4 [H1 H2 H3].
  assert (L : length ns = length ns') by (rewrite <- (map_length n_out ns), E1; apply map_length).
  constructor.
  - intros l Hl. destruct (map_In_transfer k_start k_end ls ls' E3 E4 l Hl) as (y & Hy & <- & <-).
    rewrite <- L. auto.
  - intros i n Hn. rewrite <- (links_from_same ls ls' i E3).
    assert (X : nth_error (map n_out ns) i = nth_error (map n_out ns') i) by now rewrite E1.
    rewrite !nth_error_map, Hn in X. destruct (nth_error ns i) as [n'|] eqn:E; [|discriminate]. cbn in X.
    rewrite <- (H2 _ _ E). congruence.
  - intros i n Hn. rewrite <- (links_to_same ls ls' i E4).
    assert (X : nth_error (map n_in ns) i = nth_error (map n_in ns') i) by now rewrite E2.
    rewrite !nth_error_map, Hn in X. destruct (nth_error ns i) as [n'|] eqn:E; [|discriminate]. cbn in X.
    rewrite <- (H3 _ _ E). congruence.
Qed.

Lemma map_upd {A B} (f : A -> B) l i x :
  (forall y, nth_error l i = Some y -> f x = f y) -> map f (upd l i x) = map f l.
Proof.
  revert i; induction l as [|a l IH]; intros [|i] H; cbn [upd map]; try reflexivity.
  - f_equal. now apply H.
  - f_equal. now apply IH.
Qed.

Lemma links_from_In ls i k :
  In k (links_from ls i) <-> exists l, nth_error ls k = Some l /\ k_start l = i.
Proof.
  unfold links_from. rewrite filter_In, in_seq. split.
  - intros [_ H]. destruct (nth_error ls k) as [l|]; [|discriminate]. apply Nat.eqb_eq in H. eauto.
  - intros (l & E & <-). rewrite E, Nat.eqb_refl. split; [|reflexivity].
    assert (k < length ls) by (apply nth_error_Some; congruence). lia.
Qed.
Lemma links_from_NoDup ls i : NoDup (links_from ls i).
Proof. apply NoDup_filter, seq_NoDup. Qed.

(** ** Moving words to links *)
Section Move.
Variable nodes : list node.
Variable ls0 : list link.
Variable nw : list (option (option pystr)).
Variable ini : nat.
Hypothesis G : graph_ok nodes ls0.
Hypothesis Hini : ini < length nodes.
Hypothesis Hnw : length nw = length nodes.

Let a0 := mkLattice nodes ls0 ini None None None.

Local Notation moved := (LatticeSpec.moved nw).
Local Notation clash := (LatticeSpec.clash nw).

Record minv (links : list link) (visited stack done : list nat) : Prop := {
  mv_links : links = map (fun k => match nth_error ls0 k with
                                   | Some l => if existsb (Nat.eqb k) done then moved l else l
                                   | None => mkLink 0 0 None None None []
                                   end) (seq 0 (length ls0));
  mv_nodup : NoDup (done ++ stack);
  mv_in : forall k, In k (done ++ stack) <-> exists l, nth_error ls0 k = Some l /\ In (k_start l) visited;
  mv_ini : In ini visited;
  mv_reach : forall v, In v visited -> v < length nodes /\ reachable_node a0 v;
  mv_done : forall k l, In k done -> nth_error ls0 k = Some l -> In (k_end l) visited /\ ~ clash l
}.

Lemma minv_nth links visited stack done k : minv links visited stack done ->
  nth_error links k = match nth_error ls0 k with
                      | Some l => Some (if existsb (Nat.eqb k) done then moved l else l)
                      | None => None
                      end.
Proof.
  intros [-> _ _ _ _ _]. rewrite nth_error_map_seq.
  destruct (Nat.ltb_spec k (length ls0)) as [L|L].
  - destruct (nth_error ls0 k) eqn:E; [reflexivity|]. apply nth_error_None in E. lia.
  - destruct (nth_error ls0 k) eqn:E; [|reflexivity]. assert (k < length ls0); [|lia]. apply nth_error_Some. congruence.
Qed.

Lemma moved_end l : k_end (moved l) = k_end l /\ k_start (moved l) = k_start l.
Proof. unfold moved. destruct (nth_error nw (k_end l)) as [[w|]|]; split; reflexivity. Qed.

Lemma edge_link k l : nth_error ls0 k = Some l -> edge a0 (k_start l) (k_end l).
Proof. intros H. exists l. split; [|auto]. now apply nth_error_In in H. Qed.

Lemma reach_step u v : reachable_node a0 u -> edge a0 u v -> reachable_node a0 v.
Proof.
  intros [->|H] E; right; [now constructor|]. apply (walk_trans a0 _ u); [exact H|now constructor].
Qed.

Lemma existsb_cons k d done : existsb (Nat.eqb k) (d :: done) = (k =? d) || existsb (Nat.eqb k) done.
Proof. reflexivity. Qed.

Lemma move_words_spec : forall fuel links visited stack done,
  minv links visited stack done -> length ls0 < fuel + length done ->
  (exists links' visited' done', move_words fuel nodes nw links visited stack = Ok links' /\
     minv links' visited' [] done') \/
  (move_words fuel nodes nw links visited stack = Err InputError /\
   exists k l, nth_error ls0 k = Some l /\ reachable_node a0 (k_start l) /\ clash l).
Proof.
  induction fuel as [|fuel IH]; intros links visited stack done V Hf.
  { exfalso. assert (length done <= length ls0); [|lia].
    rewrite <- (seq_length (length ls0) 0). apply NoDup_incl_length.
    - pose proof (mv_nodup _ _ _ _ V) as H. now apply NoDup_app_iff in H.
    - intros k Hk. assert (Hk' : In k (done ++ stack)) by (apply in_or_app; now left).
      apply (mv_in _ _ _ _ V) in Hk'. destruct Hk' as (l & E & _). apply in_seq.
      assert (k < length ls0) by (apply nth_error_Some; congruence). lia. }
  destruct stack as [|k stack].
  { left. exists links, visited, done. split; [reflexivity|exact V]. }
  assert (Hk : In k (done ++ k :: stack)) by (apply in_or_app; right; now left).
  apply (mv_in _ _ _ _ V) in Hk. destruct Hk as (l & El & Hs).
  assert (Hnd : ~ In k done).
  { intros H. pose proof (mv_nodup _ _ _ _ V) as N. apply NoDup_app_iff in N. destruct N as (_ & _ & N).
    apply (N k H). now left. }
  assert (Eb : existsb (Nat.eqb k) done = false).
  { destruct (existsb (Nat.eqb k) done) eqn:E; [|reflexivity]. apply existsb_In in E. contradiction. }
  cbn [move_words].
  assert (P1 : py_index links k = Ok l) by (unfold py_index; now rewrite (minv_nth _ _ _ _ k V), El, Eb).
  rewrite !P1. cbn [bind].
  assert (Hend : k_end l < length nodes).
  { destruct G as [H _ _]. apply nth_error_In in El. now apply H in El. }
  destruct (nth_error nodes (k_end l)) as [nd|] eqn:En; [|apply nth_error_None in En; lia].
  assert (P2 : py_index nodes (k_end l) = Ok nd) by (unfold py_index; now rewrite En).
  rewrite !P2. cbn [bind].
  destruct (nth_error nw (k_end l)) as [w|] eqn:Ew; [|apply nth_error_None in Ew; lia].
  assert (P3 : py_index nw (k_end l) = Ok w) by (unfold py_index; now rewrite Ew).
  rewrite !P3. cbn [bind].
  assert (Hreach : reachable_node a0 (k_end l)).
  { apply (reach_step (k_start l)); [now apply (mv_reach _ _ _ _ V)|now apply (edge_link k)]. }
  (* the new list of links *)
  assert (R : (exists links', (match w with
                  | None => Ok links
                  | Some word => match k_word l with
                    | None => Ok (upd links k (mkLink (k_start l) (k_end l) word (k_ac l) (k_lm l) (k_transitions l)))
                    | Some _ => Err InputError
                    end
                  end) = Ok links' /\ ~ clash l /\
                links' = map (fun j => match nth_error ls0 j with
                                   | Some l => if existsb (Nat.eqb j) (k :: done) then moved l else l
                                   | None => mkLink 0 0 None None None []
                                   end) (seq 0 (length ls0)))
              \/ ((match w with
                  | None => Ok links
                  | Some word => match k_word l with
                    | None => Ok (upd links k (mkLink (k_start l) (k_end l) word (k_ac l) (k_lm l) (k_transitions l)))
                    | Some _ => Err InputError
                    end
                  end) = Err InputError /\ clash l)).
  { assert (Hupd : forall x, x = moved l -> upd links k x
             = map (fun j => match nth_error ls0 j with
                                   | Some l => if existsb (Nat.eqb j) (k :: done) then moved l else l
                                   | None => mkLink 0 0 None None None []
                                   end) (seq 0 (length ls0))).
    { intros x Hx. rewrite (mv_links _ _ _ _ V). apply upd_map_seq.
      - apply nth_error_Some. congruence.
      - rewrite El, existsb_cons, Nat.eqb_refl. now symmetry.
      - intros j Hj Hne. destruct (nth_error ls0 j); [|reflexivity]. rewrite existsb_cons.
        apply Nat.eqb_neq in Hne. now rewrite Hne. }
    destruct w as [word|].
    - destruct (k_word l) as [w0|] eqn:Ek.
      + right. split; [reflexivity|]. split; [congruence|]. rewrite Ew. eauto.
      + left. eexists. split; [reflexivity|]. split; [intros [H _]; congruence|].
        apply Hupd. unfold moved. now rewrite Ew.
    - left. exists links. split; [reflexivity|]. split; [intros [_ [w H]]; congruence|].
      rewrite <- (Hupd l) by (unfold moved; now rewrite Ew).
      symmetry. apply nth_error_ext. intros j. rewrite nth_error_upd.
      destruct (Nat.eqb_spec j k) as [->|Hne]; [|reflexivity].
      rewrite (minv_nth _ _ _ _ k V), El, Eb.
      destruct (Nat.ltb_spec k (length links)) as [_|L]; [reflexivity|].
      apply nth_error_None in L. rewrite (minv_nth _ _ _ _ k V), El in L. discriminate. }
  destruct R as [(links' & -> & Hnc & El')|[-> Hc]]; cbn [bind].
  2: { right. split; [reflexivity|]. exists k, l. split; [exact El|]. split; [|exact Hc].
       now apply (mv_reach _ _ _ _ V). }
  assert (Nk : NoDup ((k :: done) ++ stack)).
  { pose proof (mv_nodup _ _ _ _ V) as N. cbn [app]. 
    apply NoDup_app_iff in N. destruct N as (N1 & N2 & N3). inversion N2 as [|? ? N4 N5]; subst.
    constructor; [|apply NoDup_app_iff; repeat split; auto].
    - intros H. apply in_app_or in H. tauto.
    - intros x Hx Hy. apply (N3 x Hx). now right. }
  assert (Ik : forall j, In j ((k :: done) ++ stack) <-> In j (done ++ k :: stack)).
  { intros j. cbn [app In]. rewrite !in_app_iff. cbn [In]. tauto. }
  destruct (existsb (Nat.eqb (k_end l)) visited) eqn:Ev.
  - apply existsb_In in Ev. apply (IH links' visited stack (k :: done)); [|cbn [length]; lia].
    constructor.
    + exact El'.
    + exact Nk.
    + intros j. rewrite Ik. apply (mv_in _ _ _ _ V).
    + apply (mv_ini _ _ _ _ V).
    + apply (mv_reach _ _ _ _ V).
    + intros j lj [<-|Hj] Ej; [|now apply (mv_done _ _ _ _ V j)].
      rewrite El in Ej. injection Ej as <-. auto.
  - assert (Hnv : ~ In (k_end l) visited).
    { intros H. apply existsb_In in H. congruence. }
    assert (Eo : n_out nd = links_from ls0 (k_end l)) by (destruct G as [_ H _]; now apply H).
    apply (IH links' (k_end l :: visited) (n_out nd ++ stack) (k :: done)); [|cbn [length]; lia].
    constructor.
    + exact El'.
    + rewrite Eo. 
      assert (Hfresh : forall j, In j (links_from ls0 (k_end l)) -> ~ In j (done ++ k :: stack)).
      { intros j Hj H. apply links_from_In in Hj. destruct Hj as (lj & Ej & Hj).
        apply (mv_in _ _ _ _ V) in H. destruct H as (lj' & Ej' & H). rewrite Ej in Ej'. injection Ej' as <-.
        rewrite Hj in H. contradiction. }
      apply NoDup_app_iff in Nk. destruct Nk as (N1 & N2 & N3).
      apply NoDup_app_iff. split; [exact N1|]. split.
      * apply NoDup_app_iff. split; [apply links_from_NoDup|]. split; [exact N2|].
        intros x Hx Hy. apply (Hfresh x Hx). apply Ik. apply in_or_app. now right.
      * intros x Hx Hy. apply in_app_or in Hy. destruct Hy as [Hy|Hy]; [|now apply (N3 x)].
        apply (Hfresh x Hy). apply Ik. apply in_or_app. now left.
    + intros j. rewrite Eo, in_app_iff, in_app_iff, links_from_In. cbn [In].
      pose proof (mv_in _ _ _ _ V j) as H. rewrite <- Ik in H. rewrite in_app_iff in H. cbn [In] in H.
      split.
      * intros [Hj|[(lj & Ej & Hj)|Hj]].
        -- destruct (proj1 H (or_introl Hj)) as (lj & Ej & Hlj). eauto.
        -- exists lj. auto.
        -- destruct (proj1 H (or_intror Hj)) as (lj & Ej & Hlj). eauto.
      * intros (lj & Ej & [Hj|Hj]); [right; left; eauto|].
        destruct (proj2 H (ex_intro _ lj (conj Ej Hj))) as [Hx|Hx]; tauto.
    + right. apply (mv_ini _ _ _ _ V).
    + intros v [<-|Hv]; [split; assumption|now apply (mv_reach _ _ _ _ V)].
    + intros j lj [<-|Hj] Ej.
      * rewrite El in Ej. injection Ej as <-. split; [now left|exact Hnc].
      * destruct (mv_done _ _ _ _ V j lj Hj Ej). split; [now right|assumption].
Qed.

Lemma minv_init nd : nth_error nodes ini = Some nd -> minv ls0 [ini] (n_out nd) [].
Proof.
  intros En. assert (Eo : n_out nd = links_from ls0 ini) by (destruct G as [_ H _]; now apply H).
  constructor.
  - apply nth_error_ext. intros k. rewrite nth_error_map_seq. cbn [existsb].
    destruct (Nat.ltb_spec k (length ls0)) as [L|L].
    + destruct (nth_error ls0 k) eqn:E; [reflexivity|]. apply nth_error_None in E. lia.
    + now apply nth_error_None.
  - cbn [app]. rewrite Eo. apply links_from_NoDup.
  - intros k. cbn [app]. rewrite Eo, links_from_In. split.
    + intros (l & E & H). exists l. split; [exact E|]. now left.
    + intros (l & E & [H|[]]). exists l. auto.
  - now left.
  - intros v [<-|[]]. split; [exact Hini|now left].
  - intros k l [].
Qed.

(** The links after moving: those that start from a node that can be reached have
    the words of their end nodes. *)
Lemma move_words_ok nd : nth_error nodes ini = Some nd ->
  (exists links', move_words (S (length ls0)) nodes nw ls0 [ini] (n_out nd) = Ok links' /\
     length links' = length ls0 /\
     (forall k l, nth_error ls0 k = Some l ->
        (reachable_node a0 (k_start l) -> nth_error links' k = Some (moved l) /\ ~ clash l) /\
        (~ reachable_node a0 (k_start l) -> nth_error links' k = Some l)) /\
     (forall k l, nth_error ls0 k = Some l -> nth_error links' k = Some (moved l) \/ nth_error links' k = Some l)) \/
  (move_words (S (length ls0)) nodes nw ls0 [ini] (n_out nd) = Err InputError /\
   exists l, In l ls0 /\ reachable_node a0 (k_start l) /\ clash l).
Proof.
  intros En. pose proof (minv_init nd En) as V.
  destruct (move_words_spec (S (length ls0)) _ _ _ _ V) as [(links' & visited' & done' & E & V')|[E (k & l & El & Hr & Hc)]].
  { cbn [length]. lia. }
  - left. exists links'. split; [exact E|].
    assert (Hvis : forall v, reachable_node a0 v -> In v visited').
    { assert (Hclosed : forall u v, edge a0 u v -> In u visited' -> In v visited').
      { intros u v (l & Hl & <- & <-) Hu. apply In_nth_error in Hl. destruct Hl as [k Hk]. cbn [a_links a0] in Hk.
        assert (Hd : In k (done' ++ [])) by (apply (mv_in _ _ _ _ V'); eauto).
        rewrite app_nil_r in Hd. now apply (mv_done _ _ _ _ V' k l). }
      intros v [->|Hw]; [apply (mv_ini _ _ _ _ V')|].
      assert (Hx : forall u v, walk a0 u v -> In u visited' -> In v visited').
      { clear -Hclosed. induction 1; eauto. }
      apply (Hx ini); [exact Hw|apply (mv_ini _ _ _ _ V')]. }
    assert (Hdone : forall k l, nth_error ls0 k = Some l ->
              existsb (Nat.eqb k) done' = true <-> reachable_node a0 (k_start l)).
    { intros k l El. rewrite existsb_In. rewrite <- (app_nil_r done'), (mv_in _ _ _ _ V').
      split.
      - intros (l' & E' & H). assert (l' = l) by congruence. subst l'. now apply (mv_reach _ _ _ _ V').
      - intros H. exists l. split; [exact El|]. now apply Hvis. }
    split; [|split].
    + rewrite (mv_links _ _ _ _ V'), map_length. apply seq_length.
    + intros k l El. rewrite (minv_nth _ _ _ _ k V'), El. split; intros H.
      * pose proof (proj2 (Hdone k l El) H) as Hd. rewrite Hd. split; [reflexivity|].
        apply existsb_In in Hd. now apply (mv_done _ _ _ _ V' k l).
      * destruct (existsb (Nat.eqb k) done') eqn:Hd; [|reflexivity]. apply (Hdone k l El) in Hd. contradiction.
    + intros k l El. rewrite (minv_nth _ _ _ _ k V'), El. destruct (existsb (Nat.eqb k) done'); auto.
  - right. split; [exact E|]. exists l. apply nth_error_In in El. auto.
Qed.
End Move.
