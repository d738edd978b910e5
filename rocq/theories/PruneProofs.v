(** Lemmas about recombination and pruning of tokens. *)
From Coq Require Import QArith Qcanon Sorting.Sorted Sorting.Permutation.
From Verif Require Import Base ListLib BaseLib QcLib Strings VocabModel LatticeModel LatticeSpec SortProofs
     DecoderModel DecoderSpec.
Local Open Scope nat_scope.

Section Prune.
Variable state : Type.
Variable o : options.
Notation token := (token state).
Notation total := (tk_total state).
Notation hash_of := (tk_hash state).
Notation dropped := (dropped state).
Notation dstate := (dstate state).

Lemma total_lt_asym x y : total_lt state x y = true -> total_lt state y x = false.
Proof.
  unfold total_lt. destruct (Qclt_le_dec (total x) (total y)) as [H|H]; [|discriminate]. intros _.
  destruct (Qclt_le_dec (total y) (total x)) as [G|G]; [|reflexivity].
  exfalso. exact (Qclt_not_eq _ _ (Qclt_trans _ _ _ H G) eq_refl).
Qed.
Lemma total_nlt x y : total_lt state x y = false <-> (total y <= total x)%Qc.
Proof.
  unfold total_lt. destruct (Qclt_le_dec (total x) (total y)) as [H|H].
  - split; [discriminate|]. intros G. exfalso. exact (Qclt_not_le _ _ H G).
  - tauto.
Qed.
Lemma total_nlt_trans x y z : total_lt state x y = false -> total_lt state y z = false -> total_lt state x z = false.
Proof. rewrite !total_nlt. intros H G. eapply Qcle_trans; eassumption. Qed.

(** In descending order of total *)
Definition by_total (l : list token) : Prop := StronglySorted (fun x y => (total y <= total x)%Qc) l.

Lemma desc_by_total l : desc (total_lt state) l -> by_total l.
Proof.
  unfold desc, by_total. induction 1 as [|x l _ IH H]; constructor; [exact IH|].
  eapply Forall_impl; [|exact H]. intros y. apply total_nlt.
Qed.
Lemma by_total_app l l' : by_total (l ++ l') -> by_total l /\ by_total l' /\
  forall x y, In x l -> In y l' -> (total y <= total x)%Qc.
Proof.
  unfold by_total. induction l as [|x l IH]; cbn; intros H; [split; [constructor|]; split; [exact H|]; intros ? ? []|].
  apply StronglySorted_inv in H as [H Hx]. destruct (IH H) as (A & B & C).
  apply Forall_app in Hx as [Hx1 Hx2]. split; [now constructor|]. split; [exact B|].
  intros y z [<-|Hy] Hz; [|now apply C]. rewrite Forall_forall in Hx2. auto.
Qed.

(** ** Recombination *)

(** Each dropped token is reported with the history and network score of a kept one
    with the same hash and at least the same total. *)
Definition covered (kept : list token) (x : dropped) : Prop :=
  let '(t, h, nn) := x in
  exists k, In k kept /\ hash_of k = hash_of t /\ tk_history _ k = h /\ tk_nn _ k = nn /\
            (total t <= total k)%Qc.

Lemma recombine_spec sorted : forall kept rc kept' rc',
  by_total (kept ++ sorted) -> NoDup (map hash_of kept) ->
  fold_left (recombine_one state) sorted (kept, rc) = (kept', rc') ->
  exists more new, kept' = kept ++ more /\ rc' = rc ++ new /\ by_total kept' /\ NoDup (map hash_of kept') /\
    Permutation sorted (more ++ map (fun x => fst (fst x)) new) /\ Forall (covered kept') new /\
    (sorted <> [] -> kept' <> []).
Proof.
  induction sorted as [|t sorted IH]; intros kept rc kept' rc' S N E; cbn [fold_left] in E.
  - injection E as <- <-. exists [], []. rewrite !app_nil_r in *. split; [reflexivity|]. split; [reflexivity|]. split; [exact S|]. split; [exact N|].
    split; [reflexivity|]. split; [constructor|tauto].
  - unfold recombine_one at 2 in E.
    destruct (find (fun k => Z.eqb (hash_of k) (hash_of t)) kept) as [k|] eqn:F.
    + apply find_some in F as [Hk Hh]. apply Z.eqb_eq in Hh.
      assert (Htk : (total t <= total k)%Qc).
      { apply by_total_app in S as (_ & _ & C). apply C; [exact Hk|now left]. }
      assert (S' : by_total (kept ++ sorted)).
      { clear -S. induction kept as [|x kept IH]; cbn in *.
        - now apply StronglySorted_inv in S.
        - apply StronglySorted_inv in S as [S Hx]. constructor; [now apply IH|].
          apply Forall_app in Hx as [H1 H2]. inversion H2; subst. apply Forall_app. auto. }
      destruct (IH _ _ _ _ S' N E) as (more & new & -> & -> & B & D & P & C & _).
      exists more, ((t, tk_history _ k, tk_nn _ k) :: new). split; [reflexivity|].
      split; [now rewrite <- app_assoc|]. split; [exact B|]. split; [exact D|]. split.
      * cbn [map fst]. rewrite P. apply Permutation_middle.
      * split; [|intros _; destruct kept; [destruct Hk|discriminate]].
        constructor; [|exact C]. exists k. split; [apply in_or_app; auto|]. auto.
    + pose proof (find_none _ _ F) as Fn. cbv beta in Fn.
      assert (N' : NoDup (map hash_of (kept ++ [t]))).
      { rewrite map_app. cbn [map]. apply NoDup_app_iff. split; [exact N|]. split; [constructor; [intros []|constructor]|].
        intros x Hx [<-|[]]. apply in_map_iff in Hx as (k & Ek & Hk).
        specialize (Fn k Hk). apply Z.eqb_neq in Fn. congruence. }
      assert (S' : by_total ((kept ++ [t]) ++ sorted)) by now rewrite <- app_assoc.
      destruct (IH _ _ _ _ S' N' E) as (more & new & -> & -> & B & D & P & C & _).
      exists (t :: more), new. rewrite <- app_assoc in *. cbn [app] in *. split; [reflexivity|].
      split; [reflexivity|]. split; [exact B|]. split; [exact D|]. split; [now constructor|].
      split; [exact C|]. intros _. now destruct kept.
Qed.

Lemma sorted_recombined_spec tokens rc kept rc' :
  sorted_recombined state tokens rc = (kept, rc') ->
  exists new, rc' = rc ++ new /\ by_total kept /\ NoDup (map hash_of kept) /\
    Permutation tokens (kept ++ map (fun x => fst (fst x)) new) /\ Forall (covered kept) new /\
    (tokens <> [] -> kept <> []).
Proof.
  unfold sorted_recombined. intros E.
  assert (P0 : Permutation (sort_desc (total_lt state) tokens) tokens) by apply sort_desc_perm.
  apply recombine_spec in E as (more & new & -> & -> & B & D & P & C & Ne).
  - cbn [app] in *. exists new. split; [reflexivity|]. split; [exact B|]. split; [exact D|].
    split; [now rewrite <- P0|]. split; [exact C|]. intros H. apply Ne. intros G. rewrite G in P0.
    apply Permutation_nil in P0. congruence.
  - cbn [app]. apply desc_by_total. apply sort_desc_sorted; [exact total_lt_asym|exact total_nlt_trans].
  - constructor.
Qed.

Lemma recombined_In tokens rc kept rc' t :
  sorted_recombined state tokens rc = (kept, rc') -> In t kept -> In t tokens.
Proof.
  intros E H. apply sorted_recombined_spec in E as (new & _ & _ & _ & P & _).
  eapply Permutation_in; [symmetry; exact P|]. apply in_or_app. auto.
Qed.
Lemma recombined_cover tokens rc kept rc' t :
  sorted_recombined state tokens rc = (kept, rc') -> In t tokens ->
  exists k, In k kept /\ hash_of k = hash_of t /\ (total t <= total k)%Qc.
Proof.
  intros E H. apply sorted_recombined_spec in E as (new & _ & _ & _ & P & C & _).
  apply (Permutation_in _ P) in H. apply in_app_or in H as [H|H].
  - exists t. split; [exact H|]. split; [reflexivity|apply Qcle_refl].
  - apply in_map_iff in H as ([[x h] nn] & <- & Hx). rewrite Forall_forall in C.
    destruct (C _ Hx) as (k & H1 & H2 & _ & _ & H3). eauto.
Qed.

(** ** Pruning *)

Lemma drop_worst_spec th l : exists gone, l = gone ++ drop_worst state th l /\
  (forall t, In t gone -> (total t <= th)%Qc) /\
  (l <> [] -> drop_worst state th l <> []) /\
  match drop_worst state th l with [] | [_] => True | t :: _ => (th < total t)%Qc end.
Proof.
  induction l as [|t l IH]; [exists []; cbn; intuition|]. cbn [drop_worst].
  destruct l as [|u l]; [exists []; cbn; intuition; discriminate|].
  destruct (Qclt_le_dec th (total t)) as [H|H].
  - exists []. split; [reflexivity|]. split; [intros ? []|]. split; [discriminate|exact H].
  - destruct IH as (gone & E & H1 & H2 & H3). exists (t :: gone). split; [cbn [app]; now rewrite <- E|].
    split; [intros x [<-|Hx]; auto|]. split; [|exact H3]. intros _. apply H2. discriminate.
Qed.

Lemma beam_spec th l : exists gone,
  l = rev (drop_worst state th (rev l)) ++ gone /\
  (forall t, In t gone -> (total t <= th)%Qc) /\
  (l <> [] -> rev (drop_worst state th (rev l)) <> []).
Proof.
  destruct (drop_worst_spec th (rev l)) as (gone & E & H1 & H2 & _).
  exists (rev gone). split; [|split].
  - apply (f_equal (@rev _)) in E. rewrite rev_involutive, rev_app_distr in E. exact E.
  - intros t Ht. apply in_rev in Ht. auto.
  - intros Hl G. apply H2.
    + intros G'. apply Hl. rewrite <- (rev_involutive l), G'. reflexivity.
    + apply (f_equal (@rev _)) in G. now rewrite rev_involutive in G.
Qed.
Lemma beam_keeps th l : by_total l -> forall t, In t (tl (rev (drop_worst state th (rev l)))) -> (th < total t)%Qc.
Proof.
  intros S t Ht. destruct (drop_worst_spec th (rev l)) as (gone & E & _ & _ & H).
  set (k := drop_worst state th (rev l)) in *.
  assert (El : l = rev k ++ rev gone).
  { apply (f_equal (@rev _)) in E. now rewrite rev_involutive, rev_app_distr in E. }
  destruct k as [|x [|y k]]; [destruct Ht|destruct Ht|].
  rewrite El in S. apply by_total_app in S as (S & _).
  cbn [rev] in S, Ht.
  assert (Hx : In t (rev k ++ [y]) -> (total x <= total t)%Qc).
  { intros Hin. apply by_total_app in S as (_ & _ & C). apply C; [exact Hin|now left]. }
  assert (Ht' : In t ((rev k ++ [y]) ++ [x])).
  { destruct ((rev k ++ [y]) ++ [x]); [destruct Ht|now right]. }
  apply in_app_or in Ht' as [Ht'|[<-|[]]]; [|exact H].
  eapply Qclt_le_trans; [exact H|auto].
Qed.

Lemma py_prefix_spec {A} (l : list A) k : exists gone, l = py_prefix l k ++ gone /\
  ((0 <= k)%Z -> (Z.of_nat (length (py_prefix l k)) <= k)%Z /\
                 (gone <> [] -> Z.of_nat (length (py_prefix l k)) = k)).
Proof.
  unfold py_prefix. destruct (Z.ltb_spec k 0).
  - exists (skipn (Z.to_nat (Z.of_nat (length l) + k)) l). rewrite firstn_skipn. split; [reflexivity|lia].
  - exists (skipn (Z.to_nat k) l). rewrite firstn_skipn. split; [reflexivity|].
    rewrite firstn_length. split; [lia|]. intros Hg.
    assert (Z.to_nat k < length l); [|lia].
    destruct (Nat.le_gt_cases (length l) (Z.to_nat k)) as [L|L]; [|exact L].
    exfalso. apply Hg. now apply skipn_all2.
Qed.

(** What pruning a node does: the tokens are recombined and sorted, and the worst
    ones are dropped. *)
Lemma prune_spec nodes sorted i st st' :
  prune state o nodes sorted i st = Ok st' ->
  exists tokens recombined new kept gone divider,
    nth_error (d_tokens _ st) i = Some tokens /\ tokens <> [] /\
    sorted_recombined state tokens (d_recomb _ st) = (recombined, d_recomb _ st ++ new) /\
    recombined = kept ++ gone /\
    limit_divider o (length sorted) = Ok divider /\
    st' = mkDstate state (upd (d_tokens _ st) i kept) (d_best _ st) (d_recomb _ st ++ new) /\
    (o_beam o = None -> o_max_tokens o = None -> gone = []) /\
    ((o_max_tokens o = None \/ exists m, o_max_tokens o = Some m /\ (1 <= Z.max (m / divider) (abs_min_max_tokens o))%Z) ->
     kept <> []).
Proof.
  unfold prune. unfold py_index at 1. destruct (nth_error (d_tokens _ st) i) as [tokens|] eqn:Et; cbn [bind]; [|discriminate].
  destruct tokens as [|t0 ts] eqn:Ets; [discriminate|]. rewrite <- Ets in *.
  assert (Hne : tokens <> []) by (rewrite Ets; discriminate). clear Ets t0 ts.
  destruct (limit_divider o (length sorted)) as [divider|] eqn:Ed; cbn [bind]; [|discriminate].
  destruct (sorted_recombined state tokens (d_recomb _ st)) as [rec rc'] eqn:Er.
  destruct (sorted_recombined_spec _ _ _ _ Er) as (new & -> & _ & _ & _ & _ & Hrec). specialize (Hrec Hne).
  destruct (match o_beam o with None => _ | Some _ => _ end) as [after|] eqn:Eb; cbn [bind]; [|discriminate].
  assert (B : exists gone1, rec = after ++ gone1 /\ after <> [] /\ (o_beam o = None -> gone1 = [])).
  { destruct (o_beam o) as [beam|].
    - destruct (time_begin nodes sorted i) as [b|]; cbn [bind] in Eb; [|discriminate].
      destruct (b <? length sorted); [|discriminate].
      destruct (mapM _ _) as [bests|]; cbn [bind] in Eb; [|discriminate].
      destruct (max_best bests) as [best|]; cbn [bind] in Eb; [|discriminate].
      injection Eb as <-.
      match goal with |- context [drop_worst state ?th (rev rec)] => destruct (beam_spec th rec) as (g & E1 & _ & E3) end.
      exists g. split; [exact E1|]. split; [now apply E3|discriminate].
    - injection Eb as <-. exists []. rewrite app_nil_r. auto. }
  destruct B as (g1 & E1 & Ha & Hg1). intros [= <-].
  destruct (o_max_tokens o) as [m|] eqn:Em.
  - destruct (py_prefix_spec after (Z.max (m / divider) (abs_min_max_tokens o))) as (g2 & E2 & H2).
    exists tokens, rec, new, (py_prefix after (Z.max (m / divider) (abs_min_max_tokens o))), (g2 ++ g1), divider.
    assert (E3 : rec = py_prefix after (Z.max (m / divider) (abs_min_max_tokens o)) ++ g2 ++ g1).
    { rewrite app_assoc, <- E2. exact E1. }
    refine (conj eq_refl (conj Hne (conj Er (conj E3 (conj eq_refl (conj eq_refl (conj _ _))))))); [discriminate|].
    intros [H|(m' & [= <-] & H)]; [discriminate|]. destruct H2 as [_ H2]; [lia|].
    intros G. rewrite G in E2, H2. cbn [app length] in *. subst g2. specialize (H2 Ha). lia.
  - exists tokens, rec, new, after, g1, divider.
    refine (conj eq_refl (conj Hne (conj Er (conj E1 (conj eq_refl (conj eq_refl (conj _ _))))))); auto.
Qed.
End Prune.
