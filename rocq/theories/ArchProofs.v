(** Proofs about saving, loading and checking architectures. *)
From Coq Require Import Sorting.Permutation Sorting.Sorted.
From Verif Require Import Base BaseLib ListLib Strings Dict NumStr ArchModel ArchSpec.
Local Open Scope nat_scope.

(** ** What a saved state looks like *)
Definition numbered {A} (i : nat) (l : list A) : list (pystr * A) :=
  combine (map str_of_nat (seq i (length l))) l.

Lemma numbered_cons {A} i (x : A) l : numbered i (x :: l) = (str_of_nat i, x) :: numbered (S i) l.
Proof. reflexivity. Qed.
Lemma numbered_keys {A} (l : list A) : forall i, map fst (numbered i l) = map str_of_nat (seq i (length l)).
Proof. induction l as [|x l IH]; intros i; [reflexivity|]. rewrite numbered_cons. cbn [map length seq fst]. now rewrite IH. Qed.
Lemma numbered_nodup {A} (l : list A) i : NoDup (map fst (numbered i l)).
Proof.
  rewrite numbered_keys. apply FinFun.Injective_map_NoDup; [|apply seq_NoDup].
  intros a b. apply str_of_nat_inj.
Qed.
Lemma numbered_not_in {A} (l : list A) i j : ~ (i <= j < i + length l) -> ~ In (str_of_nat j) (map fst (numbered i l)).
Proof.
  rewrite numbered_keys. intros H I. apply in_map_iff in I as (k & E & I). apply in_seq in I.
  apply str_of_nat_inj in E. subst. lia.
Qed.
Lemma oget_numbered {A} (l : list A) : forall i j,
  oget (numbered i l) (str_of_nat (i + j)) = nth_error l j.
Proof.
  induction l as [|x l IH]; intros i j; [destruct j; reflexivity|].
  rewrite numbered_cons. unfold oget. cbn [dict_get]. destruct (pystr_eq_dec (str_of_nat (i + j)) (str_of_nat i)) as [E|E].
  - apply str_of_nat_inj in E. assert (j = 0) as -> by lia. reflexivity.
  - destruct j as [|j]; [exfalso; apply E; f_equal; lia|]. cbn [nth_error]. rewrite <- (IH (S i) j).
    unfold oget. f_equal. f_equal. lia.
Qed.
Lemma oget_numbered0 {A} (l : list A) j : oget (numbered 0 l) (str_of_nat j) = nth_error l j.
Proof. exact (oget_numbered l 0 j). Qed.

Lemma write_elements_new vs : forall attrs i,
  (forall j, i <= j -> ~ In (str_of_nat j) (map fst attrs)) ->
  write_elements attrs i vs = attrs ++ numbered i vs.
Proof.
  induction vs as [|v vs IH]; intros attrs i H; cbn [write_elements].
  - unfold numbered. cbn. now rewrite app_nil_r.
  - rewrite numbered_cons. unfold oset. rewrite dict_set_keys_new by (apply H; lia). rewrite IH.
    + now rewrite <- app_assoc.
    + intros j Hj. rewrite map_app, in_app_iff. cbn [map fst In]. intros [I|[E|[]]].
      * revert I. apply H. lia.
      * apply str_of_nat_inj in E. lia.
Qed.

Lemma oset_same {V} (d : list (pystr * V)) k v : oget d k = Some v -> oset d k v = d.
Proof.
  unfold oget, oset. induction d as [|[k0 v0] d IH]; cbn [dict_get dict_set]; [discriminate|].
  destruct (pystr_eq_dec k k0) as [->|Hk]; [congruence|]. intros E. now rewrite IH.
Qed.

Lemma write_elements_old vs : forall attrs i,
  (forall j v, nth_error vs j = Some v -> oget attrs (str_of_nat (i + j)) = Some v) ->
  write_elements attrs i vs = attrs.
Proof.
  induction vs as [|v vs IH]; intros attrs i H; cbn [write_elements]; [reflexivity|].
  rewrite oset_same.
  - apply IH. intros j v' E. replace (S i + j) with (i + S j) by lia. now apply H.
  - replace i with (i + 0) by lia. now apply H.
Qed.

Definition strings_of (o : options) : list (pystr * scalar) :=
  flat_map (fun kv => match snd kv with One v => [(fst kv, v)] | Many _ => [] end) o.
Definition lists_of (o : options) : list (pystr * list (pystr * scalar)) :=
  flat_map (fun kv => match snd kv with One _ => [] | Many vs => [(fst kv, numbered 0 vs)] end) o.
Definition saved_group (o : options) : group := mkGroup (strings_of o) (lists_of o).

Lemma strings_keys o k : In k (map fst (strings_of o)) -> In k (map fst o).
Proof.
  unfold strings_of. rewrite in_map_iff. intros ((k', v) & <- & I). apply in_flat_map in I as ((k0 & [v0|vs]) & I & J).
  - destruct J as [J|[]]. injection J as <- <-. apply in_map_iff. now exists (k0, One v0).
  - destruct J.
Qed.
Lemma lists_keys o k : In k (map fst (lists_of o)) -> In k (map fst o).
Proof.
  unfold lists_of. rewrite in_map_iff. intros ((k', v) & <- & I). apply in_flat_map in I as ((k0 & [v0|vs]) & I & J).
  - destruct J.
  - destruct J as [J|[]]. injection J as <- <-. apply in_map_iff. now exists (k0, Many vs).
Qed.
Lemma flat_map_keys_nodup {V W} (f : pystr * V -> list (pystr * W)) o :
  (forall kv, f kv = [] \/ exists w, f kv = [(fst kv, w)]) -> NoDup (map fst o) -> NoDup (map fst (flat_map f o)).
Proof.
  intros Hf. induction o as [|[k v] o IH]; cbn [flat_map map fst]; intros N; [constructor|].
  inversion N as [|x l Hx Hl]; subst. specialize (IH Hl).
  destruct (Hf (k, v)) as [->|[w ->]]; [exact IH|]. cbn [app map fst]. constructor; [|exact IH].
  rewrite in_map_iff. intros ((k', w') & E & I). cbn in E. subst k'. apply Hx.
  apply in_flat_map in I as ((k0, v0) & I0 & I1). destruct (Hf (k0, v0)) as [E|[w0 E]]; rewrite E in I1; [destruct I1|].
  destruct I1 as [I1|[]]. injection I1 as -> _. apply in_map_iff. now exists (k, v0).
Qed.
Lemma strings_nodup o : dictionary o -> NoDup (map fst (strings_of o)).
Proof. apply flat_map_keys_nodup. intros [k [v|vs]]; cbn; eauto. Qed.
Lemma lists_nodup o : dictionary o -> NoDup (map fst (lists_of o)).
Proof. apply flat_map_keys_nodup. intros [k [v|vs]]; cbn; eauto. Qed.

Lemma oget_none {V} (d : list (pystr * V)) k : ~ In k (map fst d) -> oget d k = None.
Proof. intros H. now apply dict_get_none. Qed.

Lemma oget_strings o k : dictionary o ->
  oget (strings_of o) k = match option_value o k with Some (One v) => Some v | _ => None end.
Proof.
  unfold dictionary. induction o as [|[k0 v0] o IH]; cbn [map fst]; intros N; [reflexivity|].
  inversion N as [|x l Hx Hl]; subst. specialize (IH Hl).
  unfold option_value in *. cbn [dict_get]. unfold strings_of. cbn [flat_map fst snd]. fold (strings_of o).
  destruct (pystr_eq_dec k k0) as [->|Hk].
  - destruct v0 as [v0|vs].
    + unfold oget. cbn [app dict_get]. destruct (pystr_eq_dec k0 k0); congruence.
    + cbn [app]. apply oget_none. intros I. now apply strings_keys in I.
  - destruct v0 as [v0|vs]; cbn [app]; [|exact IH].
    unfold oget. cbn [dict_get]. destruct (pystr_eq_dec k k0); [congruence|]. exact IH.
Qed.
Lemma oget_lists o k : dictionary o ->
  oget (lists_of o) k = match option_value o k with Some (Many vs) => Some (numbered 0 vs) | _ => None end.
Proof.
  unfold dictionary. induction o as [|[k0 v0] o IH]; cbn [map fst]; intros N; [reflexivity|].
  inversion N as [|x l Hx Hl]; subst. specialize (IH Hl).
  unfold option_value in *. cbn [dict_get]. unfold lists_of. cbn [flat_map fst snd]. fold (lists_of o).
  destruct (pystr_eq_dec k k0) as [->|Hk].
  - destruct v0 as [v0|vs].
    + cbn [app]. apply oget_none. intros I. now apply lists_keys in I.
    + unfold oget. cbn [app dict_get]. destruct (pystr_eq_dec k0 k0); congruence.
  - destruct v0 as [v0|vs]; cbn [app]; [exact IH|].
    unfold oget. cbn [dict_get]. destruct (pystr_eq_dec k k0); [congruence|]. exact IH.
Qed.

Lemma strings_app a b : strings_of (a ++ b) = strings_of a ++ strings_of b.
Proof. apply flat_map_app. Qed.
Lemma lists_app a b : lists_of (a ++ b) = lists_of a ++ lists_of b.
Proof. apply flat_map_app. Qed.

Lemma write_dict_from done o : dictionary (done ++ o) ->
  fold_left write_option o (saved_group done) = saved_group (done ++ o).
Proof.
  unfold dictionary. revert done. induction o as [|[k v] o IH]; intros done N; cbn [fold_left].
  - now rewrite app_nil_r.
  - replace (done ++ (k, v) :: o) with ((done ++ [(k, v)]) ++ o) in * by now rewrite <- app_assoc.
    rewrite <- IH by exact N. f_equal.
    assert (Hk : ~ In k (map fst done)).
    { intros I. rewrite <- app_assoc, map_app in N. apply NoDup_app_iff in N as (_ & _ & D). 
      apply (D k I). left. reflexivity. }
    unfold saved_group. rewrite strings_app, lists_app. destruct v as [v|vs]; cbn [write_option g_attrs g_lists].
    + f_equal; [|cbn; now rewrite app_nil_r]. unfold oset. rewrite dict_set_keys_new; [reflexivity|].
      intros I. now apply strings_keys in I.
    + f_equal; [cbn; now rewrite app_nil_r|]. unfold require, oset. rewrite dict_set_keys_new by (intros I; now apply lists_keys in I).
      rewrite oget_none by (intros I; now apply lists_keys in I). rewrite write_elements_new by (intros j _ []). reflexivity.
Qed.
Lemma write_dict_new o : dictionary o -> write_dict empty_group o = saved_group o.
Proof. intros N. exact (write_dict_from [] o N). Qed.

Lemma write_option_old g o kv : dictionary o -> In kv o -> g = saved_group o -> write_option g kv = g.
Proof.
  intros N I ->. destruct kv as [k [v|vs]]; cbn [write_option saved_group g_attrs g_lists].
  - rewrite oset_same; [reflexivity|]. rewrite oget_strings by exact N.
    unfold option_value. now rewrite (dict_in_get _ _ _ _ N I).
  - assert (E : oget (lists_of o) k = Some (numbered 0 vs)).
    { rewrite oget_lists by exact N. unfold option_value. now rewrite (dict_in_get _ _ _ _ N I). }
    unfold require. rewrite E, write_elements_old; [now rewrite oset_same|].
    intros j v Hj. cbn [Nat.add]. now rewrite oget_numbered0.
Qed.
Lemma write_dict_old o : dictionary o -> write_dict (saved_group o) o = saved_group o.
Proof.
  intros N. unfold write_dict. cut (forall l, incl l o -> fold_left write_option l (saved_group o) = saved_group o).
  - intros H. apply H. apply incl_refl.
  - induction l as [|kv l IH]; intros H; cbn [fold_left]; [reflexivity|].
    rewrite (write_option_old _ o kv N); [apply IH; intros x I; apply H; now right|apply H; now left|reflexivity].
Qed.

Lemma write_dicts_new os : Forall dictionary os -> forall d i,
  (forall j, i <= j -> ~ In (str_of_nat j) (map fst d)) ->
  write_dicts d i os = d ++ numbered i (map saved_group os).
Proof.
  induction 1 as [|o os Ho Hos IH]; intros d i H; cbn [write_dicts map].
  - unfold numbered. cbn. now rewrite app_nil_r.
  - rewrite numbered_cons. unfold require, oset. rewrite oget_none by (apply H; lia).
    rewrite dict_set_keys_new by (apply H; lia). rewrite write_dict_new by exact Ho. rewrite IH.
    + now rewrite <- app_assoc.
    + intros j Hj. rewrite map_app, in_app_iff. cbn [map fst In]. intros [I|[E|[]]].
      * revert I. apply H. lia.
      * apply str_of_nat_inj in E. lia.
Qed.
Lemma write_dicts_old os : Forall dictionary os -> forall d i,
  (forall j o, nth_error os j = Some o -> oget d (str_of_nat (i + j)) = Some (saved_group o)) ->
  write_dicts d i os = d.
Proof.
  induction 1 as [|o os Ho Hos IH]; intros d i H; cbn [write_dicts]; [reflexivity|].
  assert (E : oget d (str_of_nat i) = Some (saved_group o)).
  { specialize (H 0 o eq_refl). now rewrite Nat.add_0_r in H. }
  unfold require. rewrite E, write_dict_old by exact Ho. rewrite oset_same by exact E.
  apply IH. intros j o' Hj. replace (S i + j) with (i + S j) by lia. now apply H.
Qed.

Definition saved (a : architecture) : h5_state :=
  Some (mkH5 (Some (numbered 0 (map saved_group (a_inputs a))))
             (Some (numbered 0 (map saved_group (a_layers a)))) (Some (a_output a))).

Lemma get_state_new a : valid a -> get_state a None = saved a.
Proof.
  intros V. unfold get_state, saved, empty_h5. cbn [h_inputs h_layers].
  rewrite !write_dicts_new; try apply V; try (intros j _ []). reflexivity.
Qed.
Lemma get_state_old a : valid a -> get_state a (saved a) = saved a.
Proof.
  intros V. unfold get_state, saved. cbn [h_inputs h_layers].
  rewrite !write_dicts_old; try apply V; [reflexivity|..];
    (intros j o E; cbn [Nat.add]; rewrite oget_numbered0; now apply map_nth_error).
Qed.

(** ** Sorting *)
Lemma insert_by_perm {A} (leb : A -> A -> bool) x l : Permutation (x :: l) (insert_by leb x l).
Proof.
  induction l as [|y l IH]; cbn [insert_by]; [reflexivity|]. destruct (leb x y); [reflexivity|].
  rewrite perm_swap. now apply perm_skip.
Qed.
Lemma sort_by_perm {A} (leb : A -> A -> bool) l : Permutation l (sort_by leb l).
Proof. induction l as [|x l IH]; cbn [sort_by]; [reflexivity|]. rewrite <- insert_by_perm. now apply perm_skip. Qed.
Lemma insert_by_sorted {A} (leb : A -> A -> bool) (R : A -> A -> Prop) x l :
  (forall a b, leb a b = true -> R a b) -> (forall a b, leb a b = false -> R b a) ->
  (forall a b c, R a b -> R b c -> R a c) ->
  StronglySorted R l -> StronglySorted R (insert_by leb x l).
Proof.
  intros Ht Hf Tr. induction 1 as [|y l Hl IH Hy]; cbn [insert_by]; [constructor; constructor|].
  destruct (leb x y) eqn:E.
  - constructor; [now constructor|]. constructor; [now apply Ht|].
    eapply Forall_impl; [|exact Hy]. intros z Hz. eapply Tr; [|exact Hz]. now apply Ht.
  - constructor; [exact IH|]. eapply Permutation_Forall; [apply insert_by_perm|].
    constructor; [now apply Hf|exact Hy].
Qed.
Lemma sort_by_sorted {A} (leb : A -> A -> bool) (R : A -> A -> Prop) l :
  (forall a b, leb a b = true -> R a b) -> (forall a b, leb a b = false -> R b a) ->
  (forall a b c, R a b -> R b c -> R a c) -> StronglySorted R (sort_by leb l).
Proof. intros. induction l as [|x l IH]; cbn [sort_by]; [constructor|]. now apply insert_by_sorted. Qed.
Lemma sort_by_map {A B} (leb : B -> B -> bool) (f : A -> B) l :
  sort_by leb (map f l) = map f (sort_by (fun a b => leb (f a) (f b)) l).
Proof.
  assert (I : forall x l, insert_by leb (f x) (map f l) = map f (insert_by (fun a b => leb (f a) (f b)) x l)).
  { intros x. induction l0 as [|y l0 IH]; cbn [map insert_by]; [reflexivity|].
    destruct (leb (f x) (f y)); [reflexivity|]. cbn [map]. now rewrite IH. }
  induction l as [|x l IH]; cbn [map sort_by]; [reflexivity|]. now rewrite IH, I.
Qed.

Lemma str_leb_true a : forall b, str_leb a b = true -> lex_le a b.
Proof.
  induction a as [|c a IH]; intros [|d b]; cbn [str_leb]; intros H; try apply lex_nil; try discriminate.
  destruct (N.ltb_spec c d); [now apply lex_less|]. destruct (N.eqb_spec c d); [subst; apply lex_same; auto|discriminate].
Qed.
Lemma str_leb_false a : forall b, str_leb a b = false -> lex_le b a.
Proof.
  induction a as [|c a IH]; intros [|d b]; cbn [str_leb]; intros H; try apply lex_nil; try discriminate.
  destruct (N.ltb_spec c d); [discriminate|]. destruct (N.eqb_spec c d); [subst; apply lex_same; auto|].
  apply lex_less. lia.
Qed.
Lemma lex_trans a b c : lex_le a b -> lex_le b c -> lex_le a c.
Proof.
  intros H. revert c. induction H as [b|c0 d0 a0 b0 Hlt|c0 a0 b0 Hab IH]; intros c Hc; [constructor|..].
  - inversion Hc; subst; apply lex_less; lia.
  - inversion Hc; subst; [now apply lex_less|apply lex_same; auto].
Qed.
Lemma lex_antisym a b : lex_le a b -> lex_le b a -> a = b.
Proof.
  induction 1 as [b|c0 d0 a0 b0 Hlt|c0 a0 b0 Hab IH]; intros H; inversion H; subst; auto; try lia.
  f_equal; auto.
Qed.

Definition order (n : nat) : list nat :=
  sort_by (fun i j => str_leb (str_of_nat i) (str_of_nat j)) (seq 0 n).
Lemma order_ok n : string_order n (order n).
Proof.
  split; [symmetry; apply sort_by_perm|].
  apply sort_by_sorted.
  - intros a b. apply str_leb_true.
  - intros a b. apply str_leb_false.
  - intros a b c. apply lex_trans.
Qed.

Lemma sorted_unique {A} (R : A -> A -> Prop) l l' :
  (forall a b, R a b -> R b a -> a = b) -> StronglySorted R l -> StronglySorted R l' -> Permutation l l' -> l = l'.
Proof.
  intros An S1. revert l'. induction S1 as [|x l Hl IH Hx]; intros l' S2 P.
  - apply Permutation_nil in P. now subst.
  - destruct l' as [|y l']; [symmetry in P; apply Permutation_nil_cons in P as []|].
    inversion S2 as [|y0 l0 Hl' Hy]; subst.
    assert (x = y).
    { assert (Ix : In x (y :: l')) by (eapply Permutation_in; [exact P|now left]).
      assert (Iy : In y (x :: l)) by (eapply Permutation_in; [symmetry; exact P|now left]).
      destruct Ix as [->|Ix]; [reflexivity|]. destruct Iy as [->|Iy]; [reflexivity|].
      rewrite Forall_forall in Hx, Hy. auto. }
    subst y. f_equal. apply IH; [exact Hl'|]. now apply Permutation_cons_inv in P.
Qed.
Lemma string_order_unique n l l' : string_order n l -> string_order n l' -> l = l'.
Proof.
  intros [P1 S1] [P2 S2]. eapply sorted_unique; [|exact S1|exact S2|].
  - intros a b H1 H2. apply str_of_nat_inj. now apply lex_antisym.
  - now rewrite P1, P2.
Qed.
Lemma order_small n : n <= 10 -> order n = seq 0 n.
Proof. intros H. do 11 (destruct n as [|n]; [reflexivity|]). lia. Qed.

Lemma sorted_before {A} (R : A -> A -> Prop) l i j a b :
  StronglySorted R l -> nth_error l i = Some a -> nth_error l j = Some b -> i < j -> R a b.
Proof.
  intros S1. revert i j. induction S1 as [|x l Hl IH Hx]; intros i j Ei Ej H; [destruct i; discriminate|].
  destruct j as [|j]; [lia|]. destruct i as [|i]; cbn [nth_error] in *.
  - injection Ei as <-. rewrite Forall_forall in Hx. apply Hx. now apply nth_error_In in Ej.
  - apply (IH i j); auto. lia.
Qed.
Lemma order_large n l : 10 < n -> string_order n l -> l <> seq 0 n.
Proof.
  intros H [_ Srt] ->. assert (L : lex_le (str_of_nat 2) (str_of_nat 10)).
  { apply (sorted_before (fun i j => lex_le (str_of_nat i) (str_of_nat j)) (seq 0 n) 2 10 2 10 Srt); try lia; rewrite nth_error_seq;
      (destruct (Nat.ltb_spec 2 n); destruct (Nat.ltb_spec 10 n); try reflexivity; lia). }
  vm_compute in L. inversion L; subst. discriminate.
Qed.

(** ** Loading *)
Lemma lookup_numbered {A} (l : list A) i x : nth_error l i = Some x -> lookup (numbered 0 l) (str_of_nat i) = Ok x.
Proof. intros E. unfold lookup. now rewrite oget_numbered0, E. Qed.

Lemma load_numbered {A G B} (h : A -> G) (f : G -> result B) (R : A -> B -> Prop) (l : list A) (ids : list nat) :
  (forall x, In x l -> exists y, f (h x) = Ok y /\ R x y) -> (forall i, In i ids -> i < length l) ->
  exists ys, mapM (fun id => do g <- lookup (numbered 0 (map h l)) (str_of_nat id); f g) ids = Ok ys /\
    Forall2 (fun i y => exists x, nth_error l i = Some x /\ R x y) ids ys.
Proof.
  intros Hf. induction ids as [|i ids IH]; intros Hi; cbn [mapM].
  - exists []. split; [reflexivity|constructor].
  - destruct (nth_error l i) as [x|] eqn:Ex.
    2: { apply nth_error_None in Ex. specialize (Hi i (or_introl eq_refl)). lia. }
    destruct IH as (ys & E & F); [intros j Hj; apply Hi; now right|].
    destruct (Hf x (nth_error_In _ _ Ex)) as (y & Ey & Ry).
    exists (y :: ys). rewrite (lookup_numbered _ _ _ (map_nth_error h _ _ Ex)). cbn [bind]. rewrite Ey. cbn [bind]. rewrite E. cbn [bind].
    split; [reflexivity|]. constructor; eauto.
Qed.
Lemma mapM_map {A B C} (f : B -> result C) (g : A -> B) l : mapM f (map g l) = mapM (fun x => f (g x)) l.
Proof. induction l as [|x l IH]; cbn [map mapM]; [reflexivity|]. now rewrite IH. Qed.
Lemma mapM_ext {A B} (f g : A -> result B) l : (forall x, f x = g x) -> mapM f l = mapM g l.
Proof. intros H. induction l as [|x l IH]; cbn [mapM]; [reflexivity|]. now rewrite H, IH. Qed.
Lemma order_bound n i : In i (order n) -> i < n.
Proof. intros I. apply (Permutation_in i (proj1 (order_ok n))) in I. apply in_seq in I. lia. Qed.

Lemma read_elements_ok vs : exists vs', read_elements (numbered 0 vs) = Ok vs' /\ reordered eq vs vs'.
Proof.
  unfold read_elements. rewrite numbered_keys, sort_by_map. fold (order (length vs)).
  destruct (load_numbered (fun x => x) (fun x => Ok x) eq vs (order (length vs))) as (ys & E & F).
  - intros x _. eauto.
  - apply order_bound.
  - exists ys. split.
    + rewrite mapM_map. rewrite map_id in E. rewrite <- E. apply mapM_ext. intros i. now destruct (lookup (numbered 0 vs) (str_of_nat i)).
    + exists (order (length vs)). split; [apply order_ok|exact F].
Qed.

Lemma oget_oset {V} (d : list (pystr * V)) k v k' :
  oget (oset d k v) k' = if pystr_eq_dec k' k then Some v else oget d k'.
Proof.
  unfold oget, oset. destruct (pystr_eq_dec k' k) as [->|H]; [apply dict_get_set_same|].
  apply dict_get_set_other. congruence.
Qed.
Lemma oset_dictionary {V} (d : list (pystr * V)) k v : NoDup (map fst d) -> NoDup (map fst (oset d k v)).
Proof. apply dict_set_nodup. Qed.

Lemma read_strings l : forall r : options, NoDup (map fst l) -> forall k,
  option_value (fold_left (fun r (kv : pystr * scalar) => oset r (fst kv) (One (snd kv))) l r) k =
  match oget l k with Some v => Some (One v) | None => option_value r k end.
Proof.
  induction l as [|[k0 v0] l IH]; intros r N k; cbn [fold_left map fst snd]; [reflexivity|].
  inversion N as [|x l' Hx Hl]; subst. rewrite IH by exact Hl. unfold oget at 2. cbn [dict_get].
  change (option_value (oset r k0 (One v0)) k) with (oget (oset r k0 (One v0)) k). rewrite oget_oset.
  destruct (pystr_eq_dec k k0) as [->|Hk]; [|reflexivity].
  fold (oget l k0). now rewrite oget_none.
Qed.
Lemma read_lists L : forall r : options, NoDup (map fst L) ->
  (forall k attrs, In (k, attrs) L -> exists vs, attrs = numbered 0 vs) ->
  exists r', foldM (fun r (kv : pystr * list (pystr * scalar)) =>
                do vs <- read_elements (snd kv); Ok (oset r (fst kv) (Many vs))) L r = Ok r' /\
    (forall k, match oget L k with
               | Some attrs => exists vs, read_elements attrs = Ok vs /\ option_value r' k = Some (Many vs)
               | None => option_value r' k = option_value r k
               end).
Proof.
  induction L as [|[k0 a0] L IH]; intros r N H; cbn [foldM].
  - exists r. split; reflexivity.
  - inversion N as [|x l' Hx Hl]; subst. destruct (H k0 a0 (or_introl eq_refl)) as (vs0 & ->).
    destruct (read_elements_ok vs0) as (vs' & E & _). cbn [fst snd]. rewrite E. cbn [bind].
    destruct (IH (oset r k0 (Many vs')) Hl) as (r' & E' & P); [intros k a I; apply (H k a); now right|].
    exists r'. split; [exact E'|]. intros k. specialize (P k). unfold oget. cbn [dict_get]. fold (oget L k).
    destruct (pystr_eq_dec k k0) as [->|Hk].
    + rewrite oget_none in P by exact Hx. exists vs'. split; [exact E|]. rewrite P.
      change (oget (oset r k0 (Many vs')) k0 = Some (Many vs')). rewrite oget_oset. now destruct (pystr_eq_dec k0 k0).
    + destruct (oget L k); [exact P|]. rewrite P.
      change (oget (oset r k0 (Many vs')) k = oget r k). rewrite oget_oset. now destruct (pystr_eq_dec k k0).
Qed.
Lemma lists_numbered o k attrs : In (k, attrs) (lists_of o) -> exists vs, attrs = numbered 0 vs.
Proof.
  intros I. apply in_flat_map in I as ((k0 & [v0|vs]) & I & J); [destruct J|].
  destruct J as [J|[]]. injection J as <- <-. eauto.
Qed.

Lemma fold_oset_dictionary l : forall r : options, NoDup (map fst r) ->
  NoDup (map fst (fold_left (fun r (kv : pystr * scalar) => oset r (fst kv) (One (snd kv))) l r)).
Proof. induction l as [|kv l IH]; intros r N; cbn [fold_left]; [exact N|]. apply IH. now apply oset_dictionary. Qed.
Lemma foldM_oset_dictionary L : forall r r' : options, NoDup (map fst r) ->
  foldM (fun r (kv : pystr * list (pystr * scalar)) =>
                do vs <- read_elements (snd kv); Ok (oset r (fst kv) (Many vs))) L r = Ok r' -> NoDup (map fst r').
Proof.
  induction L as [|kv L IH]; intros r r' N; cbn [foldM]; [congruence|].
  destruct (read_elements (snd kv)); cbn [bind]; [|discriminate]. apply IH. now apply oset_dictionary.
Qed.

Lemma read_dict_ok o : dictionary o ->
  exists o', read_dict (saved_group o) = Ok o' /\ loaded_options o o' /\ dictionary o'.
Proof.
  intros N. unfold read_dict. cbn [saved_group g_attrs g_lists].
  destruct (read_lists (lists_of o) (fold_left (fun r (kv : pystr * scalar) => oset r (fst kv) (One (snd kv))) (strings_of o) []))
    as (o' & E & P); [now apply lists_nodup|apply lists_numbered|].
  exists o'. split; [exact E|]. split.
  - intros k. specialize (P k). rewrite oget_lists in P by exact N.
    rewrite read_strings in P by now apply strings_nodup. rewrite oget_strings in P by exact N.
    destruct (option_value o k) as [[v|vs]|]; [exact P| |exact P].
    destruct P as (vs' & E1 & E2). exists vs'. split; [exact E2|].
    destruct (read_elements_ok vs) as (vs2 & E3 & R). congruence.
  - eapply foldM_oset_dictionary; [|exact E]. apply fold_oset_dictionary. constructor.
Qed.

Lemma digits_value_app s t acc : digits_value acc (s ++ t) = do a <- digits_value acc s; digits_value a t.
Proof.
  revert acc. induction s as [|c s IH]; intros acc; cbn [app digits_value]; [reflexivity|].
  destruct ((48 <=? c)%N && (c <=? 57)%N)%bool; [apply IH|reflexivity].
Qed.
Lemma digits_uint d : forall acc, digits_value acc (uint_chars d) = Ok (Nat.of_uint_acc d acc).
Proof.
  induction d as [|d IH|d IH|d IH|d IH|d IH|d IH|d IH|d IH|d IH|d IH]; intros acc; cbn [uint_chars Nat.of_uint_acc digits_value]; [reflexivity|..];
  (match goal with |- context [if ?b then _ else _] => change b with true end; cbv iota; rewrite IH; f_equal; f_equal; rewrite Nat.tail_mul_spec; match goal with |- context [N.to_nat ?x] => let y := eval vm_compute in (N.to_nat x) in change (N.to_nat x) with y end; lia).
Qed.
Lemma int_of_str n : int_of_digits (str_of_nat n) = Ok n.
Proof.
  assert (E : digits_value 0 (str_of_nat n) = Ok n).
  { unfold str_of_nat. rewrite digits_uint. f_equal. exact (DecimalNat.Unsigned.of_to n). }
  unfold int_of_digits. destruct (str_of_nat n) eqn:En; [|exact E].
  exfalso. assert (U : Nat.to_uint n = Decimal.Nil) by (unfold str_of_nat in En; now destruct (Nat.to_uint n)).
  pose proof (DecimalNat.Unsigned.of_to n) as O. rewrite U in O. cbn in O. subst n. discriminate.
Qed.

Lemma sort_nat_seq n i : sort_by Nat.leb (seq i n) = seq i n.
Proof.
  revert i. induction n as [|n IH]; intros i; cbn [seq sort_by]; [reflexivity|]. rewrite IH.
  destruct n as [|n]; [reflexivity|]. cbn [seq insert_by]. destruct (Nat.leb_spec i (S i)); [reflexivity|lia].
Qed.

Lemma load_dicts os ids : Forall dictionary os -> (forall i, In i ids -> i < length os) ->
  exists os', mapM (fun id => do g <- lookup (numbered 0 (map saved_group os)) (str_of_nat id); read_dict g) ids = Ok os' /\
    Forall2 (fun i o' => exists o, nth_error os i = Some o /\ loaded_options o o' /\ dictionary o') ids os'.
Proof.
  intros Hd Hi. apply load_numbered; [|exact Hi].
  intros o I. rewrite Forall_forall in Hd. now apply read_dict_ok, Hd.
Qed.

Lemma Forall2_seq {A B} (R : A -> B -> Prop) (l : list A) : forall l' k,
  Forall2 (fun i y => exists x, nth_error l i = Some x /\ R x y) (seq k (length l - k)) l' -> k <= length l ->
  Forall2 R (skipn k l) l'.
Proof.
  intros l' k. remember (length l - k) as n eqn:En. revert k l' En.
  induction n as [|n IH]; intros k l' En F Hk; cbn [seq] in F.
  - inversion F; subst. rewrite skipn_all2 by lia. constructor.
  - inversion F as [|i y ids ys (x & Ex & Rx) F']; subst.
    apply nth_error_split in Ex as (l1 & l2 & -> & <-).
    rewrite skipn_app, skipn_all, Nat.sub_diag. cbn [skipn app]. constructor; [exact Rx|].
    rewrite app_length in *. cbn [length] in *.
    specialize (IH (S (length l1)) ys). 
    replace l2 with (skipn (S (length l1)) (l1 ++ x :: l2)).
    + apply IH; [lia|exact F'|lia].
    + rewrite skipn_app, skipn_all2 by lia. replace (S (length l1) - length l1) with 1 by lia. reflexivity.
Qed.
Lemma Forall2_seq0 {A B} (R : A -> B -> Prop) (l : list A) l' :
  Forall2 (fun i y => exists x, nth_error l i = Some x /\ R x y) (seq 0 (length l)) l' -> Forall2 R l l'.
Proof. intros F. apply (Forall2_seq R l l' 0); [now rewrite Nat.sub_0_r|lia]. Qed.

Lemma Forall2_weaken {A B} (P Q : A -> B -> Prop) l l' :
  (forall a b, P a b -> Q a b) -> Forall2 P l l' -> Forall2 Q l l'.
Proof. intros H. induction 1; constructor; auto. Qed.
Lemma Forall2_right {A B} (P : A -> B -> Prop) (Q : B -> Prop) l l' :
  (forall a b, P a b -> Q b) -> Forall2 P l l' -> Forall Q l'.
Proof. intros H. induction 1; constructor; eauto. Qed.
Lemma Forall2_len {A B} (P : A -> B -> Prop) l l' : Forall2 P l l' -> length l = length l'.
Proof. induction 1; cbn; congruence. Qed.

(** Loading a saved architecture always succeeds. *)
Lemma load_saved a : valid a ->
  exists b, from_state (saved a) = Ok b /\ valid b /\
    reordered loaded_options (a_inputs a) (a_inputs b) /\
    Forall2 loaded_options (a_layers a) (a_layers b) /\ a_output b = a_output a.
Proof.
  intros [Vi Vl Ni Nl]. unfold from_state, saved. cbn [h_inputs h_layers h_output].
  rewrite numbered_keys, map_length, sort_by_map. fold (order (length (a_inputs a))).
  rewrite mapM_map.
  destruct (load_dicts (a_inputs a) (order (length (a_inputs a))) Vi) as (inputs & Ei & Fi); [apply order_bound|].
  rewrite Ei. cbn [bind]. rewrite numbered_keys, map_length, mapM_map.
  rewrite (mapM_ok (fun x => int_of_digits (str_of_nat x)) (fun x => x)) by (intros; apply int_of_str).
  rewrite map_id. cbn [bind]. rewrite sort_nat_seq.
  destruct (load_dicts (a_layers a) (seq 0 (length (a_layers a))) Vl) as (layers & El & Fl); [intros i I; apply in_seq in I; lia|].
  rewrite El. cbn [bind].
  assert (Li : length inputs = length (a_inputs a)).
  { rewrite <- (Forall2_len _ _ _ Fi). rewrite (Permutation_length (proj1 (order_ok _))). apply seq_length. }
  assert (Ll : length layers = length (a_layers a)) by (rewrite <- (Forall2_len _ _ _ Fl); apply seq_length).
  exists (mkArch inputs layers (a_output a)). split; [|split; [|split; [|split]]]; cbn [a_inputs a_layers a_output].
  - unfold make_arch. destruct inputs; [destruct (a_inputs a); [congruence|discriminate]|].
    destruct layers; [destruct (a_layers a); [congruence|discriminate]|]. reflexivity.
  - constructor; cbn [a_inputs a_layers].
    + eapply Forall2_right; [|exact Fi]. cbn. intros i o' (o & _ & _ & D). exact D.
    + eapply Forall2_right; [|exact Fl]. cbn. intros i o' (o & _ & _ & D). exact D.
    + intros ->. destruct (a_inputs a); [congruence|discriminate].
    + intros ->. destruct (a_layers a); [congruence|discriminate].
  - exists (order (length (a_inputs a))). split; [apply order_ok|].
    eapply Forall2_weaken; [|exact Fi]. cbn. intros i o' (o & E & L & _). eauto.
  - apply Forall2_seq0. eapply Forall2_weaken; [|exact Fl]. cbn. intros i o' (o & E & L & _). eauto.
  - reflexivity.
Qed.

Lemma reordered_small {A} (R : A -> A -> Prop) l l' : length l <= 10 -> reordered R l l' -> Forall2 R l l'.
Proof.
  intros H (ord & O & F). rewrite (string_order_unique _ _ _ O (order_ok _)), order_small in F by exact H.
  now apply Forall2_seq0.
Qed.
Lemma Forall2_eq {A} (l l' : list A) : Forall2 eq l l' -> l = l'.
Proof. induction 1; congruence. Qed.
Lemma loaded_small o o' : short_lists 10 o -> loaded_options o o' -> same_options o o'.
Proof.
  intros Hs L k. specialize (L k). destruct (option_value o k) as [[v|vs]|] eqn:E; [congruence| |congruence].
  destruct L as (vs' & -> & R). do 2 f_equal. apply Forall2_eq. apply reordered_small; [|exact R].
  now apply (Hs k).
Qed.
Lemma loaded_all_small l l' : Forall (short_lists 10) l -> Forall2 loaded_options l l' -> Forall2 same_options l l'.
Proof.
  intros H F. revert H. induction F as [|o o' l l' L F IH]; intros H; constructor; inversion H; subst; auto.
  now apply loaded_small.
Qed.

(** ** Checking *)
Lemma scalar_eqb_iff v w : scalar_eqb v w = true <-> v = w.
Proof.
  destruct v as [s|m], w as [t|n]; cbn [scalar_eqb]; try (split; [discriminate|congruence]).
  - unfold pystr_eqb. destruct (pystr_eq_dec s t); split; congruence.
  - rewrite Z.eqb_eq. split; congruence.
Qed.

Lemma check_elements_iff ws vs : forall i,
  check_elements (numbered 0 ws) i vs = Ok tt <->
  (forall j v, nth_error vs j = Some v -> nth_error ws (i + j) = Some v).
Proof.
  induction vs as [|v vs IH]; intros i; cbn [check_elements].
  - split; [intros _ [|j] v; discriminate|reflexivity].
  - unfold lookup. rewrite oget_numbered0. destruct (nth_error ws i) as [w|] eqn:Ew; cbn [bind].
    + destruct (scalar_eqb v w) eqn:Ev.
      * apply scalar_eqb_iff in Ev. subst w. rewrite IH. split.
        -- intros H [|j] v' E; [cbn in E; rewrite Nat.add_0_r; congruence|].
           replace (i + S j) with (S i + j) by lia. now apply H.
        -- intros H j v' E. replace (S i + j) with (i + S j) by lia. now apply H.
      * split; [discriminate|]. intros H. specialize (H 0 v eq_refl). rewrite Nat.add_0_r in H.
        assert (v = w) as E by congruence. apply scalar_eqb_iff in E. congruence.
    + split; [discriminate|]. intros H. specialize (H 0 v eq_refl). rewrite Nat.add_0_r in H. congruence.
Qed.
Lemma prefix_iff {A} (vs ws : list A) :
  (forall j v, nth_error vs j = Some v -> nth_error ws j = Some v) <-> exists rest, ws = vs ++ rest.
Proof.
  split.
  - revert ws. induction vs as [|v vs IH]; intros ws H; [now exists ws|].
    destruct ws as [|w ws]; [now specialize (H 0 v eq_refl)|].
    assert (w = v) as -> by (specialize (H 0 v eq_refl); cbn in H; congruence).
    destruct (IH ws) as (rest & ->); [intros j x; apply (H (S j))|]. now exists rest.
  - intros (rest & ->) j v E. rewrite nth_error_app1; [exact E|]. apply nth_error_Some. congruence.
Qed.

Lemma check_option_iff o' k v : dictionary o' ->
  check_option (saved_group o') (k, v) = Ok tt <->
  match v with
  | One _ => option_value o' k = Some v
  | Many vs =>
      (exists rest, option_value o' k = Some (Many (vs ++ rest))) \/
      (k = str "devices" /\ vs = [] /\ forall ws, option_value o' k <> Some (Many ws))
  end.
Proof.
  intros N. unfold check_option. destruct v as [v|vs]; cbn [saved_group g_attrs g_lists].
  - unfold lookup. rewrite oget_strings by exact N. destruct (option_value o' k) as [[w|ws]|]; cbn [bind].
    + destruct (scalar_eqb v w) eqn:E.
      * apply scalar_eqb_iff in E. subst. split; reflexivity.
      * split; [discriminate|]. intros H. assert (v = w) as E' by congruence. apply scalar_eqb_iff in E'. congruence.
    + split; discriminate.
    + split; discriminate.
  - rewrite oget_lists by exact N. destruct (option_value o' k) as [[w|ws]|].
    + unfold pystr_eqb. destruct (pystr_eq_dec k (str "devices")).
      * destruct vs; split; try discriminate; try reflexivity.
        -- intros _. right. repeat split; auto. discriminate.
        -- intros [[r H]|(_ & H & _)]; discriminate.
      * split; [discriminate|]. intros [[r H]|(H & _)]; congruence.
    + rewrite check_elements_iff. cbn [Nat.add]. rewrite prefix_iff. split.
      * intros (rest & ->). left. now exists rest.
      * intros [[r H]|(_ & _ & H)]; [exists r; congruence|now destruct (H ws)].
    + unfold pystr_eqb. destruct (pystr_eq_dec k (str "devices")).
      * destruct vs; split; try discriminate; try reflexivity.
        -- intros _. right. repeat split; auto. discriminate.
        -- intros [[r H]|(_ & H & _)]; discriminate.
      * split; [discriminate|]. intros [[r H]|(H & _)]; congruence.
Qed.

Lemma check_dict_each g o : check_dict g o = Ok tt <-> (forall kv, In kv o -> check_option g kv = Ok tt).
Proof.
  unfold check_dict. induction o as [|kv o IH]; cbn [foldM].
  - split; [intros _ kv []|reflexivity].
  - destruct (check_option g kv) as [[]|e] eqn:E; cbn [bind].
    + rewrite IH. split; [intros H x [<-|I]; auto|intros H x I; apply H; now right].
    + split; [discriminate|]. intros H. specialize (H kv (or_introl eq_refl)). congruence.
Qed.
Lemma check_dict_iff o o' : dictionary o -> dictionary o' ->
  check_dict (saved_group o') o = Ok tt <-> covered_options o o'.
Proof.
  intros N N'. rewrite check_dict_each. split.
  - intros H k v E. apply check_option_iff; [exact N'|]. apply H. now apply dict_get_in in E.
  - intros H [k v] I. apply check_option_iff; [exact N'|]. apply H. unfold option_value. now apply dict_in_get.
Qed.
Lemma check_dicts_iff os : Forall dictionary os -> forall os' i, Forall dictionary os' ->
  check_dicts (numbered 0 (map saved_group os')) i os = Ok tt <->
  (forall j o, nth_error os j = Some o -> exists o', nth_error os' (i + j) = Some o' /\ covered_options o o').
Proof.
  induction 1 as [|o os Ho Hos IH]; intros os' i Hos'; cbn [check_dicts].
  - split; [intros _ [|j] o; discriminate|reflexivity].
  - unfold lookup. rewrite oget_numbered0. destruct (nth_error os' i) as [o'|] eqn:E.
    + rewrite (map_nth_error _ _ _ E). cbn [bind].
      assert (N' : dictionary o') by (rewrite Forall_forall in Hos'; apply Hos'; now apply nth_error_In in E).
      destruct (check_dict (saved_group o') o) as [[]|e] eqn:Ec; cbn [bind].
      * apply check_dict_iff in Ec; [|assumption..]. rewrite IH by exact Hos'. split.
        -- intros H [|j] x Ex; [rewrite Nat.add_0_r; cbn in Ex; injection Ex as <-; exists o'; now split|].
           replace (i + S j) with (S i + j) by lia. now apply H.
        -- intros H j x Ex. replace (S i + j) with (i + S j) by lia. now apply H.
      * split; [discriminate|]. intros H. destruct (H 0 o eq_refl) as (x & Ex & C).
        rewrite Nat.add_0_r in Ex. assert (x = o') as -> by congruence.
        apply check_dict_iff in C; [congruence|assumption..].
    + apply nth_error_None in E. assert (nth_error (map saved_group os') i = None) as -> by (apply nth_error_None; now rewrite map_length).
      cbn [bind]. split; [discriminate|]. intros H. destruct (H 0 o eq_refl) as (x & Ex & _).
      rewrite Nat.add_0_r in Ex. apply nth_error_None in E. congruence.
Qed.
Lemma check_saved a b : valid a -> valid b -> check_state a (saved b) = Ok tt <-> covered a b.
Proof.
  intros Va Vb. unfold check_state, saved. cbn [h_inputs h_layers h_output].
  pose proof (check_dicts_iff (a_inputs a) (va_inputs a Va) (a_inputs b) 0 (va_inputs b Vb)) as Hi.
  pose proof (check_dicts_iff (a_layers a) (va_layers a Va) (a_layers b) 0 (va_layers b Vb)) as Hl.
  cbn [Nat.add] in Hi, Hl.
  destruct (check_dicts (numbered 0 (map saved_group (a_inputs b))) 0 (a_inputs a)) as [[]|]; cbn [bind].
  2: { split; [discriminate|]. intros [C _ _]. apply Hi in C. discriminate. }
  destruct (check_dicts (numbered 0 (map saved_group (a_layers b))) 0 (a_layers a)) as [[]|]; cbn [bind].
  2: { split; [discriminate|]. intros [_ C _]. apply Hl in C. discriminate. }
  destruct (scalar_eqb (a_output a) (a_output b)) eqn:E.
  - apply scalar_eqb_iff in E. split; [intros _|reflexivity]. constructor; [exact (proj1 Hi eq_refl)|exact (proj1 Hl eq_refl)|exact E].
  - split; [discriminate|]. intros [_ _ C]. apply scalar_eqb_iff in C. congruence.
Qed.

(** The exceptions of a check *)
Lemma check_errors a st e : check_state a st = Err e -> e = IncompatibleStateError \/ e = KeyError.
Proof.
  assert (L : forall V (d : list (pystr * V)) k e, lookup d k = Err e -> e = KeyError).
  { intros V d k e0. unfold lookup. destruct (oget d k); congruence. }
  assert (El : forall vs attrs i e, check_elements attrs i vs = Err e -> e = IncompatibleStateError \/ e = KeyError).
  { induction vs as [|v vs IH]; intros attrs i e0; cbn [check_elements]; [discriminate|].
    destruct (lookup attrs (str_of_nat i)) eqn:E; cbn [bind]; [|intros H; injection H as <-; right; now apply L in E].
    destruct (scalar_eqb v a0); [apply IH|intros H; injection H as <-; now left]. }
  assert (O : forall g kv e, check_option g kv = Err e -> e = IncompatibleStateError \/ e = KeyError).
  { intros g [k [v|vs]] e0; cbn [check_option].
    - destruct (lookup (g_attrs g) k) eqn:E; cbn [bind]; [|intros H; injection H as <-; right; now apply L in E].
      destruct (scalar_eqb v a0); [discriminate|intros H; injection H as <-; now left].
    - destruct (oget (g_lists g) k); [apply El|]. destruct (pystr_eqb k (str "devices")); [|intros H; injection H as <-; now right].
      destruct vs; [discriminate|intros H; injection H as <-; now left]. }
  assert (D : forall g o e, check_dict g o = Err e -> e = IncompatibleStateError \/ e = KeyError).
  { intros g o e0. unfold check_dict. induction o as [|kv o IH]; cbn [foldM]; [discriminate|].
    destruct (check_option g kv) as [[]|] eqn:E; cbn [bind]; [exact IH|]. intros H. injection H as <-. now apply O in E. }
  assert (Ds : forall os d i e, check_dicts d i os = Err e -> e = IncompatibleStateError \/ e = KeyError).
  { induction os as [|o os IH]; intros d i e0; cbn [check_dicts]; [discriminate|].
    destruct (lookup d (str_of_nat i)) eqn:E; cbn [bind]; [|intros H; injection H as <-; right; now apply L in E].
    destruct (check_dict a0 o) as [[]|] eqn:E2; cbn [bind]; [apply IH|]. intros H. injection H as <-. now apply D in E2. }
  unfold check_state. destruct st as [h|]; [|intros H; injection H as <-; now left]. destruct (h_inputs h); [|intros H; injection H as <-; now left].
  destruct (check_dicts l 0 (a_inputs a)) as [[]|] eqn:E1; cbn [bind].
  2: { intros H; injection H as <-; now apply Ds in E1. }
  destruct (h_layers h); [|intros H; injection H as <-; now left].
  destruct (check_dicts l0 0 (a_layers a)) as [[]|] eqn:E2; cbn [bind].
  2: { intros H; injection H as <-; now apply Ds in E2. }
  destruct (h_output h); [|intros H; injection H as <-; now left]. destruct (scalar_eqb (a_output a) s); [discriminate|intros H; injection H as <-; now left].
Qed.

(** ** Covering and equality *)
Lemma covered_refl a : valid a -> covered a a.
Proof.
  intros V. constructor; [..|reflexivity]; intros i o E; exists o; (split; [exact E|]); intros k v Ev; rewrite Ev;
    (destruct v as [v|vs]; [reflexivity|left; exists []; now rewrite app_nil_r]).
Qed.
Lemma same_covered o o' : same_options o o' -> covered_options o' o.
Proof.
  intros H k v E. rewrite (H k), E. destruct v as [v|vs]; [reflexivity|]. left. exists []. now rewrite app_nil_r.
Qed.
Lemma same_covered_list l l' : Forall2 same_options l l' -> covered_list l' l.
Proof.
  induction 1 as [|o o' l l' H F IH]; intros [|i] x E; cbn [nth_error] in *; try discriminate.
  - injection E as <-. exists o. split; [reflexivity|]. now apply same_covered.
  - now apply IH.
Qed.
Lemma shape_covered o o' : same_shape o o' -> covered_options o o' -> same_options o o'.
Proof.
  intros Sh C k. specialize (Sh k). specialize (C k). destruct (option_value o k) as [[v|vs]|]; 
    destruct (option_value o' k) as [[w|ws]|]; try tauto; try (specialize (C _ eq_refl); cbn in C).
  - congruence.
  - destruct C as [[rest C]|(_ & -> & C)]; [|now destruct (C ws)].
    injection C as C. subst ws. rewrite app_length in Sh. destruct rest; [now rewrite app_nil_r|cbn in Sh; lia].
Qed.
Lemma shape_covered_list l l' : Forall2 same_shape l l' -> covered_list l l' -> Forall2 same_options l l'.
Proof.
  induction 1 as [|o o' l l' H F IH]; intros C; constructor.
  - destruct (C 0 o eq_refl) as (x & E & Cx). cbn in E. injection E as <-. now apply shape_covered.
  - apply IH. intros i x E. apply (C (S i) x E).
Qed.
