(** Proofs about reading and writing Kaldi lattices. *)
From Coq Require Import QArith Qcanon.
From Verif Require Import Base Strings ListLib BaseLib Dict TextSpec TextProofs VocabBuild
     LatticeModel SlfModel KaldiModel LatticeSpec SortProofs JobProofs GraphProofs SlfProofs.
Local Open Scope nat_scope.

(** ** Word table *)
Lemma kaldi_table (w2i : dict pystr Z) : kaldi_vocabulary_ok w2i ->
  exists table, kaldi_id_to_word w2i = Ok table /\ length table = length w2i /\
  forall w z, In (w, z) w2i -> nth_error table (Z.to_nat z) = Some (Some w).
Proof.
  intros (N1 & N2 & R). unfold kaldi_id_to_word.
  assert (G : forall d t, NoDup (map snd d) -> length t = length w2i ->
     (forall w z, In (w, z) d -> (0 <= z < Z.of_nat (length w2i))%Z) ->
     exists t', foldM (fun table (wi : pystr * Z) => do i <- py_position (length table) (snd wi);
                         Ok (upd table i (Some (fst wi)))) d t = Ok t' /\ length t' = length w2i /\
       (forall w z, In (w, z) d -> nth_error t' (Z.to_nat z) = Some (Some w)) /\
       (forall z, (0 <= z < Z.of_nat (length w2i))%Z -> ~ In z (map snd d) -> nth_error t' (Z.to_nat z) = nth_error t (Z.to_nat z))).
  { induction d as [|[w z] d IH]; intros t Hn Ht Hr.
    - exists t. repeat split; auto. intros ? ? [].
    - cbn [foldM fst snd map] in *. inversion Hn as [|? ? Hn1 Hn2]; subst.
      destruct (Hr w z (or_introl eq_refl)) as [Z0 Z1].
      assert (P : py_position (length t) z = Ok (Z.to_nat z)).
      { rewrite <- (Z2Nat.id z) at 1 by exact Z0. apply py_position_of_nat. lia. }
      rewrite P. cbn [bind].
      destruct (IH (upd t (Z.to_nat z) (Some w)) Hn2) as (t' & E & L & H1 & H2).
      { now rewrite upd_length. } { intros; apply (Hr w0); now right. }
      exists t'. rewrite E. repeat split; auto.
      + intros w0 z0 [H|H]; [injection H as <- <-|now apply H1].
        rewrite H2 by (auto || lia). rewrite nth_error_upd, Nat.eqb_refl.
        destruct (Nat.ltb_spec (Z.to_nat z) (length t)); [reflexivity|lia].
      + intros z0 Hz Hnin. rewrite H2 by (auto; intros H; apply Hnin; now right).
        rewrite nth_error_upd. destruct (Nat.eqb_spec (Z.to_nat z0) (Z.to_nat z)) as [E2|]; [|reflexivity].
        exfalso. apply Hnin. left. lia. }
  destruct (G w2i (repeat None (length w2i)) N2 (repeat_length _ _) R) as (t & E & L & H & _).
  exists t. auto.
Qed.

(** ** Text *)
Lemma strip_line u : u <> [] -> no_space u -> strip (u ++ [newline]) = u /\ strip u = u.
Proof.
  intros Hn Hs.
  assert (X : forall t, lstrip (u ++ t) = u ++ t).
  { intros t. destruct u as [|c u]; [congruence|]. cbn [app lstrip].
    apply no_space_cons in Hs. destruct Hs as [-> _]. reflexivity. }
  assert (Y : lstrip (rev u) = rev u).
  { assert (Hr : no_space (rev u)) by now apply no_space_rev.
    destruct (rev u) as [|c r] eqn:E; [reflexivity|]. cbn [lstrip].
    apply no_space_cons in Hr. destruct Hr as [-> _]. reflexivity. }
  unfold strip, rstrip. split.
  - rewrite X, rev_app_distr. cbn [rev app lstrip]. change (is_space newline) with true. cbn iota.
    now rewrite Y, rev_involutive.
  - specialize (X []). rewrite app_nil_r in X. now rewrite X, Y, rev_involutive.
Qed.

Lemma split_space t s : no_space t -> t <> [] -> split (t ++ str " " ++ s) = t :: split s.
Proof.
  intros H Hn. unfold split. rewrite split_aux_nonempty_run by exact H. rewrite app_nil_r.
  change (str " ") with [32%N]. cbn [app split_aux]. change (is_space 32%N) with true. cbn iota.
  destruct (rev t) eqn:E; [exfalso; apply Hn; now rewrite <- (rev_involutive t), E|].
  now rewrite <- E, rev_involutive.
Qed.
Lemma split_newline t : no_space t -> t <> [] -> split (t ++ [newline]) = [t].
Proof.
  intros H Hn. unfold split. rewrite split_aux_nonempty_run by exact H. rewrite app_nil_r. cbn [split_aux].
  change (is_space newline) with true. cbn iota.
  destruct (rev t) eqn:E; [exfalso; apply Hn; now rewrite <- (rev_involutive t), E|].
  now rewrite <- E, rev_involutive.
Qed.
Lemma split_nonblank l : split l <> [] -> strip l <> [].
Proof. intros H E. apply H. now rewrite <- split_strip, E. Qed.

Lemma split_comma_one t : (forall c, In c t -> c <> comma) -> split_comma t = [t].
Proof.
  induction t as [|c t IH]; intros H; cbn [split_comma]; [reflexivity|].
  destruct (N.eqb_spec c comma) as [->|_]; [destruct (H comma); [now left|reflexivity]|].
  rewrite IH by (intros x Hx; apply H; now right). reflexivity.
Qed.
Lemma split_comma_cons t s : (forall c, In c t -> c <> comma) ->
  split_comma (t ++ str "," ++ s) = t :: split_comma s.
Proof.
  induction t as [|c t IH]; intros H.
  - change (str ",") with [comma]. cbn [app split_comma]. now rewrite N.eqb_refl.
  - cbn [app split_comma].
    destruct (N.eqb_spec c comma) as [->|_]; [destruct (H comma); [now left|reflexivity]|].
    rewrite IH by (intros x Hx; apply H; now right). reflexivity.
Qed.

Lemma no_space_app s t : no_space s -> no_space t -> no_space (s ++ t).
Proof. intros H1 H2 c Hc. apply in_app_or in Hc. destruct Hc; auto. Qed.
Lemma no_space_uint u : no_space (show_uint u).
Proof.
  induction u; cbn [show_uint]; [apply no_space_nil|..]; apply no_space_cons; (split; [reflexivity|assumption]).
Qed.
Lemma no_space_int n : no_space (show_int n).
Proof. apply no_space_uint. Qed.
Lemma show_int_nonempty n : show_int n <> [].
Proof.
  unfold show_int. destruct (Nat.to_uint n) eqn:E; cbn [show_uint]; try discriminate.
  exfalso. destruct n as [|n]; [discriminate|].
  assert (H : Nat.of_uint (Nat.to_uint (S n)) = S n) by apply DecimalNat.Unsigned.of_to.
  rewrite E in H. discriminate.
Qed.

(** ** Positions of links *)
Definition positions (p : link -> bool) (ls : list link) : list nat :=
  filter (fun k => match nth_error ls k with Some l => p l | None => false end) (seq 0 (length ls)).
Lemma positions_snoc p ls l : positions p (ls ++ [l]) = positions p ls ++ (if p l then [length ls] else []).
Proof.
  unfold positions. rewrite app_length. cbn [length]. rewrite Nat.add_1_r, seq_S, filter_app. cbn [filter plus].
  rewrite nth_error_app2, Nat.sub_diag by lia. cbn [nth_error]. f_equal.
  apply filter_ext_in. intros k Hk. apply in_seq in Hk. now rewrite nth_error_app1 by lia.
Qed.
Lemma positions_none p ls : (forall l, In l ls -> p l = false) -> positions p ls = [].
Proof.
  intros H. apply filter_none. intros k _. destruct (nth_error ls k) as [l|] eqn:E; [|reflexivity].
  apply H. now apply nth_error_In in E.
Qed.
Lemma positions_ext p q ls : (forall l, In l ls -> p l = q l) -> positions p ls = positions q ls.
Proof.
  intros H. apply filter_ext. intros k. destruct (nth_error ls k) as [l|] eqn:E; [|reflexivity].
  apply H. now apply nth_error_In in E.
Qed.
Lemma positions_map p f ls : positions p (map f ls) = positions (fun l => p (f l)) ls.
Proof.
  unfold positions. rewrite map_length. apply filter_ext. intros k. rewrite nth_error_map.
  now destruct (nth_error ls k).
Qed.

Section Kaldi.
Variable parse_int : pystr -> result Z.
Variable parse_float : pystr -> result Qc.
Variable show_num : Qc -> pystr.
Variable show_z : Z -> pystr.
Hypothesis NT : number_text parse_int parse_float show_num.
Hypothesis IT : id_text parse_int show_z.
Variable w2i : dict pystr Z.
Variable table : list (option pystr).
Hypothesis VO : kaldi_vocabulary_ok w2i.
Hypothesis Htab : kaldi_id_to_word w2i = Ok table.

Variable a : lattice.
Hypothesis W : kaldi_writable w2i a.
Let n := length (a_nodes a).
Let fin (l : link) : bool := is_final_node a (k_end l).

(** The links in the order they are written *)
Definition grouped : list link := flat_map (fun i => out_links a i) (seq 0 n).

Lemma grouped_In l : In l grouped <-> In l (a_links a).
Proof.
  unfold grouped, out_links. rewrite in_flat_map. split.
  - intros (i & _ & H). now apply filter_In in H.
  - intros H. exists (k_start l). split.
    + apply in_seq. destruct (kw_ok _ _ W) as [[R _ _] _]. apply R in H. unfold n. lia.
    + apply filter_In. split; [exact H|apply Nat.eqb_refl].
Qed.

Lemma filter_filter_eq i j (ls : list link) :
  filter (fun l => k_start l =? i) (filter (fun l => k_start l =? j) ls) =
  if i =? j then filter (fun l => k_start l =? i) ls else [].
Proof.
  induction ls as [|l ls IH]; cbn [filter]; [now destruct (i =? j)|].
  destruct (Nat.eqb_spec (k_start l) j) as [Hj|Hj]; cbn [filter].
  - rewrite Hj. destruct (Nat.eqb_spec j i) as [->|Hi].
    + rewrite Nat.eqb_refl in *. now rewrite IH.
    + destruct (Nat.eqb_spec i j); [congruence|]. rewrite IH. reflexivity.
  - rewrite IH. destruct (Nat.eqb_spec i j) as [->|]; [|reflexivity].
    apply Nat.eqb_neq in Hj. now rewrite Hj.
Qed.

Lemma grouped_out i : filter (fun l => k_start l =? i) grouped = out_links a i.
Proof.
  unfold grouped.
  assert (G : forall s m, filter (fun l => k_start l =? i) (flat_map (fun j => out_links a j) (seq s m))
              = if (s <=? i) && (i <? s + m) then out_links a i else []).
  { intros s m. revert s. induction m as [|m IH]; intros s; cbn [seq flat_map].
    - destruct (Nat.leb_spec s i), (Nat.ltb_spec i (s + 0)); cbn [andb filter]; (reflexivity || lia).
    - rewrite filter_app, IH. unfold out_links at 1. rewrite filter_filter_eq. fold (out_links a i).
      destruct (Nat.eqb_spec i s) as [->|Hne].
      + destruct (Nat.leb_spec s s), (Nat.ltb_spec s (s + S m)), (Nat.leb_spec (S s) s); cbn [andb]; try lia.
        now rewrite app_nil_r.
      + cbn [app]. destruct (Nat.leb_spec s i), (Nat.leb_spec (S s) i), (Nat.ltb_spec i (s + S m)), (Nat.ltb_spec i (S s + m));
          cbn [andb]; (reflexivity || lia). }
  rewrite G. destruct (Nat.leb_spec 0 i), (Nat.ltb_spec i (0 + n)); cbn [andb]; try lia; [reflexivity|].
  symmetry. apply filter_none. intros l Hl. destruct (kw_ok _ _ W) as [[R _ _] _]. apply R in Hl.
  apply Nat.eqb_neq. fold n in Hl. lia.
Qed.

(** ** Writing *)
Definition word_id (l : link) : Z :=
  match dict_get pystr_eq_dec w2i (match k_word l with Some w => w | None => EPS end) with
  | Some z => z | None => 0%Z end.
Definition cost (x : option Qc) : pystr := match x with Some x => show_num (- x)%Qc | None => [] end.
Definition weight (l : link) : pystr :=
  cost (k_lm l) ++ str "," ++ cost (k_ac l) ++ str "," ++ k_transitions l.
Definition line_of (l : link) : pystr :=
  if fin l then show_int (k_start l) ++ str " " ++ weight l ++ [newline]
  else show_int (k_start l) ++ str " " ++ show_int (k_end l) ++ str " " ++ show_z (word_id l) ++ str " "
       ++ weight l ++ [newline].

Lemma word_lookup l : In l (a_links a) -> fin l = false ->
  exists w, w = (match k_word l with Some w => w | None => EPS end) /\
  dict_lookup w2i w = Ok (word_id l) /\ In (w, word_id l) w2i.
Proof.
  intros Hl Hf. set (w := match k_word l with Some w => w | None => EPS end).
  exists w. split; [reflexivity|]. unfold dict_lookup, word_id. fold w.
  assert (Hin : In w (map fst w2i)).
  { pose proof (kw_words _ _ W l Hl Hf) as H. unfold w. destruct (k_word l); [apply H|exact H]. }
  destruct (dict_get pystr_eq_dec w2i w) as [z|] eqn:E.
  - split; [reflexivity|]. now apply dict_get_in in E.
  - apply dict_get_none in E. contradiction.
Qed.

Lemma write_line l : In l (a_links a) -> kaldi_link_line show_num show_z w2i (a_nodes a) l = Ok (line_of l).
Proof.
  intros Hl. destruct (kw_scores _ _ W l Hl) as [Ha Hm].
  unfold kaldi_link_line, line_of, weight, fin, is_final_node.
  assert (Hr : k_end l < length (a_nodes a)).
  { destruct (kw_ok _ _ W) as [[R _ _] _]. apply R in Hl. lia. }
  unfold py_index. destruct (nth_error (a_nodes a) (k_end l)) as [nd|] eqn:En; [|apply nth_error_None in En; lia].
  cbn [bind]. destruct (k_ac l) as [x|]; [|congruence]. destruct (k_lm l) as [y|]; [|congruence].
  destruct (n_final nd) eqn:Ef; cbn [neg_cost bind cost].
  - now rewrite <- !app_assoc.
  - destruct (word_lookup l Hl) as (w & Hw & E & _); [unfold fin, is_final_node; now rewrite En|].
    rewrite <- Hw, E. cbn [bind]. now rewrite <- !app_assoc.
Qed.

Lemma out_records i nd : nth_error (a_nodes a) i = Some nd ->
  map (fun k => nth_error (a_links a) k) (n_out nd) = map Some (out_links a i).
Proof.
  intros H. destruct (kw_ok _ _ W) as [[_ O _] _]. rewrite (O _ _ H). apply links_from_links.
Qed.

Lemma write_lines u : a_utterance a = Some u ->
  kaldi_lines show_num show_z w2i a = Ok ((u ++ [newline]) :: map line_of grouped ++ [[newline]]).
Proof.
  intros Hu. unfold kaldi_lines. rewrite Hu.
  assert (G : forall ns pre, a_nodes a = pre ++ ns ->
    mapM (fun nd => mapM (fun k => do l <- py_index (a_links a) k;
                     kaldi_link_line show_num show_z w2i (a_nodes a) l) (n_out nd)) ns
    = Ok (map (fun i => map line_of (out_links a i)) (seq (length pre) (length ns)))).
  { induction ns as [|nd ns IH]; intros pre E; cbn [mapM length seq map]; [reflexivity|].
    assert (Hnd : nth_error (a_nodes a) (length pre) = Some nd).
    { rewrite E, nth_error_app2, Nat.sub_diag by lia. reflexivity. }
    pose proof (out_records _ _ Hnd) as Hr.
    assert (M : mapM (fun k => do l <- py_index (a_links a) k;
                     kaldi_link_line show_num show_z w2i (a_nodes a) l) (n_out nd)
                = Ok (map line_of (out_links a (length pre)))).
    { assert (Hin : forall l, In l (out_links a (length pre)) -> In l (a_links a)) by (intros l Hl; now apply filter_In in Hl).
      revert Hr Hin. generalize (out_links a (length pre)) as ols. induction (n_out nd) as [|k ks IHk]; intros [|l ols] Hr Hin; cbn [map] in Hr; try discriminate; [reflexivity|].
      injection Hr as H1 H2. cbn [mapM map]. unfold py_index at 1. rewrite H1. cbn [bind].
      rewrite write_line by (apply Hin; now left). cbn [bind].
      rewrite (IHk ols H2) by (intros; apply Hin; now right). reflexivity. }
    rewrite M. cbn [bind]. rewrite (IH (pre ++ [nd])) by (rewrite <- app_assoc; exact E).
    rewrite app_length. cbn [length bind]. now rewrite Nat.add_1_r. }
  rewrite (G (a_nodes a) [] eq_refl). cbn [bind length]. f_equal. cbn [app]. f_equal. f_equal.
  unfold grouped. fold n. rewrite flat_map_concat_map, concat_map, map_map. reflexivity.
Qed.

(** ** The text of a line *)
Lemma cost_no_space x : no_space (cost x).
Proof. destruct x; [|apply no_space_nil]. intros c Hc. now apply (nt_plain _ _ _ NT) in Hc. Qed.
Lemma weight_no_space l : In l (a_links a) -> no_space (weight l).
Proof.
  intros Hl. unfold weight. repeat apply no_space_app; try apply cost_no_space; try (apply no_space_cons; split; [reflexivity|apply no_space_nil]).
  intros c Hc. now apply (kw_transitions _ _ W l).
Qed.
Lemma weight_nonempty l : weight l <> [].
Proof. unfold weight. destruct (cost (k_lm l)); discriminate. Qed.

Lemma line_tokens l : In l (a_links a) ->
  split (line_of l) = if fin l then [show_int (k_start l); weight l]
                      else [show_int (k_start l); show_int (k_end l); show_z (word_id l); weight l].
Proof.
  intros Hl. unfold line_of. destruct (fin l).
  - rewrite split_space by (apply no_space_int || apply show_int_nonempty).
    now rewrite split_newline by (apply weight_nonempty || now apply weight_no_space).
  - rewrite !split_space by (apply no_space_int || apply show_int_nonempty || apply (it_nonempty _ _ IT) || (intros c; apply (it_nospace _ _ IT))).
    now rewrite split_newline by (apply weight_nonempty || now apply weight_no_space).
Qed.

Lemma line_is_line l : In l (a_links a) -> is_line (line_of l).
Proof.
  intros Hl.
  assert (N : forall s, no_space s -> forall c, In c s -> c <> newline).
  { intros s Hs c Hc ->. apply Hs in Hc. discriminate. }
  assert (S : forall c, In c (str " ") -> c <> newline) by (intros c [<-|[]]; discriminate).
  unfold line_of. destruct (fin l).
  - exists (show_int (k_start l) ++ str " " ++ weight l). split; [now rewrite <- !app_assoc|].
    intros c Hc. rewrite !in_app_iff in Hc.
    destruct Hc as [Hc|[Hc|Hc]]; [apply (N _ (no_space_int _) c Hc)|now apply S|apply (N _ (weight_no_space l Hl) c Hc)].
  - exists (show_int (k_start l) ++ str " " ++ show_int (k_end l) ++ str " " ++ show_z (word_id l) ++ str " " ++ weight l).
    split; [now rewrite <- !app_assoc|].
    intros c Hc. rewrite !in_app_iff in Hc.
    destruct Hc as [Hc|[Hc|[Hc|[Hc|[Hc|[Hc|Hc]]]]]]; try (now apply S); try apply (N _ (no_space_int _) c Hc).
    + apply (N (show_z (word_id l))); [intros x; apply (it_nospace _ _ IT)|exact Hc].
    + apply (N _ (weight_no_space l Hl) c Hc).
Qed.

(** ** Reading *)
Definition conv (l : link) : link * bool :=
  if fin l then (mkLink (k_start l) 0 None (k_ac l) (k_lm l) (k_transitions l), true) else (l, false).
Definition bound (ls : list link) : nat :=
  fold_right (fun l m => Nat.max m (Nat.max (S (k_start l)) (if fin l then 0 else S (k_end l)))) 0 ls.
Definition state (ls : list link) : kaldi_state :=
  mkKaldi (map (fun i => mkNode (positions (fun l => k_start l =? i) ls)
                                (positions (fun l => negb (fin l) && (k_end l =? i)) ls) None false)
               (seq 0 (bound ls)))
          (map conv ls) (positions fin ls)
          (match ls with [] => None | l :: _ => Some (Z.of_nat (k_start l)) end).

Lemma bound_In ls l : In l ls -> k_start l < bound ls /\ (fin l = false -> k_end l < bound ls).
Proof.
  induction ls as [|x ls IH]; [intros []|]. intros [->|H]; cbn [bound fold_right]; fold (bound ls).
  - split; [lia|]. intros ->. lia.
  - destruct (IH H). split; [lia|]. intros Hf. specialize (H1 Hf). lia.
Qed.
Lemma bound_snoc ls l : bound (ls ++ [l]) = Nat.max (bound ls) (Nat.max (S (k_start l)) (if fin l then 0 else S (k_end l))).
Proof.
  induction ls as [|x ls IH]; cbn [app bound fold_right]; [reflexivity|].
  fold (bound ls). fold (bound (ls ++ [l])). rewrite IH. lia.
Qed.

Lemma read_cost_ok x : read_cost parse_float (Some (show_num (- x)%Qc)) = Ok x.
Proof.
  unfold read_cost. destruct (show_num (- x)%Qc) as [|c s] eqn:E; [now apply (nt_nonempty _ _ _ NT) in E|].
  rewrite <- E, (nt_num _ _ _ NT). cbn [bind]. now rewrite Qcopp_involutive.
Qed.

Lemma weight_parts l : In l (a_links a) ->
  split_comma (weight l) = [cost (k_lm l); cost (k_ac l); k_transitions l].
Proof.
  intros Hl. unfold weight.
  assert (C : forall x c, In c (cost x) -> c <> comma).
  { intros [x|] c Hc; [|destruct Hc]. apply (nt_plain _ _ _ NT) in Hc. destruct Hc as [H _].
    intros ->. apply H. cbn. unfold comma. tauto. }
  rewrite !split_comma_cons by apply C. rewrite split_comma_one; [reflexivity|].
  intros c Hc. apply (kw_transitions _ _ W l c Hl Hc).
Qed.

Lemma seq_split_le m m' : m <= m' -> seq 0 m' = seq 0 m ++ seq m (m' - m).
Proof. intros H. rewrite <- seq_app. f_equal. lia. Qed.

(** Growing the list of nodes adds new nodes, which no link touches. *)
Lemma grow_map (f : nat -> node) m s :
  (forall i, m <= i -> f i = new_node) ->
  grow (map f (seq 0 m)) (Z.of_nat s) = map f (seq 0 (Nat.max m (S s))).
Proof.
  intros H. unfold grow. rewrite map_length, seq_length.
  replace (Z.to_nat (Z.of_nat s + 1)) with (S s) by lia.
  rewrite (seq_split_le m (Nat.max m (S s))) by lia. rewrite map_app. f_equal.
  replace (Nat.max m (S s) - m) with (S s - m) by lia.
  generalize (S s - m) as k. intros k. clear -H.
  assert (X : forall j t, m <= t -> repeat new_node j = map f (seq t j)).
  { induction j as [|j IH]; intros t Hs; cbn [repeat seq map]; [reflexivity|].
    rewrite H by exact Hs. f_equal. apply IH. lia. }
  now apply X.
Qed.

Lemma add_out_map (f : nat -> node) m i k : i < m ->
  add_out (map f (seq 0 m)) i k =
  map (fun j => mkNode (n_out (f j) ++ if i =? j then [k] else []) (n_in (f j)) (n_time (f j)) (n_final (f j))) (seq 0 m).
Proof.
  intros Hi. apply nth_error_ext. intros j. rewrite nth_add_out, !nth_error_map_seq. now destruct (j <? m).
Qed.
Lemma add_in_map (f : nat -> node) m i k : i < m ->
  add_in (map f (seq 0 m)) i k =
  map (fun j => mkNode (n_out (f j)) (n_in (f j) ++ if i =? j then [k] else []) (n_time (f j)) (n_final (f j))) (seq 0 m).
Proof.
  intros Hi. apply nth_error_ext. intros j. rewrite nth_add_in, !nth_error_map_seq. now destruct (j <? m).
Qed.

Lemma word_read l : In l (a_links a) -> fin l = false ->
  exists p w, py_position (length table) (word_id l) = Ok p /\ py_index table p = Ok (Some w) /\
  (if pystr_eq_dec w EPS then Ok None
   else if pystr_eqb w (str "#0") || pystr_eqb w SOS || pystr_eqb w EOS then Err InputError
   else Ok (Some w)) = Ok (k_word l).
Proof.
  intros Hl Hf. destruct (word_lookup l Hl Hf) as (w & Hw & _ & Hin).
  destruct (kaldi_table w2i VO) as (t & E & L & Ht). rewrite Htab in E. injection E as <-.
  destruct VO as (_ & _ & R). destruct (R _ _ Hin) as [Z0 Z1].
  exists (Z.to_nat (word_id l)), w. split; [|split].
  - rewrite <- (Z2Nat.id (word_id l)) at 1 by exact Z0. apply py_position_of_nat. lia.
  - unfold py_index. now rewrite (Ht _ _ Hin).
  - pose proof (kw_words _ _ W l Hl Hf) as Hk. destruct (k_word l) as [v|].
    + subst w. destruct Hk as [_ Hk].
      destruct (pystr_eq_dec v EPS) as [->|_]; [exfalso; apply Hk; now left|].
      unfold pystr_eqb.
      destruct (pystr_eq_dec v (str "#0")) as [->|_]; [exfalso; apply Hk; right; now left|].
      destruct (pystr_eq_dec v SOS) as [->|_]; [exfalso; apply Hk; right; right; now left|].
      destruct (pystr_eq_dec v EOS) as [->|_]; [exfalso; apply Hk; right; right; right; now left|].
      reflexivity.
    + subst w. destruct (pystr_eq_dec EPS EPS); [reflexivity|congruence].
Qed.

Lemma read_line_step ls l : In l (a_links a) -> (forall x, In x ls -> In x (a_links a)) ->
  read_kaldi_line parse_int parse_float table (state ls) (strip (line_of l)) = Ok (state (ls ++ [l])).
Proof.
  intros Hl Hls. unfold read_kaldi_line. rewrite split_strip, split_strip, (line_tokens l Hl).
  destruct (kw_scores _ _ W l Hl) as [Ha Hm].
  destruct (k_ac l) as [x|] eqn:Ex; [|congruence]. destruct (k_lm l) as [y|] eqn:Ey; [|congruence].
  clear Ha Hm.
  set (f := fun i => mkNode (positions (fun l => k_start l =? i) ls)
                                (positions (fun l => negb (fin l) && (k_end l =? i)) ls) None false).
  assert (Hf : forall i, bound ls <= i -> f i = new_node).
  { intros i Hi. unfold f. rewrite !positions_none; [reflexivity|..].
    - intros z Hz. apply bound_In in Hz. destruct (fin z); [reflexivity|]. cbn. apply Nat.eqb_neq. 
      destruct Hz as [_ Hz]. specialize (Hz eq_refl). lia.
    - intros z Hz. apply bound_In in Hz. apply Nat.eqb_neq. lia. }
  assert (Hlen : length (map conv ls) = length ls) by apply map_length.
  assert (Hinit : (match (match ls with [] => None | l :: _ => Some (Z.of_nat (k_start l)) end) with
                   | Some i => Some i | None => Some (Z.of_nat (k_start l)) end)
                  = match ls ++ [l] with [] => None | l :: _ => Some (Z.of_nat (k_start l)) end).
  { destruct ls; reflexivity. }
  destruct (fin l) eqn:Ef.
  - cbn [bind]. rewrite (nt_int _ _ _ NT). cbn [bind]. rewrite (weight_parts l Hl). cbn [nth_error].
    rewrite Ex, Ey. cbn [cost]. rewrite !read_cost_ok. cbn [bind].
    unfold state at 1. cbn [kg_nodes kg_links kg_final_in kg_initial]. fold f.
    unfold state at 1. cbn [kg_nodes kg_links kg_final_in kg_initial]. fold f.
    rewrite (grow_map f _ _ Hf). rewrite map_length, seq_length. rewrite py_position_of_nat by lia. cbn [bind].
    unfold state. cbn [kg_nodes kg_links kg_final_in kg_initial]. fold f. rewrite Hinit, Hlen.
    rewrite add_out_map by lia. f_equal. rewrite bound_snoc, Ef, Nat.max_0_r. f_equal.
    + apply map_ext. intros i. unfold f. cbn [n_out n_in n_time n_final].
      rewrite !positions_snoc, Ef. cbn [negb andb]. rewrite app_nil_r. reflexivity.
    + rewrite map_app. cbn [map]. unfold conv at 3. rewrite Ef, Ex, Ey. reflexivity.
    + rewrite positions_snoc, Ef. reflexivity.
  - cbn [bind]. rewrite (nt_int _ _ _ NT), (it_int _ _ IT). cbn [bind].
    rewrite (nt_int _ _ _ NT). cbn [bind]. rewrite (weight_parts l Hl). cbn [nth_error].
    rewrite Ex, Ey. cbn [cost]. rewrite !read_cost_ok. cbn [bind].
    unfold state. cbn [kg_nodes kg_links kg_final_in kg_initial]. fold f.
    rewrite (grow_map f _ _ Hf).
    rewrite grow_map by (intros i Hi; apply Hf; lia).
    rewrite map_length, seq_length. rewrite !py_position_of_nat by lia. cbn [bind].
    destruct (word_read l Hl Ef) as (p & w & P1 & P2 & P3). rewrite P1. cbn [bind]. rewrite P2. cbn [bind].
    rewrite P3. cbn [bind]. rewrite Hinit, Hlen.
    rewrite add_out_map by lia. rewrite add_in_map by lia. f_equal. rewrite bound_snoc, Ef.
    replace (Nat.max (bound ls) (Nat.max (S (k_start l)) (S (k_end l))))
      with (Nat.max (Nat.max (bound ls) (S (k_start l))) (S (k_end l))) by lia.
    f_equal.
    + apply map_ext. intros i. unfold f. cbn [n_out n_in n_time n_final].
      rewrite !positions_snoc, Ef. cbn [negb andb]. reflexivity.
    + rewrite map_app. cbn [map]. unfold conv at 3. rewrite Ef. destruct l. cbn in *. subst. reflexivity.
    + rewrite positions_snoc, Ef. now rewrite app_nil_r.
Qed.

Lemma read_lines ls : (forall x, In x ls -> In x (a_links a)) ->
  foldM (read_kaldi_line parse_int parse_float table) (map strip (map line_of ls)) (state []) = Ok (state ls).
Proof.
  intros H. induction ls as [|l ls IH] using rev_ind; [reflexivity|].
  rewrite !map_app, foldM_app. rewrite IH by (intros x Hx; apply H; apply in_or_app; now left).
  cbn [bind map foldM]. rewrite read_line_step.
  - reflexivity.
  - apply H. apply in_or_app. right. now left.
  - intros x Hx. apply H. apply in_or_app. now left.
Qed.

(** The lattice that is read back *)
Let f := bound grouped.
Definition read_back : lattice :=
  mkLattice (kg_nodes (state grouped) ++ [mkNode [] (positions fin grouped) None true])
            (map (retarget a f) grouped) (a_initial a) (a_utterance a) None None.

Lemma grouped_first : exists l ls, grouped = l :: ls /\ k_start l = a_initial a.
Proof.
  destruct (kw_initial _ _ W) as [H1 H2].
  pose proof (proj2 (kw_ok _ _ W)) as Hi. fold n in Hi.
  unfold grouped. rewrite (seq_split_le (a_initial a) n) by lia.
  rewrite flat_map_app.
  assert (E : flat_map (fun i => out_links a i) (seq 0 (a_initial a)) = []).
  { rewrite flat_map_concat_map. apply concat_nil_Forall. apply Forall_forall. intros x Hx.
    apply in_map_iff in Hx. destruct Hx as (i & <- & Hx). apply in_seq in Hx. apply H2. lia. }
  rewrite E. replace (n - a_initial a) with (S (n - a_initial a - 1)) by lia. cbn [seq flat_map app].
  destruct (out_links a (a_initial a)) as [|l ls] eqn:Eo; [congruence|].
  exists l. eexists. split; [reflexivity|].
  assert (Hl : In l (out_links a (a_initial a))) by (rewrite Eo; now left).
  apply filter_In in Hl. now apply Nat.eqb_eq.
Qed.

Lemma grouped_sub l : In l grouped -> In l (a_links a).
Proof. apply grouped_In. Qed.

Lemma nodes_length : length (kg_nodes (state grouped)) = f.
Proof. unfold state. cbn [kg_nodes]. rewrite map_length. apply seq_length. Qed.

Lemma read_kaldi_written u : a_utterance a = Some u ->
  read_kaldi parse_int parse_float (map strip ((u ++ [newline]) :: map line_of grouped)) table = Ok read_back.
Proof.
  intros Hu. cbn [map read_kaldi].
  change (mkKaldi [] [] [] None) with (state []). rewrite (read_lines grouped grouped_sub). cbn [bind].
  destruct grouped_first as (l & ls & E & Hs).
  assert (Ei : kg_initial (state grouped) = Some (Z.of_nat (a_initial a))).
  { unfold state. cbn [kg_initial]. now rewrite E, Hs. }
  rewrite Ei, nodes_length.
  assert (Hl : In l grouped) by (rewrite E; now left).
  destruct (bound_In grouped l Hl) as [B _]. rewrite Hs in B.
  rewrite py_position_of_nat by exact B. cbn [bind].
  unfold read_back. rewrite Hu.
  destruct (kw_utterance _ _ W) as (u' & Hu' & Hn & Hsp). assert (u' = u) by congruence. subst u'.
  destruct (strip_line u Hn Hsp) as [-> ->]. f_equal. f_equal.
  unfold state. cbn [kg_links]. rewrite map_map. apply map_ext_in. intros x Hx.
  unfold conv, retarget, fin. destruct (is_final_node a (k_end x)) eqn:Ef; cbn [fst snd k_start k_end k_word k_ac k_lm k_transitions].
  - now rewrite (kw_final_words _ _ W x (grouped_sub x Hx) Ef).
  - now destruct x.
Qed.

Lemma read_back_ok : lattice_ok read_back.
Proof.
  assert (R : forall l, In l grouped -> k_end (retarget a f l) <= f).
  { intros l Hl. cbn [retarget k_end]. fold (fin l). destruct (fin l) eqn:E; [lia|].
    destruct (bound_In grouped l Hl) as [_ B]. specialize (B E). unfold f. lia. }
  split.
  - constructor.
    + intros l Hl. cbn [read_back a_links a_nodes] in *. rewrite app_length, nodes_length. cbn [length].
      apply in_map_iff in Hl. destruct Hl as (x & <- & Hx). specialize (R x Hx).
      destruct (bound_In grouped x Hx) as [B _]. fold f in B. cbn [retarget k_start] in *. lia.
    + intros i nd Hi. cbn [read_back a_links a_nodes] in *.
      change (links_from (map (retarget a f) grouped) i) with (positions (fun l => k_start l =? i) (map (retarget a f) grouped)).
      rewrite positions_map. cbn [retarget k_start].
      destruct (lt_dec i f) as [L|L].
      * rewrite nth_error_app1 in Hi by (rewrite nodes_length; exact L).
        unfold state in Hi. cbn [kg_nodes] in Hi. rewrite nth_error_map_seq in Hi.
        destruct (i <? bound grouped); [|discriminate]. injection Hi as <-. reflexivity.
      * rewrite nth_error_app2 in Hi by (rewrite nodes_length; lia). rewrite nodes_length in Hi.
        destruct (i - f) as [|d] eqn:Ed; [|destruct d; discriminate]. injection Hi as <-. cbn [n_out].
        symmetry. apply positions_none. intros l Hl. destruct (bound_In grouped l Hl) as [B _].
        fold f in B. apply Nat.eqb_neq. lia.
    + intros i nd Hi. cbn [read_back a_links a_nodes] in *.
      change (links_to (map (retarget a f) grouped) i) with (positions (fun l => k_end l =? i) (map (retarget a f) grouped)).
      rewrite positions_map. cbn [retarget k_end].
      destruct (lt_dec i f) as [L|L].
      * rewrite nth_error_app1 in Hi by (rewrite nodes_length; exact L).
        unfold state in Hi. cbn [kg_nodes] in Hi. rewrite nth_error_map_seq in Hi.
        destruct (i <? bound grouped); [|discriminate]. injection Hi as <-. cbn [n_in].
        apply positions_ext. intros l Hl. unfold fin. destruct (is_final_node a (k_end l)); [|reflexivity].
        cbn. symmetry. apply Nat.eqb_neq. lia.
      * rewrite nth_error_app2 in Hi by (rewrite nodes_length; lia). rewrite nodes_length in Hi.
        destruct (i - f) as [|d] eqn:Ed; [|destruct d; discriminate]. injection Hi as <-. cbn [n_in].
        assert (i = f) by lia. subst i.
        apply positions_ext. intros l Hl. unfold fin. destruct (is_final_node a (k_end l)) eqn:Ef.
        -- now rewrite Nat.eqb_refl.
        -- symmetry. apply Nat.eqb_neq. destruct (bound_In grouped l Hl) as [_ B]. specialize (B Ef). fold f in B. lia.
  - cbn [read_back a_nodes a_initial]. rewrite app_length, nodes_length. cbn [length].
    destruct grouped_first as (l & ls & E & Hs). assert (Hl : In l grouped) by (rewrite E; now left).
    destruct (bound_In grouped l Hl) as [B _]. fold f in B. lia.
Qed.

Lemma read_back_final i : is_final_node read_back i = true <-> i = f.
Proof.
  unfold is_final_node. cbn [read_back a_nodes].
  destruct (lt_dec i f) as [L|L].
  - rewrite nth_error_app1 by (rewrite nodes_length; exact L).
    unfold state. cbn [kg_nodes]. rewrite nth_error_map_seq. fold f.
    destruct (Nat.ltb_spec i f); [|lia]. cbn [n_final]. split; [discriminate|lia].
  - rewrite nth_error_app2 by (rewrite nodes_length; lia). rewrite nodes_length.
    destruct (i - f) as [|d] eqn:Ed; cbn [nth_error].
    + cbn [n_final]. split; [lia|reflexivity].
    + destruct d; cbn [nth_error]; (split; [discriminate|lia]).
Qed.

Lemma read_back_out i : out_links read_back i = map (retarget a f) (out_links a i).
Proof.
  unfold out_links at 1. cbn [read_back a_links]. rewrite <- grouped_out.
  generalize grouped as ls. induction ls as [|l ls IH]; [reflexivity|]. cbn [map filter retarget k_start].
  destruct (k_start l =? i); cbn [map]; now rewrite IH.
Qed.

Lemma read_back_same : same_links a read_back.
Proof.
  split; [reflexivity|]. split; [reflexivity|]. exists f. split; [apply read_back_final|].
  split; [|apply read_back_out].
  intros l Hl. apply grouped_In in Hl. destruct (bound_In grouped l Hl) as [B1 B2]. fold f in B1, B2.
  split; [lia|]. intros E. destruct (is_final_node a f) eqn:Ef; [reflexivity|].
  assert (fin l = false) by (unfold fin; now rewrite E). specialize (B2 H). lia.
Qed.

Lemma written_lines u : a_utterance a = Some u ->
  forall l, In l ((u ++ [newline]) :: map line_of grouped ++ [[newline]]) -> is_line l.
Proof.
  intros Hu l [<-|H].
  - destruct (kw_utterance _ _ W) as (u' & Hu' & _ & Hs). assert (u' = u) by congruence. subst u'.
    exists u. split; [reflexivity|]. intros c Hc ->. apply Hs in Hc. discriminate.
  - apply in_app_or in H. destruct H as [H|[<-|[]]].
    + apply in_map_iff in H. destruct H as (x & <- & Hx). apply line_is_line. now apply grouped_sub.
    + exists []. split; [reflexivity|intros ? []].
Qed.
Lemma written_nonblank u : a_utterance a = Some u ->
  forall l, In l ((u ++ [newline]) :: map line_of grouped) -> strip l <> [].
Proof.
  intros Hu l [<-|H].
  - destruct (kw_utterance _ _ W) as (u' & Hu' & Hn & Hs). assert (u' = u) by congruence. subst u'.
    now rewrite (proj1 (strip_line u Hn Hs)).
  - apply in_map_iff in H. destruct H as (x & <- & Hx). apply split_nonblank.
    rewrite line_tokens by now apply grouped_sub. destruct (fin x); discriminate.
Qed.
End Kaldi.

(** Two lattices with the same links accept the same labels. *)
Lemma accepts_inv a i labels : accepts a i labels ->
  labels = [] /\ is_final_node a i = true \/
  exists l ls, labels = link_label l :: ls /\ In l (a_links a) /\ k_start l = i /\ accepts a (k_end l) ls.
Proof. intros [j Hj|l ls Hl H]; [now left|]. right. exists l, ls. auto. Qed.

Lemma same_links_accepts w2i a a' : kaldi_writable w2i a -> same_links a a' ->
  forall labels, accepts a' (a_initial a') labels <-> accepts a (a_initial a) labels.
Proof.
  intros W (Ei & _ & f & Hf & Hx & Ho).
  assert (L1 : forall l, In l (a_links a) -> In (retarget a f l) (a_links a')).
  { intros l Hl. assert (H : In (retarget a f l) (out_links a' (k_start l))).
    { rewrite Ho. apply in_map. apply filter_In. split; [exact Hl|apply Nat.eqb_refl]. }
    now apply filter_In in H. }
  assert (L2 : forall l', In l' (a_links a') -> exists l, In l (a_links a) /\ l' = retarget a f l).
  { intros l' Hl. assert (H : In l' (out_links a' (k_start l'))) by (apply filter_In; split; [exact Hl|apply Nat.eqb_refl]).
    rewrite Ho in H. apply in_map_iff in H. destruct H as (l & <- & H). apply filter_In in H. exists l. tauto. }
  assert (Dead : forall l, In l (a_links a) -> is_final_node a (k_start l) = true -> False).
  { intros l Hl Hi. pose proof (kw_final _ _ W _ Hi) as H.
    assert (X : In l (out_links a (k_start l))) by (apply filter_In; split; [exact Hl|apply Nat.eqb_refl]).
    rewrite H in X. destruct X. }
  assert (F : forall i labels, accepts a i labels -> is_final_node a i = false -> accepts a' i labels).
  { intros i labels H. induction H as [i Hi|l labels Hl H IH]; intros Hn; [congruence|].
    change (k_start l) with (k_start (retarget a f l)).
    change (link_label l) with (link_label (retarget a f l)).
    apply acc_link; [now apply L1|]. cbn [retarget k_end].
    destruct (is_final_node a (k_end l)) eqn:Ef; [|now apply IH].
    destruct (accepts_inv _ _ _ H) as [[-> _]|(l2 & labels2 & _ & Hl2 & E1 & _)].
    - apply acc_final. now apply Hf.
    - exfalso. apply (Dead l2 Hl2). now rewrite E1. }
  assert (B : forall i labels, accepts a' i labels -> i <> f -> accepts a i labels).
  { intros i labels H. induction H as [i Hi|l' labels Hl H IH]; intros Hn; [now apply Hf in Hi|].
    destruct (L2 l' Hl) as (l & Hl0 & ->).
    change (k_start (retarget a f l)) with (k_start l).
    change (link_label (retarget a f l)) with (link_label l).
    apply acc_link; [exact Hl0|]. cbn [retarget k_end] in *.
    destruct (is_final_node a (k_end l)) eqn:Ef.
    - destruct (accepts_inv _ _ _ H) as [[-> _]|(l2 & labels2 & _ & Hl2 & E1 & _)].
      + now apply acc_final.
      + exfalso. destruct (L2 l2 Hl2) as (l3 & Hl3 & ->). apply (Hx l3) in Hl3. cbn [retarget k_start] in E1. tauto.
    - apply IH. intros E. rewrite E in Ef. apply Hx in Hl0. destruct Hl0 as [_ Hl0]. rewrite Hl0 in Ef by exact E. discriminate. }
  destruct (kw_initial _ _ W) as [Hi _].
  destruct (out_links a (a_initial a)) as [|l ls] eqn:Eo; [congruence|].
  assert (Hl : In l (out_links a (a_initial a))) by (rewrite Eo; now left).
  apply filter_In in Hl. destruct Hl as [Hl Hs]. apply Nat.eqb_eq in Hs.
  intros labels. rewrite Ei. split; intros H.
  - apply B; [exact H|]. rewrite <- Hs. now apply Hx.
  - apply F; [exact H|]. destruct (is_final_node a (a_initial a)) eqn:Ef; [|reflexivity].
    exfalso. apply (Dead l Hl). now rewrite Hs.
Qed.

Section Archive.
Variable parse_int : pystr -> result Z.
Variable parse_float : pystr -> result Qc.
Variable show_num : Qc -> pystr.
Variable show_z : Z -> pystr.
Hypothesis NT : number_text parse_int parse_float show_num.
Hypothesis IT : id_text parse_int show_z.
Variable w2i : dict pystr Z.
Variable table : list (option pystr).
Hypothesis VO : kaldi_vocabulary_ok w2i.
Hypothesis Htab : kaldi_id_to_word w2i = Ok table.

Definition text_lines (a : lattice) : list pystr :=
  (match a_utterance a with Some u => u | None => str "None" end ++ [newline])
  :: map (line_of show_num show_z w2i a) (grouped a).

Lemma kaldi_archive_written ls : Forall (kaldi_writable w2i) ls ->
  kaldi_archive (flat_map (fun a => text_lines a ++ [[newline]]) ls) [] = map (fun a => map strip (text_lines a)) ls.
Proof.
  intros H. apply archive_ok. induction H as [|a ls W _ IH]; cbn [flat_map map]; [constructor|].
  rewrite <- app_assoc. cbn [app]. apply ar_block; [discriminate| |reflexivity|exact IH].
  destruct (kw_utterance _ _ W) as (u & Hu & _). unfold text_lines. rewrite Hu.
  now apply (written_nonblank parse_int parse_float show_num show_z NT IT w2i a W u Hu).
Qed.

Lemma kaldi_round_trip ls : Forall (kaldi_writable w2i) ls ->
  exists texts read,
    mapM (write_kaldi show_num show_z w2i) ls = Ok texts /\
    mapM (fun block => read_kaldi parse_int parse_float block table)
         (kaldi_archive (file_lines (concat texts)) []) = Ok read /\
    Forall2 (fun a a' => lattice_ok a' /\ same_links a a') ls read.
Proof.
  intros H. 
  exists (map (fun a => concat (text_lines a ++ [[newline]])) ls), (map read_back ls).
  assert (HW : forall a, In a ls -> kaldi_writable w2i a) by now apply Forall_forall.
  split; [|split].
  - apply mapM_ok. intros a Ha. specialize (HW a Ha). unfold write_kaldi.
    destruct (kw_utterance _ _ HW) as (u & Hu & _).
    rewrite (write_lines show_num show_z w2i a HW u Hu). cbn [bind]. f_equal. f_equal.
    unfold text_lines. now rewrite Hu.
  - assert (E : file_lines (concat (map (fun a => concat (text_lines a ++ [[newline]])) ls))
                = flat_map (fun a => text_lines a ++ [[newline]]) ls).
    { transitivity (file_lines (concat (flat_map (fun a => text_lines a ++ [[newline]]) ls))).
      { f_equal. clear. induction ls as [|a ls IH]; [reflexivity|]. cbn [map concat flat_map].
        now rewrite IH, (concat_app (text_lines a ++ [[newline]])). }
      apply file_lines_concat. intros l Hl. apply in_flat_map in Hl. destruct Hl as (a & Ha & Hl). specialize (HW a Ha).
      destruct (kw_utterance _ _ HW) as (u & Hu & _). 
      apply (written_lines parse_int parse_float show_num show_z NT IT w2i a HW u Hu).
      unfold text_lines in Hl. now rewrite Hu in Hl. }
    rewrite E, kaldi_archive_written by exact H.
    clear E. induction ls as [|a ls IH]; [reflexivity|]. cbn [map mapM].
    assert (Ha : kaldi_writable w2i a) by (apply HW; now left).
    destruct (kw_utterance _ _ Ha) as (u & Hu & _).
    unfold text_lines at 1. rewrite Hu.
    rewrite (read_kaldi_written parse_int parse_float show_num show_z NT IT w2i table VO Htab a Ha u Hu). cbn [bind].
    rewrite IH; [reflexivity|now inversion H|]. intros b Hb. apply HW. now right.
  - clear HW. induction H as [|a ls W _ IH]; cbn [map]; constructor; [|exact IH].
    split; [now apply (read_back_ok w2i)|now apply (read_back_same w2i)].
Qed.
End Archive.
