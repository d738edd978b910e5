(** Invariants of the construction of rescored lattices. *)
From Coq Require Import QArith Qcanon.
From Verif Require Import Base ListLib BaseLib QcLib Strings Dict VocabModel LatticeModel LatticeSpec SortProofs GraphProofs SlfProofs
     DecoderModel DecoderSpec RescoredModel RescoredSpec FollowProofs.
Local Open Scope nat_scope.

Lemma words_of_app p q : words_of (p ++ q) = words_of p ++ words_of q.
Proof. unfold words_of. now rewrite map_app, concat_app. Qed.
Lemma words_of_cons l p : words_of (l :: p) = (match k_word l with Some w => [w] | None => [] end) ++ words_of p.
Proof. reflexivity. Qed.

Lemma leads_words a w i q : leads a w i q -> words_of q = [w].
Proof.
  induction 1 as [l _ E|l q _ E _ IH]; rewrite words_of_cons, E; [reflexivity|exact IH].
Qed.

(** Paths built from the front *)
Inductive rp (ls : list link) : nat -> list link -> nat -> Prop :=
| rp_nil i : rp ls i [] i
| rp_cons l p j : In l ls -> rp ls (k_end l) p j -> rp ls (k_start l) (l :: p) j.
Lemma rp_app ls i p j q k : rp ls i p j -> rp ls j q k -> rp ls i (p ++ q) k.
Proof. induction 1; cbn; [auto|]. intros. constructor; auto. Qed.
Lemma path_rp a i p j : path a i p j -> rp (a_links a) i p j.
Proof. induction 1 as [|i p l _ IH H]; [constructor|]. eapply rp_app; [exact IH|]. now repeat constructor. Qed.
Lemma path_cons a l p j : In l (a_links a) -> path a (k_end l) p j -> path a (k_start l) (l :: p) j.
Proof.
  intros H. remember (k_end l) as i eqn:E. intros Hp. revert E.
  induction Hp as [i|i p l' _ IH H']; intros ->.
  - apply (path_snoc a _ [] l); [constructor|exact H].
  - rewrite app_comm_cons. constructor; [now apply IH|exact H'].
Qed.
Lemma rp_path a i p j : rp (a_links a) i p j -> path a i p j.
Proof. induction 1; [constructor|]. now apply path_cons. Qed.
Lemma rp_mono ls ls' i p j : (forall x, In x ls -> In x ls') -> rp ls i p j -> rp ls' i p j.
Proof. intros H. induction 1; constructor; auto. Qed.
Lemma rp_nil_inv ls i j : rp ls i [] j -> i = j.
Proof. now inversion 1. Qed.

Lemma end_of_cons i l q : end_of i (l :: q) = end_of (k_end l) q.
Proof.
  unfold end_of. cbn [map]. destruct (map k_end q) as [|x r]; [reflexivity|]. cbn [last].
  clear. revert x. induction r as [|y r IH]; intros x; [reflexivity|]. cbn [last] in *. apply IH.
Qed.
Lemma rp_end ls i p j : rp ls i p j -> j = end_of i p.
Proof. induction 1 as [|l p j _ _ IH]; [reflexivity|]. now rewrite end_of_cons. Qed.
Lemma end_of_app i p q : end_of i (p ++ q) = end_of (end_of i p) q.
Proof. revert i. induction p as [|l p IH]; intros i; cbn [app]; [reflexivity|]. now rewrite !end_of_cons. Qed.
Lemma leads_rp a w i q : leads a w i q -> rp (a_links a) i q (end_of i q).
Proof.
  induction 1 as [l H E|l q H E _ IH].
  - rewrite end_of_cons. constructor; [exact H|constructor].
  - rewrite end_of_cons. now constructor.
Qed.

Section Reading.
Variable a : lattice.
Notation links := (a_links a).

(** How words are followed in the original lattice: those that cannot be followed
    are skipped. *)
Inductive reads : nat -> list pystr -> list (list link) -> nat -> Prop :=
| reads_nil i : reads i [] [] i
| reads_word i w q ws qs j : leads a w i q -> reads (end_of i q) ws qs j -> reads i (w :: ws) (q :: qs) j
| reads_skip i w ws qs j : (forall q, ~ leads a w i q) -> reads i ws qs j -> reads i (w :: ws) qs j.

Lemma reads_rp i ws qs j : reads i ws qs j -> rp links i (concat qs) j.
Proof.
  induction 1 as [|i w q ws qs j H _ IH|i w ws qs j _ _ IH]; cbn [concat]; [constructor| |exact IH].
  eapply rp_app; [exact (leads_rp _ _ _ _ H)|exact IH].
Qed.

Hypothesis Hdet : determinized a.

(** The first word of a path *)
Lemma rp_first_word w ws i p j : rp links i p j -> words_of p = w :: ws ->
  exists q p', p = q ++ p' /\ leads a w i q /\ rp links (end_of i q) p' j /\ words_of p' = ws.
Proof.
  induction 1 as [|l p j H Hp IH]; [discriminate|]. rewrite words_of_cons. destruct (k_word l) as [x|] eqn:E; cbn [app].
  - intros [= -> Ew]. exists [l], p. rewrite end_of_cons. cbn [end_of map last]. repeat split; auto. now constructor.
  - intros Ew. destruct (IH Ew) as (q & p' & -> & H1 & H2 & H3). exists (l :: q), p'. rewrite end_of_cons.
    repeat split; auto. now constructor.
Qed.

Lemma path_reads ws : forall i p j tail qs j', rp links i p j -> words_of p = ws ->
  (forall i' q w, In w tail -> ~ leads a w i' q) -> reads i (ws ++ tail) qs j' ->
  exists nulls, p = concat qs ++ nulls /\ words_of nulls = [] /\ rp links j' nulls j /\ words_of (concat qs) = ws /\
    length qs = length ws.
Proof.
  induction ws as [|w ws IH]; intros i p j tail qs j' Hp Ew Ht Hr.
  - cbn [app] in Hr. assert (X : qs = [] /\ j' = i).
    { clear -Ht Hr. induction Hr as [|i w q ws qs j H _ _|i w ws qs j H _ IH]; [auto| |].
      - exfalso. apply (Ht _ _ w (or_introl eq_refl) H).
      - apply IH. intros i' q u Hu. apply Ht. now right. }
    destruct X as [-> ->]. exists p. auto.
  - destruct (rp_first_word _ _ _ _ _ Hp Ew) as (q & p' & -> & H1 & H2 & H3). cbn [app] in Hr.
    inversion Hr as [|? ? q' ? qs' ? L R|? ? ? ? ? N R]; subst; [|exfalso; exact (N _ H1)].
    assert (q' = q) by (eapply Hdet; eassumption). subst q'.
    destruct (IH _ _ _ _ _ _ H2 eq_refl Ht R) as (nulls & -> & N1 & N2 & N3 & N4).
    exists nulls. cbn [concat length]. rewrite words_of_app, N3, (leads_words _ _ _ _ H1), N4, <- app_assoc. auto.
Qed.
End Reading.

Definition agree {A} (n : nat) (g h : nat -> A) : Prop := forall x, x < n -> g x = h x.
Definition other {A} (g : nat -> A) (n : nat) (y : A) : nat -> A := fun x => if x =? n then y else g x.
Lemma other_agree {A} (g : nat -> A) n y : agree n g (other g n y).
Proof. intros x Hx. unfold other. destruct (Nat.eqb_spec x n); [lia|reflexivity]. Qed.
Lemma other_same {A} (g : nat -> A) n y : other g n y n = y.
Proof. unfold other. now rewrite Nat.eqb_refl. Qed.

Section Building.
Variable state : Type.
Variable v : vocabulary.
Variable a : lattice.
Hypothesis Ha : lattice_ok a.
Hypothesis Hdet : determinized a.
Variable maps : list word_map.
Hypothesis Hmaps : add_word_maps (a_nodes a) (a_links a) = Ok maps.

Notation follow_words := (follow_words a maps).

(** Ordinary links *)
Definition plain (st : rstate) : list link := map fst (filter (fun x => negb (snd x)) (r_links st)).
Lemma plain_In st l : In l (plain st) <-> In (l, false) (r_links st).
Proof.
  unfold plain. rewrite in_map_iff. split.
  - intros ([x b] & <- & H). apply filter_In in H as [H E]. now destruct b.
  - intros H. exists (l, false). split; [reflexivity|]. apply filter_In. auto.
Qed.

(** [og]: the node of the original lattice that corresponds to a node; [sq]: the
    words that lead to it, as long as the lattice is a tree *)
Record core (tree : bool) (og : nat -> nat) (sq : nat -> list pystr) (st : rstate) : Prop := {
  c_pos : 0 < length (r_nodes st);
  c_og : og 0 = a_initial a;
  c_range : forall x, x < length (r_nodes st) -> og x < length (a_nodes a);
  c_sq : sq 0 = [];
  c_link : forall l, In (l, false) (r_links st) ->
    k_start l < length (r_nodes st) /\ k_end l < length (r_nodes st) /\
    exists w q, k_word l = Some w /\ leads a w (og (k_start l)) q /\ og (k_end l) = end_of (og (k_start l)) q /\
      (exists lm, k_lm l = Some lm) /\
      (tree = true -> merged q l /\ sq (k_end l) = sq (k_start l) ++ [w]);
  c_map : forall i n w k, nth_error (r_nodes st) i = Some n -> dict_get pystr_eq_dec (r_map n) w = Some k ->
    exists l, nth_error (r_links st) k = Some (l, false) /\ k_start l = i /\ k_word l = Some w;
  c_out : forall i n k, nth_error (r_nodes st) i = Some n -> In k (r_out n) ->
    exists l b, nth_error (r_links st) k = Some (l, b) /\ k_start l = i;
  c_final : forall l, In (l, true) (r_links st) -> k_start l < length (r_nodes st) /\ k_word l = None
}.

Lemma c_bound tree og sq st i k n : core tree og sq st -> nth_error (r_nodes st) i = Some n -> In k (r_out n) ->
  k < length (r_links st).
Proof. intros C E H. destruct (c_out _ _ _ _ C _ _ _ E H) as (l & b & El & _). apply nth_error_Some. congruence. Qed.

(** Adding a link *)
Lemma r_add_core tree og sq st i l b wd st' :
  core tree og sq st -> k_start l = i ->
  (b = false -> k_end l < length (r_nodes st) /\
    exists w q, wd = Some w /\ k_word l = Some w /\ leads a w (og i) q /\ og (k_end l) = end_of (og i) q /\
      (exists lm, k_lm l = Some lm) /\
      (tree = true -> merged q l /\ sq (k_end l) = sq i ++ [w])) ->
  (b = true -> k_word l = None /\ wd = None) ->
  r_add st i l b wd = Ok st' ->
  core tree og sq st' /\ length (r_nodes st') = length (r_nodes st) /\ r_links st' = r_links st ++ [(l, b)].
Proof.
  intros C Es Hf Ht. unfold r_add, py_index. destruct (nth_error (r_nodes st) i) as [n|] eqn:En; cbn [bind]; [|discriminate].
  intros [= <-]. cbn [r_nodes r_links]. rewrite upd_length. refine (conj _ (conj eq_refl eq_refl)).
  assert (Hi : i < length (r_nodes st)) by (apply nth_error_Some; congruence).
  assert (K : forall k x, nth_error (r_links st) k = Some x -> nth_error (r_links st ++ [(l, b)]) k = Some x).
  { intros k x Hk. rewrite nth_error_app1; [exact Hk|]. apply nth_error_Some. congruence. }
  assert (Kn : nth_error (r_links st ++ [(l, b)]) (length (r_links st)) = Some (l, b)).
  { rewrite nth_error_app2, Nat.sub_diag by lia. reflexivity. }
  constructor; cbn [r_nodes r_links]; rewrite ?upd_length; try apply C.
  - intros l0 H. apply in_app_or in H as [H|[[= <- Eb]|[]]]; [now apply (c_link _ _ _ _ C)|].
    destruct (Hf Eb) as (H1 & w & q & _ & H2). rewrite Es. eauto.
  - intros j m w k. rewrite nth_error_upd. destruct (Nat.eqb_spec j i) as [->|Hj].
    + destruct (i <? _); [|discriminate]. intros [= <-]. cbn [r_map]. destruct wd as [w0|].
      * destruct (list_eq_dec N.eq_dec w w0) as [->|Hw].
        -- rewrite dict_get_set_same. intros [= <-]. exists l. destruct b.
           ++ destruct (Ht eq_refl) as [_ X]. discriminate.
           ++ destruct (Hf eq_refl) as (_ & w1 & q & [= <-] & H2 & _). auto.
        -- rewrite dict_get_set_other by congruence. intros H. destruct (c_map _ _ _ _ C _ _ _ _ En H) as (l0 & H1 & H2). eauto.
      * intros H. destruct (c_map _ _ _ _ C _ _ _ _ En H) as (l0 & H1 & H2). eauto.
    + intros Em H. destruct (c_map _ _ _ _ C _ _ _ _ Em H) as (l0 & H1 & H2). eauto.
  - intros j m k. rewrite nth_error_upd. destruct (Nat.eqb_spec j i) as [->|Hj].
    + destruct (i <? _); [|discriminate]. intros [= <-]. cbn [r_out]. intros H. apply in_app_or in H as [H|[<-|[]]].
      * destruct (c_out _ _ _ _ C _ _ _ En H) as (l0 & b0 & H1 & H2). eauto.
      * eauto.
    + intros Em H. destruct (c_out _ _ _ _ C _ _ _ Em H) as (l0 & b0 & H1 & H2). eauto.
  - intros l0 H. apply in_app_or in H as [H|[[= <- Eb]|[]]]; [now apply (c_final _ _ _ _ C)|].
    rewrite Es. split; [exact Hi|]. now apply Ht.
Qed.

(** Adding a node *)
Lemma add_node_core tree og sq st j s : core tree og sq st -> j < length (a_nodes a) ->
  let e := length (r_nodes st) in
  core tree (other og e j) (other sq e s) (mkRstate (r_nodes st ++ [mkRnode [] []]) (r_links st)).
Proof.
  intros C Hj e. pose proof (c_pos _ _ _ _ C) as Hp.
  assert (Ag : forall x, x < length (r_nodes st) -> other og e j x = og x) by (intros; symmetry; now apply other_agree).
  assert (As : forall x, x < length (r_nodes st) -> other sq e s x = sq x) by (intros; symmetry; now apply other_agree).
  constructor; cbn [r_nodes r_links]; rewrite ?app_length; cbn [length].
  - lia.
  - rewrite Ag by exact Hp. apply C.
  - intros x Hx. unfold other. destruct (Nat.eqb_spec x e); [exact Hj|]. apply (c_range _ _ _ _ C). unfold e in *. lia.
  - rewrite As by exact Hp. apply C.
  - intros l H. destruct (c_link _ _ _ _ C _ H) as (H1 & H2 & w & q & H3). rewrite !Ag, !As by assumption.
    split; [lia|]. split; [lia|]. eauto.
  - intros i n w k H. destruct (Nat.lt_ge_cases i (length (r_nodes st))) as [Hi|Hi].
    + rewrite nth_error_app1 in H by exact Hi. now apply (c_map _ _ _ _ C).
    + rewrite nth_error_app2 in H by exact Hi. destruct (i - _) as [|[|z]]; cbn in H; try discriminate.
      injection H as <-. discriminate.
  - intros i n k H. destruct (Nat.lt_ge_cases i (length (r_nodes st))) as [Hi|Hi].
    + rewrite nth_error_app1 in H by exact Hi. now apply (c_out _ _ _ _ C).
    + rewrite nth_error_app2 in H by exact Hi. destruct (i - _) as [|[|z]]; cbn in H; try discriminate.
      injection H as <-. intros [].
  - intros l H. destruct (c_final _ _ _ _ C _ H). split; [lia|assumption].
Qed.

Lemma end_of_range w i q : leads a w i q -> end_of i q < length (a_nodes a).
Proof.
  intros H. destruct (leads_cons _ _ _ _ H) as (l & q' & -> & _). 
  assert (G : forall i q, rp (a_links a) i q (end_of i q) -> q <> [] -> end_of i q < length (a_nodes a)).
  { intros i0 q0. remember (end_of i0 q0) as j. intros Hp. clear Heqj. induction Hp as [|x p j Hx Hp IH]; [congruence|].
    intros _. destruct p as [|y p]; [|apply IH; discriminate]. apply rp_nil_inv in Hp as <-.
    now apply (go_range _ _ (proj1 Ha)). }
  apply G; [exact (leads_rp _ _ _ _ H)|discriminate].
Qed.

Definition grows (st st' : rstate) : Prop :=
  length (r_nodes st) <= length (r_nodes st') /\
  exists ys, r_links st' = r_links st ++ ys /\ forall y, In y ys -> snd y = false.
Lemma grows_refl st : grows st st.
Proof. split; [lia|]. exists []. rewrite app_nil_r. split; [reflexivity|intros ? []]. Qed.
Lemma grows_trans s1 s2 s3 : grows s1 s2 -> grows s2 s3 -> grows s1 s3.
Proof.
  intros [L1 (y1 & E1 & F1)] [L2 (y2 & E2 & F2)]. split; [lia|]. exists (y1 ++ y2).
  rewrite E2, E1, app_assoc. split; [reflexivity|]. intros y Hy. apply in_app_or in Hy as [Hy|Hy]; auto.
Qed.
Lemma grows_plain s1 s2 : grows s1 s2 -> forall x, In x (plain s1) -> In x (plain s2).
Proof. intros [_ (ys & E & _)] x. rewrite !plain_In, E. intros H. apply in_or_app. now left. Qed.
Lemma grows_final s1 s2 l : grows s1 s2 -> In (l, true) (r_links s2) -> In (l, true) (r_links s1).
Proof. intros [_ (ys & E & F)] H. rewrite E in H. apply in_app_or in H as [H|H]; [exact H|]. apply F in H. discriminate. Qed.

Lemma follow_words_core tree create ws : forall og sq st node st' e,
  core tree og sq st -> node < length (r_nodes st) ->
  follow_words create ws st node (og node) = Ok (Some (st', e)) ->
  exists og' sq' qs p', core tree og' sq' st' /\ agree (length (r_nodes st)) og og' /\ agree (length (r_nodes st)) sq sq' /\
    grows st st' /\ e < length (r_nodes st') /\ reads a (og node) ws qs (og' e) /\
    rp (plain st') node p' e /\ words_of p' = words_of (concat qs) /\
    (create = false -> st' = st) /\
    (tree = true -> Forall2 merged qs p' /\ sq' e = sq node ++ words_of (concat qs)).
Proof.
  induction ws as [|w ws IH]; intros og sq st node st' e C Hn; cbn [RescoredModel.follow_words].
  - intros [= <- <-]. exists og, sq, [], []. cbn [concat]. split; [exact C|]. split; [intros ? _; reflexivity|].
    split; [intros ? _; reflexivity|]. split; [apply grows_refl|]. split; [exact Hn|]. split; [constructor|].
    split; [constructor|]. split; [reflexivity|]. split; [reflexivity|]. intros _. cbn. rewrite app_nil_r. split; [constructor|reflexivity].
  - destruct (follow_word _ _ _ (og node) w) as [x|] eqn:Ef; cbn [bind]; [|discriminate].
    pose proof (follow_spec a Ha maps Hmaps w _ _ _ Ef) as F. destruct x as [[[[oe ac] lm] tr]|].
    2:{ intros E. destruct (IH _ _ _ _ _ _ C Hn E) as (og' & sq' & qs & p' & H1 & H2 & H3 & H4 & H5 & H6 & H7).
        exists og', sq', qs, p'. split; [exact H1|]. split; [exact H2|]. split; [exact H3|]. split; [exact H4|].
        split; [exact H5|]. split; [|exact H7]. now apply reads_skip. }
    destruct F as (q & F1 & -> & -> & -> & ->). unfold py_index at 1.
    destruct (nth_error (r_nodes st) node) as [n|] eqn:En; cbn [bind]; [|discriminate].
    destruct (dict_get pystr_eq_dec (r_map n) w) as [k|] eqn:Ed.
    + destruct (c_map _ _ _ _ C _ _ _ _ En Ed) as (l & El & Es & Ew). unfold py_index at 1. rewrite El. cbn [bind fst].
      assert (Hl : In (l, false) (r_links st)) by (eapply nth_error_In; exact El).
      destruct (c_link _ _ _ _ C _ Hl) as (_ & He & w' & q' & Ew' & L' & Eo & _ & T).
      assert (w' = w) by congruence. subst w'. rewrite Es in *.
      assert (q' = q) by (eapply Hdet; eassumption). subst q'. rewrite <- Eo. intros E.
      destruct (IH _ _ _ _ _ _ C He E) as (og' & sq' & qs & p' & H1 & H2 & H3 & H4 & H5 & H6 & H7 & H8 & H9 & H10).
      exists og', sq', (q :: qs), (l :: p'). split; [exact H1|]. split; [exact H2|]. split; [exact H3|]. split; [exact H4|].
      split; [exact H5|]. split; [econstructor; [exact F1|]; now rewrite <- Eo|]. split; [|split; [|split; [exact H9|]]].
      * rewrite <- Es. constructor; [|exact H7]. apply (grows_plain _ _ H4). now apply plain_In.
      * cbn [concat]. rewrite words_of_cons, words_of_app, Ew, H8, (leads_words _ _ _ _ F1). reflexivity.
      * intros Ht. destruct (H10 Ht) as [M S]. destruct (T Ht) as [M1 S1]. split; [now constructor|].
        cbn [concat]. rewrite S, S1, words_of_app, (leads_words _ _ _ _ F1), <- app_assoc. reflexivity.
    + destruct create; [|discriminate]. set (e0 := length (r_nodes st)).
      set (st1 := mkRstate (r_nodes st ++ [mkRnode [] []]) (r_links st)).
      set (l := mkLink node e0 (Some w) (Some (sum_ac q)) (Some (sum_lm q)) (concat (rev (map k_transitions q)))).
      destruct (r_add st1 node l false (Some w)) as [st2|] eqn:Ea; cbn [bind]; [|discriminate].
      set (j := end_of (og node) q). set (og1 := other og e0 j). set (sq1 := other sq e0 (sq node ++ [w])).
      assert (Hnode : og1 node = og node) by (symmetry; apply other_agree; exact Hn).
      assert (Snode : sq1 node = sq node) by (symmetry; apply other_agree; exact Hn).
      assert (M : merged q l).
      { refine (conj _ (conj eq_refl (conj eq_refl eq_refl))). cbn [k_word l].
        clear -F1. induction F1 as [x _ E|x q _ E _ (q0 & y & -> & E0)].
        - exists [], x. auto.
        - exists (x :: q0), y. auto. }
      pose proof (add_node_core tree og sq st j (sq node ++ [w]) C (end_of_range _ _ _ F1)) as C1. cbv zeta in C1.
      fold e0 og1 sq1 st1 in C1.
      destruct (r_add_core tree og1 sq1 st1 node l false (Some w) st2 C1 eq_refl) as (C2 & L2 & E2); [|discriminate|exact Ea|].
      { intros _. cbn [k_end l]. split; [unfold st1; cbn [r_nodes]; rewrite app_length; cbn [length]; unfold e0; lia|].
        exists w, q. split; [reflexivity|]. split; [reflexivity|]. rewrite Hnode, Snode. unfold og1, sq1. rewrite !other_same.
        split; [exact F1|]. split; [reflexivity|]. split; [eexists; reflexivity|]. auto. }
      assert (L3 : length (r_nodes st2) = S e0) by (rewrite L2; unfold st1; cbn [r_nodes]; rewrite app_length; cbn [length]; unfold e0; lia).
      intros E. fold j in E. replace j with (og1 e0) in E by apply other_same.
      destruct (IH og1 sq1 st2 e0 st' e C2) as (og' & sq' & qs & p' & H1 & H2 & H3 & H4 & H5 & H6 & H7 & H8 & H9 & H10); [lia|exact E|].
      assert (G : grows st st2).
      { split; [unfold e0 in L3; lia|]. exists [(l, false)]. rewrite E2. split; [reflexivity|]. intros y [<-|[]]. reflexivity. }
      exists og', sq', (q :: qs), (l :: p'). split; [exact H1|].
      split; [intros x Hx; rewrite <- H2 by (unfold e0 in L3; lia); now apply other_agree|].
      split; [intros x Hx; rewrite <- H3 by (unfold e0 in L3; lia); now apply other_agree|].
      split; [eapply grows_trans; eassumption|]. split; [exact H5|].
      split; [econstructor; [exact F1|]; unfold og1 in H6 at 1; now rewrite other_same in H6|]. split; [|split; [|split]].
      * apply (rp_cons _ l); [|exact H7]. apply (grows_plain _ _ H4). apply plain_In. rewrite E2. apply in_or_app. right. now left.
      * cbn [concat]. rewrite words_of_cons, words_of_app, H8, (leads_words _ _ _ _ F1). reflexivity.
      * discriminate.
      * intros Ht. destruct (H10 Ht) as [M' S']. split; [now constructor|].
        cbn [concat]. rewrite S'. unfold sq1. rewrite other_same, words_of_app, (leads_words _ _ _ _ F1), <- app_assoc. reflexivity.
Qed.

(** ** Final tokens *)

Hypothesis Heos : forall l, In l (a_links a) -> k_word l <> Some EOS.

Definition tok_path (t : token state) (p : list link) (j : nat) : Prop :=
  rp (a_links a) (a_initial a) p j /\ is_final_node a j = true /\ speaks v t (words_of p).

Lemma leads_link w i q : leads a w i q -> exists l, In l (a_links a) /\ k_word l = Some w.
Proof. induction 1; eauto. Qed.

Lemma mapM_words hs ws : Forall2 (word_is v) hs ws -> mapM (word_text v) hs = Ok ws.
Proof.
  induction 1 as [|h w hs ws H _ IH]; [reflexivity|]. cbn [mapM]. rewrite IH.
  unfold word_text, word_is in *. destruct h as [i|s]; [|now subst s]. unfold py_index. rewrite H. reflexivity.
Qed.
Lemma words_unique hs ws ws' : Forall2 (word_is v) hs ws -> Forall2 (word_is v) hs ws' -> ws = ws'.
Proof. intros H H'. apply mapM_words in H. apply mapM_words in H'. congruence. Qed.

(** The path is kept: null links are merged to the next word, and those at the end
    are dropped. *)
Definition kept_in (sq : nat -> list pystr) (st : rstate) (p : list link) : Prop :=
  exists qs nulls p' l, p = concat qs ++ nulls /\ words_of nulls = [] /\ Forall2 merged qs p' /\
    rp (plain st) 0 p' (k_start l) /\ In (l, true) (r_links st) /\ sq (k_start l) = words_of p /\ words_of p' = words_of p.

Record inv1 (done : list (token state)) (og : nat -> nat) (sq : nat -> list pystr) (st : rstate) : Prop := {
  i1_core : core true og sq st;
  i1_final : forall l, In (l, true) (r_links st) -> k_ac l = Some 0%Qc /\
    (null_free a -> is_final_node a (og (k_start l)) = true) /\
    exists t p j, In t done /\ k_lm l = Some (tk_nn _ t) /\ tok_path t p j /\ sq (k_start l) = words_of p;
  i1_kept : forall t p j, In t done -> tok_path t p j -> kept_in sq st p
}.

Lemma null_free_nulls ls i p j : null_free a -> (forall x, In x ls -> In x (a_links a)) ->
  rp ls i p j -> words_of p = [] -> p = [] /\ i = j.
Proof.
  intros Hn Hs. inversion 1 as [|l p' j' Hl Hp]; subst; [auto|]. rewrite words_of_cons.
  destruct (k_word l) eqn:E; [discriminate|]. exfalso. apply (Hn l); auto.
Qed.

Lemma add_final_inv1 done og sq st t p0 j0 st' : inv1 done og sq st -> tok_path t p0 j0 ->
  add_final_token state v a maps st t = Ok st' ->
  exists og' sq', inv1 (done ++ [t]) og' sq' st'.
Proof.
  intros [C F K] T0. unfold add_final_token, follow_word_ids.
  destruct T0 as (P0 & N0 & first & hs & Eh & W0). rewrite Eh. cbn [tl]. rewrite (mapM_words _ _ W0). cbn [bind].
  rewrite <- (c_og _ _ _ _ C). destruct (follow_words true _ st 0 (og 0)) as [[[st1 e]|]|] eqn:Ef; cbn [bind]; try discriminate.
  destruct (follow_words_core true true _ _ _ _ _ _ _ C (c_pos _ _ _ _ C) Ef)
    as (og1 & sq1 & qs & p' & C1 & A1 & A2 & G & He & R & P & Wp & _ & T).
  destruct (T eq_refl) as [M S]. rewrite (c_sq _ _ _ _ C) in S. cbn [app] in S.
  rewrite (c_og _ _ _ _ C) in R.
  assert (Tl : forall i' q w, In w [EOS] -> ~ leads a w i' q).
  { intros i' q w [<-|[]] L. apply leads_link in L as (l & Hl & El). exact (Heos l Hl El). }
  assert (Read : forall p j, tok_path t p j -> exists nulls, p = concat qs ++ nulls /\ words_of nulls = [] /\
     rp (a_links a) (og1 e) nulls j /\ words_of (concat qs) = words_of p).
  { intros p j (Hp & _ & f & hs' & Eh' & W). rewrite Eh in Eh'. injection Eh' as <- <-.
    assert (Ew : words_of p0 ++ [EOS] = words_of p ++ [EOS]) by (eapply words_unique; eassumption).
    apply app_inj_tail in Ew as [Ew _]. rewrite Ew in R.
    destruct (path_reads a Hdet _ _ _ _ _ _ _ Hp eq_refl Tl R) as (nulls & H1 & H2 & H3 & H4 & _). eauto 6. }
  assert (Tp : tok_path t p0 j0) by (split; [exact P0|]; split; [exact N0|]; exists first, hs; auto).
  assert (Fin : null_free a -> is_final_node a (og1 e) = true).
  { intros Hnf. destruct (Read _ _ Tp) as (nulls & _ & E0 & Hr & _).
    destruct (null_free_nulls _ _ _ _ Hnf (fun x H => H) Hr E0) as [_ ->]. exact N0. }
  assert (Sf : forall l, In (l, true) (r_links st) -> k_start l < length (r_nodes st)) by (intros l Hl; apply (c_final _ _ _ _ C l Hl)).
  unfold py_index at 1. destruct (nth_error (r_nodes st1) e) as [n|] eqn:En; cbn [bind]; [|discriminate].
  destruct (mapM _ (r_out n)) as [outs|] eqn:Eo; cbn [bind]; [|discriminate].
  assert (Old : forall p, kept_in sq st p -> kept_in sq1 st1 p).
  { intros p (qs0 & nulls & p1 & l & H1 & H2 & H3 & H4 & H5 & H6). exists qs0, nulls, p1, l.
    split; [exact H1|]. split; [exact H2|]. split; [exact H3|]. split; [exact (rp_mono _ _ _ _ _ (grows_plain _ _ G) H4)|].
    split; [|rewrite <- A2 by (destruct H6; now apply Sf); exact H6]. destruct G as [_ (ys & -> & _)]. apply in_or_app. now left. }
  destruct (existsb snd outs) eqn:Ex.
  - intros [= <-]. exists og1, sq1.
    apply existsb_exists in Ex as ([l b] & Hl & Eb). cbn in Eb. subst b.
    assert (X : In (l, true) (r_links st1) /\ k_start l = e).
    { clear -Eo Hl C1 En. apply mapM_inv in Eo. 
      assert (Y : exists k, In k (r_out n) /\ py_index (r_links st1) k = Ok (l, true)).
      { clear -Eo Hl. induction Eo as [|x y xs ys H _ IH]; [destruct Hl|]. destruct Hl as [->|Hl]; [exists x; split; [now left|exact H]|].
        destruct (IH Hl) as (k & H1 & H2). exists k. split; [now right|exact H2]. }
      destruct Y as (k & Hk & E). unfold py_index in E. destruct (nth_error (r_links st1) k) as [x|] eqn:Ek; [|discriminate].
      injection E as ->. split; [eapply nth_error_In; exact Ek|].
      destruct (c_out _ _ _ _ C1 _ _ _ En Hk) as (l' & b' & E' & Es). congruence. }
    destruct X as [Hl1 Es]. constructor; [exact C1| |].
    + intros l2 H2. pose proof (grows_final _ _ _ G H2) as H3. destruct (F _ H3) as (F1 & F2 & t' & p & j & F3 & F4 & F5 & F6).
      pose proof (Sf _ H3). split; [exact F1|]. rewrite <- A1, <- A2 by assumption. split; [exact F2|].
      exists t', p, j. split; [apply in_or_app; now left|]. auto.
    + intros t' p j Ht Htp. apply in_app_or in Ht as [Ht|[<-|[]]]; [now apply Old, (K t' p j)|].
      destruct (Read _ _ Htp) as (nulls & E1 & E2 & _ & E3). exists qs, nulls, p', l.
      rewrite Es. split; [exact E1|]. split; [exact E2|]. split; [exact M|]. split; [exact P|]. split; [exact Hl1|].
      rewrite S, Wp. auto.
  - intros Ea. set (l := mkLink e 0 None (Some 0%Qc) (Some (tk_nn _ t)) []) in *.
    destruct (r_add_core true og1 sq1 st1 e l true None st' C1 eq_refl) as (C2 & L2 & E2); [discriminate|auto|exact Ea|].
    assert (Pl : forall x, In x (plain st1) -> In x (plain st')).
    { intros x. rewrite !plain_In, E2. intros H. apply in_or_app. now left. }
    assert (Se : sq1 e = words_of p0) by (destruct (Read _ _ Tp) as (nulls & _ & _ & _ & <-); exact S).
    exists og1, sq1. constructor; [exact C2| |].
    + intros l2 H2. rewrite E2 in H2. apply in_app_or in H2 as [H2|[[= <-]|[]]].
      * pose proof (grows_final _ _ _ G H2) as H3. destruct (F _ H3) as (F1 & F2 & t' & p & j & F3 & F4 & F5 & F6).
        pose proof (Sf _ H3). split; [exact F1|]. rewrite <- A1, <- A2 by assumption. split; [exact F2|].
        exists t', p, j. split; [apply in_or_app; now left|]. auto.
      * split; [reflexivity|]. cbn [k_start l]. split; [exact Fin|]. exists t, p0, j0.
        split; [apply in_or_app; right; now left|]. auto.
    + intros t' p j Ht Htp. apply in_app_or in Ht as [Ht|[<-|[]]].
      * apply K in Htp; [|exact Ht]. apply Old in Htp as (qs0 & nulls & p1 & l1 & H1 & H2 & H3 & H4 & H5 & H6).
        exists qs0, nulls, p1, l1. split; [exact H1|]. split; [exact H2|]. split; [exact H3|].
        split; [exact (rp_mono _ _ _ _ _ Pl H4)|]. split; [|exact H6]. rewrite E2. apply in_or_app. now left.
      * destruct (Read _ _ Htp) as (nulls & E3 & E4 & _ & E5). exists qs, nulls, p', l.
        split; [exact E3|]. split; [exact E4|]. split; [exact M|]. split; [exact (rp_mono _ _ _ _ _ Pl P)|].
        split; [rewrite E2; apply in_or_app; right; now left|]. cbn [k_start l]. rewrite S, Wp. auto.
Qed.

Lemma add_finals_inv1 tokens : forall done og sq st st', inv1 done og sq st ->
  (forall t, In t tokens -> exists p j, tok_path t p j) ->
  foldM (add_final_token state v a maps) tokens st = Ok st' ->
  exists og' sq', inv1 (done ++ tokens) og' sq' st'.
Proof.
  induction tokens as [|t tokens IH]; intros done og sq st st' I H; cbn [foldM].
  - intros [= <-]. rewrite app_nil_r. eauto.
  - destruct (add_final_token _ _ _ _ st t) as [st1|] eqn:E; cbn [bind]; [|discriminate].
    destruct (H t (or_introl eq_refl)) as (p & j & Hp). destruct (add_final_inv1 _ _ _ _ _ _ _ _ I Hp E) as (og1 & sq1 & I1).
    intros E'. destruct (IH _ _ _ _ _ I1 (fun t' H' => H t' (or_intror H')) E') as (og2 & sq2 & I2).
    exists og2, sq2. now rewrite <- app_assoc in I2.
Qed.

Lemma initial_core tree : a_initial a < length (a_nodes a) ->
  core tree (fun _ => a_initial a) (fun _ => []) (mkRstate [mkRnode [] []] []).
Proof.
  intros Hi. constructor; cbn [r_nodes r_links length]; try (intros; contradiction); auto.
  - intros i n w k H. destruct i as [|[|i]]; cbn in H; try discriminate. injection H as <-. discriminate.
  - intros i n k H. destruct i as [|[|i]]; cbn in H; try discriminate. injection H as <-. intros [].
Qed.

(** ** Recombined tokens *)

(** Links are only added. *)
Definition extends (st st' : rstate) : Prop := exists ys, r_links st' = r_links st ++ ys.
Lemma extends_refl st : extends st st. Proof. exists []. now rewrite app_nil_r. Qed.
Lemma extends_trans s1 s2 s3 : extends s1 s2 -> extends s2 s3 -> extends s1 s3.
Proof. intros [x E] [y E']. exists (x ++ y). now rewrite E', E, app_assoc. Qed.
Lemma r_add_extends st i l b wd st' : r_add st i l b wd = Ok st' -> extends st st'.
Proof. unfold r_add. destruct (py_index _ _); cbn [bind]; [|discriminate]. intros [= <-]. eexists. reflexivity. Qed.
Lemma follow_extends create ws : forall st node orig st' e,
  follow_words create ws st node orig = Ok (Some (st', e)) -> extends st st'.
Proof.
  induction ws as [|w ws IH]; intros st node orig st' e; cbn [RescoredModel.follow_words].
  - intros [= <- _]. apply extends_refl.
  - destruct (follow_word _ _ _ _ _) as [[[[[oe ac] lm] tr]|]|]; cbn [bind]; try discriminate; [|apply IH].
    destruct (py_index _ _) as [n|]; cbn [bind]; [|discriminate]. destruct (dict_get _ _ _) as [k|].
    + destruct (py_index (r_links st) k) as [l|]; cbn [bind]; [|discriminate]. apply IH.
    + destruct create; [|discriminate]. destruct (r_add _ _ _ _ _) as [st1|] eqn:E; cbn [bind]; [|discriminate].
      intros E'. apply IH in E'. apply r_add_extends in E. eapply extends_trans; [|exact E'].
      destruct E as [ys E]. exists ys. exact E.
Qed.
Lemma recombined_extends st x st' : add_recombined state v a maps st x = Ok st' -> extends st st'.
Proof.
  destruct x as [[t h] nn]. unfold add_recombined. destruct (rev h) as [|l' r']; [discriminate|].
  destruct (rev (tk_history _ t)) as [|l r]; [discriminate|].
  destruct (match l' with inl _ => _ | inr _ => _ end); [|discriminate].
  destruct (word_text v l) as [w|]; cbn [bind]; [|discriminate].
  unfold follow_word_ids. destruct (mapM _ _) as [ws'|]; cbn [bind]; [|discriminate].
  destruct (follow_words false _ _ _ _) as [[[st1 e1]|]|] eqn:E1; cbn [bind]; try discriminate; [|intros [= <-]; apply extends_refl].
  apply follow_extends in E1. destruct (py_index _ _) as [n|]; cbn [bind]; [|discriminate].
  destruct (dict_get _ _ _) as [k|]; [|intros [= <-]; exact E1].
  destruct (py_index _ _) as [[l2 b]|]; cbn [bind]; [|discriminate].
  destruct (mapM _ (tl (rev r))) as [ws|]; cbn [bind]; [|discriminate].
  destruct (follow_words true _ _ _ _) as [[[st2 e2]|]|] eqn:E2; cbn [bind]; try discriminate.
  apply follow_extends in E2. intros E3. apply r_add_extends in E3. eauto using extends_trans.
Qed.
Lemma recombined_all_extends xs : forall st st', foldM (add_recombined state v a maps) xs st = Ok st' -> extends st st'.
Proof.
  induction xs as [|x xs IH]; intros st st'; cbn [foldM]; [intros [= <-]; apply extends_refl|].
  destruct (add_recombined _ _ _ _ st x) as [st1|] eqn:E; cbn [bind]; [|discriminate]. intros E'.
  eapply extends_trans; [exact (recombined_extends _ _ _ E)|now apply IH].
Qed.

Lemma core_weaken og sq st : core true og sq st -> core false og sq st.
Proof.
  intros [H1 H2 H3 H4 H5 H6 H7 H8]. constructor; auto. intros l Hl.
  destruct (H5 l Hl) as (A & B & w & q & D1 & D2 & D3 & D4 & _). refine (conj A (conj B _)). exists w, q. repeat split; auto; discriminate.
Qed.

Hypothesis Hnf : null_free a.
Hypothesis Hsos : forall l, In l (a_links a) -> k_word l <> Some SOS.

(** Two paths that end with the same word in the same node, or a word that does not
    occur in the lattice *)
Definition same_place (t : token state) (h : list hword) : Prop :=
  (exists j p1 l1 p2 l2 first1 hs1 first2 hs2 w,
     rp (a_links a) (a_initial a) (p1 ++ [l1]) j /\ rp (a_links a) (a_initial a) (p2 ++ [l2]) j /\
     tk_history _ t = first1 :: hs1 /\ h = first2 :: hs2 /\
     Forall2 (word_is v) hs1 (words_of p1 ++ [w]) /\ Forall2 (word_is v) hs2 (words_of p2 ++ [w]) /\
     k_word l1 = Some w /\ k_word l2 = Some w) \/
  (exists h0 x w, tk_history _ t = h0 ++ [x] /\ word_is v x w /\ forall l, In l (a_links a) -> k_word l <> Some w) \/
  (exists h1 x h2 y, tk_history _ t = h1 ++ [x] /\ h = h2 ++ [y] /\ x <> y).

Definition inv2 (og : nat -> nat) (sq : nat -> list pystr) (st : rstate) : Prop :=
  core false og sq st /\ forall l, In (l, true) (r_links st) -> is_final_node a (og (k_start l)) = true.

Lemma snoc_parts (w : pystr) hs ws : Forall2 (word_is v) hs (ws ++ [w]) ->
  exists hs' x, hs = hs' ++ [x] /\ Forall2 (word_is v) hs' ws /\ word_is v x w.
Proof.
  intros H. apply Forall2_app_inv_r in H as (h1 & h2 & H1 & H2 & ->).
  inversion H2 as [|x y l l' Hx Hl]; subst. inversion Hl; subst. eauto.
Qed.
Lemma rp_snoc_inv ls i p l j : rp ls i (p ++ [l]) j -> rp ls i p (k_start l) /\ In l ls /\ k_end l = j.
Proof.
  revert i. induction p as [|x p IH]; intros i H; cbn [app] in H; inversion H as [|? ? ? Hl Hp]; subst.
  - apply rp_nil_inv in Hp. split; [constructor|auto].
  - destruct (IH _ Hp) as (H1 & H2 & H3). split; [now constructor|auto].
Qed.
Lemma leads_single w i q : leads a w i q -> exists l, q = [l] /\ In l (a_links a) /\ k_start l = i /\ k_word l = Some w.
Proof. inversion 1 as [l H1 H2|l q' H1 H2 H3]; subst; [eauto 6|]. exfalso. exact (Hnf l H1 H2). Qed.

Lemma recombined_inv2 og sq st x st' : inv2 og sq st ->
  (let '(t, h, _) := x in same_place t h) ->
  add_recombined state v a maps st x = Ok st' -> exists og' sq', inv2 og' sq' st'.
Proof.
  intros [C F] H. destruct x as [[t h] nn]. unfold add_recombined.
  destruct (rev h) as [|last' rest'] eqn:Er'; [discriminate|]. destruct (rev (tk_history _ t)) as [|last rest] eqn:Er; [discriminate|].
  apply (f_equal (@rev _)) in Er, Er'. rewrite rev_involutive in Er, Er'. cbn [rev] in Er, Er'.
  destruct (match last' with inl _ => _ | inr _ => _ end) eqn:Eq; [|discriminate].
  destruct (word_text v last) as [word|] eqn:Ew; cbn [bind]; [|discriminate].
  unfold follow_word_ids. destruct (mapM (word_text v) (tl (rev rest'))) as [ws'|] eqn:Em'; cbn [bind]; [|discriminate].
  rewrite <- (c_og _ _ _ _ C).
  destruct (follow_words false ws' st 0 (og 0)) as [[[st1 from]|]|] eqn:E1; cbn [bind]; try discriminate;
    [|intros [= <-]; exists og, sq; split; [exact C|exact F]].
  destruct (follow_words_core false false _ _ _ _ _ _ _ C (c_pos _ _ _ _ C) E1)
    as (og1 & sq1 & qs1 & p1' & C1 & A1 & _ & _ & He1 & R1 & _ & _ & Est & _).
  specialize (Est eq_refl). subst st1. assert (Eo1 : forall x, x < length (r_nodes st) -> og1 x = og x) by (intros; symmetry; now apply A1).
  unfold py_index at 1. destruct (nth_error (r_nodes st) from) as [n|] eqn:En; cbn [bind]; [|discriminate].
  destruct (dict_get pystr_eq_dec (r_map n) word) as [k|] eqn:Ed; [|intros [= <-]; exists og, sq; split; [exact C|exact F]].
  destruct (c_map _ _ _ _ C _ _ _ _ En Ed) as (rl & Erl & Esl & Ewl). unfold py_index at 1. rewrite Erl. cbn [bind].
  assert (Hrl : In (rl, false) (r_links st)) by (eapply nth_error_In; exact Erl).
  destruct (c_link _ _ _ _ C _ Hrl) as (Hs & He & w & q & Ew' & L & Eo & (lmv & Elm) & _).
  assert (w = word) by congruence. subst w. rewrite Esl in L, Eo.
  destruct (mapM (word_text v) (tl (rev rest))) as [ws|] eqn:Em; cbn [bind]; [|discriminate].
  destruct (follow_words true ws st 0 (og 0)) as [[[st2 i]|]|] eqn:E2; cbn [bind]; try discriminate.
  destruct (follow_words_core false true _ _ _ _ _ _ _ C (c_pos _ _ _ _ C) E2)
    as (og2 & sq2 & qs2 & p2' & C2 & A2 & _ & G2 & He2 & R2 & _ & _ & _ & _).
  destruct H as [(j & p1 & l1 & p2 & l2 & f1 & hs1 & f2 & hs2 & w & P1 & P2 & H1 & H2 & W1 & W2 & K1 & K2)|
                 [(h0 & x & w & H1 & H2 & H3)|(h1 & x & h2 & y & H1 & H2 & H3)]].
  3:{ exfalso. apply H3. rewrite Er in H1. rewrite Er' in H2. apply app_inj_tail in H1 as [_ <-]. apply app_inj_tail in H2 as [_ <-].
      destruct last' as [z|z], last as [z'|z']; try discriminate.
      - apply Nat.eqb_eq in Eq. now subst.
      - unfold pystr_eqb in Eq. destruct (pystr_eq_dec z z'); [now subst|discriminate]. }
  2:{ exfalso. rewrite Er in H1. apply app_inj_tail in H1 as [_ ->].
      assert (w = word). { unfold word_text, word_is in *. destruct x as [z|z]; [|congruence]. unfold py_index in Ew. rewrite H2 in Ew. congruence. }
      subst w. destruct (leads_link _ _ _ L) as (l & Hl & El). exact (H3 l Hl El). }
  apply snoc_parts in W1 as (hs1' & x1 & -> & W1 & X1). apply snoc_parts in W2 as (hs2' & x2 & -> & W2 & X2).
  rewrite app_comm_cons in H1, H2. rewrite Er in H1. rewrite Er' in H2.
  apply app_inj_tail in H1 as [H1 ->]. apply app_inj_tail in H2 as [H2 ->].
  assert (w = word). { unfold word_text, word_is in *. destruct x1 as [z|z]; [|congruence]. unfold py_index in Ew. rewrite X1 in Ew. congruence. }
  subst w. rewrite H1 in Em. rewrite H2 in Em'. cbn [tl] in Em, Em'.
  rewrite (mapM_words _ _ W1) in Em. rewrite (mapM_words _ _ W2) in Em'. injection Em as <-. injection Em' as <-.
  apply rp_snoc_inv in P1 as (P1 & I1 & J1). apply rp_snoc_inv in P2 as (P2 & I2 & J2).
  rewrite (c_og _ _ _ _ C) in R1, R2.
  rewrite <- (app_nil_r (words_of p2)) in R1. rewrite <- (app_nil_r (words_of p1)) in R2.
  destruct (path_reads a Hdet _ _ _ _ [] _ _ P2 eq_refl (fun _ _ _ H => match H with end) R1) as (nu1 & _ & N1 & N1' & _).
  destruct (path_reads a Hdet _ _ _ _ [] _ _ P1 eq_refl (fun _ _ _ H => match H with end) R2) as (nu2 & _ & N2 & N2' & _).
  destruct (null_free_nulls _ _ _ _ Hnf (fun x H => H) N1' N1) as [_ S1].
  destruct (null_free_nulls _ _ _ _ Hnf (fun x H => H) N2' N2) as [_ S2].
  rewrite Eo1 in S1 by exact He1.
  assert (Lq : leads a word (og from) [l2]) by (rewrite S1; now constructor).
  assert (q = [l2]) by (eapply Hdet; eassumption). subst q. rewrite end_of_cons in Eo. cbn [end_of map last] in Eo. 
  change (end_of (k_end l2) []) with (k_end l2) in Eo.
  intros E3. match type of E3 with r_add _ _ ?l _ _ = _ =>
    destruct (r_add_core false og2 sq2 st2 i l false (Some word) st' C2 eq_refl) as (C3 & L3 & E4); [| |exact E3|] end.
  - intros _. cbn [k_end]. split; [destruct G2 as [G2 _]; lia|]. exists word, [l1].
    split; [reflexivity|]. split; [reflexivity|]. rewrite S2. split; [now constructor|].
    split; [rewrite <- A2 by exact He; rewrite Eo, end_of_cons; cbn; congruence|]. split; [eexists; reflexivity|]. discriminate.
  - discriminate.
  - exists og2, sq2. split; [exact C3|]. intros l Hl. rewrite E4 in Hl. apply in_app_or in Hl as [Hl|[[=]|[]]].
    pose proof (grows_final _ _ _ G2 Hl) as Hl0. rewrite <- A2 by (apply (c_final _ _ _ _ C _ Hl0)). now apply F.
Qed.
Lemma recombined_all_inv2 xs : forall og sq st st', inv2 og sq st ->
  (forall t h nn, In (t, h, nn) xs -> same_place t h) ->
  foldM (add_recombined state v a maps) xs st = Ok st' -> exists og' sq', inv2 og' sq' st'.
Proof.
  induction xs as [|x xs IH]; intros og sq st st' I H; cbn [foldM]; [intros [= <-]; eauto|].
  destruct (add_recombined _ _ _ _ st x) as [st1|] eqn:E; cbn [bind]; [|discriminate].
  destruct (recombined_inv2 og sq st x st1 I) as (og1 & sq1 & I1); [|exact E|].
  - destruct x as [[t h] nn]. apply (H t h nn). now left.
  - intros E'. apply (IH og1 sq1 st1 st' I1); [|exact E']. intros t h nn Hx. apply (H t h nn). now right.
Qed.
End Building.

(** ** Success *)

Section Success.
Variable state : Type.
Variable v : vocabulary.
Variable a : lattice.
Hypothesis Ha : lattice_ok a.
Hypothesis Hini : a_initial a < length (a_nodes a).
Variable rank : nat -> nat.
Hypothesis Hrank : forall l, In l (a_links a) -> rank (k_end l) < rank (k_start l).
Hypothesis Hrank_max : forall i, i < length (a_nodes a) -> rank i < length (a_nodes a).
Variable maps : list word_map.
Hypothesis Hmaps : add_word_maps (a_nodes a) (a_links a) = Ok maps.
Notation follow_words := (follow_words a maps).

Record wf (st : rstate) : Prop := {
  wf_pos : 0 < length (r_nodes st);
  wf_map : forall i n w k, nth_error (r_nodes st) i = Some n -> dict_get pystr_eq_dec (r_map n) w = Some k ->
    exists l, nth_error (r_links st) k = Some (l, false) /\ k_end l < length (r_nodes st);
  wf_out : forall i n k, nth_error (r_nodes st) i = Some n -> In k (r_out n) -> k < length (r_links st)
}.

Lemma r_add_total st i l b wd : wf st -> i < length (r_nodes st) -> (wd <> None -> b = false /\ k_end l < length (r_nodes st)) ->
  exists st', r_add st i l b wd = Ok st' /\ wf st' /\ length (r_nodes st') = length (r_nodes st).
Proof.
  intros [Hp Hm Ho] Hi Hw. unfold r_add, py_index. destruct (nth_error (r_nodes st) i) as [n|] eqn:En; [|apply nth_error_None in En; lia].
  cbn [bind]. eexists. split; [reflexivity|]. cbn [r_nodes r_links]. rewrite upd_length. split; [|reflexivity].
  assert (K : forall k x, nth_error (r_links st) k = Some x -> nth_error (r_links st ++ [(l, b)]) k = Some x).
  { intros k x Hk. rewrite nth_error_app1; [exact Hk|]. apply nth_error_Some. congruence. }
  constructor; cbn [r_nodes r_links]; rewrite ?upd_length; [exact Hp| |].
  - intros j m w k. rewrite nth_error_upd. destruct (Nat.eqb_spec j i) as [->|Hj].
    + destruct (i <? _); [|discriminate]. intros [= <-]. cbn [r_map]. destruct wd as [w0|].
      * destruct (list_eq_dec N.eq_dec w w0) as [->|Hne].
        -- rewrite dict_get_set_same. intros [= <-]. exists l. destruct (Hw ltac:(discriminate)) as [-> He].
           rewrite nth_error_app2, Nat.sub_diag by lia. auto.
        -- rewrite dict_get_set_other by congruence. intros H. destruct (Hm _ _ _ _ En H) as (l0 & H1 & H2). eauto.
      * intros H. destruct (Hm _ _ _ _ En H) as (l0 & H1 & H2). eauto.
    + intros Em H. destruct (Hm _ _ _ _ Em H) as (l0 & H1 & H2). eauto.
  - rewrite app_length. cbn [length]. intros j m k. rewrite nth_error_upd. destruct (Nat.eqb_spec j i) as [->|Hj].
    + destruct (i <? _); [|discriminate]. intros [= <-]. cbn [r_out]. intros H. apply in_app_or in H as [H|[<-|[]]]; [|lia].
      specialize (Ho _ _ _ En H). lia.
    + intros Em H. specialize (Ho _ _ _ Em H). lia.
Qed.

Lemma follow_words_total create ws : forall st node orig, wf st -> node < length (r_nodes st) -> orig < length (a_nodes a) ->
  exists x, follow_words create ws st node orig = Ok x /\ (create = true -> x <> None) /\
    forall st' e, x = Some (st', e) -> wf st' /\ e < length (r_nodes st') /\ length (r_nodes st) <= length (r_nodes st') /\
      extends st st'.
Proof.
  induction ws as [|w ws IH]; intros st node orig W Hn Ho; cbn [RescoredModel.follow_words].
  - eexists. split; [reflexivity|]. split; [discriminate|]. intros st' e [= <- <-]. split; [exact W|]. split; [exact Hn|]. split; [lia|apply extends_refl].
  - destruct (follow_total a Ha maps Hmaps rank Hrank w (S (length (a_nodes a))) orig Ho) as [x Ef];
      [specialize (Hrank_max orig Ho); lia|]. rewrite Ef. cbn [bind].
    pose proof (follow_spec a Ha maps Hmaps w _ _ _ Ef) as F. destruct x as [[[[oe ac] lm] tr]|]; [|now apply IH].
    destruct F as (q & F1 & -> & _). assert (Hoe : end_of orig q < length (a_nodes a)) by (eapply end_of_range; eassumption).
    unfold py_index at 1. destruct (nth_error (r_nodes st) node) as [n|] eqn:En; [|apply nth_error_None in En; lia]. cbn [bind].
    destruct (dict_get pystr_eq_dec (r_map n) w) as [k|] eqn:Ed.
    + destruct (wf_map _ W _ _ _ _ En Ed) as (l & El & He). unfold py_index at 1. rewrite El. cbn [bind fst]. now apply IH.
    + destruct create; [|eexists; split; [reflexivity|]; split; [discriminate|discriminate]].
      set (st1 := mkRstate (r_nodes st ++ [mkRnode [] []]) (r_links st)).
      assert (L1 : length (r_nodes st1) = S (length (r_nodes st))) by (unfold st1; cbn [r_nodes]; rewrite app_length; cbn [length]; lia).
      assert (W1 : wf st1).
      { constructor; [lia| |].
        - intros i m u k H. unfold st1 in H |- *; cbn [r_nodes r_links] in *. rewrite app_length; cbn [length].
          destruct (Nat.lt_ge_cases i (length (r_nodes st))) as [Hi|Hi].
          + rewrite nth_error_app1 in H by exact Hi. intros Hk. destruct (wf_map _ W _ _ _ _ H Hk) as (l & H1 & H2). exists l. split; [exact H1|lia].
          + rewrite nth_error_app2 in H by exact Hi. destruct (i - _) as [|[|z]]; cbn in H; try discriminate. injection H as <-. discriminate.
        - intros i m k H. unfold st1 in H |- *; cbn [r_nodes r_links] in *.
          destruct (Nat.lt_ge_cases i (length (r_nodes st))) as [Hi|Hi].
          + rewrite nth_error_app1 in H by exact Hi. exact (wf_out _ W _ _ _ H).
          + rewrite nth_error_app2 in H by exact Hi. destruct (i - _) as [|[|z]]; cbn in H; try discriminate. injection H as <-. intros []. }
      match goal with |- context [r_add st1 node ?l false (Some w)] =>
        destruct (r_add_total st1 node l false (Some w) W1) as (st2 & E2 & W2 & L2) end.
      { lia. } { intros _. split; [reflexivity|]. cbn [k_end]. lia. }
      rewrite E2. cbn [bind]. pose proof (r_add_extends _ _ _ _ _ _ E2) as X2.
      destruct (IH st2 (length (r_nodes st)) (end_of orig q) W2) as (x & -> & H1 & H2); [lia|exact Hoe|].
      exists x. split; [reflexivity|]. split; [exact H1|]. intros st' e Ex. destruct (H2 _ _ Ex) as (H3 & H4 & H5 & H6).
      split; [exact H3|]. split; [exact H4|]. split; [lia|]. eapply extends_trans; [|exact H6]. destruct X2 as [ys X2]. exists ys. exact X2.
Qed.

Definition texts (h : list hword) : Prop := forall x, In x h -> exists w, word_is v x w.
Lemma texts_mapM h : texts h -> exists ws, mapM (word_text v) h = Ok ws.
Proof.
  intros H. apply mapM_exists. intros x Hx. destruct (H x Hx) as [w Hw]. unfold word_text, word_is in *.
  destruct x as [i|s]; [|eauto]. unfold py_index. rewrite Hw. eauto.
Qed.
Lemma texts_sub h h' : (forall x, In x h' -> In x h) -> texts h -> texts h'.
Proof. intros S H x Hx. auto. Qed.
Lemma tl_In {A} (x : A) l : In x (tl l) -> In x l.
Proof. destruct l; [auto|]. cbn. auto. Qed.

Lemma add_final_total st t : wf st -> texts (tk_history _ t) -> exists st', add_final_token state v a maps st t = Ok st' /\ wf st'.
Proof.
  intros W Ht. unfold add_final_token, follow_word_ids. destruct (texts_mapM (tl (tk_history _ t))) as [ws ->].
  { eapply texts_sub; [|exact Ht]. intros x. apply tl_In. }
  cbn [bind]. destruct (follow_words_total true ws st 0 (a_initial a) W (wf_pos _ W) Hini) as (x & -> & H1 & H2). cbn [bind].
  destruct x as [[st1 e]|]; [|exfalso; now apply H1]. destruct (H2 _ _ eq_refl) as (W1 & He & _).
  unfold py_index at 1. destruct (nth_error (r_nodes st1) e) as [n|] eqn:En; [|apply nth_error_None in En; lia]. cbn [bind].
  destruct (mapM_exists (py_index (r_links st1)) (r_out n)) as [outs ->].
  { intros k Hk. pose proof (wf_out _ W1 _ _ _ En Hk) as Hk'. unfold py_index.
    destruct (nth_error (r_links st1) k) eqn:Ek; [eauto|apply nth_error_None in Ek; lia]. }
  cbn [bind]. destruct (existsb snd outs); [eauto|].
  match goal with |- context [r_add st1 e ?l true None] => destruct (r_add_total st1 e l true None W1 He) as (st2 & E2 & W2 & _) end.
  { congruence. } eauto.
Qed.

Lemma add_recombined_total st t h nn : wf st -> texts (tk_history _ t) -> texts h ->
  (exists h1 h2 x, tk_history _ t = h1 ++ [x] /\ h = h2 ++ [x]) ->
  exists st', add_recombined state v a maps st (t, h, nn) = Ok st' /\ wf st'.
Proof.
  intros W Ht Hh (h1 & h2 & x & E1 & E2). unfold add_recombined. rewrite E1, E2, !rev_unit.
  replace (match x with inl i => _ | inr s => _ end) with true.
  2:{ destruct x as [i|s]; [now rewrite Nat.eqb_refl|]. symmetry. unfold pystr_eqb. destruct (pystr_eq_dec s s); congruence. }
  destruct (Ht x) as [w Hw]; [rewrite E1; apply in_or_app; right; now left|].
  assert (Ew : word_text v x = Ok w).
  { unfold word_text, word_is in *. destruct x as [i|s]; [|now subst s]. unfold py_index. now rewrite Hw. }
  rewrite Ew. cbn [bind]. unfold follow_word_ids. rewrite !rev_involutive.
  destruct (texts_mapM (tl h2)) as [ws2 ->].
  { eapply texts_sub; [|exact Hh]. intros y Hy. rewrite E2. apply in_or_app. left. now apply tl_In. }
  destruct (texts_mapM (tl h1)) as [ws1 ->].
  { eapply texts_sub; [|exact Ht]. intros y Hy. rewrite E1. apply in_or_app. left. now apply tl_In. }
  cbn [bind]. destruct (follow_words_total false ws2 st 0 (a_initial a) W (wf_pos _ W) Hini) as (y & -> & _ & H2). cbn [bind].
  destruct y as [[st1 e]|]; [|eauto]. destruct (H2 _ _ eq_refl) as (W1 & He & _).
  unfold py_index at 1. destruct (nth_error (r_nodes st1) e) as [n|] eqn:En; [|apply nth_error_None in En; lia]. cbn [bind].
  destruct (dict_get pystr_eq_dec (r_map n) w) as [k|] eqn:Ed; [|eauto].
  destruct (wf_map _ W1 _ _ _ _ En Ed) as (l & El & Hle). unfold py_index at 1. rewrite El. cbn [bind].
  destruct (follow_words_total true ws1 st1 0 (a_initial a) W1 (wf_pos _ W1) Hini) as (z & -> & H3 & H4). cbn [bind].
  destruct z as [[st2 i]|]; [|exfalso; now apply H3]. destruct (H4 _ _ eq_refl) as (W2 & Hi & Hge & _).
  match goal with |- context [r_add st2 i ?l false (Some w)] => destruct (r_add_total st2 i l false (Some w) W2 Hi) as (st3 & E3 & W3 & _) end.
  { intros _. cbn [k_end]. split; [reflexivity|]. lia. } eauto.
Qed.
End Success.

(** ** Where links come from *)

Section Sources.
Variable state : Type.
Variable v : vocabulary.
Variable a : lattice.
Hypothesis Ha : lattice_ok a.
Variable maps : list word_map.
Hypothesis Hmaps : add_word_maps (a_nodes a) (a_links a) = Ok maps.
Notation follow_words := (follow_words a maps).

(** A link made of original links, or of a dropped token and another link *)
Definition source (xs : list (dropped state)) (ls : list (link * bool)) (l : link) : Prop :=
  (exists w i q, k_word l = Some w /\ leads a w i q /\ merged q l) \/
  (exists t h nn l' x, In (t, h, nn) xs /\ In (l', false) ls /\ k_end l = k_end l' /\ k_word l = k_word l' /\
     k_ac l = k_ac l' /\ k_transitions l = k_transitions l' /\ k_lm l' = Some x /\
     k_lm l = Some (x + (tk_nn _ t - nn))%Qc).
Lemma source_mono xs xs' ls ls' l : (forall x, In x xs -> In x xs') -> (forall x, In x ls -> In x ls') ->
  source xs ls l -> source xs' ls' l.
Proof.
  intros H1 H2 [H|(t & h & nn & l' & x & A & B & C)]; [now left|right]. exists t, h, nn, l', x. auto.
Qed.
Lemma source_lm xs ls l : source xs ls l -> exists x, k_lm l = Some x.
Proof. intros [(w & i & q & _ & _ & _ & _ & H & _)|(t & h & nn & l' & x & A & B & C & D & F & G & I & J)]; eauto. Qed.

Record sinv (xs : list (dropped state)) (st : rstate) : Prop := {
  s_source : forall l, In (l, false) (r_links st) -> source xs (r_links st) l;
  s_map : forall i n w k, nth_error (r_nodes st) i = Some n -> dict_get pystr_eq_dec (r_map n) w = Some k ->
    exists l, nth_error (r_links st) k = Some (l, false) /\ k_word l = Some w
}.

Lemma r_add_sinv xs st i l b wd st' : sinv xs st ->
  (b = false -> source xs (r_links st) l) -> (forall w, wd = Some w -> b = false /\ k_word l = Some w) ->
  r_add st i l b wd = Ok st' -> sinv xs st'.
Proof.
  intros [S M] Hs Hw. unfold r_add, py_index. destruct (nth_error (r_nodes st) i) as [n|] eqn:En; cbn [bind]; [|discriminate].
  intros [= <-].
  assert (K : forall k x, nth_error (r_links st) k = Some x -> nth_error (r_links st ++ [(l, b)]) k = Some x).
  { intros k x Hk. rewrite nth_error_app1; [exact Hk|]. apply nth_error_Some. congruence. }
  assert (I : forall x, In x (r_links st) -> In x (r_links st ++ [(l, b)])) by (intros; apply in_or_app; now left).
  constructor; cbn [r_nodes r_links].
  - intros l0 H. apply in_app_or in H as [H|[[= <- Eb]|[]]].
    + eapply source_mono; [| |exact (S _ H)]; auto.
    + eapply source_mono; [| |exact (Hs Eb)]; auto.
  - intros j m w k. rewrite nth_error_upd. destruct (Nat.eqb_spec j i) as [->|Hj].
    + destruct (i <? _); [|discriminate]. intros [= <-]. cbn [r_map]. destruct wd as [w0|].
      * destruct (list_eq_dec N.eq_dec w w0) as [->|Hne].
        -- rewrite dict_get_set_same. intros [= <-]. exists l. destruct (Hw _ eq_refl) as [-> He].
           rewrite nth_error_app2, Nat.sub_diag by lia. auto.
        -- rewrite dict_get_set_other by congruence. intros H. destruct (M _ _ _ _ En H) as (l0 & H1 & H2). eauto.
      * intros H. destruct (M _ _ _ _ En H) as (l0 & H1 & H2). eauto.
    + intros Em H. destruct (M _ _ _ _ Em H) as (l0 & H1 & H2). eauto.
Qed.

Lemma follow_sinv xs create ws : forall st node orig st' e, sinv xs st ->
  follow_words create ws st node orig = Ok (Some (st', e)) -> sinv xs st'.
Proof.
  induction ws as [|w ws IH]; intros st node orig st' e I; cbn [RescoredModel.follow_words].
  - intros [= <- _]. exact I.
  - destruct (follow_word _ _ _ orig w) as [x|] eqn:Ef; cbn [bind]; [|discriminate].
    pose proof (follow_spec a Ha maps Hmaps w _ _ _ Ef) as F. destruct x as [[[[oe ac] lm] tr]|]; [|now apply IH].
    destruct F as (q & F1 & -> & -> & -> & ->).
    destruct (py_index _ _) as [n|]; cbn [bind]; [|discriminate]. destruct (dict_get _ _ _) as [k|].
    + destruct (py_index (r_links st) k) as [l|]; cbn [bind]; [|discriminate]. now apply IH.
    + destruct create; [|discriminate].
      set (st1 := mkRstate (r_nodes st ++ [mkRnode [] []]) (r_links st)).
      set (l := mkLink node (length (r_nodes st)) (Some w) (Some (sum_ac q)) (Some (sum_lm q)) (concat (rev (map k_transitions q)))).
      destruct (r_add st1 node l false (Some w)) as [st2|] eqn:Ea; cbn [bind]; [|discriminate].
      assert (I1 : sinv xs st1).
      { destruct I as [S M]. constructor; [exact S|]. intros i m u k H. unfold st1 in H |- *; cbn [r_nodes r_links] in *.
        destruct (Nat.lt_ge_cases i (length (r_nodes st))) as [Hi|Hi].
        + rewrite nth_error_app1 in H by exact Hi. exact (M _ _ _ _ H).
        + rewrite nth_error_app2 in H by exact Hi. destruct (i - _) as [|[|z]]; cbn in H; try discriminate. injection H as <-. discriminate. }
      apply IH. eapply r_add_sinv; [exact I1| | |exact Ea].
      * intros _. left. exists w, orig, q. split; [reflexivity|]. split; [exact F1|].
        refine (conj _ (conj eq_refl (conj eq_refl eq_refl))). cbn [k_word l].
        clear -F1. induction F1 as [x _ E|x q _ E _ (q0 & y & -> & E0)].
        -- exists [], x. auto.
        -- exists (x :: q0), y. auto.
      * intros u [= <-]. auto.
Qed.

Lemma final_sinv xs st t st' : sinv xs st -> add_final_token state v a maps st t = Ok st' -> sinv xs st'.
Proof.
  intros I. unfold add_final_token, follow_word_ids. destruct (mapM _ _) as [ws|]; cbn [bind]; [|discriminate].
  destruct (follow_words true _ _ _ _) as [[[st1 e1]|]|] eqn:E1; cbn [bind]; try discriminate. assert (I1 := follow_sinv _ _ _ _ _ _ _ _ I E1).
  destruct (py_index _ _) as [n|]; cbn [bind]; [|discriminate]. destruct (mapM _ (r_out n)) as [outs|]; cbn [bind]; [|discriminate].
  destruct (existsb snd outs); [intros [= <-]; exact I1|]. intros Ea. refine (r_add_sinv _ _ _ _ _ _ _ I1 _ _ Ea); [discriminate|intros w [=]].
Qed.
Lemma recombined_sinv xs st x st' : In x xs -> sinv xs st -> add_recombined state v a maps st x = Ok st' -> sinv xs st'.
Proof.
  intros Hx I. destruct x as [[t h] nn]. unfold add_recombined. destruct (rev h) as [|l' r']; [discriminate|].
  destruct (rev (tk_history _ t)) as [|l r]; [discriminate|].
  destruct (match l' with inl _ => _ | inr _ => _ end); [|discriminate].
  destruct (word_text v l) as [w|]; cbn [bind]; [|discriminate].
  unfold follow_word_ids. destruct (mapM _ _) as [ws'|]; cbn [bind]; [|discriminate].
  destruct (follow_words false _ _ _ _) as [[[st1 e1]|]|] eqn:E1; cbn [bind]; try discriminate; [|intros [= <-]; exact I].
  assert (I1 := follow_sinv _ _ _ _ _ _ _ _ I E1). unfold py_index at 1.
  destruct (nth_error (r_nodes st1) e1) as [n|] eqn:En; cbn [bind]; [|discriminate].
  destruct (dict_get _ _ _) as [k|] eqn:Ed; [|intros [= <-]; exact I1].
  destruct (s_map _ _ I1 _ _ _ _ En Ed) as (rl & Erl & Ew). unfold py_index at 1. rewrite Erl. cbn [bind].
  destruct (mapM _ (tl (rev r))) as [ws|]; cbn [bind]; [|discriminate].
  destruct (follow_words true _ _ _ _) as [[[st2 e2]|]|] eqn:E2; cbn [bind]; try discriminate.
  destruct (follow_extends a maps _ _ _ _ _ _ _ E2) as [ys Ey].
  assert (I2 := follow_sinv _ _ _ _ _ _ _ _ I1 E2).
  assert (Hrl : In (rl, false) (r_links st2)) by (rewrite Ey; apply in_or_app; left; eapply nth_error_In; exact Erl).
  destruct (source_lm _ _ _ (s_source _ _ I2 _ Hrl)) as [x Ex].
  intros Ea. eapply r_add_sinv; [exact I2| | |exact Ea].
  - intros _. right. exists t, h, nn, rl, x. cbn [k_end k_word k_ac k_transitions k_lm]. rewrite Ex. cbn [or_zero].
    rewrite Ew. repeat (split; [assumption || reflexivity|]). reflexivity.
  - intros u [= <-]. auto.
Qed.
Lemma rescored_sinv tokens xs st1 st2 :
  foldM (add_final_token state v a maps) tokens (mkRstate [mkRnode [] []] []) = Ok st1 ->
  foldM (add_recombined state v a maps) (rev xs) st1 = Ok st2 -> sinv xs st2.
Proof.
  intros E1 E2.
  assert (I0 : sinv xs (mkRstate [mkRnode [] []] [])).
  { constructor; [intros l []|]. intros i n w k H. destruct i as [|[|i]]; cbn in H; try discriminate. injection H as <-. discriminate. }
  assert (I1 : sinv xs st1) by (eapply foldM_inv; [|exact I0|exact E1]; intros; eapply final_sinv; eassumption).
  assert (G : forall ys st st', (forall y, In y ys -> In y xs) -> sinv xs st -> foldM (add_recombined state v a maps) ys st = Ok st' -> sinv xs st').
  { induction ys as [|y ys IH]; intros st st' Hs I; cbn [foldM]; [intros [= <-]; exact I|].
    destruct (add_recombined _ _ _ _ st y) as [st3|] eqn:E; cbn [bind]; [|discriminate]. apply IH; [intros; apply Hs; now right|].
    eapply recombined_sinv; [|exact I|exact E]. apply Hs. now left. }
  eapply G; [|exact I1|exact E2]. intros y. apply in_rev.
Qed.
End Sources.
