(** Lemmas about text scoring. *)
From Coq Require Import QArith Qcanon.
From Verif Require Import Base ListLib QcLib Strings VocabModel VocabSpec VocabProofs VocabBuild VocabStats
  ScoreModel ScoreSpec IterModel IterSpec SubwordProofs MatrixProofs BatchProofs.
Local Open Scope nat_scope.

Lemma mapM_pure {A B} (f : A -> result B) g l :
  (forall x, In x l -> f x = Ok (g x)) -> mapM f l = Ok (map g l).
Proof.
  induction l as [|x l IH]; intros H; [reflexivity|]. cbn [mapM map].
  rewrite H by (left; reflexivity). cbn [bind]. rewrite IH by (intros y Hy; apply H; right; exact Hy). reflexivity.
Qed.

Lemma nth_error_firstn_lt {A} (l : list A) n i : i < n -> nth_error (firstn n l) i = nth_error l i.
Proof.
  revert n i. induction l as [|x l IH]; intros n i H; [now rewrite firstn_nil|].
  destruct n; [lia|]. destruct i; [reflexivity|]. cbn. apply IH. lia.
Qed.

Section Scores.
Variable ln : Qc -> Qc.
Variable net : list (list nat) -> list (list nat) -> list (list nat) -> list (list nat) ->
               list (list Qc).
Variable f : list (nat * nat) -> nat -> nat -> Qc.
Variable v : vocabulary.
Variable use_shortlist exclude_unk : bool.
Hypothesis Hv : reachable_vocab v.
Hypothesis Hnet : batch_independent v net f.

(** The pieces as functions. *)
Variable unk : nat.
Hypothesis Hunk : word_to_id v UNK = Some unk.

Definition kp (i : nat) : nat * Qc :=
  match get_class_membership v i with Ok x => x | Err _ => (0, 0%Qc) end.
Definition shown (i : nat) : nat := if num_shortlist_words v <=? i then unk else i.

Lemma kp_ok i : get_class_membership v i = Ok (kp i).
Proof.
  unfold kp. destruct (class_membership_spec v i Hv) as (u & _ & k & p & E & _). now rewrite E.
Qed.
Lemma seen_kp i : seen_as v i (shown i) (fst (kp i)) (snd (kp i)).
Proof.
  destruct (class_membership_spec v i Hv) as (u & Eu & k & p & E & Ek & Ep).
  assert (u = unk) by congruence. subst u. rewrite kp_ok in E. injection E as E. rewrite E. cbn [fst snd].
  unfold shown, seen_as. destruct (Nat.ltb_spec i (num_shortlist_words v)) as [H|H].
  - rewrite (proj2 (Nat.leb_gt _ _) H). auto.
  - rewrite (proj2 (Nat.leb_le _ _) H). auto.
Qed.
Lemma seen_unique i a b k k' p p' : seen_as v i a k p -> seen_as v i b k' p' -> a = b /\ k = k' /\ p = p'.
Proof.
  intros (H1 & H2 & H3) (G1 & G2 & G3).
  assert (a = b).
  { destruct H1 as [[H1 ->]|[H1 E1]], G1 as [[G1 ->]|[G1 F1]]; try lia; congruence. }
  subst b. split; [reflexivity|]. split; congruence.
Qed.

Definition use_shares : bool :=
  use_shortlist && match v_unigram v with Some _ => true | None => false end.
Definition share_list : list lp :=
  match get_oos_probs v with
  | Ok ws => map (fun p => match p with Some p => tlog ln p | None => NaN end) ws
  | Err _ => []
  end.
Definition share (i : nat) : lp := if use_shares then nth i share_list NaN else Fin 0%Qc.
Definition excl (i : nat) : bool :=
  if use_shares then i =? unk
  else exclude_unk && ((i =? unk) || (num_shortlist_words v <=? i)).

Lemma use_shares_iff : use_shares = true <-> shares v use_shortlist.
Proof.
  unfold use_shares, shares. rewrite andb_true_iff. destruct (v_unigram v); split; intros [A B]; split; congruence.
Qed.
Lemma excl_iff i : excl i = true <-> excluded v use_shortlist exclude_unk i.
Proof.
  unfold excl, excluded. rewrite Hunk. rewrite <- use_shares_iff. destruct use_shares.
  - rewrite Nat.eqb_eq. split; [intros ->; auto|]. intros [[_ [= ->]]|[H _]]; [reflexivity|congruence].
  - rewrite andb_true_iff, orb_true_iff, Nat.eqb_eq, Nat.leb_le. split.
    + intros [A B]. right. split; [discriminate|]. split; [exact A|]. destruct B as [->|B]; auto.
    + intros [[H _]|(_ & A & B)]; [discriminate|]. split; [exact A|]. destruct B as [[= ->]|B]; auto.
Qed.

Lemma oos_length ws : get_oos_probs v = Ok ws -> length ws = num_words v.
Proof.
  intros E. unfold get_oos_probs in E. destruct (v_unigram v) as [u|] eqn:Eu; [|discriminate].
  injection E as <-. rewrite app_length, repeat_length, map_length, firstn_length, skipn_length.
  destruct (reachable_wf _ Hv) as (g & n & Hw). pose proof (wf_unigram _ _ _ Hw u Eu) as L.
  unfold num_words. lia.
Qed.

Lemma oos_logprobs_ok :
  oos_logprobs ln v = Ok (match v_unigram v with Some _ => Some share_list | None => None end) /\
  (v_unigram v <> None -> length share_list = num_words v /\ exists ws, get_oos_probs v = Ok ws).
Proof.
  unfold oos_logprobs, share_list. destruct (v_unigram v) as [u|] eqn:Eu; [|split; [reflexivity|congruence]].
  destruct (get_oos_probs v) as [ws|] eqn:E.
  - cbn [bind]. split; [reflexivity|]. intros _. rewrite map_length, (oos_length _ E). eauto.
  - exfalso. unfold get_oos_probs in E. rewrite Eu in E. discriminate.
Qed.

Lemma tlog_log_of p : log_of ln p (tlog ln p).
Proof.
  unfold tlog, log_of. destruct (Qc_eq_dec p 0%Qc) as [->|H]; [auto|].
  destruct (Qclt_le_dec 0%Qc p) as [H'|H']; [auto|]. right; right. split; [|reflexivity].
  apply Qcle_lt_or_eq in H' as [H'|H']; [exact H'|congruence].
Qed.
Lemma log_of_unique p x y : log_of ln p x -> log_of ln p y -> x = y.
Proof.
  assert (N0 : ~ (0 < 0)%Qc) by apply Qclt_irrefl || (intros H; exact (Qclt_not_eq _ _ H eq_refl)).
  intros [[A ->]|[[A ->]|[A ->]]] [[B ->]|[[B ->]|[B ->]]]; try reflexivity; exfalso; subst; try contradiction.
  - exact (Qclt_not_eq _ _ (Qclt_trans _ _ _ A B) eq_refl).
  - exact (Qclt_not_eq _ _ (Qclt_trans _ _ _ A B) eq_refl).
Qed.

Lemma share_spec i : i < num_words v -> share_of ln v use_shortlist i (share i).
Proof.
  intros Hi. unfold share, share_of. destruct use_shares eqn:E.
  - right. apply use_shares_iff in E. split; [exact E|]. destruct E as [_ E].
    destruct oos_logprobs_ok as [_ L]. destruct (L E) as [L1 (ws & L2)].
    pose proof (oos_length _ L2) as Ll. destruct (nth_error ws i) as [w|] eqn:Ew; [|apply nth_error_None in Ew; lia].
    exists ws, w. split; [exact L2|]. split; [exact Ew|].
    unfold share_list. rewrite L2.
    erewrite nth_error_nth by (rewrite nth_error_map, Ew; reflexivity). destruct w; [apply tlog_log_of|reflexivity].
  - left. split; [|reflexivity]. rewrite <- use_shares_iff. congruence.
Qed.

Definition inputs (ids : list nat) : list (nat * nat) :=
  map (fun i => (shown i, fst (kp i))) (removelast ids).
Definition value (ids : list nat) (i : nat) : lp :=
  let id := nth i ids unk in
  ladd (ladd (tlog ln (f (inputs ids) (i - 1) (fst (kp id)))) (tlog ln (snd (kp id)))) (share id).
Definition pscore (ids : list nat) (i : nat) : option lp :=
  if excl (nth i ids unk) then None else Some (value ids i).
Definition pscores (ids : list nat) : list (option lp) := map (pscore ids) (seq 1 (length ids - 1)).

Lemma inputs_spec ids :
  Forall2 (fun id wc => exists p, seen_as v id (fst wc) (snd wc) p) (removelast ids) (inputs ids).
Proof.
  unfold inputs. induction (removelast ids) as [|i l IH]; constructor; [|exact IH].
  exists (snd (kp i)). apply seen_kp.
Qed.
Lemma inputs_unique ids xs :
  Forall2 (fun id wc => exists p, seen_as v id (fst wc) (snd wc) p) (removelast ids) xs -> xs = inputs ids.
Proof.
  unfold inputs. generalize (removelast ids). intros l. revert xs.
  induction l as [|i l IH]; intros xs H; inversion H as [|? wc ? xs' (p & Hp) H2]; subst; [reflexivity|].
  cbn [map]. f_equal; [|now apply IH].
  destruct (seen_unique _ _ _ _ _ _ _ Hp (seen_kp i)) as (A & B & _). destruct wc; cbn in *. congruence.
Qed.

Lemma pscore_spec ids i : (forall x, In x ids -> x < num_words v) -> i < length ids ->
  word_score ln f v use_shortlist exclude_unk ids i (pscore ids i).
Proof.
  intros Hb Hi. unfold pscore.
  assert (Hn : nth_error ids i = Some (nth i ids unk)) by now apply nth_error_nth'.
  destruct (excl (nth i ids unk)) eqn:E.
  - eapply word_excluded; [exact Hn|]. now apply excl_iff.
  - unfold value. eapply word_scored; [exact Hn| |apply seen_kp|apply inputs_spec|apply tlog_log_of|apply tlog_log_of|].
    + rewrite <- excl_iff. congruence.
    + apply share_spec. apply Hb. eapply nth_error_In; eauto.
Qed.

Lemma share_unique i x y : share_of ln v use_shortlist i x -> share_of ln v use_shortlist i y -> x = y.
Proof.
  intros [[A ->]|(A & ws & w & A1 & A2 & A3)] [[B ->]|(B & ws' & w' & B1 & B2 & B3)]; try tauto; try reflexivity.
  assert (ws = ws') by congruence. subst ws'. assert (w = w') by congruence. subst w'.
  destruct w; [eapply log_of_unique; eauto|congruence].
Qed.

Lemma word_score_unique ids i x y :
  word_score ln f v use_shortlist exclude_unk ids i x ->
  word_score ln f v use_shortlist exclude_unk ids i y -> x = y.
Proof.
  intros [w Hw He|w s k p xs a b c Hw He Hs Hx Ha Hb Hc] [w' Hw' He'|w' s' k' p' xs' a' b' c' Hw' He' Hs' Hx' Ha' Hb' Hc'];
    assert (w = w') by congruence; subst w'; try contradiction; [reflexivity|].
  apply inputs_unique in Hx. apply inputs_unique in Hx'. subst xs xs'.
  destruct (seen_unique _ _ _ _ _ _ _ Hs Hs') as (_ & <- & <-).
  rewrite (log_of_unique _ _ _ Ha Ha'), (log_of_unique _ _ _ Hb Hb'), (share_unique _ _ _ Hc Hc'). reflexivity.
Qed.

Lemma pscores_spec ids : (forall x, In x ids -> x < num_words v) ->
  sequence_scores ln f v use_shortlist exclude_unk ids (pscores ids).
Proof.
  intros Hb. unfold sequence_scores, pscores.
  assert (H : forall i, In i (seq 1 (length ids - 1)) -> i < length ids) by (intros i Hi; apply in_seq in Hi; lia).
  induction (seq 1 (length ids - 1)) as [|i l IH]; constructor.
  - apply pscore_spec; [exact Hb|]. apply H. now left.
  - apply IH. intros j Hj. apply H. now right.
Qed.
Lemma sequence_scores_unique ids a b :
  sequence_scores ln f v use_shortlist exclude_unk ids a ->
  sequence_scores ln f v use_shortlist exclude_unk ids b -> a = b.
Proof.
  unfold sequence_scores. intros H. revert b. induction H as [|i x l a H1 H2 IH]; intros b Hb; inversion Hb; subst; [reflexivity|].
  f_equal; [eapply word_score_unique; eauto|now apply IH].
Qed.

(** ** A mini-batch *)
Section Batch.
Variable idss : list (list nat).
Variable w m : list (list nat).
Variable rows : nat.
Hypothesis Hlong : longest rows idss.
Hypothesis Hw : is_matrix rows (length idss) w.
Hypothesis Hm : is_matrix rows (length idss) m.
Hypothesis Hcells : forall j ids t, nth_error idss j = Some ids -> t < rows ->
      cell w t j = Some (nth t ids unk) /\
      cell m t j = Some (if t <? length ids then 1 else 0).
Hypothesis Hb : forall ids x, In ids idss -> In x ids -> x < num_words v.

Let K := mmap (fun i => fst (kp i)) w.
Let P := mmap (fun i => snd (kp i)) w.

Lemma memberships_ok : get_class_memberships v w = Ok (K, P).
Proof.
  unfold get_class_memberships. rewrite mapM_pure with (g := map kp).
  - cbn [bind]. unfold K, P, mmap. rewrite !map_map. f_equal. f_equal; apply map_ext; intros row; now rewrite map_map.
  - intros row _. apply mapM_pure. intros i _. apply kp_ok.
Qed.

Lemma unk_lt : unk < num_words v.
Proof.
  destruct (vocab_inverse v Hv) as [_ H]. apply H in Hunk. unfold num_words. apply nth_error_Some. congruence.
Qed.

Lemma w_range t j x : cell w t j = Some x -> x < num_words v.
Proof.
  intros E.
  assert (Ht : t < rows). { destruct (Nat.lt_ge_cases t rows); [assumption|]. rewrite (is_matrix_none _ _ _ _ _ Hw) in E by auto; discriminate. }
  assert (Hj : j < length idss). { destruct (Nat.lt_ge_cases j (length idss)); [assumption|]. rewrite (is_matrix_none _ _ _ _ _ Hw) in E by auto; discriminate. }
  destruct (nth_error idss j) as [ids|] eqn:Ej; [|apply nth_error_None in Ej; lia].
  destruct (Hcells j ids t Ej Ht) as [E' _]. assert (x = nth t ids unk) by congruence. subst x.
  destruct (Nat.lt_ge_cases t (length ids)).
  - apply (Hb ids); [eapply nth_error_In; eauto|now apply nth_In].
  - rewrite nth_overflow by assumption. apply unk_lt.
Qed.

Lemma in_matrix_cell {A} (M : list (list A)) row x : In row M -> In x row -> exists t j, cell M t j = Some x.
Proof.
  intros Hr Hx. apply In_nth_error in Hr as (t & Et). apply In_nth_error in Hx as (j & Ej).
  exists t, j. unfold cell. now rewrite Et.
Qed.

(** Log probabilities and mask of the mini-batch. *)
Lemma tensors_ok : exists L M,
  scorer_tensors ln net v use_shortlist exclude_unk w K (tl P) (tl m) = Ok (L, M) /\
  is_matrix (rows - 1) (length idss) L /\ is_matrix (rows - 1) (length idss) M /\
  forall j ids t, nth_error idss j = Some ids -> t < rows - 1 ->
    (t < length ids - 1 -> cell L t j = Some (value ids (S t))) /\
    cell M t j = Some (if (t <? length ids - 1) && negb (excl (nth (S t) ids unk)) then 1 else 0).
Proof.
  unfold scorer_tensors, unk_id. rewrite Hunk. cbn [bind].
  destruct oos_logprobs_ok as [Eo Lo]. rewrite Eo. cbn [bind].
  assert (MK : is_matrix rows (length idss) K) by now apply is_matrix_mmap.
  assert (MP : is_matrix rows (length idss) P) by now apply is_matrix_mmap.
  assert (Minp : is_matrix (rows - 1) (length idss) (mmap shown (removelast w))) by now apply is_matrix_mmap, is_matrix_removelast.
  assert (Mcls : is_matrix (rows - 1) (length idss) (removelast K)) by now apply is_matrix_removelast.
  assert (Mtm : is_matrix (rows - 1) (length idss) (tl m)) by now apply is_matrix_tl.
  assert (Mtk : is_matrix (rows - 1) (length idss) (tl K)) by now apply is_matrix_tl.
  assert (Mtw : is_matrix (rows - 1) (length idss) (tl w)) by now apply is_matrix_tl.
  assert (MtP : is_matrix (rows - 1) (length idss) (tl P)) by now apply is_matrix_tl.
  assert (Rw : forall i j x, cell (mmap shown (removelast w)) i j = Some x ->
             exists c, cell (removelast K) i j = Some c /\ nth_error (v_w2c v) x = Some c).
  { intros i j x. rewrite cell_mmap, cell_removelast. unfold K. rewrite cell_removelast, cell_mmap.
    unfold mmap. rewrite map_length. destruct (_ <? _); [|discriminate].
    destruct (cell w i j) as [y|]; [|discriminate]. intros [= <-]. exists (fst (kp y)). split; [reflexivity|].
    apply (seen_kp y). }
  assert (Rt : forall i j c, cell (tl K) i j = Some c -> exists x, nth_error (v_w2c v) x = Some c).
  { intros i j c. rewrite cell_tl. unfold K. rewrite cell_mmap. destruct (cell w (S i) j) as [y|]; [|discriminate].
    intros [= <-]. exists (shown y). apply (seen_kp y). }
  destruct (Hnet _ _ _ _ _ _ Minp Mcls Mtm Mtk Rw Rt) as [Mnet Cnet].
  change (mmap (fun i => if num_shortlist_words v <=? i then unk else i) (removelast w)) with (mmap shown (removelast w)).
  set (N := net _ _ _ _) in *.
  set (L0 := mzip ladd (mmap (tlog ln) N) (mmap (tlog ln) (tl P))).
  assert (ML0 : is_matrix (rows - 1) (length idss) L0) by (apply is_matrix_mzip; now apply is_matrix_mmap).
  assert (CL0 : forall j ids t, nth_error idss j = Some ids -> t < rows - 1 -> t < length ids - 1 ->
     cell L0 t j = Some (ladd (tlog ln (f (inputs ids) t (fst (kp (nth (S t) ids unk))))) (tlog ln (snd (kp (nth (S t) ids unk)))))).
  { intros j ids t Ej Ht Htl. unfold L0. rewrite cell_mzip, !cell_mmap.
    assert (Ec : cell N t j = Some (f (inputs ids) t (fst (kp (nth (S t) ids unk))))).
    { assert (Hl : length ids <= rows) by (apply (proj1 Hlong); eapply nth_error_In; eauto).
      apply Cnet.
      - unfold inputs. rewrite map_length, removelast_length. lia.
      - intros i Hi. rewrite cell_tl. destruct (Hcells j ids (S i) Ej ltac:(lia)) as [_ ->]. f_equal.
        unfold inputs. rewrite map_length, removelast_length.
        destruct (Nat.ltb_spec (S i) (length ids)), (Nat.ltb_spec i (length ids - 1)); try reflexivity; lia.
      - intros i a c Hi. unfold inputs in Hi. rewrite nth_error_map, nth_error_removelast in Hi.
        destruct (Nat.ltb_spec (S i) (length ids)) as [Hs|]; [|discriminate].
        destruct (nth_error ids i) as [x|] eqn:Ex; [|discriminate]. injection Hi as <- <-.
        destruct (Hcells j ids i Ej ltac:(lia)) as [Ew _]. erewrite nth_error_nth in Ew by exact Ex.
        rewrite cell_mmap, cell_removelast. unfold K. rewrite cell_removelast, cell_mmap.
        destruct Hw as [Hwl _]. unfold mmap. rewrite map_length, Hwl.
        destruct (Nat.ltb_spec (S i) rows); [|lia]. rewrite Ew. auto.
      - unfold inputs. rewrite map_length, removelast_length. exact Htl.
      - rewrite cell_tl. unfold K. rewrite cell_mmap. destruct (Hcells j ids (S t) Ej ltac:(lia)) as [-> _]. reflexivity. }
    rewrite Ec. cbn [option_map]. rewrite cell_tl. unfold P. rewrite cell_mmap.
    destruct (Hcells j ids (S t) Ej ltac:(lia)) as [-> _]. reflexivity. }
  set (not_unk := mmap (fun i => if i =? unk then 0 else 1) (tl w)).
  assert (Mnu : is_matrix (rows - 1) (length idss) not_unk) by now apply is_matrix_mmap.
  assert (Cm : forall j ids t, nth_error idss j = Some ids -> t < rows - 1 ->
             cell (tl m) t j = Some (if t <? length ids - 1 then 1 else 0)).
  { intros j ids t Ej Ht. rewrite cell_tl. destruct (Hcells j ids (S t) Ej ltac:(lia)) as [_ ->].
    destruct (Nat.ltb_spec (S t) (length ids)), (Nat.ltb_spec t (length ids - 1)); try reflexivity; lia. }
  assert (Cw : forall j ids t, nth_error idss j = Some ids -> t < rows - 1 -> cell (tl w) t j = Some (nth (S t) ids unk)).
  { intros j ids t Ej Ht. rewrite cell_tl. now destruct (Hcells j ids (S t) Ej ltac:(lia)) as [-> _]. }
  assert (Enone : use_shares = false -> (if use_shortlist then match v_unigram v with Some _ => Some share_list | None => None end else None) = None).
  { unfold use_shares. destruct use_shortlist, (v_unigram v); try discriminate; reflexivity. }
  assert (Esome : use_shares = true -> (if use_shortlist then match v_unigram v with Some _ => Some share_list | None => None end else None) = Some share_list).
  { unfold use_shares. destruct use_shortlist, (v_unigram v); try discriminate; reflexivity. }
  destruct use_shares eqn:Es.
  - rewrite (Esome eq_refl).
    assert (Hu : v_unigram v <> None) by (apply use_shares_iff in Es; apply Es).
    destruct (Lo Hu) as [Ll _].
    rewrite mapM_pure with (g := map (fun i => nth i share_list NaN)).
    2:{ intros row Hr. apply mapM_pure. intros i Hi. unfold py_index.
        assert (Hrange : i < num_words v).
        { destruct (in_matrix_cell _ _ _ Hr Hi) as (t & j & Ec). rewrite cell_tl in Ec. eapply w_range; eauto. }
        destruct (nth_error share_list i) as [x|] eqn:Ex; [erewrite nth_error_nth by exact Ex; reflexivity|].
        apply nth_error_None in Ex. lia. }
    cbn [bind]. eexists _, _. split; [reflexivity|].
    change (map (map (fun i => nth i share_list NaN)) (tl w)) with (mmap (fun i => nth i share_list NaN) (tl w)).
    split; [apply is_matrix_mzip; [exact ML0|now apply is_matrix_mmap]|].
    split; [now apply is_matrix_mzip|].
    intros j ids t Ej Ht. split.
    + intros Htl. rewrite cell_mzip, (CL0 j ids t Ej Ht Htl), cell_mmap, (Cw j ids t Ej Ht). cbn [option_map].
      unfold value. cbn zeta. unfold share. rewrite Es. now rewrite Nat.sub_succ, Nat.sub_0_r.
    + unfold not_unk. rewrite cell_mzip, (Cm j ids t Ej Ht), cell_mmap, (Cw j ids t Ej Ht). cbn [option_map].
      f_equal. unfold excl. rewrite Es. destruct (t <? length ids - 1), (nth (S t) ids unk =? unk); reflexivity.
  - rewrite (Enone eq_refl).
    assert (Hval : forall j ids t, nth_error idss j = Some ids -> t < rows - 1 -> t < length ids - 1 -> cell L0 t j = Some (value ids (S t))).
    { intros j ids t Ej Ht Htl. rewrite (CL0 j ids t Ej Ht Htl). unfold value. cbn zeta. unfold share. rewrite Es.
      rewrite ladd_0_r, Nat.sub_succ, Nat.sub_0_r. reflexivity. }
    unfold excl. rewrite Es. destruct exclude_unk; cbn [andb].
    + eexists _, _. split; [reflexivity|]. split; [exact ML0|].
      split; [apply is_matrix_mzip; [now apply is_matrix_mzip|now apply is_matrix_mmap]|].
      intros j ids t Ej Ht. split; [now apply Hval|].
      unfold not_unk. rewrite !cell_mzip, (Cm j ids t Ej Ht), !cell_mmap, (Cw j ids t Ej Ht). cbn [option_map].
      f_equal. rewrite (Nat.ltb_antisym (num_shortlist_words v)).
      destruct (t <? length ids - 1), (nth (S t) ids unk =? unk), (num_shortlist_words v <=? nth (S t) ids unk); reflexivity.
    + eexists _, _. split; [reflexivity|]. split; [exact ML0|]. split; [exact Mtm|].
      intros j ids t Ej Ht. split; [now apply Hval|].
      rewrite (Cm j ids t Ej Ht). cbn [negb]. now rewrite andb_true_r.
Qed.

Lemma score_batch_ok : 2 <= rows ->
  score_batch ln net v use_shortlist exclude_unk w K P m = Ok (map pscores idss).
Proof.
  intros H2. unfold score_batch, target_logprobs.
  destruct tensors_ok as (L & M & E & ML & MM & C). rewrite E. cbn [bind].
  set (X := mzip lmask M L).
  assert (MX : is_matrix (rows - 1) (length idss) X) by now apply is_matrix_mzip.
  assert (Ecols : match X with row :: _ => length row | [] => 0 end = length idss).
  { destruct MX as [E1 E2]. destruct X as [|row X']; [cbn in E1; lia|]. now inversion E2. }
  rewrite Ecols. f_equal. apply nth_error_ext. intros j. rewrite !nth_error_map, nth_error_seq.
  destruct (Nat.ltb_spec j (length idss)) as [Hj|Hj]; cbn [option_map].
  2:{ apply nth_error_None in Hj. now rewrite Hj. }
  destruct (nth_error idss j) as [ids|] eqn:Ej; [|apply nth_error_None in Ej; lia]. cbn [option_map Nat.add]. f_equal.
  assert (Mtm : is_matrix (rows - 1) (length idss) (tl m)) by now apply is_matrix_tl.
  assert (Hl : length ids <= rows) by (apply (proj1 Hlong); eapply nth_error_In; eauto).
  assert (Cm : forall t, t < rows - 1 -> cell (tl m) t j = Some (if t <? length ids - 1 then 1 else 0)).
  { intros t Ht. rewrite cell_tl. destruct (Hcells j ids (S t) Ej ltac:(lia)) as [_ ->].
    destruct (Nat.ltb_spec (S t) (length ids)), (Nat.ltb_spec t (length ids - 1)); try reflexivity; lia. }
  assert (Sel : forall (B : Type) (Y : list (list B)), is_matrix (rows - 1) (length idss) Y ->
            select (column j (tl m)) (column j Y) = firstn (length ids - 1) (column j Y)).
  { intros B Y MY. apply select_prefix.
    - now rewrite (column_length _ _ _ _ Mtm Hj), (column_length _ _ _ _ MY Hj).
    - rewrite (column_length _ _ _ _ MY Hj). lia.
    - intros i Hi. rewrite (column_length _ _ _ _ Mtm Hj) in Hi. rewrite (column_nth _ _ _ _ _ Mtm Hj). now apply Cm. }
  rewrite !Sel by assumption. unfold pscores.
  apply nth_error_ext. intros i. rewrite nth_error_zip_with, nth_error_map, nth_error_seq.
  destruct (Nat.ltb_spec i (length ids - 1)) as [Hi|Hi].
  - rewrite !nth_error_firstn_lt by exact Hi.
    rewrite (column_nth _ _ _ _ _ MX Hj), (column_nth _ _ _ _ _ MM Hj). unfold X. rewrite cell_mzip.
    destruct (C j ids i Ej ltac:(lia)) as [C1 C2]. rewrite (C1 Hi), C2.
    rewrite (proj2 (Nat.ltb_lt _ _) Hi). cbn [andb option_map]. unfold pscore. change (1 + i) with (S i).
    destruct (excl (nth (S i) ids unk)); cbn [negb Nat.eqb]; [reflexivity|]. f_equal. f_equal.
    unfold lmask. destruct (value ids (S i)); cbn [Nat.eqb]; [|reflexivity|reflexivity].
    change (qc_of_nat 1) with 1%Qc. now rewrite Qcmult_1_r.
  - assert (Z : forall (B : Type) (l : list B), nth_error (firstn (length ids - 1) l) i = None).
    { intros B l. apply nth_error_None. rewrite firstn_length. lia. }
    now rewrite !Z.
Qed.

(** The scores that enter the total of a sequence. *)
Definition contributions (ids : list nat) : list lp :=
  concat (map (fun i => let id := nth i ids unk in
                        if excl id || (if Qc_eq_dec (snd (kp id)) 0%Qc then true else false) then []
                        else [value ids i]) (seq 1 (length ids - 1))).

Lemma total_logprob_ok :
  total_logprob ln net v use_shortlist exclude_unk w K (tl P) (tl m) =
  Ok (lsum (concat (map contributions idss)), length (concat (map contributions idss))).
Proof.
  unfold total_logprob. destruct tensors_ok as (L & M & E & ML & MM & C). rewrite E. cbn [bind].
  assert (MtP : is_matrix (rows - 1) (length idss) (tl P)) by now apply is_matrix_tl, is_matrix_mmap.
  set (Z := mmap (fun p => if Qc_eq_dec p 0%Qc then 0 else 1) (tl P)).
  assert (MZ : is_matrix (rows - 1) (length idss) Z) by now apply is_matrix_mmap.
  set (M' := mzip Nat.mul M Z).
  assert (MM' : is_matrix (rows - 1) (length idss) M') by now apply is_matrix_mzip.
  set (X := mzip (fun m x => if m =? 0 then Fin 0%Qc else x) M' L).
  assert (MX : is_matrix (rows - 1) (length idss) X) by now apply is_matrix_mzip.
  assert (CM' : forall j ids t, nth_error idss j = Some ids -> t < rows - 1 ->
     cell M' t j = Some (if (t <? length ids - 1) && negb (excl (nth (S t) ids unk) || (if Qc_eq_dec (snd (kp (nth (S t) ids unk))) 0%Qc then true else false)) then 1 else 0)).
  { intros j ids t Ej Ht. unfold M', Z. rewrite cell_mzip, cell_mmap, cell_tl. unfold P. rewrite cell_mmap.
    destruct (C j ids t Ej Ht) as [_ ->]. destruct (Hcells j ids (S t) Ej ltac:(lia)) as [-> _]. cbn [option_map].
    destruct (t <? length ids - 1), (excl (nth (S t) ids unk)), (Qc_eq_dec (snd (kp (nth (S t) ids unk))) 0%Qc); reflexivity. }
  unfold lsum. rewrite (msum_columns ladd (Fin 0%Qc) ladd_comm ladd_assoc ladd_0_l _ _ _ MX).
  unfold list_sum. rewrite (msum_columns Nat.add 0 Nat.add_comm Nat.add_assoc Nat.add_0_l _ _ _ MM').
  assert (G : forall j ids, nth_error idss j = Some ids ->
     fold_right ladd (Fin 0%Qc) (column j X) = lsum (contributions ids) /\
     fold_right Nat.add 0 (column j M') = length (contributions ids)).
  { intros j ids Ej.
    assert (Hj : j < length idss) by (apply nth_error_Some; congruence).
    assert (Hl : length ids <= rows) by (apply (proj1 Hlong); eapply nth_error_In; eauto).
    assert (EX : column j X = map (fun t => if (t <? length ids - 1) && negb (excl (nth (S t) ids unk) || (if Qc_eq_dec (snd (kp (nth (S t) ids unk))) 0%Qc then true else false)) then value ids (S t) else Fin 0%Qc) (seq 0 (rows - 1))).
    { apply nth_error_ext. intros t. rewrite (column_nth _ _ _ _ _ MX Hj), nth_error_map, nth_error_seq.
      destruct (Nat.ltb_spec t (rows - 1)) as [Ht|Ht]; [|cbn; apply (is_matrix_none _ _ _ _ _ MX); auto].
      unfold X. rewrite cell_mzip, (CM' j ids t Ej Ht). cbn [option_map Nat.add].
      destruct (Nat.ltb_spec t (length ids - 1)) as [Hi|Hi]; cbn [andb].
      - destruct (C j ids t Ej Ht) as [C1 _]. rewrite (C1 Hi). destruct (negb _); reflexivity.
      - destruct (is_matrix_cell _ _ _ t j ML Ht Hj) as (x & ->). reflexivity. }
    assert (EM : column j M' = map (fun t => if (t <? length ids - 1) && negb (excl (nth (S t) ids unk) || (if Qc_eq_dec (snd (kp (nth (S t) ids unk))) 0%Qc then true else false)) then 1 else 0) (seq 0 (rows - 1))).
    { apply nth_error_ext. intros t. rewrite (column_nth _ _ _ _ _ MM' Hj), nth_error_map, nth_error_seq.
      destruct (Nat.ltb_spec t (rows - 1)) as [Ht|Ht]; [|cbn; apply (is_matrix_none _ _ _ _ _ MM'); auto].
      now rewrite (CM' j ids t Ej Ht). }
    rewrite EX, EM. replace (rows - 1) with ((length ids - 1) + (rows - 1 - (length ids - 1))) by lia.
    rewrite seq_app, !map_app.
    rewrite (msum_app ladd (Fin 0%Qc) ladd_assoc ladd_0_l), (msum_app Nat.add 0 Nat.add_assoc Nat.add_0_l).
    rewrite (msum_units ladd (Fin 0%Qc) ladd_0_l (map _ (seq (0 + (length ids - 1)) _))).
    2:{ intros x Hx. apply in_map_iff in Hx as (t & <- & Ht). apply in_seq in Ht.
        destruct (Nat.ltb_spec t (length ids - 1)); [lia|reflexivity]. }
    rewrite (msum_units Nat.add 0 Nat.add_0_l (map _ (seq (0 + (length ids - 1)) _))).
    2:{ intros x Hx. apply in_map_iff in Hx as (t & <- & Ht). apply in_seq in Ht.
        destruct (Nat.ltb_spec t (length ids - 1)); [lia|reflexivity]. }
    rewrite ladd_0_r, Nat.add_0_r. unfold contributions. rewrite <- seq_shift, map_map.
    assert (Hin : forall t, In t (seq 0 (length ids - 1)) -> t < length ids - 1) by (intros t Ht; apply in_seq in Ht; lia).
    induction (seq 0 (length ids - 1)) as [|t l IH]; [split; reflexivity|].
    destruct IH as [IH1 IH2]; [intros s Hs; apply Hin; now right|].
    cbn [map concat fold_right]. rewrite IH1, IH2.
    rewrite (proj2 (Nat.ltb_lt _ _) (Hin t (or_introl eq_refl))). cbn [andb].
    destruct (_ || _); cbn [negb app length]; [rewrite ladd_0_l; auto|]. auto. }
  f_equal. f_equal.
  - clear -G. assert (G' : forall j ids, nth_error idss j = Some ids -> fold_right ladd (Fin 0%Qc) (column j X) = lsum (contributions ids)) by (intros; now apply G).
    clear G. revert G'. generalize X as Y. induction idss as [|ids l IH]; intros Y G'; [reflexivity|].
    cbn [length seq map concat fold_right]. rewrite (G' 0 ids eq_refl).
    rewrite (msum_app ladd (Fin 0%Qc) ladd_assoc ladd_0_l). unfold lsum at 1. f_equal.
    rewrite <- seq_shift, map_map.
    assert (Ec : forall j, column (S j) Y = column j (map (@tl _) Y)).
    { intros j. unfold column. rewrite map_map. f_equal. apply map_ext. intros [|? ?]; [now destruct j|reflexivity]. }
    rewrite <- (IH (map (@tl _) Y)).
    + f_equal. apply map_ext. intros j. now rewrite Ec.
    + intros j ids' Hj. rewrite <- Ec. now apply (G' (S j)).
  - assert (G' : forall j ids, nth_error idss j = Some ids -> fold_right Nat.add 0 (column j M') = length (contributions ids)) by (intros; now apply G).
    clear -G'. revert G'. generalize M' as Y. induction idss as [|ids l IH]; intros Y G'; [reflexivity|].
    cbn [length seq map concat fold_right]. rewrite (G' 0 ids eq_refl), app_length. f_equal.
    rewrite <- seq_shift, map_map.
    assert (Ec : forall j, column (S j) Y = column j (map (@tl _) Y)).
    { intros j. unfold column. rewrite map_map. f_equal. apply map_ext. intros [|? ?]; [now destruct j|reflexivity]. }
    rewrite <- (IH (map (@tl _) Y)).
    + f_equal. apply map_ext. intros j. now rewrite Ec.
    + intros j ids' Hj. rewrite <- Ec. now apply (G' (S j)).
Qed.
End Batch.
End Scores.
