(** Proofs about the scores of lattice decoding and text scoring. *)
From Coq Require Import QArith Qcanon.
From Verif Require Import Base BaseLib ListLib QcLib Strings VocabModel VocabSpec ScoreModel ScoreSpec ScoreProofs SubwordProofs
     DecoderModel DecoderSpec AgreeSpec.
Local Open Scope nat_scope.

Lemma log_unique ln p a b : log_of ln p a -> log_of ln p b -> a = b.
Proof.
  intros [[E ->]|[[E ->]|[E ->]]] [[E' ->]|[[E' ->]|[E' ->]]]; try reflexivity; exfalso; subst;
    repeat match goal with
    | H : (?x < ?x)%Qc |- _ => exact (Qclt_not_eq _ _ H eq_refl)
    | H : (0 < p)%Qc, H' : (p < 0)%Qc |- _ => exact (Qclt_not_le _ _ H (Qclt_le_weak _ _ H'))
    end.
Qed.
Lemma log_of_exists ln p : exists a, log_of ln p a.
Proof.
  unfold log_of. destruct (Qc_eq_dec p 0%Qc) as [->|N]; [eauto|].
  destruct (Qclt_le_dec 0%Qc p) as [H|H]; [eauto|]. exists NaN. right. right. split; [|reflexivity].
  apply Qcle_lt_or_eq in H as [H|H]; [exact H|congruence].
Qed.

Lemma removelast_snoc {A} (l : list A) x : removelast (l ++ [x]) = l.
Proof. apply removelast_last. Qed.
Lemma last_of_cons {A} (l : list A) x d : exists l', x :: l = l' ++ [last (x :: l) d].
Proof. exists (removelast (x :: l)). apply app_removelast_last. discriminate. Qed.

Lemma last_default {A} (l : list A) : forall x d d', last (x :: l) d = last (x :: l) d'.
Proof. induction l as [|y l IH]; intros x d d'; [reflexivity|]. apply (IH y). Qed.

Section Agree.
Context {state : Type}.
Variable initial : state.
Variable f : nat * nat * nat * state -> Qc * state.
Variable F : list (nat * nat) -> nat -> nat -> Qc.
Variable ln : Qc -> Qc.
Variable v : vocabulary.
Variable o : options.
Variable exclude_unk : bool.
Hypothesis Hv : reachable_vocab v.
Variable next : state -> nat * nat -> state.
Hypothesis next_ok : forall w c target st,
  nth_error (v_w2c v) w = Some c -> (exists x, nth_error (v_w2c v) x = Some target) ->
  snd (f (w, c, target, st)) = next st (w, c).
Hypothesis same : forall inputs t w c target,
  Forall (fun x => nth_error (v_w2c v) (fst x) = Some (snd x)) inputs ->
  nth_error inputs t = Some (w, c) -> (exists x, nth_error (v_w2c v) x = Some target) ->
  fst (f (w, c, target, fold_left next (firstn t inputs) initial)) = F inputs t target.

(** Summing up *)
Lemma telescope (xs : list Qc) : forall (ss : list lp) (b : lp) (bs : list lp),
  length ss = length xs -> length bs = length xs ->
  (forall i x s b0 b1, nth_error xs i = Some x -> nth_error ss i = Some s -> nth_error (b :: bs) i = Some b0 -> nth_error bs i = Some b1 ->
     ladd (Fin x) b1 = ladd s b0) ->
  ladd (Fin (qsum xs)) (last (b :: bs) b) = ladd (lsum ss) b.
Proof.
  induction xs as [|x xs IH]; intros [|s ss] b [|b1 bs]; cbn [length]; try discriminate; intros Ls Lb H.
  - reflexivity.
  - specialize (IH ss b1 bs ltac:(lia) ltac:(lia)).
    assert (E : ladd (Fin (qsum xs)) (last (b1 :: bs) b1) = ladd (lsum ss) b1).
    { apply IH. intros i x' s' c0 c1 Hx Hs H0 H1. exact (H (S i) x' s' c0 c1 Hx Hs H0 H1). }
    pose proof (H 0 x s b b1 eq_refl eq_refl eq_refl eq_refl) as E0.
    replace (last (b :: b1 :: bs) b) with (last (b1 :: bs) b1).
    2: { exact (last_default bs b1 b1 b). }
    cbn [qsum fold_right]. change (lsum (s :: ss)) with (ladd s (lsum ss)).
    change (Fin (x + fold_right Qcplus 0 xs)%Qc) with (ladd (Fin x) (Fin (qsum xs))).
    rewrite <- ladd_assoc, E, ladd_assoc, (ladd_comm (Fin x)), <- ladd_assoc, E0, ladd_assoc, (ladd_comm (lsum ss)). reflexivity.
Qed.

Lemma seen_word_class w shown cl prob : seen_word v w shown cl prob -> nth_error (v_w2c v) shown = Some cl.
Proof. destruct w as [i|s]; cbn [seen_word]; [intros (_ & H & _)|intros (unk & _ & _ & H & _)]; exact H. Qed.

(** The inputs and the state of the decoder *)
Lemma scores_states sos ws xs last_ st : network_scores state initial f ln v o sos ws xs last_ st ->
  exists inputs,
    Forall2 (fun h wc => exists p, seen_word v h (fst wc) (snd wc) p) (removelast (inl sos :: map fst ws)) inputs /\
    st = fold_left next inputs initial /\ (exists hs, inl sos :: map fst ws = hs ++ [last_]) /\ length xs = length ws /\
    forall i w oov x, nth_error ws i = Some (w, oov) -> nth_error xs i = Some x ->
      exists h st', nth_error (inl sos :: map fst ws) i = Some h /\
        next_word state f ln v o h w oov (fold_left next (firstn i inputs) initial) (Fin x) st'.
Proof.
  induction 1 as [|ws xs last_ st w oov x st' H (inputs & S1 & S2 & (hs & S3) & S4 & S5) N].
  - exists []. cbn [map removelast]. repeat split; [constructor|exists []; reflexivity|]. intros [|i]; discriminate.
  - inversion N as [shown cl prob shown' cl' prob' p st1 a b y Hs Hs' Ef La Lb Hx]; subst.
    assert (E3 : inl sos :: map fst (ws ++ [(w, oov)]) = (hs ++ [last_]) ++ [w]) by (rewrite <- S3, map_app; reflexivity).
    rewrite E3.
    assert (Li : length inputs = length ws).
    { rewrite S3, removelast_snoc in S1. apply (f_equal (@length _)) in S3. rewrite app_length in S3. cbn in S3. rewrite map_length in S3.
      assert (length hs = length inputs) by (clear - S1; induction S1; cbn; congruence). lia. }
    exists (inputs ++ [(shown, cl)]). rewrite removelast_snoc. rewrite S3, removelast_snoc in S1. repeat split.
    + apply Forall2_app; [exact S1|]. constructor; [|constructor]. cbn [fst snd]. eauto.
    + rewrite fold_left_app. cbn [fold_left]. rewrite <- (next_ok shown cl cl'), Ef; [reflexivity|eapply seen_word_class; eauto|exists shown'; eapply seen_word_class; eauto].
    + eauto.
    + rewrite !app_length. cbn. lia.
    + intros i w0 oov0 x0 Hw Hx0.
      assert (B : i < length ws \/ i = length ws).
      { assert (i < length (ws ++ [(w, oov)])) by (apply nth_error_Some; congruence). rewrite app_length in *. cbn [length] in *. lia. }
      destruct B as [B| ->].
      * rewrite nth_error_app1 in Hw by lia. rewrite nth_error_app1 in Hx0 by lia.
        destruct (S5 i w0 oov0 x0 Hw Hx0) as (h & st0 & Hh & Hn). exists h, st0. split.
        -- rewrite nth_error_app1; [now rewrite <- S3|]. rewrite <- S3. cbn [length]. rewrite map_length. lia.
        -- rewrite firstn_app. replace (i - length inputs) with 0 by lia. cbn [firstn]. now rewrite app_nil_r.
      * rewrite nth_error_app2 in Hw by lia. rewrite Nat.sub_diag in Hw. injection Hw as <- <-.
        rewrite nth_error_app2 in Hx0 by lia. rewrite <- S4, Nat.sub_diag in Hx0. injection Hx0 as <-.
        exists last_, st'. split.
        -- rewrite nth_error_app1.
           2: { rewrite <- S3. cbn [length]. rewrite map_length. lia. }
           apply (f_equal (@length _)) in S3 as L3. rewrite app_length in L3. cbn [length] in L3. rewrite map_length in L3.
           rewrite nth_error_app2 by lia. replace (length ws - length hs) with 0 by lia. reflexivity.
        -- rewrite firstn_app. replace (length ws - length inputs) with 0 by lia. cbn [firstn]. rewrite app_nil_r, firstn_all2 by lia. exact N.
Qed.

Lemma seen_word_id w id shown cl prob : text_id v w id -> seen_word v w shown cl prob -> seen_as v id shown cl prob.
Proof. destruct w as [i|s]; cbn; [intros ->; auto|]. intros E (unk & E' & S). congruence. Qed.

Lemma forall2_id hs ids inputs :
  Forall2 (text_id v) hs ids -> Forall2 (fun h wc => exists p, seen_word v h (fst wc) (snd wc) p) hs inputs ->
  Forall2 (fun id wc => exists p, seen_as v id (fst wc) (snd wc) p) ids inputs.
Proof.
  intros H. revert inputs. induction H as [|h id hs ids Hh _ IH]; intros inputs S; inversion S; subst; constructor; auto.
  match goal with Hx : exists p, _ |- _ => destruct Hx as [p Hp] end. exists p. eapply seen_word_id; eauto.
Qed.
Lemma forall2_seen_unique ids a b :
  Forall2 (fun id wc => exists p, seen_as v id (fst wc) (snd wc) p) ids a ->
  Forall2 (fun id wc => exists p, seen_as v id (fst wc) (snd wc) p) ids b -> a = b.
Proof.
  intros H. revert b. induction H as [|id [w c] ids a (p & Hp) _ IH]; intros b S; inversion S as [|? [w' c'] ? b' (p' & Hp')]; subst; [reflexivity|].
  cbn [fst snd] in *. destruct (seen_unique v id w w' c c' p p' Hp Hp') as (-> & -> & _). f_equal. auto.
Qed.
Lemma forall2_removelast {A B} (R : A -> B -> Prop) l l' : Forall2 R l l' -> Forall2 R (removelast l) (removelast l').
Proof. induction 1 as [|a b l l' H G IH]; cbn; [constructor|]. destruct G; [constructor|]. constructor; auto. Qed.
Lemma forall2_nth_error {A B} (R : A -> B -> Prop) l l' : Forall2 R l l' ->
  forall i a b, nth_error l i = Some a -> nth_error l' i = Some b -> R a b.
Proof. induction 1 as [|a b l l' H _ IH]; intros [|i] x y; cbn; try discriminate; eauto. now intros [= <-] [= <-]. Qed.
Lemma forall2_len {A B} (R : A -> B -> Prop) l l' : Forall2 R l l' -> length l = length l'.
Proof. induction 1; cbn; congruence. Qed.
Lemma nth_error_seq1 n i j : nth_error (seq 1 n) i = Some j -> j = S i.
Proof. rewrite nth_error_seq. destruct (i <? n); [|discriminate]. now intros [= <-]. Qed.

Theorem same_scores sos ws xs last_ st ids scores :
  network_scores state initial f ln v o sos ws xs last_ st ->
  Forall2 (text_id v) (map fst ws) (tl ids) -> hd_error ids = Some sos ->
  sequence_scores ln F v (o_use_shortlist o) exclude_unk ids scores ->
  Forall (scored_by_both v (o_use_shortlist o) exclude_unk) ws ->
  forall bs, Forall2 (membership ln v) ids bs ->
  exists ss, scores = map Some ss /\ length ss = length xs /\
    forall i x s b0 b1, nth_error xs i = Some x -> nth_error ss i = Some s -> nth_error bs i = Some b0 -> nth_error bs (S i) = Some b1 ->
     ladd (Fin x) b1 = ladd s b0.
Proof.
  intros N Hid Hsos Hs Hb bs Hm. destruct ids as [|sos' ids]; [discriminate|]. injection Hsos as ->. cbn [tl] in Hid.
  destruct (scores_states _ _ _ _ _ N) as (inputs & S1 & _ & _ & S4 & S5).
  assert (Hid' : Forall2 (text_id v) (inl sos :: map fst ws) (sos :: ids)) by (constructor; [reflexivity|exact Hid]).
  assert (Hin : Forall2 (fun id wc => exists p, seen_as v id (fst wc) (snd wc) p) (removelast (sos :: ids)) inputs).
  { eapply forall2_id; [|exact S1]. now apply forall2_removelast. }
  assert (Hall : Forall (fun x => nth_error (v_w2c v) (fst x) = Some (snd x)) inputs).
  { clear - Hin. induction Hin as [|id wc l l' (p & _ & H & _) _ IH]; constructor; auto. }
  assert (Li : length ids = length ws) by (apply forall2_len in Hid; rewrite map_length in Hid; congruence).
  assert (Ls : length scores = length ids).
  { apply forall2_len in Hs. rewrite seq_length in Hs. cbn [length] in Hs. lia. }
  assert (Lin : length inputs = length ids).
  { apply forall2_len in Hin. destruct (last_of_cons ids sos sos) as (l & E). rewrite E, removelast_snoc in Hin.
    apply (f_equal (@length _)) in E. rewrite app_length in E. cbn [length] in E. lia. }
  (* every word *)
  assert (W : forall i sc, nth_error scores i = Some sc -> exists x s, nth_error xs i = Some x /\ sc = Some s /\
     forall b0 b1, nth_error bs i = Some b0 -> nth_error bs (S i) = Some b1 -> ladd (Fin x) b1 = ladd s b0).
  { intros i sc Hsc. assert (Hi : i < length scores) by (apply nth_error_Some; congruence).
    destruct (nth_error ws i) as [[w oov]|] eqn:Ew; [|apply nth_error_None in Ew; lia].
    destruct (nth_error xs i) as [x|] eqn:Ex; [|apply nth_error_None in Ex; lia].
    destruct (nth_error ids i) as [id|] eqn:Eid; [|apply nth_error_None in Eid; lia].
    assert (Tid : text_id v w id) by (eapply forall2_nth_error; [exact Hid| |exact Eid]; rewrite nth_error_map, Ew; reflexivity).
    rewrite Forall_forall in Hb. destruct (Hb _ (nth_error_In _ _ Ew)) as [Nex Hw]. cbn [fst snd] in *. specialize (Nex _ Tid).
    destruct (S5 i w oov x Ew Ex) as (h & st' & Hh & Hn).
    inversion Hn as [shown cl prob shown' cl' prob' p st1 a b y Sh Sw Ef La Lb Hx]; subst.
    assert (Hsq : nth_error (seq 1 (length (sos :: ids) - 1)) i = Some (S i)).
    { rewrite nth_error_seq. cbn [length]. destruct (Nat.ltb_spec i (S (length ids) - 1)); [reflexivity|lia]. }
    pose proof (forall2_nth_error _ _ _ Hs _ _ _ Hsq Hsc) as Sc.
    destruct (nth_error (sos :: ids) i) as [idh|] eqn:Eh; [|apply nth_error_None in Eh; cbn [length] in Eh; lia].
    pose proof (forall2_nth_error _ _ _ Hid' _ _ _ Hh Eh) as Th.
    inversion Sc as [id' Eid' Hex|id' sh cl1 pr inputs' a1 b1' c1 Eid' _ Sa Hin' La1 Lb1 Hc]; subst; cbn [nth_error] in Eid'.
    { exfalso. apply Nex. congruence. }
    assert (id' = id) as -> by congruence.
    pose proof (forall2_seen_unique _ _ _ Hin' Hin) as ->.
    pose proof (seen_word_id _ _ _ _ _ Tid Sw) as Sw'. destruct (seen_unique v id _ _ _ _ _ _ Sa Sw') as (-> & -> & ->).
    pose proof (seen_word_id _ _ _ _ _ Th Sh) as Sh'.
    destruct (nth_error inputs i) as [[wi ci]|] eqn:Ei; [|apply nth_error_None in Ei; lia].
    assert (Eri : nth_error (removelast (sos :: ids)) i = Some idh).
    { destruct (last_of_cons ids sos sos) as (l & E). rewrite E, removelast_snoc. rewrite E in Eh.
      rewrite nth_error_app1 in Eh; [exact Eh|]. apply (f_equal (@length _)) in E. rewrite app_length in E. cbn [length] in E. lia. }
    destruct (forall2_nth_error _ _ _ Hin _ _ _ Eri Ei) as (pi & Spi). cbn [fst snd] in Spi.
    destruct (seen_unique v idh _ _ _ _ _ _ Spi Sh') as (-> & -> & ->).
    assert (Ea : a1 = a).
    { eapply log_unique; [exact La1|]. cbn [Nat.sub]. rewrite Nat.sub_0_r. rewrite <- (same inputs i shown cl cl' Hall Ei), Ef by (exists shown'; eapply seen_word_class; eauto). exact La. }
    subst a1. exists x. eexists. split; [reflexivity|]. split; [reflexivity|].
    intros b0 b1 Hb0 Hb1.
    assert (b0 = b).
    { destruct (forall2_nth_error _ _ _ Hm _ _ _ Eh Hb0) as (? & ? & ? & Sm & Lm).
      destruct (seen_unique v idh _ _ _ _ _ _ Sm Sh') as (-> & -> & ->). eapply log_unique; eauto. }
    assert (b1 = b1').
    { assert (E1 : nth_error (sos :: ids) (S i) = Some id) by exact Eid.
      destruct (forall2_nth_error _ _ _ Hm _ _ _ E1 Hb1) as (? & ? & ? & Sm & Lm).
      destruct (seen_unique v id _ _ _ _ _ _ Sm Sw') as (-> & -> & ->). eapply log_unique; eauto. }
    subst b0 b1.
    assert (Ey : Fin x = ladd (ladd a b) c1).
    { destruct w as [iw|sw].
      - cbn in Tid. subst id. destruct Hx as [(H1 & H2 & y & -> & _)|(_ & c & Hc' & ->)].
        + exfalso. destruct Hw as [Hw|[Hw|Hw]]; [lia|contradiction|discriminate].
        + f_equal. eapply share_unique; eauto.
      - rewrite Hw in Hx. rewrite Hx. cbn in Tid.
        assert (NS : ~ shares v (o_use_shortlist o)) by (intro S0; apply Nex; left; auto).
        destruct Hc as [[_ ->]|[S0 _]]; [|contradiction]. now rewrite ladd_0_r. }
    rewrite Ey. rewrite <- !ladd_assoc. f_equal. rewrite (ladd_comm c1 b1'), !ladd_assoc. rewrite (ladd_comm b b1'), <- !ladd_assoc. f_equal. apply ladd_comm. }
  assert (X : forall l, (forall i sc, nth_error l i = Some sc -> exists s : lp, sc = Some s) -> exists ss, l = map Some ss).
  { induction l as [|sc l IH]; intros H; [exists []; reflexivity|]. destruct (H 0 sc eq_refl) as [s ->].
    destruct IH as [ss ->]; [intros i sc; apply (H (S i))|]. exists (s :: ss). reflexivity. }
  destruct (X scores) as [ss ->].
  { intros i sc Hi. destruct (W i sc Hi) as (_ & s & _ & -> & _). eauto. }
  rewrite map_length in Ls. exists ss. split; [reflexivity|]. split; [lia|].
  intros i x s b0 b1 Hx Hsi H0 H1. destruct (W i (Some s)) as (x' & s' & Hx' & [= <-] & E); [now rewrite nth_error_map, Hsi|].
  assert (x' = x) as -> by congruence. eauto.
Qed.
End Agree.
