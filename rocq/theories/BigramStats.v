(** Word statistics from a corpus, and what they imply for the optimizer. *)
From Coq Require Import Reals Lia.
From Verif Require Import Base BigramModel BigramSpec BigramProofs BigramGain BigramRuns.
Local Open Scope nat_scope.

(** Occurrences in the corpus *)
Fixpoint occurrences (w : nat) (line : list nat) : nat :=
  match line with [] => 0 | x :: line => (if x =? w then 1 else 0) + occurrences w line end.
Fixpoint pair_occurrences (u v : nat) (line : list nat) : nat :=
  match line with
  | x :: ((y :: _) as rest) => (if (x =? u) && (y =? v) then 1 else 0) + pair_occurrences u v rest
  | _ => 0
  end.
Definition over (f : list nat -> nat) (corpus : list (list nat)) : nat := fold_right (fun l s => f l + s) 0 corpus.

Lemma count_unigrams line : forall a w,
  fold_left (fun a w => add1 a w 1%Z) line a w = (a w + Z.of_nat (occurrences w line))%Z.
Proof.
  induction line as [|x line IH]; intros a w; cbn [fold_left occurrences]; [lia|]. rewrite IH, add1_eq.
  rewrite (Nat.eqb_sym w x). destruct (x =? w); cbn [ind]; lia.
Qed.
Lemma count_bigrams line : forall m u v,
  fold_left (fun m '(l, r) => add2 m l r 1%Z) (combine (removelast line) (tl line)) m u v = (m u v + Z.of_nat (pair_occurrences u v line))%Z.
Proof.
  induction line as [|x line IH]; intros m u v; [cbn; lia|]. destruct line as [|y rest]; [cbn; lia|].
  change (removelast (x :: y :: rest)) with (x :: removelast (y :: rest)). cbn [tl combine fold_left].
  change (combine (removelast (y :: rest)) rest) with (combine (removelast (y :: rest)) (tl (y :: rest))). rewrite IH, add2_eq.
  change (pair_occurrences u v (x :: y :: rest)) with ((if (x =? u) && (y =? v) then 1 else 0) + pair_occurrences u v (y :: rest)).
  rewrite (Nat.eqb_sym u x), (Nat.eqb_sym v y). destruct ((x =? u) && (y =? v)); cbn [ind]; lia.
Qed.
Lemma statistics_spec corpus :
  (forall w, unigram_counts (bigram_statistics corpus) w = Z.of_nat (over (occurrences w) corpus)) /\
  (forall u v, bigram_counts (bigram_statistics corpus) u v = Z.of_nat (over (pair_occurrences u v) corpus)).
Proof.
  unfold bigram_statistics.
  assert (G : forall s,
    (forall w, unigram_counts (fold_left count_line corpus s) w = (unigram_counts s w + Z.of_nat (over (occurrences w) corpus))%Z) /\
    (forall u v, bigram_counts (fold_left count_line corpus s) u v = (bigram_counts s u v + Z.of_nat (over (pair_occurrences u v) corpus))%Z)).
  { induction corpus as [|l corpus IH]; intros s; cbn [fold_left over fold_right]; [split; intros; lia|].
    destruct (IH (count_line s l)) as [I1 I2]. unfold over in *. split.
    - intros w. rewrite I1. unfold count_line. cbn [unigram_counts]. rewrite count_unigrams. lia.
    - intros u v. rewrite I2. unfold count_line. cbn [bigram_counts]. rewrite count_bigrams. lia. }
  destruct (G (mkStatistics (fun _ => 0%Z) (fun _ _ => 0%Z))) as [G1 G2]. split; [intros w; rewrite G1; reflexivity|intros u v; rewrite G2; reflexivity].
Qed.

(** Lines as utterance_from_line gives them: empty, or between the sentence symbols *)
Definition sentence (sos eos : nat) (line : list nat) : Prop := line = [] \/ exists mid, line = sos :: mid ++ [eos].

Lemma over_pos f corpus : over f corpus <> 0 -> exists l, In l corpus /\ f l <> 0.
Proof.
  induction corpus as [|l corpus IH]; [intros H; contradiction H; reflexivity|]. cbn [over fold_right]. fold (over f corpus). intros H.
  destruct (Nat.eq_dec (f l) 0) as [E|E]; [|exists l; split; [left; reflexivity|exact E]].
  destruct IH as (m & Hm & Hf); [lia|]. exists m. split; [right; exact Hm|exact Hf].
Qed.
Lemma over_ge f corpus l : In l corpus -> f l <= over f corpus.
Proof.
  induction corpus as [|m corpus IH]; [intros []|]. cbn [over fold_right]. fold (over f corpus). intros [->|H]; [lia|]. specialize (IH H). lia.
Qed.
Lemma occurrences_in w l : occurrences w l <> 0 <-> In w l.
Proof.
  induction l as [|x l IH]; cbn [occurrences In]; [split; [congruence|intros []]|].
  destruct (x =? w) eqn:E; [apply Nat.eqb_eq in E; split; [auto|lia]|]. apply Nat.eqb_neq in E. rewrite Nat.add_0_l, IH. tauto.
Qed.
Lemma pair_app u v l m : pair_occurrences u v (l ++ u :: v :: m) <> 0.
Proof.
  induction l as [|x l IH].
  - cbn [app pair_occurrences]. rewrite !Nat.eqb_refl. cbn [andb]. discriminate.
  - cbn [app]. destruct (l ++ u :: v :: m) as [|y r] eqn:E; [destruct l; discriminate|].
    change (pair_occurrences u v (x :: y :: r)) with ((if (x =? u) && (y =? v) then 1 else 0) + pair_occurrences u v (y :: r)). lia.
Qed.
(** a word that occurs in a list that does not end with it has another word after it *)
Lemma next_other w : forall l, In w l -> last l 0 <> w -> exists a v b, l = a ++ w :: v :: b /\ v <> w.
Proof.
  induction l as [|x l IH]; [intros []|]. intros H L. destruct (in_dec Nat.eq_dec w l) as [I|I].
  - destruct l as [|y l]; [destruct I|]. destruct (IH I L) as (a & v & b & E & N). exists (x :: a), v, b. split; [rewrite E; reflexivity|exact N].
  - destruct H as [->|H]; [|contradiction]. destruct l as [|y l]; [cbn in L; congruence|]. exists [], y, l. split; [reflexivity|]. intros ->. apply I; left; reflexivity.
Qed.
Lemma previous_other w : forall l, In w l -> hd 0 l <> w -> exists a u b, l = a ++ u :: w :: b /\ u <> w.
Proof.
  induction l as [|x l IH]; [intros []|]. intros H L. cbn [hd] in L. destruct H as [->|H]; [congruence|].
  destruct l as [|y l]; [destruct H|]. destruct (Nat.eq_dec y w) as [->|N].
  - exists [], x, l. split; [reflexivity|exact L].
  - destruct (IH H N) as (a & u & b & E & D). exists (x :: a), u, b. split; [rewrite E; reflexivity|exact D].
Qed.
Lemma pair_in u v l : pair_occurrences u v l <> 0 -> In u l /\ In v l.
Proof.
  induction l as [|x l IH]; [cbn; congruence|]. destruct l as [|y r]; [cbn; congruence|].
  change (pair_occurrences u v (x :: y :: r)) with ((if (x =? u) && (y =? v) then 1 else 0) + pair_occurrences u v (y :: r)).
  destruct ((x =? u) && (y =? v)) eqn:E.
  - apply andb_true_iff in E. destruct E as [E1 E2]. apply Nat.eqb_eq in E1. apply Nat.eqb_eq in E2. subst. intros _. split; [left; reflexivity|right; left; reflexivity].
  - rewrite Nat.add_0_l. intros H. destruct (IH H) as [A B]. split; right; assumption.
Qed.

(** The problem of a corpus *)
Definition corpus_problem (n C K : nat) (name : nat -> pystr) (corpus : list (list nat)) : problem :=
  let s := bigram_statistics corpus in mkProblem n C K name (unigram_counts s) (bigram_counts s).

(** The conditions that wctool meets: word IDs within the vocabulary, lines between the
    sentence symbols, which have the form of special tokens, and some nonempty line *)
Definition corpus_ok (n : nat) (name : nat -> pystr) (corpus : list (list nat)) : Prop :=
  (forall line w, In line corpus -> In w line -> w < n) /\
  (exists line, In line corpus /\ line <> []) /\
  exists sos eos, special (name sos) = true /\ special (name eos) = true /\ Forall (sentence sos eos) corpus.

Lemma corpus_proper n C K name corpus : K <= C -> corpus_ok n name corpus -> proper (corpus_problem n C K name corpus).
Proof.
  intros HK (H1 & (line & Hl & Hne) & sos & eos & _ & _ & F).
  destruct (statistics_spec corpus) as [S1 S2].
  rewrite Forall_forall in F. destruct (F line Hl) as [->|(mid & E)]; [congruence|].
  unfold proper, corpus_problem. cbn [word_counts ww_counts num_words num_normal_classes num_classes]. split; [intros w; rewrite S1; lia|]. split; [intros u v; rewrite S2; lia|].
  assert (I0 : In sos line) by (rewrite E; left; reflexivity).
  split; [|split; [|exact HK]].
  - exists sos. split; [apply (H1 line sos Hl I0)|]. rewrite S1. assert (G := over_ge (occurrences sos) corpus line Hl). apply occurrences_in in I0. lia.
  - destruct mid as [|x mid].
    + exists sos, eos. split; [apply (H1 line sos Hl I0)|]. split; [apply (H1 line eos Hl); rewrite E; right; left; reflexivity|].
      rewrite S2. assert (G := over_ge (pair_occurrences sos eos) corpus line Hl). assert (P := pair_app sos eos [] []). rewrite E in G. cbn [app] in *. lia.
    + exists sos, x. split; [apply (H1 line sos Hl I0)|]. split; [apply (H1 line x Hl); rewrite E; right; left; reflexivity|].
      rewrite S2. assert (G := over_ge (pair_occurrences sos x) corpus line Hl). assert (P := pair_app sos x [] (mid ++ [eos])). rewrite E in G. cbn [app] in *. lia.
Qed.

Lemma corpus_connected n C K name corpus w : corpus_ok n name corpus ->
  w < n -> special (name w) = false ->
  let p := corpus_problem n C K name corpus in
  (word_counts p w = 0%Z /\ (forall v, ww_counts p w v = 0%Z) /\ (forall u, ww_counts p u w = 0%Z)) \/ connected p w.
Proof.
  intros (H1 & _ & sos & eos & Ss & Se & F) Hw Sp p. destruct (statistics_spec corpus) as [S1 S2].
  unfold p, corpus_problem. cbn [word_counts ww_counts].
  destruct (Nat.eq_dec (over (occurrences w) corpus) 0) as [Z|Z].
  - left. rewrite S1, Z. split; [reflexivity|].
    assert (G : forall u v, u = w \/ v = w -> over (pair_occurrences u v) corpus = 0).
    { intros u v D. destruct (Nat.eq_dec (over (pair_occurrences u v) corpus) 0) as [E|E]; [exact E|]. exfalso.
      apply over_pos in E. destruct E as (l & Hl & E). apply pair_in in E. destruct E as [E1 E2].
      assert (In w l) by (destruct D; subst; assumption). apply occurrences_in in H. assert (G := over_ge (occurrences w) corpus l Hl). lia. }
    split; [intros v; rewrite S2, G by auto; reflexivity|intros u; rewrite S2, G by auto; reflexivity].
  - right. apply over_pos in Z. destruct Z as (l & Hl & Z). apply occurrences_in in Z.
    rewrite Forall_forall in F. destruct (F l Hl) as [->|(mid & E)]; [destruct Z|].
    assert (Nl : last l 0 <> w).
    { rewrite E. change (sos :: mid ++ [eos]) with ((sos :: mid) ++ [eos]). rewrite last_last. intros <-. congruence. }
    assert (Nh : hd 0 l <> w) by (rewrite E; cbn [hd]; intros <-; congruence).
    destruct (next_other w l Z Nl) as (a & v & b & Ea & Na). destruct (previous_other w l Z Nh) as (a' & u & b' & Ea' & Na').
    unfold connected, corpus_problem. cbn [num_words ww_counts]. split.
    + exists v. split; [apply (H1 l v Hl); rewrite Ea; apply in_or_app; right; right; left; reflexivity|]. split; [exact Na|].
      rewrite S2. assert (G := over_ge (pair_occurrences w v) corpus l Hl). assert (P := pair_app w v a b). rewrite <- Ea in P. lia.
    + exists u. split; [apply (H1 l u Hl); rewrite Ea'; apply in_or_app; right; left; reflexivity|]. split; [exact Na'|].
      rewrite S2. assert (G := over_ge (pair_occurrences u w) corpus l Hl). assert (P := pair_app u w a' b'). rewrite <- Ea' in P. lia.
Qed.

Lemma corpus_moves_connected n C K name corpus w a c : corpus_ok n name corpus ->
  let p := corpus_problem n C K name corpus in
  w < n -> special (name w) = false -> assignment p a -> improves p a w c -> connected p w.
Proof.
  intros Ok p Hw Sp A I. destruct (corpus_connected n C K name corpus w Ok Hw Sp) as [(Z1 & Z2 & Z3)|H]; [|exact H].
  exfalso. unfold improves in I. rewrite (absent_word p a w c A Hw Z1 Z2 Z3) in I. apply (Rlt_irrefl _ I).
Qed.

(** Scheduling *)
Local Open Scope Z_scope.
Lemma scheduled_count f w : 0 < w -> 0 <= f <= w -> forall n,
  Z.of_nat (length (filter (fun k => is_scheduled (Z.of_nat k) f w) (seq 1 n))) = Z.of_nat n * f / w.
Proof.
  intros Hw Hf. induction n as [|n IH].
  - cbn [seq filter length]. rewrite Z.div_0_l; lia.
  - rewrite seq_S, filter_app, app_length, Nat2Z.inj_add, IH. cbn [filter Nat.add]. unfold is_scheduled.
    set (a := Z.of_nat n * f). assert (E : Z.of_nat (1 + n) * f = a + f) by (unfold a; rewrite Nat2Z.inj_add; ring).
    assert (E' : Z.of_nat (S n) * f = a + f) by (unfold a; lia).
    change (Z.of_nat (S n) * f mod w <? f) with (Z.of_nat (S n) * f mod w <? f). rewrite !E'.
    assert (D1 := Z.div_mod a w ltac:(lia)). assert (D2 := Z.div_mod (a + f) w ltac:(lia)).
    assert (M1 := Z.mod_pos_bound a w Hw). assert (M2 := Z.mod_pos_bound (a + f) w Hw).
    destruct ((a + f) mod w <? f) eqn:L; cbn [length].
    + apply Z.ltb_lt in L. assert ((a + f) / w = a / w + 1); [|lia].
      assert (w * ((a + f) / w - a / w) = f - (a + f) mod w + a mod w) by lia. nia.
    + apply Z.ltb_ge in L. assert ((a + f) / w = a / w); [|lia].
      assert (w * ((a + f) / w - a / w) = f - (a + f) mod w + a mod w) by lia. nia.
Qed.
