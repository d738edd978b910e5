(** C41, C42, C43 and C58: word classes. *)
From Coq Require Import Reals Lra Lia.
From Verif Require Import Base BigramModel BigramSpec BigramProofs BigramGain BigramRuns BigramStats.
Local Open Scope R_scope.

(** ** C41: class statistics are exact *)

(** Creating the optimizer fails exactly when there are no counts; otherwise its tables
    are those of the initial assignment. *)
Theorem C41_create p a :
  match create p a with
  | Ok st => word_to_class st = a /\ exact p st
  | Err e => e = ValueError /\
      ((forall w, (w < num_words p)%nat -> word_counts p w = 0%Z) \/
       (forall u v, (u < num_words p)%nat -> (v < num_words p)%nat -> ww_counts p u v = 0%Z))
  end.
Proof.
  unfold create. destruct (forallb (fun w => (word_counts p w =? 0)%Z) (seq 0 (num_words p))) eqn:E1.
  - split; [reflexivity|]. left. intros w Hw. rewrite forallb_forall in E1. apply Z.eqb_eq, E1, in_seq. lia.
  - destruct (forallb (fun u => match right_words p u with [] => true | _ => false end) (seq 0 (num_words p))) eqn:E2.
    + split; [reflexivity|]. right. intros u v Hu Hv. rewrite forallb_forall in E2. specialize (E2 u ltac:(apply in_seq; lia)).
      destruct (right_words p u) eqn:Er; [|discriminate]. destruct (ww_counts p u v =? 0)%Z eqn:Ez; [apply Z.eqb_eq; exact Ez|].
      assert (Hin : In v (right_words p u)) by (unfold right_words; apply filter_In; rewrite Ez; split; [apply in_seq; lia|reflexivity]).
      rewrite Er in Hin. destruct Hin.
    + split; [reflexivity|apply exact_initial].
Qed.
Print Assumptions C41_create.

(** After any moves, the tables are those of the current assignment, which is the
    initial one with the moves made. *)
Theorem C41_moves b p a st l st' :
  assignment p a -> create p a = Ok st -> moves b p st l st' ->
  exact p st' /\ assignment p (word_to_class st') /\
  word_to_class st' = fold_left (fun a '(w, c) => upd a w c) l a.
Proof.
  intros A E M. assert (H := C41_create p a). rewrite E in H. destruct H as [<- X].
  exact (exact_moves b p st l st' M X A).
Qed.
Print Assumptions C41_moves.

(** When a move is possible: always with Theano; with NumPy exactly when the word has
    another word both before and after it. *)
Theorem C41_move_succeeds b p st w c :
  (exists st', move b p st w c = Ok st') <-> (b = Theano \/ connected p w).
Proof. exact (move_fails b p st w c). Qed.
Print Assumptions C41_move_succeeds.

(** The membership probabilities of the words in a class that occurs sum to one. *)
Lemma sum_prob p st c l :
  (forall w, In w l -> class_of (word_to_class st) w = c) -> class_counts st c <> 0%Z ->
  sumR l (get_word_prob p st) = IZR (total l (word_counts p)) / IZR (class_counts st c).
Proof.
  intros H Hc. assert (Hc' : IZR (class_counts st c) <> 0) by (apply not_0_IZR; exact Hc).
  induction l as [|w l IH]; [change (sumR [] (get_word_prob p st)) with 0; rewrite total_nil; lra|].
  rewrite sumR_cons, total_cons, plus_IZR, IH by (intros x Hx; apply H; right; exact Hx).
  unfold get_word_prob. rewrite (H w (or_introl eq_refl)). replace (class_counts st c =? 0)%Z with false by (symmetry; apply Z.eqb_neq; exact Hc).
  field. exact Hc'.
Qed.
Theorem C41_probs p st c :
  exact p st -> (c < num_classes p)%nat ->
  (class_count p (word_to_class st) c <> 0%Z -> sumR (members p (word_to_class st) c) (get_word_prob p st) = 1) /\
  (class_count p (word_to_class st) c = 0%Z -> forall w, In w (members p (word_to_class st) c) -> get_word_prob p st w = 0).
Proof.
  intros (X & _) Hc. assert (M : forall w, In w (members p (word_to_class st) c) -> class_of (word_to_class st) w = c).
  { intros w Hw. unfold members in Hw. apply filter_In in Hw. apply Nat.eqb_eq, Hw. }
  split; intros H.
  - rewrite (sum_prob p st c) by (auto; rewrite X; auto). rewrite X by exact Hc. unfold class_count in *.
    field. apply not_0_IZR. exact H.
  - intros w Hw. unfold get_word_prob. rewrite (M w Hw), X, H by exact Hc. reflexivity.
Qed.
Print Assumptions C41_probs.

(** ** C42: gains *)

(** The reported log likelihood is that of the class bigram model. *)
Theorem C42_log_likelihood b p st :
  proper p -> exact p st -> assignment p (word_to_class st) ->
  log_likelihood b p st = Num (likelihood p (word_to_class st)).
Proof. exact (log_likelihood_num b p st). Qed.
Print Assumptions C42_log_likelihood.

(** The gain is a number exactly when [numeric] holds, and then it is the change of the
    log likelihood. *)
Theorem C42_gain b p st w new x :
  proper p -> exact p st -> assignment p (word_to_class st) ->
  (w < num_words p)%nat -> (new < num_classes p)%nat -> class_of (word_to_class st) w <> new ->
  (evaluate b p st w new = Num x <->
   numeric b p (word_to_class st) w new /\ x = likelihood p (upd (word_to_class st) w new) - likelihood p (word_to_class st)).
Proof. intros P X A Hw Hn D. exact (evaluate_num b p st w new P X A Hw Hn D x). Qed.
Print Assumptions C42_gain.

(** ** C43: optimization *)

(** What a single call does. *)
Theorem C43_step b p st w :
  proper p -> good p st -> (w < num_words p)%nat ->
  let a := word_to_class st in
  match move_to_best_class b p st w with
  | Ok (st', true) => exists c,
      special (word_name p w) = false /\ (2 <= size a (class_of a w))%nat /\ (c < num_normal_classes p)%nat /\ class_of a w <> c /\
      numeric b p a w c /\ good p st' /\ word_to_class st' = upd a w c /\ improves p a w c /\
      (forall d, (d < num_normal_classes p)%nat -> d <> class_of a w -> numeric b p a w d -> likelihood p (upd a w d) <= likelihood p (upd a w c))
  | Ok (st', false) => st' = st /\
      (special (word_name p w) = true \/ (size a (class_of a w) < 2)%nat \/
       forall d, (d < num_normal_classes p)%nat -> d <> class_of a w -> numeric b p a w d -> ~ improves p a w d)
  | Err e => e = IndexError /\ b = Numpy /\ special (word_name p w) = false /\ ~ connected p w /\ exists c, (c < num_normal_classes p)%nat /\ class_of a w <> c /\ improves p a w c
  end.
Proof. exact (step_spec b p st w). Qed.
Print Assumptions C43_step.

(** What the optimization as a whole gives: special tokens keep their classes, no class
    is emptied, the likelihood does not decrease, and no word can be moved any more to a
    class whose gain is a number with a greater likelihood. *)
Theorem C43_result b p a st passes st' :
  proper p -> assignment p a -> create p a = Ok st -> optimize passes b p st = Ok st' ->
  let a' := word_to_class st' in
  exact p st' /\ assignment p a' /\
  (forall w, (w < num_words p)%nat -> special (word_name p w) = true -> class_of a' w = class_of a w) /\
  (forall c, (0 < size a c)%nat -> (0 < size a' c)%nat) /\
  likelihood p a <= likelihood p a' /\
  (forall w c, (w < num_words p)%nat -> special (word_name p w) = false -> (2 <= size a' (class_of a' w))%nat ->
     (c < num_normal_classes p)%nat -> c <> class_of a' w -> numeric b p a' w c -> likelihood p (upd a' w c) <= likelihood p a').
Proof.
  intros P A E O a'. assert (H := C41_create p a). rewrite E in H. destruct H as [<- X].
  destruct (optimize_spec b p P passes st (conj X A) st' O) as ((G1 & G2) & (K1 & K2 & K3) & S).
  split; [exact G1|]. split; [exact G2|]. split; [exact K1|]. split; [exact K2|]. split; [exact K3|].
  intros w c Hw Sp Sz Hc Nc Hn. destruct (S w Hw) as [S1|[S1|S1]]; [congruence|exfalso; exact (Nat.lt_irrefl _ (Nat.le_lt_trans _ _ _ Sz S1))|].
  apply Rnot_lt_le. apply (S1 c Hc Nc Hn).
Qed.
Print Assumptions C43_result.

(** For every corpus that wctool reads, both optimizers finish without an exception,
    after at most C ^ n passes over the words. *)
Theorem C43_terminates b n C K name corpus a passes :
  corpus_ok n name corpus -> (K <= C)%nat ->
  let p := corpus_problem n C K name corpus in
  assignment p a -> (C ^ n <= passes)%nat ->
  exists st st', create p a = Ok st /\ optimize passes b p st = Ok st'.
Proof.
  intros Ok HK p A L. assert (P := corpus_proper n C K name corpus HK Ok).
  assert (H := C41_create p a). destruct (create p a) as [st|e].
  - destruct H as [Ew X]. exists st. destruct (optimize_terminates b p P) with (k := passes) (st := st) as (st' & E).
    + intros _ w a0 c Hw Sp A0 _ I. exact (corpus_moves_connected n C K name corpus w a0 c Ok Hw Sp A0 I).
    + split; [exact X|rewrite Ew; exact A].
    + rewrite Ew. assert (R0 := rank_bound p a A). change (num_classes p) with C in R0. change (num_words p) with n in R0. lia.
    + exists st'. split; [reflexivity|exact E].
  - exfalso. destruct H as [_ [H|H]].
    + destruct P as (_ & _ & (w & Hw & Nw) & _). apply Nw, H, Hw.
    + destruct P as (_ & _ & _ & (u & v & Hu & Hv & N) & _). apply N, H; assumption.
Qed.
Print Assumptions C43_terminates.

(** *** Cases *)

(** The corpus "b c d a" with the words a, b, c, d, <s> and </s> *)
Definition str (l : list nat) : pystr := map N.of_nat l.
Definition ex_name (w : nat) : pystr := nth w [str [97]%nat; str [98]%nat; str [99]%nat; str [100]%nat; str [60; 115; 62]%nat; str [60; 47; 115; 62]%nat] [].
Definition ex_corpus : list (list nat) := [[4; 1; 2; 3; 0; 5]]%nat.
Definition ex := corpus_problem 6 4 2 ex_name ex_corpus.
Definition ex_a : list nat := [1; 0; 0; 1; 2; 3]%nat.

Lemma ex_ok : corpus_ok 6 ex_name ex_corpus.
Proof.
  split; [|split].
  - intros line w [<-|[]]. cbn [In]. lia.
  - exists [4; 1; 2; 3; 0; 5]%nat. split; [left; reflexivity|discriminate].
  - exists 4%nat, 5%nat. split; [reflexivity|]. split; [reflexivity|]. constructor; [|constructor]. right. exists [1; 2; 3; 0]%nat. reflexivity.
Qed.
Lemma ex_assignment : assignment ex ex_a.
Proof. split; [reflexivity|]. repeat constructor. Qed.

Example C43_example b : exists st st', create ex ex_a = Ok st /\ optimize 4096 b ex st = Ok st'.
Proof. apply C43_terminates; [exact ex_ok|lia|exact ex_assignment|]. apply Nat.leb_le; reflexivity. Qed.

Ltac counts := repeat match goal with
  | |- context [class_class_count ex ?a ?c ?d] => let v := eval vm_compute in (class_class_count ex a c d) in change (class_class_count ex a c d) with v
  | |- context [class_count ex ?a ?c] => let v := eval vm_compute in (class_count ex a c) in change (class_count ex a c) with v
  | |- context [word_counts ex ?c] => let v := eval vm_compute in (word_counts ex c) in change (word_counts ex c) with v
  end.
Lemma xlogx_0 : xlogx 0 = 0. Proof. reflexivity. Qed.
Lemma xlogx_1 : xlogx 1 = 0. Proof. unfold xlogx. cbn [Z.eqb]. rewrite ln_1. lra. Qed.

Lemma ex_before : likelihood ex ex_a = - (8) * ln 2.
Proof.
  unfold likelihood, all_words, sumR. change (num_classes ex) with 4%nat. change (num_words ex) with 6%nat. cbn [seq map fold_right]. counts.
  rewrite ?xlogx_0, ?xlogx_1. unfold xlogx. cbn [Z.eqb]. lra.
Qed.
Lemma ex_after : likelihood ex (upd ex_a 2 1%nat) = 2 * ln 2 - 6 * ln 3.
Proof.
  unfold likelihood, all_words, sumR. change (num_classes ex) with 4%nat. change (num_words ex) with 6%nat. cbn [seq map fold_right]. counts.
  rewrite ?xlogx_0, ?xlogx_1. unfold xlogx. cbn [Z.eqb]. lra.
Qed.
Lemma ex_improves : improves ex ex_a 2 1.
Proof.
  unfold improves. rewrite ex_before, ex_after.
  assert (A : ln (3 ^ 6) = 6 * ln 3) by (rewrite ln_pow by lra; cbn [INR]; lra).
  assert (B : ln (2 ^ 10) = 10 * ln 2) by (rewrite ln_pow by lra; cbn [INR]; lra).
  assert (D : ln (3 ^ 6) < ln (2 ^ 10)) by (apply ln_increasing; lra). lra.
Qed.

(** The expectation that the result is a local optimum is false for both optimizers.
    On the corpus "b c d a" with the classes {b, c} and {a, d} neither moves any word,
    although moving c to the other class would increase the likelihood: with NumPy the
    gain is masked, because b and c are not followed by words of other classes, and with
    Theano it is NaN, because words of the second class are never followed by words of
    the first class. *)
Lemma ex_not_numeric b w c : (w < 4)%nat -> (c < 2)%nat -> c <> class_of ex_a w -> ~ numeric b ex ex_a w c.
Proof.
  intros Hw Hc Nc [_ H]. destruct b.
  - assert (Ho : class_of ex_a w = (1 - c)%nat).
    { destruct w as [|[|[|[|w]]]]; [| | | |lia]; destruct c as [|[|c]]; try lia; cbn in *; congruence. }
    destruct (H ex_a 0%nat) as [(x & X1 & X2 & X3 & X4) _]; [left; reflexivity|rewrite Ho; destruct c as [|[|c]]; [right; left; reflexivity|left; reflexivity|lia]|].
    change (num_classes ex) with 4%nat in X1. rewrite Ho in X2. apply X4.
    destruct x as [|[|[|[|x]]]]; [destruct c as [|[|c]]; cbn in *; lia|destruct c as [|[|c]]; cbn in *; lia|vm_compute; reflexivity|vm_compute; reflexivity|lia].
  - apply (H ex_a 1%nat 0%nat); [left; reflexivity| | |vm_compute; reflexivity];
      destruct w as [|[|[|[|w]]]]; try lia; destruct c as [|[|c]]; try lia; cbn in *; auto; try congruence; lia.
Qed.

Lemma ex_no_move b st w : good ex st -> word_to_class st = ex_a -> (w < 6)%nat -> move_to_best_class b ex st w = Ok (st, false).
Proof.
  intros G E Hw. assert (P := corpus_proper 6 4 2 ex_name ex_corpus ltac:(lia) ex_ok). fold ex in P.
  assert (S := C43_step b ex st w P G Hw). cbv zeta in S. rewrite E in S.
  destruct (move_to_best_class b ex st w) as [[st' [|]]|e].
  - destruct S as (c & Sp & _ & Hc & Nc & Hn & _). exfalso.
    assert (Hw4 : (w < 4)%nat) by (destruct w as [|[|[|[|[|[|w]]]]]]; try lia; cbn in Sp; discriminate).
    apply (ex_not_numeric b w c Hw4 Hc); auto.
  - destruct S as [-> _]. reflexivity.
  - destruct S as (_ & _ & Sp & Nc & c & _ & _ & I). exfalso. apply Nc.
    apply (corpus_moves_connected 6 4 2 ex_name ex_corpus w ex_a c ex_ok Hw Sp ex_assignment I).
Qed.

Theorem C43_local_optimum_refuted b :
  exists p a st, corpus_ok 6 (word_name p) ex_corpus /\ p = corpus_problem 6 4 2 (word_name p) ex_corpus /\
    create p a = Ok st /\ optimize 1 b p st = Ok st /\
    exists w c, special (word_name p w) = false /\ (2 <= size a (class_of a w))%nat /\ (c < num_normal_classes p)%nat /\
      c <> class_of a w /\ likelihood p a < likelihood p (upd a w c).
Proof.
  exists ex, ex_a. assert (H := C41_create ex ex_a). destruct (create ex ex_a) as [st|e] eqn:E.
  - exists st. split; [exact ex_ok|]. split; [reflexivity|]. split; [reflexivity|]. destruct H as [Ew X].
    assert (G : good ex st) by (split; [exact X|rewrite Ew; exact ex_assignment]). split.
    + cbn [optimize].
      assert (O : one_pass b ex st = Ok (st, 0%nat)).
      { change (one_pass b ex st) with (foldM (step_fn b ex) (seq 0 6) (st, 0%nat)).
        assert (F : forall l, (forall w, In w l -> (w < 6)%nat) -> foldM (step_fn b ex) l (st, 0%nat) = Ok (st, 0%nat)).
        { induction l as [|w l IH]; intros Hl; [reflexivity|]. cbn [foldM]. rewrite step_fn_eq, ex_no_move; auto; [|apply Hl; left; reflexivity].
          cbn [bind]. apply IH. intros v Hv; apply Hl; right; exact Hv. }
        apply F. intros w Hw. apply in_seq in Hw. lia. }
      rewrite O. reflexivity.
    + exists 2%nat, 1%nat. split; [reflexivity|]. split; [vm_compute; lia|]. split; [cbn; lia|]. split; [discriminate|]. exact ex_improves.
  - exfalso. assert (P := corpus_proper 6 4 2 ex_name ex_corpus ltac:(lia) ex_ok). fold ex in P. destruct H as [_ [H|H]].
    + destruct P as (_ & _ & (w & Hw & Nw) & _). apply Nw, H, Hw.
    + destruct P as (_ & _ & _ & (u & v & Hu & Hv & N) & _). apply N, H; assumption.
Qed.
Print Assumptions C43_local_optimum_refuted.

(** A problem where the gain is a number for both: the words a and b, which occur in all
    contexts, and both classes of words *)
Definition ex2 := mkProblem 4 3 2 ex_name (fun _ => 8%Z) (fun _ _ => 2%Z).
Example C42_example b : exists x, evaluate b ex2 (compute_class_statistics ex2 [0; 0; 1; 2]%nat) 0 1 = Num x.
Proof.
  assert (P : proper ex2).
  { unfold proper, ex2. cbn. split; [lia|]. split; [lia|]. split; [exists 0%nat; split; [lia|discriminate]|]. split; [exists 0%nat, 0%nat; repeat split; [lia|lia|discriminate]|lia]. }
  assert (A : assignment ex2 [0; 0; 1; 2]%nat) by (split; [reflexivity|repeat constructor]).
  eexists. apply (proj2 (C42_gain b ex2 (compute_class_statistics ex2 [0; 0; 1; 2]%nat) 0 1 _ P (exact_initial ex2 _) A ltac:(cbn; lia) ltac:(cbn; lia) ltac:(cbn; lia))).
  split; [|reflexivity]. split; [split; vm_compute; discriminate|]. destruct b.
  - intros s k [<-|[<-|[]]] [<-|[<-|[]]]; split; exists 2%nat; (split; [cbn; lia|]); (split; [discriminate|]); (split; [discriminate|]); vm_compute; discriminate.
  - intros s c d [<-|[<-|[]]] [<-|[<-|[]]] [<-|[<-|[]]]; vm_compute; discriminate.
Qed.
Example C41_example : exists st', moves Numpy ex2 (compute_class_statistics ex2 [0; 0; 1; 2]%nat) [(0, 1); (1, 1); (0, 0)]%nat st' /\ word_to_class st' = [0; 1; 1; 2]%nat.
Proof.
  eexists. split.
  - eapply moves_cons; [cbn; lia|cbn; lia|reflexivity|]. eapply moves_cons; [cbn; lia|cbn; lia|reflexivity|].
    eapply moves_cons; [cbn; lia|cbn; lia|reflexivity|]. apply moves_nil.
  - reflexivity.
Qed.

(** ** C58: word statistics and scheduling *)

(** The counts are the numbers of occurrences of words and of adjacent pairs of words. *)
Theorem C58_statistics corpus :
  (forall w, unigram_counts (bigram_statistics corpus) w = Z.of_nat (over (occurrences w) corpus)) /\
  (forall u v, bigram_counts (bigram_statistics corpus) u v = Z.of_nat (over (pair_occurrences u v) corpus)).
Proof. exact (statistics_spec corpus). Qed.
Print Assumptions C58_statistics.

(** Classes are saved as many times per pass as asked, when that is at most the number
    of words, and evenly: after k words, floor(k f / W) times. *)
Theorem C58_schedule f W :
  (0 < W)%Z -> (0 <= f <= W)%Z ->
  (forall k : nat, Z.of_nat (length (filter (fun i => is_scheduled (Z.of_nat i) f W) (seq 1 k))) = (Z.of_nat k * f / W)%Z) /\
  Z.of_nat (length (filter (fun i => is_scheduled (Z.of_nat i) f W) (seq 1 (Z.to_nat W)))) = f.
Proof.
  intros HW Hf. split; [intros k; apply scheduled_count; assumption|].
  rewrite scheduled_count by assumption. rewrite Z2Nat.id by lia. rewrite Z.mul_comm. apply Z.div_mul. lia.
Qed.
Print Assumptions C58_schedule.
Example C58_example : map (fun i => is_scheduled (Z.of_nat i) 2 9) (seq 1 9) = [false; false; false; false; true; false; false; false; true].
Proof. reflexivity. Qed.
Example C58_statistics_example : bigram_counts (bigram_statistics [[4; 1; 1; 1; 5]; [4; 1; 5]]%nat) 1 1 = 2%Z.
Proof. reflexivity. Qed.
