(** Proofs about wctool's class files: what reading them gives. *)
From Coq Require Import QArith Qcanon Lia.
From Verif Require Import Base ListLib BaseLib QcLib Dict Strings TextModel TextSpec TextProofs VocabModel VocabSpec VocabProofs VocabBuild VocabStats VocabProps
  LatticeSpec IterSpec TrainCommandModel TrainCommandSpec TrainCommandProofs TrainCommandVocab
  BigramModel BigramSpec BigramProofs BigramGain BigramRuns BigramStats WctoolModel WctoolSpec WctoolProofs WctoolSetup.
From Verif Require BigramProps.
Local Open Scope nat_scope.

(** ** Class files in general *)
Section File.
Variable parse_int : pystr -> result Z.
Variable parse_float : pystr -> result Qc.
Variable show_num : Qc -> pystr.
Hypothesis text : number_text parse_int parse_float show_num.
Variable format : class_format.
Hypothesis Hf : format <> OtherIds.
Variable names : list pystr.
Variable a : list nat.
Variable prob : nat -> Qc.
Hypothesis Hgood : Forall good_word names.
Hypothesis Hnodup : NoDup names.
Hypothesis Hlen : length a = length names.
Hypothesis Hspecial : forall t, is_special t -> In t names.

Definition file_rows : list (pystr * nat * Qc) := map (fun w => (nth w names [], BigramModel.class_of a w, prob w)) (seq 0 (length names)).
Notation es := (map (row_entry format) file_rows).
Notation text_of := (concat (map (class_line show_num format) file_rows)).

Lemma rows_good : Forall (fun r => good_word (fst (fst r))) file_rows.
Proof.
  unfold file_rows. apply Forall_map. apply Forall_forall. intros w Hw. apply in_seq in Hw. cbn [fst].
  rewrite Forall_forall in Hgood. apply Hgood. apply nth_In. lia.
Qed.
Lemma file_entries : entries parse_int parse_float (read_format format) (lines_in text_of) es.
Proof. apply rows_entries; [exact text|exact Hf|exact rows_good]. Qed.
Lemma es_length : length es = length names.
Proof. unfold file_rows. now rewrite !map_length, seq_length. Qed.
Lemma es_nth i : i < length names -> nth_error es i = Some (row_entry format (nth i names [], BigramModel.class_of a i, prob i)).
Proof.
  intros H. unfold file_rows. rewrite map_map. apply map_nth_error with (f := fun w => row_entry format (nth w names [], BigramModel.class_of a w, prob w)).
  rewrite nth_error_seq. apply Nat.ltb_lt in H. now rewrite H.
Qed.
Lemma row_word r : e_word (row_entry format r) = fst (fst r).
Proof. destruct r as [[w c] x]. cbn. now destruct format. Qed.
Lemma es_words : map e_word es = names.
Proof.
  unfold file_rows. rewrite !map_map. apply nth_error_ext. intros i. destruct (Nat.lt_ge_cases i (length names)) as [H|H].
  - rewrite (map_nth_error _ _ _ (d := i)) by (rewrite nth_error_seq; apply Nat.ltb_lt in H; now rewrite H). rewrite row_word. cbn [fst].
    symmetry. now apply nth_error_nth'.
  - rewrite (proj2 (nth_error_None names i) H). apply nth_error_None. now rewrite map_length, seq_length.
Qed.
Lemma es_weight i : i < length names ->
  class_weight es i = qsum (map (fun j => match format with ClassIds => 1%Qc | _ => prob j end) (class_members a (BigramModel.class_of a i))).
Proof.
  intros H. unfold class_weight, class_members. rewrite (es_nth i H), es_length, <- qsum_map_filter, Hlen. f_equal. apply map_ext_in. intros j Hj. apply in_seq in Hj.
  rewrite es_nth by lia. rewrite (same_key_rows format _ _ Hf). cbn [fst snd].
  assert (E : nth_error a j = Some (BigramModel.class_of a j)) by (apply nth_error_nth'; lia). rewrite E.
  rewrite (Nat.eqb_sym (BigramModel.class_of a i)). destruct (Nat.eqb_spec j i) as [->|D]; [rewrite Nat.eqb_refl|]; cbn [orb].
  - now destruct format.
  - destruct (_ =? _); [|reflexivity]. now destruct format.
Qed.
Lemma es_same i j : i < length names -> j < length names -> (same_class es i j <-> BigramModel.class_of a i = BigramModel.class_of a j).
Proof.
  intros Hi Hj. unfold same_class. rewrite (es_nth i Hi), (es_nth j Hj). split.
  - intros [->|(ei & ej & k & Hi' & Hj' & E1 & E2)]; [reflexivity|]. apply (f_equal (fun o => match o with Some x => x | None => ei end)) in Hi'. apply (f_equal (fun o => match o with Some x => x | None => ej end)) in Hj'. subst ei ej.
    pose proof (same_key_rows format (nth i names [], BigramModel.class_of a i, prob i) (nth j names [], BigramModel.class_of a j, prob j) Hf) as K.
    rewrite E1, E2 in K. cbn [same_key fst snd] in K. destruct (class_key_eq_dec k k); [|congruence]. symmetry in K. now apply Nat.eqb_eq in K.
  - intros E. right. do 2 eexists. exists (match format with ClassIds => KInt (Z.of_nat (BigramModel.class_of a j)) | _ => KStr (class_name (BigramModel.class_of a j)) end).
    split; [reflexivity|]. split; [reflexivity|]. rewrite E. destruct format; split; reflexivity.
Qed.

Lemma file_accepted oos : (exists v', from_file parse_int parse_float (read_format format) (lines_in text_of) oos = Ok v') <->
  forall i, i < length names -> class_weight es i <> 0%Qc.
Proof.
  rewrite C09_file_accepted. split.
  - intros (es' & He & _ & W). rewrite (entries_unique _ _ _ _ _ _ He file_entries) in W. rewrite es_length in W. exact W.
  - intros W. exists es. split; [exact file_entries|]. rewrite es_words. split; [exact Hnodup|]. now rewrite es_length.
Qed.
Lemma file_same oos v' : from_file parse_int parse_float (read_format format) (lines_in text_of) oos = Ok v' -> same_classes names a v'.
Proof.
  intros E. destruct (C09_file_layout _ _ _ _ _ _ _ E file_entries) as (ms & extra & Hw & Hs & Hms & Hx). rewrite es_words in *.
  assert (ms = []) as -> by (destruct ms as [|x ms]; [reflexivity|destruct (proj1 (Hms x)) as [A B]; [now left|contradiction B; auto]]).
  constructor.
  - exists extra. exact Hw.
  - rewrite Hs, es_length. cbn. lia.
  - intros i j c d Hc Hd. assert (Li : i < length names) by (rewrite <- Hlen; apply nth_error_Some; congruence).
    assert (Lj : j < length names) by (rewrite <- Hlen; apply nth_error_Some; congruence).
    rewrite (C10_file_classes _ _ _ _ _ _ _ i j E file_entries) by (rewrite es_length; assumption). rewrite es_same by assumption.
    unfold BigramModel.class_of. now rewrite (nth_error_nth _ _ _ Hc), (nth_error_nth _ _ _ Hd).
Qed.
Lemma file_prob oos v' i : from_file parse_int parse_float (read_format format) (lines_in text_of) oos = Ok v' -> i < length names ->
  VocabModel.get_word_prob v' i = Ok (match format with ClassIds => 1 | _ => prob i end / class_weight es i)%Qc.
Proof.
  intros E Hi. rewrite (C11_file_values _ _ _ _ _ _ _ i _ E file_entries (es_nth i Hi)). do 2 f_equal. now destruct format.
Qed.
End File.

(** Two numberings of the same classes *)
Lemma kernel_le (f g : list nat) K K' : length f = length g ->
  (forall k, k < K -> In k f) -> (forall c, In c g -> c < K') ->
  (forall i j c d, nth_error f i = Some c -> nth_error f j = Some d -> nth_error g i = nth_error g j -> c = d) -> K <= K'.
Proof.
  intros L S B J.
  assert (C : forall n, n <= K -> exists l, length l = n /\ NoDup l /\ forall x, In x l -> exists i c, nth_error g i = Some x /\ nth_error f i = Some c /\ c < n).
  { induction n as [|n IH]; intros Hn; [exists []; repeat split; [constructor|intros x []]|].
    destruct IH as (l & Ll & N & H); [lia|]. destruct (In_nth_error _ _ (S n Hn)) as [i Hi].
    assert (Lg : i < length g) by (rewrite <- L; apply nth_error_Some; congruence). destruct (nth_error g i) as [x|] eqn:Ex; [|apply nth_error_None in Ex; lia].
    exists (x :: l). split; [cbn; lia|]. split.
    - constructor; [|exact N]. intros I. destruct (H x I) as (j & c & Hj & Hc & Lc). assert (n = c) by (eapply J; [exact Hi|exact Hc|congruence]). lia.
    - intros y [<-|I]; [exists i, n; repeat split; auto|]. destruct (H y I) as (j & c & Hj & Hc & Lc). exists j, c. repeat split; auto. }
  destruct (C K (le_n K)) as (l & Ll & N & H). rewrite <- Ll, <- (seq_length K' 0). apply NoDup_incl_length; [exact N|].
  intros x Hx. destruct (H x Hx) as (i & c & Hi & _). apply in_seq. apply nth_error_In in Hi. apply B in Hi. lia.
Qed.

(** ** wctool *)
Lemma total_nat l (f : nat -> nat) : BigramSpec.total l (fun w => Z.of_nat (f w)) = Z.of_nat (list_sum (map f l)).
Proof. unfold BigramSpec.total. induction l as [|x l IH]; [reflexivity|]. cbn [map fold_right]. rewrite IH. change (list_sum (f x :: map f l)) with (f x + list_sum (map f l)). lia. Qed.

Lemma members_same p a c : length a = BigramModel.num_words p -> BigramSpec.members p a c = class_members a c.
Proof.
  intros L. unfold BigramSpec.members, class_members. rewrite L. apply filter_ext_in. intros i Hi. apply in_seq in Hi.
  rewrite (nth_error_nth' a 0) by lia. reflexivity.
Qed.
Lemma members_in a c i : In i (class_members a c) <-> nth_error a i = Some c.
Proof.
  unfold class_members. rewrite filter_In, in_seq. split.
  - intros [_ H]. destruct (nth_error a i) as [d|]; [|discriminate]. apply Nat.eqb_eq in H. now subst.
  - intros H. rewrite H. split; [|apply Nat.eqb_refl]. assert (i < length a) by (apply nth_error_Some; congruence). lia.
Qed.

Lemma list_sum_zero l : list_sum l = 0 <-> forall x, In x l -> x = 0.
Proof.
  induction l as [|x l IH]; [split; [intros _ x []|reflexivity]|]. change (list_sum (x :: l)) with (x + list_sum l). cbn [In]. split.
  - intros H y [<-|Hy]; [lia|]. apply IH; [lia|exact Hy].
  - intros H. rewrite (H x) by now left. apply IH. auto.
Qed.

Section Facts.
Variable parse_int : pystr -> result Z.
Variable parse_float : pystr -> result Qc.
Variable args : wctool_args.
Variable us : list (list pystr).
Hypothesis Hus : sentences (wt_training_set args) us.
Variables (v : vocabulary) (b : backend) (p : problem) (st0 st : state) (passes : nat).
Hypothesis Hstart : wctool_start parse_int parse_float args = Ok (v, b, p, st0).
Hypothesis Hopt : optimize passes b p st0 = Ok st.
Notation names := (v_id_to_word v).
Notation a := (word_to_class st).

Lemma vocab_facts : reachable_vocab v /\ Forall good_word names /\ num_shortlist_words v = length names /\ NoDup names /\ (forall t, is_special t -> In t names).
Proof using Hus Hstart.
  destruct (start_spec _ _ _ _ Hus _ _ _ _ Hstart) as (Ev & _ & _ & _). destruct (vocabulary_shape _ _ _ _ Hus _ Ev) as (R & G & L).
  destruct (C09_inverse_maps v R) as [N I]. split; [exact R|]. split; [exact G|]. split; [exact L|]. split; [exact N|].
  intros t Ht. destruct (C09_special_tokens_present v t R Ht) as (i & Ei & _). apply I in Ei. eapply nth_error_In. exact Ei.
Qed.

Lemma problem_facts : exists unk, word_to_id v UNK = Some unk /\ p = wctool_problem v (map (sequence_ids v unk) us) /\
  proper p /\ assignment p (v_w2c v) /\ create p (v_w2c v) = Ok st0 /\ exists u, In u us /\ u <> [].
Proof using Hus Hstart.
  destruct vocab_facts as (R & G & L & N & Sp). destruct (start_spec _ _ _ _ Hus _ _ _ _ Hstart) as (Ev & Em & (unk & U & Ep) & Ec).
  exists unk. split; [exact U|]. split; [exact Ep|].
  assert (Nu : exists u, In u us /\ u <> []) by (apply (nonempty_sentence us v unk R); rewrite <- Ep, Ec; discriminate).
  split; [|split; [|split; [exact Ec|exact Nu]]].
  - rewrite Ep. apply (corpus_proper _ _ _ _ _ (proj1 (C10_normal_classes v R)) (corpus_fine args us Hus v unk R L U Nu)).
  - apply vocab_assignment; [exact R|now rewrite Ep..].
Qed.

Lemma final_facts : length a = length names /\ (forall c, In c a <-> c < VocabModel.num_classes v) /\
  forall i c, nth_error a i = Some c -> 
    class_counts st c = Z.of_nat (class_seen names us a c) /\
    exists w, nth_error names i = Some w /\ word_counts p i = Z.of_nat (seen names us w).
Proof using Hus Hstart Hopt.
  destruct vocab_facts as (R & G & L & N & Sp). destruct problem_facts as (unk & U & Ep & P & A & Ec & _).
  destruct (BigramProps.C43_result _ _ _ _ _ _ P A Ec Hopt) as ((X & _) & (La & Fa) & _ & K & _ & _).
  assert (En : BigramModel.num_words p = length names) by (rewrite Ep; exact L). assert (Ek : BigramModel.num_classes p = VocabModel.num_classes v) by (now rewrite Ep).
  rewrite Ek in Fa, X. rewrite Forall_forall in Fa. split; [congruence|]. split.
  - intros c. split; [apply Fa|]. intros Hc. destruct (reachable_wf v R) as (fn & n & W).
    assert (I0 : In c (v_w2c v)).
    { apply (proj2 (wf_valid v fn n W)). unfold VocabModel.num_classes in Hc. rewrite (wf_classes v fn n W) in Hc. unfold classes_of in Hc. rewrite map_length, seq_length in Hc. exact Hc. }
    assert (Sz : forall l, In c l <-> 0 < size l c).
    { clear. intros l. unfold size. induction l as [|x l IH]; cbn [In filter]; [cbn; lia|]. destruct (Nat.eqb_spec x c) as [->|D]; cbn [length]; [split; [lia|auto]|].
      rewrite <- IH. split; [intros [E|E]; [congruence|exact E]|auto]. }
    apply Sz, K, Sz, I0.
  - intros i c Hi. assert (Li : i < length names) by (rewrite <- En, <- La; apply nth_error_Some; congruence).
    assert (Cw : forall j w, nth_error names j = Some w -> word_counts p j = Z.of_nat (seen names us w)).
    { intros j w Hw. rewrite Ep. cbn [word_counts wctool_problem]. now apply corpus_count. }
    split.
    + rewrite X by (apply Fa; eapply nth_error_In; exact Hi). unfold class_count. rewrite members_same by exact La.
      unfold class_seen. rewrite <- total_nat. unfold BigramSpec.total. f_equal. apply map_ext_in. intros j Hj. apply members_in in Hj.
      assert (Lj : j < length names) by (rewrite <- En, <- La; apply nth_error_Some; congruence).
      apply Cw. now apply nth_error_nth'.
    + exists (nth i names []). split; [now apply nth_error_nth'|]. apply Cw. now apply nth_error_nth'.
Qed.

Lemma final_prob i c w : nth_error a i = Some c -> nth_error names i = Some w ->
  word_prob p st i = if class_seen names us a c =? 0 then 0%Qc else (qc_of_nat (seen names us w) / qc_of_nat (class_seen names us a c))%Qc.
Proof using Hus Hstart Hopt.
  intros Hi Hw. destruct final_facts as (_ & _ & F). destruct (F i c Hi) as [F1 (w' & Hw' & F2)]. rewrite Hw in Hw'. injection Hw' as <-.
  unfold word_prob. unfold BigramModel.class_of. rewrite (nth_error_nth _ _ _ Hi), F1, F2. unfold qc_of_nat.
  destruct (Nat.eqb_spec (class_seen names us a c) 0) as [->|D]; [reflexivity|]. destruct (Z.eqb_spec (Z.of_nat (class_seen names us a c)) 0) as [E|E]; [lia|reflexivity].
Qed.

Lemma words_rows : words p st = file_rows names a (word_prob p st).
Proof using Hus Hstart.
  destruct vocab_facts as (R & G & L & _). destruct problem_facts as (unk & _ & Ep & _). unfold words, file_rows.
  assert (En : BigramModel.num_words p = length names) by (rewrite Ep; exact L). rewrite En. apply map_ext. intros w. rewrite Ep. reflexivity.
Qed.

Lemma weights i c : nth_error a i = Some c ->
  qsum (map (word_prob p st) (class_members a c)) = if class_seen names us a c =? 0 then 0%Qc else 1%Qc.
Proof using Hus Hstart Hopt.
  intros _. destruct final_facts as (La & _).
  rewrite (map_ext_in _ (fun j => if class_seen names us a c =? 0 then 0%Qc else (qc_of_nat (seen names us (nth j names [])) / qc_of_nat (class_seen names us a c))%Qc)).
  - destruct (Nat.eqb_spec (class_seen names us a c) 0) as [E|E]; [apply qsum_map_const0|]. rewrite qsum_map_div.
    rewrite <- (map_map (fun j => seen names us (nth j names [])) qc_of_nat), qsum_of_nat. fold (class_seen names us a c). apply qc_div_self, qc_of_nat_neq. lia.
  - intros j Hj. apply members_in in Hj. apply final_prob; [exact Hj|]. apply nth_error_nth'. rewrite <- La. apply nth_error_Some. congruence.
Qed.

(** Words are moved to normal classes only *)
Lemma move_w2c w st1 st2 m : move_to_best_class b p st1 w = Ok (st2, m) ->
  word_to_class st2 = word_to_class st1 \/ exists c, c < BigramModel.num_normal_classes p /\ word_to_class st2 = upd (word_to_class st1) w c.
Proof using.
  unfold move_to_best_class. destruct (special _); [intros [= <- _]; now left|]. destruct (_ <? 2); [intros [= <- _]; now left|].
  destruct (find_best_move b p st1 w) as [[x c]|] eqn:E; [|intros [= <- _]; now left]. destruct (RIneq.Rlt_dec _ _); [|intros [= <- _]; now left].
  destruct (move b p st1 w c) as [s|] eqn:Em; [|discriminate]. cbn [bind]. intros [= <- _]. right. exists c. split.
  - assert (H := find_best_spec b p st1 w). rewrite E in H. exact (proj1 (proj1 H)).
  - unfold move in Em. cbv zeta in Em. destruct (match b, filter _ (right_words p w) with Numpy, [] => Err IndexError | _, _ => Ok tt end); [|discriminate].
    cbn [bind] in Em. destruct (match b, filter _ (left_words p w) with Numpy, [] => Err IndexError | _, _ => Ok tt end); [|discriminate]. cbn [bind] in Em.
    injection Em as <-. reflexivity.
Qed.
Lemma pass_w2c ws (P : list nat -> Prop) : (forall l w c, c < BigramModel.num_normal_classes p -> P l -> P (upd l w c)) -> forall st1 n st2 n',
  foldM (fun '(st, n) w => do '(st', moved) <- move_to_best_class b p st w; Ok (st', if moved : bool then S n else n)) ws (st1, n) = Ok (st2, n') ->
  P (word_to_class st1) -> P (word_to_class st2).
Proof using.
  intros H. induction ws as [|w ws IH]; intros st1 n st2 n'; cbn [foldM]; [intros [= <- _]; auto|].
  destruct (move_to_best_class b p st1 w) as [[s m]|] eqn:E; [|discriminate]. cbn [bind]. intros F Q. eapply IH; [exact F|].
  destruct (move_w2c _ _ _ _ E) as [->|(c & Hc & ->)]; auto.
Qed.
Lemma optimize_w2c (P : list nat -> Prop) : (forall l w c, c < BigramModel.num_normal_classes p -> P l -> P (upd l w c)) -> forall k st1 st2,
  optimize k b p st1 = Ok st2 -> P (word_to_class st1) -> P (word_to_class st2).
Proof using.
  intros H. induction k as [|k IH]; intros st1 st2; [discriminate|]. cbn [optimize]. destruct (one_pass b p st1) as [[s n]|] eqn:E; [|discriminate]. cbn [bind].
  intros F Q. apply (pass_w2c _ P H) in E; [|exact Q]. destruct (n =? 0); [injection F as <-; exact E|]. eapply IH; eassumption.
Qed.
Lemma special_members c i : v_num_normal v <= c -> nth_error a i = Some c -> nth_error (v_w2c v) i = Some c.
Proof using Hus Hstart Hopt.
  intros Hc Hi. destruct problem_facts as (unk & U & Ep & P & A & Ec & _).
  assert (Q : forall l, (forall j, nth_error l j = Some c -> nth_error (v_w2c v) j = Some c) -> forall w d, d < BigramModel.num_normal_classes p ->
             forall j, nth_error (upd l w d) j = Some c -> nth_error (v_w2c v) j = Some c).
  { intros l Hl w d Hd j. rewrite nth_error_upd. destruct (j =? w); [|apply Hl]. destruct (w <? length l); [|discriminate]. intros [= ->]. rewrite Ep in Hd. cbn [BigramModel.num_normal_classes wctool_problem] in Hd. lia. }
  refine (optimize_w2c (fun l => forall j, nth_error l j = Some c -> nth_error (v_w2c v) j = Some c) _ _ _ _ Hopt _ i Hi).
  - intros l w d Hd Hl. exact (Q l Hl w d Hd).
  - intros j. assert (C := BigramProps.C41_create p (v_w2c v)). rewrite Ec in C. destruct C as [-> _]. auto.
Qed.
End Facts.
