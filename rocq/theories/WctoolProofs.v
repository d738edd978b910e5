(** Proofs about wctool's class files: the loop, the text, and the entries. *)
From Coq Require Import Reals Qreals RMicromega QArith Qcanon Lia.
From Verif Require Import Base ListLib BaseLib QcLib Dict Strings TextModel TextSpec TextProofs VocabModel VocabSpec VocabProofs VocabBuild VocabStats VocabProps
  SlfModel LatticeSpec SlfProofs KaldiProofs IterSpec TrainCommandModel TrainCommandSpec TrainCommandProofs TrainCommandVocab
  BigramModel BigramSpec BigramProofs BigramGain BigramRuns BigramStats WctoolModel WctoolSpec.
From Verif Require BigramProps.
Local Open Scope nat_scope.

(** ** The loop *)
Section Loop.
Variable show_num : Qc -> pystr.
Variable args : wctool_args.
Notation save := (save show_num args).
Notation saves p := (fold_left (fun o s => save p s o)).

Definition some_save (n : nat) (sts : list state) : Prop :=
  ((1 <= wt_output_frequency args)%Z -> 0 < n -> sts <> []) /\ ((wt_output_frequency args <= 0)%Z -> 0 < n -> sts = []).

Lemma pass_forward b p f ws : forall st n o st' n' o',
  foldM (fun '(st, num_moves, output) w =>
           do '(st, moved) <- move_to_best_class b p st w;
           Ok (st, if moved : bool then S num_moves else num_moves,
               if f w : bool then save p st output else output)) ws (st, n, o) = Ok (st', n', o') ->
  foldM (fun '(st, n) w => do '(st', moved) <- move_to_best_class b p st w; Ok (st', if moved : bool then S n else n)) ws (st, n) = Ok (st', n') /\
  exists sts, o' = saves p sts o /\ length sts = length (filter f ws).
Proof.
  induction ws as [|w ws IH]; intros st n o st' n' o'; cbn [foldM bind].
  - intros [= <- <- <-]. split; [reflexivity|]. exists []. auto.
  - destruct (move_to_best_class b p st w) as [[st1 m]|]; [|discriminate]. cbn [bind]. intros E.
    apply IH in E as [E (sts & -> & L)]. split; [exact E|]. cbn [filter]. destruct (f w).
    + exists (st1 :: sts). cbn [fold_left length]. auto.
    + exists sts. auto.
Qed.
Lemma pass_backward b p f ws : forall st n o st' n',
  foldM (fun '(st, n) w => do '(st', moved) <- move_to_best_class b p st w; Ok (st', if moved : bool then S n else n)) ws (st, n) = Ok (st', n') ->
  exists o', foldM (fun '(st, num_moves, output) w =>
           do '(st, moved) <- move_to_best_class b p st w;
           Ok (st, if moved : bool then S num_moves else num_moves,
               if f w : bool then save p st output else output)) ws (st, n, o) = Ok (st', n', o').
Proof.
  induction ws as [|w ws IH]; intros st n o st' n'; cbn [foldM bind].
  - intros [= <- <-]. eexists. reflexivity.
  - destruct (move_to_best_class b p st w) as [[st1 m]|]; [|discriminate]. cbn [bind]. intros E. eapply IH. exact E.
Qed.

Lemma pass_saves b p st o st' n o' : saving_pass show_num args b p st o = Ok (st', n, o') ->
  one_pass b p st = Ok (st', n) /\ exists sts, o' = saves p sts o /\ some_save (BigramModel.num_words p) sts.
Proof.
  intros E. apply pass_forward in E as [E (sts & E' & L)]. split; [exact E|]. exists sts. split; [exact E'|].
  set (W := BigramModel.num_words p) in *. set (f := fun w => is_scheduled (Z.of_nat (S w)) (wt_output_frequency args) (Z.of_nat W)) in *.
  split; intros Hf HW.
  - intros ->. cbn in L. assert (I : In (W - 1) (filter f (seq 0 W))).
    { apply filter_In. split; [apply in_seq; lia|]. unfold f, is_scheduled. apply Z.ltb_lt.
      replace (Z.of_nat (S (W - 1)) * wt_output_frequency args)%Z with (wt_output_frequency args * Z.of_nat W)%Z by (replace (S (W - 1)) with W by lia; ring).
      rewrite Z.mod_mul by lia. lia. }
    destruct (filter f (seq 0 W)); [destruct I|discriminate].
  - destruct sts as [|s sts]; [reflexivity|exfalso]. destruct (filter f (seq 0 W)) as [|w l] eqn:E1; [discriminate|].
    assert (I : In w (filter f (seq 0 W))) by (rewrite E1; now left). apply filter_In in I as [_ I]. unfold f, is_scheduled in I. apply Z.ltb_lt in I.
    pose proof (Z.mod_pos_bound (Z.of_nat (S w) * wt_output_frequency args) (Z.of_nat W)). lia.
Qed.

Lemma loop_saves b p : forall passes st o o', saving_loop show_num passes args b p st o = Ok o' ->
  exists st' sts, optimize passes b p st = Ok st' /\ o' = save p st' (saves p sts o) /\ some_save (BigramModel.num_words p) sts.
Proof.
  induction passes as [|k IH]; intros st o o' E; [discriminate|]. cbn [saving_loop] in E. cbn [optimize].
  destruct (saving_pass show_num args b p st o) as [[[st1 n] o1]|] eqn:E1; [|discriminate]. cbn [bind] in E.
  apply pass_saves in E1 as [E1 (sts1 & -> & S1)]. rewrite E1. cbn [bind]. destruct (n =? 0).
  - injection E as <-. exists st1, sts1. auto.
  - apply IH in E as (st' & sts & E & -> & S2). exists st', (sts1 ++ sts). split; [exact E|]. rewrite fold_left_app. split; [reflexivity|].
    destruct S1 as [A1 B1], S2 as [A2 B2]. split; intros Hf HW.
    + intros Z. apply app_eq_nil in Z as [Z _]. exact (A1 Hf HW Z).
    + now rewrite B1, B2.
Qed.
Lemma loop_succeeds b p : forall passes st o st', optimize passes b p st = Ok st' ->
  exists o', saving_loop show_num passes args b p st o = Ok o'.
Proof.
  induction passes as [|k IH]; intros st o st' E; [discriminate|]. cbn [saving_loop]. cbn [optimize] in E.
  destruct (one_pass b p st) as [[st1 n]|] eqn:E1; [|discriminate]. cbn [bind] in E.
  eapply (pass_backward b p) with (o := o) in E1 as [o1 E1]. unfold saving_pass. rewrite E1. cbn [bind].
  destruct (n =? 0); [eexists; reflexivity|]. eapply IH. exact E.
Qed.

(** What has been written in the end *)
Definition body (p : problem) (st : state) : pystr := concat (map (class_line show_num (wt_output_format args)) (words p st)).
Lemma saves_seekable p st o : wt_seekable args = true -> save p st o = body p st.
Proof. intros E. unfold WctoolModel.save. now rewrite E. Qed.
Lemma saves_stream p : wt_seekable args = false -> forall sts o, saves p sts o = o ++ concat (map (body p) sts).
Proof.
  intros E. induction sts as [|s sts IH]; intros o; cbn [fold_left map concat]; [now rewrite app_nil_r|].
  rewrite IH. unfold WctoolModel.save. rewrite E. fold (body p s). now rewrite app_assoc.
Qed.
End Loop.

(** The membership probability is that of the optimizer *)
(** ** Numbers as text *)
Fixpoint zeros (k : nat) (u : Decimal.uint) : Decimal.uint := match k with O => u | S k => Decimal.D0 (zeros k u) end.
Lemma show_zeros k u : show_uint (zeros k u) = repeat 48%N k ++ show_uint u.
Proof. induction k as [|k IH]; cbn; [reflexivity|now rewrite IH]. Qed.
Lemma of_zeros k u : Nat.of_uint (zeros k u) = Nat.of_uint u.
Proof. induction k as [|k IH]; cbn; [reflexivity|exact IH]. Qed.
Lemma show_uint_inj u : forall v, show_uint u = show_uint v -> u = v.
Proof. induction u; destruct v; cbn [show_uint]; intros E; try discriminate; [reflexivity|injection E as E; f_equal; auto..]. Qed.
Lemma show_int5_inj m n : show_int5 m = show_int5 n -> m = n.
Proof.
  unfold show_int5, show_int. rewrite <- !show_zeros. intros E. apply show_uint_inj in E. apply (f_equal Nat.of_uint) in E.
  rewrite !of_zeros, !DecimalNat.Unsigned.of_to in E. exact E.
Qed.
Lemma show_int5_no_space n : no_space (show_int5 n).
Proof.
  apply no_space_app; [|apply no_space_int]. intros c H. apply repeat_spec in H. subst c. reflexivity.
Qed.
Lemma show_int_inj m n : show_int m = show_int n -> m = n.
Proof. unfold show_int. intros E. apply show_uint_inj in E. apply (f_equal Nat.of_uint) in E. now rewrite !DecimalNat.Unsigned.of_to in E. Qed.

(** ** The lines of the text *)
Definition good_word (w : pystr) : Prop := w <> [] /\ no_space w.

Lemma no_space_newline (s : pystr) : no_space s -> ~ In newline s.
Proof. intros H I. apply H in I. discriminate. Qed.

Lemma tokens_line ts : ts <> [] -> Forall good_word ts -> tokens (join [space] ts ++ [newline]) ts.
Proof.
  induction ts as [|t ts IH]; [congruence|]. intros _ F. inversion F as [|? ? [Hne Hns] F']; subst. destruct ts as [|t' ts].
  - cbn [join]. apply (tokens_cons [] t newline [] []); auto using all_space_nil. apply tokens_blank, all_space_nil.
  - cbn [join]. rewrite <- !app_assoc. apply (tokens_cons [] t space (join [space] (t' :: ts) ++ [newline])); auto using all_space_nil.
    apply IH; [discriminate|exact F'].
Qed.
Lemma line_line ts : Forall good_word ts -> TextSpec.is_line (join [space] ts ++ [newline]).
Proof.
  intros F. exists (join [space] ts). split; [|reflexivity]. induction ts as [|t ts IH]; [intros []|].
  inversion F as [|? ? [Hne Hns] F']; subst. destruct ts as [|t' ts]; [cbn [join]; now apply no_space_newline|].
  cbn [join]. intros I. rewrite !in_app_iff in I. destruct I as [I|[[I|[]]|I]]; [exact (no_space_newline _ Hns I)|discriminate|]. now apply IH.
Qed.
Lemma lines_concat ls : Forall TextSpec.is_line ls -> lines_in (concat ls) = ls.
Proof.
  intros F. unfold lines_in. apply read_lines_lines; [|lia]. induction F as [|l ls H F IH]; cbn [concat]; [constructor|]. now constructor.
Qed.

Section Text.
Variable parse_int : pystr -> result Z.
Variable parse_float : pystr -> result Qc.
Variable show_num : Qc -> pystr.
Hypothesis text : number_text parse_int parse_float show_num.

Lemma show_num_good x : good_word (show_num x).
Proof using text. split; [apply (nt_nonempty _ _ _ text)|]. intros c H. now apply (nt_plain _ _ _ text) in H. Qed.
Lemma show_int_good n : good_word (show_int n).
Proof. split; [apply show_int_nonempty|apply no_space_int]. Qed.
Definition class_name (c : nat) : pystr := str "CLASS-" ++ show_int5 c.
Lemma class_name_good n : good_word (class_name n).
Proof.
  split; [discriminate|]. unfold class_name. apply no_space_app; [|apply show_int5_no_space].
  intros c H. cbn in H. repeat (destruct H as [<-|H]; [reflexivity|]). destruct H.
Qed.
Lemma class_name_inj m n : class_name m = class_name n -> m = n.
Proof. unfold class_name. intros E. apply app_inv_head in E. now apply show_int5_inj. Qed.

(** The tokens on the line of a word *)
Definition row_tokens (format : class_format) (row : pystr * nat * Qc) : list pystr :=
  let '(word, class_id, prob) := row in
  match format with ClassIds => [word; show_int class_id] | _ => [class_name class_id; show_num prob; word] end.
Lemma class_line_tokens format row : format <> OtherIds -> class_line show_num format row = join [space] (row_tokens format row) ++ [newline].
Proof.
  destruct row as [[w c] x]. destruct format; [| |congruence]; intros _; cbn [class_line row_tokens join].
  - now rewrite <- !app_assoc.
  - unfold class_name. now rewrite <- !app_assoc.
Qed.
Lemma row_tokens_good format row : good_word (fst (fst row)) -> Forall good_word (row_tokens format row).
Proof using text.
  destruct row as [[w c] x]. cbn [fst]. intros H. destruct format; cbn [row_tokens]; repeat constructor; try apply H; try apply show_int_good; try apply class_name_good; try apply show_num_good.
Qed.

(** The entry of a word *)
Definition row_entry (format : class_format) (row : pystr * nat * Qc) : entry :=
  let '(word, class_id, prob) := row in
  match format with
  | ClassIds => mkEntry word (Some (KInt (Z.of_nat class_id))) 1%Qc
  | _ => mkEntry word (Some (KStr (class_name class_id))) prob
  end.
Definition read_format (format : class_format) : vocab_format := match format with ClassIds => Classes | _ => SrilmClasses end.

Lemma rows_lines format rows : format <> OtherIds -> Forall (fun r => good_word (fst (fst r))) rows ->
  lines_in (concat (map (class_line show_num format) rows)) = map (class_line show_num format) rows.
Proof using text.
  intros Hf F. apply lines_concat. apply Forall_map. eapply Forall_impl; [|exact F]. cbn beta. intros r H.
  rewrite class_line_tokens by exact Hf. apply line_line. now apply row_tokens_good.
Qed.
Lemma rows_entries format rows : format <> OtherIds -> Forall (fun r => good_word (fst (fst r))) rows ->
  entries parse_int parse_float (read_format format) (lines_in (concat (map (class_line show_num format) rows))) (map (row_entry format) rows).
Proof using text.
  intros Hf F. rewrite rows_lines by assumption. induction F as [|r rows H F IH]; cbn [map]; [constructor|].
  apply entries_cons; [|exact IH]. rewrite class_line_tokens by exact Hf.
  pose proof (row_tokens_good format r H) as G. destruct r as [[w c] x]. cbn [row_entry row_tokens] in *. destruct format; cbn [read_format]; [| |congruence].
  - eapply entry_classes; [apply tokens_line; [discriminate|exact G]|]. apply (nt_int _ _ _ text).
  - eapply entry_srilm; [apply tokens_line; [discriminate|exact G]|]. apply (nt_num _ _ _ text).
Qed.
Lemma same_key_rows format r s : format <> OtherIds ->
  same_key (e_key (row_entry format r)) (e_key (row_entry format s)) = (snd (fst r) =? snd (fst s)).
Proof.
  destruct r as [[w c] x], s as [[w' c'] x']. intros Hf. destruct format; cbn [row_entry e_key same_key fst snd]; [| |congruence].
  - destruct (class_key_eq_dec _ _) as [E|E]; destruct (Nat.eqb_spec c c') as [D|D]; try reflexivity; [injection E as E; lia|subst; congruence].
  - destruct (class_key_eq_dec _ _) as [E|E]; destruct (Nat.eqb_spec c c') as [D|D]; try reflexivity; [injection E as E; apply show_int5_inj in E; congruence|subst; congruence].
Qed.
End Text.
