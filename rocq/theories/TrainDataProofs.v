(** Proofs about the training iterator as the trainer uses it. *)
From Coq Require Import QArith Permutation.
From Verif Require Import Base ListLib Strings TextModel TextSpec TextProofs IterModel IterSpec IterProofs ShuffleProofs
  TrainDataModel TrainDataSpec.
Local Open Scope nat_scope.

(** ** Reading *)
Section Reading.
Variable choice : nat -> nat -> list nat -> nat -> bool -> list nat.
Variable shuffle10 : nat -> list nat -> list nat.
Variable files : list pystr.
Variable sp : sentence_pointers.
Hypothesis H_sp : pointers_inv files sp.
Variable sizes : list nat.
Variable batch_size : nat.
Variable max_len : option nat.
Notation reset := (shuffling_reset choice shuffle10).
Notation next := (data_next choice shuffle10 batch_size max_len).
Notation ls := (tagf 0 files).
Notation fresh d := (sh_fresh choice shuffle10 sp sizes d).
Notation seqs st := (pendseqs shuffling max_len (sh_pend files) st).

Definition at_order (d : nat) (order : list nat) (s : shuffling) : Prop := sh_ok files sp sizes d s /\ s_order s = order.

Lemma readline_order s r s' : shuffling_readline s = Ok (r, s') -> s_order s' = s_order s.
Proof.
  unfold shuffling_readline. destruct (_ <=? _); [intros E; injection E as _ <-; reflexivity|].
  destruct (py_index _ _) as [i|]; [|discriminate]. cbn [bind].
  destruct (py_index _ i) as [[f p]|]; [|discriminate]. cbn [bind].
  destruct (py_index _ f) as [d|]; [|discriminate]. cbn [bind]. intros E. injection E as _ <-. reflexivity.
Qed.
Lemma at_readline d order s : at_order d order s ->
  match sh_pend files s with
  | [] => exists s', shuffling_readline s = Ok (None, s') /\ at_order d order s' /\ sh_pend files s' = []
  | x :: r => exists s', shuffling_readline s = Ok (Some x, s') /\ at_order d order s' /\ sh_pend files s' = r
  end.
Proof using H_sp.
  intros [Hok Ho]. pose proof (sh_readline files sp H_sp sizes d s Hok) as H.
  destruct (sh_pend files s) as [|x r]; destruct H as (s' & E & Hok' & Hp); exists s'; (split; [exact E|]); (split; [|exact Hp]);
    split; try exact Hok'; rewrite <- Ho; eapply readline_order; exact E.
Qed.

Lemma pend_length s : length (sh_pend files s) = length (s_order s) - s_next_line s.
Proof. unfold sh_pend. now rewrite map_length, skipn_length. Qed.

Lemma read_bound_work d : forall n s, sh_ok files sp sizes d s -> length (sh_pend files s) = n ->
  list_sum (map (fun lf => S (length (parse (fst lf)))) (sh_pend files s)) < read_bound n s.
Proof using H_sp.
  induction n as [|n IH]; intros s Hok Hl.
  - destruct (sh_pend files s); [cbn; lia|discriminate].
  - pose proof (sh_readline files sp H_sp sizes d s Hok) as H. destruct (sh_pend files s) as [|[line k] r] eqn:Ep; [discriminate|].
    destruct H as (s' & E & Hok' & Hp). cbn [read_bound]. rewrite E, utterance_parse.
    specialize (IH s' Hok' ltac:(rewrite Hp; cbn in Hl; lia)). rewrite Hp in IH.
    cbn [map fst]. change (list_sum (S (length (parse line)) :: ?l)) with (S (length (parse line)) + list_sum l).
    unfold list_sum in *. cbn [fold_right] in *. lia.
Qed.
Lemma fuel_work d st : sh_ok files sp sizes d (b_src st) -> work shuffling (sh_pend files) st < read_fuel st.
Proof using H_sp.
  intros Hok. unfold work, read_fuel. pose proof (read_bound_work d _ (b_src st) Hok eq_refl) as H.
  rewrite pend_length in H. lia.
Qed.

Hypothesis H_batch : 1 <= batch_size.
Hypothesis H_max : valid_max max_len.

Lemma data_next_eof d st : sh_ok files sp sizes d (b_src st) -> b_eof st = true ->
  next st = (None, mkB (fresh d) (b_buffer st) false).
Proof using.
  intros Hok He. unfold data_next, next_sequences. rewrite He. now rewrite (sh_reset _ _ files sp sizes d _ Hok).
Qed.

Lemma data_next_spec d order st : at_order d order (b_src st) -> b_eof st = false ->
  match seqs st with
  | [] => next st = (None, mkB (fresh d) [] false)
  | _ =>
    exists st', next st = (Some (firstn batch_size (seqs st)), st') /\ at_order d order (b_src st') /\
      b_eof st' = (length (seqs st) <? batch_size) /\
      (if length (seqs st) <? batch_size then b_buffer st' = [] /\ sh_pend files (b_src st') = []
       else seqs st' = skipn batch_size (seqs st))
  end.
Proof using All.
  intros Hok He. unfold data_next, next_sequences. rewrite He.
  assert (Hw := fuel_work d st (proj1 Hok)).
  assert (Hr : forall s, at_order d order s -> reset true s = fresh d) by (intros s [H _]; now apply (sh_reset choice shuffle10 files)).
  destruct (next_loop_spec shuffling shuffling_readline reset batch_size max_len (at_order d order) (sh_pend files)
    (at_readline d order) H_batch H_max (read_fuel st) st [] Hok Hw ltac:(cbn; lia))
    as [(Hk & st' & E & Ho & Hee & _ & HP)|(Hk & s' & Ho & Hp & E)]; cbn [length app] in *; rewrite Nat.sub_0_r in *; rewrite E.
  - destruct (seqs st) as [|q l] eqn:Es; [cbn in Hk; lia|]. exists st'. split; [reflexivity|]. split; [exact Ho|].
    destruct (Nat.ltb_spec (length (q :: l)) batch_size); [lia|]. split; [congruence|exact HP].
  - destruct (seqs st) as [|q l] eqn:Es.
    + now rewrite Hr, He.
    + exists (mkB s' [] true). destruct (Nat.ltb_spec (length (q :: l)) batch_size); [|lia].
      rewrite firstn_all2 by lia. repeat split; auto; apply Ho.
Qed.

(** ** A whole epoch *)
Lemma data_yields d order : forall st, at_order d order (b_src st) -> b_eof st = false ->
  yields next st (cut batch_size (seqs st)) (mkB (fresh d) [] false).
Proof using All.
  intros st. remember (length (seqs st)) as n eqn:En. revert st En.
  induction n as [n IH] using lt_wf_ind. intros st En Hok He.
  pose proof (data_next_spec d order st Hok He) as H. destruct (seqs st) as [|q l] eqn:Es.
  - apply yields_stop. exact H.
  - destruct H as (st' & E & Ho & Hee & H). rewrite cut_unfold by (auto; discriminate).
    eapply yields_batch; [exact E|]. destruct (Nat.ltb_spec (length (q :: l)) batch_size) as [Hl|Hl].
    + rewrite skipn_all2 by lia. rewrite cut_nil_eq. apply yields_stop.
      rewrite (data_next_eof d st' (proj1 Ho) Hee). destruct H as [-> _]. reflexivity.
    + rewrite <- H. eapply (IH (length (seqs st'))); [|reflexivity|exact Ho|exact Hee].
      rewrite H, skipn_length. cbn [length] in *. lia.
Qed.
Lemma data_yields_eof d st : sh_ok files sp sizes d (b_src st) -> b_eof st = true -> b_buffer st = [] ->
  yields next st [] (mkB (fresh d) [] false).
Proof using. intros Hok He Hb. apply yields_stop. now rewrite (data_next_eof d st Hok He), Hb. Qed.

(** ** Sentences that are not cut *)
Lemma fits_parse : fits max_len ls -> forall m i, max_len = Some m -> i < length ls -> length (parse (fst (nth i ls ([], 0)))) <= m.
Proof using.
  intros Hf m i Em Hi. destruct (nth i ls ([], 0)) as [line k] eqn:E.
  apply (Hf m line k); [exact Em| |].
  - rewrite <- E. now apply nth_In.
  - apply utterance_of_iff, utterance_parse.
Qed.

Lemma pend_in d s x : sh_ok files sp sizes d s -> In x (sh_pend files s) -> exists i, i < length ls /\ x = nth i ls ([], 0).
Proof using.
  intros (_ & _ & _ & Ho) Hx. unfold sh_pend in Hx. apply in_map_iff in Hx as (i & <- & Hi).
  exists i. split; [|reflexivity]. rewrite Forall_forall in Ho. apply Ho.
  rewrite <- (firstn_skipn (s_next_line s) (s_order s)). apply in_or_app. now right.
Qed.

Lemma read_sequence_whole d st r st' : fits max_len ls -> sh_ok files sp sizes d (b_src st) -> b_buffer st = [] ->
  read_sequence shuffling shuffling_readline max_len st = Ok (r, st') -> sh_ok files sp sizes d (b_src st') /\ b_buffer st' = [].
Proof using H_sp.
  clear H_batch H_max. intros Hf Hok Hb H. unfold read_sequence in H. rewrite Hb in H.
  pose proof (sh_readline files sp H_sp sizes d _ Hok) as Hr. pose proof (pend_in d (b_src st)) as Hin.
  destruct (sh_pend files (b_src st)) as [|[line k] rest].
  - destruct Hr as (s' & E & Hok' & _). rewrite E in H. cbn [bind] in H. injection H as <- <-. auto.
  - destruct Hr as (s' & E & Hok' & _). rewrite E in H. cbn [bind] in H. rewrite utterance_parse in H. cbn [bind] in H.
    destruct (Hin (line, k) Hok (or_introl eq_refl)) as (i & Hi & El).
    unfold take_from_buffer in H. pose proof (fun m Em => fits_parse Hf m i Em Hi) as Hl. rewrite <- El in Hl. cbn [fst] in Hl.
    destruct max_len as [m|]; injection H as <- <-; cbn [b_src b_buffer]; (split; [exact Hok'|]); [|reflexivity].
    apply skipn_all2. rewrite map_length. now apply Hl.
Qed.

Lemma next_loop_whole fuel : forall d st acc r st', fits max_len ls -> sh_ok files sp sizes d (b_src st) -> b_buffer st = [] ->
  next_loop shuffling shuffling_readline reset batch_size max_len fuel st acc = Ok (r, st') -> b_buffer st' = [].
Proof using H_sp.
  clear H_batch H_max.
  induction fuel as [|fuel IH]; intros d st acc r st' Hf Hok Hb H; [discriminate|]. cbn [next_loop] in H.
  destruct (read_sequence shuffling shuffling_readline max_len st) as [[q st1]|] eqn:E; [|discriminate]. cbn [bind] in H.
  destruct (read_sequence_whole d _ _ _ Hf Hok Hb E) as [Hok1 Hb1].
  destruct q as [q|].
  - destruct (_ <? _); [eapply IH; eauto|]. destruct (_ <=? _); [injection H as <- <-; exact Hb1|eapply IH; eauto].
  - destruct acc; injection H as <- <-; exact Hb1.
Qed.

Lemma data_next_whole d st r st' : fits max_len ls -> sh_ok files sp sizes d (b_src st) -> b_buffer st = [] ->
  next st = (r, st') -> b_buffer st' = [].
Proof using H_sp.
  intros Hf Hok Hb H. unfold data_next in H.
  destruct (next_sequences _ _ _ _ _ _ _) as [[q st1]|] eqn:E; injection H as <- <-; [|exact Hb].
  unfold next_sequences in E. destruct (b_eof st); [injection E as <- <-; exact Hb|].
  eapply next_loop_whole; eauto.
Qed.

Lemma whole_count st d : fits max_len ls -> sh_ok files sp sizes d (b_src st) -> b_buffer st = [] ->
  length (seqs st) <= length (s_order (b_src st)) - s_next_line (b_src st).
Proof using H_max.
  clear H_batch. intros Hf Hok Hb. unfold pendseqs. rewrite Hb. change (filter good (pieces max_len [])) with (@nil sequence). cbn [app].
  rewrite <- pend_length. pose proof (pend_in d (b_src st)) as Hin.
  assert (Hall : forall x, In x (sh_pend files (b_src st)) -> length (line_seqs max_len x) <= 1).
  { intros x Hx. destruct (Hin x Hok Hx) as (i & Hi & Ex). subst x. set (x := nth i ls ([], 0)) in *. unfold line_seqs.
    pose proof (fun m Em => fits_parse Hf m i Em Hi) as Hl. fold x in Hl.
    set (b := map _ (parse (fst x))). assert (Hb' : length b = length (parse (fst x))) by apply map_length.
    assert (Hp : length (pieces max_len b) <= 1).
    { destruct b as [|y b']; [cbn; lia|]. destruct max_len as [m|]; cbn [pieces]; [|cbn; lia].
      rewrite cut_short; [cbn; lia|exact H_max|discriminate|]. rewrite Hb'. now apply Hl. }
    clearbody b. clear - Hp. destruct (pieces max_len b) as [|y [|z l]]; cbn [length filter] in *; try lia. destruct (good y); cbn [length]; lia. }
  clear Hin. induction (sh_pend files (b_src st)) as [|x l IH]; [cbn; lia|]. cbn [flat_map length].
  rewrite app_length. specialize (IH ltac:(intros y Hy; apply Hall; now right)). specialize (Hall x (or_introl eq_refl)). lia.
Qed.
End Reading.
