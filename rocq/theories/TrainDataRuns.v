(** Training with the training iterator: what holds of the iterator in every state of
    the trainer, and two processes that read the same data. *)
From Coq Require Import QArith Qcanon Permutation.
From Verif Require Import Base ListLib BaseLib QcLib Strings TextModel TextSpec TextProofs IterModel IterSpec IterProofs ShuffleProofs
  TrainerModel TrainerSpec TrainerSim TrainDataModel TrainDataSpec TrainDataProofs.
Local Open Scope nat_scope.

(** ** The iterator in all states of the trainer *)

Lemma sampled_length k lss sizes sample : sampled k lss sizes sample -> length sample = list_sum sizes.
Proof.
  induction 1 as [|k lines lss size sizes idx rest Hl Hb Hn H IH]; [reflexivity|].
  rewrite app_length, map_length, IH, Hl. reflexivity.
Qed.

Section Inv.
Variable choice : nat -> nat -> list nat -> nat -> bool -> list nat.
Variable shuffle10 : nat -> list nat -> list nat.
Hypothesis H_choice : choice_contract choice.
Hypothesis H_shuffle : shuffle_contract shuffle10.
Variable files : list pystr.
Hypothesis H_nonempty : Forall (fun d => d <> []) files.
Variable sp : sentence_pointers.
Hypothesis H_sp : pointers_inv files sp.
Variable sizes : list nat.
Hypothesis H_sizes : length sizes = length files.
Variable batch_size : nat.
Variable max_len : option nat.
Hypothesis H_batch : 1 <= batch_size.
Hypothesis H_max : valid_max max_len.
Notation next := (data_next choice shuffle10 batch_size max_len).
Notation ls := (tagf 0 files).
Notation fresh d := (sh_fresh choice shuffle10 sp sizes d).
Notation seqs st := (pendseqs shuffling max_len (sh_pend files) st).
Notation at_order := (at_order files sp sizes).

Lemma fresh_at d : exists order, at_order (S d) order (fresh d) /\ length order = list_sum sizes /\ s_next_line (fresh d) = 0.
Proof using H_choice H_shuffle H_nonempty H_sp H_sizes.
  destruct (sh_fresh_spec choice shuffle10 H_choice H_shuffle files H_nonempty sp H_sp sizes H_sizes d) as (Hok & Hn & sample & Hs & Hp).
  exists (s_order (fresh d)). split; [split; [exact Hok|reflexivity]|]. split; [|exact Hn].
  apply sampled_length in Hs. rewrite <- Hs. apply Permutation_length in Hp. rewrite Hp.
  unfold sh_pend. now rewrite map_length, Hn.
Qed.

(** [P] is about the order of the lines. *)
Definition data_inv (P : list nat -> Prop) (st : bstate shuffling) : Prop :=
  (exists d order, at_order d order (b_src st) /\ P order) /\ (b_eof st = true -> b_buffer st = []) /\
  (fits max_len ls -> b_buffer st = []).

Lemma data_inv_next (P : list nat -> Prop) st r st' : (forall order, length order = list_sum sizes -> P order) ->
  data_inv P st -> next st = (r, st') -> data_inv P st'.
Proof using All.
  intros HP ((d & order & Ha & Ho) & He & Hf) H.
  assert (Hb : fits max_len ls -> b_buffer st' = []).
  { intros F. eapply data_next_whole; [exact H_sp|exact F|exact (proj1 Ha)|exact (Hf F)|exact H]. }
  destruct (fresh_at d) as (order' & Ha' & Hl' & _). apply HP in Hl'.
  destruct (b_eof st) eqn:Ee.
  - rewrite (data_next_eof choice shuffle10 files sp sizes batch_size max_len d st (proj1 Ha) Ee) in H. injection H as <- <-.
    split; [exists (S d), order'; split; assumption|]. split; [discriminate|exact Hb].
  - pose proof (data_next_spec choice shuffle10 files sp H_sp sizes batch_size max_len H_batch H_max d order st Ha Ee) as Hs.
    destruct (seqs st) as [|q l].
    + rewrite Hs in H. injection H as <- <-. split; [exists (S d), order'; split; assumption|]. split; [discriminate|exact Hb].
    + destruct Hs as (st1 & E & Ha1 & Ee1 & H1). rewrite E in H. injection H as <- <-.
      split; [exists d, order; split; assumption|]. split; [|exact Hb]. rewrite Ee1. intros Hlt. rewrite Hlt in H1. apply H1.
Qed.

Lemma data_inv_init (P : list nat -> Prop) : (forall order, length order = list_sum sizes -> P order) -> data_inv P (batch_init (fresh 0)).
Proof using H_choice H_shuffle H_nonempty H_sp H_sizes.
  intros HP. destruct (fresh_at 0) as (order & Ha & Hl & _). split; [exists 1, order; split; [exact Ha|now apply HP]|].
  split; [discriminate|reflexivity].
Qed.

Definition saved_inv (s : iter_state) : Prop := exists order n, position_in ls s order n.

Lemma data_inv_save st : data_inv (fun order => order <> []) st -> saved_inv (data_save st).
Proof using.
  intros ((d & order & [(_ & _ & _ & Hb) Ho] & Hne) & _). exists order, (s_next_line (b_src st)).
  unfold position_in, data_save, shuffling_iter_get_state, shuffling_get_state. rewrite Ho in Hb |- *. auto.
Qed.

Lemma restore_position st s order n : position_in ls s order n ->
  data_restore st s = Ok (mkB (mkShuffling (s_pointers (b_src st)) (s_sizes (b_src st)) n order (s_draws (b_src st))) (b_buffer st) (b_eof st)).
Proof using.
  intros (-> & Hne & _). unfold data_restore, shuffling_iter_set_state, shuffling_set_state. cbn [is_order is_next_line].
  destruct order; [congruence|reflexivity].
Qed.

Lemma data_inv_restore st s : data_inv (fun order => order <> []) st -> saved_inv s ->
  exists st', data_restore st s = Ok st' /\ data_inv (fun order => order <> []) st'.
Proof using.
  intros ((d & order0 & [(Hp & Hz & Hd & _) _] & _) & He & Hf) (order & n & Hpos). rewrite (restore_position st s order n Hpos).
  eexists. split; [reflexivity|]. split; [|split; [exact He|exact Hf]]. exists d, order. destruct Hpos as (_ & Hne & Hb).
  split; [|exact Hne]. repeat split; cbn; auto.
Qed.

(** The number of mini-batches that are left *)
Definition batches_left (st : bstate shuffling) : nat := if b_eof st then 0 else length (cut batch_size (seqs st)).
Lemma batches_left_next P st b st' : data_inv P st -> next st = (Some b, st') -> batches_left st = S (batches_left st').
Proof using H_sp H_batch H_max.
  clear H_sizes. intros ((d & order & Ha & _) & _ & _) H. unfold batches_left. destruct (b_eof st) eqn:Ee.
  - rewrite (data_next_eof choice shuffle10 files sp sizes batch_size max_len d st (proj1 Ha) Ee) in H. discriminate.
  - pose proof (data_next_spec choice shuffle10 files sp H_sp sizes batch_size max_len H_batch H_max d order st Ha Ee) as Hs.
    destruct (seqs st) as [|q l]; [rewrite Hs in H; discriminate|].
    destruct Hs as (st1 & E & Ha1 & Ee1 & H1). rewrite E in H. injection H as <- <-. rewrite Ee1.
    rewrite cut_unfold by (auto; discriminate).
    destruct (Nat.ltb_spec (length (q :: l)) batch_size) as [Hl|Hl].
    + rewrite skipn_all2 by lia. reflexivity.
    + rewrite H1. reflexivity.
Qed.

(** ** The trainer *)
Context {params accum : Type}.
Variable update : params -> accum -> Qc -> list sequence -> params * accum.
Variable perplexity : params -> Qc.
Variable o : toptions.
Notation tstate := (@tstate params accum (bstate shuffling) iter_state (list sequence)).
Notation file := (@file params accum iter_state).
Notation steps := (steps next update perplexity data_save data_restore o).

Definition file_ok (f : file) : Prop := match f_iter f with None => True | Some s => saved_inv s end.
Notation inv := (data_inv (fun order => order <> [])).
Definition same_inv (i j : bstate shuffling) : Prop := i = j /\ inv i.
Definition same_saved (s s' : iter_state) : Prop := s = s' /\ saved_inv s.

Hypothesis H_positive : 0 < list_sum sizes.

Lemma self_next i j : same_inv i j ->
  match next i, next j with
  | (Some b, i'), (Some b', j') => b = b' /\ same_inv i' j'
  | (None, i'), (None, j') => same_inv i' j'
  | _, _ => False
  end.
Proof using All.
  intros [<- Hi]. destruct (next i) as [r i'] eqn:E. pose proof (data_inv_next (fun order => order <> []) i r i') as Hn.
  destruct r; [split; [reflexivity|]|]; (split; [reflexivity|]; apply Hn; auto; intros order Hl ->; cbn in Hl; lia).
Qed.
Lemma self_restore i j s s' : same_inv i j -> same_saved s s' -> result_rel same_inv (data_restore i s) (data_restore j s').
Proof using.
  intros [<- Hi] [<- Hs]. destruct (data_inv_restore i s Hi Hs) as (i' & -> & Hi'). split; [reflexivity|exact Hi'].
Qed.

Lemma run_data p a lr s f0 (t0 : tstate) k ph (t : tstate) : file_ok f0 ->
  initialize data_restore p a lr (batch_init (fresh 0)) s f0 = Ok t0 -> steps k (AtEpoch, t0) = Ok (ph, t) ->
  inv (t_iter t) /\ file_ok (t_file t) /\ match t_center t with Some f => file_ok f | None => True end.
Proof using All.
  intros Hf0 E0 E.
  assert (Hsave : forall i j, same_inv i j -> same_saved (data_save i) (data_save j)).
  { intros i j [<- Hi]. split; [reflexivity|]. now apply data_inv_save. }
  assert (H0 : result_rel (t_rel same_saved same_inv) (initialize (batch := list sequence) data_restore p a lr (batch_init (fresh 0)) s f0)
                                            (initialize (batch := list sequence) data_restore p a lr (batch_init (fresh 0)) s f0)).
  { apply sim_initialize with (R' := same_inv); auto using self_restore.
    - split; [reflexivity|]. apply data_inv_init. intros order Hl ->. cbn in Hl. lia.
    - repeat split; auto. unfold file_ok in Hf0. destruct (f_iter f0); [split; auto|exact I]. }
  rewrite E0 in H0. cbn [result_rel] in H0.
  pose proof (sim_steps next next update perplexity data_save data_save data_restore data_restore o same_inv same_inv same_saved
    (fun i j H => H) self_next Hsave self_restore k AtEpoch t0 t0 H0) as H.
  rewrite E in H. destruct H as [_ H]. cbn [snd] in H.
  assert (Hfile : forall f, file_rel same_saved f f -> file_ok f).
  { intros f (_ & _ & Hs & _). unfold file_ok. destruct (f_iter f); [apply Hs|exact I]. }
  split; [apply (r_iter _ _ _ _ H)|]. split; [apply Hfile, (r_file _ _ _ _ H)|].
  pose proof (r_center _ _ _ _ H) as Hc. destruct (t_center t); [now apply Hfile|exact I].
Qed.
End Inv.

(** ** Two processes *)

(** The iterators are at the same position. *)
Definition like (i j : bstate shuffling) : Prop :=
  s_pointers (b_src i) = s_pointers (b_src j) /\ s_sizes (b_src i) = s_sizes (b_src j) /\
  s_next_line (b_src i) = s_next_line (b_src j) /\ s_order (b_src i) = s_order (b_src j) /\ b_buffer i = b_buffer j.
Definition exhausted (i : bstate shuffling) : Prop := length (s_order (b_src i)) <= s_next_line (b_src i) /\ b_buffer i = [].
Definition keeps (i i' : bstate shuffling) : Prop := b_eof i' = b_eof i /\ s_draws (b_src i') = s_draws (b_src i) /\
  s_pointers (b_src i') = s_pointers (b_src i) /\ s_sizes (b_src i') = s_sizes (b_src i) /\ s_order (b_src i') = s_order (b_src i).

Definition slike (s t : shuffling) : Prop := s_pointers s = s_pointers t /\ s_sizes s = s_sizes t /\ s_next_line s = s_next_line t /\ s_order s = s_order t.
Definition skeeps (s s' : shuffling) : Prop := s_draws s' = s_draws s /\ s_pointers s' = s_pointers s /\ s_sizes s' = s_sizes s /\ s_order s' = s_order s.

Lemma readline_like s t : slike s t ->
  match shuffling_readline s, shuffling_readline t with
  | Ok (r, s'), Ok (r', t') => r = r' /\ slike s' t' /\ skeeps s s' /\ skeeps t t' /\ (r = None -> s' = s /\ t' = t /\ length (s_order s) <= s_next_line s)
  | Err e, Err e' => e = e'
  | _, _ => False
  end.
Proof.
  intros (H1 & H2 & H3 & H4). unfold shuffling_readline. rewrite <- H4, <- H3, <- H1.
  destruct (Nat.leb_spec (length (s_order s)) (s_next_line s)).
  - split; [reflexivity|]. split; [repeat split; auto|]. repeat split; auto.
  - destruct (py_index (s_order s) _) as [i|]; [|reflexivity]. cbn [bind].
    destruct (py_index _ i) as [[f p]|]; [|reflexivity]. cbn [bind].
    destruct (py_index _ f) as [d|]; [|reflexivity]. cbn [bind].
    split; [reflexivity|]. split; [repeat split; cbn; auto|]. repeat split; cbn; auto; discriminate.
Qed.

Lemma read_like max_len i j : like i j ->
  match read_sequence shuffling shuffling_readline max_len i, read_sequence shuffling shuffling_readline max_len j with
  | Ok (r, i'), Ok (r', j') => r = r' /\ like i' j' /\ keeps i i' /\ keeps j j' /\ (r = None -> exhausted i')
  | Err e, Err e' => e = e'
  | _, _ => False
  end.
Proof.
  intros (H1 & H2 & H3 & H4 & H5). unfold read_sequence. rewrite <- H5.
  destruct (b_buffer i) as [|x b].
  - pose proof (readline_like (b_src i) (b_src j) ltac:(repeat split; auto)) as H.
    destruct (shuffling_readline (b_src i)) as [[r s]|], (shuffling_readline (b_src j)) as [[r' t]|]; try contradiction; cbn [bind]; [|exact H].
    destruct H as (<- & (L1 & L2 & L3 & L4) & (K1 & K2 & K3 & K4) & (M1 & M2 & M3 & M4) & HN).
    destruct r as [[line k]|].
    + destruct (utterance_from_line line) as [u|]; [|reflexivity]. cbn [bind]. unfold take_from_buffer.
      destruct max_len; (split; [reflexivity|]); repeat split; cbn; auto; discriminate.
    + destruct (HN eq_refl) as (E1 & E2 & Hl). split; [reflexivity|]. subst s t. repeat split; cbn; auto.
  - unfold take_from_buffer. destruct max_len; (split; [reflexivity|]); repeat split; cbn; auto; discriminate.
Qed.

Lemma keeps_trans i j k : keeps i j -> keeps j k -> keeps i k.
Proof. unfold keeps. intuition congruence. Qed.

(** The loop of __next__() without the reset *)
Lemma next_loop_reset reset batch_size max_len fuel : forall st acc,
  next_loop shuffling shuffling_readline reset batch_size max_len fuel st acc =
  match next_loop shuffling shuffling_readline (fun _ s => s) batch_size max_len fuel st acc with
  | Ok (None, st') => Ok (None, mkB (reset true (b_src st')) (b_buffer st') (b_eof st'))
  | r => r
  end.
Proof.
  induction fuel as [|fuel IH]; intros st acc; [reflexivity|]. cbn [next_loop].
  destruct (read_sequence _ _ _ _) as [[[q|] st']|]; cbn [bind]; [| |reflexivity].
  - destruct (_ <? _); [apply IH|]. destruct (_ <=? _); [reflexivity|apply IH].
  - destruct acc; reflexivity.
Qed.

Lemma loop_like batch_size max_len fuel : forall i j acc, like i j ->
  match next_loop shuffling shuffling_readline (fun _ s => s) batch_size max_len fuel i acc,
        next_loop shuffling shuffling_readline (fun _ s => s) batch_size max_len fuel j acc with
  | Ok (r, i'), Ok (r', j') => r = r' /\ like i' j' /\ s_draws (b_src i') = s_draws (b_src i) /\ s_draws (b_src j') = s_draws (b_src j) /\
      s_pointers (b_src i') = s_pointers (b_src i) /\ s_sizes (b_src i') = s_sizes (b_src i) /\
      ((b_eof i' = b_eof i /\ b_eof j' = b_eof j) \/ (b_eof i' = true /\ b_eof j' = true /\ exhausted i')) /\
      (r = None -> exhausted i' /\ b_eof i' = b_eof i /\ b_eof j' = b_eof j)
  | Err e, Err e' => e = e'
  | _, _ => False
  end.
Proof.
  induction fuel as [|fuel IH]; intros i j acc L; [reflexivity|]. cbn [next_loop].
  pose proof (read_like max_len i j L) as H.
  destruct (read_sequence _ _ _ i) as [[r i1]|], (read_sequence _ _ _ j) as [[r' j1]|]; try contradiction; cbn [bind]; [|exact H].
  destruct H as (<- & L1 & K1 & K2 & HN).
  assert (Hrec : forall acc', match next_loop shuffling shuffling_readline (fun _ s => s) batch_size max_len fuel i1 acc',
        next_loop shuffling shuffling_readline (fun _ s => s) batch_size max_len fuel j1 acc' with
  | Ok (r, i'), Ok (r', j') => r = r' /\ like i' j' /\ s_draws (b_src i') = s_draws (b_src i) /\ s_draws (b_src j') = s_draws (b_src j) /\
      s_pointers (b_src i') = s_pointers (b_src i) /\ s_sizes (b_src i') = s_sizes (b_src i) /\
      ((b_eof i' = b_eof i /\ b_eof j' = b_eof j) \/ (b_eof i' = true /\ b_eof j' = true /\ exhausted i')) /\
      (r = None -> exhausted i' /\ b_eof i' = b_eof i /\ b_eof j' = b_eof j)
  | Err e, Err e' => e = e'
  | _, _ => False
  end).
  { intros acc'. specialize (IH i1 j1 acc' L1).
    destruct (next_loop _ _ _ _ _ fuel i1 acc') as [[ri i2]|], (next_loop _ _ _ _ _ fuel j1 acc') as [[rj j2]|]; try contradiction; [|exact IH].
    destruct K1 as (E1 & E2 & E3 & E4 & E5), K2 as (F1 & F2 & F3 & F4 & F5).
    rewrite E1, E2, E3, E4, F1, F2 in IH. exact IH. }
  destruct K1 as (E1 & E2 & E3 & E4 & E5), K2 as (F1 & F2 & F3 & F4 & F5).
  destruct r as [q|].
  - destruct (_ <? _); [apply Hrec|]. destruct (_ <=? _); [|apply Hrec].
    split; [reflexivity|]. split; [exact L1|]. repeat (split; [assumption|]). split; [left; auto|discriminate].
  - destruct (HN eq_refl) as [X1 X2]. destruct acc.
    + split; [reflexivity|]. split; [exact L1|]. cbn. repeat (split; [assumption|]). split; [left; auto|].
      intros _. split; [split; [exact X1|exact X2]|auto].
    + split; [reflexivity|]. split; [exact L1|]. cbn. repeat (split; [assumption|]).
      split; [right; repeat split; auto|discriminate].
Qed.

Lemma read_bound_like n : forall s t, slike s t -> read_bound n s = read_bound n t.
Proof.
  induction n as [|n IH]; intros s t L; [reflexivity|]. cbn [read_bound]. pose proof (readline_like s t L) as H.
  destruct (shuffling_readline s) as [[r s']|], (shuffling_readline t) as [[r' t']|]; try contradiction; [|reflexivity].
  destruct H as (<- & L' & _). destruct r as [[line k]|]; [|reflexivity]. now rewrite (IH _ _ L').
Qed.
Lemma fuel_like i j : like i j -> read_fuel i = read_fuel j.
Proof.
  intros (H1 & H2 & H3 & H4 & H5). unfold read_fuel. rewrite H3, H4, H5. f_equal. apply read_bound_like. repeat split; auto.
Qed.

Lemma next_exhausted choice shuffle10 batch_size max_len i : exhausted i -> b_eof i = false ->
  data_next choice shuffle10 batch_size max_len i = (None, mkB (shuffling_reset choice shuffle10 true (b_src i)) [] false).
Proof.
  intros [H1 H2] He. unfold data_next, next_sequences, read_fuel. rewrite He, H2. replace (_ - _) with 0 by lia.
  cbn [length read_bound Nat.add next_loop]. unfold read_sequence. rewrite H2. unfold shuffling_readline.
  destruct (Nat.leb_spec (length (s_order (b_src i))) (s_next_line (b_src i))); [|lia]. cbn [bind b_src b_buffer b_eof]. now rewrite He.
Qed.

Section Two.
Variables (choice1 choice2 : nat -> nat -> list nat -> nat -> bool -> list nat) (shuffle1 shuffle2 : nat -> list nat -> list nat).
Variable batch_size : nat.
Variable max_len : option nat.
Notation next1 := (data_next choice1 shuffle1 batch_size max_len).
Notation next2 := (data_next choice2 shuffle2 batch_size max_len).
Variable files : list pystr.
Variable sp : sentence_pointers.
Hypothesis H_sp : pointers_inv files sp.
Variable sizes : list nat.
Hypothesis H_batch : 1 <= batch_size.
Hypothesis H_max : valid_max max_len.
Notation at_order := (at_order files sp sizes).

Lemma loop_ok d order i : at_order d order (b_src i) -> b_eof i = false ->
  exists r, next_loop shuffling shuffling_readline (fun _ s => s) batch_size max_len (read_fuel i) i [] = Ok r.
Proof using All.
  intros Ha He. destruct (next_loop_spec shuffling shuffling_readline (fun _ s => s) batch_size max_len (TrainDataProofs.at_order files sp sizes d order) (sh_pend files)
    (at_readline files sp H_sp sizes d order) H_batch H_max (read_fuel i) i [] Ha (fuel_work files sp H_sp sizes d i (proj1 Ha)) ltac:(cbn; lia))
    as [(_ & st' & E & _)|(_ & s' & _ & _ & E)]; rewrite E; [eauto|]. destruct ([] ++ _); eauto.
Qed.

(** Same position, at the given draws; a mini-batch has been read, or not *)
Definition at_same' (d1 d2 : nat) (i j : bstate shuffling) : Prop :=
  like i j /\ s_draws (b_src i) = d1 /\ s_draws (b_src j) = d2 /\ b_eof i = b_eof j.
Definition at_same (d1 d2 : nat) (i j : bstate shuffling) : Prop :=
  like i j /\ s_draws (b_src i) = d1 /\ s_draws (b_src j) = d2 /\ (b_eof i = b_eof j \/ exhausted i).

Lemma like_exhausted i j : like i j -> exhausted i -> exhausted j.
Proof. intros (_ & _ & H3 & H4 & H5) [E1 E2]. split; congruence. Qed.

Lemma both_next d1 d2 d order i j : at_order d order (b_src i) -> at_same d1 d2 i j ->
  (exists b i' j', next1 i = (Some b, i') /\ next2 j = (Some b, j') /\ at_same' d1 d2 i' j' /\ (b_eof i' = true -> exhausted i')) \/
  (exists i' j' buf, next1 i = (None, i') /\ next2 j = (None, j') /\
     i' = mkB (shuffling_reset choice1 shuffle1 true (b_src i)) buf false /\
     j' = mkB (shuffling_reset choice2 shuffle2 true (b_src j)) buf false).
Proof.
  intros Ha (L & D1 & D2 & He). pose proof L as (L1 & L2 & L3 & L4 & L5).
  assert (Htrue : forall choice shuffle10 x, b_eof x = true -> data_next choice shuffle10 batch_size max_len x
    = (None, mkB (shuffling_reset choice shuffle10 true (b_src x)) (b_buffer x) false)).
  { intros c s x Ex. unfold data_next, next_sequences. now rewrite Ex. }
  assert (Hdec : exhausted i \/ (b_eof i = b_eof j)) by tauto.
  destruct Hdec as [X|Heq].
  - right. pose proof (like_exhausted i j L X) as Y.
    assert (Hx : forall choice shuffle10 x, exhausted x -> data_next choice shuffle10 batch_size max_len x
      = (None, mkB (shuffling_reset choice shuffle10 true (b_src x)) [] false)).
    { intros c s x Hx. destruct (b_eof x) eqn:Ex; [|now apply next_exhausted]. rewrite (Htrue c s x Ex). now rewrite (proj2 Hx). }
    do 3 eexists. split; [now apply Hx|]. split; [now apply Hx|]. split; reflexivity.
  - destruct (b_eof i) eqn:Ei.
    + right. do 3 eexists. split; [now apply Htrue|]. split; [apply Htrue; congruence|]. split; [reflexivity|]. now rewrite L5.
    + unfold data_next, next_sequences. rewrite <- Heq, Ei, <- (fuel_like i j L).
      rewrite !(next_loop_reset (shuffling_reset choice1 shuffle1)), !(next_loop_reset (shuffling_reset choice2 shuffle2)).
      pose proof (loop_like batch_size max_len (read_fuel i) i j [] L) as H.
      destruct (loop_ok d order i Ha Ei) as [ri Eri]. rewrite Eri in *. destruct ri as [r i1].
      destruct (next_loop _ _ _ _ _ _ j []) as [[r' j1]|] eqn:Ej; [|contradiction].
      destruct H as (<- & K & E1 & E2 & E3 & E4 & E5 & HN). destruct r as [b|].
        -- left. exists b, i1, j1. split; [reflexivity|]. split; [reflexivity|]. split.
           ++ split; [exact K|]. split; [congruence|]. split; [congruence|]. destruct E5 as [[-> ->]|(-> & -> & _)]; congruence.
           ++ destruct E5 as [[-> _]|(_ & _ & X)]; [congruence|auto].
        -- right. destruct (HN eq_refl) as (X & F1 & F2). pose proof (like_exhausted _ _ K X) as Y.
           do 3 eexists. split; [reflexivity|]. split; [reflexivity|]. rewrite F1, F2, Ei, <- Heq, (proj2 X), (proj2 Y).
           destruct K as (K1 & K2 & _). split; f_equal.
           ++ unfold shuffling_reset. now rewrite E1, E3, E4.
           ++ unfold shuffling_reset. rewrite E2. rewrite <- K1, <- K2, E3, E4, L1, L2. reflexivity.
Qed.
End Two.
