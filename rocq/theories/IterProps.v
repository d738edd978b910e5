(** Property theorems C03-C08: mini-batch iterators. *)
From Coq Require Import QArith Permutation.
From Verif Require Import Base Strings TextModel TextSpec IterModel IterSpec
     IterProofs ShuffleProofs BatchProofs IterWitness.
Local Open Scope nat_scope.

(** C03: iterating a linear iterator any number of times gives every time the same
    mini-batches, which are the sequences of all the lines of all the files, in
    order, divided by [batch_size]. *)
Theorem C03_linear_epochs : forall files s batch_size max_len ls ss,
  linear_init files = Ok s -> 1 <= batch_size -> valid_max max_len ->
  tagged_lines 0 files ls -> lines_sequences max_len ls ss ->
  exists fuel0 batches, cut_into batch_size ss batches /\
  forall fuel n, fuel0 <= fuel ->
    epochs linear linear_readline linear_reset batch_size max_len fuel n (batch_init s)
    = Ok (repeat batches n, batch_init s).
Proof. exact linear_epochs_spec. Qed.
Print Assumptions C03_linear_epochs.

(** Dividing loses nothing. *)
Theorem C03_batches_concat : forall (A : Type) m (l : list A) ps,
  cut_into m l ps -> concat ps = l.
Proof. exact @cut_into_concat. Qed.
Print Assumptions C03_batches_concat.

(** The sequences of the specification exist and are unique. *)
Theorem C03_lines_exist : forall k files, tagged_lines k files (tagf k files).
Proof. exact tagf_spec. Qed.
Print Assumptions C03_lines_exist.
Theorem C03_sequences_exist : forall max_len lines,
  valid_max max_len -> lines_sequences max_len lines (flat_map (line_seqs max_len) lines).
Proof. exact lines_sequences_flat_map. Qed.
Print Assumptions C03_sequences_exist.
Theorem C03_sequences_unique : forall max_len lines ss,
  valid_max max_len -> lines_sequences max_len lines ss ->
  ss = flat_map (line_seqs max_len) lines.
Proof. exact lines_sequences_unique. Qed.
Print Assumptions C03_sequences_unique.

Example C03_example :
  match linear_init C03_files with
  | Ok s => match epoch linear linear_readline linear_reset 2 (Some 4) 100 (batch_init s) with
            | Ok (batches, _) => map (map (map fst)) batches
            | Err _ => []
            end
  | Err _ => []
  end
  = [[[SOS; str "a"; str "b"; str "c"]; [SOS; str "d"; EOS]];
     [[SOS; str "e"; str "f"; EOS]]].
Proof. vm_compute. reflexivity. Qed.

(** C04: sizes of the mini-batches. *)
Theorem C04_batch_sizes : forall files s batch_size max_len ls ss,
  linear_init files = Ok s -> 1 <= batch_size -> valid_max max_len ->
  tagged_lines 0 files ls -> lines_sequences max_len ls ss ->
  exists fuel0, forall fuel, fuel0 <= fuel -> exists batches st',
    epoch linear linear_readline linear_reset batch_size max_len fuel (batch_init s)
    = Ok (batches, st') /\
    Forall (fun b => length b = batch_size) (removelast batches) /\
    Forall (fun b => 1 <= length b <= batch_size) batches /\
    iter_len linear linear_readline linear_reset batch_size max_len fuel (batch_init s)
    = Ok (length batches, batch_init s).
Proof. exact linear_sizes_spec. Qed.
Print Assumptions C04_batch_sizes.

(** The same for the shuffling iterator: len() leaves the order as it was. *)
Theorem C04_shuffling_sizes : forall choice shuffle10 files sampling batch_size max_len s,
  choice_contract choice -> shuffle_contract shuffle10 ->
  shuffling_init choice shuffle10 files sampling = Ok s ->
  1 <= batch_size -> valid_max max_len ->
  exists fuel0 batches st', forall fuel, fuel0 <= fuel ->
    iter_len shuffling shuffling_readline (shuffling_reset choice shuffle10) batch_size max_len fuel (batch_init s)
    = Ok (length batches, batch_init s) /\
    epoch shuffling shuffling_readline (shuffling_reset choice shuffle10) batch_size max_len fuel (batch_init s)
    = Ok (batches, st') /\
    Forall (fun b => length b = batch_size) (removelast batches) /\
    Forall (fun b => 1 <= length b <= batch_size) batches.
Proof. exact sh_sizes_spec. Qed.
Print Assumptions C04_shuffling_sizes.

Example C04_example :
  match linear_init C03_files with
  | Ok s => match iter_len linear linear_readline linear_reset 2 None 100 (batch_init s) with
            | Ok (n, _) => n | Err _ => 0 end
  | Err _ => 0
  end = 2.
Proof. vm_compute. reflexivity. Qed.

(** Calling len() in the middle of an epoch is not covered: it rewinds the
    iterator, so mini-batches are then returned again. *)
Theorem C04_len_mid_epoch_rewinds : exists files s batch_size b1 st1 m st2 b2 e,
  linear_init files = Ok s /\
  take_batches linear linear_readline linear_reset batch_size None 100 1 (batch_init s) = Ok ([b1], st1) /\
  iter_len linear linear_readline linear_reset batch_size None 100 st1 = Ok (m, st2) /\
  epoch linear linear_readline linear_reset batch_size None 100 st2 = Ok (b1 :: b2, e).
Proof. exact len_mid_epoch_witness. Qed.
Print Assumptions C04_len_mid_epoch_rewinds.

(** C05: the matrices. *)
Theorem C05_matrices : forall v oos seqs w f m,
  prepare_batch v oos seqs = Ok (w, f, m) ->
  exists rows, longest rows seqs /\
  is_matrix rows (length seqs) w /\ is_matrix rows (length seqs) f /\ is_matrix rows (length seqs) m /\
  (forall j s t word file, nth_error seqs j = Some s -> nth_error s t = Some (word, file) ->
     (exists code, cell w t j = Some code /\
        word_code (vv_word_to_id v) (vv_in_shortlist v) (vv_unk_id v) oos word code) /\
     cell m t j = Some 1 /\ cell f t j = Some (int8 file)) /\
  (forall j s t, nth_error seqs j = Some s -> length s <= t < rows ->
     cell w t j = Some (vv_unk_id v) /\ cell m t j = Some 0 /\ cell f t j = Some 0%Z).
Proof. exact prepare_batch_spec. Qed.
Print Assumptions C05_matrices.
Theorem C05_total : forall v oos seqs, seqs <> [] -> exists r, prepare_batch v oos seqs = Ok r.
Proof. exact prepare_batch_total. Qed.
Print Assumptions C05_total.
Theorem C05_ids_in_vocabulary : forall v oos seqs w f m n,
  prepare_batch v oos seqs = Ok (w, f, m) ->
  (forall word id, vv_word_to_id v word = Some id -> id < n) -> vv_unk_id v < n ->
  forall t j code, cell w t j = Some code -> code < n.
Proof. exact prepare_batch_range. Qed.
Print Assumptions C05_ids_in_vocabulary.
Theorem C05_ids_in_shortlist : forall v seqs w f m,
  prepare_batch v true seqs = Ok (w, f, m) -> vv_in_shortlist v (vv_unk_id v) = true ->
  forall t j code, cell w t j = Some code -> vv_in_shortlist v code = true.
Proof. exact prepare_batch_shortlist. Qed.
Print Assumptions C05_ids_in_shortlist.
Theorem C05_decodable : forall v oos seqs w f m decode,
  prepare_batch v oos seqs = Ok (w, f, m) ->
  (forall word id, vv_word_to_id v word = Some id -> decode id = Some word) ->
  forall j s t word file id,
    nth_error seqs j = Some s -> nth_error s t = Some (word, file) ->
    vv_word_to_id v word = Some id -> (oos = true -> vv_in_shortlist v id = true) ->
    exists code, cell w t j = Some code /\ decode code = Some word.
Proof. exact prepare_batch_decode. Qed.
Print Assumptions C05_decodable.
(** File IDs are stored in eight bits: exact up to 128 files, not beyond. *)
Theorem C05_file_ids_small : forall n, n < 128 -> int8 n = Z.of_nat n.
Proof. exact int8_small. Qed.
Print Assumptions C05_file_ids_small.
Theorem C05_file_ids_wrap : exists n, int8 n <> Z.of_nat n.
Proof. exists 128. vm_compute. discriminate. Qed.
Print Assumptions C05_file_ids_wrap.

Definition C05_view : vocab_view :=
  mkView (fun w => if pystr_eqb w SOS then Some 0 else if pystr_eqb w EOS then Some 1
                   else if pystr_eqb w UNK then Some 2
                   else if pystr_eqb w (str "a") then Some 3
                   else if pystr_eqb w (str "rare") then Some 4 else None)
         (fun id => id <? 4) 2.
Example C05_example :
  prepare_batch C05_view true
    [[(SOS, 0); (str "a", 0); (str "rare", 0); (EOS, 0)]; [(SOS, 1); (EOS, 1)]]
  = Ok ([[0; 0]; [3; 1]; [2; 2]; [1; 2]],
        [[0; 1]; [0; 1]; [0; 0]; [0; 0]]%Z,
        [[1; 1]; [1; 1]; [1; 0]; [1; 0]]).
Proof. vm_compute. reflexivity. Qed.

(** C06, exactly what is presented: everything, or everything but the last token
    of the sentence (which is </s>) when one token would be left over. *)
Theorem C06_presented_tokens : forall m k line u ss,
  2 <= m -> utterance_of line u -> line_sequences (Some m) k line ss ->
  Forall (fun s => length s <= m) ss /\
  map fst (concat ss) = if length u mod m =? 1 then removelast u else u.
Proof. exact line_sequences_presented. Qed.
Print Assumptions C06_presented_tokens.
Theorem C06_uncut : forall k line u ss,
  utterance_of line u -> line_sequences None k line ss -> map fst (concat ss) = u.
Proof. exact line_sequences_whole. Qed.
Print Assumptions C06_uncut.
(** The property is false: "a b c" with maximum length 4 is never trained on </s>. *)
Theorem C06_cutting_loses_token_refuted : exists m k line u ss,
  2 <= m /\ utterance_of line u /\ line_sequences (Some m) k line ss /\
  map fst (concat ss) <> u.
Proof. exact C06_witness. Qed.
Print Assumptions C06_cutting_loses_token_refuted.
(** Maximum length one presents nothing, zero never returns. *)
Theorem C06_length_one_refuted : forall k line ss, line_sequences (Some 1) k line ss -> ss = [].
Proof. exact line_sequences_max_1. Qed.
Print Assumptions C06_length_one_refuted.
Theorem C06_length_zero_refuted : forall src readline reset batch_size fuel (st : bstate src) acc,
  b_buffer st <> [] ->
  next_loop src readline reset batch_size (Some 0) fuel st acc = Err OutOfFuel.
Proof. exact next_loop_zero. Qed.
Print Assumptions C06_length_zero_refuted.

(** C07: every epoch of the shuffling iterator, with fraction 1 for all files. *)
Theorem C07_shuffled_epochs_permute : forall choice shuffle10 files lss ls sampling batch_size max_len s,
  choice_contract choice -> shuffle_contract shuffle10 ->
  file_lines files lss -> tagged_lines 0 files ls ->
  Forall (fun q => q == 1)%Q sampling ->
  shuffling_init choice shuffle10 files sampling = Ok s ->
  1 <= batch_size -> valid_max max_len ->
  forall n, exists fuel0, forall fuel, fuel0 <= fuel ->
  exists bss st',
    epochs shuffling shuffling_readline (shuffling_reset choice shuffle10) batch_size max_len fuel n
           (batch_init s) = Ok (bss, st') /\
    length bss = n /\
    Forall (fun batches => exists ls' ss, Permutation ls ls' /\ lines_sequences max_len ls' ss /\
                                          cut_into batch_size ss batches) bss.
Proof. exact sh_epochs_permutation. Qed.
Print Assumptions C07_shuffled_epochs_permute.
(** With arbitrary fractions: a sample of each file. *)
Theorem C07_sampled_epochs : forall choice shuffle10 files lss sampling batch_size max_len s,
  choice_contract choice -> shuffle_contract shuffle10 ->
  file_lines files lss -> shuffling_init choice shuffle10 files sampling = Ok s ->
  1 <= batch_size -> valid_max max_len ->
  exists sizes, sizes_for lss sampling sizes /\
  forall n, exists fuel0, forall fuel, fuel0 <= fuel ->
  exists bss st',
    epochs shuffling shuffling_readline (shuffling_reset choice shuffle10) batch_size max_len fuel n
           (batch_init s) = Ok (bss, st') /\
    length bss = n /\
    Forall (fun batches => exists sample ls ss,
              sampled 0 lss sizes sample /\ Permutation sample ls /\
              lines_sequences max_len ls ss /\ cut_into batch_size ss batches) bss.
Proof. exact sh_epochs_from_init. Qed.
Print Assumptions C07_sampled_epochs.
Theorem C07_init_total : forall choice shuffle10 files sampling,
  Forall (fun d => d <> []) files -> Forall (fun q => 0 <= q)%Q sampling ->
  exists s, shuffling_init choice shuffle10 files sampling = Ok s.
Proof. exact shuffling_init_ok. Qed.
Print Assumptions C07_init_total.

(** Functions that meet the contracts. *)
Example C07_choice : choice_contract cyc_choice.
Proof. exact cyc_choice_contract. Qed.
Example C07_shuffle : shuffle_contract rev_shuffle.
Proof. exact rev_shuffle_contract. Qed.
Definition C07_run : list (list (list (list pystr))) :=
  match shuffling_init cyc_choice rev_shuffle C03_files [] with
  | Ok s => match epochs shuffling shuffling_readline (shuffling_reset cyc_choice rev_shuffle)
                         2 None 100 2 (batch_init s) with
            | Ok (bss, _) => map (map (map (map fst))) bss
            | Err _ => []
            end
  | Err _ => []
  end.
Example C07_example : C07_run =
  let ep := [[[SOS; str "e"; str "f"; EOS]; [SOS; str "d"; EOS]]; [[SOS; str "a"; str "b"; str "c"; EOS]]] in
  [ep; ep].
Proof. vm_compute. reflexivity. Qed.

(** C08: when no sentence is being cut at the moment of saving, the restored
    iterator returns exactly the rest of the epoch. *)
Theorem C08_resume_exact :
  forall choice1 shuffle1 choice2 shuffle2 files sampling1 sampling2 batch_size max_len s1 s2 st,
  choice_contract choice1 -> shuffle_contract shuffle1 ->
  1 <= batch_size -> valid_max max_len ->
  shuffling_init choice1 shuffle1 files sampling1 = Ok s1 ->
  shuffling_init choice2 shuffle2 files sampling2 = Ok s2 ->
  iter_reachable shuffling shuffling_readline (shuffling_reset choice1 shuffle1) batch_size max_len s1 st ->
  s_order (b_src st) <> [] ->
  b_buffer st = [] ->
  exists st2,
    shuffling_iter_set_state (Some (shuffling_iter_get_state st)) (batch_init s2) = Ok st2 /\
    exists batches fuel0, forall fuel, fuel0 <= fuel -> exists e1 e2,
      epoch shuffling shuffling_readline (shuffling_reset choice1 shuffle1) batch_size max_len fuel st
      = Ok (batches, e1) /\
      epoch shuffling shuffling_readline (shuffling_reset choice2 shuffle2) batch_size max_len fuel st2
      = Ok (batches, e2).
Proof. exact resume_exact. Qed.
Print Assumptions C08_resume_exact.
(** Which is always the case without a maximum length. *)
Theorem C08_uncut_always_exact : forall choice shuffle10 files sampling batch_size s st,
  choice_contract choice -> shuffle_contract shuffle10 ->
  shuffling_init choice shuffle10 files sampling = Ok s ->
  iter_reachable shuffling shuffling_readline (shuffling_reset choice shuffle10) batch_size None s st ->
  b_buffer st = [].
Proof. exact no_cut_no_buffer. Qed.
Print Assumptions C08_uncut_always_exact.
(** In general the restored iterator misses exactly the rest of the sentence that
    was being cut. *)
Theorem C08_resume_misses_current_sentence :
  forall choice1 shuffle1 choice2 shuffle2 files sampling1 sampling2 batch_size max_len s1 s2 st,
  choice_contract choice1 -> shuffle_contract shuffle1 ->
  1 <= batch_size -> valid_max max_len ->
  shuffling_init choice1 shuffle1 files sampling1 = Ok s1 ->
  shuffling_init choice2 shuffle2 files sampling2 = Ok s2 ->
  iter_reachable shuffling shuffling_readline (shuffling_reset choice1 shuffle1) batch_size max_len s1 st ->
  s_order (b_src st) <> [] ->
  exists st2,
    shuffling_iter_set_state (Some (shuffling_iter_get_state st)) (batch_init s2) = Ok st2 /\
    exists pieces rest fuel0,
      cut_into (match max_len with Some m => m | None => length (b_buffer st) end) (b_buffer st) pieces /\
      forall fuel, fuel0 <= fuel -> exists b1 b2 e1 e2,
      epoch shuffling shuffling_readline (shuffling_reset choice1 shuffle1) batch_size max_len fuel st
      = Ok (b1, e1) /\
      epoch shuffling shuffling_readline (shuffling_reset choice2 shuffle2) batch_size max_len fuel st2
      = Ok (b2, e2) /\
      cut_into batch_size (filter (fun p => 2 <=? length p) pieces ++ rest) b1 /\
      cut_into batch_size rest b2.
Proof. exact resume_general. Qed.
Print Assumptions C08_resume_misses_current_sentence.

(** A state is refused exactly if it is missing, or there is no order in it, or the
    order is empty, or the position is missing. Otherwise order and position are
    taken from the state, and nothing else changes. *)
Theorem C08_state_accepted : forall state (st : bstate shuffling),
  (forall st', shuffling_iter_set_state state st = Ok st' <->
     exists order next, order <> [] /\ state = Some (mkIterState (Some order) (Some next)) /\
       st' = mkB (mkShuffling (s_pointers (b_src st)) (s_sizes (b_src st)) next order (s_draws (b_src st)))
                 (b_buffer st) (b_eof st)) /\
  (forall e, shuffling_iter_set_state state st = Err e -> e = IncompatibleStateError).
Proof.
  intros state st. unfold shuffling_iter_set_state, shuffling_set_state.
  destruct state as [ [ [ [|x order]|] [next|] ]|]; cbn [is_order is_next_line bind]; (split; [|congruence]); intros st'; split;
    try discriminate; try (intros (o & n & Ho & E & _); congruence).
  - intros E. injection E as <-. exists (x :: order), next. split; [discriminate|]. split; reflexivity.
  - intros (o & n & _ & E & ->). injection E as <- <-. reflexivity.
Qed.
Print Assumptions C08_state_accepted.

(** The property is false: saved after the first mini-batch of one cut sentence,
    the restored iterator returns nothing while the original returns the rest. *)
Theorem C08_resume_mid_sentence_refuted : exists files s b1 st st2 rest e e2,
  shuffling_init cyc_choice rev_shuffle files [] = Ok s /\
  take_batches shuffling shuffling_readline (shuffling_reset cyc_choice rev_shuffle) 1 (Some 3) 100 1
               (batch_init s) = Ok (b1, st) /\
  shuffling_iter_set_state (Some (shuffling_iter_get_state st)) (batch_init s) = Ok st2 /\
  epoch shuffling shuffling_readline (shuffling_reset cyc_choice rev_shuffle) 1 (Some 3) 100 st = Ok (rest, e) /\ rest <> [] /\ epoch shuffling shuffling_readline (shuffling_reset cyc_choice rev_shuffle) 1 (Some 3) 100 st2 = Ok ([], e2).
Proof. exact resume_witness. Qed.
Print Assumptions C08_resume_mid_sentence_refuted.

(** A reachable state in the middle of an epoch with nothing buffered. *)
Example C08_reachable : exists s st,
  shuffling_init cyc_choice rev_shuffle C03_files [] = Ok s /\
  iter_reachable shuffling shuffling_readline (shuffling_reset cyc_choice rev_shuffle) 1 None s st /\
  s_order (b_src st) <> [] /\ b_buffer st = [] /\ s_next_line (b_src st) = 1.
Proof. exact reachable_witness. Qed.
