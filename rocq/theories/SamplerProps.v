(** Properties of text generation. *)
From Coq Require Import QArith Qcanon.
From Verif Require Import Base BaseLib ListLib Strings Dict TextSpec TextProofs VocabModel VocabSpec VocabProofs VocabBuild VocabStats VocabProps NetModel NetColumns NetExamples SamplerModel SamplerSpec SamplerProofs.
Local Open Scope nat_scope.

(** The requested number of sequences. Each of them is the sentence start symbol, the
    words of the seed, and words of the vocabulary, one less than the length that was
    requested. *)
Theorem C51_shape P X (step : list nat -> list nat -> X -> result (list (list P) * X)) initial draw_class draw_word v length_ n text seed sequences :
  1 <= length_ -> tokens text seed ->
  generate step initial draw_class draw_word v length_ n text = Ok sequences ->
  length sequences = n /\
  forall sequence, In sequence sequences ->
    exists sampled, sequence = SOS :: seed ++ sampled /\ length sampled = length_ - 1 /\ Forall (fun w => In w (v_id_to_word v)) sampled.
Proof.
  intros Hl Ht E. apply tokens_split in Ht. destruct (generate_ok _ _ _ _ _ _ _ _ _ Hl E) as (words & classes & L & G & Ls & T).
  rewrite split_strip, Ht in L, G. split; [exact Ls|]. intros sequence Hs. apply In_nth_error in Hs as [j Hj].
  eapply generated_text; eauto.
Qed.
Print Assumptions C51_shape.

(** Where the words come from: see [generated]. *)
Theorem C51_drawn P X (step : list nat -> list nat -> X -> result (list (list P) * X)) initial draw_class draw_word v length_ n text seed sequences :
  1 <= length_ -> tokens text seed ->
  generate step initial draw_class draw_word v length_ n text = Ok sequences ->
  exists words classes, length words = length seed + length_ /\
    generated step initial draw_class draw_word v n seed words classes /\
    forall j sequence, nth_error sequences j = Some sequence -> text_of v words j sequence.
Proof.
  intros Hl Ht E. apply tokens_split in Ht. destruct (generate_ok _ _ _ _ _ _ _ _ _ Hl E) as (words & classes & L & G & Ls & T).
  rewrite split_strip, Ht in L, G. exists words, classes. auto.
Qed.
Print Assumptions C51_drawn.

(** The network is always given a word of the shortlist and the class of that word. *)
Theorem C51_words_and_classes P X (step : list nat -> list nat -> X -> result (list (list P) * X)) initial draw_class draw_word v n seed words classes :
  reachable_vocab v -> generated step initial draw_class draw_word v n seed words classes ->
  forall t w c j id, nth_error words t = Some w -> nth_error classes t = Some c -> nth_error w j = Some id ->
  id < num_shortlist_words v /\ nth_error c j = nth_error (v_w2c v) id.
Proof. intros. eapply drawn_word; eauto. Qed.
Print Assumptions C51_words_and_classes.

(** The sequences that are generated in parallel do not affect each other: each word
    after the seed is drawn from the distribution that the network gives when it reads
    just that sequence from the beginning. *)
Theorem C51_own_history (A : arith) (nn : network A) draw_class draw_word v n seed words classes :
  generated (step_network nn) (initial_state nn n) draw_class draw_word v n seed words classes ->
  forall t j w, length seed < t -> j < n -> nth_error words t = Some w ->
  exists ps distribution st,
    runs (step_network nn) (combine (map (sel j) (firstn t words)) (map (sel j) (firstn t classes))) (initial_state nn 1) (ps ++ [[distribution]]) st /\
    exists wc id, nth_error (v_classes v) (draw_class t j distribution) = Some wc /\
      nth_error (map fst (wc_probs wc)) (draw_word t j (map snd (wc_probs wc))) = Some id /\ nth_error w j = Some id.
Proof.
  intros G t j w Ht Hj Ew.
  destruct (nth_error classes t) as [c|] eqn:Ec.
  2: { apply nth_error_None in Ec. rewrite (g_same_length _ _ _ _ _ _ _ _ _ G) in Ec. assert (t < length words) by (apply nth_error_Some; congruence). lia. }
  destruct (g_drawn _ _ _ _ _ _ _ _ _ G t w c Ht Ew Ec) as (ps & p & st & Hr & Lp & D).
  destruct (nth_error p j) as [d|] eqn:Ed; [|apply nth_error_None in Ed; lia].
  destruct (D j d Ed) as (cl & wc & id & -> & _ & Hwc & Hid & Hw).
  apply (runs_col j) in Hr. rewrite initial_col in Hr by exact Hj. rewrite map_app in Hr. cbn [map] in Hr. unfold sel at 4 in Hr. rewrite Ed in Hr.
  exists (map (sel j) ps), d, (map (sel j) st). split; [|exists wc, id; auto].
  match type of Hr with runs _ ?a _ _ _ => match goal with |- runs _ ?b _ _ _ => replace b with a; [exact Hr|] end end.
  generalize (firstn t words), (firstn t classes). intros l l'. revert l'.
  induction l as [|x l IH]; intros [|y l']; cbn [combine map fst snd]; try reflexivity. now rewrite IH.
Qed.
Print Assumptions C51_own_history.

(** Generation succeeds if at least one word is requested, the words of the seed are in
    the shortlist, the network accepts the words and gives as many probabilities as
    there are classes, and what is drawn are positions in the distributions. *)
Theorem C51_succeeds P X (step : list nat -> list nat -> X -> result (list (list P) * X)) initial draw_class draw_word v n (good : X -> Prop) length_ text seed :
  reachable_vocab v ->
  (forall words classes st, good st -> length words = n -> length classes = n ->
     Forall (fun id => id < num_shortlist_words v) words -> Forall (fun c => c < length (v_classes v)) classes ->
     exists p st', step words classes st = Ok (p, st') /\ good st' /\ length p = n /\
       forall d, In d p -> length d = length (v_classes v)) ->
  (forall t j d, length d = length (v_classes v) -> draw_class t j d < length d) ->
  (forall t j probs, probs <> [] -> draw_word t j probs < length probs) ->
  1 <= length_ -> good initial -> tokens text seed ->
  Forall (fun token => exists id, word_to_id v token = Some id /\ id < num_shortlist_words v) seed ->
  exists sequences, generate step initial draw_class draw_word v length_ n text = Ok sequences.
Proof.
  intros R H1 H2 H3 Hl Hg Ht Hs. apply tokens_split in Ht. eapply generate_succeeds; eauto. now rewrite split_strip, Ht.
Qed.
Print Assumptions C51_succeeds.

(** It never succeeds if a word of the seed is not in the shortlist. *)
Theorem C51_unknown_seed P X (step : list nat -> list nat -> X -> result (list (list P) * X)) initial draw_class draw_word v n length_ text seed token :
  1 <= length_ -> tokens text seed -> In token seed ->
  (forall id, word_to_id v token = Some id -> num_shortlist_words v <= id) ->
  exists e, generate step initial draw_class draw_word v length_ n text = Err e.
Proof.
  intros Hl Ht Hin Hs. destruct (generate _ _ _ _ _ _ _ _) as [sequences|e] eqn:E; [|eauto]. exfalso.
  destruct (C51_drawn _ _ _ _ _ _ _ _ _ _ _ _ Hl Ht E) as (words & classes & L & G & _).
  apply In_nth_error in Hin as [i Hi]. assert (i < length seed) by (apply nth_error_Some; congruence).
  destruct (nth_error words (S i)) as [w|] eqn:Ew; [|apply nth_error_None in Ew; lia].
  destruct (nth_error classes (S i)) as [c|] eqn:Ec; [|apply nth_error_None in Ec; rewrite (g_same_length _ _ _ _ _ _ _ _ _ G) in Ec; lia].
  destruct (g_given _ _ _ _ _ _ _ _ _ G (S i) token w c Hi Ew Ec) as (id & cl & [H1 H2] & _).
  specialize (Hs id H1). assert (id < length (v_w2c v)) by (apply nth_error_Some; congruence). unfold num_shortlist_words in Hs. lia.
Qed.
Print Assumptions C51_unknown_seed.

(** Nor if length zero is requested and there is a seed. *)
Theorem C51_no_room_for_seed P X (step : list nat -> list nat -> X -> result (list (list P) * X)) initial draw_class draw_word v n text seed :
  tokens text seed -> seed <> [] ->
  exists e, generate step initial draw_class draw_word v 0 n text = Err e.
Proof.
  intros Ht NE. apply tokens_split in Ht. destruct (generate _ _ _ _ _ _ _ _) as [sequences|e] eqn:E; [|eauto]. exfalso. revert E.
  unfold generate. rewrite split_strip, Ht. rewrite Nat.add_0_r.
  destruct (token_id v SOS) as [sos_id|]; cbn [bind]; [|discriminate].
  destruct (py_index (v_w2c v) sos_id) as [k|]; cbn [bind]; [|discriminate].
  assert (K : forall toks t s, toks <> [] -> length (s_rows s) <= t + length toks - 1 -> exists e, seed_loop step v n t toks s = Err e).
  { induction toks as [|token toks IH]; intros t s NE' Hr; [congruence|]. cbn [seed_loop length] in *.
    destruct (step _ _ _) as [[p st]|]; cbn [bind]; [|eauto]. destruct (token_id v token) as [id|]; cbn [bind]; [|eauto].
    destruct (py_index (v_w2c v) id) as [c|]; cbn [bind]; [|eauto]. unfold set_row.
    destruct (Nat.ltb_spec t (length (s_rows s))); cbn [negb bind]; [|eauto].
    destruct (negb _); cbn [bind]; [eauto|]. destruct toks as [|token' toks]; [cbn [length] in *; lia|].
    apply IH; [discriminate|]. cbn [s_rows length] in *. rewrite upd_length. lia. }
  destruct (K seed 1 (mkSampler (repeat sos_id n) (repeat k n) (repeat (repeat sos_id n) (length seed)) initial) NE) as [e ->].
  { cbn [s_rows]. rewrite repeat_length. lia. }
  discriminate.
Qed.
Print Assumptions C51_no_room_for_seed.

(** The sample command prints the words of each sequence, up to and including the first
    sentence end symbol, with spaces between them, each sequence on a line. *)
Theorem C51_prints P X (step : list nat -> list nat -> X -> result (list (list P) * X)) initial draw_class draw_word v n length_ text lines :
  sample_output step initial draw_class draw_word v length_ n text = Ok lines <->
  exists sequences, generate step initial draw_class draw_word v length_ n text = Ok sequences /\
    Forall2 (fun sequence line => exists kept, up_to_eos sequence kept /\ line = join [space] kept ++ [newline]) sequences lines.
Proof.
  assert (U : forall s k k', up_to_eos s k -> up_to_eos s k' -> k = k').
  { intros s k k' [[N ->]|(a & b & -> & N & ->)] [[N' ->]|(a' & b' & E & N' & ->)]; try reflexivity.
    - exfalso. apply N. rewrite E. apply in_or_app. right. now left.
    - exfalso. apply N'. apply in_or_app. right. now left.
    - f_equal. revert a' E N'. induction a as [|x a IH]; intros [|y a'] E N'; cbn [app] in E.
      + reflexivity.
      + exfalso. injection E as Ey _. apply N'. left. now rewrite Ey.
      + exfalso. injection E as Ey _. apply N. left. exact Ey.
      + injection E as -> E. f_equal. apply IH; [|exact E|]; intro H; [apply N|apply N']; now right. }
  unfold sample_output. split.
  - destruct (generate _ _ _ _ _ _ _ _) as [sequences|]; cbn [bind]; [|discriminate]. intros [= <-]. exists sequences. split; [reflexivity|].
    induction sequences as [|s l IH]; cbn [map]; constructor; [|exact IH]. exists (cut_after EOS s). split; [apply cut_after_spec|reflexivity].
  - intros (sequences & -> & F). cbn [bind]. f_equal. induction F as [|s line l lines (k & Hk & ->) F IH]; cbn [map]; [reflexivity|].
    rewrite IH. unfold print_sequence. now rewrite (U s (cut_after EOS s) k (cut_after_spec s) Hk).
Qed.
Print Assumptions C51_prints.

(** ** A case *)

(** A network whose state is the last word: it gives one class number for each of the
    classes; the draws depend on the time step. *)
Definition ex_step (words classes : list nat) (st : nat) : result (list (list nat) * nat) :=
  Ok (map (fun w => [w; w; w; w]) words, st + 1).
Definition ex_draw_class (t j : nat) (d : list nat) : nat := Nat.min ((t + j) mod 4) (length d - 1).
Definition ex_draw_word (t j : nat) (probs : list Qc) : nat := Nat.min t (length probs - 1).
Example C51_example :
  tokens (str " a b ") [str "a"; str "b"] /\
  generate ex_step 0 ex_draw_class ex_draw_word ex_vocab 4 2 (str " a b ") =
    Ok [[SOS; str "a"; str "b"; EOS; str "c"; UNK]; [SOS; str "a"; str "b"; str "c"; UNK; SOS]] /\
  sample_output ex_step 0 ex_draw_class ex_draw_word ex_vocab 4 2 (str " a b ") =
    Ok [str "<s> a b </s>" ++ [newline]; str "<s> a b c <unk> <s>" ++ [newline]] /\
  generate ex_step 0 ex_draw_class ex_draw_word ex_vocab 4 2 (str "q") = Err KeyError /\
  generate ex_step 0 ex_draw_class ex_draw_word ex_vocab 4 2 (str "x") = Err IndexError /\
  generate ex_step 0 ex_draw_class ex_draw_word ex_vocab 0 2 (str "a") = Err IndexError.
Proof. split; [exact (split_tokens (str " a b "))|]. vm_compute. repeat split. Qed.
Example C51_succeeds_example :
  reachable_vocab ex_vocab /\
  (forall words classes st, True -> length words = 2 -> length classes = 2 ->
     Forall (fun id => id < num_shortlist_words ex_vocab) words -> Forall (fun c => c < length (v_classes ex_vocab)) classes ->
     exists p st', ex_step words classes st = Ok (p, st') /\ True /\ length p = 2 /\
       forall d, In d p -> length d = length (v_classes ex_vocab)) /\
  (forall t j d, length d = length (v_classes ex_vocab) -> ex_draw_class t j d < length d) /\
  (forall t j probs, probs <> [] -> ex_draw_word t j probs < length probs).
Proof.
  split; [apply ex_vocab_reachable|]. assert (L : length (v_classes ex_vocab) = 4) by (vm_compute; reflexivity). rewrite L.
  split; [|split].
  - intros words classes st _ Lw _ _ _. eexists _, _. split; [reflexivity|]. rewrite map_length. repeat split; auto.
    intros d Hd. apply in_map_iff in Hd as (w & <- & _). reflexivity.
  - intros t j d Hd. unfold ex_draw_class. lia.
  - intros t j probs NE. unfold ex_draw_word. destruct probs; [congruence|]. cbn [length]. lia.
Qed.
(** The expectation that as many words are generated as requested *)
Theorem C51_requested_length_refuted :
  ~ forall P X (step : list nat -> list nat -> X -> result (list (list P) * X)) initial draw_class draw_word v length_ n text seed sequences,
    tokens text seed -> generate step initial draw_class draw_word v length_ n text = Ok sequences ->
    forall sequence, In sequence sequences -> exists sampled, sequence = SOS :: seed ++ sampled /\ length sampled = length_.
Proof.
  intros H. specialize (H _ _ ex_step 0 ex_draw_class ex_draw_word ex_vocab 4 2 (str " a b ") _ _ (proj1 C51_example) (proj1 (proj2 C51_example)) _ (or_introl eq_refl)).
  destruct H as (sampled & E & L). apply (f_equal (@length pystr)) in E. cbn [length app] in E. lia.
Qed.
Print Assumptions C51_requested_length_refuted.
(** With a network that reads three words, and the vocabulary of the special tokens *)
Definition ex_special_vocab := get_vocab (from_file ex_int ex_float Words [] []).
Example C51_network_example :
  match generate (step_network (@ex_forward integers)) (initial_state (@ex_forward integers) 2)
      (fun t j d => Nat.min (t + j) 1) ex_draw_word ex_special_vocab 3 2 (str "<unk>") with
  | Ok sequences => length sequences = 2
  | Err _ => False
  end.
Proof. vm_compute. reflexivity. Qed.
