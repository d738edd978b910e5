(** Proofs about the decode command. *)
From Coq Require Import QArith Qcanon Sorted Permutation.
From Verif Require Import Base BaseLib Strings ListLib QcLib Dict VocabModel VocabSpec VocabProofs VocabProps
     LatticeModel LatticeSpec SlfModel SlfProofs KaldiModel JobProofs LatticeProps DecoderModel DecoderSpec GraphProofs SortProofs DecodeProofs DecoderProps RescoredModel RescoredGraph CommandModel CommandSpec.
Local Open Scope nat_scope.

Lemma decode_named state (initial_state : state) net_step ln lin hash v o i a :
  decode state initial_state net_step ln lin hash v o (named i a) = decode state initial_state net_step ln lin hash v o a.
Proof. unfold named. destruct a as [ns ls ini [u|] s w]; reflexivity. Qed.
Lemma named_utterance i a : a_utterance (named i a) = Some (utterance_of i a).
Proof. unfold named, utterance_of. destruct a as [ns ls ini [u|] s w]; reflexivity. Qed.
Lemma named_self i a u : a_utterance a = Some u -> named i a = a.
Proof. unfold named. now intros ->. Qed.

(** ** The words of a token *)
Lemma word_back v w i : reachable_vocab v -> word_to_id v w = Some i -> py_index (v_id_to_word v) i = Ok w.
Proof.
  intros Hv E. destruct (C09_inverse_maps v Hv) as [_ B]. apply B in E. unfold py_index. now rewrite E.
Qed.

Section Words.
Variable v : vocabulary.
Hypothesis Hv : reachable_vocab v.
Notation word_of_entry := (fun w : hword => match w with inl i => py_index (v_id_to_word v) i | inr s => Ok s end).

Lemma link_words_text o l : mapM word_of_entry (map fst (link_words v o l)) = Ok (link_texts [l]).
Proof.
  unfold link_words, link_texts. cbn [flat_map]. destruct (k_word l) as [w|]; [|reflexivity].
  cbn [map fst mapM app]. destruct (word_to_id v w) as [i|] eqn:E; [rewrite (word_back v w i Hv E)|]; reflexivity.
Qed.
Lemma mapM_app_ok {A B} (g : A -> result B) l1 l2 r1 r2 : mapM g l1 = Ok r1 -> mapM g l2 = Ok r2 -> mapM g (l1 ++ l2) = Ok (r1 ++ r2).
Proof.
  revert r1. induction l1 as [|x l1 IH]; intros r1 H1 H2; cbn [mapM app] in *.
  - injection H1 as <-. exact H2.
  - destruct (g x) as [y|]; [|discriminate]. cbn [bind] in *. destruct (mapM g l1) as [ys|]; [|discriminate]. cbn [bind] in *.
    injection H1 as <-. rewrite (IH ys eq_refl H2). reflexivity.
Qed.
Lemma path_words_text o p : mapM word_of_entry (map fst (path_words v o p)) = Ok (link_texts p).
Proof.
  unfold path_words. induction p as [|l p IH]; [reflexivity|]. cbn [map concat]. rewrite map_app.
  replace (link_texts (l :: p)) with (link_texts [l] ++ link_texts p).
  - apply mapM_app_ok; [apply link_words_text|exact IH].
  - unfold link_texts. cbn [flat_map]. now rewrite app_nil_r.
Qed.
Lemma history_text state (initial_state : state) f ln lin o a p t :
  hypothesis_on state initial_state f ln lin v o a p true t -> history_words state v t = Ok (sentence p).
Proof.
  intros H. destruct (hy_words _ _ _ _ _ _ _ _ _ _ _ H) as (sos & eos & Es & Ee & Hh & _). cbv zeta in Hh.
  unfold history_words. rewrite Hh, map_app. cbn [mapM]. rewrite (word_back v SOS sos Hv Es). cbn [bind].
  rewrite (mapM_app_ok _ _ _ _ [EOS] (path_words_text o p)); [reflexivity|].
  cbn [map fst mapM]. rewrite (word_back v EOS eos Hv Ee). reflexivity.
Qed.
(** The history decides the words. *)
Lemma same_history state (initial_state : state) f ln lin o a p p' t t' :
  hypothesis_on state initial_state f ln lin v o a p true t -> hypothesis_on state initial_state f ln lin v o a p' true t' ->
  tk_history _ t = tk_history _ t' -> link_texts p = link_texts p'.
Proof.
  intros H H' E. apply history_text in H. apply history_text in H'. unfold history_words in *. rewrite E in H. rewrite H in H'.
  unfold sentence in H'. assert (X : link_texts p ++ [EOS] = link_texts p' ++ [EOS]) by congruence. now apply app_inj_tail in X as [X _].
Qed.
End Words.

(** ** Lines *)
Lemma join_cons sep x y ys : join sep (x :: y :: ys) = x ++ sep ++ join sep (y :: ys).
Proof. reflexivity. Qed.
Lemma join_snoc sep y ys z : join sep ((y :: ys) ++ [z]) = join sep (y :: ys) ++ sep ++ z.
Proof.
  revert y. induction ys as [|y' ys IH]; intros y; [reflexivity|]. cbn [app] in *. rewrite join_cons, IH, join_cons.
  now rewrite <- !app_assoc.
Qed.
Lemma slice_min {A} (l : list A) n : slice_to l (Z.min n (Z.of_nat (length l))) = shown n l.
Proof.
  unfold slice_to, shown. destruct (Z.leb_spec 0 n).
  - destruct (Z.ltb_spec (Z.min n (Z.of_nat (length l))) 0); [lia|].
    destruct (Z.le_ge_cases n (Z.of_nat (length l))) as [H1|H1].
    + now rewrite Z.min_l.
    + rewrite Z.min_r by lia. rewrite Nat2Z.id, firstn_all, firstn_all2 by lia. reflexivity.
  - rewrite Z.min_l by lia. destruct (Z.ltb_spec n 0); [|lia]. f_equal. lia.
Qed.
Lemma shown_map {A B} (g : A -> B) n l : shown n (map g l) = map g (shown n l).
Proof. unfold shown. now rewrite map_length, firstn_map. Qed.
Lemma shown_in {A} n (l : list A) x : In x (shown n l) -> In x l.
Proof. unfold shown. intros H. rewrite <- (firstn_skipn (if (0 <=? n)%Z then Z.to_nat n else length l - Z.to_nat (- n)) l). apply in_or_app. now left. Qed.

Section Command.
Variable parse_int : pystr -> result Z.
Variable parse_float : pystr -> result Qc.
Variable nlog : Qc -> Qc.
Variable show_num : Qc -> pystr.
Variable show_z : Z -> pystr.
Variable read_file : pystr -> result pystr.
Variable state : Type.
Variable initial_state : state.
Variable net_step : list (nat * nat * nat * state) -> list (Qc * state).
Variable f : nat * nat * nat * state -> Qc * state.
Variable ln : Qc -> Qc.
Variable lin : Qc -> Qc -> Qc -> Qc.
Variable hash : list hword -> Z.
Variable v : vocabulary.
Hypothesis Hv : reachable_vocab v.
Hypothesis Hnet : step_independent v net_step f.
Notation o c := (settings nlog c).
Notation hyp c a p t := (hypothesis_at state initial_state f ln lin v (o c) a None p t).
Notation run := (run_lattices nlog show_num show_z state initial_state net_step ln lin hash v).
Notation process := (process_lattice nlog show_num show_z state initial_state net_step ln lin hash v).
Notation dec c := (decode state initial_state net_step ln lin hash v (o c)).

Lemma format_ok c id (p : list link) (t : token state) a : text_output c -> hyp c a p t ->
  exists line, format_token show_num state v t id (log_scale nlog c) (c_output c) = Ok line /\
    line ++ [newline] = line_of nlog show_num state c id (p, t).
Proof.
  intros Hc [_ H]. apply (history_text v Hv) in H. unfold format_token. rewrite H. cbn [bind]. unfold line_of, sentence.
  destruct Hc as [->|[->| ->]]; (eexists; split; [reflexivity|]); unfold line_fields, space; f_equal.
  - change ((SOS :: link_texts p ++ [EOS]) ++ [str "(" ++ id ++ str ")"])
      with (((SOS :: (link_texts p ++ [EOS])) ++ [str "(" ++ id ++ str ")"])).
    rewrite join_snoc. reflexivity.
Qed.

Lemma tokens_ok c id a hs : text_output c -> (forall p t, In (p, t) hs -> hyp c a p t) ->
  write_tokens nlog show_num state v c id (map snd hs) = (map (line_of nlog show_num state c id) hs, None).
Proof.
  intros Hc. induction hs as [|[p t] hs IH]; intros H; [reflexivity|]. cbn [map snd write_tokens].
  destruct (format_ok c id p t a Hc (H p t (or_introl eq_refl))) as (line & -> & ->).
  rewrite IH by (intros; apply H; now right). reflexivity.
Qed.

(** The tokens of a decoded lattice with their paths *)
Lemma choose_paths c a tokens : (forall t, In t tokens -> exists p, hyp c a p t) ->
  exists best, map snd best = tokens /\ forall p t, In (p, t) best -> hyp c a p t.
Proof.
  induction tokens as [|t ts IH]; intros H; [now exists []; split; [|intros ? ? []]|].
  destruct IH as (best & E & B); [intros; apply H; now right|]. destruct (H t (or_introl eq_refl)) as [p Hp].
  exists ((p, t) :: best). cbn [map snd]. split; [now rewrite E|]. intros p' t' [E'|Hin]; [|auto]. injection E' as <- <-. exact Hp.
Qed.
Lemma sorted_map {A B} (g : A -> B) R l : StronglySorted R (map g l) -> StronglySorted (fun x y => R (g x) (g y)) l.
Proof.
  induction l as [|x l IH]; intros H; constructor; inversion H as [|? ? S F]; subst; [auto|].
  rewrite Forall_forall in *. intros y Hy. apply F. apply in_map_iff. eauto.
Qed.

Lemma initial_no_edges a : lattice_ok a -> ~ cyclic a -> (forall i, i < length (a_nodes a) -> reachable_node a i) ->
  forall u, ~ edge a u (a_initial a).
Proof.
  intros Ha Hc Hr u He. apply Hc. destruct (Hr u) as [->|Hw].
  - destruct He as (l & Hl & <- & _). now apply (go_range _ _ (proj1 Ha)).
  - exists (a_initial a). now apply walk_edge.
  - exists (a_initial a). eapply walk_trans; [exact Hw|]. now apply walk_edge.
Qed.

Lemma decoded_ranking c a tokens dropped : lattice_ok a -> dec c a = Ok (tokens, dropped) ->
  exists best, map snd best = tokens /\ ranking nlog state initial_state f ln lin hash v c a best.
Proof.
  intros Ha E. destruct (C26_hypotheses_are_paths _ _ _ _ _ _ _ _ _ _ _ _ Hv Hnet Ha E) as [Hy _].
  destruct (choose_paths c a tokens Hy) as (best & Eb & Hb). exists best. split; [exact Eb|].
  destruct (C28_decoded_tokens _ _ _ _ _ _ _ _ _ _ _ _ Hv Hnet Ha E) as (Ne & So & Di & _). rewrite <- Eb in Ne, So, Di.
  split.
  - intros ->. now apply Ne.
  - exact Hb.
  - now apply sorted_map in So.
  - intros i j x y r Hi Hj. apply (map_nth_error snd) in Hi. apply (map_nth_error snd) in Hj. eauto.
  - intros (X1 & X2 & X3 & X4 & X5 & X6 & X7) p h Hh. destruct Hh as [(i & Pi & Fi) Ho].
    assert (Hi : i < length (a_nodes a)).
    { unfold is_final_node in Fi. destruct (nth_error (a_nodes a) i) eqn:En; [|discriminate]. apply nth_error_Some. congruence. }
    destruct (C27_no_word_sequence_is_lost state initial_state net_step f ln lin hash v (o c) a _ _ p i Hv Hnet Ha X1 X2 X3 X4 X5
                (initial_no_edges a Ha X6 X7) E Pi) as (t & h' & Ht & Hh' & Eh & Le); [now apply acyclic_orderable|exact Fi|].
    rewrite <- Eb in Ht. apply in_map_iff in Ht as ([p' t'] & Et & Hin). cbn [snd] in Et. subst t'.
    exists p', t. split; [exact Hin|].
    destruct (C26_scores_of_a_path _ _ _ _ _ _ _ _ _ _ _ _ Ho Hh') as (_ & _ & _ & _ & _ & _ & ->). split; [|exact Le].
    destruct (Hb p' t Hin) as [_ Hp']. eapply (same_history v Hv); [exact Hp'|exact Hh'|exact Eh].
Qed.

(** The command gives the decoder the settings of the specification. *)
Lemma same_settings c : decoding_options nlog c = o c.
Proof. reflexivity. Qed.

(** The lines of one lattice, or the exception that decoding raises *)
Lemma process_text c w2i i a : text_output c -> lattice_ok a ->
  (exists lines, process c w2i (named i a) = (lines, None) /\
     lines_of_lattice nlog show_num state initial_state f ln lin hash v c (utterance_of i a) a lines) \/
  (exists e, process c w2i (named i a) = ([], Some e) /\ dec c a = Err e).
Proof.
  intros Hc Ha. unfold process_lattice. rewrite decode_named, same_settings.
  destruct (dec c a) as [[tokens dropped]|e] eqn:E; [left|right; eauto].
  destruct (decoded_ranking c a tokens dropped Ha E) as (best & Eb & R).
  rewrite named_utterance, (slice_min tokens).
  assert (X : write_tokens nlog show_num state v c (utterance_of i a) (shown (c_n_best c) tokens)
              = (map (line_of nlog show_num state c (utterance_of i a)) (shown (c_n_best c) best), None)).
  { rewrite <- Eb, shown_map. apply (tokens_ok _ _ a _ Hc). intros p t Hin. eapply rk_paths; [exact R|]. eapply shown_in, Hin. }
  exists (map (line_of nlog show_num state c (utterance_of i a)) (shown (c_n_best c) best)).
  split; [|exists best; now split].
  destruct Hc as [Ec|[Ec|Ec]]; rewrite Ec; exact X.
Qed.

Lemma run_text c w2i n ys written st : text_output c -> (forall a, In (Ok a) ys -> lattice_ok a) ->
  run c w2i n ys = (written, st) ->
  exists blocks, written = concat blocks /\
    (forall i lines, nth_error blocks i = Some lines -> exists a, nth_error ys i = Some (Ok a) /\
       lines_of_lattice nlog show_num state initial_state f ln lin hash v c (utterance_of (n + i) a) a lines) /\
    ((st = finished /\ length blocks = length ys) \/
     exists e y, st = raised e /\ nth_error ys (length blocks) = Some y /\ (y = Err e \/ exists a, y = Ok a /\ dec c a = Err e)).
Proof.
  intros Hc. revert n written st. induction ys as [|y ys IH]; intros n written st Hok R; cbn [run_lattices] in R.
  - injection R as <- <-. exists []. split; [reflexivity|]. split; [intros [|i] ? ?; discriminate|]. now left.
  - destruct y as [a|e].
    2: { injection R as <- <-. exists []. split; [reflexivity|]. split; [intros [|i] ? ?; discriminate|]. right. exists e, (Err e). auto. }
    destruct (process_text c w2i n a Hc (Hok a (or_introl eq_refl))) as [(lines & Ep & L)|(e & Ep & Ed)]; rewrite Ep in R.
    2: { injection R as <- <-. exists []. split; [reflexivity|]. split; [intros [|i] ? ?; discriminate|]. right. exists e, (Ok a). split; [auto|]. split; [auto|eauto]. }
    destruct (run c w2i (S n) ys) as [more st'] eqn:Er. injection R as <- <-.
    destruct (IH (S n) more st' (fun a' H => Hok a' (or_intror H)) Er) as (blocks & -> & B & S).
    exists (lines :: blocks). split; [reflexivity|]. split.
    + intros [|i] ls Hi; cbn [nth_error] in Hi.
      * injection Hi as <-. exists a. split; [reflexivity|]. rewrite Nat.add_0_r. exact L.
      * destruct (B i ls Hi) as (a' & Ea & L'). exists a'. split; [exact Ea|]. now rewrite Nat.add_succ_r.
    + destruct S as [[-> Hl]|(e & y & -> & Hy & D)]; [left; cbn [length]; auto|right]. exists e, y. auto.
Qed.

(** Any output *)
Lemma run_general c w2i n ys written st : run c w2i n ys = (written, st) ->
  exists blocks part, written = concat blocks ++ part /\
    (forall i lines, nth_error blocks i = Some lines -> exists a, nth_error ys i = Some (Ok a) /\
       process c w2i (named (n + i) a) = (lines, None)) /\
    ((st = finished /\ part = [] /\ length blocks = length ys) \/
     exists e y, st = raised e /\ nth_error ys (length blocks) = Some y /\
       (y = Err e /\ part = [] \/ exists a, y = Ok a /\ process c w2i (named (n + length blocks) a) = (part, Some e))).
Proof.
  revert n written st. induction ys as [|y ys IH]; intros n written st R; cbn [run_lattices] in R.
  - injection R as <- <-. exists [], []. split; [reflexivity|]. split; [intros [|i] ? ?; discriminate|]. now left.
  - destruct y as [a|e].
    2: { injection R as <- <-. exists [], []. split; [reflexivity|]. split; [intros [|i] ? ?; discriminate|]. right. exists e, (Err e). auto. }
    destruct (process c w2i (named n a)) as [lines [e|]] eqn:Ep.
    { injection R as <- <-. exists [], lines. split; [reflexivity|]. split; [intros [|i] ? ?; discriminate|]. right. exists e, (Ok a).
      split; [auto|]. split; [auto|]. right. exists a. split; [reflexivity|]. cbn [length]. now rewrite Nat.add_0_r. }
    destruct (run c w2i (S n) ys) as [more st'] eqn:Er. injection R as <- <-.
    destruct (IH (S n) more st' Er) as (blocks & part & -> & B & S).
    exists (lines :: blocks), part. split; [cbn [concat]; now rewrite app_assoc|]. split.
    + intros [|i] ls Hi; cbn [nth_error] in Hi.
      * injection Hi as <-. exists a. rewrite Nat.add_0_r. auto.
      * destruct (B i ls Hi) as (a' & Ea & L'). exists a'. rewrite Nat.add_succ_r. auto.
    + cbn [length nth_error]. rewrite Nat.add_succ_r. destruct S as [(-> & -> & Hl)|(e & y & -> & Hy & D)]; [left; auto|right].
      exists e, y. auto.
Qed.

(** If all the lattices have an ID, their numbers do not matter. *)
Definition block (c : arguments) (w2i : dict pystr Z) (y : result lattice) : list pystr :=
  match y with Ok a => fst (process c w2i a) | Err _ => [] end.
Definition succeeds (c : arguments) (w2i : dict pystr Z) (y : result lattice) : Prop :=
  exists a lines, y = Ok a /\ process c w2i a = (lines, None).
Definition has_id (y : result lattice) : Prop := forall a, y = Ok a -> a_utterance a <> None.

Lemma named_id i a : a_utterance a <> None -> named i a = a.
Proof. unfold named. destruct (a_utterance a); [reflexivity|congruence]. Qed.
Lemma run_finished c w2i n ys written : Forall has_id ys -> run c w2i n ys = (written, finished) ->
  Forall (succeeds c w2i) ys /\ written = flat_map (block c w2i) ys.
Proof.
  intros H. revert n written. induction H as [|y ys Hy H IH]; intros n written R; cbn [run_lattices] in R; [injection R as <-; auto|].
  destruct y as [a|e]; [|discriminate]. rewrite (named_id n a (Hy a eq_refl)) in R.
  destruct (process c w2i a) as [lines [e|]] eqn:Ep; [discriminate|].
  destruct (run c w2i (S n) ys) as [more st] eqn:Er. injection R as <- ->. destruct (IH _ _ Er) as [H1 ->].
  split; [constructor; [exists a, lines; auto|exact H1]|]. cbn [flat_map block]. now rewrite Ep.
Qed.
Lemma run_all_succeed c w2i n ys : Forall has_id ys -> Forall (succeeds c w2i) ys ->
  run c w2i n ys = (flat_map (block c w2i) ys, finished).
Proof.
  intros H S. revert n. induction S as [|y ys (a & lines & -> & Ep) S IH]; intros n; [reflexivity|]. inversion H as [|? ? Hy H']; subst.
  cbn [run_lattices flat_map block]. rewrite (named_id n a (Hy a eq_refl)), Ep, (IH H' (Datatypes.S n)). reflexivity.
Qed.

(** The strings of a rescored lattice *)
Lemma write_incoming r : write_slf show_num (with_incoming r) = write_slf show_num r.
Proof.
  unfold write_slf, slf_lines, with_incoming. cbn [a_nodes a_links a_initial a_utterance a_lm_scale a_wi_penalty].
  assert (L : length (map (fun x => mkNode (n_out (snd x)) (links_to (a_links r) (fst x)) (n_time (snd x)) (n_final (snd x)))
                 (combine (seq 0 (length (a_nodes r))) (a_nodes r))) = length (a_nodes r)).
  { rewrite map_length, combine_length, seq_length. lia. }
  rewrite L.
  assert (G : forall (g : nat * node -> node) ns s, (forall i nd, n_time (g (i, nd)) = n_time nd) ->
    map (fun x => slf_node_line show_num (fst x) (snd x)) (combine (seq s (length ns)) (map g (combine (seq s (length ns)) ns)))
    = map (fun x => slf_node_line show_num (fst x) (snd x)) (combine (seq s (length ns)) ns)).
  { intros g ns s Hg. revert s. induction ns as [|nd ns IH]; intros s; [reflexivity|]. cbn [length seq combine map fst snd]. rewrite IH.
    f_equal. unfold slf_node_line. now rewrite Hg. }
  rewrite G by reflexivity. reflexivity.
Qed.

(** What reading the SLF output gives *)
Lemma read_back_slf c i a r tokens dropped : number_text parse_int parse_float show_num -> lattice_ok a ->
  (forall l w, In l (a_links a) -> k_word l = Some w -> plain w /\ is_null_word w = false) -> quotable (utterance_of i a) ->
  dec c a = Ok (tokens, dropped) -> rescored_lattice state v (named i a) tokens dropped = Ok r ->
  exists b, read_slf parse_int parse_float nlog (write_slf show_num (with_scales c r)) = Ok b /\ lattice_ok b /\
    a_links b = map (fun l => mkLink (k_start l) (k_end l) (k_word l) (k_ac l) (k_lm l) []) (a_links r) /\
    a_initial b = a_initial r /\ length (a_nodes b) = length (a_nodes r) /\ (forall j, is_final_node b j = is_final_node r j) /\
    a_utterance b = Some (utterance_of i a) /\ a_lm_scale b = c_lm_scale c /\ a_wi_penalty b = c_wi_penalty c.
Proof.
  intros Nt Ha Hw Hq E Er.
  destruct (C28_decoded_tokens _ _ _ _ _ _ _ _ _ _ _ _ Hv Hnet Ha E) as (Ne & _).
  assert (Ha' : lattice_ok (named i a)) by (unfold named; destruct a as [ns ls ini [u|] s w]; exact Ha).
  assert (El : a_links (named i a) = a_links a) by (unfold named; destruct a as [ns ls ini [u|] s w]; reflexivity).
  destruct (rescored_graph _ _ _ _ _ _ Ha' Ne Er) as (Hok & Hu & Hk & fin & Hf & Hn).
  rewrite <- (write_incoming (with_scales c r)).
  assert (Nn : forall j nd, nth_error (a_nodes (with_incoming (with_scales c r))) j = Some nd ->
            exists m, nth_error (a_nodes r) j = Some m /\ n_out nd = n_out m /\ n_final nd = n_final m).
  { intros j nd Hj. unfold with_incoming in Hj. cbn [a_nodes with_scales] in Hj. rewrite nth_error_map in Hj.
    destruct (nth_error (combine _ (a_nodes r)) j) as [x|] eqn:Ex; cbn [option_map] in Hj; [|discriminate]. injection Hj as <-.
    apply nth_combine_seq in Ex as [_ Ex]. exists (snd x). auto. }
  assert (Ln : length (a_nodes (with_incoming (with_scales c r))) = length (a_nodes r)).
  { unfold with_incoming. cbn [a_nodes with_scales]. rewrite map_length, combine_length, seq_length. lia. }
  assert (W : slf_writable (with_incoming (with_scales c r))).
  { split.
    - exact Hok.
    - exists (utterance_of i a). split; [|exact Hq]. cbn [a_utterance with_incoming with_scales]. rewrite Hu. apply named_utterance.
    - intros l w Hl E'. cbn [a_links with_incoming with_scales] in Hl. destruct (Hk l Hl) as [E0|(l0 & Hl0 & E0)]; [congruence|].
      rewrite El in Hl0. apply (Hw l0); congruence.
    - exists fin. rewrite Ln. split; [exact Hf|]. intros j nd Hj. destruct (Nn j nd Hj) as (m & Hm & E1 & E2).
      rewrite E1, E2. destruct (Hn j m Hm) as (H1 & H2 & _). auto. }
  eexists. split; [apply slf_round_trip; assumption|].
  assert (Fin : forall j, is_final_node (without_transitions (with_incoming (with_scales c r))) j = is_final_node r j).
  { intros j. unfold is_final_node. cbn [a_nodes without_transitions].
    destruct (nth_error (a_nodes (with_incoming (with_scales c r))) j) as [nd|] eqn:Ej.
    - destruct (Nn j nd Ej) as (m & -> & _ & ->). reflexivity.
    - apply nth_error_None in Ej. rewrite Ln in Ej. apply nth_error_None in Ej. now rewrite Ej. }
  split; [|split; [reflexivity|split; [reflexivity|split; [exact Ln|split; [exact Fin|split; [|split; reflexivity]]]]]].
  - destruct (C24_read_consistent _ _ _ _ _ (slf_round_trip parse_int parse_float nlog show_num Nt _ W)) as [X _]. exact X.
  - cbn [a_utterance without_transitions with_incoming with_scales]. rewrite Hu. apply named_utterance.
Qed.
End Command.
