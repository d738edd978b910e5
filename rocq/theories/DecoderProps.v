(** Properties of lattice decoding. *)
From Coq Require Import QArith Qcanon Sorting.Sorted Sorting.Permutation.
From Verif Require Import Base ListLib BaseLib QcLib Strings VocabModel VocabSpec VocabProofs VocabBuild VocabStats VocabProps
     ScoreModel ScoreSpec ScoreProofs ScoreProps LatticeModel LatticeSpec SortProofs GraphProofs SlfProofs LatticeExamples LatticeProps
     DecoderModel DecoderSpec DecoderProofs PruneProofs DecodeProofs DecodeTotal DecoderExamples.
Local Open Scope nat_scope.

Lemma decode_parts {state} (initial_state : state) net_step ln lin hash v o a r :
  decode state initial_state net_step ln lin hash v o a = Ok r ->
  exists sos eos unk oos sorted, word_to_id v SOS = Some sos /\ word_to_id v EOS = Some eos /\
    word_to_id v UNK = Some unk /\ decoder_oos ln v o = Ok oos /\ sorted_nodes a = Ok sorted.
Proof.
  unfold decode. destruct (decoder_oos ln v o) as [oos|] eqn:E1; cbn [bind]; [|discriminate].
  unfold required_id. destruct (word_to_id v SOS) as [sos|] eqn:E2; cbn [bind]; [|discriminate].
  destruct (word_to_id v EOS) as [eos|] eqn:E3; cbn [bind]; [|discriminate].
  destruct (word_to_id v UNK) as [unk|] eqn:E4; cbn [bind]; [|discriminate].
  destruct (sorted_nodes a) as [sorted|] eqn:E5; cbn [bind]; [|discriminate].
  intros _. exists sos, eos, unk, oos, sorted. auto.
Qed.

(** ** C26: hypotheses are paths *)

(** Every token that decoding returns is the hypothesis of a path of the lattice
    from the initial node to a final node, with the words and scores of that path,
    whatever the options, and so is every token that was dropped in recombination,
    up to the node (or the end) where it was dropped. *)
Theorem C26_hypotheses_are_paths : forall state (initial_state : state) net_step f ln lin hash v o a tokens dropped,
  reachable_vocab v -> step_independent v net_step f -> lattice_ok a ->
  decode state initial_state net_step ln lin hash v o a = Ok (tokens, dropped) ->
  (forall t, In t tokens -> exists p, hypothesis_at state initial_state f ln lin v o a None p t) /\
  (forall t h nn, In (t, h, nn) dropped ->
     exists place p, hypothesis_at state initial_state f ln lin v o a place p t).
Proof.
  intros state initial_state net_step f ln lin hash v o a tokens dropped Hv Hnet Ha E.
  destruct (decode_parts _ _ _ _ _ _ _ _ _ E) as (sos & eos & unk & oos & sorted & E1 & E2 & E3 & E4 & E5).
  eapply decode_sound in E as (G & D & _); try eassumption. split.
  - intros t Ht. apply (G t Ht).
  - intros t h nn Hd. destruct (D _ _ _ Hd) as (place & p & q' & k & r & r' & H & _). eauto.
Qed.
Print Assumptions C26_hypotheses_are_paths.

(** The scores are determined by the path. *)
Theorem C26_scores_of_a_path : forall state (initial_state : state) f ln lin v o a p complete t t',
  hypothesis_on state initial_state f ln lin v o a p complete t ->
  hypothesis_on state initial_state f ln lin v o a p complete t' ->
  tk_history _ t = tk_history _ t' /\ tk_state _ t = tk_state _ t' /\ tk_ac _ t = tk_ac _ t' /\
  tk_lat _ t = tk_lat _ t' /\ tk_nn _ t = tk_nn _ t' /\ tk_graph _ t = tk_graph _ t' /\ tk_total _ t = tk_total _ t'.
Proof.
  intros state initial_state f ln lin v o a p complete t t' [W A L G T] [W' A' L' G' T'].
  destruct W as (sos & eos & E1 & E2 & H1 & xs & last & H2 & H3).
  destruct W' as (sos' & eos' & E1' & E2' & H1' & xs' & last' & H2' & H3').
  assert (sos' = sos) by congruence. assert (eos' = eos) by congruence. subst sos' eos'.
  destruct (network_scores_unique _ _ _ _ lin _ _ _ _ _ _ _ _ _ _ H2 H2') as (<- & _ & Es).
  assert (Eh : tk_history _ t = tk_history _ t') by congruence.
  assert (Ea : tk_ac _ t = tk_ac _ t') by congruence.
  assert (El : tk_lat _ t = tk_lat _ t') by congruence.
  assert (En : tk_nn _ t = tk_nn _ t') by congruence.
  assert (Eg : tk_graph _ t = tk_graph _ t') by (rewrite G, G', Eh, En, El; reflexivity).
  refine (conj Eh (conj Es (conj Ea (conj El (conj En (conj Eg _)))))). now rewrite T, T', Ea, Eg.
Qed.
Print Assumptions C26_scores_of_a_path.

Definition summary (r : result (list (token nat) * list (dropped nat))) : option (list (list hword * Q) * nat) :=
  match r with
  | Ok (ts, d) => Some (map (fun t => (tk_history _ t, this (tk_total _ t))) ts, length d)
  | Err _ => None
  end.
Example C26_example : reachable_vocab ex_vocab /\ step_independent ex_vocab ex_net_step ex_step /\ lattice_ok ex_lattice /\
  summary (decode nat 0 ex_net_step ex_ln ex_lin ex_hash ex_vocab ex_options ex_lattice) =
    Some ([([inl 4; inl 2; inl 5], (-842 # 45)%Q); ([inl 4; inl 1; inl 5], (-66607 # 3465)%Q);
           ([inl 4; inl 0; inl 5], (-7046 # 315)%Q)], 0) /\
  summary (decode nat 0 ex_net_step ex_ln ex_lin ex_hash ex_vocab ex_pruning ex_lattice) =
    Some ([([inl 4; inl 1; inl 5], (-85087 # 13860)%Q)], 1).
Proof.
  split; [apply ex_vocab_reachable|]. split; [apply ex_step_independent|]. split; [apply ex_lattice_ok|].
  split; vm_compute; reflexivity.
Qed.

(** ** C27: optimality without pruning *)

(** Without beam, limit of tokens and recombination order, with log-linear
    interpolation, a hash that tells the histories of the lattice apart, and no link
    to the initial node: for each path to a final node (which the decoder visits)
    there is a hypothesis, and a returned token with the same words and at least
    the same total. *)
Theorem C27_no_word_sequence_is_lost :
  forall state (initial_state : state) net_step f ln lin hash v o a tokens dropped p i,
  reachable_vocab v -> step_independent v net_step f -> lattice_ok a ->
  o_beam o = None -> o_max_tokens o = None -> o_order o = None -> o_linear o = false ->
  no_collisions state initial_state f ln lin v o hash a ->
  (forall u, ~ edge a u (a_initial a)) ->
  decode state initial_state net_step ln lin hash v o a = Ok (tokens, dropped) ->
  path a (a_initial a) p i -> orderable a i -> is_final_node a i = true ->
  exists t h, In t tokens /\ hypothesis_on state initial_state f ln lin v o a p true h /\
    tk_history _ t = tk_history _ h /\ (tk_total _ h <= tk_total _ t)%Qc.
Proof.
  intros state initial_state net_step f ln lin hash v o a tokens dropped p i Hv Hnet Ha H1 H2 H3 H4 H5 H6 E Hp Ho Hf.
  destruct (decode_parts _ _ _ _ _ _ _ _ _ E) as (sos & eos & unk & oos & sorted & E1 & E2 & E3 & E4 & E5).
  eapply decode_complete; eassumption.
Qed.
Print Assumptions C27_no_word_sequence_is_lost.

(** In a lattice without cycles and unreachable nodes, the first token is the
    hypothesis of a complete path, and no complete path has a better total. *)
Theorem C27_first_token_is_best :
  forall state (initial_state : state) net_step f ln lin hash v o a tokens dropped,
  reachable_vocab v -> step_independent v net_step f -> lattice_ok a ->
  o_beam o = None -> o_max_tokens o = None -> o_order o = None -> o_linear o = false ->
  no_collisions state initial_state f ln lin v o hash a ->
  ~ cyclic a -> (forall i, i < length (a_nodes a) -> reachable_node a i) ->
  decode state initial_state net_step ln lin hash v o a = Ok (tokens, dropped) ->
  exists first rest best_path, tokens = first :: rest /\
    hypothesis_at state initial_state f ln lin v o a None best_path first /\
    forall p h, hypothesis_at state initial_state f ln lin v o a None p h -> (tk_total _ h <= tk_total _ first)%Qc.
Proof.
  intros state initial_state net_step f ln lin hash v o a tokens dropped Hv Hnet Ha H1 H2 H3 H4 H5 Hc Hr E.
  destruct (decode_parts _ _ _ _ _ _ _ _ _ E) as (sos & eos & unk & oos & sorted & E1 & E2 & E3 & E4 & E5).
  pose proof E as E'. eapply decode_sound in E' as (G & _ & Hne & S & _); try eassumption.
  destruct tokens as [|first rest]; [congruence|]. destruct (G first (or_introl eq_refl)) as [_ [bp Hbp]].
  exists first, rest, bp. split; [reflexivity|]. split; [exact Hbp|].
  intros p h [(i & Hp & Hf) Hh].
  assert (Hi : i < length (a_nodes a)).
  { unfold is_final_node in Hf. destruct (nth_error (a_nodes a) i) eqn:En; [|discriminate].
    apply nth_error_Some. congruence. }
  assert (Hini : forall u, ~ edge a u (a_initial a)).
  { intros u He. apply Hc. destruct (Hr u) as [->|Hw].
    - destruct He as (l & Hl & <- & _). now apply (go_range _ _ (proj1 Ha)).
    - exists (a_initial a). now apply walk_edge.
    - exists (a_initial a). eapply walk_trans; [exact Hw|]. now apply walk_edge. }
  destruct (C27_no_word_sequence_is_lost state initial_state net_step f ln lin hash v o a _ _ p i Hv Hnet Ha H1 H2 H3 H4 H5 Hini E Hp)
    as (t & h' & Ht & Hh' & _ & Le); [now apply acyclic_orderable|exact Hf|].
  destruct (C26_scores_of_a_path _ _ _ _ _ _ _ _ _ _ _ _ Hh Hh') as (_ & _ & _ & _ & _ & _ & ->).
  eapply Qcle_trans; [exact Le|]. destruct Ht as [<-|Ht]; [apply Qcle_refl|].
  apply StronglySorted_inv in S as [_ S]. rewrite Forall_forall in S. now apply S.
Qed.
Print Assumptions C27_first_token_is_best.

Example C27_example : o_beam ex_options = None /\ o_max_tokens ex_options = None /\
  o_order ex_options = None /\ o_linear ex_options = false /\
  no_collisions nat 0 ex_step ex_ln ex_lin ex_vocab ex_options ex_hash ex_lattice /\
  ~ cyclic ex_lattice /\ (forall i, i < length (a_nodes ex_lattice) -> reachable_node ex_lattice i) /\
  exists tokens dropped, decode nat 0 ex_net_step ex_ln ex_lin ex_hash ex_vocab ex_options ex_lattice = Ok (tokens, dropped).
Proof.
  destruct C20_example as (_ & H1 & H2 & _).
  refine (conj eq_refl (conj eq_refl (conj eq_refl (conj eq_refl (conj _ (conj H1 (conj H2 _))))))).
  - intros h h' _ _. apply ex_hash_inj.
  - destruct C26_example as (_ & _ & _ & E & _).
    destruct (decode _ _ _ _ _ _ _ ex_options _) as [[ts d]|]; [eauto|discriminate].
Qed.

(** ** C28: recombination *)

Lemma app_inj_length {A} (u u' r r' : list A) : length u = length u' -> u ++ r = u' ++ r' -> r = r'.
Proof.
  revert u'. induction u as [|x u IH]; intros [|y u'] L E; cbn in *; try discriminate; [exact E|].
  injection E as _ E. apply (IH u'); [lia|exact E].
Qed.
Lemma recent_unique o h r r' : recent o h r -> recent o h r' -> r = r'.
Proof.
  unfold recent. destruct (o_order o) as [n|]; [|congruence].
  intros (u & E & H) (u' & E' & H'). subst h. apply (app_inj_length _ _ _ _) in E' as Hr; [exact Hr|].
  pose proof (f_equal (@length hword) E') as L. rewrite !app_length in L.
  destruct H as [[Hn [H|[-> H]]]|[Hn [H|[-> H]]]], H' as [[Hn' [H'|[-> H']]]|[Hn' [H'|[-> H']]]]; cbn [length] in *; lia.
Qed.

(** Recombining a list of tokens: it is split to kept tokens, in descending order of
    total, no two of them with the same hash, and dropped tokens, each with the
    history and network score of a kept token with the same hash and at least the
    same total. *)
Theorem C28_recombination : forall state tokens before kept after,
  sorted_recombined state tokens before = (kept, after) ->
  exists dropped, after = before ++ dropped /\
    Permutation tokens (kept ++ map (fun x => fst (fst x)) dropped) /\
    StronglySorted (fun x y => (tk_total _ y <= tk_total _ x)%Qc) kept /\ NoDup (map (tk_hash _) kept) /\
    forall t h nn, In (t, h, nn) dropped -> exists k, In k kept /\ tk_hash _ k = tk_hash _ t /\
      tk_history _ k = h /\ tk_nn _ k = nn /\ (tk_total _ t <= tk_total _ k)%Qc.
Proof.
  intros state tokens before kept after E. apply sorted_recombined_spec in E as (new & H1 & H2 & H3 & H4 & H5 & _).
  exists new. refine (conj H1 (conj H4 (conj H2 (conj H3 _)))).
  intros t h nn Hd. rewrite Forall_forall in H5. exact (H5 _ Hd).
Qed.
Print Assumptions C28_recombination.

(** Decoding returns tokens in descending order of total, and no two of them have
    the same recent history. Each dropped token arrived at a place where it was not
    better than a hypothesis with the history and score that are recorded with it. *)
Theorem C28_decoded_tokens : forall state (initial_state : state) net_step f ln lin hash v o a tokens dropped,
  reachable_vocab v -> step_independent v net_step f -> lattice_ok a ->
  decode state initial_state net_step ln lin hash v o a = Ok (tokens, dropped) ->
  tokens <> [] /\ StronglySorted (fun x y => (tk_total _ y <= tk_total _ x)%Qc) tokens /\
  (forall i j t u r, nth_error tokens i = Some t -> nth_error tokens j = Some u ->
     recent o (tk_history _ t) r -> recent o (tk_history _ u) r -> i = j) /\
  forall t h nn, In (t, h, nn) dropped -> recombined_into state initial_state f ln lin v o hash a t h nn.
Proof.
  intros state initial_state net_step f ln lin hash v o a tokens dropped Hv Hnet Ha E.
  destruct (decode_parts _ _ _ _ _ _ _ _ _ E) as (sos & eos & unk & oos & sorted & E1 & E2 & E3 & E4 & E5).
  eapply decode_sound in E as (G & D & Hne & S & N); try eassumption.
  split; [exact Hne|]. split; [exact S|]. split; [|exact D].
  intros i j t u r Hi Hj Ri Rj.
  assert (Hash : forall h, recent o h r -> recombination_hash hash o h = hash r).
  { intros h Hh. destruct (recent_ok hash o h) as (r' & R1 & ->). f_equal. eapply recent_unique; eassumption. }
  rewrite NoDup_nth_error in N. apply N.
  - rewrite map_length. apply nth_error_Some. congruence.
  - rewrite !nth_error_map, Hi, Hj. cbn [option_map]. now rewrite (Hash _ Ri), (Hash _ Rj).
Qed.
Print Assumptions C28_decoded_tokens.

(** ** C29: pruning *)

(** What pruning keeps at a node: the tokens are split to those kept, those pruned
    and those dropped in recombination. Kept tokens are at least as good as pruned
    tokens. No more than the limit is kept; a pruned token is either not better than
    the beam allows, or the limit is used up; the other kept tokens than the first
    are better than the beam allows. The best token is kept if the limit is at least
    one. Tokens of other nodes do not change. *)
Theorem C29_pruning : forall state o nodes sorted i (st st' : dstate state),
  prune state o nodes sorted i st = Ok st' ->
  exists tokens kept pruned merged,
    nth_error (d_tokens _ st) i = Some tokens /\ nth_error (d_tokens _ st') i = Some kept /\
    (forall j, j <> i -> nth_error (d_tokens _ st') j = nth_error (d_tokens _ st) j) /\
    Permutation tokens (kept ++ pruned ++ merged) /\
    StronglySorted (fun x y => (tk_total _ y <= tk_total _ x)%Qc) (kept ++ pruned) /\
    NoDup (map (tk_hash _) (kept ++ pruned)) /\
    (forall t, In t merged -> exists k, In k (kept ++ pruned) /\ tk_hash _ k = tk_hash _ t /\
       (tk_total _ t <= tk_total _ k)%Qc) /\
    (forall limit, token_limit o (length sorted) = Some limit -> (0 <= limit)%Z ->
       (Z.of_nat (length kept) <= limit)%Z) /\
    (let full := exists limit, token_limit o (length sorted) = Some limit /\
                   ((0 <= limit)%Z -> Z.of_nat (length kept) = limit) in
     match beam_width o (length sorted) with
     | None => pruned = [] \/ full
     | Some width => exists b best,
         beam_begins nodes sorted i b /\ is_best_from (d_best _ st) sorted b best /\
         (forall t, In t (tl kept) -> (best - width < tk_total _ t)%Qc) /\
         forall t, In t pruned -> (tk_total _ t <= best - width)%Qc \/ full
     end) /\
    ((forall limit, token_limit o (length sorted) = Some limit -> (1 <= limit)%Z) ->
     exists k, In k kept /\ forall t, In t tokens -> (tk_total _ t <= tk_total _ k)%Qc).
Proof.
  intros state o nodes sorted i st st' E. pose proof (prune_exact state o nodes sorted i st st' E)
    as (tokens & rec & kept & gone & divider & H1 & H2 & H3 & H4 & H5 & H6 & H7).
  apply prune_spec in E as (tokens' & rec' & new & kept' & gone' & dv & T1 & T2 & T3 & T4 & T5 & T6 & T7 & T8).
  apply sorted_recombined_spec in H3 as (new' & _ & S & N & P & C & Ne).
  exists tokens, kept, gone, (map (fun x => fst (fst x)) new').
  assert (Ed : divider = divided_by o (length sorted)).
  { revert H5. unfold limit_divider, divided_by. destruct (o_extra_limit o) as [[|e|e]|]; congruence. }
  assert (El : token_limit o (length sorted) =
               match o_max_tokens o with None => None | Some m => Some (Z.max (m / divider) (abs_min_max_tokens o)) end).
  { unfold token_limit, abs_min_max_tokens. rewrite Ed. reflexivity. }
  assert (Cov : forall t, In t (map (fun x => fst (fst x)) new') -> exists k, In k (kept ++ gone) /\
     tk_hash _ k = tk_hash _ t /\ (tk_total _ t <= tk_total _ k)%Qc).
  { intros t Ht. apply in_map_iff in Ht as ([[x h] nn] & <- & Hx). rewrite Forall_forall in C.
    destruct (C _ Hx) as (k & K1 & K2 & _ & _ & K3). exists k. rewrite <- H4. auto. }
  subst rec. refine (conj H1 (conj H2 (conj _ (conj _ (conj S (conj N (conj Cov (conj _ (conj _ _))))))))).
  - intros j Hj. rewrite T6. cbn [d_tokens]. rewrite nth_error_upd. destruct (Nat.eqb_spec j i); congruence.
  - rewrite app_assoc. exact P.
  - rewrite El. intros limit. destruct (o_max_tokens o) as [m|]; [|discriminate]. intros [= <-]. now apply H6.
  - cbv zeta. rewrite El. unfold beam_width. rewrite <- Ed. destruct (o_beam o) as [beam|].
    + destruct H7 as (b & best & th & B1 & B2 & B3 & B4 & B5). cbv zeta in B3. unfold abs_min_beam in B3.
      exists b, best. cbv zeta. rewrite <- B3. refine (conj B1 (conj B2 (conj B4 _))).
      intros t Ht. destruct (B5 t Ht) as [L|(m & -> & L)]; [now left|right]. eauto.
    + destruct H7 as [G|(m & -> & L)]; [now left|right; eauto].
  - rewrite El. intros Hl.
    assert (Hk : kept <> []).
    { assert (kept' = kept). { rewrite T6 in H2. cbn [d_tokens] in H2. rewrite nth_error_upd, Nat.eqb_refl in H2.
        destruct (i <? _); congruence. }
      subst kept'. apply T8. destruct (o_max_tokens o) as [m|] eqn:Em; [right|now left].
      exists m. split; [reflexivity|]. assert (dv = divider) by congruence. subst dv. now apply Hl. }
    destruct kept as [|k kept]; [congruence|]. exists k. split; [now left|].
    assert (Top : forall t, In t ((k :: kept) ++ gone) -> (tk_total _ t <= tk_total _ k)%Qc).
    { intros t [<-|Ht]; [apply Qcle_refl|]. cbn [app] in S. apply StronglySorted_inv in S as [_ S].
      rewrite Forall_forall in S. now apply S. }
    intros t Ht. apply (Permutation_in _ P) in Ht. apply in_app_or in Ht as [Ht|Ht]; [now apply Top|].
    destruct (Cov t Ht) as (k' & K1 & _ & K2). eapply Qcle_trans; [exact K2|now apply Top].
Qed.
Print Assumptions C29_pruning.

(** The best total that the beam is measured from: following a link to a node records
    the best of the earlier total and those of the new tokens, pruned or not. *)
Theorem C29_best_recorded :
  forall state net_step (v : vocabulary) o ln lin hash nodes links sorted unk eos oos lm_scale wi_penalty node_tokens
         (st st' : dstate state) k,
  decode_link state net_step ln lin hash v o nodes links sorted unk eos oos lm_scale wi_penalty node_tokens st k = Ok st' ->
  exists l new prev next,
    nth_error links k = Some l /\
    propagate state net_step ln lin hash v o unk eos oos lm_scale wi_penalty node_tokens (Some l) = Ok new /\
    nth_error (d_best _ st) (k_end l) = Some prev /\ nth_error (d_best _ st') (k_end l) = Some next /\
    (forall j, j <> k_end l -> nth_error (d_best _ st') j = nth_error (d_best _ st) j) /\
    (next = None -> prev = None /\ new = []) /\
    forall m, next = Some m ->
      (prev = Some m \/ exists t, In t new /\ tk_total _ t = m) /\
      (forall x, prev = Some x -> (x <= m)%Qc) /\ (forall t, In t new -> (tk_total _ t <= m)%Qc).
Proof.
  intros state net_step v o ln lin hash nodes links sorted unk eos oos lm_scale wi_penalty node_tokens st st' k.
  unfold decode_link. unfold py_index at 1. destruct (nth_error links k) as [l|] eqn:El; cbn [bind]; [|discriminate].
  destruct (propagate _ _ _ _ _ _ _ _ _ _ _ _ node_tokens (Some l)) as [new|] eqn:Ep; cbn [bind]; [|discriminate].
  unfold py_index at 1. destruct (nth_error (d_tokens _ st) (k_end l)) as [old|] eqn:Eo; cbn [bind]; [|discriminate].
  unfold py_index. destruct (nth_error (d_best _ st) (k_end l)) as [prev|] eqn:Eb; cbn [bind]; [|discriminate].
  set (st1 := mkDstate state (upd (d_tokens _ st) (k_end l) (old ++ new))
                     (upd (d_best _ st) (k_end l) (fold_left (better state) new prev)) (d_recomb _ st)).
  intros E. assert (Ed : d_best _ st' = d_best _ st1).
  { destruct (o_max_tokens o) as [m|]; [|congruence].
    destruct (2 * m <? _)%Z; [|congruence].
    apply prune_spec in E as (tokens' & rec' & new' & kept' & gone' & dv & T1 & T2 & T3 & T4 & T5 & T6 & _).
    rewrite T6. reflexivity. }
  exists l, new, prev, (fold_left (better state) new prev).
  split; [reflexivity|]. split; [exact Ep|]. split; [exact Eb|].
  assert (Lb : k_end l < length (d_best _ st)) by (apply nth_error_Some; congruence).
  rewrite Ed. unfold st1. cbn [d_best]. split; [now rewrite nth_error_upd, Nat.eqb_refl, (proj2 (Nat.ltb_lt _ _) Lb)|].
  split; [intros j Hj; rewrite nth_error_upd; destruct (Nat.eqb_spec j (k_end l)); [congruence|reflexivity]|].
  clear. revert prev. induction new as [|t new IH]; intro prev; cbn [fold_left].
  - split; [auto|]. intros m ->. split; [now left|]. split; [intros x [= <-]; apply Qcle_refl|intros t []].
  - destruct (IH (better state prev t)) as [H1 H2].
    assert (B : exists b, better state prev t = Some b /\ (prev = Some b \/ tk_total _ t = b) /\
               (forall x, prev = Some x -> (x <= b)%Qc) /\ (tk_total _ t <= b)%Qc).
    { unfold better. destruct prev as [b|]; [destruct (Qclt_le_dec b (tk_total state t)) as [L|L]|].
      - exists (tk_total state t). split; [reflexivity|]. split; [now right|].
        split; [intros x [= <-]; now apply Qclt_le_weak|apply Qcle_refl].
      - exists b. split; [reflexivity|]. split; [now left|]. split; [intros x [= <-]; apply Qcle_refl|exact L].
      - exists (tk_total state t). split; [reflexivity|]. split; [now right|]. split; [discriminate|apply Qcle_refl]. }
    destruct B as (b & Eb & B1 & B2 & B3). rewrite Eb in *. split; [intro N; destruct (H1 N); discriminate|].
    intros m Em. destruct (H2 m Em) as (K1 & K2 & K3). specialize (K2 b eq_refl).
    split; [|split].
    + destruct K1 as [[= <-]|(u & Hu & <-)]; [|right; exists u; split; [now right|reflexivity]].
      destruct B1 as [->|<-]; [now left|right; exists t; split; [now left|reflexivity]].
    + intros x Hx. eapply Qcle_trans; [apply B2, Hx|exact K2].
    + intros u [<-|Hu]; [eapply Qcle_trans; [exact B3|exact K2]|apply K3, Hu].
Qed.
Print Assumptions C29_best_recorded.

(** Decoding a lattice without cycles and unreachable nodes, whatever the beam, with
    a limit of at least one token, never runs out of tokens: it fails only if there
    is no final node or if a score is infinite. *)
Theorem C29_decoding_succeeds :
  forall state (initial_state : state) net_step f ln lin hash v o a,
  reachable_vocab v -> step_independent v net_step f -> lattice_ok a ->
  ~ cyclic a -> (forall i, i < length (a_nodes a) -> reachable_node a i) ->
  o_extra_limit o <> Some 0%Z ->
  (forall limit, token_limit o (length (a_nodes a)) = Some limit -> (1 <= limit)%Z) ->
  (exists tokens dropped, decode state initial_state net_step ln lin hash v o a = Ok (tokens, dropped) /\ tokens <> []) \/
  decode state initial_state net_step ln lin hash v o a = Err NumberError \/
  (decode state initial_state net_step ln lin hash v o a = Err InputError /\
   forall i, is_final_node a i = false).
Proof.
  intros state initial_state net_step f ln lin hash v o a Hv Hnet Ha Hc Hr He Hl.
  destruct (acyclic_sorted a Ha Hc Hr) as (sorted & E & L).
  destruct (vocab_specials v UNK Hv) as (unk & Hunk & _); [apply special_cases|].
  destruct (vocab_specials v SOS Hv) as (sos & Hsos & _); [apply special_cases|].
  destruct (vocab_specials v EOS Hv) as (eos & Heos & _); [apply special_cases|].
  assert (Ho : exists oos, decoder_oos ln v o = Ok oos).
  { unfold decoder_oos. destruct (o_use_shortlist o); [|eauto]. destruct (oos_logprobs_ok ln v Hv) as [Eo _]. rewrite Eo.
    destruct (v_unigram v); eauto. }
  destruct Ho as [oos Ho].
  assert (Hd : limit_divider o (length sorted) = Ok (divided_by o (length (a_nodes a)))).
  { unfold limit_divider, divided_by. rewrite L. destruct (o_extra_limit o) as [[|e|e]|]; congruence. }
  destruct (decode_total state initial_state net_step f ln lin hash v o Hv Hnet sos eos unk Hsos Heos Hunk oos Ho a Ha sorted E L _ Hd)
    as [(tokens & dropped & D)|H]; [|left|right; exact H].
  - intros m Hm. apply Hl. unfold token_limit. rewrite Hm. reflexivity.
  - exists tokens, dropped. split; [exact D|].
    now apply (C28_decoded_tokens state initial_state net_step f) in D.
Qed.
Print Assumptions C29_decoding_succeeds.

Example C29_example : o_extra_limit ex_pruning <> Some 0%Z /\
  (forall limit, token_limit ex_pruning (length (a_nodes ex_lattice)) = Some limit -> (1 <= limit)%Z).
Proof.
  split; [discriminate|]. intros limit E. assert (token_limit ex_pruning 4 = Some 2%Z) by (vm_compute; reflexivity).
  cbn [length ex_lattice a_nodes ex_nodes] in E. assert (limit = 2%Z) by congruence. lia.
Qed.

(** If the limits are divided according to the size of the lattice, a small limit
    becomes zero, and decoding fails although there are tokens. *)
Definition ex_divided : options :=
  mkOptions (q 1 2) None None None false false false (Some 2%Z) None None (Some 1%Z) 0%Qc 0%Z.
Theorem C29_divided_limit_refuted :
  lattice_ok ex_lattice /\ ~ cyclic ex_lattice /\ o_max_tokens ex_divided = Some 2%Z /\
  decode nat 0 ex_net_step ex_ln ex_lin ex_hash ex_vocab ex_divided ex_lattice = Err AssertionError.
Proof.
  split; [apply ex_lattice_ok|]. split; [apply C20_example|]. split; [reflexivity|]. vm_compute. reflexivity.
Qed.
Print Assumptions C29_divided_limit_refuted.
