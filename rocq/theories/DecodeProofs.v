(** Invariants of lattice decoding. *)
From Coq Require Import QArith Qcanon Sorting.Sorted Sorting.Permutation.
From Verif Require Import Base ListLib BaseLib QcLib Strings VocabModel VocabSpec VocabProofs VocabBuild VocabStats
     ScoreModel ScoreSpec ScoreProofs LatticeModel LatticeSpec SortProofs GraphProofs SlfProofs DecoderModel DecoderSpec
     DecoderProofs PruneProofs.
Local Open Scope nat_scope.

Lemma Forall2_right {A B} (R : A -> B -> Prop) l l' y : Forall2 R l l' -> In y l' -> exists x, In x l /\ R x y.
Proof.
  induction 1 as [|a b l l' H _ IH]; intros Hy; [destruct Hy|].
  destruct Hy as [<-|Hy]; [exists a; split; [now left|exact H]|].
  destruct (IH Hy) as (x & Hx & Rx). exists x. split; [now right|exact Rx].
Qed.
Lemma Forall2_left {A B} (R : A -> B -> Prop) l l' x : Forall2 R l l' -> In x l -> exists y, In y l' /\ R x y.
Proof.
  induction 1 as [|a b l l' H _ IH]; intros Hx; [destruct Hx|].
  destruct Hx as [<-|Hx]; [exists b; split; [now left|exact H]|].
  destruct (IH Hx) as (y & Hy & Ry). exists y. split; [now right|exact Ry].
Qed.

Section Decode.
Variable state : Type.
Variable initial_state : state.
Variable net_step : list (nat * nat * nat * state) -> list (Qc * state).
Variable f : nat * nat * nat * state -> Qc * state.
Variable ln : Qc -> Qc.
Variable lin : Qc -> Qc -> Qc -> Qc.
Variable hash : list hword -> Z.
Variable v : vocabulary.
Variable o : options.
Hypothesis Hv : reachable_vocab v.
Hypothesis Hnet : step_independent v net_step f.
Variables sos eos unk : nat.
Hypothesis Hsos : word_to_id v SOS = Some sos.
Hypothesis Heos : word_to_id v EOS = Some eos.
Hypothesis Hunk : word_to_id v UNK = Some unk.
Variable oos : option (list lp).
Hypothesis Hoos : decoder_oos ln v o = Ok oos.
Variable a : lattice.
Hypothesis Ha : lattice_ok a.
Variable sorted : list nat.
Hypothesis Hsorted : sorted_nodes a = Ok sorted.

Notation token := (token state).
Notation dstate := (dstate state).
Notation nodes := (a_nodes a).
Notation links := (a_links a).
Notation ini := (a_initial a).
Notation scale := (scale_of o a).
Notation penalty := (penalty_of o a).
Notation hypothesis_on := (hypothesis_on state initial_state f ln lin v o a).
Notation hypothesis_at := (hypothesis_at state initial_state f ln lin v o a).
Notation finished := (finished state lin hash o a).
Notation step_of := (step_of state f ln lin hash v o a eos).
Notation prune := (prune state o nodes sorted).
Notation propagate := (propagate state net_step ln lin hash v o unk eos oos scale penalty).
Notation decode_link := (decode_link state net_step ln lin hash v o nodes links sorted unk eos oos scale penalty).
Notation decode_node := (decode_node state net_step ln lin hash v o nodes links sorted unk eos oos scale penalty).

Definition good (place : option nat) (t : token) : Prop :=
  finished t /\ exists p, hypothesis_at place p t.

Definition dropped_ok (x : dropped state) : Prop :=
  let '(t, h, nn) := x in
  exists place k, good place t /\ good place k /\ tk_hash _ k = tk_hash _ t /\
    tk_history _ k = h /\ tk_nn _ k = nn /\ (tk_total _ t <= tk_total _ k)%Qc.

Record inv (st : dstate) : Prop := {
  in_length : length (d_tokens _ st) = length nodes;
  in_good : forall i tokens t, nth_error (d_tokens _ st) i = Some tokens -> In t tokens -> good (Some i) t;
  in_dropped : Forall dropped_ok (d_recomb _ st)
}.

Lemma good_history place t : good place t -> tk_history _ t <> [].
Proof.
  intros [_ [p H]].
  assert (G : exists q c, hypothesis_on q c t) by (destruct place; destruct H; eauto).
  destruct G as (q & c & G). destruct (hy_words _ _ _ _ _ _ _ _ _ _ _ G) as (s & e & _ & _ & E & _).
  cbv zeta in E. rewrite E. discriminate.
Qed.

Lemma recombined_ok place tokens rc kept rc' :
  (forall t, In t tokens -> good place t) -> Forall dropped_ok rc ->
  sorted_recombined state tokens rc = (kept, rc') -> Forall dropped_ok rc'.
Proof.
  intros Hg Hrc E. pose proof E as E0. apply sorted_recombined_spec in E as (new & -> & _ & _ & P & C & _).
  apply Forall_app. split; [exact Hrc|]. rewrite Forall_forall in *. intros [[t h] nn] Hx.
  destruct (C _ Hx) as (k & H1 & H2 & H3 & H4 & H5). exists place, k.
  split; [|split; [|auto]].
  - apply Hg. eapply Permutation_in; [symmetry; exact P|]. apply in_or_app. right.
    apply in_map_iff. exists (t, h, nn). auto.
  - apply Hg. eapply recombined_In; eassumption.
Qed.

Lemma prune_inv i st st' : inv st -> prune i st = Ok st' -> inv st'.
Proof.
  intros I E. apply prune_spec in E as (tokens & rec & new & kept & gone & divider & Et & _ & Er & Ek & _ & -> & _).
  pose proof (in_good _ I) as G. constructor; cbn [d_tokens d_best d_recomb].
  - rewrite upd_length. apply (in_length _ I).
  - intros j ts t Hj Ht. rewrite nth_error_upd in Hj. destruct (Nat.eqb_spec j i) as [->|Hne].
    + destruct (i <? length (d_tokens _ st)); [|discriminate]. injection Hj as <-.
      apply (G i tokens); [exact Et|]. eapply recombined_In; [exact Er|]. rewrite Ek. apply in_or_app. now left.
    + eapply G; eassumption.
  - eapply recombined_ok; [|apply (in_dropped _ I)|exact Er]. intros t Ht. eapply G; eassumption.
Qed.

Lemma good_link i l t t' : k_start l = i -> In l links -> good (Some i) t -> step_of (Some l) t t' ->
  good (Some (k_end l)) t'.
Proof.
  intros El Hl [Ft [p [Hp Hh]]] S. split; [apply S|]. exists (p ++ [l]). split.
  - constructor; [now rewrite El|exact Hl].
  - eapply hypothesis_link; eassumption.
Qed.
Lemma good_end i t t' : is_final_node a i = true -> good (Some i) t -> step_of None t t' -> good None t'.
Proof.
  intros Hf [Ft [p [Hp Hh]]] S. split; [apply S|]. exists p. split; [eauto|].
  eapply hypothesis_end; eassumption.
Qed.

Lemma propagate_steps tokens l new : (forall t, In t tokens -> exists place, good place t) ->
  propagate tokens l = Ok new -> Forall2 (step_of l) tokens new.
Proof.
  intros G E. eapply propagate_spec; try eassumption.
  intros t Ht. destruct (G t Ht) as [place Hg]. eapply good_history; eassumption.
Qed.

Lemma decode_link_split i node_tokens st k st' : inv st ->
  (forall t, In t node_tokens -> good (Some i) t) ->
  (forall l, nth_error links k = Some l -> k_start l = i) ->
  decode_link node_tokens st k = Ok st' ->
  exists l new old st1, nth_error links k = Some l /\ Forall2 (step_of (Some l)) node_tokens new /\
    nth_error (d_tokens _ st) (k_end l) = Some old /\
    d_tokens _ st1 = upd (d_tokens _ st) (k_end l) (old ++ new) /\ d_recomb _ st1 = d_recomb _ st /\
    inv st1 /\ (st' = st1 \/ prune (k_end l) st1 = Ok st') /\ (o_max_tokens o = None -> st' = st1).
Proof.
  intros I G Hk. unfold DecoderModel.decode_link. unfold py_index at 1.
  destruct (nth_error links k) as [l|] eqn:El; cbn [bind]; [|discriminate].
  destruct (propagate node_tokens (Some l)) as [new|] eqn:Ep; cbn [bind]; [|discriminate].
  apply propagate_steps in Ep; [|eauto].
  unfold py_index at 1. destruct (nth_error (d_tokens _ st) (k_end l)) as [old|] eqn:Eo; cbn [bind]; [|discriminate].
  unfold py_index. destruct (nth_error (d_best _ st) (k_end l)) as [best|]; cbn [bind]; [|discriminate].
  set (st1 := mkDstate state (upd (d_tokens _ st) (k_end l) (old ++ new))
                     (upd (d_best _ st) (k_end l) (fold_left (better state) new best)) (d_recomb _ st)).
  assert (I1 : inv st1).
  { constructor; cbn [st1 d_tokens d_recomb].
    - rewrite upd_length. apply (in_length _ I).
    - intros j ts t Hj Ht. rewrite nth_error_upd in Hj. destruct (Nat.eqb_spec j (k_end l)) as [->|Hne].
      + destruct (k_end l <? length (d_tokens _ st)); [|discriminate]. injection Hj as <-.
        apply in_app_or in Ht as [Ht|Ht]; [eapply (in_good _ I); eassumption|].
        destruct (Forall2_right _ _ _ _ Ep Ht) as (t0 & Ht0 & S).
        eapply good_link; [apply Hk; reflexivity|eapply nth_error_In; exact El|apply G; exact Ht0|exact S].
      + eapply (in_good _ I); eassumption.
    - apply (in_dropped _ I). }
  intros E. exists l, new, old, st1. split; [reflexivity|]. split; [exact Ep|]. split; [exact Eo|].
  split; [reflexivity|]. split; [reflexivity|]. split; [exact I1|].
  destruct (o_max_tokens o) as [m|].
  - split; [|discriminate]. destruct (2 * m <? _)%Z; [right; exact E|left; congruence].
  - split; [left; congruence|congruence].
Qed.

Lemma decode_link_inv i node_tokens st k st' : inv st ->
  (forall t, In t node_tokens -> good (Some i) t) ->
  (forall l, nth_error links k = Some l -> k_start l = i) ->
  decode_link node_tokens st k = Ok st' -> inv st'.
Proof.
  intros I G Hk E. destruct (decode_link_split _ _ _ _ _ I G Hk E) as (l & new & old & st1 & _ & _ & _ & _ & _ & I1 & [->|E1] & _).
  - exact I1.
  - eapply prune_inv; eassumption.
Qed.

Lemma foldM_inv_In {S A} (P : S -> Prop) (g : S -> A -> result S) l : forall s s',
  (forall s x s', In x l -> P s -> g s x = Ok s' -> P s') -> P s -> foldM g l s = Ok s' -> P s'.
Proof.
  induction l as [|x l IH]; intros s s' Hf Hs; cbn [foldM].
  - intros E. injection E as <-. exact Hs.
  - destruct (g s x) as [s1|] eqn:E; cbn [bind]; [|discriminate]. apply IH.
    + intros s0 y s2 Hy. apply Hf. now right.
    + apply (Hf s x); [now left|exact Hs|exact E].
Qed.

Lemma out_start i n k l : nth_error nodes i = Some n -> In k (n_out n) -> nth_error links k = Some l -> k_start l = i.
Proof.
  intros Hn Hk Hl. rewrite (go_out _ _ (proj1 Ha) _ _ Hn) in Hk. apply links_from_In in Hk as (l' & E1 & E2). congruence.
Qed.

(** A node is processed in these steps. *)
Lemma decode_node_split st final i st' final' : inv st ->
  decode_node (st, final) i = Ok (st', final') ->
  exists st1 node_tokens n new, prune i st = Ok st1 /\ inv st1 /\
    nth_error (d_tokens _ st1) i = Some node_tokens /\ node_tokens <> [] /\
    (forall t, In t node_tokens -> good (Some i) t) /\
    nth_error nodes i = Some n /\ final' = final ++ new /\
    (if n_final n then Forall2 (step_of None) node_tokens new else new = []) /\
    foldM (decode_link node_tokens) (n_out n) st1 = Ok st' /\ inv st'.
Proof.
  intros I. unfold DecoderModel.decode_node.
  destruct (prune i st) as [st1|] eqn:Ep; cbn [bind]; [|discriminate].
  pose proof (prune_inv _ _ _ I Ep) as I1.
  unfold py_index at 1. destruct (nth_error (d_tokens _ st1) i) as [ts|] eqn:Et; cbn [bind]; [|discriminate].
  destruct ts as [|t0 ts0] eqn:Ets; [discriminate|]. rewrite <- Ets in *.
  assert (Hne : ts <> []) by (rewrite Ets; discriminate). clear Ets t0 ts0.
  unfold py_index at 1. destruct (nth_error nodes i) as [n|] eqn:En; cbn [bind]; [|discriminate].
  destruct (if n_final n then propagate ts None else Ok []) as [new|] eqn:Enew; cbn [bind]; [|discriminate].
  destruct (foldM _ (n_out n) st1) as [st2|] eqn:Ef; cbn [bind]; [|discriminate].
  intros [= <- <-].
  assert (G : forall t, In t ts -> good (Some i) t) by (intros t Ht; eapply (in_good _ I1); eassumption).
  exists st1, ts, n, new. repeat (split; [assumption||reflexivity|]). split; [|split; [exact Ef|]].
  - destruct (n_final n); [|congruence]. apply propagate_steps in Enew; [exact Enew|eauto].
  - revert Ef. apply (foldM_inv_In inv); [|exact I1].
    intros s k s' Hk Is E. eapply decode_link_inv; [exact Is|exact G| |exact E].
    intros l Hl. eapply out_start; eassumption.
Qed.

Definition inv2 (x : dstate * list token) : Prop :=
  inv (fst x) /\ forall t, In t (snd x) -> good None t.

Lemma decode_node_inv x i x' : inv2 x -> decode_node x i = Ok x' -> inv2 x'.
Proof.
  destruct x as [st final], x' as [st' final']. intros [I F] E. cbn [fst snd] in *.
  destruct (decode_node_split _ _ _ _ _ I E) as (st1 & ts & n & new & _ & _ & _ & _ & G & En & -> & Hnew & _ & I').
  split; [exact I'|]. cbn [snd]. intros t Ht. apply in_app_or in Ht as [Ht|Ht]; [auto|].
  destruct (n_final n) eqn:Ef; [|subst new; destruct Ht].
  destruct (Forall2_right _ _ _ _ Hnew Ht) as (t0 & Ht0 & S).
  eapply good_end; [|apply G; exact Ht0|exact S]. unfold is_final_node. now rewrite En.
Qed.

(** The initial state *)
Definition initial_token : token :=
  finish_token state lin hash o scale penalty [inl sos] initial_state 0%Qc 0%Qc 0%Qc.
Definition initial_dstate : dstate :=
  mkDstate state (upd (repeat [] (length nodes)) ini [initial_token])
           (upd (repeat None (length nodes)) ini (Some (tk_total _ initial_token))) [].

Lemma initial_good : good (Some ini) initial_token.
Proof.
  assert (F : finished initial_token) by (apply finish_finished; discriminate).
  split; [exact F|]. exists []. split; [constructor|]. destruct F as (F1 & F2 & _).
  constructor; [|reflexivity|reflexivity|exact F1|exact F2].
  exists sos, eos. split; [exact Hsos|]. split; [exact Heos|]. split; [reflexivity|].
  exists [], (inl sos). split; [constructor|reflexivity].
Qed.
Lemma initial_nth i tokens : nth_error (d_tokens _ initial_dstate) i = Some tokens ->
  tokens = if i =? ini then [initial_token] else [].
Proof.
  cbn [initial_dstate d_tokens]. rewrite nth_error_upd. destruct (i =? ini).
  - destruct (_ <? _); congruence.
  - intros H. apply nth_error_In, repeat_spec in H. exact H.
Qed.
Lemma initial_inv : inv initial_dstate.
Proof.
  constructor.
  - cbn [initial_dstate d_tokens]. now rewrite upd_length, repeat_length.
  - intros i ts t Hi Ht. apply initial_nth in Hi. destruct (Nat.eqb_spec i ini) as [->|]; subst ts.
    + destruct Ht as [<-|[]]. apply initial_good.
    + destruct Ht.
  - constructor.
Qed.

Lemma decode_split tokens dropped :
  decode state initial_state net_step ln lin hash v o a = Ok (tokens, dropped) ->
  exists st final, foldM decode_node sorted (initial_dstate, []) = Ok (st, final) /\ final <> [] /\
    sorted_recombined state final (d_recomb _ st) = (tokens, dropped) /\ inv2 (st, final).
Proof.
  unfold decode. rewrite Hoos. cbn [bind]. unfold required_id. rewrite Hsos, Heos, Hunk. cbn [bind].
  rewrite Hsorted. cbn [bind]. fold initial_token. fold initial_dstate.
  destruct (foldM _ sorted (initial_dstate, [])) as [[st final]|] eqn:E; cbn [bind]; [|discriminate].
  destruct final as [|t0 ts0] eqn:Ef; [discriminate|]. rewrite <- Ef in *. intros [= E'].
  exists st, final. split; [reflexivity|]. split; [rewrite Ef; discriminate|]. split; [exact E'|].
  revert E. apply (foldM_inv inv2).
  - intros s i s' Hs. apply decode_node_inv. exact Hs.
  - split; [apply initial_inv|intros ? []].
Qed.

Lemma recent_ok h : exists r, recent o h r /\ recombination_hash hash o h = hash r.
Proof.
  unfold recent, recombination_hash. destruct (o_order o) as [n|]; [|eauto].
  exists (py_suffix h n). split; [|reflexivity]. unfold py_suffix.
  destruct (Z.ltb_spec 0 n) as [Hn|Hn].
  - exists (firstn (length h - Z.to_nat n) h). rewrite firstn_skipn. split; [reflexivity|]. left. split; [exact Hn|].
    rewrite skipn_length. destruct (Nat.le_gt_cases (Z.to_nat n) (length h)) as [L|L]; [left; lia|right].
    split; [|lia]. replace (length h - Z.to_nat n) with 0 by lia. reflexivity.
  - exists (firstn (Z.to_nat (- n)) h). rewrite firstn_skipn. split; [reflexivity|]. right. split; [exact Hn|].
    destruct (Nat.le_gt_cases (Z.to_nat (- n)) (length h)) as [L|L].
    + left. now apply firstn_length_le.
    + right. split; [apply skipn_all2; lia|]. rewrite firstn_length. lia.
Qed.

Lemma decode_sound tokens dropped :
  decode state initial_state net_step ln lin hash v o a = Ok (tokens, dropped) ->
  (forall t, In t tokens -> good None t) /\
  (forall t h nn, In (t, h, nn) dropped -> recombined_into state initial_state f ln lin v o hash a t h nn) /\
  tokens <> [] /\ by_total state tokens /\
  NoDup (map (fun t => recombination_hash hash o (tk_history _ t)) tokens).
Proof.
  intros E. destruct (decode_split _ _ E) as (st & final & _ & Hne & Er & I & F). cbn [fst snd] in *.
  assert (G : forall t, In t tokens -> good None t).
  { intros t Ht. apply F. eapply recombined_In; eassumption. }
  split; [exact G|]. split; [|split; [|split]].
  - intros t h nn Hd. pose proof (recombined_ok None _ _ _ _ F (in_dropped _ I) Er) as D.
    rewrite Forall_forall in D. destruct (D _ Hd) as (place & k & [Ft [p Hp]] & [Fk [q Hq]] & H1 & H2 & H3 & H4).
    destruct (recent_ok (tk_history _ t)) as (r & R1 & R2). destruct (recent_ok h) as (r' & R3 & R4).
    exists place, p, q, k, r, r'. repeat (split; [assumption|]).
    destruct Ft as (_ & _ & Ft), Fk as (_ & _ & Fk). congruence.
  - apply sorted_recombined_spec in Er as (new & _ & _ & _ & _ & _ & H). now apply H.
  - now apply sorted_recombined_spec in Er as (new & _ & H & _).
  - apply sorted_recombined_spec in Er as (new & _ & _ & H & _).
    erewrite map_ext_in; [exact H|]. intros t Ht. cbv beta. symmetry. apply (G t Ht).
Qed.

(** ** Without pruning *)
Hypothesis Hbeam : o_beam o = None.
Hypothesis Hmax : o_max_tokens o = None.
Hypothesis Horder : o_order o = None.
Hypothesis Hlin : o_linear o = false.
Hypothesis Hhash : no_collisions state initial_state f ln lin v o hash a.
Hypothesis Hini : forall u, ~ edge a u ini.

(** The path is represented by a token with the same history and a total that is at
    least as high. *)
Definition rep_by (p : list link) (complete : bool) (t : token) : Prop :=
  exists h, hypothesis_on p complete h /\ tk_history _ h = tk_history _ t /\ (tk_total _ h <= tk_total _ t)%Qc.
Definition rep (st : dstate) (p : list link) (i : nat) : Prop :=
  exists tokens t, nth_error (d_tokens _ st) i = Some tokens /\ In t tokens /\ rep_by p false t.

Lemma good_hash place place' t k : good place t -> good place' k -> tk_hash _ k = tk_hash _ t ->
  tk_history _ k = tk_history _ t.
Proof.
  intros [(_ & _ & Ft) [p Hp]] [(_ & _ & Fk) [q Hq]] E. apply Hhash.
  - exists place', q, k. auto.
  - exists place, p, t. auto.
  - unfold recombination_hash in *. rewrite Horder in *. congruence.
Qed.

Lemma rep_by_le p c t k : rep_by p c t -> tk_history _ k = tk_history _ t -> (tk_total _ t <= tk_total _ k)%Qc -> rep_by p c k.
Proof.
  intros (h & H1 & H2 & H3) E L. exists h. split; [exact H1|]. split; [congruence|]. eapply Qcle_trans; eassumption.
Qed.

Lemma prune_rep i st st' p j : inv st -> prune i st = Ok st' -> rep st p j -> rep st' p j.
Proof.
  intros I E (ts & t & Hj & Ht & R).
  apply prune_spec in E as (tokens & rec & new & kept & gone & divider & Et & _ & Er & Ek & _ & -> & Hg & _).
  rewrite (Hg Hbeam Hmax), app_nil_r in Ek. subst kept.
  unfold rep. cbn [d_tokens]. rewrite nth_error_upd. destruct (Nat.eqb_spec j i) as [->|Hne].
  - assert (L : i < length (d_tokens _ st)) by (apply nth_error_Some; congruence).
    rewrite (proj2 (Nat.ltb_lt _ _) L). assert (ts = tokens) by congruence. subst ts.
    destruct (recombined_cover _ _ _ _ _ _ Er Ht) as (k & Hk & H1 & H2).
    exists rec, k. split; [reflexivity|]. split; [exact Hk|]. eapply rep_by_le; [exact R| |exact H2].
    eapply good_hash; [| |exact H1]; eapply (in_good _ I); [exact Et|exact Ht|exact Et|].
    eapply recombined_In; eassumption.
  - exists ts, t. auto.
Qed.

Lemma state_unique ws : forall ws' xs xs' last last' st st',
  map fst ws = map fst ws' ->
  network_scores state initial_state f ln v o sos ws xs last st ->
  network_scores state initial_state f ln v o sos ws' xs' last' st' -> last = last' /\ st = st'.
Proof.
  intros ws' xs xs' last last' st st' E H. revert ws' xs' last' st' E.
  induction H as [|ws xs last st w oov x st1 H IH Hn]; intros ws' xs' last' st' E G.
  - inversion G as [E0|ws2 xs2 last2 st2 w2 oov2 x2 st3 G2 Gn E0]; subst; [auto|].
    rewrite map_app in E. destruct (map fst ws2); discriminate.
  - inversion G as [E0|ws2 xs2 last2 st2 w2 oov2 x2 st3 G2 Gn E0]; subst.
    + rewrite map_app in E. destruct (map fst ws); discriminate.
    + rewrite !map_app in E. cbn [map fst] in E. apply app_inj_tail in E as [E ->].
      destruct (IH _ _ _ _ E G2) as [-> ->]. split; [reflexivity|].
      destruct Hn as [s k p s' k' p' q t c d y N1 N2 N3 _ _ _], Gn as [r l m r' l' m' q2 t2 c2 d2 y2 M1 M2 M3 _ _ _].
      destruct (seen_word_unique _ _ _ _ _ _ _ _ N1 M1) as (<- & <- & _).
      destruct (seen_word_unique _ _ _ _ _ _ _ _ N2 M2) as (_ & <- & _). congruence.
Qed.

Lemma hypothesis_state p q c t h : hypothesis_on p c t -> hypothesis_on q c h ->
  tk_history _ h = tk_history _ t -> tk_state _ h = tk_state _ t.
Proof.
  intros H G E. destruct (hy_words _ _ _ _ _ _ _ _ _ _ _ H) as (s & e & Es & Ee & Hh & xs & last & Hx & _).
  destruct (hy_words _ _ _ _ _ _ _ _ _ _ _ G) as (s' & e' & Es' & Ee' & Gh & ys & last' & Gx & _). cbv zeta in *.
  assert (s = sos) by congruence. assert (s' = sos) by congruence. subst s s'.
  assert (e = e') by congruence. subst e'.
  assert (EE : map fst (path_words v o p ++ (if c then [(inl e, None)] else [])) =
               map fst (path_words v o q ++ (if c then [(inl e, None)] else []))) by congruence.
  destruct (state_unique _ _ _ _ _ _ _ _ EE Hx Gx) as [_ ->]. reflexivity.
Qed.

(** What a step adds to a total does not depend on the scores so far. *)
Lemma steps_total words ac lat t t' h h' : finished t -> finished h ->
  steps state f ln lin hash v o a words ac lat t t' -> steps state f ln lin hash v o a words ac lat h h' ->
  tk_history _ h = tk_history _ t -> tk_history _ h' = tk_history _ t' ->
  (tk_nn _ t' - tk_nn _ t = tk_nn _ h' - tk_nn _ h)%Qc ->
  (tk_total _ t' - tk_total _ t = tk_total _ h' - tk_total _ h)%Qc.
Proof.
  intros (T1 & T2 & _) (K1 & K2 & _) (S1 & S2 & (F1 & F2 & _) & _) (S3 & S4 & (F3 & F4 & _) & _) E E' N.
  unfold interpolated in *. rewrite Hlin in *.
  rewrite F2, F4, T2, K2, F1, F3, T1, K1, S1, S2, S3, S4, E, E'.
  assert (tk_nn _ t' = tk_nn _ t + (tk_nn _ h' - tk_nn _ h))%Qc as -> by (rewrite <- N; ring).
  ring.
Qed.

Lemma rep_step eos_or_link p t t' :
  rep_by p false t -> (exists i, good (Some i) t) -> step_of eos_or_link t t' ->
  rep_by (match eos_or_link with Some l => p ++ [l] | None => p end)
         (match eos_or_link with Some _ => false | None => true end) t'.
Proof.
  intros (h & Hh & Eh & Lh) (i & [Ft [q [Hq Hhq]]]) S.
  assert (Fh : finished (mkToken state (tk_history _ h) (tk_state _ h) (tk_ac _ h) (tk_lat _ h) (tk_nn _ h)
                          (recombination_hash hash o (tk_history _ h)) (tk_graph _ h) (tk_total _ h))).
  { split; [apply (hy_graph _ _ _ _ _ _ _ _ _ _ _ Hh)|]. split; [apply (hy_total _ _ _ _ _ _ _ _ _ _ _ Hh)|reflexivity]. }
  assert (Lh0 : (tk_total _ (mkToken state (tk_history _ h) (tk_state _ h) (tk_ac _ h) (tk_lat _ h) (tk_nn _ h)
                          (recombination_hash hash o (tk_history _ h)) (tk_graph _ h) (tk_total _ h)) <= tk_total _ t)%Qc)
    by exact Lh.
  set (h0 := mkToken state (tk_history _ h) (tk_state _ h) (tk_ac _ h) (tk_lat _ h) (tk_nn _ h)
                          (recombination_hash hash o (tk_history _ h)) (tk_graph _ h) (tk_total _ h)) in *.
  assert (Hh0 : hypothesis_on p false h0) by (destruct Hh; constructor; assumption).
  assert (Eh0 : tk_history _ h0 = tk_history _ t) by exact Eh.
  pose proof (hypothesis_state _ _ _ _ _ Hhq Hh0 Eh0) as Es. clearbody h0.
  assert (W : exists words ac lat, step_of eos_or_link = steps state f ln lin hash v o a words ac lat).
  { destruct eos_or_link; cbn [DecoderProofs.step_of]; eauto. }
  destruct W as (words & ac & lat & W). rewrite W in S.
  set (h' := finish_token state lin hash o scale penalty (tk_history _ t') (tk_state _ t')
               (tk_ac _ h0 + ac)%Qc (tk_lat _ h0 + lat)%Qc (tk_nn _ h0 + (tk_nn _ t' - tk_nn _ t))%Qc).
  assert (Hne : tk_history _ t' <> []).
  { destruct S as (_ & _ & _ & S). pose proof (good_history (Some i) t) as G.
    assert (good (Some i) t) by (split; [exact Ft|]; exists q; split; assumption).
    destruct words as [|[w oov] [|]]; [destruct S as (-> & _); auto| |destruct S].
    destruct S as (-> & _). destruct (tk_history _ t); discriminate. }
  assert (S' : steps state f ln lin hash v o a words ac lat h0 h').
  { split; [reflexivity|]. split; [reflexivity|]. split; [now apply finish_finished|].
    destruct S as (_ & _ & _ & S). cbn [h' finish_token tk_history tk_state tk_nn].
    destruct words as [|[w oov] [|]]; [| |destruct S].
    - destruct S as (A1 & A2 & A3). split; [|split]; [congruence|congruence|]. rewrite A3. ring.
    - destruct S as (A1 & pre & last & y & A2 & A3 & A4). split; [congruence|]. exists pre, last, y.
      split; [congruence|]. split; [now rewrite Es|]. rewrite A4. ring. }
  exists h'. split; [|split].
  - destruct eos_or_link as [l|]; cbn [DecoderProofs.step_of] in W; rewrite <- W in S'.
    + eapply hypothesis_link; eassumption.
    + eapply hypothesis_end; eassumption.
  - reflexivity.
  - assert (D : (tk_total _ t' - tk_total _ t = tk_total _ h' - tk_total _ h0)%Qc).
    { eapply steps_total; [exact Ft|exact Fh|exact S|exact S'|exact Eh0|reflexivity|].
      cbn [h' finish_token tk_nn]. ring. }
    replace (tk_total _ h') with (tk_total _ h0 + (tk_total _ t' - tk_total _ t))%Qc by (rewrite D; ring).
    replace (tk_total _ t') with (tk_total _ t + (tk_total _ t' - tk_total _ t))%Qc at 2 by ring.
    apply Qcplus_le_compat; [exact Lh0|apply Qcle_refl].
Qed.

Lemma link_rep i node_tokens st k st' : inv st ->
  (forall t, In t node_tokens -> good (Some i) t) ->
  (forall l, nth_error links k = Some l -> k_start l = i) ->
  decode_link node_tokens st k = Ok st' ->
  (forall p j, rep st p j -> rep st' p j) /\
  forall l p t, nth_error links k = Some l -> In t node_tokens -> rep_by p false t -> rep st' (p ++ [l]) (k_end l).
Proof.
  intros I G Hk E. destruct (decode_link_split _ _ _ _ _ I G Hk E) as (l & new & old & st1 & El & F & Eo & E1 & _ & _ & _ & Es).
  specialize (Es Hmax). subst st'. split.
  - intros p j (ts & t & Hj & Ht & R). unfold rep. rewrite E1, nth_error_upd.
    destruct (Nat.eqb_spec j (k_end l)) as [->|Hne]; [|eauto].
    assert (L : k_end l < length (d_tokens _ st)) by (apply nth_error_Some; congruence).
    rewrite (proj2 (Nat.ltb_lt _ _) L). exists (old ++ new), t. split; [reflexivity|].
    split; [|exact R]. apply in_or_app. left. congruence.
  - intros l' p t El' Ht R. assert (l' = l) by congruence. subst l'.
    destruct (Forall2_left _ _ _ _ F Ht) as (t' & Ht' & S).
    unfold rep. rewrite E1, nth_error_upd, Nat.eqb_refl.
    assert (L : k_end l < length (d_tokens _ st)) by (apply nth_error_Some; congruence).
    rewrite (proj2 (Nat.ltb_lt _ _) L). exists (old ++ new), t'. split; [reflexivity|].
    split; [apply in_or_app; now right|].
    apply (rep_step (Some l) p t t'); eauto.
Qed.

Lemma links_rep i node_tokens ks : (forall t, In t node_tokens -> good (Some i) t) ->
  (forall k l, In k ks -> nth_error links k = Some l -> k_start l = i) ->
  forall st st', inv st -> foldM (decode_link node_tokens) ks st = Ok st' ->
  (forall p j, rep st p j -> rep st' p j) /\
  forall k l p t, In k ks -> nth_error links k = Some l -> In t node_tokens -> rep_by p false t -> rep st' (p ++ [l]) (k_end l).
Proof.
  intros G. induction ks as [|k ks IH]; intros Hk st st' I; cbn [foldM].
  - intros [= <-]. split; [auto|]. intros ? ? ? ? [].
  - destruct (decode_link node_tokens st k) as [st1|] eqn:E; cbn [bind]; [|discriminate]. intros E'.
    assert (Hk0 : forall l, nth_error links k = Some l -> k_start l = i) by (intros l; apply Hk; now left).
    pose proof (decode_link_inv _ _ _ _ _ I G Hk0 E) as I1.
    destruct (link_rep _ _ _ _ _ I G Hk0 E) as [A B].
    destruct (IH (fun k' l Hk' => Hk k' l (or_intror Hk')) _ _ I1 E') as [C D].
    split; [auto|]. intros k' l p t [<-|Hk'] El Ht R; [|now apply (D k' l p t)].
    apply C. now apply (B l p t).
Qed.

(** Paths of which the last link has been followed *)
Definition arrived (done : list nat) (p : list link) (i : nat) : Prop :=
  path a ini p i /\ (p = [] \/ exists p' l, p = p' ++ [l] /\ In (k_start l) done).
Definition inv3 (done : list nat) (x : dstate * list token) : Prop :=
  inv2 x /\ (forall p i, arrived done p i -> rep (fst x) p i) /\
  forall p i, path a ini p i -> In i done -> is_final_node a i = true -> exists t, In t (snd x) /\ rep_by p true t.

Lemma path_inv p i : path a ini p i -> (p = [] /\ i = ini) \/
  exists p' l, p = p' ++ [l] /\ path a ini p' (k_start l) /\ In l links /\ i = k_end l.
Proof. destruct 1 as [j|j p l H Hl]; [auto|right; eauto 10]. Qed.

Lemma node_rep done x i x' : (i = ini \/ forall u, edge a u i -> In u done) ->
  inv3 done x -> decode_node x i = Ok x' -> inv3 (done ++ [i]) x'.
Proof.
  intros Hpred (I & R & F) E. pose proof (decode_node_inv _ _ _ I E) as I'. split; [exact I'|].
  destruct x as [st final], x' as [st' final']. cbn [fst snd] in *. destruct I as [I _]. cbn [fst] in I.
  destruct (decode_node_split _ _ _ _ _ I E) as (st1 & ts & n & new & Ep & I1 & Et & _ & G & En & -> & Hnew & Ef & I2).
  assert (Hall : forall p, path a ini p i -> exists t, In t ts /\ rep_by p false t).
  { intros p Hp.
    assert (A : arrived done p i).
    { split; [exact Hp|]. apply path_inv in Hp as [[-> _]|(p' & l & -> & _ & Hl & ->)]; [now left|right].
      exists p', l. split; [reflexivity|]. assert (De : edge a (k_start l) (k_end l)) by (exists l; auto).
      destruct Hpred as [Hi|Hu]; [|auto]. exfalso. rewrite Hi in De. exact (Hini _ De). }
    apply R in A. apply (prune_rep _ _ _ _ _ I Ep) in A. destruct A as (ts' & t & H1 & H2 & H3).
    assert (ts' = ts) by congruence. subst ts'. eauto. }
  assert (Hout : forall k l, In k (n_out n) -> nth_error links k = Some l -> k_start l = i).
  { intros k l Hk Hl. eapply out_start; eassumption. }
  destruct (links_rep _ _ _ G Hout _ _ I1 Ef) as [A B].
  split.
  - intros p j [Hp Hd]. apply path_inv in Hp as [[-> ->]|(p' & l & -> & Hp' & Hl & ->)].
    + apply A. apply (prune_rep _ _ _ _ _ I Ep). apply R. split; [constructor|now left].
    + destruct Hd as [Hd|(p'' & l' & E2 & Hd)]; [destruct p'; discriminate|].
      apply app_inj_tail in E2 as [<- <-]. apply in_app_or in Hd as [Hd|[Hd|[]]].
      * apply A. apply (prune_rep _ _ _ _ _ I Ep). apply R. split; [now constructor|right; eauto].
      * rewrite <- Hd in Hp'. destruct (Hall _ Hp') as (t & Ht & Rt).
        apply In_nth_error in Hl as [k Hl]. apply (B k l p' t); auto.
        rewrite (go_out _ _ (proj1 Ha) _ _ En). apply links_from_In. eauto.
  - intros p j Hp Hd Hf. apply in_app_or in Hd as [Hd|[<-|[]]].
    + destruct (F p j Hp Hd Hf) as (t & Ht & Rt). exists t. split; [apply in_or_app; now left|exact Rt].
    + destruct (Hall _ Hp) as (t & Ht & Rt). unfold is_final_node in Hf. rewrite En in Hf. rewrite Hf in Hnew.
      destruct (Forall2_left _ _ _ _ Hnew Ht) as (t' & Ht' & S). exists t'. split; [apply in_or_app; now right|].
      apply (rep_step None p t t'); eauto.
Qed.

Lemma nodes_rep l : forall done x x', sorted = done ++ l -> inv3 done x ->
  foldM decode_node l x = Ok x' -> inv3 sorted x'.
Proof.
  induction l as [|i l IH]; intros done x x' E I; cbn [foldM].
  - intros [= <-]. rewrite app_nil_r in E. now subst.
  - destruct (decode_node x i) as [x1|] eqn:E1; cbn [bind]; [|discriminate]. apply (IH (done ++ [i])).
    + now rewrite <- app_assoc.
    + apply (node_rep _ x); [|exact I|exact E1].
      destruct (sorted_nodes_ok a Ha sorted Hsorted) as (_ & [t Et] & _ & _ & Hp & _).
      destruct done as [|d done]; [left; cbn [app] in E; congruence|right].
      apply (Hp _ _ _ E). discriminate.
Qed.

Lemma decode_complete tokens dropped p i :
  decode state initial_state net_step ln lin hash v o a = Ok (tokens, dropped) ->
  path a ini p i -> orderable a i -> is_final_node a i = true ->
  exists t h, In t tokens /\ hypothesis_on p true h /\ tk_history _ t = tk_history _ h /\
              (tk_total _ h <= tk_total _ t)%Qc.
Proof.
  intros E Hp Ho Hf. destruct (decode_split _ _ E) as (st & final & E1 & _ & E2 & [_ Gf]). cbn [snd] in Gf.
  assert (I0 : inv3 [] (initial_dstate, [])).
  { split; [split; [apply initial_inv|intros ? []]|]. split; [|intros ? ? ? []]. cbn [fst].
    intros q j [Hq [->|(q' & l & _ & [])]]. apply path_inv in Hq as [[_ ->]|(q' & l & Eq & _)]; [|destruct q'; discriminate].
    exists [initial_token], initial_token. split; [|split; [now left|]].
    - cbn [initial_dstate d_tokens]. rewrite nth_error_upd, Nat.eqb_refl, repeat_length.
      now rewrite (proj2 (Nat.ltb_lt _ _) (proj2 Ha)).
    - exists initial_token. split; [|split; [reflexivity|apply Qcle_refl]].
      destruct initial_good as [_ [q [Hq H]]]. 
      apply path_inv in Hq as [[-> _]|(q' & l & -> & Hq' & Hl & Eq)]; [exact H|].
      exfalso. apply (Hini (k_start l)). exists l. auto. }
  pose proof (nodes_rep sorted [] _ _ eq_refl I0 E1) as (_ & _ & F).
  assert (Hs : In i sorted).
  { destruct (sorted_nodes_ok a Ha sorted Hsorted) as (_ & _ & _ & H & _). now apply H. }
  destruct (F p i Hp Hs Hf) as (t & Ht & (h & H1 & H2 & H3)). cbn [snd] in Ht.
  destruct (recombined_cover _ _ _ _ _ _ E2 Ht) as (k & Hk & K1 & K2).
  assert (Eh : tk_history _ k = tk_history _ t).
  { eapply good_hash; [apply Gf; exact Ht| |exact K1]. apply Gf. eapply recombined_In; eassumption. }
  exists k, h. split; [exact Hk|]. split; [exact H1|]. split; [congruence|]. eapply Qcle_trans; eassumption.
Qed.
End Decode.
