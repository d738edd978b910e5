(** C68: training on the data that the trainer really reads. *)
From Coq Require Import QArith Qcanon Permutation Qabs Lqa.
From Verif Require Import Base ListLib BaseLib QcLib Strings TextModel TextSpec TextProofs IterModel IterSpec IterProofs ShuffleProofs
  TrainerModel TrainerSpec TrainerProofs TrainerRuns TrainerStops TrainerSegments TrainerResume TrainerProps
  TrainerSim TrainDataModel TrainDataSpec TrainDataProofs TrainDataRuns TrainDataUse IterWitness.
Local Open Scope nat_scope.

Lemma rounded_unique q count a b : rounded q count a -> rounded q count b -> a = b.
Proof.
  unfold rounded. cbv zeta. set (x := (q * inject_Z (Z.of_nat count))%Q).
  assert (Hle : forall a b, a < b -> (Qabs (inject_Z (Z.of_nat a) - x) <= 1 # 2)%Q /\ ((Qabs (inject_Z (Z.of_nat a) - x) == 1 # 2)%Q -> Nat.Even a) ->
    (Qabs (inject_Z (Z.of_nat b) - x) <= 1 # 2)%Q /\ ((Qabs (inject_Z (Z.of_nat b) - x) == 1 # 2)%Q -> Nat.Even b) -> False).
  { clear a b. intros a b Hab [A1 A2] [B1 B2]. apply Qabs_Qle_condition in A1 as [A3 A4]. apply Qabs_Qle_condition in B1 as [B3 B4].
    set (za := inject_Z (Z.of_nat a)) in *. set (zb := inject_Z (Z.of_nat b)) in *.
    assert (Hz : (za + 1 <= zb)%Q).
    { unfold za, zb, Qle, Qplus, inject_Z; cbn. lia. }
    assert (E : (zb == za + 1)%Q) by lra. assert (Ea : (za - x == - (1 # 2))%Q) by lra. assert (Eb : (zb - x == 1 # 2)%Q) by lra.
    assert (Heq : b = S a).
    { unfold za, zb, Qeq, Qplus, inject_Z in E; cbn in E. lia. }
    assert (Ev1 : Nat.Even a) by (apply A2; rewrite Ea; reflexivity).
    assert (Ev2 : Nat.Even b) by (apply B2; rewrite Eb; reflexivity).
    subst b. apply Nat.Even_succ in Ev2. exact (Nat.Even_Odd_False _ Ev1 Ev2). }
  intros Ha Hb. destruct (Nat.lt_trichotomy a b) as [H|[H|H]]; [destruct (Hle a b H Ha Hb)|exact H|destruct (Hle b a H Hb Ha)].
Qed.
Lemma sizes_for_unique lss sampling s1 : sizes_for lss sampling s1 -> forall s2, sizes_for lss sampling s2 -> s1 = s2.
Proof.
  induction 1 as [fr|lines lss sizes H IH|lines lss fraction fr size sizes Hr H IH]; intros s2 H2; inversion H2; subst; [reflexivity| |].
  - f_equal. now apply IH.
  - f_equal; [eapply rounded_unique; eauto|now apply IH].
Qed.

Lemma lines_linesf files lss : file_lines files lss -> lss = map linesf files.
Proof. induction 1 as [|d l fs lss Hl H IH]; cbn; [reflexivity|]. now rewrite IH, (lines_of_functional _ _ _ Hl (linesf_lines d)). Qed.

(** ** The epochs *)
Theorem C68_epochs : forall choice shuffle10 files lss ls ss sampling batch_size max_len,
  choice_contract choice -> shuffle_contract shuffle10 ->
  file_lines files lss -> tagged_lines 0 files ls -> lines_sequences max_len ls ss -> 1 <= batch_size -> valid_max max_len ->
  Forall (fun d => d <> []) files -> Forall (fun q => 0 <= q)%Q sampling ->
  (* no sequences: an error *)
  (ss = [] -> exists fuel0, forall fuel, fuel0 <= fuel -> trainer_data choice shuffle10 batch_size max_len fuel files sampling = Err ValueError) /\
  (* the number of updates that the trainer expects in an epoch *)
  (ss <> [] -> exists fuel0 n it sizes, sizes_for lss sampling sizes /\ n = (length ss + batch_size - 1) / batch_size /\ 1 <= n /\
    (forall fuel, fuel0 <= fuel -> trainer_data choice shuffle10 batch_size max_len fuel files sampling = Ok (n, it)) /\
    (* the mini-batches that there are *)
    forall k, exists bss it', passes (data_next choice shuffle10 batch_size max_len) it bss it' /\ length bss = k /\
      Forall (fun bs => exists sample ls' ss', sampled 0 lss sizes sample /\ Permutation sample ls' /\ lines_sequences max_len ls' ss' /\
                cut_into batch_size ss' bs) bss /\
      (Forall (fun q => q == 1)%Q sampling -> Forall (fun bs => length bs = n) bss) /\
      forall f, f <= n -> Forall (fun bs => length (filter (is_scheduled n f 0) (seq 1 (length bs))) = length bs * f / n) bss).
Proof.
  intros choice shuffle10 files lss ls ss sampling batch_size max_len Hc Hs Hl Ht Hss Hb Hm Hne Hq.
  destruct (shuffling_init_ok choice shuffle10 files sampling Hne Hq) as [s Es].
  destruct (shuffling_init_spec _ _ _ _ _ _ Hl Es) as (_ & sp & sizes & Hsp & Hsz & Hsf & ->).
  pose proof (lines_sequences_unique _ _ _ Hm Hss) as Eseq. pose proof (tagged_lines_unique _ _ _ Ht) as Els.
  assert (Hlin : files <> [] -> exists l fuel0 bs, linear_init files = Ok l /\ cut_into batch_size ss bs /\
    forall fuel, fuel0 <= fuel -> epoch linear linear_readline linear_reset batch_size max_len fuel (batch_init l) = Ok (bs, batch_init l)).
  { intros Hf. destruct files as [|d files]; [congruence|]. eexists. cbn [linear_init].
    destruct (linear_epochs_spec (d :: files) _ batch_size max_len ls ss eq_refl Hb Hm Ht Hss) as (fuel0 & bs & Hcut & He).
    exists fuel0, bs. split; [reflexivity|]. split; [exact Hcut|]. intros fuel Hf'. specialize (He fuel 1 Hf'). cbn [IterModel.epochs repeat] in He.
    destruct (IterModel.epoch _ _ _ _ _ _ _) as [[x y]|]; [|discriminate]. cbn [bind] in He. injection He as <- <-. reflexivity. }
  split.
  - intros E0. destruct (list_eq_dec (list_eq_dec N.eq_dec) files []) as [E|E].
    + exists 0. intros fuel _. subst files. reflexivity.
    + destruct (Hlin E) as (l & fuel0 & bs & El & Hcut & He). exists fuel0. intros fuel Hf. unfold trainer_data.
      rewrite El. cbn [bind]. rewrite (He fuel Hf). cbn [bind]. rewrite E0 in Hcut. apply cut_into_nil_inv in Hcut. now subst bs.
  - intros Hnil. assert (Hf : files <> []).
    { intros ->. cbn in Els. subst ls. cbn in Eseq. exact (Hnil Eseq). }
    destruct (Hlin Hf) as (l & fuel0 & bs & El & Hcut & He).
    assert (En : length bs = (length ss + batch_size - 1) / batch_size) by now apply cut_into_count.
    assert (Hn1 : 1 <= length bs).
    { destruct bs; [|cbn; lia]. apply cut_into_concat in Hcut. cbn in Hcut. congruence. }
    exists fuel0, (length bs), (batch_init (sh_fresh choice shuffle10 sp sizes 0)), sizes. split; [exact Hsf|]. split; [exact En|].
    split; [exact Hn1|]. split.
    { intros fuel Hfu. unfold trainer_data. rewrite El. cbn [bind]. rewrite (He fuel Hfu). cbn [bind].
      match goal with |- (if ?c then _ else _) = _ => assert (Ec : c = false) by (apply Nat.ltb_ge; exact Hn1); rewrite Ec end. rewrite Es. reflexivity. }
    intros k.
    assert (HP : forall d, exists bss it', passes (data_next choice shuffle10 batch_size max_len) (batch_init (sh_fresh choice shuffle10 sp sizes d)) bss it' /\ length bss = k /\
      Forall (fun bs0 => exists sample ls' ss', sampled 0 lss sizes sample /\ Permutation sample ls' /\ lines_sequences max_len ls' ss' /\
                cut_into batch_size ss' bs0) bss).
    { clear En Hn1. induction k as [|k IH]; intros d.
      - exists [], (batch_init (sh_fresh choice shuffle10 sp sizes d)). split; [constructor|]. split; [reflexivity|constructor].
      - destruct (sh_fresh_spec choice shuffle10 Hc Hs files Hne sp Hsp sizes Hsz d) as (Hok & _ & sample & Hsm & Hp).
        destruct (IH (S d)) as (bss & it' & Hps & Hlen & Hall).
        set (st := batch_init (sh_fresh choice shuffle10 sp sizes d)) in *.
        exists (cut batch_size (pendseqs shuffling max_len (sh_pend files) st) :: bss), it'. split; [|split; [cbn; lia|]].
        + eapply passes_more; [|exact Hps].
          apply (data_yields choice shuffle10 files sp Hsp sizes batch_size max_len Hb Hm (S d) (s_order (b_src st)) st (conj Hok eq_refl) eq_refl).
        + constructor; [|exact Hall]. exists sample, (sh_pend files (b_src st)), (pendseqs shuffling max_len (sh_pend files) st).
          rewrite (lines_linesf _ _ Hl). split; [exact Hsm|]. split; [exact Hp|]. split; [|now apply cut_into_cut].
          now apply lines_sequences_flat_map. }
    destruct (HP 0) as (bss & it' & Hps & Hlen & Hall). exists bss, it'. split; [exact Hps|]. split; [exact Hlen|]. split; [exact Hall|].
    split.
    + intros Hone. eapply Forall_impl; [|exact Hall]. intros bs0 (sample & ls' & ss' & Hsm & Hp & Hls & Hc0).
      rewrite (sizes_for_full _ _ _ Hsf Hone) in Hsm. pose proof (sampled_full 0 lss sample Hsm files Hl) as Hfull.
      assert (Hlen' : length ss' = length ss); [|pose proof (cut_into_count _ _ _ Hb Hc0) as E1; pose proof (cut_into_count _ _ _ Hb Hcut) as E2; rewrite Hlen', <- E2 in E1; exact E1].
      rewrite (lines_sequences_unique _ _ _ Hm Hls), Eseq, Els. apply Permutation_length. symmetry.
      apply Permutation_flat_map. now rewrite Hfull.
    + intros f Hfle. apply Forall_forall. intros bs0 _. apply scheduled_count; lia.
Qed.
Print Assumptions C68_epochs.

(** ** The trainer with this data *)
Section Training.
Variable choice : nat -> nat -> list nat -> nat -> bool -> list nat.
Variable shuffle10 : nat -> list nat -> list nat.
Hypothesis H_choice : choice_contract choice.
Hypothesis H_shuffle : shuffle_contract shuffle10.
Variable files : list pystr.
Variable lss : list (list pystr).
Variable ls : list (pystr * nat).
Hypothesis H_lines : file_lines files lss.
Hypothesis H_tagged : tagged_lines 0 files ls.
Variable batch_size : nat.
Variable max_len : option nat.
Hypothesis H_batch : 1 <= batch_size.
Hypothesis H_max : valid_max max_len.
Variable sampling : list Q.
Variable sizes : list nat.
Hypothesis H_sizes : sizes_for lss sampling sizes.
Hypothesis H_something : 0 < list_sum sizes.
Variables (fuel0 n : nat) (it0 : bstate shuffling).
Hypothesis H_data : trainer_data choice shuffle10 batch_size max_len fuel0 files sampling = Ok (n, it0).
Notation next := (data_next choice shuffle10 batch_size max_len).

Context {params accum : Type}.
Variable update : params -> accum -> Qc -> list sequence -> params * accum.
Variable perplexity : params -> Qc.
Variable o : toptions.
Notation tstate := (@tstate params accum (bstate shuffling) iter_state (list sequence)).
Notation file := (@file params accum iter_state).
Notation steps := (steps next update perplexity data_save data_restore o).
Notation step := (step next update perplexity data_save data_restore o).
Notation train := (train next update perplexity data_save data_restore o).
Notation hist t := (history (t_log t)).

(** A new model, or one that was saved with a position in this data *)
Definition usable (f : file) : Prop := match f_iter f with None => True | Some s => exists order i, position_in ls s order i end.

Variables (p0 : params) (a0 : accum) (r0 : Qc) (f0 : file).
Variables (crit : criterion) (mx mn : nat) (maxann : Z).
Variable t0 : tstate.
Hypothesis H_file : usable f0.
Hypothesis H_init : initialize data_restore p0 a0 r0 it0 (create_stopper crit mx mn maxann) f0 = Ok t0.

Lemma data_facts : exists sp, Forall (fun d => d <> []) files /\ pointers_inv files sp /\ length sizes = length files /\
  ls = tagf 0 files /\ it0 = batch_init (sh_fresh choice shuffle10 sp sizes 0).
Proof using H_lines H_tagged H_sizes H_data.
  destruct (trainer_data_inv _ _ _ _ _ _ _ _ _ _ H_lines H_data) as (Hne & _ & sp & sizes' & Hsp & Hl & Hsf & E).
  rewrite <- (sizes_for_unique _ _ _ H_sizes _ Hsf) in Hl, E. exists sp. repeat (split; [assumption|]). split; [|exact E].
  now apply tagged_lines_unique.
Qed.

(** Training raises no exception. *)
Theorem C68_no_exception k : exists ph t, steps k (AtEpoch, t0) = Ok (ph, t).
Proof using All.
  destruct data_facts as (sp & Hne & Hsp & Hl & El & Ei). rewrite Ei in H_init.
  assert (Hf0 : file_ok files f0) by (unfold file_ok, saved_inv; rewrite <- El; exact H_file).
  eapply (data_no_exception choice shuffle10 H_choice H_shuffle files Hne sp Hsp sizes Hl batch_size max_len H_batch H_max H_something
    update perplexity o); eassumption.
Qed.

(** Training ends, when it never goes back or when it is allowed to end. *)
Theorem C68_terminates : (forall p, (1 <= perplexity p)%Qc) -> (forall b, candidate_cost t0 = Some b -> (0 < b)%Qc) ->
  (o_patience o < 0)%Z \/ (crit <> CEpochCount /\ mn < t_epoch t0) ->
  exists fuel t, train fuel (AtEpoch, t0) = Ok t.
Proof using All.
  intros Hp Hb0 Hc. destruct data_facts as (sp & Hne & Hsp & Hl & El & Ei). rewrite Ei in H_init.
  assert (Hf0 : file_ok files f0) by (unfold file_ok, saved_inv; rewrite <- El; exact H_file).
  eapply (data_terminates choice shuffle10 H_choice H_shuffle files Hne sp Hsp sizes Hl batch_size max_len H_batch H_max H_something
    update perplexity o); eassumption.
Qed.

(** Where the training continues when the learning rate is decreased. The position of
    the saved model is [line] in [order]; [b] is the mini-batch after which the learning
    rate was decreased, and [it] is the iterator at that time. *)
Theorem C68_annealing k ph t ph' t' c : steps k (AtEpoch, t0) = Ok (ph, t) -> step (ph, t) = Ok (ph', t') ->
  hist t' = hist t ++ [(c, Annealed)] ->
  exists b it s order line ss bs it', next (t_iter t) = (Some b, it) /\
    f_iter (t_file t) = Some s /\ position_in ls s order line /\
    lines_sequences max_len (lines_left ls order line) ss /\ yields next (t_iter t') bs it' /\
    (length b < batch_size -> bs = []) /\
    (length b = batch_size -> exists rest, rest_sequences max_len (b_buffer it) rest /\ cut_into batch_size (rest ++ ss) bs) /\
    length b <= batch_size /\
    (fits max_len ls -> b_buffer it = []).
Proof using All.
  intros E Es Hh. destruct data_facts as (sp & Hne & Hsp & Hl & El & Ei).
  destruct (C34_annealing next update perplexity data_save data_restore o _ _ _ _ _ _ _ _ _ _ H_init k ph t E) as (_ & _ & A).
  destruct (A ph' t' c Es Hh) as (_ & _ & _ & _ & (b & it & s & En & Hs & Hr) & _).
  assert (Hf0 : file_ok files f0) by (unfold file_ok, saved_inv; rewrite <- El; exact H_file).
  assert (Hi2 := H_init). rewrite Ei in Hi2.
  destruct (run_data choice shuffle10 H_choice H_shuffle files Hne sp Hsp sizes Hl batch_size max_len H_batch H_max update perplexity o H_something
    _ _ _ _ f0 t0 k ph t Hf0 Hi2 E) as (Hinv & Hfile & _).
  unfold file_ok in Hfile. rewrite Hs in Hfile. destruct Hfile as (order & line & Hpos).
  rewrite (restore_position files it s order line Hpos) in Hr.
  assert (Hinv' := data_inv_next choice shuffle10 H_choice H_shuffle files Hne sp Hsp sizes Hl batch_size max_len H_batch H_max
    (fun order => order <> []) (t_iter t) (Some b) it (positive_order sizes H_something) Hinv En).
  destruct Hinv as ((d & ord1 & Ha & _) & _ & _).
  destruct (b_eof (t_iter t)) eqn:Ee.
  { rewrite (data_next_eof choice shuffle10 files sp sizes batch_size max_len d _ (proj1 Ha) Ee) in En. discriminate. }
  pose proof (data_next_spec choice shuffle10 files sp Hsp sizes batch_size max_len H_batch H_max d ord1 _ Ha Ee) as Hspec.
  set (ps := pendseqs shuffling max_len (sh_pend files) (t_iter t)) in *. destruct ps as [|q l] eqn:Ep; [rewrite Hspec in En; discriminate|].
  rewrite <- Ep in *. destruct Hspec as (st1 & E1 & Ha1 & Ee1 & H1). rewrite E1 in En. injection En as Eb Eit. subst st1.
  assert (Hbl : length b = Nat.min batch_size (length ps)) by (subst b; apply firstn_length).
  destruct Hinv' as ((d' & ord' & [Hok' _] & _) & Heof & Hfit).
  set (st := t_iter t') in *. injection Hr as Hr.
  assert (Hat : at_order files sp sizes d' order (b_src st)).
  { subst st. rewrite <- Hr. split; [|reflexivity]. destruct Hok' as (K1 & K2 & K3 & _). destruct Hpos as (_ & _ & Hpos). repeat split; cbn; auto. }
  set (ss := flat_map (line_seqs max_len) (lines_left ls order line)).
  assert (Hpend : sh_pend files (b_src st) = lines_left ls order line).
  { subst st. rewrite <- Hr, El. reflexivity. }
  destruct (Nat.ltb_spec (length ps) batch_size) as [Hlt|Hge].
  - exists b, it, s, order, line, ss, [], (mkB (sh_fresh choice shuffle10 sp sizes d') [] false).
    split; [now rewrite E1, <- Eb|]. split; [exact Hs|]. split; [now rewrite El|]. split; [now apply lines_sequences_flat_map|]. split.
    + apply (data_yields_eof choice shuffle10 files sp sizes batch_size max_len d' st (proj1 Hat)); subst st; rewrite <- Hr; cbn; auto.
    + split; [reflexivity|]. split; [lia|]. split; [lia|]. rewrite El. exact Hfit.
  - exists b, it, s, order, line, ss, (cut batch_size (pendseqs shuffling max_len (sh_pend files) st)), (mkB (sh_fresh choice shuffle10 sp sizes d') [] false).
    split; [now rewrite E1, <- Eb|]. split; [exact Hs|]. split; [now rewrite El|]. split; [now apply lines_sequences_flat_map|]. split.
    + apply (data_yields choice shuffle10 files sp Hsp sizes batch_size max_len H_batch H_max d' order st Hat). subst st. rewrite <- Hr. exact Ee1.
    + split; [lia|]. split; [|split; [lia|rewrite El; exact Hfit]]. intros _.
      exists (filter good (pieces max_len (b_buffer it))). split.
      * exists (pieces max_len (b_buffer it)). split; [|reflexivity]. unfold pieces. destruct (b_buffer it) as [|x r] eqn:Eb2; [destruct max_len; constructor|].
        destruct max_len as [m|]; [now apply cut_into_cut|]. constructor; [discriminate|lia].
      * replace (filter good (pieces max_len (b_buffer it)) ++ ss) with (pendseqs shuffling max_len (sh_pend files) st); [now apply cut_into_cut|].
        unfold pendseqs. rewrite Hpend. subst st. rewrite <- Hr. reflexivity.
Qed.

(** No model is ever saved, if so few sentences are sampled that the first validation
    would be after the end of the epoch. *)
Theorem C68_never_saved k ph t : f_trainer f0 = None -> fits max_len ls -> o_validate o = true -> o_updates o = n ->
  (list_sum sizes + batch_size - 1) / batch_size * o_frequency o < n ->
  steps k (AtEpoch, t0) = Ok (ph, t) -> t_file t = f0 /\ t_costs t = [] /\ hist t = [].
Proof using All.
  intros Hf Hfit Hv Hn Hfew E. destruct data_facts as (sp & Hne & Hsp & Hl & El & Ei).
  destruct (trainer_data_inv _ _ _ _ _ _ _ _ _ _ H_lines H_data) as (_ & (_ & _ & _ & _ & _ & _ & Hn1) & _).
  set (inv := data_inv files sp sizes max_len (fun order => length order = list_sum sizes)).
  assert (H : t_file t = f0 /\ t_costs t = [] /\ quiet_log (t_log t)).
  { eapply (never_saved next update perplexity data_save data_restore o inv (batches_left files batch_size max_len)
      ((list_sum sizes + batch_size - 1) / batch_size)); try eassumption; try lia.
    - intros i b i' Hi Hnx. split.
      + eapply (data_inv_next choice shuffle10 H_choice H_shuffle files Hne sp Hsp sizes Hl batch_size max_len H_batch H_max _ i (Some b) i'); eauto.
      + eapply (batches_left_next choice shuffle10 files sp Hsp sizes batch_size max_len H_batch H_max _ i b i' Hi Hnx).
    - intros i i' Hi Hnx.
      eapply (data_inv_next choice shuffle10 H_choice H_shuffle files Hne sp Hsp sizes Hl batch_size max_len H_batch H_max _ i None i'); eauto.
    - intros i ((d & order & [Hok Ho] & Hlen) & _ & Hbuf). unfold batches_left. destruct (b_eof i); [lia|].
      rewrite (cut_into_count _ _ _ H_batch (cut_into_cut batch_size H_batch _)). rewrite El in Hfit.
      apply Nat.div_le_mono; [lia|].
      pose proof (whole_count files sp sizes max_len H_max i d Hfit Hok (Hbuf Hfit)) as Hw. rewrite Ho, Hlen in Hw. lia.
    - rewrite Ei. apply (data_inv_init choice shuffle10 H_choice H_shuffle files Hne sp Hsp sizes Hl). auto. }
  destruct H as (H1 & H2 & H3). split; [exact H1|]. split; [exact H2|]. clear -H3. unfold quiet_log in H3.
  induction H3 as [|e l He H IH]; [reflexivity|]. destruct e; try contradiction; cbn in *; auto.
Qed.
End Training.
Print Assumptions C68_no_exception.
Print Assumptions C68_terminates.
Print Assumptions C68_annealing.
Print Assumptions C68_never_saved.

(** ** Continuing in another process *)
Lemma data_pointers choice shuffle10 batch_size max_len fuel files sampling n it :
  trainer_data choice shuffle10 batch_size max_len fuel files sampling = Ok (n, it) -> make_pointers files = Ok (s_pointers (b_src it)).
Proof.
  unfold trainer_data. destruct (linear_init files); [|discriminate]. cbn [bind]. destruct (IterModel.epoch _ _ _ _ _ _ _) as [[bs e]|]; [|discriminate].
  cbn [bind]. destruct (_ <? _); [discriminate|]. unfold shuffling_init. destruct (make_pointers files) as [sp|]; [|discriminate]. cbn [bind].
  destruct (forallb _ _); [|discriminate]. intros H. injection H as _ <-. reflexivity.
Qed.

Lemma updated_last {params accum iter batch : Type} (next : iter -> option batch * iter) (update : params -> accum -> Qc -> batch -> params * accum)
    (I : iter -> Prop) lr k p a i p' a' i' : 1 <= k -> I i -> (forall i b i', I i -> next i = (Some b, i') -> I i') ->
  updated next update k lr (p, a, i) = Some (p', a', i') -> exists j b, I j /\ next j = (Some b, i').
Proof.
  intros Hk Hi HI. assert (HJ : forall k p' a' i', updated next update k lr (p, a, i) = Some (p', a', i') -> I i').
  { clear -Hi HI. induction k as [|k IH]; intros p' a' i' E; cbn [updated] in E; [injection E as _ _ <-; exact Hi|].
    destruct (updated next update k lr (p, a, i)) as [[[p1 a1] i1]|]; [|discriminate]. specialize (IH _ _ _ eq_refl).
    destruct (next i1) as [[b|] i2] eqn:En; [|discriminate]. destruct (update p1 a1 lr b). injection E as _ _ <-. eauto. }
  destruct k as [|k]; [lia|]. cbn [updated]. intros E.
  destruct (updated next update k lr (p, a, i)) as [[[p1 a1] i1]|] eqn:E1; [|discriminate]. apply HJ in E1.
  destruct (next i1) as [[b|] i2] eqn:En; [|discriminate]. destruct (update p1 a1 lr b). injection E as _ _ <-. eauto.
Qed.
Section Resuming.
Variables (choice choice2 : nat -> nat -> list nat -> nat -> bool -> list nat) (shuffle10 shuffle2 : nat -> list nat -> list nat).
Hypothesis H_choice : choice_contract choice.
Hypothesis H_shuffle : shuffle_contract shuffle10.
Variable files : list pystr.
Variable lss : list (list pystr).
Variable ls : list (pystr * nat).
Hypothesis H_lines : file_lines files lss.
Hypothesis H_tagged : tagged_lines 0 files ls.
Variable batch_size : nat.
Variable max_len : option nat.
Hypothesis H_batch : 1 <= batch_size.
Hypothesis H_max : valid_max max_len.
Variable sampling : list Q.
Variable sizes : list nat.
Hypothesis H_sizes : sizes_for lss sampling sizes.
Hypothesis H_something : 0 < list_sum sizes.
Variables (fuel0 n fuel2 n2 : nat) (it0 it2 : bstate shuffling).
Hypothesis H_data : trainer_data choice shuffle10 batch_size max_len fuel0 files sampling = Ok (n, it0).
Hypothesis H_data2 : trainer_data choice2 shuffle2 batch_size max_len fuel2 files sampling = Ok (n2, it2).
Hypothesis H_fits : fits max_len ls.
Notation next := (data_next choice shuffle10 batch_size max_len).
Notation next2 := (data_next choice2 shuffle2 batch_size max_len).

Lemma same_pointers : exists sp, Forall (fun d => d <> []) files /\ pointers_inv files sp /\ length sizes = length files /\ ls = tagf 0 files /\
  it0 = batch_init (sh_fresh choice shuffle10 sp sizes 0) /\ it2 = batch_init (sh_fresh choice2 shuffle2 sp sizes 0).
Proof using H_lines H_tagged H_sizes H_data H_data2.
  destruct (data_facts choice shuffle10 files lss ls H_lines H_tagged batch_size max_len sampling sizes H_sizes fuel0 n it0 H_data)
    as (sp & Hne & Hsp & Hl & El & Ei).
  destruct (data_facts choice2 shuffle2 files lss ls H_lines H_tagged batch_size max_len sampling sizes H_sizes fuel2 n2 it2 H_data2)
    as (sp2 & _ & Hsp2 & _ & _ & Ei2).
  exists sp. repeat (split; [assumption|]). rewrite Ei2.
  assert (E : sp2 = sp); [|now rewrite E].
  apply data_pointers in H_data, H_data2. rewrite H_data, Ei, Ei2 in H_data2. cbn in H_data2. congruence.
Qed.

Context {params accum : Type}.
Variable update : params -> accum -> Qc -> list sequence -> params * accum.
Variable perplexity : params -> Qc.
Variable o : toptions.
Notation tstate := (@tstate params accum (bstate shuffling) iter_state (list sequence)).
Notation file := (@file params accum iter_state).
Notation steps := (steps next update perplexity data_save data_restore o).
Notation steps2 := (TrainerModel.steps next2 update perplexity data_save data_restore o).
Notation train := (train next update perplexity data_save data_restore o).
Notation train2 := (TrainerModel.train next2 update perplexity data_save data_restore o).
Notation hist t := (history (t_log t)).
Variables (p0 : params) (a0 : accum) (r0 : Qc) (f0 : file).
Variables (crit : criterion) (mx mn : nat) (maxann : Z).
Variable t0 : tstate.
Hypothesis H_file : usable ls f0.
Hypothesis H_init : initialize data_restore p0 a0 r0 it0 (create_stopper crit mx mn maxann) f0 = Ok t0.

Section Related.
Variable sp : sentence_pointers.
Hypothesis Hne : Forall (fun d => d <> []) files.
Hypothesis Hsp : pointers_inv files sp.
Hypothesis Hl : length sizes = length files.
Notation inv := (data_inv files sp sizes max_len (fun order => order <> [])).

Lemma inv_next i r i' : inv i -> next i = (r, i') -> inv i'.
Proof using H_choice H_shuffle H_batch H_max H_something Hne Hsp Hl.
  apply (data_inv_next choice shuffle10 H_choice H_shuffle files Hne sp Hsp sizes Hl batch_size max_len H_batch H_max _ i r i').
  intros order. apply positive_order. exact H_something.
Qed.

Definition related d1 d2 (i j : bstate shuffling) : Prop := at_same d1 d2 i j /\ inv i.
Lemma related_next d1 d2 i j b i' : related d1 d2 i j -> next i = (Some b, i') -> exists j', next2 j = (Some b, j') /\ related d1 d2 i' j'.
Proof using H_choice H_shuffle H_batch H_max H_something Hne Hsp Hl.
  intros [Hs Hi] En. pose proof Hi as ((d & order & Ha & _) & _).
  destruct (both_next choice choice2 shuffle10 shuffle2 batch_size max_len files sp Hsp sizes H_batch H_max d1 d2 d order i j Ha Hs)
    as [(b' & i1 & j1 & E1 & E2 & Hs1 & _)|(i1 & j1 & buf & E1 & _)]; rewrite E1 in En; [|discriminate].
  injection En as -> ->. exists j1. split; [exact E2|]. split; [|exact (inv_next _ _ _ Hi E1)].
  destruct Hs1 as (L & D1 & D2 & He). repeat (split; [assumption|]). now left.
Qed.

Lemma related_yields d1 d2 i j : related d1 d2 i j -> exists bs i' j', yields next i bs i' /\ yields next2 j bs j'.
Proof using H_choice H_shuffle H_batch H_max H_something Hne Hsp Hl.
  remember (batches_left files batch_size max_len i) as m eqn:Em. revert i j Em. induction m as [|m IH]; intros i j Em [Hs Hi].
  all: pose proof Hi as ((d & order & Ha & _) & _);
    destruct (both_next choice choice2 shuffle10 shuffle2 batch_size max_len files sp Hsp sizes H_batch H_max d1 d2 d order i j Ha Hs)
    as [(b' & i1 & j1 & E1 & E2 & Hs1 & _)|(i1 & j1 & buf & E1 & E2 & _)].
  - rewrite (batches_left_next choice shuffle10 files sp Hsp sizes batch_size max_len H_batch H_max _ i b' i1 Hi E1) in Em. discriminate.
  - exists [], i1, j1. split; now constructor.
  - rewrite (batches_left_next choice shuffle10 files sp Hsp sizes batch_size max_len H_batch H_max _ i b' i1 Hi E1) in Em. injection Em as Em.
    destruct (IH i1 j1 Em) as (bs & i2 & j2 & Y1 & Y2).
    { split; [|exact (inv_next _ _ _ Hi E1)]. destruct Hs1 as (L & D1 & D2 & He). repeat (split; [assumption|]). now left. }
    exists (b' :: bs), i2, j2. split; econstructor; eauto.
  - exists [], i1, j1. split; now constructor.
Qed.

(** The same orders are drawn from now on. *)
Definition same_draws (i j : bstate shuffling) : Prop :=
  forall k, drawn choice shuffle10 (b_src i) (s_draws (b_src i) + k) = drawn choice2 shuffle2 (b_src j) (s_draws (b_src j) + k).
Definition gr_rel (i j : bstate shuffling) : Prop := (exists d1 d2, at_same d1 d2 i j) /\ inv i /\ same_draws i j.
Definition gr_rel' (i j : bstate shuffling) : Prop := (exists d1 d2, at_same' d1 d2 i j) /\ inv i /\ same_draws i j.

Lemma drawn_like choice' shuffle' s s' k : s_pointers s = s_pointers s' -> s_sizes s = s_sizes s' ->
  drawn choice' shuffle' s k = drawn choice' shuffle' s' k.
Proof using. intros E1 E2. unfold drawn. now rewrite E1, E2. Qed.

Lemma next_pointers choice' shuffle' i r i' : data_next choice' shuffle' batch_size max_len i = (r, i') ->
  s_pointers (b_src i') = s_pointers (b_src i) /\ s_sizes (b_src i') = s_sizes (b_src i).
Proof using.
  clear. unfold data_next, next_sequences. destruct (b_eof i); [intros E; injection E as <- <-; auto|].
  assert (H : forall fuel acc st r st', next_loop shuffling shuffling_readline (fun _ s => s) batch_size max_len fuel st acc = Ok (r, st') ->
    s_pointers (b_src st') = s_pointers (b_src st) /\ s_sizes (b_src st') = s_sizes (b_src st)).
  { clear. intros fuel acc st r st' H.
    pose proof (loop_like batch_size max_len fuel st st acc ltac:(repeat split)) as L. rewrite H in L. tauto. }
  rewrite next_loop_reset. destruct (next_loop _ _ _ _ _ _ _ _) as [[[q|] st]|] eqn:E; intros E'; injection E' as <- <-; auto.
  - eapply H; exact E.
  - cbn. eapply H; exact E.
Qed.

Lemma gr_next i j : gr_rel i j ->
  match next i, next2 j with
  | (Some b, i'), (Some b', j') => b = b' /\ gr_rel' i' j'
  | (None, i'), (None, j') => gr_rel i' j'
  | _, _ => False
  end.
Proof using H_choice H_shuffle H_batch H_max H_something Hne Hsp Hl.
  intros ((d1 & d2 & Hs) & Hi & Hd). pose proof Hi as ((d & order & Ha & _) & _).
  destruct (both_next choice choice2 shuffle10 shuffle2 batch_size max_len files sp Hsp sizes H_batch H_max d1 d2 d order i j Ha Hs)
    as [(b & i1 & j1 & E1 & E2 & Hs1 & _)|(i1 & j1 & buf & E1 & E2 & Ei & Ej)]; rewrite E1, E2.
  - split; [reflexivity|]. split; [eauto|]. split; [exact (inv_next _ _ _ Hi E1)|].
    destruct Hs as (_ & D1 & D2 & _), Hs1 as (_ & F1 & F2 & _). intros k. specialize (Hd k). rewrite D1, D2 in Hd. rewrite F1, F2.
    destruct (next_pointers _ _ _ _ _ E1) as [P1 P2], (next_pointers _ _ _ _ _ E2) as [P3 P4].
    rewrite (drawn_like _ _ _ _ _ P1 P2), (drawn_like _ _ _ _ _ P3 P4). exact Hd.
  - split; [|split; [exact (inv_next _ _ _ Hi E1)|]].
    + exists (S d1), (S d2). destruct Hs as ((L1 & L2 & _) & D1 & D2 & _). subst i1 j1. cbn. rewrite D1, D2.
      split; [|auto]. repeat split; cbn; auto. specialize (Hd 0). rewrite !Nat.add_0_r in Hd. unfold drawn in Hd. rewrite D1, D2 in Hd. exact Hd.
    + intros k. specialize (Hd (S k)). subst i1 j1. cbn [b_src shuffling_reset s_draws]. rewrite !Nat.add_succ_r in Hd. exact Hd.
Qed.
Lemma gr_sub i j : gr_rel' i j -> gr_rel i j.
Proof using. intros ((d1 & d2 & L & D1 & D2 & He) & H). split; [|exact H]. exists d1, d2. repeat (split; [assumption|]). now left. Qed.
Definition gr_saved (s s' : iter_state) : Prop := s = s' /\ saved_inv files s.
Lemma gr_save i j : gr_rel i j -> gr_saved (data_save i) (data_save j).
Proof using.
  intros ((d1 & d2 & (_ & _ & L3 & L4 & _) & _) & Hi & _). split; [|eapply data_inv_save; exact Hi].
  unfold data_save, shuffling_iter_get_state, shuffling_get_state. now rewrite L3, L4.
Qed.
Lemma gr_restore i j s s' : gr_rel' i j -> gr_saved s s' -> result_rel gr_rel (data_restore i s) (data_restore j s').
Proof using.
  intros ((d1 & d2 & (L1 & L2 & L3 & L4 & L5) & D1 & D2 & He) & Hi & Hd) [<- Hs].
  destruct (data_inv_restore files sp sizes max_len i s Hi Hs) as (i' & E & Hi'). destruct Hs as (order & m & Hpos).
  rewrite E. rewrite (restore_position files i s order m Hpos) in E. rewrite (restore_position files j s order m Hpos). cbn [result_rel].
  injection E as <-. split; [|split; [exact Hi'|exact Hd]]. exists d1, d2. split; [repeat split; cbn; auto|]. cbn. auto.
Qed.
End Related.

Theorem C68_resume k t d ph' t' c p a lr crit2 mx2 mn2 maxann2 t2 :
  o_validate o = true -> o_updates o <> 0 -> o_frequency o <> 0 -> o_samples o <> 0 ->
  (forall p, (0 < perplexity p)%Qc) -> (forall b, candidate_cost t0 = Some b -> (0 < b)%Qc) ->
  steps k (AtEpoch, t0) = Ok (InEpoch, t) -> t_samples t = [] -> t_center t = None ->
  next_validation (o_updates o) (o_frequency o) (t_update t) d -> o_samples o <= d ->
  steps d (InEpoch, t) = Ok (ph', t') -> after_updates next update d t <> None ->
  hist t' = hist t ++ [(c, Improved)] ->
  (* another process, with another random generator *)
  initialize data_restore p a lr it2 (create_stopper crit2 mx2 mn2 maxann2) (t_file t') = Ok t2 ->
  t_epoch t <= mx2 -> (crit2 = CAnnealingCount -> (0 <= maxann2)%Z) ->
  exists t3, steps2 (1 + o_samples o / 2) (AtEpoch, t2) = Ok (InEpoch, t3) /\
    t_params t3 = t_params t' /\ t_accum t3 = t_accum t' /\ t_lr t3 = t_lr t' /\
    t_epoch t3 = t_epoch t' /\ t_update t3 = t_update t' /\ t_costs t3 = t_costs t' /\ t_candidate t3 = t_candidate t' /\
    t_file t3 = t_file t' /\ t_samples t3 = t_samples t' /\ t_center t3 = t_center t' /\
    (* the rest of the epoch *)
    (exists bs i' j', yields next (t_iter t') bs i' /\ yields next2 (t_iter t3) bs j') /\
    (* the result of training, if the same orders are drawn in later epochs *)
    (crit = CEpochCount -> crit2 = CEpochCount -> mx2 = mx ->
     (forall k, drawn choice shuffle10 (b_src (t_iter t')) (s_draws (b_src (t_iter t')) + k)
              = drawn choice2 shuffle2 (b_src (t_iter t3)) (s_draws (b_src (t_iter t3)) + k)) ->
     ph' = InEpoch /\
     forall fuel, match train fuel (InEpoch, t'), train2 fuel (InEpoch, t3) with
       | Ok x, Ok y => t_params x = t_params y /\ t_file x = t_file y /\ t_costs x = t_costs y
       | Err e, Err e' => e = e'
       | _, _ => False
       end).
Proof using All.
  intros Hv Hn Hf Hs Hpos Hb0 E C1 C2 Hd Hld E' Ha Hh Ei He Hma.
  destruct same_pointers as (sp & Hne & Hsp & Hl & El & Ei0 & Ei2).
  pose proof (jinv_initial perplexity data_restore o crit mx mn 0 maxann _ _ _ _ _ _ H_init ltac:(lia)) as J0.
  pose proof (jinv_steps next update perplexity data_save data_restore o Hpos _ Hb0 _ crit mx mn 0 maxann _ _ _ J0 E) as J.
  assert (Hf0 : file_ok files f0) by (unfold file_ok, saved_inv; rewrite <- El; exact H_file).
  assert (Hi0 := H_init). rewrite Ei0 in Hi0.
  pose proof (run_data choice shuffle10 H_choice H_shuffle files Hne sp Hsp sizes Hl batch_size max_len H_batch H_max update perplexity o H_something
    _ _ _ _ f0 t0 k InEpoch t Hf0 Hi0 E) as (Hinv & _ & _).
  assert (E2 : steps (k + d) (AtEpoch, t0) = Ok (ph', t')) by (rewrite steps_app, E; exact E').
  pose proof (run_data choice shuffle10 H_choice H_shuffle files Hne sp Hsp sizes Hl batch_size max_len H_batch H_max update perplexity o H_something
    _ _ _ _ f0 t0 (k + d) ph' t' Hf0 Hi0 E2) as (Hinv' & Hfile' & Hcenter').
  (* the iterator at the saved state *)
  assert (Hmid : forall p1 a1 it1, after_updates next update (d - o_samples o / 2) t = Some (p1, a1, it1) ->
    exists j, data_restore it2 (data_save it1) = Ok j /\ related sp (s_draws (b_src it1)) 1 it1 j).
  { intros p1 a1 it1 Ea. unfold after_updates in Ea.
    assert (Hdiv : o_samples o / 2 < o_samples o) by (apply Nat.div_lt; lia).
    assert (H1 : 1 <= d - o_samples o / 2) by lia.
    destruct (updated_last next update (data_inv files sp sizes max_len (fun order => order <> [])) _ _ _ _ _ _ _ _ H1 Hinv
      (fun i b i' Hi Hn' => inv_next sp Hne Hsp Hl i (Some b) i' Hi Hn') Ea) as (i0 & b & Hi1 & En).
    pose proof (inv_next sp Hne Hsp Hl _ _ _ Hi1 En) as Hit1.
    pose proof (data_inv_save files sp sizes max_len it1 Hit1) as (order & m & Hpos1).
    exists (mkB (mkShuffling (s_pointers (b_src it2)) (s_sizes (b_src it2)) m order (s_draws (b_src it2))) (b_buffer it2) (b_eof it2)).
    split; [exact (restore_position files it2 _ order m Hpos1)|]. split; [|exact Hit1].
    pose proof Hit1 as ((d' & order' & [(K1 & K2 & K3 & _) Ko] & _) & Heof & Hfit).
    assert (Hbuf : b_buffer it1 = []) by (apply Hfit; rewrite <- El; exact H_fits).
    destruct Hpos1 as (Hp1 & _). unfold data_save, shuffling_iter_get_state, shuffling_get_state in Hp1. injection Hp1 as Ho Hm.
    rewrite Ei2. unfold batch_init. cbn [b_src b_buffer b_eof sh_fresh shuffling_reset s_pointers s_sizes s_draws].
    split; [|split; [reflexivity|split; [reflexivity|]]].
    - repeat split; cbn; congruence.
    - cbn [b_eof]. destruct (b_eof it1) eqn:Ee1; [|now left]. right. split; [|exact Hbuf].
      pose proof Hi1 as ((d'' & order'' & Ha'' & _) & _).
      destruct (b_eof i0) eqn:Ee0.
      { rewrite (data_next_eof choice shuffle10 files sp sizes batch_size max_len d'' _ (proj1 Ha'') Ee0) in En. discriminate. }
      pose proof (data_next_spec choice shuffle10 files sp Hsp sizes batch_size max_len H_batch H_max d'' order'' _ Ha'' Ee0) as Hspec.
      destruct (pendseqs shuffling max_len (sh_pend files) i0) as [|q l]; [rewrite Hspec in En; discriminate|].
      destruct Hspec as (st1 & E1 & _ & Ee2 & H2). rewrite E1 in En. injection En as _ <-. rewrite Ee1 in Ee2. rewrite <- Ee2 in H2.
      destruct H2 as [_ H2]. apply (f_equal (@length _)) in H2. rewrite (pend_length files) in H2. cbn in H2. lia. }
  set (d1 := match after_updates next update (d - o_samples o / 2) t with Some (_, _, it1) => s_draws (b_src it1) | None => 0 end).
  destruct (resume2 next next2 update perplexity data_save data_restore o Hv Hn Hf Hs Hpos (related sp d1 1)
    (fun i j b i' => related_next sp Hne Hsp Hl d1 1 i j b i') _ _ crit mx mn 0 maxann t t' t2 d ph' crit2 mx2 mn2 maxann2 p a lr it2 c
    Hb0 J C1 C2 Hd Hld Ha E' Hh) as (t3 & E3 & Ag & HQ & S1 & S2).
  - intros p1 a1 it1 Ea. unfold d1. rewrite Ea. now apply (Hmid p1 a1).
  - exact Ei.
  - exact He.
  - exact Hma.
  - exists t3. split; [exact E3|].
    destruct Ag as (A1 & A2 & A3 & A5 & A6 & A7 & A8 & A9 & A10 & A11). repeat (split; [assumption|]).
    split; [exact (related_yields sp Hne Hsp Hl _ _ _ _ HQ)|].
    intros G1 G2 -> Hdraws. destruct (S2 G1) as [-> S3]. split; [reflexivity|]. specialize (S1 G2). intros fuel.
    assert (Es : t_stopper t = EpochCount mx).
    { pose proof (j_stop _ _ _ _ _ _ _ _ _ _ J) as K. unfold stop_inv in K. cbn [snd] in K. rewrite G1 in K.
      destruct (t_stopper t); try contradiction. congruence. }
    assert (Hfrel : forall f : file, file_ok files f -> file_rel (gr_saved) f f).
    { intros f Hok. unfold file_ok in Hok. repeat split. destruct (f_iter f); [split; auto|exact I]. }
    assert (Hrel : t_rel gr_saved (gr_rel sp) t' (set_log (t_log t') t3)).
    { constructor; cbn; auto; try congruence.
      - destruct HQ as [HQ1 HQ2]. split; [eauto|]. split; [exact Hinv'|exact Hdraws].
      - rewrite A9. now apply Hfrel.
      - rewrite A11. destruct (t_center t'); [now apply Hfrel|exact I]. }
    pose proof (sim_train next next2 update perplexity data_save data_save data_restore data_restore o (gr_rel sp) (gr_rel' sp) gr_saved
      (gr_sub sp) (gr_next sp Hne Hsp Hl) (gr_save sp) (gr_restore sp) fuel InEpoch t' _ Hrel) as R1.
    pose proof (log_train next2 update perplexity data_save data_restore o fuel InEpoch (set_log (t_log t') t3) t3 eq_refl) as R2. unfold same in R2.
    destruct (train fuel (InEpoch, t')) as [x|e], (train2 fuel (InEpoch, set_log (t_log t') t3)) as [y|e'], (train2 fuel (InEpoch, t3)) as [z|e''];
      cbn in R1, R2; try contradiction; [|congruence].
    apply same_fields in R2 as (Q1 & _ & _ & _ & _ & _ & Q7 & _ & Q9 & _). rewrite <- Q1, <- Q7, <- Q9.
    split; [apply (r_params _ _ _ _ R1)|]. split; [|apply (r_costs _ _ _ _ R1)].
    destruct (r_file _ _ _ _ R1) as (F1 & F2 & F3 & F4). destruct (t_file x) as [x1 x2 x3 x4], (t_file y) as [y1 y2 y3 y4]. cbn in *.
    subst. f_equal. destruct x3, y3; try contradiction; [|reflexivity]. destruct F3 as [-> _]. reflexivity.
Qed.
End Resuming.
Print Assumptions C68_resume.

(** ** Concrete training: the parameters are the words of the mini-batches that they were
    updated with, and the perplexity is found in a table. *)
Definition id_shuffle (draw : nat) (l : list nat) : list nat := l.
Lemma id_shuffle_contract : shuffle_contract id_shuffle.
Proof. intros draw l. apply Permutation_refl. Qed.
Definition text (lines : list pystr) : pystr := flat_map (fun l => l ++ [newline]) lines.
Definition seen := list (list (list pystr)).
Definition ex_update (p : seen) (a : unit) (lr : Qc) (b : list sequence) : seen * unit := (p ++ [map (map fst) b], a).
Definition ex_perplexity (table : list Z) (p : seen) : Qc := Q2Qc (inject_Z (nth (length p) table 1%Z)).
Definition ex_file : @file seen unit iter_state := mkFile None None None None.
Notation ex_state := (@tstate seen unit (bstate shuffling) iter_state (list sequence)).
Definition ex_start shuffle10 batch_size max_len files sampling crit mx mn ann f : result ex_state :=
  do '(n, it) <- trainer_data cyc_choice shuffle10 batch_size max_len 100 files sampling;
  initialize data_restore [] tt 1%Qc it (create_stopper crit mx mn ann) f.
Notation ex_steps shuffle10 batch_size max_len table o :=
  (steps (data_next cyc_choice shuffle10 batch_size max_len) ex_update (ex_perplexity table) data_save data_restore o).
Notation ex_train shuffle10 batch_size max_len table o :=
  (train (data_next cyc_choice shuffle10 batch_size max_len) ex_update (ex_perplexity table) data_save data_restore o).
Definition got {A} (r : result A) (d : A) : A := match r with Ok x => x | Err _ => d end.
(** The mini-batches that an iterator gives, at most [k] *)
Fixpoint given shuffle10 batch_size max_len (k : nat) (i : bstate shuffling) : list (list sequence) :=
  match k with
  | 0 => []
  | S k' => match data_next cyc_choice shuffle10 batch_size max_len i with
            | (Some b, i') => b :: given shuffle10 batch_size max_len k' i'
            | (None, _) => []
            end
  end.
Definition words (bs : list (list sequence)) : list (list (list pystr)) := map (map (map fst)) bs.
Definition s3 := text [str "a"; str "b"; str "c"].
Definition s_nil := batch_init (mkShuffling (mkPointers [] [] []) [] 0 [] 0).
Definition t_nil : ex_state := mkTstate [] tt 1%Qc s_nil 0 0 [] None ex_file [] None (EpochCount 0) [].

(** The expectation that training continues with the sentences that follow the saved
    position when the learning rate is decreased is false. Three sentences in mini-batches
    of two: the second mini-batch of the epoch, that has one sentence, makes the model
    worse. The model that was saved after the first mini-batch is restored, the sentence
    "c" is left of its epoch, but the epoch ends without it. *)
Theorem C68_skipped_refuted :
  let o := mkToptions 2 2 0 1 true in let next := data_next cyc_choice id_shuffle 2 None in
  exists it0 t0 t t' order line it' c,
    trainer_data cyc_choice id_shuffle 2 None 100 [s3] [] = Ok (2, it0) /\
    initialize data_restore [] tt 1%Qc it0 (create_stopper CEpochCount 3 0 0) ex_file = Ok t0 /\
    ex_steps id_shuffle 2 None [100; 10; 20]%Z o 2 (AtEpoch, t0) = Ok (InEpoch, t) /\
    ex_steps id_shuffle 2 None [100; 10; 20]%Z o 1 (InEpoch, t) = Ok (InEpoch, t') /\
    history (t_log t') = history (t_log t) ++ [(c, Annealed)] /\
    position_in (tagf 0 [s3]) (data_save (t_iter t')) order line /\ f_iter (t_file t') = Some (data_save (t_iter t')) /\
    lines_left (tagf 0 [s3]) order line = [(text [str "c"], 0)] /\
    t_epoch t' = 1 /\ t_update t' = 1 /\ yields next (t_iter t') [] it'.
Proof.
  cbv zeta. set (r0 := trainer_data cyc_choice id_shuffle 2 None 100 [s3] []).
  set (it0 := snd (got r0 (0, s_nil))). set (t0 := got (ex_start id_shuffle 2 None [s3] [] CEpochCount 3 0 0 ex_file) t_nil).
  set (o := mkToptions 2 2 0 1 true).
  set (t := snd (got (ex_steps id_shuffle 2 None [100; 10; 20]%Z o 2 (AtEpoch, t0)) (Done, t_nil))).
  set (t' := snd (got (ex_steps id_shuffle 2 None [100; 10; 20]%Z o 1 (InEpoch, t)) (Done, t_nil))).
  exists it0, t0, t, t', [0; 1; 2], 2, (snd (data_next cyc_choice id_shuffle 2 None (t_iter t'))), (Q2Qc 20).
  do 5 (split; [vm_compute; reflexivity|]). split; [|do 4 (split; [vm_compute; reflexivity|]); apply yields_stop; vm_compute; reflexivity].
  split; [vm_compute; reflexivity|]. split; [discriminate|]. vm_compute. repeat constructor.
Qed.
Print Assumptions C68_skipped_refuted.

(** With a maximum length, the rest of the sentence that was being read when the learning
    rate was decreased comes first. *)
Definition s22 := text [str "a b c d"; str "e f g h"].
Theorem C68_leftover_refuted :
  let o := mkToptions 4 4 0 1 true in
  exists t0 t t',
    ex_start id_shuffle 1 (Some 3) [s22] [] CEpochCount 3 0 0 ex_file = Ok t0 /\
    ex_steps id_shuffle 1 (Some 3) [100; 30; 20; 40]%Z o 3 (AtEpoch, t0) = Ok (InEpoch, t) /\
    ex_steps id_shuffle 1 (Some 3) [100; 30; 20; 40]%Z o 1 (InEpoch, t) = Ok (InEpoch, t') /\
    map snd (history (t_log t')) = [Improved; Improved; Annealed] /\
    t_params t' = [[[SOS; str "a"; str "b"]]; [[str "c"; str "d"; EOS]]] /\
    words (given id_shuffle 1 (Some 3) 10 (t_iter t'))
      = [[[str "g"; str "h"; EOS]]; [[SOS; str "e"; str "f"]]; [[str "g"; str "h"; EOS]]].
Proof.
  cbv zeta. set (t0 := got (ex_start id_shuffle 1 (Some 3) [s22] [] CEpochCount 3 0 0 ex_file) t_nil).
  set (o := mkToptions 4 4 0 1 true).
  set (t := snd (got (ex_steps id_shuffle 1 (Some 3) [100; 30; 20; 40]%Z o 3 (AtEpoch, t0)) (Done, t_nil))).
  set (t' := snd (got (ex_steps id_shuffle 1 (Some 3) [100; 30; 20; 40]%Z o 1 (InEpoch, t)) (Done, t_nil))).
  exists t0, t, t'. repeat (split; [vm_compute; reflexivity|]). vm_compute. reflexivity.
Qed.
Print Assumptions C68_leftover_refuted.

(** The expectation that a model is saved by the end of training with validation is false:
    a sixth of twelve sentences is sampled, and five validations are wanted in an epoch.
    The hypotheses of [C68_never_saved] are met. *)
Definition s12 := text (repeat (str "a") 12).
Theorem C68_sampling_refuted :
  let o := mkToptions 12 5 0 1 true in
  exists it0 t0 t,
    trainer_data cyc_choice id_shuffle 1 None 100 [s12] [1 # 6] = Ok (12, it0) /\
    initialize data_restore [] tt 1%Qc it0 (create_stopper CEpochCount 2 0 0) ex_file = Ok t0 /\
    sizes_for [linesf s12] [1 # 6] [2] /\ (list_sum [2] + 1 - 1) / 1 * o_frequency o < 12 /\ fits None (tagf 0 [s12]) /\
    ex_train id_shuffle 1 None [] o 100 (AtEpoch, t0) = Ok t /\
    length (t_params t) = 4 /\ f_params (t_file t) = None.
Proof.
  cbv zeta. set (r0 := trainer_data cyc_choice id_shuffle 1 None 100 [s12] [1 # 6]).
  set (it0 := snd (got r0 (0, s_nil))). set (t0 := got (ex_start id_shuffle 1 None [s12] [1 # 6] CEpochCount 2 0 0 ex_file) t_nil).
  set (t := got (ex_train id_shuffle 1 None [] (mkToptions 12 5 0 1 true) 100 (AtEpoch, t0)) t_nil).
  exists it0, t0, t. do 2 (split; [vm_compute; reflexivity|]).
  split; [|split; [cbn; lia|split; [intros m line k u E; discriminate|repeat (split; [vm_compute; reflexivity|]); vm_compute; reflexivity]]].
  apply sizes_for_fraction; [|constructor]. split; [vm_compute; discriminate|]. intros H. vm_compute in H. discriminate.
Qed.
Print Assumptions C68_sampling_refuted.

(** Continuing in another process that draws other orders: the rest of the epoch is the
    same (the hypotheses of [C68_resume] are met), the trained model is not. *)
Definition s4 := text [str "a"; str "b"; str "c"; str "d"].
Theorem C68_orders_refuted :
  let o := mkToptions 4 2 (-1) 1 true in
  exists it0 it2 t0 t t' t2 t3 x y,
    trainer_data cyc_choice id_shuffle 1 None 100 [s4] [] = Ok (4, it0) /\
    trainer_data cyc_choice rev_shuffle 1 None 100 [s4] [] = Ok (4, it2) /\
    sizes_for [linesf s4] [] [4] /\ fits None (tagf 0 [s4]) /\ usable (tagf 0 [s4]) ex_file /\
    initialize data_restore [] tt 1%Qc it0 (create_stopper CEpochCount 2 0 0) ex_file = Ok t0 /\
    ex_steps id_shuffle 1 None [100; 30; 20; 40]%Z o 1 (AtEpoch, t0) = Ok (InEpoch, t) /\
    t_samples t = [] /\ t_center t = None /\ next_validation 4 2 (t_update t) 2 /\
    ex_steps id_shuffle 1 None [100; 30; 20; 40]%Z o 2 (InEpoch, t) = Ok (InEpoch, t') /\
    after_updates (data_next cyc_choice id_shuffle 1 None) ex_update 2 t <> None /\
    history (t_log t') = history (t_log t) ++ [(Q2Qc 20, Improved)] /\
    initialize data_restore [] tt 1%Qc it2 (create_stopper CEpochCount 2 0 0) (t_file t') = Ok t2 /\
    ex_steps rev_shuffle 1 None [100; 30; 20; 40]%Z o 1 (AtEpoch, t2) = Ok (InEpoch, t3) /\
    words (given id_shuffle 1 None 10 (t_iter t')) = [[[SOS; str "c"; EOS]]; [[SOS; str "d"; EOS]]] /\
    words (given rev_shuffle 1 None 10 (t_iter t3)) = [[[SOS; str "c"; EOS]]; [[SOS; str "d"; EOS]]] /\
    ex_train id_shuffle 1 None [100; 30; 20; 40]%Z o 100 (InEpoch, t') = Ok x /\
    ex_train rev_shuffle 1 None [100; 30; 20; 40]%Z o 100 (InEpoch, t3) = Ok y /\
    length (t_params x) = 8 /\ length (t_params y) = 8 /\ t_params x <> t_params y.
Proof.
  cbv zeta. set (o := mkToptions 4 2 (-1) 1 true). set (table := [100; 30; 20; 40]%Z).
  set (it0 := snd (got (trainer_data cyc_choice id_shuffle 1 None 100 [s4] []) (0, s_nil))).
  set (it2 := snd (got (trainer_data cyc_choice rev_shuffle 1 None 100 [s4] []) (0, s_nil))).
  set (t0 := got (ex_start id_shuffle 1 None [s4] [] CEpochCount 2 0 0 ex_file) t_nil).
  set (t := snd (got (ex_steps id_shuffle 1 None table o 1 (AtEpoch, t0)) (Done, t_nil))).
  set (t' := snd (got (ex_steps id_shuffle 1 None table o 2 (InEpoch, t)) (Done, t_nil))).
  set (t2 := got (ex_start rev_shuffle 1 None [s4] [] CEpochCount 2 0 0 (t_file t')) t_nil).
  set (t3 := snd (got (ex_steps rev_shuffle 1 None table o 1 (AtEpoch, t2)) (Done, t_nil))).
  set (x := got (ex_train id_shuffle 1 None table o 100 (InEpoch, t')) t_nil).
  set (y := got (ex_train rev_shuffle 1 None table o 100 (InEpoch, t3)) t_nil).
  exists it0, it2, t0, t, t', t2, t3, x, y.
  do 2 (split; [vm_compute; reflexivity|]). split; [repeat constructor|]. split; [intros m line k u E; discriminate|]. split; [exact I|].
  do 4 (split; [vm_compute; reflexivity|]). split.
  { assert (Et : t_update t = 0) by (vm_compute; reflexivity). rewrite Et. split; [lia|]. unfold completes. split; [exists 1; split; [lia|intros u Hu; lia]|].
    intros e He (k & H1 & H2). destruct k; [specialize (H2 0)|]; lia. }
  split; [vm_compute; reflexivity|]. split; [vm_compute; discriminate|]. do 9 (split; [vm_compute; reflexivity|]). vm_compute. discriminate.
Qed.
Print Assumptions C68_orders_refuted.
