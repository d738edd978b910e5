(** Proofs about the train command. *)
From Coq Require Import QArith Qcanon.
From Verif Require Import Base ListLib BaseLib QcLib Dict Strings TextModel TextSpec TextProofs VocabModel VocabSpec VocabProofs VocabProps
  ArchModel ArchSpec ArchProps ParamModel ParamSpec NetModel DeviceModel BuildModel SavedModel SavedSpec SavedProofs
  IterModel IterSpec IterProofs TrainerModel TrainerSpec TrainerRuns TrainDataModel TrainCommandModel TrainCommandSpec VocabStats VocabBuild.
Local Open Scope nat_scope.

(** ** What training keeps *)
Section Kept.
Context {params accum iter isaved batch : Type}.
Variable next_batch : iter -> option batch * iter.
Variable update : params -> accum -> Qc -> batch -> params * accum.
Variable perplexity : params -> Qc.
Variable isave : iter -> isaved.
Variable irestore : iter -> isaved -> result iter.
Variable o : toptions.
Notation tstate := (@tstate params accum iter isaved batch).
Notation file := (@file params accum isaved).
Variable P : params -> Prop.
Hypothesis HP : forall p a lr b, P p -> P (fst (update p a lr b)).
Variable f0 : file.

Definition full_file (f : file) : Prop := (exists p, f_params f = Some p /\ P p) /\ f_trainer f <> None.
Record kept (t : tstate) : Prop := mkKept {
  k_params : P (t_params t);
  k_file : forall p, f_params (t_file t) = Some p -> P p;
  k_center : forall c, t_center t = Some c -> full_file c;
  k_same : existsb is_candidate (t_log t) = false -> t_file t = f0;
  k_full : existsb is_candidate (t_log t) = true -> full_file (t_file t) }.

Lemma kept_event e t : is_candidate e = false -> kept t -> kept (add_event e t).
Proof using. intros He []. constructor; cbn; auto; rewrite existsb_app; cbn; rewrite He, !orb_false_r; auto. Qed.
Lemma kept_candidate f t : full_file f -> kept t -> kept (set_candidate_state f t).
Proof using.
  intros [(p & Hf & Hp) Ht] []. constructor; cbn; auto.
  - intros p' E. rewrite Hf in E. now injection E as <-.
  - rewrite existsb_app. cbn. rewrite orb_true_r. discriminate.
  - intros _. split; [eauto|exact Ht].
Qed.
Lemma kept_samples l c t : (forall f, c = Some f -> full_file f) -> kept t -> kept (set_samples l c t).
Proof using. intros H []. constructor; cbn; auto. Qed.
Lemma get_state_full (t : tstate) : P (t_params t) -> full_file (get_state isave t).
Proof using. intros H. split; [exists (t_params t); auto|discriminate]. Qed.
Lemma reset_kept (t t' : tstate) : kept t -> reset_state irestore t = Ok t' -> kept t'.
Proof using.
  intros K. unfold reset_state. destruct (f_params (t_file t)) as [p|] eqn:E; [|discriminate].
  destruct (f_trainer (t_file t)) as [g|]; [|discriminate]. destruct (g_epoch g); [|discriminate]. destruct (g_update g); [|discriminate].
  destruct (f_iter (t_file t)); [|discriminate]. destruct (irestore _ _); [|discriminate]. cbn [bind].
  destruct (f_optimizer (t_file t)) as [[[lr1|] [a1|]]|]; try discriminate. intros [= <-]. pose proof (k_file _ K _ E). destruct K. constructor; cbn; auto.
Qed.
Lemma decrease_kept t t' : kept t -> decrease_learning_rate irestore t = Ok t' -> kept t'.
Proof using.
  intros K. unfold decrease_learning_rate. destruct (reset_state irestore t) as [u|] eqn:E; [|discriminate]. cbn [bind]. intros [= <-].
  apply reset_kept in E; [|exact K]. apply kept_event; [reflexivity|]. destruct E. constructor; cbn; auto.
Qed.
Lemma finish_kept t t' : kept t -> finish_validation irestore o t = Ok t' -> kept t'.
Proof using.
  intros K. unfold finish_validation. destruct (t_center t) as [f|] eqn:Ec; [|discriminate].
  set (c := median (t_samples t)). set (costs := t_costs t ++ [c]).
  assert (Ku : kept (add_event (EvValidation c) (set_costs costs t))).
  { apply kept_event; [reflexivity|]. destruct K. constructor; cbn; auto. }
  set (u := add_event _ _) in *. clearbody u. destruct (has_improved u) as [b|]; [|discriminate]. cbn [bind].
  assert (Kw : kept (if b then set_candidate_state (with_costs f costs) u else u)).
  { destruct b; [|exact Ku]. apply kept_candidate; [|exact Ku]. destruct (k_center _ K _ Ec) as [(p & E & Hp) Ht].
    split; [exists p; auto|]. cbn. destruct (f_trainer f); [discriminate|congruence]. }
  set (w := if b then _ else u) in *. clearbody w.
  match goal with |- bind ?x _ = _ -> _ => destruct x as [v|] eqn:Ev; [|discriminate] end. cbn [bind]. intros [= <-].
  apply kept_samples; [discriminate|]. revert Ev. destruct (0 <=? o_patience o)%Z; [|intros [= <-]; exact Kw].
  destruct (validations_since_candidate w) as [k|]; [|discriminate]. cbn [bind]. destruct (o_patience o <? k)%Z; [|intros [= <-]; exact Kw].
  now apply decrease_kept.
Qed.
Lemma validate_kept t t' : kept t -> validate perplexity isave irestore o t = Ok t' -> kept t'.
Proof using.
  intros K. unfold validate. destruct (negb (o_validate o)); [intros [= <-]; exact K|].
  destruct (negb (is_scheduled _ _ (o_samples o - 1) _)); [intros [= <-]; exact K|].
  set (u := add_event _ (set_samples _ (t_center t) t)).
  assert (Ku : kept u).
  { apply kept_event; [reflexivity|]. apply kept_samples; [|exact K]. intros f E. exact (k_center _ K _ E). }
  clearbody u. destruct (negb (is_scheduled _ _ (o_samples o / 2) _)); [intros [= <-]; exact Ku|].
  set (w := match t_center u with None => _ | Some _ => u end).
  assert (Kw : kept w).
  { unfold w. destruct (t_center u); [exact Ku|]. apply kept_event; [reflexivity|]. apply kept_samples; [|exact Ku].
    intros f [= <-]. apply get_state_full, (k_params _ Ku). }
  clearbody w. destruct (negb (is_scheduled _ _ 0 _)); [intros [= <-]; exact Kw|].
  destruct (_ <? _); [|now apply finish_kept]. intros [= <-]. apply kept_event; [reflexivity|]. now apply kept_samples.
Qed.
Lemma step_kept ph t ph' t' : kept t -> step next_batch update perplexity isave irestore o (ph, t) = Ok (ph', t') -> kept t'.
Proof using HP.
  intros K. destruct ph; cbn [step].
  - destruct (start_new_epoch _ _ _) as [s go]. intros [= _ <-]. destruct K. constructor; cbn; auto.
  - destruct (next_batch (t_iter t)) as [[b|] it].
    + assert (Ku : kept (update_minibatch update b it t)).
      { unfold update_minibatch. pose proof (HP (t_params t) (t_accum t) (t_lr t) b (k_params _ K)) as Hp.
        destruct (update _ _ _ b) as [p a]. apply kept_event; [reflexivity|]. destruct K. constructor; cbn; auto. }
      destruct (validate _ _ _ _ _) as [u|] eqn:E; [|discriminate]. apply validate_kept in E; [|exact Ku]. cbn [bind].
      destruct (start_new_minibatch _ _ _) as [s go]. intros [= _ <-]. destruct E. constructor; cbn; auto.
    + intros [= _ <-]. destruct K. constructor; cbn; auto.
  - intros [= _ <-].
    assert (Kw : kept (if o_validate o then t else set_candidate_state (get_state isave t) t)).
    { destruct (o_validate o); [exact K|]. apply kept_candidate; [|exact K]. apply get_state_full, (k_params _ K). }
    set (w := if o_validate o then t else _) in *. clearbody w. destruct Kw. constructor; cbn; auto.
  - intros [= _ <-]. exact K.
Qed.
Lemma steps_kept k : forall ph t ph' t', kept t -> steps next_batch update perplexity isave irestore o k (ph, t) = Ok (ph', t') -> kept t'.
Proof using HP.
  induction k as [|k IH]; intros ph t ph' t' K; cbn [steps]; [intros [= _ <-]; exact K|].
  destruct (step _ _ _ _ _ _ (ph, t)) as [[ph1 t1]|] eqn:E; [|discriminate]. cbn [bind]. apply IH. eapply step_kept; eauto.
Qed.
Lemma initialize_kept p a lr it s t : P p -> (forall p, f_params f0 = Some p -> P p) ->
  initialize irestore p a lr it s f0 = Ok t -> kept t.
Proof using.
  intros Hp Hf. unfold initialize.
  assert (K : kept (mkTstate p a lr it 1 0 [] None f0 [] None s [])) by (constructor; cbn; auto; discriminate).
  destruct (f_trainer f0); [now apply reset_kept|]. now intros [= <-].
Qed.
End Kept.

(** ** The words of the training files *)
Lemma read_lines_lines data ls : lines_of data ls -> forall fuel, length data <= fuel -> read_lines fuel data = ls.
Proof.
  induction 1 as [|l Hne Hn|l rest ls Hl H IH]; intros fuel Hf.
  - now destruct fuel.
  - destruct fuel as [|fuel]; [destruct l; [congruence|cbn in Hf; lia]|]. destruct l as [|c l]; [congruence|]. cbn [read_lines].
    rewrite readline_last by exact Hn. now destruct fuel.
  - assert (Hne : l <> []) by (destruct Hl as (b & _ & ->); now destruct b).
    destruct l as [|c l]; [congruence|]. destruct fuel as [|fuel]; [cbn in Hf; lia|].
    change ((c :: l) ++ rest) with (c :: (l ++ rest)). cbn [read_lines]. change (c :: (l ++ rest)) with ((c :: l) ++ rest).
    rewrite readline_line by exact Hl. rewrite IH; [reflexivity|]. rewrite app_length in Hf. cbn in Hf. lia.
Qed.
Lemma lines_in_all files lss : IterSpec.file_lines files lss -> map lines_in files = lss.
Proof.
  induction 1 as [|d l fs lss Hl H IH]; cbn; [reflexivity|]. rewrite IH. f_equal. now apply read_lines_lines.
Qed.

Lemma occurrences_in w l : In w l <-> occurrences w l <> 0.
Proof.
  induction l as [|x l IH]; cbn; [split; [intros []|congruence]|].
  destruct (pystr_eq_dec w x) as [->|N]; [split; [cbn; lia|now left]|cbn]. rewrite <- IH. split; [intros [E|E]; [congruence|exact E]|now right].
Qed.
Lemma occurrences_sum l ws : NoDup ws -> incl l ws -> list_sum (map (fun w => occurrences w l) ws) = length l.
Proof.
  intros N. induction l as [|x l IH]; intros I.
  - clear. induction ws; cbn; auto.
  - cbn [length]. rewrite <- IH by (intros y Hy; apply I; now right). assert (Hx : In x ws) by (apply I; now left).
    clear IH I. induction N as [|w ws Nw N IHw]; [destruct Hx|]. cbn [map list_sum].
    cbn [occurrences]. destruct (pystr_eq_dec w x) as [->|D].
    + assert (LS : forall a b, list_sum (a :: b) = a + list_sum b) by reflexivity. rewrite !LS. cbn. do 3 f_equal. apply map_ext_in. intros y Hy. destruct (pystr_eq_dec y x) as [->|]; [contradiction|reflexivity].
    + destruct Hx as [E|Hx]; [congruence|]. specialize (IHw Hx). cbn [occurrences] in IHw.
      assert (LS : forall a b, list_sum (a :: b) = a + list_sum b) by reflexivity. rewrite !LS. cbn [Nat.add]. rewrite IHw. lia.
Qed.
Lemma occurrences_filter w l : occurrences w (filter normal l) = if normal w then occurrences w l else 0.
Proof.
  induction l as [|x l IH]; cbn [filter occurrences]; [now destruct (normal w)|].
  destruct (normal x) eqn:Ex; cbn [occurrences]; rewrite IH.
  - destruct (pystr_eq_dec w x) as [->|]; [now rewrite Ex|reflexivity].
  - destruct (pystr_eq_dec w x) as [->|]; [now rewrite Ex|reflexivity].
Qed.

Lemma counts_frequency tokens words (wc : dict pystr nat) : NoDup words -> incl tokens words ->
  (forall w, In w words -> count_of wc w = occurrences w tokens) ->
  let counts := map (count_of wc) words in
  map (fun c => if 0 <? list_sum counts then (qc_of_nat c / qc_of_nat (list_sum counts))%Qc else qc_of_nat c) counts
  = map (frequency tokens) words.
Proof.
  intros N I H counts. assert (E : counts = map (fun w => occurrences w tokens) words) by (apply map_ext_in; exact H).
  rewrite E, (occurrences_sum _ _ N I), map_map. apply map_ext_in. intros w Hw. unfold frequency.
  destruct (Nat.ltb_spec 0 (length tokens)) as [L|L]; [reflexivity|]. destruct tokens; [|cbn in L; lia]. cbn. reflexivity.
Qed.

Lemma word_counts_of files us : sentences files us -> exists wc, compute_word_counts (map lines_in files) = Ok wc /\ NoDup (map fst wc) /\
  (forall w, count_of wc w = occurrences w (concat us)) /\ forall w, In w (dict_keys wc) <-> In w (concat us).
Proof.
  intros (lss & Hl & Hu). rewrite (lines_in_all _ _ Hl). destruct (C15_word_counts _ _ Hu) as (wc & E & N & H). exists wc.
  split; [exact E|]. split; [exact N|]. split.
  - intros w. unfold count_of. rewrite H. now destruct (occurrences w (concat us)).
  - intros w. rewrite (occurrences_in w (concat us)). specialize (H w). split.
    + intros I Z. rewrite Z in H. clear - I H. apply in_map_iff in I as ([w' c] & <- & I). cbn [fst] in H. apply (dict_get_none pystr_eq_dec) in H. apply H.
      apply in_map_iff. now exists (w', c).
    + intros Z. destruct (in_dec pystr_eq_dec w (dict_keys wc)) as [I|I]; [exact I|]. apply (dict_get_none pystr_eq_dec) in I. rewrite I in H.
      destruct (occurrences w (concat us)); [congruence|discriminate].
Qed.

Lemma drop_counts wc w : NoDup (map fst wc) -> count_of (drop_specials wc) w = if normal w then count_of wc w else 0.
Proof.
  intros N. unfold count_of, drop_specials, normal. destruct (in_dec pystr_eq_dec w specials) as [I|I].
  - destruct (Dict.dict_get _ _ w) as [c|] eqn:E; [|reflexivity]. apply Dict.dict_get_in in E. change (In (w, c) (drop_specials wc)) in E. apply drop_specials_in in E as [_ E]. contradiction.
  - assert (H : forall (d : dict pystr nat) k, k <> w -> Dict.dict_get pystr_eq_dec (Dict.dict_del pystr_eq_dec d k) w = Dict.dict_get pystr_eq_dec d w).
    { clear. intros d k D. induction d as [|[x y] d IH]; cbn; [reflexivity|]. destruct (pystr_eq_dec k x) as [->|]; cbn.
      - destruct (pystr_eq_dec w x); [congruence|exact IH].
      - destruct (pystr_eq_dec w x); [reflexivity|exact IH]. }
    rewrite !H; [reflexivity|intros E; apply I; rewrite <- E; cbn; auto..].
Qed.
