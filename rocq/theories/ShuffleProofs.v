(** Proofs about the shuffling iterator. *)
From Coq Require Import QArith Qabs Permutation Lqa.
From Verif Require Import Base ListLib Strings TextModel TextSpec TextProofs IterModel IterSpec IterProofs.
Local Open Scope nat_scope.

(** ** Sentence pointers *)

Lemma tagf_app k a b : tagf k (a ++ b) = tagf k a ++ tagf (k + length a) b.
Proof.
  revert k; induction a as [|x a IH]; intros k; cbn [tagf app length].
  - now rewrite Nat.add_0_r.
  - rewrite IH, <- app_assoc. now rewrite Nat.add_succ_r.
Qed.

Definition pline (files : list pystr) (p : nat * nat) : pystr * nat :=
  (readline_at (nth (fst p) files []) (snd p), fst p).

Fixpoint ranges_of (k : nat) (counts : list nat) : list (nat * nat) :=
  match counts with [] => [] | c :: cs => (k, k + c) :: ranges_of (k + c) cs end.

Lemma ranges_of_app k a b : ranges_of k (a ++ b) = ranges_of k a ++ ranges_of (k + list_sum a) b.
Proof.
  revert k; induction a as [|c a IH]; intros k; cbn [ranges_of app].
  - cbn. now rewrite Nat.add_0_r.
  - rewrite IH. do 2 f_equal. unfold list_sum; cbn [fold_right]. f_equal. lia.
Qed.

Lemma tagf_length k files : length (tagf k files) = list_sum (map (fun d => length (linesf d)) files).
Proof.
  revert k; induction files as [|d files IH]; intros k; [reflexivity|].
  cbn [tagf map]. rewrite app_length, map_length, IH. reflexivity.
Qed.

Definition pointers_inv (done : list pystr) (sp : sentence_pointers) : Prop :=
  sp_files sp = done /\
  map (pline done) (sp_pointers sp) = tagf 0 done /\
  Forall (fun p => fst p < length done) (sp_pointers sp) /\
  sp_ranges sp = ranges_of 0 (map (fun d => length (linesf d)) done).

Lemma add_file_inv done sp data :
  pointers_inv done sp -> data <> [] ->
  exists sp', add_file sp data = Ok sp' /\ pointers_inv (done ++ [data]) sp'.
Proof.
  intros (Hf & Hp & Hr & Hg) Hne.
  destruct (find_sentence_starts_lines data (linesf data) Hne (linesf_lines data)) as (starts & Es & El).
  unfold add_file. destruct data as [|c data']; [congruence|]. set (data := c :: data') in *.
  rewrite Es. cbn [bind]. eexists; split; [reflexivity|].
  unfold pointers_inv; cbn [sp_files sp_pointers sp_ranges]. rewrite Hf.
  repeat split.
  - rewrite map_app, map_map, tagf_app. cbn [tagf]. rewrite app_nil_r. f_equal.
    + rewrite <- Hp. apply map_ext_in. intros p Hin. unfold pline. f_equal. f_equal.
      rewrite Forall_forall in Hr. rewrite app_nth1 by (now apply Hr). reflexivity.
    + rewrite <- El, map_map. apply map_ext. intros x. unfold pline; cbn [fst snd].
      rewrite app_nth2, Nat.sub_diag by lia. cbn [nth]. reflexivity.
  - apply Forall_app; split.
    + eapply Forall_impl; [|exact Hr]. cbn. intros p Hlt. rewrite app_length; lia.
    + apply Forall_forall. intros p Hin. apply in_map_iff in Hin as (x & <- & _). cbn.
      rewrite app_length; cbn; lia.
  - rewrite map_app, ranges_of_app, Hg. cbn [map ranges_of]. do 2 f_equal.
    assert (Hlen : length (sp_pointers sp) = list_sum (map (fun d => length (linesf d)) done)).
    { rewrite <- (tagf_length 0), <- Hp, map_length. reflexivity. }
    rewrite app_length, map_length, Hlen. cbn [Nat.add].
    rewrite <- El, map_length. reflexivity.
Qed.

Lemma foldM_add_file files : forall done sp,
  pointers_inv done sp -> Forall (fun d => d <> []) files ->
  exists sp', foldM add_file files sp = Ok sp' /\ pointers_inv (done ++ files) sp'.
Proof.
  induction files as [|d files IH]; intros done sp Hinv Hne; cbn [foldM].
  - exists sp. split; [reflexivity|]. now rewrite app_nil_r.
  - inversion Hne as [|x l Hd Hne']; subst.
    destruct (add_file_inv done sp d Hinv Hd) as (sp' & E & Hinv').
    rewrite E. cbn [bind].
    destruct (IH (done ++ [d]) sp' Hinv' Hne') as (sp'' & E' & Hinv'').
    exists sp''. rewrite <- app_assoc in Hinv''. auto.
Qed.

Lemma make_pointers_inv files :
  Forall (fun d => d <> []) files ->
  exists sp, make_pointers files = Ok sp /\ pointers_inv files sp.
Proof.
  intros H. apply (foldM_add_file files [] (mkPointers [] [] [])); [|exact H].
  repeat split; constructor.
Qed.

(** An empty file is refused. *)
Lemma make_pointers_empty files :
  Exists (fun d => d = []) files -> make_pointers files = Err ValueError.
Proof.
  unfold make_pointers. generalize (mkPointers [] [] []) as sp.
  induction files as [|d files IH]; intros sp H; inversion H as [x l Hd|x l He]; subst; cbn [foldM].
  - reflexivity.
  - destruct d as [|c d]; [reflexivity|].
    unfold add_file. destruct (find_sentence_starts_exact (c :: d)) as (starts & E & _).
    rewrite E. cbn [bind]. apply IH. exact He.
Qed.

(** ** Rounding *)

Lemma py_round_nearest q : (Qabs (inject_Z (py_round q) - q) <= 1 # 2)%Q.
Proof.
  unfold py_round. destruct q as [n d]. cbn [Qnum Qden].
  pose proof (Z.div_mod n (Z.pos d) ltac:(lia)) as E.
  pose proof (Z.mod_pos_bound n (Z.pos d) ltac:(lia)) as B.
  set (f := (n / Z.pos d)%Z) in *. set (r := (n mod Z.pos d)%Z) in *.
  assert (A : forall z, (-(Z.pos d) <= 2 * (z * Z.pos d - n) <= Z.pos d)%Z ->
               (Qabs (inject_Z z - (n # d)) <= 1 # 2)%Q).
  { intros z Hz. apply Qabs_case; intros _; unfold Qle, Qminus, Qplus, Qopp, inject_Z; cbn; lia. }
  destruct (2 * r <? Z.pos d)%Z eqn:E1; [apply Z.ltb_lt in E1; apply A; nia|].
  apply Z.ltb_ge in E1.
  destruct (Z.pos d <? 2 * r)%Z eqn:E2; [apply Z.ltb_lt in E2; apply A; nia|].
  apply Z.ltb_ge in E2.
  destruct (Z.even f); apply A; nia.
Qed.

Lemma py_round_tie q : (Qabs (inject_Z (py_round q) - q) == 1 # 2)%Q -> Z.even (py_round q) = true.
Proof.
  unfold py_round. destruct q as [n d]. cbn [Qnum Qden].
  pose proof (Z.div_mod n (Z.pos d) ltac:(lia)) as E.
  pose proof (Z.mod_pos_bound n (Z.pos d) ltac:(lia)) as B.
  set (f := (n / Z.pos d)%Z) in *. set (r := (n mod Z.pos d)%Z) in *.
  assert (A : forall z, (Qabs (inject_Z z - (n # d)) == 1 # 2)%Q ->
               (2 * (z * Z.pos d - n) = Z.pos d \/ 2 * (z * Z.pos d - n) = - Z.pos d)%Z).
  { intros z. apply Qabs_case; intros _; unfold Qeq, Qminus, Qplus, Qopp, inject_Z; intros H; cbn in H; lia. }
  destruct (2 * r <? Z.pos d)%Z eqn:E1.
  { apply Z.ltb_lt in E1. intros H. apply A in H. nia. }
  apply Z.ltb_ge in E1.
  destruct (Z.pos d <? 2 * r)%Z eqn:E2.
  { apply Z.ltb_lt in E2. intros H. apply A in H. nia. }
  intros _. destruct (Z.even f) eqn:Ef; [exact Ef|].
  rewrite Z.add_1_r, Z.even_succ, <- Z.negb_even, Ef. reflexivity.
Qed.

Lemma py_round_1 c : py_round (1 * (c # 1)) = c.
Proof.
  unfold py_round. cbn [Qmult Qnum Qden Pos.mul].
  change (Qnum (1 * (c # 1))) with (1 * c)%Z. change (Qden (1 * (c # 1))) with 1%positive.
  rewrite Z.mul_1_l, Z.div_1_r, Z.mod_1_r. reflexivity.
Qed.

Lemma sample_sizes_spec files lss : file_lines files lss -> forall k sampling,
  let sizes := sample_sizes (ranges_of k (map (fun d => length (linesf d)) files)) sampling in
  forallb (Z.leb 0) sizes = true ->
  sizes_for lss sampling (map Z.to_nat sizes).
Proof.
  intros H. induction H as [|d lines files lss Hl Hf IH]; intros k sampling; cbn [map ranges_of sample_sizes].
  - constructor.
  - assert (El : linesf d = lines) by (apply (lines_of_functional d); auto using linesf_lines).
    rewrite El. cbn [forallb]. intros Hb. apply andb_prop in Hb as [Hb1 Hb2].
    replace (k + length lines - k) with (length lines) in * by lia.
    destruct sampling as [|q sampling]; cbn [tl map] in *.
    + rewrite py_round_1, Nat2Z.id. constructor. now apply IH with (k := k + length lines).
    + constructor; [|now apply IH with (k := k + length lines)].
      unfold rounded. apply Z.leb_le in Hb1. rewrite Z2Nat.id by exact Hb1.
      split; [exact (py_round_nearest (q * (Z.of_nat (length lines) # 1)))|].
      intros Ht. apply (py_round_tie (q * (Z.of_nat (length lines) # 1))) in Ht.
      apply Z.even_spec in Ht. destruct Ht as [m Hm]. exists (Z.to_nat m).
      change (q * inject_Z (Z.of_nat (length lines)))%Q with (q * (Z.of_nat (length lines) # 1))%Q in *. lia.
Qed.

Lemma sample_sizes_length ranges : forall sampling, length (sample_sizes ranges sampling) = length ranges.
Proof. induction ranges as [|[a b] r IH]; intros sampling; cbn; [reflexivity|now rewrite IH]. Qed.

(** ** Orders *)

Section Orders.
Variable choice : nat -> nat -> list nat -> nat -> bool -> list nat.
Variable shuffle10 : nat -> list nat -> list nat.
Hypothesis H_choice : choice_contract choice.
Hypothesis H_shuffle : shuffle_contract shuffle10.

Definition corpus_line (tl : list (pystr * nat)) (i : nat) : pystr * nat := nth i tl ([], 0).

Lemma linesf_nil_iff d : linesf d = [] <-> d = [].
Proof.
  split; [|intros ->; reflexivity]. destruct d as [|c d]; [reflexivity|]. cbn.
  destruct (N.eq_dec c newline); [discriminate|]. destruct (linesf d); discriminate.
Qed.

Lemma draw_samples_sampled draw files : Forall (fun d => d <> []) files ->
  forall k file_id pre sizes,
  length sizes = length files ->
  length pre = k ->
  sampled file_id (map linesf files) sizes
    (map (corpus_line (pre ++ tagf file_id files))
       (concat (draw_samples choice draw file_id
                  (ranges_of k (map (fun d => length (linesf d)) files)) sizes))) /\
  Forall (fun i => i < length (pre ++ tagf file_id files))
    (concat (draw_samples choice draw file_id
                  (ranges_of k (map (fun d => length (linesf d)) files)) sizes)).
Proof.
  induction 1 as [|d files Hd Hf IH]; intros k file_id pre sizes Hl Hpre;
    destruct sizes as [|size sizes]; cbn in Hl; try lia.
  - cbn. split; constructor.
  - cbn [map ranges_of draw_samples tagf concat].
    set (lines := linesf d) in *.
    replace (k + length lines - k) with (length lines) by lia.
    set (pop := seq k (length lines)).
    assert (Hpop : pop <> []).
    { unfold pop. destruct lines as [|l0 lines'] eqn:El; [|discriminate].
      exfalso. apply Hd. now apply linesf_nil_iff. }
    pose proof (H_choice draw file_id pop size (length pop <? size) Hpop (seq_NoDup _ _)) as Hc.
    set (smp := choice draw file_id pop size (length pop <? size)) in *.
    destruct Hc as (Hlen & Hincl & Hnd).
    { intros E. apply Nat.ltb_ge in E. exact E. }
    assert (Hpl : length pop = length lines) by apply seq_length.
    assert (Hin : forall i, In i smp -> k <= i < k + length lines).
    { intros i Hi. apply Hincl in Hi. now apply in_seq in Hi. }
    destruct (IH (k + length lines) (S file_id) (pre ++ map (fun l => (l, file_id)) lines) sizes)
      as [Hs Hb]; [lia|rewrite app_length, map_length; lia|].
    rewrite <- app_assoc in Hs, Hb.
    split.
    + rewrite map_app.
      assert (E : map (corpus_line (pre ++ map (fun l => (l, file_id)) lines ++ tagf (S file_id) files)) smp
                  = map (fun j => (nth j lines [], file_id)) (map (fun i => i - k) smp)).
      { rewrite map_map. apply map_ext_in. intros i Hi. apply Hin in Hi. unfold corpus_line.
        rewrite app_nth2 by lia. rewrite app_nth1 by (rewrite map_length; lia).
        rewrite Hpre.
        rewrite (nth_indep _ (@nil char : pystr, 0) (@nil char : pystr, file_id)) by (rewrite map_length; lia).
        now rewrite (map_nth (fun l => (l, file_id)) lines [] (i - k)). }
      rewrite E. constructor.
      * now rewrite map_length.
      * apply Forall_forall. intros j Hj. apply in_map_iff in Hj as (i & <- & Hi).
        apply Hin in Hi. lia.
      * intros Hle. assert (Hn : NoDup smp).
        { apply Hnd. apply Nat.ltb_ge. lia. }
        clear E Hlen Hincl Hnd. revert Hin. induction Hn as [|i smp' Hni Hn IHn]; intros Hin; cbn; constructor.
        -- intros Hj. apply in_map_iff in Hj as (j & Ej & Hj). apply Hni.
           pose proof (Hin j (or_intror Hj)). pose proof (Hin i (or_introl eq_refl)).
           replace i with j by lia. exact Hj.
        -- apply IHn. intros j Hj. apply Hin. now right.
      * exact Hs.
    + apply Forall_app. split.
      * apply Forall_forall. intros i Hi. apply Hin in Hi.
        rewrite !app_length, map_length. lia.
      * exact Hb.
Qed.

Section Files.
Variable files : list pystr.
Hypothesis H_nonempty : Forall (fun d => d <> []) files.
Variable sp : sentence_pointers.
Hypothesis H_sp : pointers_inv files sp.
Variable sizes : list nat.
Hypothesis H_sizes : length sizes = length files.

Let corpus := tagf 0 files.

(** States of the shuffling iterator over these files. *)
Definition sh_ok (d : nat) (s : shuffling) : Prop :=
  s_pointers s = sp /\ s_sizes s = sizes /\ s_draws s = d /\
  Forall (fun i => i < length corpus) (s_order s).
Definition sh_pend (s : shuffling) : list (pystr * nat) :=
  map (corpus_line corpus) (skipn (s_next_line s) (s_order s)).
Definition sh_fresh (d : nat) : shuffling :=
  shuffling_reset choice shuffle10 true (mkShuffling sp sizes 0 [] d).

Lemma sh_readline d s : sh_ok d s ->
  match sh_pend s with
  | [] => exists s', shuffling_readline s = Ok (None, s') /\ sh_ok d s' /\ sh_pend s' = []
  | x :: r => exists s', shuffling_readline s = Ok (Some x, s') /\ sh_ok d s' /\ sh_pend s' = r
  end.
Proof using H_sp.
  clear H_sizes.
  intros Hok. pose proof Hok as (Hp & Hz & Hd & Ho). unfold shuffling_readline.
  destruct (Nat.leb_spec (length (s_order s)) (s_next_line s)) as [Hle|Hlt].
  - assert (E : sh_pend s = []) by (unfold sh_pend; now rewrite skipn_all2).
    rewrite E. exists s. auto.
  - destruct (nth_error (s_order s) (s_next_line s)) as [i|] eqn:En.
    2:{ apply nth_error_None in En. lia. }
    assert (E : sh_pend s = corpus_line corpus i ::
                map (corpus_line corpus) (skipn (S (s_next_line s)) (s_order s))).
    { unfold sh_pend. now rewrite (skipn_nth_error _ _ _ En). }
    rewrite E. unfold py_index. rewrite En. cbn [bind].
    assert (Hi : i < length corpus).
    { rewrite Forall_forall in Ho. apply Ho. eapply nth_error_In; eauto. }
    destruct H_sp as (Hf & Hm & Hr & Hg).
    assert (Hi' : i < length (sp_pointers sp)).
    { unfold corpus in Hi. rewrite <- Hm, map_length in Hi. exact Hi. }
    rewrite Hp. destruct (nth_error (sp_pointers sp) i) as [[fi pos]|] eqn:Ep.
    2:{ apply nth_error_None in Ep. lia. }
    cbn [bind].
    assert (Hfi : fi < length files).
    { rewrite Forall_forall in Hr. apply (Hr (fi, pos)). eapply nth_error_In; eauto. }
    rewrite Hf. destruct (nth_error files fi) as [data|] eqn:Ed.
    2:{ apply nth_error_None in Ed. lia. }
    cbn [bind].
    assert (Ec : corpus_line corpus i = (readline_at data pos, fi)).
    { unfold corpus_line, corpus. rewrite <- Hm.
      rewrite (nth_indep _ _ (pline files (fi, pos))) by (rewrite map_length; exact Hi').
      rewrite map_nth. rewrite (nth_error_nth _ _ _ Ep). unfold pline; cbn [fst snd].
      now rewrite (nth_error_nth _ _ _ Ed). }
    rewrite Ec. eexists; split; [reflexivity|]. split; [|reflexivity].
    repeat split; cbn; auto.
Qed.

Lemma sh_reset d s : sh_ok d s -> shuffling_reset choice shuffle10 true s = sh_fresh d.
Proof using. intros (Hp & Hz & Hd & Ho). unfold sh_fresh, shuffling_reset. cbn. now rewrite Hp, Hz, Hd. Qed.

Lemma sh_fresh_spec d :
  sh_ok (S d) (sh_fresh d) /\ s_next_line (sh_fresh d) = 0 /\
  exists sample, sampled 0 (map linesf files) sizes sample /\ Permutation sample (sh_pend (sh_fresh d)).
Proof using All.
  destruct H_sp as (Hf & Hm & Hr & Hg).
  destruct (draw_samples_sampled d files H_nonempty 0 0 [] sizes H_sizes eq_refl) as [Hs Hb].
  unfold sh_fresh, shuffling_reset; cbn [s_pointers s_sizes s_draws s_order s_next_line].
  rewrite Hg. cbn [app] in *.
  set (order := concat (draw_samples choice d 0 (ranges_of 0 (map (fun d0 => length (linesf d0)) files)) sizes)) in *.
  repeat split.
  - cbn. eapply Permutation_Forall; [apply H_shuffle|exact Hb].
  - eexists; split; [exact Hs|]. unfold sh_pend; cbn [s_next_line s_order skipn].
    apply Permutation_map. apply H_shuffle.
Qed.

Lemma sh_reset_false d s : sh_ok d s -> sh_ok d (shuffling_reset choice shuffle10 false s).
Proof using. intros (Hp & Hz & Hd & Ho). repeat split; cbn; auto. Qed.

End Files.
End Orders.

(** A sample of all the lines of every file is a permutation of the lines. *)
Lemma sampled_full k lss sample : forall (Hs : sampled k lss (map (@length _) lss) sample),
  forall files, file_lines files lss -> Permutation (tagf k files) sample.
Proof.
  revert k sample. induction lss as [|lines lss IH]; intros k sample Hs files Hf; inversion Hf as [|d x fs y Hl Hf' Ea Eb]; subst.
  - inversion Hs; subst. constructor.
  - cbn [map] in Hs. inversion Hs as [|k' lines' lss' size sizes idx rest Hlen Hb Hn Hs']; subst.
    cbn [tagf]. change (Permutation (map (fun l => (l, k)) (linesf d) ++ tagf (S k) fs) (map (fun j => (nth j lines [], k)) idx ++ rest)).
    rewrite <- (lines_of_functional _ _ _ Hl (linesf_lines d)).
    apply Permutation_app; [|now apply IH].
    assert (Hp : Permutation (seq 0 (length lines)) idx).
    { symmetry. apply NoDup_Permutation_bis.
      - now apply Hn.
      - rewrite seq_length. lia.
      - intros j Hj. rewrite Forall_forall in Hb. apply in_seq. pose proof (Hb j Hj). lia. }
    apply (Permutation_map (fun j => (nth j lines [], k))) in Hp.
    rewrite <- Hp. apply Permutation_refl'. clear.
    rewrite <- (map_map (fun j => nth j lines []) (fun l => (l, k))). apply f_equal.
    apply nth_error_ext. intros j. rewrite nth_error_map, nth_error_seq.
    destruct (Nat.ltb_spec j (length lines)) as [Hj|Hj]; cbn [option_map Nat.add].
    + now apply nth_error_nth'.
    + now apply nth_error_None.
Qed.

Lemma file_lines_linesf files lss : file_lines files lss -> lss = map linesf files.
Proof.
  induction 1 as [|d lines files lss Hl Hf IH]; cbn; [reflexivity|].
  rewrite (lines_of_functional _ _ _ Hl (linesf_lines d)). now f_equal.
Qed.

(** ** Whole epochs *)

Notation sh_epoch choice shuffle10 :=
  (epoch shuffling shuffling_readline (shuffling_reset choice shuffle10)).
Notation sh_epochs choice shuffle10 :=
  (epochs shuffling shuffling_readline (shuffling_reset choice shuffle10)).

Lemma shuffling_init_spec choice shuffle10 files lss sampling s :
  file_lines files lss ->
  shuffling_init choice shuffle10 files sampling = Ok s ->
  Forall (fun d => d <> []) files /\
  exists sp sizes, pointers_inv files sp /\ length sizes = length files /\
    sizes_for lss sampling sizes /\ s = sh_fresh choice shuffle10 sp sizes 0.
Proof.
  intros Hl H. unfold shuffling_init in H.
  assert (Hne : Forall (fun d => d <> []) files).
  { destruct (Forall_Exists_dec (fun d : pystr => d <> [])
               (fun d => match d with [] => right (fun H => H eq_refl)
                         | c :: d' => left (fun E => eq_ind (c :: d') (fun x => match x with [] => False | _ => True end) I [] E) end) files) as [Hf|He]; [exact Hf|].
    rewrite make_pointers_empty in H; [discriminate|].
    eapply Exists_impl; [|exact He]. intros d Hd. destruct d; [reflexivity|]. exfalso. apply Hd. discriminate. }
  split; [exact Hne|].
  destruct (make_pointers_inv files Hne) as (sp & Es & Hinv). rewrite Es in H. cbn [bind] in H.
  destruct (forallb (Z.leb 0) (sample_sizes (sp_ranges sp) sampling)) eqn:Eb; [|discriminate].
  pose proof Hinv as (Hf & Hm & Hr & Hg).
  exists sp, (map Z.to_nat (sample_sizes (sp_ranges sp) sampling)).
  split; [exact Hinv|]. split; [|split].
  - rewrite map_length, sample_sizes_length, Hg.
    clear. generalize 0. induction files as [|d files IH]; intros k; cbn; [reflexivity|now rewrite IH].
  - rewrite Hg in *. now apply (sample_sizes_spec files lss Hl 0 sampling).
  - injection H as <-. reflexivity.
Qed.

(** Non-negative fractions and non-empty files are accepted. *)
Lemma shuffling_init_ok choice shuffle10 files sampling :
  Forall (fun d => d <> []) files -> Forall (fun q => 0 <= q)%Q sampling ->
  exists s, shuffling_init choice shuffle10 files sampling = Ok s.
Proof.
  intros Hne Hs. unfold shuffling_init.
  destruct (make_pointers_inv files Hne) as (sp & Es & _). rewrite Es. cbn [bind].
  assert (E : forallb (Z.leb 0) (sample_sizes (sp_ranges sp) sampling) = true).
  { clear Es. revert sampling Hs. induction (sp_ranges sp) as [|[a b] r IH]; intros sampling Hs; [reflexivity|].
    cbn [sample_sizes forallb]. apply andb_true_intro. split.
    - apply Z.leb_le.
      assert (Hq : (0 <= match sampling with [] => 1%Q | f :: _ => f end)%Q).
      { destruct Hs; [discriminate|assumption]. }
      set (q := match sampling with [] => 1%Q | f :: _ => f end) in *.
      pose proof (py_round_nearest (q * (Z.of_nat (b - a) # 1))) as Hr.
      set (z := py_round (q * (Z.of_nat (b - a) # 1))) in *.
      assert (H0 : (0 <= q * (Z.of_nat (b - a) # 1))%Q).
      { apply Qmult_le_0_compat; [exact Hq|]. unfold Qle; cbn. lia. }
      apply Qabs_Qle_condition in Hr as [Hr1 Hr2].
      assert (H1 : (- (1 # 2) <= inject_Z z)%Q) by lra.
      unfold Qle, inject_Z in H1; cbn in H1. lia.
    - apply IH. destruct Hs; [constructor|assumption]. }
  rewrite E. eexists; reflexivity.
Qed.

Lemma sizes_for_full lss sampling sizes :
  sizes_for lss sampling sizes -> Forall (fun q => q == 1)%Q sampling -> sizes = map (@length _) lss.
Proof.
  induction 1 as [fr|lines lss sizes H IH|lines lss fraction fr size sizes Hr H IH]; intros Hq; cbn [map].
  - reflexivity.
  - now rewrite IH.
  - inversion Hq as [|x l Hx Hl]; subst. rewrite IH by exact Hl. f_equal.
    destruct Hr as [Hr _]. apply Qabs_Qle_condition in Hr as [H1 H2].
    rewrite Hx in H1, H2.
    rewrite Qmult_1_l in H1, H2. remember (Z.of_nat (length lines)) as zl eqn:Ezl.
    remember (Z.of_nat size) as zs eqn:Ezs.
    unfold Qle, Qminus, Qplus, Qopp, inject_Z in H1, H2; cbn in H1, H2. lia.
Qed.

Definition epoch_of_sample (lss : list (list pystr)) (sizes : list nat) (max_len : option nat)
  (batch_size : nat) (batches : list (list sequence)) : Prop :=
  exists sample ls ss,
    sampled 0 lss sizes sample /\ Permutation sample ls /\
    lines_sequences max_len ls ss /\ cut_into batch_size ss batches.

Lemma sh_epochs_spec choice shuffle10 files sp sizes batch_size max_len :
  choice_contract choice -> shuffle_contract shuffle10 ->
  Forall (fun d => d <> []) files -> pointers_inv files sp -> length sizes = length files ->
  1 <= batch_size -> valid_max max_len ->
  forall n d, exists fuel0, forall fuel, fuel0 <= fuel ->
  exists bss st', sh_epochs choice shuffle10 batch_size max_len fuel n
      (batch_init (sh_fresh choice shuffle10 sp sizes d)) = Ok (bss, st') /\
    length bss = n /\
    Forall (epoch_of_sample (map linesf files) sizes max_len batch_size) bss.
Proof.
  intros Hc Hs Hne Hsp Hsz Hb Hm.
  induction n as [|n IH]; intros d.
  - exists 0. intros fuel _. exists [], (batch_init (sh_fresh choice shuffle10 sp sizes d)). repeat split. constructor.
  - destruct (IH (S d)) as (fuel1 & Hrest).
    destruct (sh_fresh_spec choice shuffle10 Hc Hs files Hne sp Hsp sizes Hsz d) as (Hok & Hn0 & sample & Hsm & Hp).
    set (st := batch_init (sh_fresh choice shuffle10 sp sizes d)).
    exists (max fuel1 (work shuffling (sh_pend files) st + 2)). intros fuel Hf.
    destruct (epoch_spec shuffling shuffling_readline (shuffling_reset choice shuffle10) batch_size max_len
                (sh_ok files sp sizes (S d)) (sh_pend files) (sh_fresh choice shuffle10 sp sizes (S d))
                (sh_readline files sp Hsp sizes (S d)) (sh_reset choice shuffle10 files sp sizes (S d)) Hb Hm
                fuel st Hok eq_refl ltac:(lia)) as (batches & E & Hcut).
    destruct (Hrest fuel ltac:(lia)) as (bss & st' & E' & Hl & Hall).
    exists (batches :: bss), st'. cbn [epochs]. rewrite E. cbn [bind]. unfold fresh_state. rewrite E'.
    cbn [bind]. repeat split; [cbn; lia|]. constructor; [|exact Hall].
    exists sample, (sh_pend files (b_src st)), (flat_map (line_seqs max_len) (sh_pend files (b_src st))).
    split; [exact Hsm|]. split; [exact Hp|]. split; [now apply lines_sequences_flat_map|].
    exact Hcut.
Qed.

Lemma sh_epochs_from_init choice shuffle10 files lss sampling batch_size max_len s :
  choice_contract choice -> shuffle_contract shuffle10 ->
  file_lines files lss -> shuffling_init choice shuffle10 files sampling = Ok s ->
  1 <= batch_size -> valid_max max_len ->
  exists sizes, sizes_for lss sampling sizes /\
  forall n, exists fuel0, forall fuel, fuel0 <= fuel ->
  exists bss st', sh_epochs choice shuffle10 batch_size max_len fuel n (batch_init s) = Ok (bss, st') /\
    length bss = n /\ Forall (epoch_of_sample lss sizes max_len batch_size) bss.
Proof.
  intros Hc Hs Hl Hi Hb Hm.
  destruct (shuffling_init_spec _ _ _ _ _ _ Hl Hi) as (Hne & sp & sizes & Hsp & Hsz & Hsf & ->).
  exists sizes. split; [exact Hsf|]. intros n.
  rewrite (file_lines_linesf _ _ Hl).
  now apply sh_epochs_spec.
Qed.

Lemma sh_epochs_permutation choice shuffle10 files lss ls sampling batch_size max_len s :
  choice_contract choice -> shuffle_contract shuffle10 ->
  file_lines files lss -> tagged_lines 0 files ls ->
  Forall (fun q => q == 1)%Q sampling ->
  shuffling_init choice shuffle10 files sampling = Ok s ->
  1 <= batch_size -> valid_max max_len ->
  forall n, exists fuel0, forall fuel, fuel0 <= fuel ->
  exists bss st', sh_epochs choice shuffle10 batch_size max_len fuel n (batch_init s) = Ok (bss, st') /\
    length bss = n /\
    Forall (fun batches => exists ls' ss, Permutation ls ls' /\ lines_sequences max_len ls' ss /\
                                          cut_into batch_size ss batches) bss.
Proof.
  intros Hc Hs Hl Ht Hq Hi Hb Hm n.
  destruct (sh_epochs_from_init _ _ _ _ _ _ _ _ Hc Hs Hl Hi Hb Hm) as (sizes & Hsf & H).
  destruct (H n) as (fuel0 & Hf). exists fuel0. intros fuel Hle.
  destruct (Hf fuel Hle) as (bss & st' & E & Hlen & Hall).
  exists bss, st'. repeat split; auto. eapply Forall_impl; [|exact Hall].
  intros batches (sample & ls' & ss & Hsm & Hp & Hls & Hcut).
  exists ls', ss. split; [|auto].
  rewrite (sizes_for_full _ _ _ Hsf Hq) in Hsm.
  rewrite (tagged_lines_unique _ _ _ Ht).
  transitivity sample; [|exact Hp]. now apply (sampled_full 0 lss).
Qed.

(** ** Resuming *)

Section Reach.
Variable choice : nat -> nat -> list nat -> nat -> bool -> list nat.
Variable shuffle10 : nat -> list nat -> list nat.
Hypothesis H_choice : choice_contract choice.
Hypothesis H_shuffle : shuffle_contract shuffle10.
Variable files : list pystr.
Hypothesis H_nonempty : Forall (fun d => d <> []) files.
Variable sp : sentence_pointers.
Hypothesis H_sp : pointers_inv files sp.
Variable sizes : list nat.
Hypothesis H_sizes : length sizes = length files.
Variable batch_size : nat.
Variable max_len : option nat.

Notation reset := (shuffling_reset choice shuffle10).

Definition st_inv (st : bstate shuffling) : Prop :=
  (exists d, sh_ok files sp sizes d (b_src st)) /\
  (b_eof st = true -> b_buffer st = [] /\ sh_pend files (b_src st) = []) /\
  (max_len = None -> b_buffer st = []).

Lemma read_sequence_inv d st r st' :
  sh_ok files sp sizes d (b_src st) -> (max_len = None -> b_buffer st = []) ->
  read_sequence shuffling shuffling_readline max_len st = Ok (r, st') ->
  sh_ok files sp sizes d (b_src st') /\ b_eof st' = b_eof st /\ (max_len = None -> b_buffer st' = []) /\
  (r = None -> b_buffer st' = [] /\ sh_pend files (b_src st') = []).
Proof using H_sp.
  intros Hok Hb H. unfold read_sequence in H.
  destruct (b_buffer st) as [|x b] eqn:Eb.
  - pose proof (sh_readline files sp H_sp sizes d _ Hok) as Hr.
    destruct (sh_pend files (b_src st)) as [|[line k] rest].
    + destruct Hr as (s' & E & Hok' & Hp). rewrite E in H. cbn [bind] in H.
      injection H as <- <-. cbn. auto.
    + destruct Hr as (s' & E & Hok' & Hp). rewrite E in H. cbn [bind] in H.
      rewrite utterance_parse in H. cbn [bind] in H. unfold take_from_buffer in H.
      destruct max_len; injection H as <- <-; cbn; (split; [assumption|split; [reflexivity|split; intros; (discriminate||reflexivity)]]).
  - unfold take_from_buffer in H. destruct max_len; injection H as <- <-; cbn; (split; [assumption|split; [reflexivity|split; intros; (discriminate||reflexivity)]]).
Qed.

Lemma next_loop_inv fuel : forall d st acc r st',
  sh_ok files sp sizes d (b_src st) -> (max_len = None -> b_buffer st = []) -> b_eof st = false ->
  next_loop shuffling shuffling_readline reset batch_size max_len fuel st acc = Ok (r, st') ->
  st_inv st'.
Proof using All.
  induction fuel as [|fuel IH]; intros d st acc r st' Hok Hb He H; [discriminate|].
  cbn [next_loop] in H.
  destruct (read_sequence shuffling shuffling_readline max_len st) as [[q st1]|] eqn:E; [|discriminate].
  cbn [bind] in H. destruct (read_sequence_inv d st q st1 Hok Hb E) as (Hok1 & He1 & Hb1 & Hn1).
  destruct q as [q|].
  - destruct (length q <? 2).
    + eapply IH; [exact Hok1|exact Hb1|congruence|exact H].
    + destruct (batch_size <=? length (acc ++ [q])).
      * injection H as <- <-. split; [eauto|]. split; [|exact Hb1]. rewrite He1, He. discriminate.
      * eapply IH; [exact Hok1|exact Hb1|congruence|exact H].
  - destruct (Hn1 eq_refl) as [Hn2 Hn3]. destruct acc.
    + assert (E' : st' = mkB (reset true (b_src st1)) (b_buffer st1) (b_eof st1)) by congruence.
      subst st'. split; [|split].
      * exists (S d). cbn [b_src]. rewrite (sh_reset choice shuffle10 files sp sizes d _ Hok1).
        now apply (sh_fresh_spec choice shuffle10 H_choice H_shuffle files H_nonempty sp H_sp sizes H_sizes d).
      * cbn. rewrite He1, He. discriminate.
      * cbn. auto.
    + injection H as <- <-. repeat split; cbn; auto. eauto.
Qed.

Lemma st_inv_next fuel st r st' :
  st_inv st -> next_sequences shuffling shuffling_readline reset batch_size max_len fuel st = Ok (r, st') ->
  st_inv st'.
Proof using All.
  intros ((d & Hok) & He & Hb) H. unfold next_sequences in H.
  destruct (b_eof st) eqn:Ee.
  - assert (E' : st' = mkB (reset true (b_src st)) (b_buffer st) false) by congruence.
    subst st'. destruct (He eq_refl) as [He1 He2]. split; [|split].
    + exists (S d). cbn [b_src]. rewrite (sh_reset choice shuffle10 files sp sizes d _ Hok).
      now apply (sh_fresh_spec choice shuffle10 H_choice H_shuffle files H_nonempty sp H_sp sizes H_sizes d).
    + cbn. discriminate.
    + cbn. auto.
  - eapply next_loop_inv; eauto.
Qed.

Lemma count_loop_inv fuel : forall d st n r st',
  sh_ok files sp sizes d (b_src st) -> (max_len = None -> b_buffer st = []) ->
  count_loop shuffling shuffling_readline max_len fuel st n = Ok (r, st') ->
  sh_ok files sp sizes d (b_src st') /\ b_eof st' = b_eof st /\ (max_len = None -> b_buffer st' = []).
Proof using H_sp.
  induction fuel as [|fuel IH]; intros d st n r st' Hok Hb H; [discriminate|].
  cbn [count_loop] in H.
  destruct (read_sequence shuffling shuffling_readline max_len st) as [[q st1]|] eqn:E; [|discriminate].
  cbn [bind] in H. destruct (read_sequence_inv d st q st1 Hok Hb E) as (Hok1 & He1 & Hb1 & _).
  destruct q as [q|].
  - rewrite <- He1. destruct (length q <? 2); eapply IH; eauto.
  - injection H as <- <-. auto.
Qed.

Lemma st_inv_len fuel st n st' :
  st_inv st -> b_eof st = false ->
  iter_len shuffling shuffling_readline reset batch_size max_len fuel st = Ok (n, st') ->
  st_inv st'.
Proof using All.
  intros ((d & Hok) & _ & Hb) He H. unfold iter_len in H.
  destruct (count_loop _ _ _ _ _ _) as [[m st1]|] eqn:E; [|discriminate].
  cbn [bind] in H.
  destruct (count_loop_inv fuel d (mkB (reset false (b_src st)) (b_buffer st) (b_eof st)) 0 m st1
              (sh_reset_false choice shuffle10 files sp sizes d _ Hok) Hb E) as (Ho & Ee & Hb1).
  assert (E' : st' = mkB (reset false (b_src st1)) (b_buffer st1) (b_eof st1))
    by (destruct batch_size; congruence).
  subst st'. split; [|split]; cbn [b_src b_eof b_buffer].
  - exists d. now apply (sh_reset_false choice shuffle10) in Ho.
  - rewrite Ee. cbn. rewrite He. discriminate.
  - exact Hb1.
Qed.

Lemma st_inv_reach st :
  iter_reachable shuffling shuffling_readline reset batch_size max_len (sh_fresh choice shuffle10 sp sizes 0) st ->
  st_inv st.
Proof using All.
  induction 1 as [|fuel st r st' Hr IH H|fuel st n st' Hr IH He H].
  - split; [|split]; [|discriminate|reflexivity].
    exists 1. now apply (sh_fresh_spec choice shuffle10 H_choice H_shuffle files H_nonempty sp H_sp sizes H_sizes 0).
  - eapply st_inv_next; eauto.
  - eapply st_inv_len; eauto.
Qed.

End Reach.

(** All that remains of the epoch, whatever the state. *)
Lemma st_epoch choice shuffle10 files sp sizes batch_size max_len st :
  pointers_inv files sp -> 1 <= batch_size -> valid_max max_len ->
  st_inv files sp sizes max_len st ->
  exists fuel0, forall fuel, fuel0 <= fuel -> exists e,
    sh_epoch choice shuffle10 batch_size max_len fuel st
    = Ok (cut batch_size (pendseqs shuffling max_len (sh_pend files) st), e).
Proof.
  intros Hsp Hb Hm ((d & Hok) & He & Hbuf).
  exists (work shuffling (sh_pend files) st + 2). intros fuel Hf.
  destruct (b_eof st) eqn:Ee.
  - destruct (He eq_refl) as [E1 E2].
    assert (Ep : pendseqs shuffling max_len (sh_pend files) st = []).
    { unfold pendseqs. now rewrite E1, E2. }
    rewrite Ep. eexists.
    apply (epoch_eof shuffling shuffling_readline (shuffling_reset choice shuffle10) batch_size max_len
             (sh_ok files sp sizes d) (sh_fresh choice shuffle10 sp sizes d)
             (sh_reset choice shuffle10 files sp sizes d)); auto. lia.
  - destruct (epoch_spec shuffling shuffling_readline (shuffling_reset choice shuffle10) batch_size max_len
                (sh_ok files sp sizes d) (sh_pend files) (sh_fresh choice shuffle10 sp sizes d)
                (sh_readline files sp Hsp sizes d) (sh_reset choice shuffle10 files sp sizes d) Hb Hm
                fuel st Hok Ee ltac:(lia)) as (batches & E & Hcut).
    apply (cut_into_unique _ _ _ Hb) in Hcut. subst batches. eexists. exact E.
Qed.

Lemma make_pointers_unique files sp sp' :
  Forall (fun d => d <> []) files -> pointers_inv files sp -> pointers_inv files sp' ->
  sp_files sp = sp_files sp' /\ sp_ranges sp = sp_ranges sp'.
Proof. intros _ (A & _ & _ & B) (A' & _ & _ & B'). split; congruence. Qed.

(** What the restored iterator delivers compared with the original: everything
    but the rest of the sentence that was being cut. *)
Lemma resume_general choice1 shuffle1 choice2 shuffle2 files sampling1 sampling2 batch_size max_len s1 s2 st :
  choice_contract choice1 -> shuffle_contract shuffle1 ->
  1 <= batch_size -> valid_max max_len ->
  shuffling_init choice1 shuffle1 files sampling1 = Ok s1 ->
  shuffling_init choice2 shuffle2 files sampling2 = Ok s2 ->
  iter_reachable shuffling shuffling_readline (shuffling_reset choice1 shuffle1) batch_size max_len s1 st ->
  s_order (b_src st) <> [] ->
  exists st2,
    shuffling_iter_set_state (Some (shuffling_iter_get_state st)) (batch_init s2) = Ok st2 /\
    exists pieces rest fuel0,
      cut_into (match max_len with Some m => m | None => length (b_buffer st) end) (b_buffer st) pieces /\
      forall fuel, fuel0 <= fuel -> exists b1 b2 e1 e2,
      sh_epoch choice1 shuffle1 batch_size max_len fuel st = Ok (b1, e1) /\
      sh_epoch choice2 shuffle2 batch_size max_len fuel st2 = Ok (b2, e2) /\
      cut_into batch_size (filter (fun p => 2 <=? length p) pieces ++ rest) b1 /\
      cut_into batch_size rest b2.
Proof.
  intros Hc Hs Hb Hm H1 H2 Hreach Hne.
  set (lss := map linesf files).
  assert (Hl : file_lines files lss).
  { unfold lss. clear. induction files as [|d files IH]; cbn; constructor; auto using linesf_lines. }
  destruct (shuffling_init_spec _ _ _ _ _ _ Hl H1) as (Hnf & sp & sizes & Hsp & Hsz & _ & ->).
  destruct (shuffling_init_spec _ _ _ _ _ _ Hl H2) as (_ & sp2 & sizes2 & Hsp2 & Hsz2 & _ & ->).
  pose proof (st_inv_reach choice1 shuffle1 Hc Hs files Hnf sp Hsp sizes Hsz batch_size max_len st Hreach) as Hinv.
  unfold shuffling_iter_set_state, shuffling_iter_get_state, shuffling_set_state, shuffling_get_state.
  cbn [is_order is_next_line]. destruct (s_order (b_src st)) as [|i order] eqn:Eo; [congruence|].
  cbn [bind]. eexists; split; [reflexivity|].
  set (st2 := mkB _ _ _).
  assert (Hinv2 : st_inv files sp2 sizes2 max_len st2).
  { destruct Hinv as ((d & Hp & Hz & Hd & Ho) & _ & _). split; [|split].
    - exists 1. repeat split; try reflexivity. cbn. rewrite Eo in Ho. exact Ho.
    - cbn. discriminate.
    - reflexivity. }
  destruct (st_epoch choice1 shuffle1 files sp sizes batch_size max_len st Hsp Hb Hm Hinv) as (f1 & E1).
  destruct (st_epoch choice2 shuffle2 files sp2 sizes2 batch_size max_len st2 Hsp2 Hb Hm Hinv2) as (f2 & E2).
  exists (pieces max_len (b_buffer st)), (flat_map (line_seqs max_len) (sh_pend files (b_src st))), (max f1 f2).
  split.
  { unfold pieces. destruct (b_buffer st) as [|x b]; [constructor|].
    destruct max_len as [m|]; [now apply cut_into_cut|]. constructor; [discriminate|lia]. }
  intros fuel Hf.
  destruct (E1 fuel ltac:(lia)) as (e1 & E1'). destruct (E2 fuel ltac:(lia)) as (e2 & E2').
  do 4 eexists. split; [exact E1'|]. split; [exact E2'|]. split.
  - apply cut_into_cut. exact Hb.
  - replace (flat_map (line_seqs max_len) (sh_pend files (b_src st)))
      with (pendseqs shuffling max_len (sh_pend files) st2); [now apply cut_into_cut|].
    unfold pendseqs, st2. cbn [b_buffer b_src pieces filter app].
    unfold sh_pend; cbn [s_next_line s_order]. rewrite Eo. reflexivity.
Qed.

Lemma resume_exact choice1 shuffle1 choice2 shuffle2 files sampling1 sampling2 batch_size max_len s1 s2 st :
  choice_contract choice1 -> shuffle_contract shuffle1 ->
  1 <= batch_size -> valid_max max_len ->
  shuffling_init choice1 shuffle1 files sampling1 = Ok s1 ->
  shuffling_init choice2 shuffle2 files sampling2 = Ok s2 ->
  iter_reachable shuffling shuffling_readline (shuffling_reset choice1 shuffle1) batch_size max_len s1 st ->
  s_order (b_src st) <> [] ->
  b_buffer st = [] ->
  exists st2,
    shuffling_iter_set_state (Some (shuffling_iter_get_state st)) (batch_init s2) = Ok st2 /\
    exists batches fuel0, forall fuel, fuel0 <= fuel -> exists e1 e2,
      sh_epoch choice1 shuffle1 batch_size max_len fuel st = Ok (batches, e1) /\
      sh_epoch choice2 shuffle2 batch_size max_len fuel st2 = Ok (batches, e2).
Proof.
  intros Hc Hs Hb Hm H1 H2 Hreach Hne Hbuf.
  destruct (resume_general _ _ _ _ _ _ _ _ _ _ _ _ Hc Hs Hb Hm H1 H2 Hreach Hne)
    as (st2 & Est & ps & rest & fuel0 & Hps & H).
  exists st2. split; [exact Est|]. exists (cut batch_size rest), fuel0. intros fuel Hf.
  destruct (H fuel Hf) as (b1 & b2 & e1 & e2 & E1 & E2 & C1 & C2).
  rewrite Hbuf in Hps. apply cut_into_nil_inv in Hps. subst ps.
  cbn [filter app] in C1.
  apply (cut_into_unique _ _ _ Hb) in C1. apply (cut_into_unique _ _ _ Hb) in C2. subst.
  exists e1, e2. auto.
Qed.

(** Without a maximum length nothing is ever buffered between mini-batches. *)
Lemma no_cut_no_buffer choice shuffle10 files sampling batch_size s st :
  choice_contract choice -> shuffle_contract shuffle10 ->
  shuffling_init choice shuffle10 files sampling = Ok s ->
  iter_reachable shuffling shuffling_readline (shuffling_reset choice shuffle10) batch_size None s st ->
  b_buffer st = [].
Proof.
  intros Hc Hs Hi Hreach.
  assert (Hl : file_lines files (map linesf files)).
  { clear. induction files as [|d files IH]; cbn; constructor; auto using linesf_lines. }
  destruct (shuffling_init_spec _ _ _ _ _ _ Hl Hi) as (Hnf & sp & sizes & Hsp & Hsz & _ & ->).
  destruct (st_inv_reach choice shuffle10 Hc Hs files Hnf sp Hsp sizes Hsz batch_size None st Hreach)
    as (_ & _ & Hbuf). now apply Hbuf.
Qed.

(** ** Length of a fresh shuffling iterator *)

Lemma sh_readline_order files sp sizes d order (Hsp : pointers_inv files sp) :
  let ok s := sh_ok files sp sizes d s /\ s_order s = order in
  forall s, ok s ->
  match sh_pend files s with
  | [] => exists s', shuffling_readline s = Ok (None, s') /\ ok s' /\ sh_pend files s' = []
  | x :: r => exists s', shuffling_readline s = Ok (Some x, s') /\ ok s' /\ sh_pend files s' = r
  end.
Proof.
  intros ok s [Hok Ho]. pose proof (sh_readline files sp Hsp sizes d s Hok) as H.
  assert (Hkeep : forall r s', shuffling_readline s = Ok (r, s') -> s_order s' = order).
  { intros r s' E. unfold shuffling_readline in E.
    destruct (length (s_order s) <=? s_next_line s); [congruence|].
    destruct (py_index (s_order s) (s_next_line s)) as [i|]; [|discriminate]. cbn [bind] in E.
    destruct (py_index (sp_pointers (s_pointers s)) i) as [[a b]|]; [|discriminate]. cbn [bind] in E.
    destruct (py_index (sp_files (s_pointers s)) a) as [data|]; [|discriminate]. cbn [bind] in E.
    assert (E' : s' = mkShuffling (s_pointers s) (s_sizes s) (S (s_next_line s)) (s_order s) (s_draws s)) by congruence.
    subst s'. exact Ho. }
  destruct (sh_pend files s) as [|x r]; destruct H as (s' & E & Hok' & Hp); exists s';
    (split; [exact E|split; [split; [exact Hok'|eapply Hkeep; exact E]|exact Hp]]).
Qed.

Lemma sh_len_spec choice shuffle10 files sampling batch_size max_len s :
  choice_contract choice -> shuffle_contract shuffle10 ->
  shuffling_init choice shuffle10 files sampling = Ok s ->
  1 <= batch_size -> valid_max max_len ->
  exists fuel0 batches st', forall fuel, fuel0 <= fuel ->
    iter_len shuffling shuffling_readline (shuffling_reset choice shuffle10) batch_size max_len fuel (batch_init s)
    = Ok (length batches, batch_init s) /\
    sh_epoch choice shuffle10 batch_size max_len fuel (batch_init s) = Ok (batches, st').
Proof.
  intros Hc Hs Hi Hb Hm.
  assert (Hl : file_lines files (map linesf files)).
  { clear. induction files as [|d files IH]; cbn; constructor; auto using linesf_lines. }
  destruct (shuffling_init_spec _ _ _ _ _ _ Hl Hi) as (Hne & sp & sizes & Hsp & Hsz & _ & ->).
  destruct (sh_fresh_spec choice shuffle10 Hc Hs files Hne sp Hsp sizes Hsz 0) as (Hok & Hn0 & _).
  set (s := sh_fresh choice shuffle10 sp sizes 0) in *.
  exists (work shuffling (sh_pend files) (batch_init s) + 2),
         (cut batch_size (pendseqs shuffling max_len (sh_pend files) (batch_init s))),
         (batch_init (sh_fresh choice shuffle10 sp sizes 1)).
  intros fuel Hf. split.
  - unfold iter_len. cbn [batch_init b_src b_buffer b_eof].
    assert (Er : shuffling_reset choice shuffle10 false s = s) by reflexivity.
    rewrite Er.
    destruct (count_loop_spec shuffling shuffling_readline max_len
                (fun x => sh_ok files sp sizes 1 x /\ s_order x = s_order s) (sh_pend files)
                (sh_readline_order files sp sizes 1 (s_order s) Hsp) Hm fuel (batch_init s) 0
                (conj Hok eq_refl) ltac:(lia)) as (s' & E & (Hp' & Hz' & Hd' & _) & Ho').
    unfold batch_init in E. rewrite E. cbn [bind b_src b_buffer b_eof].
    assert (Er' : shuffling_reset choice shuffle10 false s' = s).
    { unfold shuffling_reset. rewrite Hp', Hz', Hd', Ho'. reflexivity. }
    rewrite Er'.
    rewrite (cut_into_count _ _ _ Hb (cut_into_cut batch_size Hb (pendseqs shuffling max_len (sh_pend files) (batch_init s)))).
    destruct batch_size as [|b]; [lia|]. reflexivity.
  - destruct (epoch_spec shuffling shuffling_readline (shuffling_reset choice shuffle10) batch_size max_len
                (sh_ok files sp sizes 1) (sh_pend files) (sh_fresh choice shuffle10 sp sizes 1)
                (sh_readline files sp Hsp sizes 1) (sh_reset choice shuffle10 files sp sizes 1) Hb Hm
                fuel (batch_init s) Hok eq_refl Hf) as (batches & E & Hcut).
    apply (cut_into_unique _ _ _ Hb) in Hcut. subst batches. exact E.
Qed.

Lemma sh_sizes_spec choice shuffle10 files sampling batch_size max_len s :
  choice_contract choice -> shuffle_contract shuffle10 ->
  shuffling_init choice shuffle10 files sampling = Ok s ->
  1 <= batch_size -> valid_max max_len ->
  exists fuel0 batches st', forall fuel, fuel0 <= fuel ->
    iter_len shuffling shuffling_readline (shuffling_reset choice shuffle10) batch_size max_len fuel (batch_init s)
    = Ok (length batches, batch_init s) /\
    sh_epoch choice shuffle10 batch_size max_len fuel (batch_init s) = Ok (batches, st') /\
    Forall (fun b => length b = batch_size) (removelast batches) /\
    Forall (fun b => 1 <= length b <= batch_size) batches.
Proof.
  intros Hc Hs Hi Hb Hm.
  destruct (sh_len_spec _ _ _ _ _ _ _ Hc Hs Hi Hb Hm) as (f1 & batches & st' & H1).
  assert (Hl : file_lines files (map linesf files)).
  { clear. induction files as [|d files IH]; cbn; constructor; auto using linesf_lines. }
  destruct (sh_epochs_from_init _ _ _ _ _ _ _ _ Hc Hs Hl Hi Hb Hm) as (sizes & _ & H2).
  destruct (H2 1) as (f2 & H3).
  exists f1, batches, st'. intros fuel Hf.
  destruct (H1 fuel Hf) as [A1 A2]. split; [exact A1|]. split; [exact A2|].
  destruct (H3 (max f1 f2) ltac:(lia)) as (bss & e & E & Hlen & Hall).
  destruct (H1 (max f1 f2) ltac:(lia)) as [_ E1].
  cbn [epochs] in E. rewrite E1 in E. cbn [bind] in E. injection E as <- _.
  inversion Hall as [|x l (sample & ls & ss & _ & _ & _ & Hcut) Hr]; subst.
  now apply (cut_into_sizes _ ss).
Qed.
