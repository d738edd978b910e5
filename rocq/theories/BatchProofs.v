(** Proofs about mini-batch matrices and about cutting. *)
From Coq Require Import QArith.
From Verif Require Import Base ListLib Strings TextModel TextSpec TextProofs IterModel IterSpec IterProofs.
Local Open Scope nat_scope.

Lemma list_max_longest {A} (seqs : list (list A)) :
  seqs <> [] -> longest (list_max (map (@length _) seqs)) seqs.
Proof.
  intros Hne. split.
  - intros s Hs.
    pose proof (proj1 (list_max_le (map (@length A) seqs) _) (le_n _)) as H.
    rewrite Forall_forall in H. apply H. now apply in_map.
  - induction seqs as [|s seqs IH]; [congruence|].
    destruct seqs as [|s' seqs].
    + exists s. split; [now left|]. cbn. lia.
    + destruct IH as (r & Hr & Er); [discriminate|].
      set (rest := s' :: seqs) in *.
      change (list_max (map (@length A) (s :: rest)))
        with (Nat.max (length s) (list_max (map (@length A) rest))).
      destruct (Nat.max_spec (length s) (list_max (map (@length A) rest))) as [[_ E]|[_ E]]; rewrite E.
      * exists r. split; [now right|exact Er].
      * exists s. split; [now left|reflexivity].
Qed.

Lemma longest_unique {A} r1 r2 (seqs : list (list A)) : longest r1 seqs -> longest r2 seqs -> r1 = r2.
Proof.
  intros [H1 (s1 & I1 & E1)] [H2 (s2 & I2 & E2)].
  apply H2 in I1. apply H1 in I2. lia.
Qed.

Lemma fill_column_length {A} (values : list A) d rows : length (fill_column values d rows) = rows.
Proof. unfold fill_column. now rewrite map_length, seq_length. Qed.

Lemma fill_column_nth {A} (values : list A) d rows t :
  t < rows -> nth_error (fill_column values d rows) t = Some (nth t values d).
Proof.
  intros H. unfold fill_column. rewrite nth_error_map, nth_error_seq.
  destruct (Nat.ltb_spec t rows); [reflexivity|lia].
Qed.

Lemma transpose_row {A} rows (cols : list (list A)) t :
  Forall (fun c => length c = rows) cols -> t < rows ->
  exists row, nth_error (transpose rows cols) t = Some row /\ length row = length cols /\
    forall j c, nth_error cols j = Some c -> nth_error row j = nth_error c t.
Proof.
  intros Hc Ht. unfold transpose. rewrite nth_error_map, nth_error_seq.
  destruct (Nat.ltb_spec t rows) as [_|]; [|lia]. cbn [option_map Nat.add].
  eexists; split; [reflexivity|].
  induction Hc as [|c cols Hl Hc [IH1 IH2]]; cbn [map concat].
  - split; [reflexivity|]. intros [|j] c H; discriminate.
  - destruct (nth_error c t) as [a|] eqn:Ea.
    2:{ apply nth_error_None in Ea. lia. }
    split; [cbn; now rewrite IH1|].
    intros [|j] c' H; cbn in *; [congruence|]. now apply IH2.
Qed.

Lemma transpose_matrix {A} rows (cols : list (list A)) :
  Forall (fun c => length c = rows) cols -> is_matrix rows (length cols) (transpose rows cols).
Proof.
  intros Hc. split; [unfold transpose; now rewrite map_length, seq_length|].
  apply Forall_forall. intros row Hr. apply In_nth_error in Hr as (t & Et).
  assert (Ht : t < rows).
  { assert (nth_error (transpose rows cols) t <> None) by congruence.
    apply nth_error_Some in H. unfold transpose in H. now rewrite map_length, seq_length in H. }
  destruct (transpose_row rows cols t Hc Ht) as (row' & E & Hl & _). congruence.
Qed.

Lemma transpose_cell {A} rows (cols : list (list A)) t j c :
  Forall (fun c => length c = rows) cols -> t < rows -> nth_error cols j = Some c ->
  cell (transpose rows cols) t j = nth_error c t.
Proof.
  intros Hc Ht Hj. destruct (transpose_row rows cols t Hc Ht) as (row & E & _ & H).
  unfold cell. rewrite E. now apply H.
Qed.

Lemma batch_word_id_code v oos word :
  word_code (vv_word_to_id v) (vv_in_shortlist v) (vv_unk_id v) oos word (batch_word_id v oos word).
Proof.
  unfold batch_word_id. destruct (vv_word_to_id v word) as [id|] eqn:E; [|now constructor].
  destruct oos; cbn [negb orb].
  - destruct (vv_in_shortlist v id) eqn:Es; [now constructor|]. eapply code_oos; eauto.
  - constructor; [exact E|discriminate].
Qed.

Lemma word_code_functional l sh unk oos word a b :
  word_code l sh unk oos word a -> word_code l sh unk oos word b -> a = b.
Proof.
  intros H1 H2. destruct H1 as [i Hi Hs|i Hi Ho Hs|Hi], H2 as [i' Hi' Hs'|i' Hi' Ho' Hs'|Hi']; try congruence.
  - assert (i = i') by congruence. subst i'. rewrite (Hs Ho') in Hs'. discriminate.
  - assert (i = i') by congruence. subst i'. rewrite (Hs' Ho) in Hs. discriminate.
Qed.

Lemma Forall_map_len {A B} (f : A -> list B) rows (l : list A) :
  (forall x, length (f x) = rows) -> Forall (fun c => length c = rows) (map f l).
Proof. intros H. apply Forall_forall. intros c Hc. apply in_map_iff in Hc as (x & <- & _). apply H. Qed.

Lemma prepare_batch_spec v oos seqs w f m :
  prepare_batch v oos seqs = Ok (w, f, m) ->
  exists rows, longest rows seqs /\
  is_matrix rows (length seqs) w /\ is_matrix rows (length seqs) f /\ is_matrix rows (length seqs) m /\
  (forall j s t word file, nth_error seqs j = Some s -> nth_error s t = Some (word, file) ->
     (exists code, cell w t j = Some code /\
        word_code (vv_word_to_id v) (vv_in_shortlist v) (vv_unk_id v) oos word code) /\
     cell m t j = Some 1 /\ cell f t j = Some (int8 file)) /\
  (forall j s t, nth_error seqs j = Some s -> length s <= t < rows ->
     cell w t j = Some (vv_unk_id v) /\ cell m t j = Some 0 /\ cell f t j = Some 0%Z).
Proof.
  intros H. unfold prepare_batch in H. destruct seqs as [|s0 seqs0]; [discriminate|].
  set (seqs := s0 :: seqs0) in *. set (rows := list_max (map (@length _) seqs)) in *.
  cbv zeta in H. fold rows in H. exists rows.
  assert (Hlong : longest rows seqs) by (apply list_max_longest; discriminate).
  set (wc := fun s : sequence => fill_column (map (fun wf => batch_word_id v oos (fst wf)) s) (vv_unk_id v) rows).
  set (fc := fun s : sequence => fill_column (map (fun wf => int8 (snd wf)) s) 0%Z rows).
  set (mc := fun s : sequence => fill_column (repeat 1 (length s)) 0 rows).
  assert (E : Ok (transpose rows (map wc seqs), transpose rows (map fc seqs), transpose rows (map mc seqs))
              = Ok (w, f, m)) by exact H.
  assert (Ew : w = transpose rows (map wc seqs)) by congruence.
  assert (Ef : f = transpose rows (map fc seqs)) by congruence.
  assert (Em : m = transpose rows (map mc seqs)) by congruence.
  clear E.
  rewrite Ew, Ef, Em. clear H Ew Ef Em.
  assert (Hw : Forall (fun c => length c = rows) (map wc seqs)) by (apply Forall_map_len; intros; apply fill_column_length).
  assert (Hf : Forall (fun c => length c = rows) (map fc seqs)) by (apply Forall_map_len; intros; apply fill_column_length).
  assert (Hm : Forall (fun c => length c = rows) (map mc seqs)) by (apply Forall_map_len; intros; apply fill_column_length).
  split; [exact Hlong|].
  split; [rewrite <- (map_length wc); now apply transpose_matrix|].
  split; [rewrite <- (map_length fc); now apply transpose_matrix|].
  split; [rewrite <- (map_length mc); now apply transpose_matrix|].
  split.
  - intros j s t word file Hj Ht.
    assert (Hlt : t < length s) by (apply nth_error_Some; congruence).
    assert (Hr : t < rows).
    { destruct Hlong as [Hle _]. pose proof (Hle s (nth_error_In _ _ Hj)). lia. }
    split; [|split].
    + exists (batch_word_id v oos word). split; [|apply batch_word_id_code].
      rewrite (transpose_cell rows (map wc seqs) t j (wc s) Hw Hr) by (now apply map_nth_error).
      unfold wc. rewrite fill_column_nth by exact Hr. f_equal.
      apply nth_error_nth. rewrite nth_error_map, Ht. reflexivity.
    + rewrite (transpose_cell rows (map mc seqs) t j (mc s) Hm Hr) by (now apply map_nth_error).
      unfold mc. rewrite fill_column_nth by exact Hr. f_equal.
      rewrite (nth_indep _ 0 1) by (now rewrite repeat_length). apply nth_repeat.
    + rewrite (transpose_cell rows (map fc seqs) t j (fc s) Hf Hr) by (now apply map_nth_error).
      unfold fc. rewrite fill_column_nth by exact Hr. f_equal.
      apply nth_error_nth. rewrite nth_error_map, Ht. reflexivity.
  - intros j s t Hj [Hle Hr]. split; [|split].
    + rewrite (transpose_cell rows (map wc seqs) t j (wc s) Hw Hr) by (now apply map_nth_error).
      unfold wc. rewrite fill_column_nth by exact Hr. f_equal.
      apply nth_overflow. now rewrite map_length.
    + rewrite (transpose_cell rows (map mc seqs) t j (mc s) Hm Hr) by (now apply map_nth_error).
      unfold mc. rewrite fill_column_nth by exact Hr. f_equal.
      apply nth_overflow. now rewrite repeat_length.
    + rewrite (transpose_cell rows (map fc seqs) t j (fc s) Hf Hr) by (now apply map_nth_error).
      unfold fc. rewrite fill_column_nth by exact Hr. f_equal.
      apply nth_overflow. now rewrite map_length.
Qed.

Lemma prepare_batch_total v oos seqs : seqs <> [] -> exists r, prepare_batch v oos seqs = Ok r.
Proof. intros H. destruct seqs; [congruence|]. eexists. reflexivity. Qed.

(** Every cell of the matrices is a word cell or a padding cell. *)
Lemma prepare_batch_cells v oos seqs w f m t j code :
  prepare_batch v oos seqs = Ok (w, f, m) -> cell w t j = Some code ->
  exists s, nth_error seqs j = Some s /\
  (code = vv_unk_id v \/
   exists word file, nth_error s t = Some (word, file) /\
     word_code (vv_word_to_id v) (vv_in_shortlist v) (vv_unk_id v) oos word code).
Proof.
  intros H Hc. destruct (prepare_batch_spec _ _ _ _ _ _ H) as (rows & Hlong & [Hw1 Hw2] & _ & _ & H1 & H2).
  unfold cell in Hc. destruct (nth_error w t) as [row|] eqn:Er; [|discriminate].
  assert (Ht : t < rows) by (rewrite <- Hw1; apply nth_error_Some; congruence).
  assert (Hj : j < length seqs).
  { rewrite Forall_forall in Hw2. rewrite <- (Hw2 row (nth_error_In _ _ Er)). apply nth_error_Some. congruence. }
  destruct (nth_error seqs j) as [s|] eqn:Es; [|apply nth_error_None in Es; lia].
  exists s. split; [reflexivity|].
  destruct (nth_error s t) as [[word file]|] eqn:Et.
  - right. destruct (H1 j s t word file Es Et) as ((code' & Ec & Hcode) & _ & _).
    unfold cell in Ec. rewrite Er in Ec. exists word, file. split; [reflexivity|]. congruence.
  - left. apply nth_error_None in Et. destruct (H2 j s t Es (conj Et Ht)) as (Ec & _ & _).
    unfold cell in Ec. rewrite Er in Ec. congruence.
Qed.

Lemma prepare_batch_range v oos seqs w f m n :
  prepare_batch v oos seqs = Ok (w, f, m) ->
  (forall word id, vv_word_to_id v word = Some id -> id < n) -> vv_unk_id v < n ->
  forall t j code, cell w t j = Some code -> code < n.
Proof.
  intros H Hn Hu t j code Hc.
  destruct (prepare_batch_cells _ _ _ _ _ _ _ _ _ H Hc) as (s & _ & [->|(word & file & _ & Hw)]); [exact Hu|].
  destruct Hw; eauto.
Qed.

Lemma prepare_batch_shortlist v seqs w f m :
  prepare_batch v true seqs = Ok (w, f, m) -> vv_in_shortlist v (vv_unk_id v) = true ->
  forall t j code, cell w t j = Some code -> vv_in_shortlist v code = true.
Proof.
  intros H Hu t j code Hc.
  destruct (prepare_batch_cells _ _ _ _ _ _ _ _ _ H Hc) as (s & _ & [->|(word & file & _ & Hw)]); [exact Hu|].
  destruct Hw; eauto.
Qed.

(** Words with their own ID can be read back. *)
Lemma prepare_batch_decode v oos seqs w f m decode :
  prepare_batch v oos seqs = Ok (w, f, m) ->
  (forall word id, vv_word_to_id v word = Some id -> decode id = Some word) ->
  forall j s t word file id,
    nth_error seqs j = Some s -> nth_error s t = Some (word, file) ->
    vv_word_to_id v word = Some id -> (oos = true -> vv_in_shortlist v id = true) ->
    exists code, cell w t j = Some code /\ decode code = Some word.
Proof.
  intros H Hd j s t word file id Hj Ht Hid Hs.
  destruct (prepare_batch_spec _ _ _ _ _ _ H) as (rows & _ & _ & _ & _ & H1 & _).
  destruct (H1 j s t word file Hj Ht) as ((code & Ec & Hcode) & _ & _).
  exists code. split; [exact Ec|].
  assert (E : code = id) by (eapply word_code_functional; [exact Hcode|now constructor]).
  subst. now apply Hd.
Qed.

Lemma int8_small n : n < 128 -> int8 n = Z.of_nat n.
Proof.
  intros H. unfold int8. rewrite Z.mod_small by lia.
  destruct (Z.ltb_spec (Z.of_nat n) 128); lia.
Qed.

(** ** Cutting *)

Lemma cut_into_presented {A} m (u : list A) ps :
  2 <= m -> cut_into m u ps ->
  concat (filter (fun p => 2 <=? length p) ps) = if length u mod m =? 1 then removelast u else u.
Proof.
  intros Hm. induction 1 as [|l Hne Hlen|a l ps Ha Hne H IH].
  - cbn [length]. rewrite Nat.mod_0_l by lia. reflexivity.
  - cbn [filter]. destruct (Nat.leb_spec 2 (length l)) as [H2|H2].
    + cbn [concat]. rewrite app_nil_r.
      destruct (Nat.eq_dec (length l) m) as [->|Hd].
      * rewrite Nat.mod_same by lia. reflexivity.
      * rewrite Nat.mod_small by lia. destruct (Nat.eqb_spec (length l) 1); [lia|reflexivity].
    + destruct l as [|x [|y l]]; [congruence| |cbn in H2; lia]. cbn [length concat].
      rewrite Nat.mod_small by lia. reflexivity.
  - cbn [filter]. destruct (Nat.leb_spec 2 (length a)); [|lia].
    cbn [concat]. rewrite IH, app_length, Ha.
    replace (m + length l) with (length l + 1 * m) by lia. rewrite Nat.mod_add by lia.
    destruct (length l mod m =? 1); [|reflexivity]. now rewrite removelast_app.
Qed.

Lemma map_fst_tag {A B} (k : B) (ps : list (list A)) :
  map fst (concat (map (map (fun w => (w, k))) ps)) = concat ps.
Proof.
  induction ps as [|p ps IH]; cbn; [reflexivity|]. rewrite map_app, IH, map_map. cbn.
  now rewrite map_id.
Qed.

Lemma line_sequences_presented m k line u ss :
  2 <= m -> utterance_of line u -> line_sequences (Some m) k line ss ->
  Forall (fun s => length s <= m) ss /\
  map fst (concat ss) = if length u mod m =? 1 then removelast u else u.
Proof.
  intros Hm Hu H. inversion H as [line' u' ps Hu' Hps]; subst.
  apply utterance_of_iff in Hu. apply utterance_of_iff in Hu'. assert (u' = u) by congruence. subst u'.
  split.
  - destruct (cut_into_lengths _ _ _ Hps) as [_ Hl].
    apply Forall_forall. intros s Hs. apply in_map_iff in Hs as (p & <- & Hp).
    rewrite map_length. apply filter_In in Hp as [Hp _]. rewrite Forall_forall in Hl. now apply Hl.
  - rewrite map_fst_tag. now apply cut_into_presented.
Qed.

Lemma line_sequences_whole k line u ss :
  utterance_of line u -> line_sequences None k line ss -> map fst (concat ss) = u.
Proof.
  intros Hu H. inversion H as [line' u' ps Hu' Hps]; subst.
  assert (u' = u).
  { apply utterance_of_iff in Hu. apply utterance_of_iff in Hu'. congruence. }
  subst u'. rewrite map_fst_tag. cbn [filter].
  destruct (utterance_spec line) as [[_ E]|(toks & mid & _ & _ & _ & _ & E)];
    apply utterance_of_iff in Hu; rewrite Hu in E; injection E as ->; [reflexivity|].
  cbn [length]. rewrite app_length; cbn [length]. rewrite Nat.add_1_r. cbn [Nat.leb concat].
  now rewrite app_nil_r.
Qed.

Lemma line_sequences_max_1 k line ss : line_sequences (Some 1) k line ss -> ss = [].
Proof.
  intros H. inversion H as [line' u' ps Hu' Hps]; subst.
  destruct (cut_into_lengths _ _ _ Hps) as [_ Hl].
  rewrite filter_none; [reflexivity|]. intros p Hp. rewrite Forall_forall in Hl. apply Nat.leb_gt. 
  pose proof (Hl p Hp). lia.
Qed.

(** With maximum length zero __next__() never returns once a sentence has been
    read. *)
Lemma next_loop_zero src readline reset batch_size fuel : forall (st : bstate src) acc,
  b_buffer st <> [] ->
  next_loop src readline reset batch_size (Some 0) fuel st acc = Err OutOfFuel.
Proof.
  induction fuel as [|fuel IH]; intros st acc Hb; [reflexivity|].
  cbn [next_loop]. unfold read_sequence. destruct (b_buffer st) as [|x b] eqn:E; [congruence|].
  cbn. apply IH. cbn. discriminate.
Qed.

Lemma C06_witness : exists m k line u ss,
  2 <= m /\ utterance_of line u /\ line_sequences (Some m) k line ss /\
  map fst (concat ss) <> u.
Proof.
  exists 4, 0, (str "a b c"), [SOS; str "a"; str "b"; str "c"; EOS],
         (line_seqs (Some 4) (str "a b c", 0)).
  split; [lia|]. split; [apply utterance_of_iff; vm_compute; reflexivity|].
  split; [apply line_seqs_spec; cbn; lia|]. vm_compute. discriminate.
Qed.
