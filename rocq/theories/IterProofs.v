(** Proofs about the mini-batch iterators. *)
From Coq Require Import QArith Permutation.
From Verif Require Import Base ListLib Strings TextModel TextSpec TextProofs IterModel IterSpec.
Local Open Scope nat_scope.

(** ** Cutting *)

Fixpoint cutn {A} (n m : nat) (l : list A) : list (list A) :=
  match n with
  | 0 => []
  | S n' => match l with [] => [] | _ => firstn m l :: cutn n' m (skipn m l) end
  end.
Definition cut {A} (m : nat) (l : list A) := cutn (length l) m l.

Lemma cutn_enough {A} m : 1 <= m -> forall n n' (l : list A),
  length l <= n -> length l <= n' -> cutn n m l = cutn n' m l.
Proof.
  intros Hm. induction n as [|n IH]; intros n' l Hn Hn'.
  - destruct l; [|cbn in Hn; lia]. destruct n'; reflexivity.
  - destruct n' as [|n'].
    + destruct l; [reflexivity|cbn in Hn'; lia].
    + destruct l as [|a l]; [reflexivity|]. cbn [cutn]. f_equal.
      apply IH; rewrite skipn_length; cbn [length] in *; lia.
Qed.

Lemma cut_unfold {A} m (l : list A) :
  1 <= m -> l <> [] -> cut m l = firstn m l :: cut m (skipn m l).
Proof.
  intros Hm Hl. unfold cut. destruct l as [|a l]; [congruence|].
  cbn [length cutn]. f_equal. apply cutn_enough; [exact Hm| |lia].
  rewrite skipn_length; cbn [length]; lia.
Qed.

Lemma cut_nil_eq {A} m : cut m (@nil A) = [].
Proof. reflexivity. Qed.

Lemma cut_short {A} m (l : list A) :
  1 <= m -> l <> [] -> length l <= m -> cut m l = [l].
Proof.
  intros Hm Hl Hlen. rewrite cut_unfold by assumption.
  rewrite firstn_all2, skipn_all2 by lia. reflexivity.
Qed.

Lemma cut_app {A} m (a l : list A) :
  1 <= m -> length a = m -> cut m (a ++ l) = a :: cut m l.
Proof.
  intros Hm Ha. rewrite cut_unfold; [|exact Hm|destruct a; [cbn in Ha; lia|discriminate]].
  subst m. now rewrite firstn_app_exact, skipn_app_exact.
Qed.

Lemma cut_into_cut {A} m : 1 <= m -> forall l : list A, cut_into m l (cut m l).
Proof.
  intros Hm l. remember (length l) as n eqn:Hn.
  assert (Hle : length l <= n) by lia. clear Hn. revert l Hle.
  induction n as [|n IH]; intros l Hle.
  - destruct l; [constructor|cbn in Hle; lia].
  - destruct l as [|a l]; [constructor|].
    destruct (Nat.le_gt_cases (length (a :: l)) m) as [Hs|Hs].
    + rewrite cut_short by (auto; discriminate). constructor; [discriminate|exact Hs].
    + rewrite cut_unfold by (auto; discriminate).
      rewrite <- (firstn_skipn m (a :: l)) at 1.
      apply cut_more.
      * rewrite firstn_length. lia.
      * intros E. apply (f_equal (@length A)) in E. rewrite skipn_length in E. cbn [length] in *. lia.
      * apply IH. rewrite skipn_length. cbn [length] in *. lia.
Qed.

Lemma cut_into_unique {A} m (l : list A) ps :
  1 <= m -> cut_into m l ps -> ps = cut m l.
Proof.
  intros Hm H. induction H as [|l Hne Hlen|a l ps Ha Hne H IH].
  - reflexivity.
  - now rewrite cut_short.
  - rewrite cut_app by assumption. now rewrite IH.
Qed.

Lemma cut_map {A B} (f : A -> B) m l :
  1 <= m -> cut m (map f l) = map (map f) (cut m l).
Proof.
  intros Hm. symmetry. apply cut_into_unique; [exact Hm|].
  pose proof (cut_into_cut m Hm l) as H. induction H as [|l Hne Hlen|a l ps Ha Hne H IH].
  - constructor.
  - cbn. constructor; [destruct l; [congruence|discriminate]|now rewrite map_length].
  - cbn. rewrite map_app. constructor; [now rewrite map_length|destruct l; [congruence|discriminate]|exact IH].
Qed.

Lemma cut_into_nil_inv {A} m (ps : list (list A)) : cut_into m [] ps -> ps = [].
Proof.
  remember [] as l eqn:E. destruct 1 as [|l Hne Hlen|a l ps Ha Hne H]; subst; [reflexivity|congruence|].
  apply app_eq_nil in E as [_ E]. congruence.
Qed.

Lemma cut_into_concat {A} m (l : list A) ps : cut_into m l ps -> concat ps = l.
Proof.
  induction 1 as [|l Hne Hlen|a l ps Ha Hne H IH]; cbn; [reflexivity|apply app_nil_r|now rewrite IH].
Qed.

Lemma cut_into_lengths {A} m (l : list A) ps :
  cut_into m l ps ->
  Forall (fun p => p <> [] \/ m = 0) ps /\ Forall (fun p => length p <= m) ps.
Proof.
  induction 1 as [|l Hne Hlen|a l ps Ha Hne H [IH1 IH2]]; split; auto.
  - constructor; [|exact IH1]. destruct a; [right; cbn in Ha; auto|left; discriminate].
  - constructor; [lia|exact IH2].
Qed.

Lemma div_ceil_step b n : 1 <= b -> (b + n + b - 1) / b = S ((n + b - 1) / b).
Proof.
  intros Hb. replace (b + n + b - 1) with (n + b - 1 + 1 * b) by lia.
  rewrite Nat.div_add by lia. lia.
Qed.

Lemma cut_into_count {A} b (l : list A) ps :
  1 <= b -> cut_into b l ps -> length ps = (length l + b - 1) / b.
Proof.
  intros Hb. induction 1 as [|l Hne Hlen|a l ps Ha Hne H IH].
  - cbn. symmetry. apply Nat.div_small. lia.
  - cbn. assert (1 <= length l) by (destruct l; [congruence|cbn; lia]).
    apply Nat.div_unique with (length l - 1); lia.
  - cbn [length]. rewrite app_length, Ha, IH.
    symmetry. rewrite <- div_ceil_step by exact Hb. reflexivity.
Qed.

(** ** The generic iterator *)

Definition parse (line : pystr) : list pystr :=
  match utterance_from_line line with Ok u => u | Err _ => [] end.

Lemma utterance_parse line : utterance_from_line line = Ok (parse line).
Proof. unfold parse. destruct (utterance_total line) as [u ->]. reflexivity. Qed.

Definition good {A} (s : list A) : bool := 2 <=? length s.

Definition pieces {A} (max_len : option nat) (b : list A) : list (list A) :=
  match b with
  | [] => []
  | _ => match max_len with None => [b] | Some m => cut m b end
  end.

Definition line_seqs (max_len : option nat) (lf : pystr * nat) : list sequence :=
  filter good (pieces max_len (map (fun w => (w, snd lf)) (parse (fst lf)))).

Lemma filter_good_map {A B} (f : A -> B) l :
  filter good (map (map f) l) = map (map f) (filter good l).
Proof.
  induction l as [|a l IH]; [reflexivity|]. cbn [map filter]. rewrite IH.
  replace (good (map f a)) with (good a) by (unfold good; now rewrite map_length).
  destruct (good a); reflexivity.
Qed.

Lemma pieces_map {A B} (f : A -> B) max_len l :
  valid_max max_len -> pieces max_len (map f l) = map (map f) (pieces max_len l).
Proof.
  intros Hv. destruct l as [|a l]; [reflexivity|].
  destruct max_len as [m|]; [|reflexivity].
  exact (cut_map f m (a :: l) Hv).
Qed.

Lemma line_seqs_spec max_len line file_id :
  valid_max max_len -> line_sequences max_len file_id line (line_seqs max_len (line, file_id)).
Proof.
  intros Hv. unfold line_seqs; cbn [fst snd]. rewrite pieces_map by exact Hv.
  rewrite filter_good_map.
  pose proof (proj1 (utterance_of_iff _ _) (utterance_parse line)) as Hu.
  destruct max_len as [m|].
  - replace (pieces (Some m) (parse line)) with (cut m (parse line))
      by (destruct (parse line); reflexivity).
    apply (line_sequences_intro (Some m) file_id line (parse line)).
    + exact Hu.
    + apply cut_into_cut. exact Hv.
  - replace (map (map (fun w => (w, file_id))) (filter good (pieces None (parse line))))
      with (map (map (fun w => (w, file_id))) (filter (fun p => 2 <=? length p) [parse line])).
    + apply (line_sequences_intro None file_id line (parse line)).
      * exact Hu.
      * reflexivity.
    + destruct (parse line); reflexivity.
Qed.

Lemma line_sequences_unique max_len line file_id ss :
  valid_max max_len -> line_sequences max_len file_id line ss -> ss = line_seqs max_len (line, file_id).
Proof.
  intros Hv H. inversion H as [line' u ps Hu Hps]; subst.
  assert (E : u = parse line) by (apply utterance_of_iff in Hu; rewrite utterance_parse in Hu; congruence). subst u.
  unfold line_seqs; cbn [fst snd]. rewrite pieces_map by exact Hv. rewrite filter_good_map. f_equal.
  destruct max_len as [m|].
  - apply cut_into_unique in Hps; [|exact Hv]. subst ps. destruct (parse line); reflexivity.
  - subst ps. destruct (parse line); reflexivity.
Qed.

Lemma lines_sequences_flat_map max_len lines :
  valid_max max_len -> lines_sequences max_len lines (flat_map (line_seqs max_len) lines).
Proof.
  intros Hv. induction lines as [|[line k] lines IH]; cbn; constructor; auto.
  now apply line_seqs_spec.
Qed.

Lemma lines_sequences_unique max_len lines ss :
  valid_max max_len -> lines_sequences max_len lines ss -> ss = flat_map (line_seqs max_len) lines.
Proof.
  intros Hv. induction 1 as [|line k ss lines rest Hl Hr IH]; cbn; [reflexivity|].
  rewrite (line_sequences_unique _ _ _ _ Hv Hl). now rewrite IH.
Qed.

Section Generic.

Variable src : Type.
Variable src_readline : src -> result (option (pystr * nat) * src).
Variable src_reset : bool -> src -> src.
Variable batch_size : nat.
Variable max_len : option nat.

(** States in which the source may be, and the lines it has yet to deliver. *)
Variable ok : src -> Prop.
Variable pend : src -> list (pystr * nat).
Variable fresh : src.

Hypothesis H_readline : forall s, ok s ->
  match pend s with
  | [] => exists s', src_readline s = Ok (None, s') /\ ok s' /\ pend s' = []
  | x :: r => exists s', src_readline s = Ok (Some x, s') /\ ok s' /\ pend s' = r
  end.
Hypothesis H_reset : forall s, ok s -> src_reset true s = fresh.
Hypothesis H_batch : 1 <= batch_size.
Hypothesis H_max : valid_max max_len.

Notation bst := (bstate src).

(** Sequences that are still to be returned, and a bound on the calls needed. *)
Definition pendseqs (st : bst) : list sequence :=
  filter good (pieces max_len (b_buffer st)) ++ flat_map (line_seqs max_len) (pend (b_src st)).

Definition work (st : bst) : nat :=
  length (b_buffer st) + list_sum (map (fun lf => S (length (parse (fst lf)))) (pend (b_src st))).

Lemma take_from_buffer_spec s b eof q st' :
  b <> [] ->
  take_from_buffer src max_len s b eof = (q, st') ->
  b_src st' = s /\ b_eof st' = eof /\ length (b_buffer st') < length b /\
  filter good (pieces max_len b) = (if good q then [q] else []) ++ filter good (pieces max_len (b_buffer st')).
Proof using H_max.
  clear H_batch H_reset H_readline.
  intros Hb. unfold take_from_buffer. pose proof H_max as Hmax. revert Hmax.
  destruct max_len as [m|]; intros Hmax H; inversion H; subst q st'; cbn [b_src b_eof b_buffer].
  - cbn in Hmax.
    assert (Hlt : length (skipn m b) < length b).
    { rewrite skipn_length. destruct b as [|x b]; [congruence|]. cbn [length]. lia. }
    repeat split; auto.
    assert (Ep : forall l : sequence, pieces (Some m) l = cut m l) by (intros [|x l]; reflexivity).
    rewrite !Ep, (cut_unfold m b) by auto.
    cbn [filter]. destruct (good (firstn m b)); reflexivity.
  - repeat split; [destruct b; [congruence|cbn; lia]|].
    destruct b as [|x b]; [congruence|]. cbn [pieces filter].
    destruct (good (x :: b)); reflexivity.
Qed.

Lemma take_from_buffer_nil s eof :
  take_from_buffer src max_len s [] eof = ([], mkB s [] eof).
Proof.
  unfold take_from_buffer. destruct max_len as [m|]; [|reflexivity].
  now rewrite firstn_nil, skipn_nil.
Qed.

Lemma read_sequence_spec st : ok (b_src st) ->
  (b_buffer st = [] /\ pend (b_src st) = [] /\
   exists s', read_sequence src src_readline max_len st = Ok (None, mkB s' [] (b_eof st)) /\
              ok s' /\ pend s' = [])
  \/
  (exists q st', read_sequence src src_readline max_len st = Ok (Some q, st') /\
     ok (b_src st') /\ b_eof st' = b_eof st /\ work st' < work st /\
     pendseqs st = (if good q then [q] else []) ++ pendseqs st').
Proof using H_readline H_max.
  clear H_batch H_reset.
  intros Hok. unfold read_sequence.
  destruct (b_buffer st) as [|x b] eqn:Eb.
  - pose proof (H_readline _ Hok) as Hr.
    destruct (pend (b_src st)) as [|[line k] r] eqn:Ep.
    + left. destruct Hr as (s' & E & Hok' & Hp). rewrite E; cbn [bind].
      repeat split; auto. exists s'. auto.
    + right. destruct Hr as (s' & E & Hok' & Hp). rewrite E; cbn [bind].
      rewrite utterance_parse; cbn [bind].
      set (b := map (fun w => (w, k)) (parse line)).
      assert (Hlen : length b = length (parse line)) by apply map_length.
      assert (Els : line_seqs max_len (line, k) = filter good (pieces max_len b)) by reflexivity.
      destruct b as [|y b'] eqn:Eb'.
      * rewrite take_from_buffer_nil. do 2 eexists; split; [reflexivity|].
        cbn [b_src b_eof b_buffer]. repeat split; auto.
        -- unfold work; cbn [b_src b_buffer]. rewrite Eb, Ep, Hp. unfold list_sum. cbn [length map fold_right fst]. lia.
        -- unfold pendseqs; cbn [b_src b_buffer]. rewrite Eb, Ep, Hp. cbn [flat_map].
           rewrite Els. reflexivity.
      * destruct (take_from_buffer src max_len s' (y :: b') (b_eof st)) as [q st'] eqn:Et.
        apply take_from_buffer_spec in Et as (Es & Ee & Hl & Ef); [|discriminate].
        do 2 eexists; split; [reflexivity|]. rewrite Es, Ee. repeat split; auto.
        -- unfold work. rewrite Eb, Ep, Es, Hp. unfold list_sum. cbn [length map fold_right fst].
           cbn [length] in Hlen, Hl. lia.
        -- unfold pendseqs. rewrite Eb, Ep, Es, Hp. cbn [flat_map pieces filter app].
           rewrite Els, Ef. now rewrite app_assoc.
  - right.
    destruct (take_from_buffer src max_len (b_src st) (x :: b) (b_eof st)) as [q st'] eqn:Et.
    apply take_from_buffer_spec in Et as (Es & Ee & Hl & Ef); [|discriminate].
    do 2 eexists; split; [reflexivity|]. rewrite Es, Ee. repeat split; auto.
    + unfold work. rewrite Eb, Es. lia.
    + unfold pendseqs. rewrite Eb, Es, Ef. now rewrite app_assoc.
Qed.

Lemma next_loop_spec fuel : forall st acc,
  ok (b_src st) -> work st < fuel -> length acc < batch_size ->
  let P := pendseqs st in
  let k := batch_size - length acc in
  (k <= length P /\
   exists st', next_loop src src_readline src_reset batch_size max_len fuel st acc
               = Ok (Some (acc ++ firstn k P), st') /\
     ok (b_src st') /\ b_eof st' = b_eof st /\ work st' < work st /\ pendseqs st' = skipn k P)
  \/
  (length P < k /\ exists s', ok s' /\ pend s' = [] /\
   next_loop src src_readline src_reset batch_size max_len fuel st acc =
   match acc ++ P with
   | [] => Ok (None, mkB (src_reset true s') [] (b_eof st))
   | _ => Ok (Some (acc ++ P), mkB s' [] true)
   end).
Proof.
  induction fuel as [|fuel IH]; intros st acc Hok Hw Hacc; [lia|].
  cbn [next_loop]. destruct (read_sequence_spec st Hok) as
      [(Eb & Ep & s' & E & Hok' & Hp)|(q & st' & E & Hok' & Ee & Hw' & EP)].
  - right. rewrite E. cbn [bind b_src b_buffer b_eof].
    assert (EP : pendseqs st = []) by (unfold pendseqs; rewrite Eb, Ep; reflexivity).
    rewrite EP. cbn [length]. split; [lia|]. exists s'. rewrite app_nil_r.
    repeat split; auto; destruct acc; reflexivity.
  - rewrite E. cbn [bind]. unfold good in EP.
    destruct (length q <? 2) eqn:Eq.
    + assert (Egood : (2 <=? length q) = false).
      { apply Nat.ltb_lt in Eq. apply Nat.leb_gt. exact Eq. }
      rewrite Egood in EP. cbn [app] in EP. rewrite EP.
      destruct (IH st' acc Hok' ltac:(lia) Hacc) as [(Hk & st'' & E' & Ho & He & Hww & HP)|(Hk & s'' & Ho & Hp & E')].
      * left. split; [exact Hk|]. exists st''. rewrite E'. repeat split; auto; [congruence|lia].
      * right. split; [exact Hk|]. exists s''. repeat split; auto. rewrite E', Ee. reflexivity.
    + assert (Egood : (2 <=? length q) = true).
      { apply Nat.ltb_ge in Eq. apply Nat.leb_le. exact Eq. }
      rewrite Egood in EP. cbn [app] in EP. rewrite EP.
      rewrite app_length; cbn [length].
      destruct (batch_size <=? length acc + 1) eqn:Ebs.
      * apply Nat.leb_le in Ebs. left. cbn [length]. split; [lia|]. exists st'.
        replace (batch_size - length acc) with 1 by lia. cbn [firstn skipn].
        repeat split; auto.
      * apply Nat.leb_gt in Ebs.
        destruct (IH st' (acc ++ [q]) Hok' ltac:(lia) ltac:(rewrite app_length; cbn; lia))
          as [(Hk & st'' & E' & Ho & He & Hww & HP)|(Hk & s'' & Ho & Hp & E')];
          rewrite app_length in Hk; cbn [length] in Hk.
        -- left. cbn [length]. split; [lia|]. exists st''.
           rewrite E', app_length; cbn [length].
           replace (batch_size - length acc) with (S (batch_size - (length acc + 1))) by lia.
           cbn [firstn skipn]. rewrite <- app_assoc.
           repeat split; auto; [congruence|lia|].
           rewrite HP, app_length; cbn [length]. reflexivity.
        -- right. cbn [length]. split; [lia|]. exists s''. repeat split; auto.
           rewrite E', Ee. rewrite <- app_assoc. cbn [app]. reflexivity.
Qed.

(** The state from which the next epoch starts. *)
Definition fresh_state : bst := batch_init fresh.

Lemma epoch_eof fuel st :
  ok (b_src st) -> b_eof st = true -> b_buffer st = [] -> 1 <= fuel ->
  epoch src src_readline src_reset batch_size max_len fuel st = Ok ([], fresh_state).
Proof.
  intros Hok He Hb Hf. destruct fuel as [|fuel]; [lia|].
  cbn [epoch]. unfold next_sequences. rewrite He. cbn [bind]. rewrite Hb, H_reset by exact Hok.
  reflexivity.
Qed.

Lemma epoch_spec fuel : forall st,
  ok (b_src st) -> b_eof st = false -> work st + 2 <= fuel ->
  exists batches,
    epoch src src_readline src_reset batch_size max_len fuel st = Ok (batches, fresh_state) /\
    cut_into batch_size (pendseqs st) batches.
Proof.
  induction fuel as [|fuel IH]; intros st Hok He Hw; [lia|].
  cbn [epoch]. unfold next_sequences. rewrite He.
  destruct (next_loop_spec (S fuel) st [] Hok ltac:(lia) ltac:(cbn; lia))
    as [(Hk & st' & E & Ho & Hee & Hww & HP)|(Hk & s' & Ho & Hp & E)].
  - cbn [length] in *. rewrite Nat.sub_0_r in *. rewrite E. cbn [bind app].
    destruct (IH st' Ho ltac:(congruence) ltac:(lia)) as (batches & E' & Hc).
    rewrite E'. cbn [bind]. eexists; split; [reflexivity|].
    rewrite HP in Hc.
    rewrite <- (firstn_skipn batch_size (pendseqs st)) at 1.
    assert (Hlen : length (firstn batch_size (pendseqs st)) = batch_size)
      by (rewrite firstn_length; lia).
    destruct (skipn batch_size (pendseqs st)) as [|q r] eqn:Es.
    + apply (cut_into_unique _ _ _ H_batch) in Hc. subst batches. rewrite app_nil_r.
      apply cut_last; [|lia]. intros E0. rewrite E0 in Hlen. cbn in Hlen. lia.
    + apply cut_more; [exact Hlen|discriminate|exact Hc].
  - cbn [length app] in *. rewrite Nat.sub_0_r in *. rewrite E.
    destruct (pendseqs st) as [|q r] eqn:Es.
    + cbn [bind]. eexists; split; [|constructor]. rewrite He, H_reset by exact Ho. reflexivity.
    + cbn [bind]. rewrite epoch_eof by (cbn; auto; lia). cbn [bind].
      eexists; split; [reflexivity|]. apply cut_last; [discriminate|]. lia.
Qed.

Lemma count_loop_spec fuel : forall st n,
  ok (b_src st) -> work st < fuel ->
  exists s', count_loop src src_readline max_len fuel st n
             = Ok (n + length (pendseqs st), mkB s' [] (b_eof st)) /\ ok s'.
Proof using H_readline H_max.
  clear H_batch H_reset.
  induction fuel as [|fuel IH]; intros st n Hok Hw; [lia|].
  cbn [count_loop]. destruct (read_sequence_spec st Hok) as
      [(Eb & Ep & s' & E & Hok' & Hp)|(q & st' & E & Hok' & Ee & Hw' & EP)].
  - rewrite E. cbn [bind]. exists s'. split; [|exact Hok'].
    unfold pendseqs. rewrite Eb, Ep. cbn. now rewrite Nat.add_0_r.
  - rewrite E. cbn [bind]. unfold good in EP. rewrite EP.
    destruct (length q <? 2) eqn:Eq.
    + apply Nat.ltb_lt in Eq. destruct (Nat.leb_spec 2 (length q)); [lia|].
      destruct (IH st' n Hok' ltac:(lia)) as (s' & E' & Ho). exists s'. rewrite E', Ee. auto.
    + apply Nat.ltb_ge in Eq. destruct (Nat.leb_spec 2 (length q)); [|lia].
      destruct (IH st' (S n) Hok' ltac:(lia)) as (s' & E' & Ho). exists s'. rewrite E', Ee.
      split; [|exact Ho]. cbn [app length]. rewrite Nat.add_succ_r. reflexivity.
Qed.

End Generic.

(** ** Lines *)

Fixpoint linesf (data : pystr) : list pystr :=
  match data with
  | [] => []
  | c :: d => if N.eq_dec c newline then [c] :: linesf d
              else match linesf d with
                   | [] => [[c]]
                   | l :: ls => (c :: l) :: ls
                   end
  end.

Lemma linesf_lines data : lines_of data (linesf data).
Proof.
  induction data as [|c d IH]; cbn; [constructor|].
  destruct (N.eq_dec c newline) as [->|Hc].
  - apply (lines_cons [newline] d (linesf d)); [|exact IH].
    exists []. split; [intros []|reflexivity].
  - inversion IH as [E1 E2|l Hne Hn E1 E2|l rest ls Hl Hr E1 E2]; subst.
    + apply lines_last; [discriminate|]. intros [H|[]]; congruence.
    + apply lines_last; [discriminate|]. intros [H|H]; [congruence|contradiction].
    + rewrite app_comm_cons. apply lines_cons; [|exact Hr].
      destruct Hl as (b & Hb & ->). exists (c :: b). split; [|reflexivity].
      intros [H|H]; [congruence|contradiction].
Qed.

Lemma readline_linesf data :
  data <> [] ->
  fst (readline data) <> [] /\ linesf data = fst (readline data) :: linesf (snd (readline data)).
Proof.
  induction data as [|c d IH]; intros Hne; [congruence|]. cbn.
  destruct (N.eq_dec c newline) as [->|Hc]; [cbn; split; [discriminate|reflexivity]|].
  destruct d as [|c' d']; [cbn; split; [discriminate|reflexivity]|].
  destruct IH as [H1 H2]; [discriminate|].
  destruct (readline (c' :: d')) as [l r]. cbn [fst snd] in *.
  rewrite H2. split; [discriminate|reflexivity].
Qed.

Fixpoint tagf (k : nat) (files : list pystr) : list (pystr * nat) :=
  match files with
  | [] => []
  | data :: files' => map (fun l => (l, k)) (linesf data) ++ tagf (S k) files'
  end.

Lemma tagf_spec k files : tagged_lines k files (tagf k files).
Proof.
  revert k; induction files as [|d files IH]; intros k; cbn; constructor; auto using linesf_lines.
Qed.

Lemma tagged_lines_unique k files tl : tagged_lines k files tl -> tl = tagf k files.
Proof.
  induction 1 as [|k d files ls rest Hl Hr IH]; cbn; [reflexivity|].
  rewrite (lines_of_functional _ _ _ Hl (linesf_lines d)). now rewrite IH.
Qed.

(** ** The linear iterator *)

Section Linear.
Variable files : list pystr.

Definition lin_ok (s : linear) : Prop := l_files s = files.
Definition lin_pend (s : linear) : list (pystr * nat) :=
  map (fun l => (l, l_file_id s)) (linesf (l_rest s))
  ++ tagf (S (l_file_id s)) (skipn (S (l_file_id s)) files).

Lemma skipn_nth_error {A} n (l : list A) a :
  nth_error l n = Some a -> skipn n l = a :: skipn (S n) l.
Proof.
  revert l; induction n as [|n IH]; intros [|b l] H; cbn in H; try discriminate.
  - injection H as ->. reflexivity.
  - cbn. apply IH in H. exact H.
Qed.

Lemma linear_readline_loop_spec fuel : forall file_id rest,
  length files - file_id < fuel ->
  match lin_pend (mkLinear files file_id rest) with
  | [] => exists s', linear_readline_loop fuel files file_id rest = Ok (None, s') /\
                     lin_ok s' /\ lin_pend s' = []
  | x :: r => exists s', linear_readline_loop fuel files file_id rest = Ok (Some x, s') /\
                     lin_ok s' /\ lin_pend s' = r
  end.
Proof.
  induction fuel as [|fuel IH]; intros file_id rest Hf; [lia|].
  cbn [linear_readline_loop]. unfold lin_pend; cbn [l_file_id l_rest l_files].
  destruct rest as [|c rest].
  - cbn [readline linesf map app]. 
    destruct (Nat.leb_spec (length files) (S file_id)) as [Hl|Hl].
    + rewrite skipn_all2 by exact Hl. cbn [tagf].
      eexists; split; [reflexivity|]. split; [reflexivity|].
      unfold lin_pend; cbn [l_rest l_file_id]. rewrite skipn_all2 by lia. reflexivity.
    + unfold py_index. destruct (nth_error files (S file_id)) as [file|] eqn:En.
      2:{ apply nth_error_None in En. lia. }
      cbn [bind]. rewrite (skipn_nth_error _ _ _ En). cbn [tagf].
      specialize (IH (S file_id) file ltac:(lia)). unfold lin_pend in IH; cbn [l_file_id l_rest] in IH.
      exact IH.
  - destruct (readline_linesf (c :: rest)) as [Hne E]; [discriminate|].
    destruct (readline (c :: rest)) as [line rest'] eqn:Er. cbn [fst snd] in *.
    rewrite E. cbn [map app]. destruct line as [|d line]; [congruence|].
    eexists; split; [reflexivity|]. split; [reflexivity|].
    unfold lin_pend; cbn [l_rest l_file_id]. reflexivity.
Qed.

Lemma linear_readline_spec s : lin_ok s ->
  match lin_pend s with
  | [] => exists s', linear_readline s = Ok (None, s') /\ lin_ok s' /\ lin_pend s' = []
  | x :: r => exists s', linear_readline s = Ok (Some x, s') /\ lin_ok s' /\ lin_pend s' = r
  end.
Proof.
  intros Hok. destruct s as [fs k rest]. unfold lin_ok in Hok; cbn in Hok. subst fs.
  unfold linear_readline; cbn [l_files l_file_id l_rest].
  apply linear_readline_loop_spec. lia.
Qed.

Definition lin_fresh : linear :=
  mkLinear files 0 (match files with [] => [] | f :: _ => f end).

Lemma linear_reset_fresh b s : lin_ok s -> linear_reset b s = lin_fresh.
Proof. intros H. unfold linear_reset, lin_fresh. unfold lin_ok in H. now rewrite H. Qed.

Lemma lin_fresh_pend : lin_pend lin_fresh = tagf 0 files.
Proof. unfold lin_pend, lin_fresh; cbn [l_rest l_file_id]. destruct files; reflexivity. Qed.

End Linear.

Lemma linear_init_fresh files s : linear_init files = Ok s -> s = lin_fresh files.
Proof. destruct files; intros H; inversion H; reflexivity. Qed.

Notation linear_epoch := (epoch linear linear_readline linear_reset).

Lemma linear_epoch_spec files s batch_size max_len ls ss :
  linear_init files = Ok s -> 1 <= batch_size -> valid_max max_len ->
  tagged_lines 0 files ls -> lines_sequences max_len ls ss ->
  exists fuel0, forall fuel, fuel0 <= fuel ->
  exists batches,
    linear_epoch batch_size max_len fuel (batch_init s) = Ok (batches, batch_init s) /\
    cut_into batch_size ss batches.
Proof.
  intros Hi Hb Hm Hls Hss. apply linear_init_fresh in Hi. subst s.
  apply tagged_lines_unique in Hls. apply (lines_sequences_unique _ _ _ Hm) in Hss. subst.
  exists (work linear (lin_pend files) (batch_init (lin_fresh files)) + 2). intros fuel Hf.
  destruct (epoch_spec linear linear_readline linear_reset batch_size max_len
              (lin_ok files) (lin_pend files) (lin_fresh files)
              (linear_readline_spec files) (linear_reset_fresh files true) Hb Hm
              fuel (batch_init (lin_fresh files)) eq_refl eq_refl Hf) as (batches & E & Hc).
  exists batches. split; [exact E|].
  unfold pendseqs in Hc. cbn [batch_init b_buffer b_src pieces filter app] in Hc.
  rewrite lin_fresh_pend in Hc. exact Hc.
Qed.

Lemma linear_len_spec files s batch_size max_len ls ss :
  linear_init files = Ok s -> 1 <= batch_size -> valid_max max_len ->
  tagged_lines 0 files ls -> lines_sequences max_len ls ss ->
  exists fuel0, forall fuel, fuel0 <= fuel ->
    iter_len linear linear_readline linear_reset batch_size max_len fuel (batch_init s)
    = Ok ((length ss + batch_size - 1) / batch_size, batch_init s).
Proof.
  intros Hi Hb Hm Hls Hss. apply linear_init_fresh in Hi. subst s.
  apply tagged_lines_unique in Hls. apply (lines_sequences_unique _ _ _ Hm) in Hss. subst.
  exists (S (work linear (lin_pend files) (batch_init (lin_fresh files)))). intros fuel Hf.
  unfold iter_len. cbn [batch_init b_src b_buffer b_eof].
  rewrite (linear_reset_fresh files) by reflexivity.
  destruct (count_loop_spec linear linear_readline max_len
              (lin_ok files) (lin_pend files) (linear_readline_spec files) Hm
              fuel (batch_init (lin_fresh files)) 0 eq_refl) as (s' & E & Ho); [unfold lt in *; lia|].
  unfold batch_init in E. rewrite E. cbn [bind b_src b_buffer b_eof].
  rewrite (linear_reset_fresh files) by exact Ho.
  destruct batch_size as [|b]; [lia|].
  unfold pendseqs. cbn [batch_init b_buffer b_src pieces filter app].
  rewrite lin_fresh_pend. reflexivity.
Qed.

(** Any number of epochs of the linear iterator. *)
Lemma linear_epochs_spec files s batch_size max_len ls ss :
  linear_init files = Ok s -> 1 <= batch_size -> valid_max max_len ->
  tagged_lines 0 files ls -> lines_sequences max_len ls ss ->
  exists fuel0 batches, cut_into batch_size ss batches /\
  forall fuel n, fuel0 <= fuel ->
    epochs linear linear_readline linear_reset batch_size max_len fuel n (batch_init s)
    = Ok (repeat batches n, batch_init s).
Proof.
  intros Hi Hb Hm Hl Hs.
  destruct (linear_epoch_spec _ _ _ _ _ _ Hi Hb Hm Hl Hs) as (fuel0 & H).
  exists fuel0, (cut batch_size ss). split; [now apply cut_into_cut|].
  intros fuel n Hf. destruct (H fuel Hf) as (batches & E & Hc).
  apply (cut_into_unique _ _ _ Hb) in Hc. subst batches.
  induction n as [|n IH]; cbn [epochs repeat]; [reflexivity|].
  rewrite E. cbn [bind]. rewrite IH. reflexivity.
Qed.

Lemma cut_into_sizes {A} b (l : list A) ps :
  1 <= b -> cut_into b l ps ->
  Forall (fun p => length p = b) (removelast ps) /\ Forall (fun p => 1 <= length p <= b) ps.
Proof.
  intros Hb. induction 1 as [|l Hne Hlen|a l ps Ha Hne H [IH1 IH2]].
  - split; constructor.
  - split; [constructor|]. constructor; [|constructor].
    destruct l; [congruence|cbn in *; lia].
  - split.
    + destruct ps as [|p ps].
      * constructor.
      * change (removelast (a :: p :: ps)) with (a :: removelast (p :: ps)). now constructor.
    + constructor; [lia|exact IH2].
Qed.

Lemma linear_sizes_spec files s batch_size max_len ls ss :
  linear_init files = Ok s -> 1 <= batch_size -> valid_max max_len ->
  tagged_lines 0 files ls -> lines_sequences max_len ls ss ->
  exists fuel0, forall fuel, fuel0 <= fuel -> exists batches st',
    linear_epoch batch_size max_len fuel (batch_init s) = Ok (batches, st') /\
    Forall (fun b => length b = batch_size) (removelast batches) /\
    Forall (fun b => 1 <= length b <= batch_size) batches /\
    iter_len linear linear_readline linear_reset batch_size max_len fuel (batch_init s)
    = Ok (length batches, batch_init s).
Proof.
  intros Hi Hb Hm Hl Hs.
  destruct (linear_epoch_spec _ _ _ _ _ _ Hi Hb Hm Hl Hs) as (f1 & H1).
  destruct (linear_len_spec _ _ _ _ _ _ Hi Hb Hm Hl Hs) as (f2 & H2).
  exists (max f1 f2). intros fuel Hf.
  destruct (H1 fuel ltac:(lia)) as (batches & E & Hc). exists batches, (batch_init s).
  destruct (cut_into_sizes _ _ _ Hb Hc) as [A1 A2].
  split; [exact E|]. split; [exact A1|]. split; [exact A2|].
  rewrite (H2 fuel ltac:(lia)). pose proof (cut_into_count _ _ _ Hb Hc) as En. cbv zeta in En.
  f_equal. f_equal. symmetry. exact En.
Qed.
