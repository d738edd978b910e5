(** Proofs about text parsing. *)
From Coq Require Import Sorting.Sorted.
From Verif Require Import Base ListLib Strings TextModel TextSpec.

(** ** Whitespace *)

Lemma all_space_app a b : all_space (a ++ b) <-> all_space a /\ all_space b.
Proof.
  unfold all_space; split.
  - intros H; split; intros c Hc; apply H, in_or_app; auto.
  - intros [Ha Hb] c Hc; apply in_app_or in Hc as [Hc|Hc]; auto.
Qed.

Lemma all_space_nil : all_space [].
Proof. intros c []. Qed.
Lemma no_space_nil : no_space [].
Proof. intros c []. Qed.

Lemma all_space_cons c s : all_space (c :: s) <-> is_space c = true /\ all_space s.
Proof.
  unfold all_space; split.
  - intros H; split; [apply H; left; reflexivity | intros d Hd; apply H; right; exact Hd].
  - intros [Hc Hs] d [<-|Hd]; auto.
Qed.
Lemma no_space_cons c s : no_space (c :: s) <-> is_space c = false /\ no_space s.
Proof.
  unfold no_space; split.
  - intros H; split; [apply H; left; reflexivity | intros d Hd; apply H; right; exact Hd].
  - intros [Hc Hs] d [<-|Hd]; auto.
Qed.

Lemma no_space_rev s : no_space s -> no_space (rev s).
Proof. intros H c Hc; apply H; now apply in_rev. Qed.
Lemma all_space_rev s : all_space s -> all_space (rev s).
Proof. intros H c Hc; apply H; now apply in_rev. Qed.

(** lstrip removes exactly a maximal run of spaces. *)
Lemma lstrip_decomp s :
  exists sp, s = sp ++ lstrip s /\ all_space sp /\
             (lstrip s = [] \/ exists c r, lstrip s = c :: r /\ is_space c = false).
Proof.
  induction s as [|c s IH]; cbn.
  - exists []; repeat split; [apply all_space_nil | left; reflexivity].
  - destruct (is_space c) eqn:Hc.
    + destruct IH as (sp & E & Hsp & Hr). exists (c :: sp); repeat split.
      * cbn. f_equal. exact E.
      * apply all_space_cons; auto.
      * exact Hr.
    + exists []; repeat split; [apply all_space_nil | right; eauto].
Qed.

Lemma rstrip_decomp s :
  exists sp, s = rstrip s ++ sp /\ all_space sp /\
             (rstrip s = [] \/ exists c r, rstrip s = r ++ [c] /\ is_space c = false).
Proof.
  unfold rstrip.
  destruct (lstrip_decomp (rev s)) as (sp & E & Hsp & Hr).
  exists (rev sp); repeat split.
  - rewrite <- rev_app_distr, <- E. now rewrite rev_involutive.
  - now apply all_space_rev.
  - destruct Hr as [Hr|(c & r & Hr & Hc)].
    + left. now rewrite Hr.
    + right. exists c, (rev r). rewrite Hr; cbn. auto.
Qed.

Lemma rstrip_nil_iff s : rstrip s = [] <-> all_space s.
Proof.
  destruct (rstrip_decomp s) as (sp & E & Hsp & Hr); split; intros H.
  - rewrite H in E; cbn in E; now subst.
  - destruct Hr as [Hr|(c & r & Hr & Hc)]; [exact Hr|].
    exfalso. rewrite E, Hr in H.
    apply all_space_app in H as [H _]. apply all_space_app in H as [_ H].
    apply all_space_cons in H as [H _]. congruence.
Qed.

(** ** split *)

Lemma split_aux_nonempty_run cur t s :
  no_space t -> split_aux cur (t ++ s) = split_aux (rev t ++ cur) s.
Proof.
  revert cur; induction t as [|c t IH]; intros cur Ht; cbn; [reflexivity|].
  apply no_space_cons in Ht as [Hc Ht]. rewrite Hc, IH by exact Ht.
  now rewrite <- app_assoc.
Qed.

Lemma split_aux_spaces sp s :
  all_space sp -> split_aux [] (sp ++ s) = split_aux [] s.
Proof.
  induction sp as [|c sp IH]; intros H; cbn; [reflexivity|].
  apply all_space_cons in H as [Hc H]. rewrite Hc. auto.
Qed.

Lemma split_aux_trailing s cur sp :
  all_space sp -> split_aux cur (s ++ sp) = split_aux cur s.
Proof.
  revert cur; induction s as [|c s IH]; intros cur H.
  - cbn [app]. destruct sp as [|d sp].
    + reflexivity.
    + apply all_space_cons in H as [Hd H]. cbn. rewrite Hd.
      assert (E : split_aux [] sp = []).
      { rewrite <- (app_nil_r sp), split_aux_spaces by exact H. reflexivity. }
      destruct cur; rewrite E; reflexivity.
  - cbn. destruct (is_space c); [destruct cur|]; rewrite IH by exact H; reflexivity.
Qed.

Lemma split_rstrip s : split (rstrip s) = split s.
Proof.
  destruct (rstrip_decomp s) as (sp & E & Hsp & _).
  unfold split. rewrite E at 2. now rewrite split_aux_trailing.
Qed.

Lemma rev_cons_nonempty {A} (c : A) l : rev (c :: l) <> [].
Proof. cbn. intros H. apply app_eq_nil in H as [_ H]. discriminate. Qed.

Lemma tokens_space_cons c s toks :
  is_space c = true -> tokens s toks -> tokens (c :: s) toks.
Proof.
  intros Hc H. destruct H as [s Hs|sep t Hsep Ht Hn|sep t d rest toks Hsep Ht Hn Hd H].
  - apply tokens_blank. apply all_space_cons; auto.
  - rewrite app_comm_cons. apply tokens_last; auto. apply all_space_cons; auto.
  - rewrite app_comm_cons. apply tokens_cons; auto. apply all_space_cons; auto.
Qed.

Lemma split_aux_tokens s : forall cur,
  no_space cur -> tokens (rev cur ++ s) (split_aux cur s).
Proof.
  induction s as [|c s IH]; intros cur Hcur; cbn.
  - destruct cur as [|d cur].
    + apply tokens_blank, all_space_nil.
    + rewrite app_nil_r.
      apply (tokens_last [] (rev (d :: cur))).
      * apply all_space_nil.
      * apply rev_cons_nonempty.
      * now apply no_space_rev.
  - destruct (is_space c) eqn:Hc.
    + destruct cur as [|d cur].
      * cbn. apply tokens_space_cons; [exact Hc|].
        apply (IH []). apply no_space_nil.
      * apply (tokens_cons [] (rev (d :: cur)) c s).
        -- apply all_space_nil.
        -- apply rev_cons_nonempty.
        -- now apply no_space_rev.
        -- exact Hc.
        -- apply (IH []). apply no_space_nil.
    + replace (rev cur ++ c :: s) with (rev (c :: cur) ++ s)
        by (cbn; now rewrite <- app_assoc).
      apply IH. apply no_space_cons; auto.
Qed.

Lemma split_tokens s : tokens s (split s).
Proof. apply (split_aux_tokens s [] no_space_nil). Qed.

Lemma tokens_split s toks : tokens s toks -> split s = toks.
Proof.
  unfold split.
  induction 1 as [s Hs|sep t Hsep Ht Hn|sep t c rest toks Hsep Ht Hn Hc H IH].
  - rewrite <- (app_nil_r s). now rewrite split_aux_spaces.
  - rewrite split_aux_spaces by exact Hsep.
    rewrite <- (app_nil_r t) at 1. rewrite split_aux_nonempty_run by exact Hn.
    rewrite app_nil_r. cbn.
    destruct (rev t) eqn:E.
    + exfalso. apply Ht. rewrite <- (rev_involutive t), E. reflexivity.
    + rewrite <- E, rev_involutive. reflexivity.
  - rewrite split_aux_spaces by exact Hsep.
    rewrite split_aux_nonempty_run by exact Hn. rewrite app_nil_r.
    cbn. rewrite Hc.
    destruct (rev t) eqn:E.
    + exfalso. apply Ht. rewrite <- (rev_involutive t), E. reflexivity.
    + rewrite <- E, rev_involutive, IH. reflexivity.
Qed.

Lemma tokens_functional s t1 t2 : tokens s t1 -> tokens s t2 -> t1 = t2.
Proof. intros H1 H2. apply tokens_split in H1, H2. congruence. Qed.

Lemma tokens_nil_iff s : tokens s [] <-> all_space s.
Proof.
  split.
  - intros H. inversion H; subst; auto.
  - apply tokens_blank.
Qed.

Lemma tokens_words s toks :
  tokens s toks -> Forall (fun t => t <> [] /\ no_space t) toks.
Proof. induction 1; auto. Qed.

(** ** Lists *)

Lemma nth_error_last {A} (l : list A) (x : A) :
  nth_error (l ++ [x]) (length (l ++ [x]) - 1) = Some x.
Proof.
  rewrite app_length; cbn.
  rewrite nth_error_app2 by lia.
  replace (length l + 1 - 1 - length l) with 0 by lia. reflexivity.
Qed.

Lemma list_last_case {A} (l : list A) : l = [] \/ exists r x, l = r ++ [x].
Proof.
  destruct l as [|a l] using rev_ind; [left; reflexivity | right; eauto].
Qed.

(** ** utterance_from_line *)

Lemma SOS_neq_EOS : SOS <> EOS.
Proof. discriminate. Qed.

Lemma ends_with_cons x a l :
  l <> [] -> ends_with x (a :: l) <-> ends_with x l.
Proof.
  intros Hl; split; intros [r E].
  - destruct r as [|b r]; cbn in E.
    + injection E as -> ->. congruence.
    + injection E as _ ->. exists r; reflexivity.
  - exists (a :: r). now rewrite E.
Qed.

Lemma ends_with_last x y r : ends_with x (r ++ [y]) <-> x = y.
Proof.
  split.
  - intros [r' E]. apply app_inj_tail in E as [_ E]. congruence.
  - intros ->. exists r; reflexivity.
Qed.

(** The framing step on its own. *)
Definition frame (toks : list pystr) : result (list pystr) :=
  do first <- py_index toks 0;
  let result := if pystr_eq_dec first SOS then toks else SOS :: toks in
  do last <- py_index result (length result - 1);
  let result := if pystr_eq_dec last EOS then result else result ++ [EOS] in
  Ok result.

Lemma frame_framed toks :
  toks <> [] -> exists u, frame toks = Ok u /\ framed toks u.
Proof.
  intros Hne. destruct toks as [|a toks']; [congruence|].
  unfold frame. set (toks := a :: toks') in *.
  assert (Efirst : py_index toks 0 = Ok a) by reflexivity.
  rewrite Efirst. cbn [bind].
  set (pre := if pystr_eq_dec a SOS then [] else [SOS]).
  assert (Epre : (if pystr_eq_dec a SOS then toks else SOS :: toks) = pre ++ toks).
  { unfold pre; destruct (pystr_eq_dec a SOS); reflexivity. }
  rewrite Epre.
  destruct (list_last_case toks) as [E|(r & x & E)]; [congruence|].
  assert (Elast : py_index (pre ++ toks) (length (pre ++ toks) - 1) = Ok x).
  { unfold py_index. rewrite E, app_assoc, nth_error_last. reflexivity. }
  cbv zeta. rewrite Elast. cbn [bind].
  set (post := if pystr_eq_dec x EOS then [] else [EOS]).
  exists (pre ++ toks ++ post). split.
  - unfold post; destruct (pystr_eq_dec x EOS).
    + now rewrite app_nil_r.
    + now rewrite app_assoc.
  - constructor.
    + unfold pre; destruct (pystr_eq_dec a SOS) as [->|Hn].
      * left; split; [exists toks'; reflexivity | reflexivity].
      * right; split; [|reflexivity]. intros [r' E']. unfold toks in E'. congruence.
    + unfold post. rewrite E, ends_with_last.
      destruct (pystr_eq_dec x EOS) as [->|Hn].
      * left; auto.
      * right; split; [congruence|reflexivity].
Qed.

Lemma utterance_unfold line :
  utterance_from_line line =
  match rstrip line with [] => Ok [] | _ => frame (split (rstrip line)) end.
Proof. reflexivity. Qed.

Lemma utterance_blank line :
  all_space line -> utterance_from_line line = Ok [].
Proof. intros H. rewrite utterance_unfold. apply rstrip_nil_iff in H. now rewrite H. Qed.

Lemma utterance_nonblank line toks :
  tokens line toks -> toks <> [] ->
  exists u, utterance_from_line line = Ok u /\ framed toks u.
Proof.
  intros Ht Hne. rewrite utterance_unfold.
  destruct (rstrip line) eqn:E.
  - exfalso. apply Hne. apply rstrip_nil_iff in E.
    apply (tokens_functional line); [exact Ht | now apply tokens_blank].
  - rewrite <- E, split_rstrip, (tokens_split _ _ Ht). now apply frame_framed.
Qed.

Lemma framed_shape toks u :
  toks <> [] -> framed toks u ->
  exists mid, u = SOS :: mid ++ [EOS].
Proof.
  intros Hne H. destruct H as [toks pre post Hpre Hpost].
  destruct Hpre as [[[r ->] ->]|[Hs ->]].
  - (* starts with <s> *)
    destruct Hpost as [[[r' E] ->]|[He ->]].
    + rewrite app_nil_r. cbn.
      destruct r' as [|b r'].
      * discriminate E.
      * cbn in E. injection E as _ E. exists r'. now rewrite E.
    + exists r. reflexivity.
  - destruct Hpost as [[[r' E] ->]|[He ->]].
    + rewrite app_nil_r, E. exists r'. reflexivity.
    + exists toks. reflexivity.
Qed.

Lemma framed_functional toks u1 u2 : framed toks u1 -> framed toks u2 -> u1 = u2.
Proof.
  intros H1 H2. inversion H1 as [t1 p1 q1 A1 B1]; inversion H2 as [t2 p2 q2 A2 B2]; subst.
  assert (p1 = p2) as -> by (destruct A1 as [[? ->]|[? ->]], A2 as [[? ->]|[? ->]]; tauto).
  assert (q1 = q2) as -> by (destruct B1 as [[? ->]|[? ->]], B2 as [[? ->]|[? ->]]; tauto).
  reflexivity.
Qed.

Lemma utterance_spec line :
  (all_space line /\ utterance_from_line line = Ok []) \/
  (exists toks mid, ~ all_space line /\ tokens line toks /\ toks <> [] /\
     framed toks (SOS :: mid ++ [EOS]) /\
     utterance_from_line line = Ok (SOS :: mid ++ [EOS])).
Proof.
  destruct (split line) eqn:E.
  - left. pose proof (split_tokens line) as H. rewrite E in H. apply tokens_nil_iff in H.
    split; [exact H | now apply utterance_blank].
  - right. pose proof (split_tokens line) as H. rewrite E in H.
    assert (Hne : p :: l <> []) by discriminate.
    destruct (utterance_nonblank line _ H Hne) as (u & Eu & Hf).
    destruct (framed_shape _ _ Hne Hf) as (mid & ->).
    exists (p :: l), mid. repeat split; auto.
    intros Ha. apply tokens_nil_iff in Ha.
    pose proof (tokens_functional _ _ _ H Ha). discriminate.
Qed.

Lemma utterance_total line : exists u, utterance_from_line line = Ok u.
Proof.
  destruct (utterance_spec line) as [[_ E]|(? & ? & _ & _ & _ & _ & E)]; eauto.
Qed.

Lemma tokens_nil_blank line : tokens line [] -> all_space line.
Proof. intros H; inversion H; assumption. Qed.

Lemma utterance_of_iff line u : utterance_from_line line = Ok u <-> utterance_of line u.
Proof.
  destruct (utterance_spec line) as [[Hb E]|(toks & mid & Hb & Ht & Hne & Hf & E)]; rewrite E; split.
  - intros H. injection H as <-. now constructor.
  - intros H. inversion H as [l Hl|l toks u' Ht Hne Hf]; subst; [reflexivity|].
    exfalso. apply Hne. apply (tokens_functional line); [exact Ht|]. now constructor.
  - intros H. injection H as <-. econstructor; eauto.
  - intros H. inversion H as [l Hl|l toks' u' Ht' Hne' Hf']; subst; [contradiction|].
    rewrite (tokens_functional _ _ _ Ht' Ht) in Hf'.
    now rewrite (framed_functional _ _ _ Hf' Hf).
Qed.

(** Joining the tokens with spaces and parsing again. *)
Lemma join_tokens toks :
  Forall (fun t => t <> [] /\ no_space t) toks -> tokens (join [space] toks) toks.
Proof.
  induction toks as [|t toks IH]; intros H.
  - apply tokens_blank, all_space_nil.
  - inversion H as [|? ? [Hne Hns] Hrest]; subst.
    destruct toks as [|t' toks'].
    + cbn. apply (tokens_last [] t); auto using all_space_nil.
    + cbn [join]. apply (tokens_cons [] t space (join [space] (t' :: toks')));
        auto using all_space_nil.
Qed.

Lemma words_SOS : SOS <> [] /\ no_space SOS.
Proof. split; [discriminate|]. intros c Hc. cbn in Hc. destruct Hc as [<-|[<-|[<-|[]]]]; reflexivity. Qed.
Lemma words_EOS : EOS <> [] /\ no_space EOS.
Proof. split; [discriminate|]. intros c Hc. cbn in Hc. destruct Hc as [<-|[<-|[<-|[<-|[]]]]]; reflexivity. Qed.

Lemma utterance_idempotent line u :
  utterance_from_line line = Ok u ->
  utterance_from_line (join [space] u) = Ok u.
Proof.
  intros E. destruct (utterance_spec line) as [[_ E']|(toks & mid & _ & Ht & Hne & Hf & E')];
    rewrite E in E'; injection E' as ->.
  - reflexivity.
  - set (u := SOS :: mid ++ [EOS]) in *.
    assert (Hw : Forall (fun t => t <> [] /\ no_space t) u).
    { pose proof (tokens_words _ _ Ht) as Hwt.
      inversion Hf as [toks' pre post Hpre Hpost Et Eu]; subst toks'.
      repeat rewrite Forall_app. repeat split.
      - destruct Hpre as [[_ ->]|[_ ->]]; auto using words_SOS.
      - exact Hwt.
      - destruct Hpost as [[_ ->]|[_ ->]]; auto using words_EOS. }
    destruct (utterance_nonblank (join [space] u) u (join_tokens _ Hw)) as (u' & Eu' & Hf').
    { discriminate. }
    rewrite Eu'. f_equal.
    apply (framed_functional u); [exact Hf'|].
    replace u with ([] ++ u ++ []) at 2 by (cbn; now rewrite app_nil_r).
    constructor.
    + left; split; [exists (mid ++ [EOS]); reflexivity | reflexivity].
    + left; split; [exists (SOS :: mid); reflexivity | reflexivity].
Qed.

(** ** find_sentence_starts *)

Lemma find_newline_from_spec data offset :
  match find_newline_from data offset with
  | None => ~ In newline data
  | Some p => exists pre post, data = pre ++ newline :: post /\
                               ~ In newline pre /\ p = offset + length pre
  end.
Proof.
  revert offset; induction data as [|c data IH]; intros offset; cbn.
  - intros [].
  - destruct (N.eq_dec c newline) as [->|Hc].
    + exists [], data; cbn; repeat split; auto.
    + specialize (IH (S offset)).
      destruct (find_newline_from data (S offset)) as [p|].
      * destruct IH as (pre & post & -> & Hpre & ->).
        exists (c :: pre), post; cbn; repeat split; [|lia].
        intros [H|H]; [congruence|auto].
      * intros [H|H]; [congruence|auto].
Qed.

(** Starts of the lines of [data] that come after the one it begins with, shifted
    by [offset]. *)
Fixpoint later_starts (data : pystr) (offset : nat) : list nat :=
  match data with
  | [] => []
  | c :: data' =>
    if N.eq_dec c newline
    then match data' with
         | [] => []
         | _ => S offset :: later_starts data' (S offset)
         end
    else later_starts data' (S offset)
  end.

Lemma later_starts_pre pre post offset :
  ~ In newline pre ->
  later_starts (pre ++ post) offset = later_starts post (offset + length pre).
Proof.
  revert offset; induction pre as [|c pre IH]; intros offset H; cbn.
  - f_equal; lia.
  - destruct (N.eq_dec c newline) as [->|Hc].
    + exfalso; apply H; left; reflexivity.
    + rewrite IH by (intros Hi; apply H; right; exact Hi). f_equal; lia.
Qed.

Lemma later_starts_none data offset :
  ~ In newline data -> later_starts data offset = [].
Proof.
  intros H. rewrite <- (app_nil_r data), later_starts_pre by exact H. reflexivity.
Qed.

Lemma find_sentence_starts_loop_spec fuel data pos result :
  length data - pos < fuel -> pos <= length data ->
  find_sentence_starts_loop fuel data pos result =
  Ok (result ++ later_starts (skipn pos data) pos).
Proof.
  revert pos result; induction fuel as [|fuel IH]; intros pos result Hf Hp; [lia|].
  cbn [find_sentence_starts_loop]. unfold find_newline.
  pose proof (find_newline_from_spec (skipn pos data) pos) as Hs.
  destruct (find_newline_from (skipn pos data) pos) as [p|].
  - destruct Hs as (pre & post & E & Hpre & ->).
    assert (Hlen : length (skipn pos data) = length data - pos) by apply skipn_length.
    rewrite E, app_length in Hlen; cbn in Hlen.
    rewrite E, later_starts_pre by exact Hpre.
    cbn [later_starts]. destruct (N.eq_dec newline newline) as [_|n]; [|congruence].
    assert (Epost : skipn (S (pos + length pre)) data = post).
    { replace (S (pos + length pre)) with (S (length pre) + pos) by lia.
      rewrite <- skipn_add, E.
      replace (S (length pre)) with (length (pre ++ [newline])) by (rewrite app_length; cbn; lia).
      replace (pre ++ newline :: post) with ((pre ++ [newline]) ++ post)
        by (rewrite <- app_assoc; reflexivity).
      rewrite skipn_app, skipn_all, Nat.sub_diag. reflexivity. }
    destruct post as [|d post].
    + cbn in Hlen.
      destruct (Nat.ltb_spec (S (pos + length pre)) (length data)) as [Hl|Hl]; [lia|].
      rewrite IH by lia. rewrite Epost. cbn. reflexivity.
    + cbn in Hlen.
      destruct (Nat.ltb_spec (S (pos + length pre)) (length data)) as [Hl|Hl]; [|lia].
      rewrite IH by lia. rewrite Epost, <- app_assoc. reflexivity.
  - rewrite later_starts_none by exact Hs. now rewrite app_nil_r.
Qed.

Lemma find_sentence_starts_eq data :
  find_sentence_starts data = Ok (0 :: later_starts data 0).
Proof.
  unfold find_sentence_starts. rewrite find_sentence_starts_loop_spec by lia.
  reflexivity.
Qed.

Lemma later_starts_in data offset p :
  In p (later_starts data offset) <->
  offset < p < offset + length data /\ nth_error data (p - offset - 1) = Some newline.
Proof.
  revert offset; induction data as [|c data IH]; intros offset.
  - cbn. split; [intros []|]. intros [H _]; lia.
  - cbn [later_starts length].
    assert (Hstep : In p (later_starts data (S offset)) <->
            S offset < p < offset + S (length data) /\
            nth_error (c :: data) (p - offset - 1) = Some newline).
    { rewrite IH. split; intros [H1 H2].
      - split; [lia|]. replace (p - offset - 1) with (S (p - S offset - 1)) by lia. exact H2.
      - split; [lia|]. replace (p - offset - 1) with (S (p - S offset - 1)) in H2 by lia. exact H2. }
    destruct (N.eq_dec c newline) as [->|Hc].
    + destruct data as [|d data].
      * cbn. split; [intros []|]. intros [H _]; lia.
      * cbn [In]. rewrite Hstep. split.
        -- intros [<-|[H1 H2]].
           ++ split; [cbn; lia|]. replace (S offset - offset - 1) with 0 by lia. reflexivity.
           ++ split; [lia|exact H2].
        -- intros [H1 H2]. destruct (Nat.eq_dec (S offset) p) as [E|E]; [left; exact E|].
           right. split; [lia|exact H2].
    + rewrite Hstep. split; intros [H1 H2].
      * split; [lia|exact H2].
      * split; [|exact H2].
        destruct (Nat.eq_dec (S offset) p) as [E|E]; [|lia].
        exfalso. subst p. replace (S offset - offset - 1) with 0 in H2 by lia.
        cbn in H2. congruence.
Qed.

Lemma later_starts_sorted data offset :
  StronglySorted lt (offset :: later_starts data offset).
Proof.
  assert (Hlb : forall data offset, Forall (lt offset) (later_starts data offset)).
  { intros d o. apply Forall_forall. intros p Hp. apply later_starts_in in Hp. lia. }
  assert (Hs : StronglySorted lt (later_starts data offset)).
  { revert offset; induction data as [|c data IH]; intros offset; cbn; [constructor|].
    destruct (N.eq_dec c newline).
    - destruct data; [constructor|]. constructor; [apply IH|apply Hlb].
    - apply IH. }
  constructor; [exact Hs|apply Hlb].
Qed.

Lemma find_sentence_starts_exact data :
  exists starts, find_sentence_starts data = Ok starts /\
    StronglySorted lt starts /\
    (forall p, In p starts <-> line_start data p).
Proof.
  rewrite find_sentence_starts_eq. eexists; split; [reflexivity|]. split.
  - apply later_starts_sorted.
  - intros p. unfold line_start. cbn [In]. rewrite later_starts_in, Nat.sub_0_r. cbn.
    split.
    + intros [<-|H]; auto.
    + intros [->|H]; auto.
Qed.

(** Reading a line at each start gives the lines. *)

Lemma readline_line l rest :
  is_line l -> readline (l ++ rest) = (l, rest).
Proof.
  intros (body & Hb & ->). induction body as [|c body IH]; cbn.
  - destruct (N.eq_dec newline newline); [reflexivity|congruence].
  - destruct (N.eq_dec c newline) as [->|Hc].
    + exfalso; apply Hb; left; reflexivity.
    + cbn in IH. rewrite IH by (intros H; apply Hb; right; exact H). reflexivity.
Qed.

Lemma readline_last l : ~ In newline l -> readline l = (l, []).
Proof.
  induction l as [|c l IH]; intros H; cbn; [reflexivity|].
  destruct (N.eq_dec c newline) as [->|Hc].
  - exfalso; apply H; left; reflexivity.
  - rewrite IH by (intros Hi; apply H; right; exact Hi). reflexivity.
Qed.

Lemma lines_of_exists data : exists ls, lines_of data ls.
Proof.
  remember (length data) as n eqn:Hn.
  assert (Hle : length data <= n) by lia. clear Hn.
  revert data Hle. induction n as [|n IH]; intros data Hle.
  - destruct data; [|cbn in Hle; lia]. exists []; constructor.
  - destruct (in_dec N.eq_dec newline data) as [Hi|Hi].
    + pose proof (find_newline_from_spec data 0) as Hs.
      destruct (find_newline_from data 0) as [p|]; [|contradiction].
      destruct Hs as (pre & post & -> & Hpre & _).
      rewrite app_length in Hle; cbn in Hle.
      destruct (IH post) as [ls Hls]; [lia|].
      exists ((pre ++ [newline]) :: ls).
      replace (pre ++ newline :: post) with ((pre ++ [newline]) ++ post)
        by (rewrite <- app_assoc; reflexivity).
      constructor; [exists pre; auto | exact Hls].
    + destruct data as [|c data]; [exists []; constructor|].
      exists [c :: data]. constructor; [discriminate|exact Hi].
Qed.

Lemma lines_of_nil ls : lines_of [] ls -> ls = [].
Proof.
  intros H. inversion H as [|l Hne Hn|l rest ls' Hl Hr E]; subst; auto.
  - congruence.
  - destruct Hl as (b & _ & ->). destruct b; discriminate.
Qed.

Lemma lines_of_cons data l ls :
  lines_of data (l :: ls) -> fst (readline data) = l.
Proof.
  intros H. inversion H as [|l' Hne Hn|l' rest ls' Hl Hr]; subst.
  - now rewrite readline_last.
  - now rewrite readline_line.
Qed.

Lemma lines_of_nonempty data ls : lines_of data ls -> data <> [] -> exists l ls', ls = l :: ls'.
Proof. intros H; destruct H; eauto; congruence. Qed.

Lemma later_starts_readlines data ls (prefix : pystr) :
  lines_of data ls ->
  map (readline_at (prefix ++ data)) (later_starts data (length prefix)) = tl ls.
Proof.
  intros H. revert prefix. induction H as [|l Hne Hnl|l rest ls Hl Hrest IH]; intros prefix.
  - reflexivity.
  - now rewrite later_starts_none.
  - destruct Hl as (body & Hb & ->). cbn [tl].
    rewrite <- app_assoc, later_starts_pre by exact Hb. cbn [app later_starts].
    destruct (N.eq_dec newline newline) as [_|n]; [|congruence].
    specialize (IH (prefix ++ body ++ [newline])).
    replace ((prefix ++ body ++ [newline]) ++ rest) with (prefix ++ body ++ newline :: rest) in IH
      by (rewrite <- !app_assoc; reflexivity).
    destruct rest as [|c rest].
    + now rewrite (lines_of_nil _ Hrest).
    + cbn [map].
      replace (S (length prefix + length body)) with (length (prefix ++ body ++ [newline]))
        by (rewrite !app_length; cbn; lia).
      rewrite IH.
      destruct (lines_of_nonempty _ _ Hrest) as (l0 & ls' & ->); [discriminate|].
      cbn [tl]. f_equal. unfold readline_at.
      replace (prefix ++ body ++ newline :: c :: rest)
        with ((prefix ++ body ++ [newline]) ++ c :: rest)
        by (rewrite <- !app_assoc; reflexivity).
      rewrite skipn_app_exact. exact (lines_of_cons _ _ _ Hrest).
Qed.

Lemma find_sentence_starts_lines data ls :
  data <> [] -> lines_of data ls ->
  exists starts, find_sentence_starts data = Ok starts /\
                 map (readline_at data) starts = ls.
Proof.
  intros Hne Hls. rewrite find_sentence_starts_eq. eexists; split; [reflexivity|].
  cbn [map]. pose proof (later_starts_readlines data ls [] Hls) as E. cbn in E. rewrite E.
  destruct (lines_of_nonempty _ _ Hls Hne) as (l0 & ls' & ->).
  cbn [tl]. f_equal. exact (lines_of_cons _ _ _ Hls).
Qed.

Lemma lines_of_functional data l1 l2 : lines_of data l1 -> lines_of data l2 -> l1 = l2.
Proof.
  intros H1 H2. destruct data as [|c data].
  - now rewrite (lines_of_nil _ H1), (lines_of_nil _ H2).
  - assert (Hne : c :: data <> []) by discriminate.
    destruct (find_sentence_starts_lines _ _ Hne H1) as (s1 & E1 & <-).
    destruct (find_sentence_starts_lines _ _ Hne H2) as (s2 & E2 & <-).
    congruence.
Qed.
