(** Proofs about the recipe scripts. *)
From Coq Require Import QArith Qcanon String.
From Verif Require Import Base BaseLib ListLib Strings Dict QcLib TextSpec TextProofs RecipeModel RecipeSpec.
Local Open Scope nat_scope.
Local Open Scope list_scope.

(** ** Counting n-grams *)
Lemma increment_get c g g' : dict_get ngram_dec (increment c g) g' =
  if ngram_dec g g' then Some (match dict_get ngram_dec c g with Some n => n + 1 | None => 1 end)%Z else dict_get ngram_dec c g'.
Proof.
  unfold increment. destruct (ngram_dec g g') as [<-|N].
  - destruct (dict_get ngram_dec c g); apply dict_get_set_same.
  - destruct (dict_get ngram_dec c g); now apply dict_get_set_other.
Qed.
Definition value (c : counts) (g : ngram) : Z := match dict_get ngram_dec c g with Some n => n | None => 0%Z end.
Definition positive (c : counts) : Prop := forall g n, dict_get ngram_dec c g = Some n -> (0 < n)%Z.
Lemma increment_value c g g' : value (increment c g) g' = (value c g' + (if ngram_dec g g' then 1 else 0))%Z.
Proof. unfold value. rewrite increment_get. destruct (ngram_dec g g') as [<-|]; [destruct (dict_get ngram_dec c g); lia|lia]. Qed.
Lemma increment_positive c g : positive c -> positive (increment c g).
Proof.
  intros P g' n. rewrite increment_get. destruct (ngram_dec g g') as [<-|]; [|apply P].
  destruct (dict_get ngram_dec c g) as [m|] eqn:E; intros [= <-]; [specialize (P _ _ E)|]; lia.
Qed.
Lemma positive_value c g n : positive c -> dict_get ngram_dec c g = Some n <-> value c g = n /\ (0 < n)%Z.
Proof.
  intros P. unfold value. destruct (dict_get ngram_dec c g) as [m|] eqn:E.
  - specialize (P _ _ E). split; [intros [= <-]; auto|intros [-> _]; reflexivity].
  - split; [discriminate|lia].
Qed.

(** The suffixes that are counted when a word has been read *)
Lemma last_length n h : n <= length h -> length (last_words n h) = n.
Proof. intros H. unfold last_words. rewrite skipn_length. lia. Qed.
Lemma counted_value h g : forall m c, m <= length h ->
  value (fold_left (fun c i => increment c (last_words (i + 1) h)) (seq 0 m) c) g =
  (value c g + (if ngram_dec (last_words (length g) h) g then if andb (1 <=? length g)%nat (length g <=? m)%nat then 1 else 0 else 0))%Z.
Proof.
  induction m as [|m IH]; intros c L.
  - cbn [seq fold_left]. destruct (ngram_dec _ g); [|lia]. destruct (length g) as [|k]; cbn; lia.
  - rewrite seq_S, fold_left_app. cbn [fold_left Nat.add]. rewrite increment_value, IH by lia. rewrite <- Z.add_assoc. f_equal.
    replace (m + 1) with (S m) by lia. destruct (ngram_dec (last_words (S m) h) g) as [E|N].
    + pose proof (f_equal (@length _) E) as Lg. rewrite last_length in Lg by exact L. rewrite <- Lg, E. destruct (ngram_dec g g) as [_|]; [|congruence].
      destruct (Nat.leb_spec (S m) m); [lia|]. destruct (Nat.leb_spec (S m) (S m)); [|lia]. reflexivity.
    + destruct (ngram_dec (last_words (length g) h) g) as [E|_]; [|reflexivity].
      assert (length g <> S m) by (intros Eg; rewrite Eg in E; contradiction).
      destruct (Nat.leb_spec (length g) m); destruct (Nat.leb_spec (length g) (S m)); try lia; cbn [andb]; destruct (1 <=? length g); reflexivity.
Qed.
Lemma counted_positive h l : forall c, positive c -> positive (fold_left (fun c i => increment c (last_words (i + 1) h)) l c).
Proof. induction l as [|i l IH]; intros c P; [exact P|]. cbn [fold_left]. apply IH. now apply increment_positive. Qed.

Lemma skipn_skipn {A} (l : list A) : forall x y, skipn x (skipn y l) = skipn (x + y) l.
Proof.
  intros x y. revert l. induction y as [|y IH]; intros l; [now rewrite Nat.add_0_r|]. destruct l as [|e l]; [now rewrite !skipn_nil|].
  rewrite Nat.add_succ_r. cbn [skipn]. apply IH.
Qed.
(** The history is the end of what has been read. *)
Lemma last_words_app m ws w : last_words m ((last_words m ws ++ [w])) = last_words m (ws ++ [w]).
Proof.
  unfold last_words. rewrite !app_length, skipn_length. cbn [length]. destruct (Nat.le_gt_cases (length ws) m) as [H|H].
  - replace (length ws - m) with 0 by lia. cbn [skipn]. f_equal. lia.
  - rewrite (skipn_app (length ws + 1 - m) ws [w]). replace (length ws + 1 - m - length ws) with (1 - m) by lia.
    replace (length ws - (length ws - m)) with m by lia. rewrite skipn_app, skipn_skipn, skipn_length.
    replace (m + 1 - m + (length ws - m)) with (length ws + 1 - m) by lia.
    f_equal. f_equal. lia.
Qed.
Lemma trimmed m ws w : let h := last_words m ws ++ [w] in (if m <? length h then tl h else h) = last_words m (ws ++ [w]).
Proof.
  cbn zeta. rewrite <- last_words_app. set (h := last_words m ws ++ [w]). unfold last_words at 1.
  assert (L : length h <= m + 1). { unfold h, last_words. rewrite app_length, skipn_length. cbn. lia. }
  destruct (Nat.ltb_spec m (length h)).
  - replace (length h - m) with 1 by lia. destruct h; reflexivity.
  - replace (length h - m) with 0 by lia. reflexivity.
Qed.
Lemma last_last k m ws : k <= m -> last_words k (last_words m ws) = last_words k ws.
Proof.
  intros H. unfold last_words. rewrite skipn_skipn, skipn_length. f_equal. lia.
Qed.

(** Occurrences when a word is added *)
Lemma firstn_skipn_app (g ws : list pystr) w i : i + length g <= length ws -> firstn (length g) (skipn i (ws ++ [w])) = firstn (length g) (skipn i ws).
Proof. intros H. rewrite skipn_app, firstn_app, skipn_length. replace (length g - (length ws - i)) with 0 by lia. cbn. apply app_nil_r. Qed.
Lemma filter_split (f g h : nat -> bool) l : (forall i, In i l -> (if f i then 1 else 0) = (if g i then 1 else 0) + (if h i then 1 else 0)) ->
  length (filter f l) = length (filter g l) + length (filter h l).
Proof.
  induction l as [|i l IH]; intros H; [reflexivity|]. cbn [filter]. pose proof (H i (or_introl eq_refl)) as E. specialize (IH (fun j Hj => H j (or_intror Hj))).
  destruct (f i), (g i), (h i); cbn [length]; lia.
Qed.
Lemma filter_single (h : nat -> bool) n a : a < n -> (forall i, i <> a -> h i = false) -> length (filter h (seq 0 n)) = if h a then 1 else 0.
Proof.
  induction n as [|n IH]; intros L H; [lia|]. rewrite seq_S, filter_app, app_length. cbn [Nat.add filter]. destruct (Nat.eq_dec a n) as [->|N].
  - assert (Z : filter h (seq 0 n) = []). { assert (F : forall i, In i (seq 0 n) -> h i = false) by (intros i Hi; apply in_seq in Hi; apply H; lia).
      clear IH. induction (seq 0 n) as [|i l IHl]; [reflexivity|]. cbn [filter]. rewrite (F i (or_introl eq_refl)). apply IHl. intros j Hj. apply F. now right. }
    rewrite Z. destruct (h n); reflexivity.
  - rewrite IH by (lia || auto). rewrite (H n) by congruence. cbn. lia.
Qed.
Lemma filter_none (h : nat -> bool) l : (forall i, h i = false) -> length (filter h l) = 0.
Proof. intros H. induction l as [|i l IH]; [reflexivity|]. cbn [filter]. now rewrite H. Qed.
Lemma occurrences_snoc g ws w : g <> [] ->
  occurrences g (ws ++ [w]) = occurrences g ws + (if ngram_dec (last_words (length g) (ws ++ [w])) g then 1 else 0).
Proof.
  intros Ng. assert (Lg : 0 < length g) by (destruct g; [congruence|cbn; lia]). unfold occurrences. rewrite app_length. cbn [length].
  set (P := fun ws i => if list_eq_dec pystr_eq_dec (firstn (length g) (skipn i ws)) g then true else false).
  set (N := length ws). set (a := N + 1 - length g).
  assert (out : forall us i, length us < i + length g -> P us i = false).
  { intros us i H. unfold P. destruct (list_eq_dec _ _ g) as [Eg|]; [|reflexivity]. apply (f_equal (@length _)) in Eg. rewrite firstn_length, skipn_length in Eg. lia. }
  assert (E : length (filter (P ws) (seq 0 N)) = length (filter (P ws) (seq 0 (N + 1)))).
  { rewrite Nat.add_1_r, seq_S, filter_app, app_length. cbn [Nat.add filter]. rewrite (out ws N) by (unfold N; lia). cbn. lia. }
  change (length (filter (P (ws ++ [w])) (seq 0 (N + 1))) = length (filter (P ws) (seq 0 N)) + (if ngram_dec (last_words (length g) (ws ++ [w])) g then 1 else 0)).
  rewrite E. rewrite (filter_split _ (P ws) (fun i => (i =? a) && (length g <=? N + 1) && P (ws ++ [w]) i)%bool).
  - f_equal. destruct (Nat.leb_spec (length g) (N + 1)) as [Hl|Hl].
    + rewrite (filter_single _ _ a); [|unfold a; lia|intros i Hi; destruct (Nat.eqb_spec i a); [contradiction|reflexivity]].
      rewrite Nat.eqb_refl. cbn [andb]. unfold P, last_words. rewrite app_length. cbn [length]. fold N. fold a.
      rewrite firstn_all2 by (rewrite skipn_length, app_length; cbn; fold N; unfold a; lia). unfold ngram_dec.
      destruct (list_eq_dec pystr_eq_dec (skipn a (ws ++ [w])) g); reflexivity.
    + rewrite filter_none by (intros i; now rewrite andb_false_r). destruct (ngram_dec _ g) as [Eg|]; [|reflexivity].
      apply (f_equal (@length _)) in Eg. unfold last_words in Eg. rewrite skipn_length, app_length in Eg. cbn in Eg. fold N in Eg. lia.
  - intros i Hi. apply in_seq in Hi. destruct (Nat.le_gt_cases (i + length g) N) as [H|H].
    + assert (X : P (ws ++ [w]) i = P ws i) by (unfold P; now rewrite firstn_skipn_app by exact H). rewrite X.
      destruct (Nat.eqb_spec i a); [unfold a in *; lia|]. cbn [andb]. lia.
    + rewrite (out ws i) by exact H. destruct (Nat.eqb_spec i a) as [->|Na].
      * destruct (Nat.leb_spec (length g) (N + 1)); [cbn [andb]; lia|]. rewrite (out (ws ++ [w])) by (rewrite app_length; cbn; fold N; lia). reflexivity.
      * rewrite (out (ws ++ [w])) by (rewrite app_length; cbn; fold N; unfold a in Na; lia). reflexivity.
Qed.

Definition counted (max_order : nat) (ws : list pystr) (st : list pystr * counts) : Prop :=
  fst st = last_words max_order ws /\ positive (snd st) /\
  forall g, value (snd st) g = if andb (1 <=? length g) (length g <=? max_order) then Z.of_nat (occurrences g ws) else 0%Z.
Lemma count_word_counted m ws st w : counted m ws st -> counted m (ws ++ [w]) (count_word m st w).
Proof.
  intros (H & P & C). unfold count_word. cbn zeta. rewrite H, trimmed. set (h := last_words m (ws ++ [w])).
  assert (Lh : length h = min m (length (ws ++ [w]))) by (unfold h, last_words; rewrite skipn_length; lia).
  split; [reflexivity|]. cbn [fst snd]. split; [now apply counted_positive|]. intros g. rewrite counted_value by lia. rewrite C.
  destruct (Nat.leb_spec 1 (length g)) as [G1|G1]; cbn [andb]; [|destruct (ngram_dec _ g); reflexivity].
  destruct (Nat.leb_spec (length g) m) as [G2|G2]; cbn [andb].
  - rewrite occurrences_snoc by (intros ->; cbn in G1; lia). replace (last_words (length g) h) with (last_words (length g) (ws ++ [w])) by (symmetry; now apply last_last).
    destruct (ngram_dec (last_words (length g) (ws ++ [w])) g) as [E|]; [|lia].
    assert (length g <= length h). { apply (f_equal (@length _)) in E. unfold last_words in E. rewrite skipn_length in E. lia. }
    destruct (Nat.leb_spec (length g) (min m (length h))); lia.
  - destruct (ngram_dec (last_words (length g) h) g) as [E|]; [|reflexivity]. destruct (Nat.leb_spec (length g) (min m (length h))); [lia|reflexivity].
Qed.
Lemma count_words_counted m us : forall ws st, counted m ws st -> counted m (ws ++ us) (fold_left (count_word m) us st).
Proof.
  induction us as [|u us IH]; intros ws st C; cbn [fold_left]; [now rewrite app_nil_r|].
  replace (ws ++ u :: us) with ((ws ++ [u]) ++ us) by now rewrite <- app_assoc. apply IH. now apply count_word_counted.
Qed.
Lemma from_text_counted m lines : forall ws st, counted m ws st ->
  counted m (ws ++ concat (map split lines)) (fold_left (fun st line => fold_left (count_word m) (split line) st) lines st).
Proof.
  induction lines as [|l lines IH]; intros ws st C; cbn [fold_left map concat]; [now rewrite app_nil_r|].
  rewrite app_assoc. apply IH. now apply count_words_counted.
Qed.
Lemma nothing_counted m : counted m [] ([], []).
Proof. split; [reflexivity|]. split; [intros g n; discriminate|]. intros g. cbn. now destruct (_ && _)%bool. Qed.

(** ** The last line wins *)
Lemma last_writer {S L V} (f : S -> L -> result S) (lookup : S -> option V) (says : L -> V -> Prop) lines :
  (forall s line s', In line lines -> f s line = Ok s' -> forall v, lookup s' = Some v <-> says line v \/ (forall v', ~ says line v') /\ lookup s = Some v) ->
  forall s s', foldM f lines s = Ok s' ->
  forall v, lookup s' = Some v <-> last_says says lines v \/ (forall l v', In l lines -> ~ says l v') /\ lookup s = Some v.
Proof.
  induction lines as [|line lines IH]; intros Hf s s'; cbn [foldM].
  - intros [= <-] v. split; [intros E; right; split; [intros l v' []|exact E]|]. intros [(b & l & r & E & _)|[_ E]]; [destruct b; discriminate|exact E].
  - destruct (f s line) as [s1|] eqn:E1; cbn [bind]; [|discriminate]. intros E2 v.
    rewrite (IH (fun s line s' I => Hf s line s' (or_intror I)) _ _ E2 v). rewrite (Hf s line s1 (or_introl eq_refl) E1 v). clear -Hf. split.
    + intros [(b & l & r & -> & Hs & Hr)|[Hn [Hs|[Hs Hl]]]].
      * left. exists (line :: b), l, r. auto.
      * left. exists [], line, lines. auto.
      * right. split; [intros l v' [<-|I]; auto|exact Hl].
    + intros [(b & l & r & E & Hs & Hr)|[Hn Hl]].
      * destruct b as [|x b]; injection E as -> ->; [right; auto|left; exists b, l, r; auto].
      * right. split; [intros l v' I; apply Hn; now right|]. right. split; [intros v'; apply Hn; now left|exact Hl].
Qed.

(** ** Reading counts *)
Section Read.
Variable parse_int : pystr -> result Z.
Variable parse_float : pystr -> result Qc.

Lemma at_tab_some line : forall b a, at_tab line = Some (b, a) <-> line = b ++ 9%N :: a /\ ~ In 9%N b.
Proof.
  induction line as [|c line IH]; intros b a; cbn [at_tab].
  - split; [discriminate|]. intros [E _]. destruct b; discriminate.
  - unfold tab. destruct (N.eqb_spec c 9) as [->|N].
    + split; [intros [= <- <-]; split; [reflexivity|intros []]|]. intros [E Hb]. destruct b as [|x b]; injection E as E; [subst line; reflexivity|]. exfalso. apply Hb. left. now symmetry.
    + destruct (at_tab line) as [[b' a']|] eqn:E; cbn [option_map fst snd].
      * destruct (proj1 (IH b' a') eq_refl) as [-> Hb]. split.
        -- intros [= <- <-]. split; [reflexivity|]. intros [H|H]; auto.
        -- intros [E' Hb']. destruct b as [|x b]; [injection E' as E' _; congruence|]. injection E' as <- E'.
           assert (X : Some (b', a') = Some (b, a)) by (apply IH; split; [exact E'|intros I; apply Hb'; now right]). injection X as -> ->. reflexivity.
      * split; [discriminate|]. intros [E' Hb']. destruct b as [|x b]; [injection E' as E' _; congruence|]. injection E' as <- E'.
        assert (X : None = Some (b, a)) by (apply IH; split; [exact E'|intros I; apply Hb'; now right]). discriminate X.
Qed.
Lemma at_tab_has line : has_tab line -> exists b a, at_tab line = Some (b, a).
Proof.
  unfold has_tab. induction line as [|c line IH]; [intros []|]. cbn [at_tab]. unfold tab. destruct (N.eqb_spec c 9); [eauto|].
  intros [->|H]; [congruence|]. destruct (IH H) as (b & a & ->). cbn. eauto.
Qed.
Lemma read_count_spec g c line c' : has_tab line -> read_count parse_int None None c line = Ok c' ->
  forall n, dict_get ngram_dec c' g = Some n <-> says_count parse_int g line n \/ (forall n', ~ says_count parse_int g line n') /\ dict_get ngram_dec c g = Some n.
Proof.
  intros T. destruct (at_tab_has _ T) as (b & a & E). unfold read_count. rewrite E. destruct (parse_int a) as [n0|] eqn:Ea; cbn [bind]; [|discriminate]. intros [= <-] n.
  assert (S : forall n', says_count parse_int g line n' <-> split b = g /\ n' = n0).
  { intros n'. split.
    - intros (b' & a' & El & Hb & Tk & P). assert (X : at_tab line = Some (b', a')) by (apply at_tab_some; auto). rewrite E in X. injection X as -> ->.
      split; [now apply tokens_split|congruence].
    - intros [<- ->]. apply at_tab_some in E as [-> Hb]. exists b, a. split; [reflexivity|]. split; [exact Hb|]. split; [apply split_tokens|exact Ea]. }
  destruct (ngram_dec (split b) g) as [Eg|Ng].
  - rewrite <- Eg at 1. rewrite dict_get_set_same. split.
    + intros [= <-]. left. now apply S.
    + intros [H|[H _]]; [apply S in H as [_ ->]; reflexivity|]. exfalso. apply (H n0), S. auto.
  - rewrite dict_get_set_other by exact Ng. split.
    + intros H. right. split; [|exact H]. intros n' X. apply S in X as [X _]. contradiction.
    + intros [H|[_ H]]; [apply S in H as [X _]; contradiction|exact H].
Qed.

(** ** Reading classes *)
Definition prob_in (name word : pystr) (cl : classes) : option Qc :=
  match dict_get pystr_eq_dec cl name with Some c => dict_get pystr_eq_dec c word | None => None end.
Lemma add_word_get cl name word p name' word' : prob_in name' word' (add_word cl name word p) =
  if pystr_eq_dec name name' then if pystr_eq_dec word word' then Some p else prob_in name' word' cl else prob_in name' word' cl.
Proof.
  unfold prob_in, add_word. destruct (pystr_eq_dec name name') as [<-|N].
  - rewrite dict_get_set_same. destruct (pystr_eq_dec word word') as [<-|Nw]; [apply dict_get_set_same|]. rewrite dict_get_set_other by exact Nw.
    destruct (dict_get pystr_eq_dec cl name); reflexivity.
  - rewrite dict_get_set_other by exact N. reflexivity.
Qed.
Lemma zfill_filled number s : filled number s <-> zfill5 number = s.
Proof.
  unfold filled, zfill5. split.
  - intros (sg & ds & -> & -> & [->|[->|[-> H]]]); try reflexivity. cbn [app]. destruct ds as [|c ds]; [reflexivity|]. destruct (H c ds eq_refl) as [H1 H2].
    destruct (N.eqb_spec c 43); [contradiction|]. destruct (N.eqb_spec c 45); [contradiction|]. reflexivity.
  - intros <-. destruct number as [|c n].
    + exists [], []. split; [reflexivity|]. split; [reflexivity|]. right. right. split; [reflexivity|discriminate].
    + destruct (N.eqb_spec c 43) as [->|H1]; cbn [orb]; [exists (str "+"), n; split; [reflexivity|split; [reflexivity|auto]]|].
      destruct (N.eqb_spec c 45) as [->|H2]; cbn [orb]; [exists (str "-"), n; split; [reflexivity|split; [reflexivity|auto]]|].
      exists [], (c :: n). split; [reflexivity|]. split; [reflexivity|]. right. right. split; [reflexivity|]. intros c' r [= <- <-]. auto.
Qed.
Lemma read_class_spec name word cl line cl' : read_class parse_float cl line = Ok cl' ->
  forall p, prob_in name word cl' = Some p <-> says_class parse_float name word line p \/ (forall p', ~ says_class parse_float name word line p') /\ prob_in name word cl = Some p.
Proof.
  unfold read_class. intros E p.
  assert (K : forall toks, tokens line toks -> split line = toks) by (intros; now apply tokens_split).
  assert (none : (forall p', ~ says_class parse_float name word line p') -> cl' = cl \/ prob_in name word cl' = prob_in name word cl ->
    (prob_in name word cl' = Some p <-> says_class parse_float name word line p \/ (forall p', ~ says_class parse_float name word line p') /\ prob_in name word cl = Some p)).
  { intros H [->| ->]; split; intros X; try (right; split; assumption); (destruct X as [X|[_ X]]; [destruct (H _ X)|exact X]). }
  assert (some : forall n w q, (forall p', says_class parse_float name word line p' <-> n = name /\ w = word /\ p' = q) -> cl' = add_word cl n w q ->
    (prob_in name word cl' = Some p <-> says_class parse_float name word line p \/ (forall p', ~ says_class parse_float name word line p') /\ prob_in name word cl = Some p)).
  { intros n w q S ->. rewrite add_word_get. destruct (pystr_eq_dec n name) as [En|Nn]; [destruct (pystr_eq_dec w word) as [Ew|Nw]|].
    - split; [intros [= <-]; left; now apply S|]. intros [X|[X _]]; [apply S in X as (_ & _ & ->); reflexivity|]. exfalso. apply (X q), S. auto.
    - split; [intros X; right; split; [intros p' Y; apply S in Y as (_ & Y & _); contradiction|exact X]|]. intros [X|[_ X]]; [apply S in X as (_ & X & _); contradiction|exact X].
    - split; [intros X; right; split; [intros p' Y; apply S in Y as (Y & _); contradiction|exact X]|]. intros [X|[_ X]]; [apply S in X as (X & _); contradiction|exact X]. }
  pose proof (split_tokens line) as T.
  destruct (split line) as [|f1 [|f2 [|f3 [|]]]]; try discriminate E.
  - injection E as <-. apply none; [|auto]. intros p' [(n & s & X & _)|(t & X & _)]; discriminate (K _ X).
  - injection E as <-. eapply some; [|reflexivity]. intros p'. split.
    + intros [(n & s & X & Fl & -> & ->)|(t & X & _)]; [|discriminate (K _ X)]. specialize (K _ X). injection K as -> ->. apply zfill_filled in Fl as ->. auto.
    + intros (<- & <- & ->). left. exists f2, (zfill5 f2). split; [exact T|]. split; [now apply zfill_filled|]. auto.
  - destruct (parse_float f2) as [q|] eqn:Eq; cbn [bind] in E; [|discriminate]. injection E as <-. eapply some; [|reflexivity]. intros p'. split.
    + intros [(n & s & X & _)|(t & X & P)]; [discriminate (K _ X)|]. specialize (K _ X). injection K as -> -> ->. split; [reflexivity|]. split; [reflexivity|congruence].
    + intros (<- & <- & ->). right. exists f2. auto.
Qed.

(** Names and words are distinct. *)
Definition distinct (cl : classes) : Prop := NoDup (dict_keys cl) /\ forall name c, In (name, c) cl -> NoDup (dict_keys c).
Lemma dict_set_in {K V} (dec : forall a b : K, {a = b} + {a <> b}) (d : list (K * V)) k v k' v' : In (k', v') (dict_set dec d k v) -> (k', v') = (k, v) \/ In (k', v') d.
Proof. induction d as [|[q w] d IH]; cbn [dict_set]; [intros [H|[]]; auto|]. destruct (dec k q); intros [H|H]; [left; congruence|right; now right|right; now left|]. destruct (IH H); [auto|right; now right]. Qed.
Lemma add_word_distinct cl name word p : distinct cl -> distinct (add_word cl name word p).
Proof.
  intros [D1 D2]. unfold add_word. split; [now apply dict_set_nodup|]. intros n c H. apply dict_set_in in H as [[= -> ->]|H]; [|eauto].
  apply dict_set_nodup. destruct (dict_get pystr_eq_dec cl name) as [c0|] eqn:E; [|constructor]. apply dict_get_in in E. eauto.
Qed.
Lemma read_class_distinct cl line cl' : distinct cl -> read_class parse_float cl line = Ok cl' -> distinct cl'.
Proof.
  intros D. unfold read_class. destruct (split line) as [|f1 [|f2 [|f3 [|]]]]; try discriminate; [intros [= <-]; exact D|intros [= <-]; now apply add_word_distinct|].
  destruct (parse_float f2); cbn [bind]; [|discriminate]. intros [= <-]. now apply add_word_distinct.
Qed.
Lemma read_classes_distinct lines : forall cl cl', distinct cl -> foldM (read_class parse_float) lines cl = Ok cl' -> distinct cl'.
Proof.
  induction lines as [|l lines IH]; intros cl cl' D; cbn [foldM]; [intros [= <-]; exact D|].
  destruct (read_class parse_float cl l) as [c1|] eqn:E; cbn [bind]; [|discriminate]. apply IH. eapply read_class_distinct; eauto.
Qed.
Lemma prob_in_iff cl name word p : distinct cl -> prob_in name word cl = Some p <-> exists c, In (name, c) cl /\ In (word, p) c.
Proof.
  intros [D1 D2]. unfold prob_in. split.
  - destruct (dict_get pystr_eq_dec cl name) as [c|] eqn:E; [|discriminate]. intros H. exists c. split; [now apply dict_get_in in E|now apply dict_get_in in H].
  - intros (c & Hc & Hw). rewrite (dict_in_get _ _ _ _ D1 Hc). apply dict_in_get; [eapply D2; eauto|exact Hw].
Qed.
End Read.

(** ** Loops that set every value *)
Section Loops.
Context {K V : Type}.
Variable dec : forall a b : K, {a = b} + {a <> b}.
Lemma set_at (A B : list (K * V)) k v v' : ~ In k (map fst A) -> dict_set dec (A ++ (k, v) :: B) k v' = A ++ (k, v') :: B.
Proof.
  induction A as [|[q w] A IH]; cbn [app dict_set map fst]; intros N; [destruct (dec k k); congruence|]. destruct (dec k q) as [->|]; [exfalso; apply N; now left|].
  rewrite IH; [reflexivity|]. intros I. apply N. now right.
Qed.
Lemma set_all (g : K * V -> V) B : forall A, NoDup (map fst (A ++ B)) ->
  fold_left (fun d x => dict_set dec d (fst x) (g x)) B (A ++ B) = A ++ map (fun x => (fst x, g x)) B.
Proof.
  induction B as [|[k v] B IH]; intros A N; [reflexivity|]. cbn [fold_left map fst].
  assert (Nk : ~ In k (map fst A)). { rewrite map_app in N. cbn [map fst] in N. apply NoDup_remove_2 in N. intros I. apply N, in_app_iff. now left. }
  rewrite set_at by exact Nk.
  replace (A ++ (k, g (k, v)) :: B) with ((A ++ [(k, g (k, v))]) ++ B) by now rewrite <- app_assoc. rewrite IH; [now rewrite <- app_assoc|].
  rewrite !map_app in *. cbn [map fst] in *. now rewrite <- app_assoc.
Qed.
Lemma set_new (g : K -> V) {W} (B : list (K * W)) : forall A : list (K * V), NoDup (map fst A ++ map fst B) ->
  fold_left (fun d x => dict_set dec d (fst x) (g (fst x))) B A = A ++ map (fun x => (fst x, g (fst x))) B.
Proof.
  induction B as [|[k v] B IH]; intros A N; cbn [fold_left map fst]; [now rewrite app_nil_r|]. cbn [map fst] in N.
  rewrite dict_set_keys_new by (apply NoDup_remove_2 in N; intros I; apply N, in_app_iff; now left).
  rewrite IH; [now rewrite <- app_assoc|]. rewrite map_app. cbn [map fst]. now rewrite <- app_assoc.
Qed.
End Loops.
Lemma normalize_map c : NoDup (dict_keys c) ->
  normalize c = map (fun wp => (fst wp, snd wp * (if Qclt_le_dec 0 (qsum (map snd c)) then 1 / qsum (map snd c) else 0))%Qc) c.
Proof. intros N. unfold normalize. exact (set_all pystr_eq_dec (fun wp => (snd wp * _)%Qc) c [] N). Qed.
Lemma words_counts_map c cls : NoDup (dict_keys cls) -> words_counts c cls = map (fun wp => (fst wp, word_count c (fst wp))) cls.
Proof. intros N. unfold words_counts. exact (set_new pystr_eq_dec (word_count c) cls [] N). Qed.
Lemma set_probs (g : pystr -> Qc) (n : pystr -> Z) (h : Z -> Qc) B : (forall w, g w = h (n w)) -> forall A : word_class, NoDup (map fst (A ++ B)) ->
  foldM (fun cls wn => set_probability cls (fst wn) (h (snd wn))) (map (fun wp : pystr * Qc => (fst wp, n (fst wp))) B) (A ++ B) = Ok (A ++ map (fun wp => (fst wp, g (fst wp))) B).
Proof.
  intros Hg. induction B as [|[k v] B IH]; intros A N; [reflexivity|]. cbn [map foldM fst snd].
  assert (Nk : ~ In k (map fst A)). { rewrite map_app in N. cbn [map fst] in N. apply NoDup_remove_2 in N. intros I. apply N, in_app_iff. now left. }
  unfold set_probability at 1. rewrite (dict_in_get pystr_eq_dec (A ++ (k, v) :: B) k v N) by (apply in_app_iff; right; now left).
  cbn [bind]. rewrite set_at by exact Nk. rewrite <- (Hg k).
  replace (A ++ (k, g k) :: B) with ((A ++ [(k, g k)]) ++ B) by now rewrite <- app_assoc. rewrite IH; [now rewrite <- app_assoc|].
  rewrite !map_app in *. cbn [map fst] in *. now rewrite <- app_assoc.
Qed.
Definition total_count (c : counts) (cls : word_class) : Z := fold_right Z.add 0%Z (map (fun wp => word_count c (fst wp)) cls).
Lemma fix_class_map c cls : NoDup (dict_keys cls) ->
  fix_class c cls = Ok (if (total_count c cls =? 0)%Z then cls else map (fun wp => (fst wp, qz (word_count c (fst wp)) / qz (total_count c cls))%Qc) cls).
Proof.
  intros N. unfold fix_class. rewrite (words_counts_map _ _ N). unfold dict_values. rewrite map_map. cbn [snd]. fold (total_count c cls).
  destruct (total_count c cls =? 0)%Z; [reflexivity|].
  exact (set_probs (fun w => qz (word_count c w) / qz (total_count c cls))%Qc (word_count c) (fun z => qz z / qz (total_count c cls))%Qc cls (fun _ => eq_refl) [] N).
Qed.
