(** Properties of the recipe scripts. *)
From Coq Require Import QArith Qcanon String.
From Verif Require Import Base BaseLib ListLib Strings Dict QcLib TextSpec TextProofs VocabModel RecipeModel RecipeSpec RecipeProofs.
Local Open Scope nat_scope.
Local Open Scope list_scope.

(** ** C79: n-gram counts *)

(** The n-grams that are counted from a text, and their counts: those of the words of all the
    lines, one after another. *)
Theorem C79_from_text max_order lines wss g n : Forall2 tokens lines wss ->
  dict_get ngram_dec (from_text max_order lines) g = Some n <->
  1 <= length g <= max_order /\ n = Z.of_nat (occurrences g (concat wss)) /\ (0 < n)%Z.
Proof.
  intros F. assert (E : map split lines = wss) by (induction F as [|l ws lines wss H F IH]; [reflexivity|]; cbn [map]; rewrite (tokens_split _ _ H), IH; reflexivity).
  unfold from_text. destruct (from_text_counted max_order lines [] ([], []) (nothing_counted _)) as (_ & P & C). cbn [app] in C. rewrite E in C.
  rewrite (positive_value _ _ _ P), C. destruct (Nat.leb_spec 1 (length g)); destruct (Nat.leb_spec (length g) max_order); cbn [andb]; lia.
Qed.
Print Assumptions C79_from_text.
Example C79_from_text_case : dict_get ngram_dec (from_text 2 [str "a b a"; str " b"]) [str "a"; str "b"] = Some 2%Z.
Proof. reflexivity. Qed.
(** The expectation that n-grams do not cross from one sentence to the next is false: the text
    can be divided into lines in any way. *)
Theorem C79_sentences_refuted :
  (forall max_order lines lines', concat (map split lines) = concat (map split lines') -> from_text max_order lines = from_text max_order lines') /\
  dict_get ngram_dec (from_text 2 [str "a"; str "b"]) [str "a"; str "b"] = Some 1%Z.
Proof.
  split; [|reflexivity]. intros m lines lines' E. unfold from_text. f_equal.
  assert (G : forall ls st, fold_left (fun st line => fold_left (count_word m) (split line) st) ls st = fold_left (count_word m) (concat (map split ls)) st).
  { induction ls as [|l ls IH]; intros st; cbn [fold_left map concat]; [reflexivity|]. now rewrite IH, fold_left_app. }
  now rewrite !G, E.
Qed.
Print Assumptions C79_sentences_refuted.

(** The count of an n-gram that is read from a file is that of the last line of the n-gram. *)
Theorem C79_read parse_int lines c g n : Forall has_tab lines -> read_counts parse_int None None lines = Ok c ->
  dict_get ngram_dec c g = Some n <-> last_says (says_count parse_int g) lines n.
Proof.
  intros T E. rewrite (last_writer (read_count parse_int None None) (fun c => dict_get ngram_dec c g) (says_count parse_int g) lines) with (s := []) (s' := c); [|..|exact E].
  - cbn. split; [intros [H|[_ H]]; [exact H|discriminate]|auto].
  - intros s line s' I R. apply read_count_spec; [|exact R]. rewrite Forall_forall in T. auto.
Qed.
Print Assumptions C79_read.
(** The expectation that the counts of an n-gram on several lines are added is false. *)
Definition cs_int (s : pystr) : result Z := match s with [c] => Ok (Z.of_N c - 48)%Z | [c; 10%N] => Ok (Z.of_N c - 48)%Z | _ => Err ValueError end.
Definition cs_line (g n : string) : pystr := str g ++ [9%N] ++ str n ++ [10%N].
Theorem C79_repeated_refuted : exists c, read_counts cs_int None None [cs_line "a" "2"; cs_line "a b" "7"; cs_line "a" "3"] = Ok c /\ dict_get ngram_dec c [str "a"] = Some 3%Z.
Proof. eexists. split; reflexivity. Qed.
Print Assumptions C79_repeated_refuted.
Example C79_read_case : Forall has_tab [cs_line "a" "2"; cs_line "a b" "7"; cs_line "a" "3"].
Proof. apply Forall_forall. intros l H. unfold has_tab. cbn in H. repeat destruct H as [<-|H]; try contradiction; cbn; auto 10. Qed.

(** ** C80: correcting the class membership probabilities *)
Section Fix.
Variable parse_int : pystr -> result Z.
Variable parse_float : pystr -> result Qc.
Variable show_float : Qc -> pystr.
Notation fix_class_probabilities := (fix_class_probabilities parse_int parse_float show_float).

Definition corrected (c : counts) (cls : word_class) (wp : pystr * Qc) : Qc :=
  if (total_count c cls =? 0)%Z then if Qclt_le_dec 0 (qsum (map snd cls)) then (snd wp / qsum (map snd cls))%Qc else 0%Qc
  else (qz (word_count c (fst wp)) / qz (total_count c cls))%Qc.
Lemma qz_zero z : qz z = 0%Qc -> z = 0%Z.
Proof using. unfold qz. intros E. apply (f_equal this) in E. cbn [this Q2Qc] in E. assert (X : Qeq (inject_Z z) 0) by (rewrite <- (Qred_correct (inject_Z z)), E; reflexivity). unfold Qeq in X. cbn in X. lia. Qed.
Lemma qz_add a b : qz (a + b) = (qz a + qz b)%Qc.
Proof using. unfold qz. rewrite inject_Z_plus. apply Qc_is_canon. cbn [this Q2Qc Qcplus]. rewrite !Qred_correct. reflexivity. Qed.
Lemma qz_sum c cls : qsum (map (fun wp : pystr * Qc => qz (word_count c (fst wp))) cls) = qz (total_count c cls).
Proof using. unfold total_count. induction cls as [|wp cls IH]; [reflexivity|]. cbn [map fold_right]. now rewrite qsum_cons, qz_add, IH. Qed.
Lemma corrected_class c cls : NoDup (dict_keys cls) ->
  exists cls', fix_class c cls = Ok cls' /\ normalize cls' = map (fun wp => (fst wp, corrected c cls wp)) cls.
Proof using.
  intros N. rewrite (fix_class_map _ _ N). eexists. split; [reflexivity|]. unfold corrected. destruct (Z.eqb_spec (total_count c cls) 0) as [Z|Z].
  - rewrite (normalize_map _ N). apply map_ext. intros [w p]. cbn [fst snd]. f_equal. destruct (Qclt_le_dec 0 (qsum (map snd cls))); [|ring].
    unfold Qcdiv. ring.
  - rewrite normalize_map by (unfold dict_keys; rewrite map_map; exact N). rewrite !map_map. cbn [fst snd].
    assert (Hz : qz (total_count c cls) <> 0%Qc) by (intros H; apply Z, qz_zero, H).
    assert (S : qsum (map (fun wp : pystr * Qc => (qz (word_count c (fst wp)) / qz (total_count c cls))%Qc) cls) = 1%Qc).
    { rewrite (qsum_map_div (fun wp : pystr * Qc => qz (word_count c (fst wp)))). rewrite qz_sum. now apply qc_div_self. }
    rewrite S. apply map_ext. intros [w p]. cbn [fst snd]. f_equal. destruct (Qclt_le_dec 0 1) as [_|X]; [|exfalso; now apply X]. rewrite qc_div_1. ring.
Qed.

(** *** The entries of the output *)
Definition entry : Type := pystr * pystr * Qc.
Definition entries_of (c : counts) (cl : classes) : list entry :=
  flat_map (fun nc => map (fun wp => (fst nc, fst wp, corrected c (snd nc) wp)) (snd nc)) cl.
Lemma members_nil c name cl : ~ In name (map fst cl) -> members name (entries_of c cl) = [].
Proof using.
  induction cl as [|[n cls] cl IH]; intros N; [reflexivity|]. unfold entries_of. cbn [flat_map fst snd map] in *. unfold members. rewrite filter_app. fold (entries_of c cl).
  fold (members name (entries_of c cl)). rewrite IH by (intros I; apply N; now right). rewrite app_nil_r.
  assert (H : n <> name) by (intros ->; apply N; now left). generalize (corrected c cls). intros g. clear -H.
  induction cls as [|wp cls IH]; [reflexivity|]. cbn [map filter fst]. destruct (pystr_eq_dec n name); [contradiction|exact IH].
Qed.
Lemma members_class c name cls : forall cl, NoDup (map fst cl) -> In (name, cls) cl ->
  members name (entries_of c cl) = map (fun wp => (name, fst wp, corrected c cls wp)) cls.
Proof using.
  induction cl as [|[n cls'] cl IH]; intros N I; [destruct I|]. cbn [map fst] in N. inversion N as [|? ? N1 N2]; subst.
  unfold entries_of. cbn [flat_map fst snd]. unfold members. rewrite filter_app. fold (entries_of c cl). fold (members name (entries_of c cl)).
  destruct I as [[= -> ->]|I].
  - rewrite (members_nil _ _ _ N1), app_nil_r. generalize (corrected c cls). intros g. clear.
    induction cls as [|wp cls IH]; [reflexivity|]. cbn [map filter fst]. destruct (pystr_eq_dec name name); [|congruence]. now rewrite IH.
  - rewrite (IH N2 I). assert (H : n <> name) by (intros ->; apply N1; exact (in_map fst _ _ I)).
    replace (filter _ _) with (@nil entry); [reflexivity|]. generalize (corrected c cls'). intros g. clear -H.
    induction cls' as [|wp cls' IH]; [reflexivity|]. cbn [map filter fst]. destruct (pystr_eq_dec n name); [contradiction|exact IH].
Qed.
Lemma entries_in c cl name w p : In (name, w, p) (entries_of c cl) <-> exists cls q, In (name, cls) cl /\ In (w, q) cls /\ p = corrected c cls (w, q).
Proof using.
  unfold entries_of. rewrite in_flat_map. split.
  - intros ([n cls] & I & H). cbn [fst snd] in H. apply in_map_iff in H as ([w' q] & E & H). cbn [fst] in E. injection E as <- <- <-. exists cls, q. auto.
  - intros (cls & q & I & H & ->). exists (name, cls). split; [exact I|]. cbn [fst snd]. apply in_map_iff. exists (w, q). auto.
Qed.
Lemma entries_distinct c cl : distinct cl -> NoDup (map fst (entries_of c cl)).
Proof using.
  intros [D1 D2]. induction cl as [|[n cls] cl IH]; [constructor|]. unfold entries_of. cbn [flat_map fst snd]. rewrite map_app. fold (entries_of c cl).
  unfold dict_keys in D1. cbn [map fst] in D1. inversion D1 as [|? ? N1 N2]; subst. apply NoDup_app_iff. split; [|split].
  - rewrite map_map. cbn [fst]. rewrite <- (map_map fst (fun w => (n, w))). apply FinFun.Injective_map_NoDup; [intros x y [= H]; exact H|]. apply (D2 n). now left.
  - apply IH; [exact N2|]. intros name c' I. apply (D2 name). now right.
  - intros [n' w] H1 H2. rewrite map_map in H1. apply in_map_iff in H1 as (wp & [= <- _] & _). apply in_map_iff in H2 as ([[n' w'] p] & [= -> ->] & H2).
    apply entries_in in H2 as (cls' & q & I & _). apply N1. exact (in_map fst _ _ I).
Qed.

(** Every word of every class of the input is written once. Its probability is its count
    divided by that of the words of the class; if the sum of the counts is zero, the
    probability in the input divided by the sum of those of the class; and if that is not
    positive either, zero. *)
Theorem C80_fixed class_lines count_lines out : Forall has_tab count_lines -> fix_class_probabilities class_lines count_lines = Ok out ->
  exists count given entries,
    (forall w n, last_says (says_count parse_int [w]) count_lines n -> count w = n) /\
    (forall w, (forall l n, In l count_lines -> ~ says_count parse_int [w] l n) -> count w = 0%Z) /\
    (forall name w p, last_says (says_class parse_float name w) class_lines p -> given name w = p) /\
    out = map (fun e => fst (fst e) ++ str " " ++ show_float (snd e) ++ str " " ++ snd (fst e) ++ [10%N]) entries /\
    NoDup (map fst entries) /\
    (forall name w, In (name, w) (map fst entries) <-> exists l p, In l class_lines /\ says_class parse_float name w l p) /\
    forall name w p, In (name, w, p) entries ->
      let T := class_count count name entries in let S := class_given given name entries in
      (T <> 0%Z -> p = (Q2Qc (inject_Z (count w)) / Q2Qc (inject_Z T))%Qc) /\
      (T = 0%Z -> (0 < S)%Qc -> p = (given name w / S)%Qc) /\
      (T = 0%Z -> ~ (0 < S)%Qc -> p = 0%Qc).
Proof using.
  intros Tb. unfold RecipeModel.fix_class_probabilities. destruct (read_classes parse_float class_lines) as [cl|] eqn:Ec; cbn [bind]; [|discriminate].
  destruct (read_counts parse_int None None count_lines) as [c|] eqn:En; cbn [bind]; [|discriminate].
  assert (D : distinct cl). { apply (read_classes_distinct parse_float class_lines [] cl); [split; [constructor|intros n c' []]|exact Ec]. }
  assert (M : exists cl', mapM (fun nc : pystr * word_class => do cls <- fix_class c (snd nc); Ok (fst nc, cls)) cl = Ok cl' /\
    write_classes show_float cl' = map (fun e => fst (fst e) ++ str " " ++ show_float (snd e) ++ str " " ++ snd (fst e) ++ [10%N]) (entries_of c cl)).
  { destruct D as [_ D2]. clear Ec. induction cl as [|[n cls] cl IH]; [exists []; split; reflexivity|]. cbn [mapM fst snd].
    destruct (corrected_class c cls) as (cls' & -> & E); [apply (D2 n); now left|]. cbn [bind].
    destruct IH as (cl' & -> & W); [intros n' c' I; apply (D2 n'); now right|]. cbn [bind]. eexists. split; [reflexivity|].
    unfold write_classes, entries_of. cbn [flat_map fst snd]. rewrite map_app. f_equal; [|exact W]. rewrite E, !map_map. reflexivity. }
  destruct M as (cl' & -> & W). cbn [bind]. intros [= <-].
  assert (G : forall name w p, prob_in name w cl = Some p <-> last_says (says_class parse_float name w) class_lines p).
  { intros name w p. rewrite (last_writer (read_class parse_float) (prob_in name w) (says_class parse_float name w) class_lines) with (s := []) (s' := cl); [|..|exact Ec].
    - cbn. split; [intros [H|[_ H]]; [exact H|discriminate]|auto].
    - intros s line s' _ R. now apply read_class_spec. }
  exists (word_count c), (fun name w => match prob_in name w cl with Some p => p | None => 0%Qc end), (entries_of c cl).
  split; [intros w n H; apply (C79_read parse_int count_lines c [w] n Tb En) in H; unfold word_count; now rewrite H|].
  split. { intros w H. unfold word_count. destruct (dict_get ngram_dec c [w]) as [n|] eqn:E; [|reflexivity].
    apply (C79_read parse_int count_lines c [w] n Tb En) in E as (b & l & r & -> & Hs & _). exfalso. apply (H l n); [apply in_app_iff; right; now left|exact Hs]. }
  split; [intros name w p H; apply G in H; now rewrite H|].
  split; [exact W|]. split; [now apply entries_distinct|]. split.
  - intros name w. split.
    + intros I. apply in_map_iff in I as ([[n' w'] p] & [= -> ->] & I). apply entries_in in I as (cls & q & I1 & I2 & _).
      assert (X : prob_in name w cl = Some q) by (apply prob_in_iff; [exact D|eauto]). apply G in X as (b & l & r & -> & Hs & _).
      exists l, q. split; [apply in_app_iff; right; now left|exact Hs].
    + intros (l & p & I & Hs).
      assert (X : exists q, prob_in name w cl = Some q).
      { destruct (prob_in name w cl) as [q|] eqn:E; [eauto|exfalso].
        assert (N : forall ls s s', foldM (read_class parse_float) ls s = Ok s' -> prob_in name w s' = None -> forall l p, In l ls -> ~ says_class parse_float name w l p).
        { clear. induction ls as [|x ls IH]; intros s s'; cbn [foldM]; [intros _ _ l p []|]. destruct (read_class parse_float s x) as [s1|] eqn:E; cbn [bind]; [|discriminate].
          intros E2 Hn l p [<-|I]; [|eapply IH; eauto]. intros Hs.
          assert (P1 : prob_in name w s1 = Some p) by (apply (read_class_spec parse_float name w _ _ _ E); auto).
          assert (K : forall ls s s', foldM (read_class parse_float) ls s = Ok s' -> prob_in name w s <> None -> prob_in name w s' <> None).
          { clear. induction ls as [|x ls IH]; intros s s'; cbn [foldM]; [intros [= <-]; auto|]. destruct (read_class parse_float s x) as [s1|] eqn:E; cbn [bind]; [|discriminate].
            intros E2 H. apply (IH _ _ E2). unfold read_class in E. destruct (split x) as [|f1 [|f2 [|f3 [|]]]]; try discriminate E; [injection E as <-; exact H| |].
            - injection E as <-. rewrite add_word_get. destruct (pystr_eq_dec _ _); [|exact H]. destruct (pystr_eq_dec _ _); [discriminate|exact H].
            - destruct (parse_float f2); cbn [bind] in E; [|discriminate]. injection E as <-. rewrite add_word_get. destruct (pystr_eq_dec _ _); [|exact H]. destruct (pystr_eq_dec _ _); [discriminate|exact H]. }
          apply (K _ _ _ E2); [congruence|exact Hn]. }
        exact (N _ _ _ Ec E l p I Hs). }
      destruct X as (q & X). apply prob_in_iff in X as (cls & I1 & I2); [|exact D]. apply in_map_iff. exists (name, w, corrected c cls (w, q)). split; [reflexivity|].
      apply entries_in. exists cls, q. auto.
  - intros name w p I. apply entries_in in I as (cls & q & I1 & I2 & ->). cbn zeta. unfold class_count, class_given.
    rewrite (members_class c name cls cl (proj1 D) I1), !map_map. cbn [fst snd].
    assert (Eg : map (fun x : pystr * Qc => match prob_in name (fst x) cl with Some p => p | None => 0%Qc end) cls = map snd cls).
    { apply map_ext_in. intros [w' q'] H. cbn [fst snd]. assert (X : prob_in name w' cl = Some q') by (apply prob_in_iff; [exact D|eauto]). now rewrite X. }
    rewrite Eg. fold (total_count c cls). unfold corrected. cbn [fst snd].
    assert (X : prob_in name w cl = Some q) by (apply prob_in_iff; [exact D|eauto]). rewrite X.
    destruct (Z.eqb_spec (total_count c cls) 0) as [Z|Z].
    + split; [contradiction|]. destruct (Qclt_le_dec 0 (qsum (map snd cls))) as [P|P]; split; intros _ H; try reflexivity; [contradiction|]. exfalso. exact (Qclt_not_le _ _ H P).
    + split; [reflexivity|]. split; intros H; contradiction.
Qed.
End Fix.
Print Assumptions C80_fixed.

(** From this follows that the probabilities in a class sum to one, unless they are all zero. *)
Theorem C80_sum count given (entries : list (pystr * pystr * Qc)) name :
  (forall w p, In (name, w, p) entries ->
      let T := class_count count name entries in let S := class_given given name entries in
      (T <> 0%Z -> p = (Q2Qc (inject_Z (count w)) / Q2Qc (inject_Z T))%Qc) /\
      (T = 0%Z -> (0 < S)%Qc -> p = (given name w / S)%Qc) /\
      (T = 0%Z -> ~ (0 < S)%Qc -> p = 0%Qc)) ->
  qsum (map snd (members name entries)) = 1%Qc \/ forall w p, In (name, w, p) entries -> p = 0%Qc.
Proof.
  cbn zeta. intros H. assert (M : forall e, In e (members name entries) -> fst (fst e) = name /\ In (name, snd (fst e), snd e) entries).
  { intros [[n w] p] I. unfold members in I. apply filter_In in I as [I E]. cbn [fst snd] in *. destruct (pystr_eq_dec n name) as [->|]; [auto|discriminate]. }
  set (T := class_count count name entries) in *. set (S := class_given given name entries) in *. destruct (Z.eq_dec T 0) as [Z|Z].
  - destruct (Qclt_le_dec 0 S) as [P|P].
    + left. rewrite (map_ext_in snd (fun e => given name (snd (fst e)) / S)%Qc).
      * rewrite (qsum_map_div (fun e : pystr * pystr * Qc => given name (snd (fst e)))). fold (class_given given name entries). fold S. apply qc_div_self. intros E. rewrite E in P. discriminate P.
      * intros e I. destruct (M e I) as [_ I']. destruct (H _ _ I') as (_ & H2 & _). auto.
    + right. intros w p I. destruct (H _ _ I) as (_ & _ & H3). apply H3; [exact Z|]. intros X. exact (Qclt_not_le _ _ X P).
  - left. rewrite (map_ext_in snd (fun e => qz (count (snd (fst e))) / qz T)%Qc).
    + rewrite (qsum_map_div (fun e : pystr * pystr * Qc => qz (count (snd (fst e))))).
      assert (E : forall l : list (pystr * pystr * Qc), qsum (map (fun e => qz (count (snd (fst e)))) l) = qz (fold_right Z.add 0%Z (map (fun e => count (snd (fst e))) l))).
      { induction l as [|e l IH]; [reflexivity|]. cbn [map fold_right]. now rewrite qsum_cons, qz_add, IH. }
      rewrite E. fold (class_count count name entries). fold T. apply qc_div_self. intros X. apply Z, qz_zero, X.
    + intros e I. destruct (M e I) as [_ I']. destruct (H _ _ I') as (H1 & _). auto.
Qed.
Print Assumptions C80_sum.
(** A class file in both formats, and counts: two of the words of the class [x] have counts,
    the words of the first class have none. *)
Definition cs_float (s : pystr) : result Qc := match s with [c] => Ok (Q2Qc (inject_Z (Z.of_N c - 48))) | _ => Err ValueError end.
Definition cs_show (p : Qc) : pystr := if Qc_eq_dec p (Q2Qc (1 # 4)) then str "0.25" else if Qc_eq_dec p (Q2Qc (3 # 4)) then str "0.75" else if Qc_eq_dec p 0 then str "0.0" else str "?".
Example C80_case : fix_class_probabilities cs_int cs_float cs_show (map str ["u 7"; "x 1 a"; ""; "x 1 b"; "v 7"]%string) [cs_line "a" "3"; cs_line "a b" "7"; cs_line "b" "1"] =
  Ok (map (fun s => str s ++ [10%N]) ["CLASS-00007 0.0 u"; "CLASS-00007 0.0 v"; "x 0.75 a"; "x 0.25 b"]%string).
Proof. vm_compute. reflexivity. Qed.

(** The expectation that TheanoLM can read the class definitions that are written is false:
    the words of a class in the format without probabilities have zero probability if none of
    them has a count, and the vocabulary cannot be read from the file. (The way of writing
    numbers here can be read back exactly.) *)
Definition cs_write (p : Qc) : pystr :=
  let n := Qnum (this p) in [(20000 + (if n <? 0 then Z.to_N (-2 * n - 1) else Z.to_N (2 * n))%Z)%N; (20000 + N.pos (Qden (this p)))%N].
Definition cs_parse (s : pystr) : result Qc :=
  match s with
  | [a; b] => let m := (Z.of_N a - 20000)%Z in let n := (if Z.odd m then - ((m + 1) / 2) else m / 2)%Z in Ok (Q2Qc (n # Z.to_pos (Z.of_N b - 20000)))
  | _ => Err ValueError
  end.
Lemma cs_parse_write p : cs_parse (cs_write p) = Ok p.
Proof.
  unfold cs_parse, cs_write. cbv zeta. f_equal. set (n := Qnum (this p)).
  replace (Z.to_pos (Z.of_N (20000 + N.pos (Qden (this p))) - 20000)) with (Qden (this p)) by (rewrite N2Z.inj_add; change (Z.of_N (N.pos (Qden (this p)))) with (Z.pos (Qden (this p))); change (Z.of_N 20000) with 20000%Z; replace (20000 + Z.pos (Qden (this p)) - 20000)%Z with (Z.pos (Qden (this p))) by lia; reflexivity).
  match goal with |- Q2Qc (?x # _) = _ => replace x with n end; [apply Qc_is_canon; cbn [this Q2Qc]; rewrite Qred_correct; unfold n; destruct (this p); reflexivity|].
  rewrite N2Z.inj_add. change (Z.of_N 20000) with 20000%Z. destruct (Z.ltb_spec n 0).
  - rewrite Z2N.id by lia. replace (20000 + (-2 * n - 1) - 20000)%Z with (1 + 2 * (- n - 1))%Z by lia.
    rewrite Z.odd_add_mul_2. cbn [Z.odd].
    replace (1 + 2 * (- n - 1) + 1)%Z with (- n * 2)%Z by lia. rewrite Z.div_mul by lia. lia.
  - rewrite Z2N.id by lia. replace (20000 + 2 * n - 20000)%Z with (0 + 2 * n)%Z by lia. rewrite Z.odd_add_mul_2. cbn [Z.odd].
    replace (0 + 2 * n)%Z with (n * 2)%Z by lia. now rewrite Z.div_mul by lia.
Qed.
Theorem C80_read_refuted : exists out, (forall p, cs_parse (cs_write p) = Ok p) /\
  fix_class_probabilities cs_int cs_parse cs_write (map str ["u 7"; "a 8"; "b 8"; "v 7"]%string) [cs_line "a" "3"; cs_line "b" "1"] = Ok out /\
  VocabModel.from_file cs_int cs_parse SrilmClasses out [str "a"; str "b"; str "u"; str "v"] = Err ZeroDivisionError.
Proof. eexists. split; [exact cs_parse_write|]. split; [reflexivity|]. vm_compute. reflexivity. Qed.
Print Assumptions C80_read_refuted.

(** ** When the files can be read *)
Lemma foldM_runs {S L} (f : S -> L -> result S) (good : L -> Prop) lines :
  (forall s line, In line lines -> (exists s', f s line = Ok s') <-> good line) ->
  forall s, (exists s', foldM f lines s = Ok s') <-> forall l, In l lines -> good l.
Proof.
  induction lines as [|line lines IH]; intros Hf s; cbn [foldM]; [split; [intros _ l []|eauto]|].
  assert (IH' : forall s, (exists s', foldM f lines s = Ok s') <-> forall l, In l lines -> good l) by (apply IH; intros s0 l I; apply Hf; now right).
  split.
  - intros [s' E]. destruct (f s line) as [s1|] eqn:E1; cbn [bind] in E; [|discriminate]. intros l [<-|I].
    + apply (Hf s line); [now left|eauto].
    + apply (IH' s1); eauto.
  - intros G. destruct (proj2 (Hf s line (or_introl eq_refl)) (G line (or_introl eq_refl))) as [s1 ->]. cbn [bind]. apply IH'. intros l I. apply G. now right.
Qed.

(** With a limit of the order, longer n-grams are skipped (also if the count is not a number);
    with a minimum, lines with smaller counts are skipped. *)
Definition within (max_order : option nat) (g : list pystr) : Prop := forall m, max_order = Some m -> length g <= m.
Definition enough (min_count : option Z) (n : Z) : Prop := forall m, min_count = Some m -> (m <= n)%Z.
Theorem C79_read_limits parse_int max_order min_count lines :
  Forall has_tab lines ->
  ((exists c, read_counts parse_int max_order min_count lines = Ok c) <->
    forall l g, In l lines -> (exists before after, l = before ++ 9%N :: after /\ ~ In 9%N before /\ tokens before g) -> within max_order g -> exists n, says_count parse_int g l n) /\
  forall c g n, read_counts parse_int max_order min_count lines = Ok c ->
    dict_get ngram_dec c g = Some n <->
    within max_order g /\ last_says (fun l n => says_count parse_int g l n /\ enough min_count n) lines n.
Proof.
  intros T. rewrite Forall_forall in T.
  assert (O : forall g, (match max_order with Some m => m <? length g | None => false end = false) <-> within max_order g).
  { intros g. unfold within. destruct max_order as [m|]; [rewrite Nat.ltb_ge|]; split; intros H; try discriminate; auto. intros m' [= <-]. exact H. }
  assert (Mc : forall n, (match min_count with Some m => (n <? m)%Z | None => false end = false) <-> enough min_count n).
  { intros n. unfold enough. destruct min_count as [m|]; [rewrite Z.ltb_ge|]; split; intros H; try discriminate; auto. intros m' [= <-]. exact H. }
  assert (Sy : forall l b a, at_tab l = Some (b, a) -> forall g n, says_count parse_int g l n <-> split b = g /\ parse_int a = Ok n).
  { intros l b a E g n. split.
    - intros (b' & a' & El & Hb & Tk & P). assert (X : at_tab l = Some (b', a')) by (apply at_tab_some; auto). rewrite E in X. injection X as -> ->.
      split; [now apply tokens_split|exact P].
    - intros [<- P]. apply at_tab_some in E as [-> Hb]. exists b, a. split; [reflexivity|]. split; [exact Hb|]. split; [apply split_tokens|exact P]. }
  split.
  - unfold read_counts. rewrite (foldM_runs (read_count parse_int max_order min_count)
      (fun l => forall g, (exists before after, l = before ++ 9%N :: after /\ ~ In 9%N before /\ tokens before g) -> within max_order g -> exists n, says_count parse_int g l n)).
    + split; intros H; [intros l g I; now apply H|intros l I g; now apply H].
    + intros s l I. destruct (at_tab_has _ (T l I)) as (b & a & E). unfold read_count. rewrite E.
      destruct (match max_order with Some m => m <? length (split b) | None => false end) eqn:Eo.
      * split; [|eauto]. intros _ g (b' & a' & El & Hb & Tk) W. assert (X : at_tab l = Some (b', a')) by (apply at_tab_some; auto). rewrite E in X. injection X as -> ->.
        apply tokens_split in Tk. subst g. apply O in W. congruence.
      * split.
        -- intros [s' R] g (b' & a' & El & Hb & Tk) W. assert (X : at_tab l = Some (b', a')) by (apply at_tab_some; auto). rewrite E in X. injection X as <- <-.
           destruct (parse_int a) as [n|] eqn:Ea; cbn [bind] in R; [|discriminate]. exists n. apply (Sy _ _ _ E). split; [now apply tokens_split|exact Ea].
        -- intros H. destruct (H (split b)) as [n Hn]; [|now apply O|].
           { apply at_tab_some in E as [-> Hb]. exists b, a. split; [reflexivity|]. split; [exact Hb|apply split_tokens]. }
           apply (Sy _ _ _ E) in Hn as [_ ->]. cbn [bind]. destruct (match min_count with Some m => _ | None => _ end); eauto.
  - intros c g n R.
    rewrite (last_writer (read_count parse_int max_order min_count) (fun c => dict_get ngram_dec c g)
      (fun l n => within max_order g /\ says_count parse_int g l n /\ enough min_count n) lines) with (s := []) (s' := c); [|..|exact R].
    + cbn. split.
      * intros [(b & l & a & -> & (W & Hs) & Ha)|[_ H]]; [|discriminate]. split; [exact W|]. exists b, l, a. split; [reflexivity|]. split; [exact Hs|]. intros l' v I X. apply (Ha l' v I). auto.
      * intros [W (b & l & a & -> & Hs & Ha)]. left. exists b, l, a. split; [reflexivity|]. split; [auto|]. intros l' v I [_ X]. exact (Ha l' v I X).
    + intros s l s' I. destruct (at_tab_has _ (T l I)) as (b & a & E). unfold read_count. rewrite E. intros R' v. specialize (Sy _ _ _ E).
      destruct (match max_order with Some m => m <? length (split b) | None => false end) eqn:Eo.
      * injection R' as <-. split; [|intros [(W & Hs & _)|[_ H]]; [|exact H]].
        -- intros H. right. split; [|exact H]. intros v' (W & Hs & _). apply Sy in Hs as [<- _]. apply O in W. congruence.
        -- apply Sy in Hs as [<- _]. apply O in W. congruence.
      * destruct (parse_int a) as [k|] eqn:Ea; cbn [bind] in R'; [|discriminate].
        destruct (match min_count with Some m => (k <? m)%Z | None => false end) eqn:Em.
        -- injection R' as <-. split.
           ++ intros H. right. split; [|exact H]. intros v' (_ & Hs & En). apply Sy in Hs as [_ [= <-]]. apply Mc in En. congruence.
           ++ intros [(_ & Hs & En)|[_ H]]; [|exact H]. apply Sy in Hs as [_ [= <-]]. apply Mc in En. congruence.
        -- injection R' as <-. destruct (ngram_dec (split b) g) as [Eg|Ng].
           ++ rewrite <- Eg at 1. rewrite dict_get_set_same. assert (Gd : within max_order g /\ says_count parse_int g l k /\ enough min_count k).
              { rewrite <- Eg. split; [now apply O|]. split; [now apply Sy|now apply Mc]. }
              split; [intros [= <-]; now left|]. intros [(_ & Hs & _)|[H _]]; [apply Sy in Hs as [_ [= <-]]; reflexivity|]. exfalso. exact (H k Gd).
           ++ rewrite dict_get_set_other by exact Ng. split.
              ** intros H. right. split; [|exact H]. intros v' (_ & Hs & _). apply Sy in Hs as [X _]. contradiction.
              ** intros [(_ & Hs & _)|[_ H]]; [apply Sy in Hs as [X _]; contradiction|exact H].
Qed.
Print Assumptions C79_read_limits.
(** The longer n-gram and the small count are skipped. *)
Example C79_read_limits_case : match read_counts cs_int (Some 1) (Some 3%Z) [cs_line "a" "5"; cs_line "a b" "x"; cs_line "a" "2"; cs_line "b" "1"] with
  | Ok c => (dict_get ngram_dec c [str "a"], dict_get ngram_dec c [str "b"], length c) = (Some 5%Z, None, 1) | Err _ => False end.
Proof. reflexivity. Qed.

(** The correction succeeds exactly when every line of the class file is blank or in one of the
    two formats, and every line of the counts has a number after the tab. *)
Theorem C80_runs parse_int parse_float show_float class_lines count_lines : Forall has_tab count_lines ->
  (exists out, fix_class_probabilities parse_int parse_float show_float class_lines count_lines = Ok out) <->
  (forall l, In l class_lines -> tokens l [] \/ exists name w p, says_class parse_float name w l p) /\
  (forall l, In l count_lines -> exists g n, says_count parse_int g l n).
Proof.
  intros T.
  assert (Rc : (exists cl, read_classes parse_float class_lines = Ok cl) <-> forall l, In l class_lines -> tokens l [] \/ exists name w p, says_class parse_float name w l p).
  { unfold read_classes. apply foldM_runs. intros s l _. unfold read_class. pose proof (split_tokens l) as Tk.
    assert (K : forall toks, tokens l toks -> split l = toks) by (intros; now apply tokens_split).
    destruct (split l) as [|f1 [|f2 [|f3 [|f4 fs]]]] eqn:E; cbn [bind].
    - split; [now left|eauto].
    - split; [intros [? X]; discriminate|]. intros [X|(n & w & p & [(num & z & X & _)|(t & X & _)])]; discriminate (K _ X).
    - split; [|eauto]. intros _. right. exists (str "CLASS-" ++ zfill5 f2), f1, 0%Qc. left. exists f2, (zfill5 f2). split; [exact Tk|]. split; [now apply zfill_filled|auto].
    - split.
      + intros [s' X]. destruct (parse_float f2) as [q|] eqn:Eq; cbn [bind] in X; [|discriminate]. right. exists f1, f3, q. right. exists f2. auto.
      + intros [X|(n & w & p & [(num & z & X & _)|(t & X & P)])]; try discriminate (K _ X). specialize (K _ X). injection K as -> -> ->. rewrite P. cbn [bind]. eauto.
    - split; [intros [? X]; discriminate|]. intros [X|(n & w & p & [(num & z & X & _)|(t & X & _)])]; discriminate (K _ X). }
  assert (Rn : (exists c, read_counts parse_int None None count_lines = Ok c) <-> forall l, In l count_lines -> exists g n, says_count parse_int g l n).
  { rewrite (proj1 (C79_read_limits parse_int None None count_lines T)). rewrite Forall_forall in T. split; intros H l.
    - intros I. destruct (at_tab_has _ (T l I)) as (b & a & E). apply at_tab_some in E as [-> Hb]. exists (split b). apply (H _ (split b) I); [|intros m X; discriminate].
      exists b, a. split; [reflexivity|]. split; [exact Hb|apply split_tokens].
    - intros g I (b & a & -> & Hb & Tk) _. destruct (H _ I) as (g' & n & b' & a' & E & Hb' & Tk' & P).
      assert (X : at_tab (b ++ 9%N :: a) = Some (b, a)) by (apply at_tab_some; auto). assert (X' : at_tab (b ++ 9%N :: a) = Some (b', a')) by (apply at_tab_some; auto).
      rewrite X in X'. injection X' as <- <-. exists n, b, a. auto. }
  rewrite <- Rc, <- Rn. unfold fix_class_probabilities. split.
  - intros [out E]. destruct (read_classes parse_float class_lines) as [cl|]; cbn [bind] in E; [|discriminate]. destruct (read_counts parse_int None None count_lines) as [c|]; [|discriminate]. eauto.
  - intros [[cl Ec] [c En]]. rewrite Ec, En. cbn [bind].
    assert (D : distinct cl). { apply (read_classes_distinct parse_float class_lines [] cl); [split; [constructor|intros n c' []]|exact Ec]. }
    assert (M : exists cl', mapM (fun nc : pystr * word_class => do cls <- fix_class c (snd nc); Ok (fst nc, cls)) cl = Ok cl').
    { destruct D as [_ D2]. clear Ec. induction cl as [|[n cls] cl IH]; [exists []; reflexivity|]. cbn [mapM fst snd].
      rewrite fix_class_map by (apply (D2 n); now left). cbn [bind]. destruct IH as (cl' & ->); [intros n' c' I; apply (D2 n'); now right|]. cbn [bind]. eauto. }
    destruct M as [cl' ->]. cbn [bind]. eauto.
Qed.
Print Assumptions C80_runs.
(** A line with one word is refused. *)
Example C80_runs_case : fix_class_probabilities cs_int cs_float cs_show (map str ["u 7"; "x"]%string) [cs_line "a" "3"] = Err InputError.
Proof. reflexivity. Qed.

(** ** Writing counts and reading them *)
Lemma join_no_tab g : (forall w, In w g -> no_space w) -> ~ In 9%N (join (str " ") g).
Proof.
  induction g as [|w g IH]; intros H I; [destruct I|]. assert (Hw : ~ In 9%N w) by (intros X; specialize (H w (or_introl eq_refl) _ X); discriminate H).
  destruct g as [|w' g]; [contradiction|]. change (join (str " ") (w :: w' :: g)) with (w ++ str " " ++ join (str " ") (w' :: g)) in I.
  apply in_app_iff in I as [I|I]; [contradiction|]. apply in_app_iff in I as [[I|[]]|I]; [discriminate I|]. apply IH; [|exact I]. intros x Hx. apply H. now right.
Qed.
Lemma join_tokens g : (forall w, In w g -> w <> [] /\ no_space w) -> tokens (join (str " ") g) g.
Proof.
  induction g as [|w g IH]; intros H; [apply tokens_blank; intros c []|]. destruct (H w (or_introl eq_refl)) as [N S].
  destruct g as [|w' g]; [apply (tokens_last [] w); [intros c []|exact N|exact S]|].
  change (join (str " ") (w :: w' :: g)) with ([] ++ w ++ 32%N :: join (str " ") (w' :: g)).
  apply tokens_cons; [intros c []|exact N|exact S|reflexivity|]. apply IH. intros x Hx. apply H. now right.
Qed.
Lemma read_written parse_int show_int : (forall n, parse_int (show_int n ++ [10%N]) = Ok n) ->
  forall c acc, NoDup (dict_keys (acc ++ c)) -> (forall g n w, In (g, n) c -> In w g -> w <> [] /\ no_space w) ->
  foldM (read_count parse_int None None) (write_counts show_int c) acc = Ok (acc ++ c).
Proof.
  intros Hp. induction c as [|[g n] c IH]; intros acc N W; [now rewrite app_nil_r|]. cbn [write_counts map foldM].
  assert (Wg : forall w, In w g -> w <> [] /\ no_space w) by (intros w; apply (W g n); now left).
  assert (E : read_count parse_int None None acc (count_line show_int (g, n)) = Ok (acc ++ [(g, n)])).
  { unfold read_count, count_line. cbn [fst snd]. rewrite (proj2 (at_tab_some _ (join (str " ") g) (show_int n ++ [newline]))).
    - rewrite (tokens_split _ _ (join_tokens g Wg)). change newline with 10%N. rewrite Hp. cbn [bind]. f_equal. apply dict_set_keys_new.
      unfold dict_keys in *. rewrite map_app in N. cbn [map fst] in N. apply NoDup_remove_2 in N. intros X. apply N, in_app_iff. now left.
    - split; [reflexivity|]. apply join_no_tab. intros w I. now apply Wg. }
  rewrite E. cbn [bind]. fold (write_counts show_int c). rewrite IH; [now rewrite <- app_assoc|now rewrite <- app_assoc|]. intros g' n' w I. apply (W g' n'). now right.
Qed.
Lemma count_word_nodup m st w : NoDup (dict_keys (snd st)) -> NoDup (dict_keys (snd (count_word m st w))).
Proof.
  unfold count_word. cbv zeta. cbn [snd]. match goal with |- context [seq 0 ?k] => generalize (seq 0 k) end. destruct st as [h c0]. cbn [snd fst]. intros is. revert c0.
  induction is as [|i is IH]; intros c N; cbn [fold_left]; [exact N|]. apply IH. unfold increment. destruct (dict_get ngram_dec c _); now apply dict_set_nodup.
Qed.
Lemma from_text_nodup m lines : NoDup (dict_keys (from_text m lines)).
Proof.
  unfold from_text. assert (G : forall ls st, NoDup (dict_keys (snd st)) -> NoDup (dict_keys (snd (fold_left (fun st line => fold_left (count_word m) (split line) st) ls st)))).
  { induction ls as [|l ls IH]; intros st N; cbn [fold_left]; [exact N|]. apply IH. revert st N. generalize (split l). clear. induction l as [|w ws IH]; intros st N; cbn [fold_left]; [exact N|].
    apply IH. now apply count_word_nodup. }
  apply G. constructor.
Qed.

(** What is written can be read: the counts of a text, and all counts of n-grams whose words
    are not empty and have no whitespace. Nothing is lost and the order stays. *)
Theorem C79_write_read parse_int show_int : (forall n, parse_int (show_int n ++ [10%N]) = Ok n) ->
  (forall c, NoDup (map fst c) -> (forall g n w, In (g, n) c -> In w g -> w <> [] /\ no_space w) ->
    read_counts parse_int None None (write_counts show_int c) = Ok c) /\
  forall max_order lines, read_counts parse_int None None (write_counts show_int (from_text max_order lines)) = Ok (from_text max_order lines).
Proof.
  intros Hp. assert (A : forall c, NoDup (map fst c) -> (forall g n w, In (g, n) c -> In w g -> w <> [] /\ no_space w) ->
    read_counts parse_int None None (write_counts show_int c) = Ok c) by (intros c N W; apply (read_written parse_int show_int Hp c []); assumption).
  split; [exact A|]. intros m lines. apply A; [apply from_text_nodup|]. intros g n w I Iw.
  apply (dict_in_get ngram_dec) in I; [|apply from_text_nodup].
  assert (F : Forall2 tokens lines (map split lines)) by (clear; induction lines as [|l ls IH]; cbn [map]; constructor; [apply split_tokens|exact IH]).
  apply (C79_from_text m lines _ g n F) in I as (_ & -> & P).
  unfold occurrences in P. destruct (filter _ _) as [|i is] eqn:E in P; [cbn in P; lia|].
  assert (Hi : In i (i :: is)) by now left. rewrite <- E in Hi. apply filter_In in Hi as [_ Hi]. destruct (list_eq_dec pystr_eq_dec _ _) as [Eg|]; [|discriminate].
  assert (Ic : In w (concat (map split lines))).
  { rewrite <- Eg in Iw. rewrite <- (firstn_skipn i (concat (map split lines))). apply in_app_iff. right. rewrite <- (firstn_skipn (length g) (skipn i _)). apply in_app_iff. now left. }
  apply in_concat in Ic as (ws & Iws & Iw'). apply in_map_iff in Iws as (l & <- & _). pose proof (split_tokens l) as Tk. clear - Tk Iw'. revert Tk Iw'. generalize (split l). intros ws Tk.
  induction Tk as [s H|sep t H1 H2 H3|sep t c rest toks H1 H2 H3 H4 Tk IH]; intros I; [destruct I|destruct I as [<-|[]]; auto|destruct I as [<-|I]; auto].
Qed.
Print Assumptions C79_write_read.
Definition cs_digits (n : Z) : pystr := [(20000 + (if n <? 0 then Z.to_N (-2 * n - 1) else Z.to_N (2 * n))%Z)%N].
Definition cs_number (s : pystr) : result Z :=
  match s with a :: _ => let m := (Z.of_N a - 20000)%Z in Ok (if Z.odd m then - ((m + 1) / 2) else m / 2)%Z | _ => Err ValueError end.
Example C79_write_read_hyp n : cs_number (cs_digits n ++ [10%N]) = Ok n.
Proof.
  unfold cs_number, cs_digits. cbn [app]. cbv zeta. f_equal. rewrite N2Z.inj_add. change (Z.of_N 20000) with 20000%Z. destruct (Z.ltb_spec n 0).
  - rewrite Z2N.id by lia. replace (20000 + (-2 * n - 1) - 20000)%Z with (1 + 2 * (- n - 1))%Z by lia. rewrite Z.odd_add_mul_2. cbn [Z.odd].
    replace (1 + 2 * (- n - 1) + 1)%Z with (- n * 2)%Z by lia. rewrite Z.div_mul by lia. lia.
  - rewrite Z2N.id by lia. replace (20000 + 2 * n - 20000)%Z with (0 + 2 * n)%Z by lia. rewrite Z.odd_add_mul_2. cbn [Z.odd].
    replace (0 + 2 * n)%Z with (n * 2)%Z by lia. now rewrite Z.div_mul by lia.
Qed.
Example C79_write_read_case : length (write_counts cs_digits (from_text 2 [str "a b a"; str " b"])) = 4.
Proof. reflexivity. Qed.
