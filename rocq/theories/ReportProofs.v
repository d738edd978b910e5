(** Proofs about the text of the score report. *)
From Coq Require Import QArith Qcanon.
From Verif Require Import Base BaseLib ListLib Strings NumStr TextSpec TextProofs VocabModel VocabSpec ScoreModel IterSpec ScoreSpec SubwordProofs ScoreText ReportModel ReportSpec.
Local Open Scope nat_scope.
Local Open Scope list_scope.

(** ** Cutting texts *)
Lemma cut_at X (c : X) a : forall b a' b', ~ In c a -> ~ In c a' -> a ++ c :: b = a' ++ c :: b' -> a = a' /\ b = b'.
Proof.
  induction a as [|x a IH]; intros b [|y a'] b' Ha Ha' E; cbn [app] in E.
  - injection E as E. auto.
  - injection E as <- _. exfalso. apply Ha'. now left.
  - injection E as -> _. exfalso. apply Ha. now left.
  - injection E as -> E. destruct (IH b a' b') as [-> ->]; auto; intro; [apply Ha|apply Ha']; now right.
Qed.
Lemma not_in_app X (c : X) a b : ~ In c (a ++ b) <-> ~ In c a /\ ~ In c b.
Proof. rewrite in_app_iff. tauto. Qed.

Lemma app_some X (a b : list X) : b <> [] -> a ++ b <> [].
Proof. intros N E. apply app_eq_nil in E as [_ E]. contradiction. Qed.

Lemma len2 X Y (R : X -> Y -> Prop) l l' : Forall2 R l l' -> length l = length l'.
Proof. intro F. induction F as [|x y l l' _ F IH]; [reflexivity|]. cbn [length]. now rewrite IH. Qed.
Lemma Forall_concat_inv X (P : X -> Prop) ll : Forall P (concat ll) -> Forall (Forall P) ll.
Proof. induction ll as [|l ll IH]; intro F; [constructor|]. cbn [concat] in F. apply Forall_app in F as [F1 F2]. constructor; auto. Qed.

(** A text of lines *)
Definition lines_text (ls : list pystr) : pystr := concat (map (fun l : pystr => l ++ newline) ls).
Lemma lines_inj ls : forall ls', Forall (fun l => ~ In 10%N l) ls -> Forall (fun l => ~ In 10%N l) ls' ->
  lines_text ls = lines_text ls' -> ls = ls'.
Proof.
  unfold lines_text, newline. induction ls as [|l ls IH]; intros [|l' ls'] F F' E; cbn [map concat] in E; [reflexivity| | |].
  - destruct l'; discriminate.
  - destruct l; discriminate.
  - rewrite <- !app_assoc in E. cbn [app] in E. inversion_clear F as [|? ? F1 F2]. inversion_clear F' as [|? ? F1' F2'].
    apply cut_at in E as [-> E]; auto. f_equal. now apply IH.
Qed.

(** Fields that are separated by spaces *)
Lemma join_cons x y l : join space (x :: y :: l) = x ++ 32%N :: join space (y :: l).
Proof. reflexivity. Qed.
Lemma join_inj l : forall l', l <> [] -> l' <> [] -> Forall (fun x => ~ In 32%N x) l -> Forall (fun x => ~ In 32%N x) l' ->
  join space l = join space l' -> l = l'.
Proof.
  induction l as [|x l IH]; intros l' N N' F F' E; [contradiction|]. destruct l' as [|x' l']; [contradiction|].
  inversion_clear F as [|? ? F1 F2]. inversion_clear F' as [|? ? F1' F2']. destruct l as [|y l], l' as [|y' l'].
  - cbn in E. now rewrite E.
  - rewrite join_cons in E. cbn [join] in E. subst x. exfalso. apply F1, in_or_app. right. now left.
  - rewrite join_cons in E. cbn [join] in E. subst x'. exfalso. apply F1', in_or_app. right. now left.
  - rewrite !join_cons in E. apply cut_at in E as [-> E]; auto. f_equal. apply IH; auto; discriminate.
Qed.
Lemma join_app l l' : l <> [] -> l' <> [] -> join space (l ++ l') = join space l ++ 32%N :: join space l'.
Proof.
  intros N N'. induction l as [|x l IH]; [contradiction|]. destruct l as [|y l].
  - destruct l' as [|y' l']; [contradiction|]. reflexivity.
  - cbn [app]. rewrite !join_cons. cbn [app] in IH. rewrite IH by discriminate. now rewrite <- app_assoc.
Qed.
Lemma join_joined (ll : list (list pystr)) : Forall (fun l => l <> []) ll -> join space (map (join space) ll) = join space (concat ll).
Proof.
  induction ll as [|l ll IH]; intro F; [reflexivity|]. inversion_clear F as [|? ? F1 F2]. destruct ll as [|l' ll].
  - cbn. now rewrite app_nil_r.
  - cbn [map]. rewrite join_cons. cbn [map] in IH. rewrite (IH F2). change (concat (l :: l' :: ll)) with (l ++ concat (l' :: ll)). rewrite (join_app l); [reflexivity|exact F1|].
    inversion_clear F2 as [|? ? F3 _]. cbn [concat]. destruct l'; [contradiction|discriminate].
Qed.

(** Text before the first and after the last field *)
Definition before (s : pystr) (l : list pystr) : list pystr := match l with [] => [] | x :: l => (s ++ x) :: l end.
Fixpoint after (s : pystr) (l : list pystr) : list pystr :=
  match l with [] => [] | [x] => [x ++ s] | x :: l => x :: after s l end.
Lemma before_join s l : l <> [] -> join space (before s l) = s ++ join space l.
Proof. intro N. destruct l as [|x [|y l]]; [contradiction|reflexivity|]. cbn [before]. rewrite !join_cons. now rewrite <- app_assoc. Qed.
Lemma after_some s l : l <> [] -> after s l <> [].
Proof. destruct l as [|x [|y l]]; [contradiction|discriminate|discriminate]. Qed.
Lemma before_some s l : l <> [] -> before s l <> [].
Proof. destruct l; [contradiction|discriminate]. Qed.
Lemma after_join s l : l <> [] -> join space (after s l) = join space l ++ s.
Proof.
  intro N. induction l as [|x l IH]; [contradiction|]. destruct l as [|y l]; [reflexivity|].
  change (after s (x :: y :: l)) with (x :: after s (y :: l)). destruct (after s (y :: l)) as [|z r] eqn:E; [exfalso; revert E; now apply after_some|].
  rewrite join_cons, IH by discriminate. rewrite join_cons, <- app_assoc. reflexivity.
Qed.
Lemma after_length s l : length (after s l) = length l.
Proof. induction l as [|x [|y l] IH]; [reflexivity|reflexivity|]. change (after s (x :: y :: l)) with (x :: after s (y :: l)). cbn [length]. now rewrite IH. Qed.
Lemma before_inj s l l' : before s l = before s l' -> l = l'.
Proof. destruct l, l'; cbn [before]; try discriminate; [reflexivity|]. intro E. injection E as E ->. apply app_inv_head in E. now rewrite E. Qed.
Lemma after_inj s l : forall l', after s l = after s l' -> l = l'.
Proof.
  induction l as [|x l IH]; intros l' E.
  - destruct l'; [reflexivity|]. exfalso. symmetry in E. revert E. now apply after_some.
  - destruct l' as [|x' l']; [exfalso; revert E; now apply after_some|]. destruct l as [|y l], l' as [|y' l'].
    + cbn in E. injection E as E. apply app_inv_tail in E. now rewrite E.
    + apply (f_equal (@length _)) in E. rewrite !after_length in E. discriminate.
    + apply (f_equal (@length _)) in E. rewrite !after_length in E. discriminate.
    + change (after s (x' :: y' :: l')) with (x' :: after s (y' :: l')) in E. change (after s (x :: y :: l)) with (x :: after s (y :: l)) in E.
      assert (E1 : x = x') by congruence. assert (E2 : after s (y :: l) = after s (y' :: l')) by congruence. apply IH in E2. congruence.
Qed.
Lemma before_length s l : length (before s l) = length l.
Proof. now destruct l. Qed.
Lemma before_all (P : pystr -> Prop) s l : Forall P l -> (forall x, P x -> P (s ++ x)) -> Forall P (before s l).
Proof. intros F H. destruct F; constructor; auto. Qed.
Lemma after_all (P : pystr -> Prop) s l : Forall P l -> (forall x, P x -> P (x ++ s)) -> Forall P (after s l).
Proof. intros F H. induction F as [|x l Hx F IH]; [constructor|]. destruct l as [|y l]; [constructor; auto|]. constructor; auto. Qed.

(** ** A line for a word *)
Definition token (t : pystr) : Prop := t <> [] /\ no_space t.
Definition word (w : list pystr) : Prop := w <> [] /\ Forall token w.
Lemma token_plain t c : token t -> is_space c = true -> ~ In c t.
Proof. intros [_ H] S C. apply H in C. congruence. Qed.
Lemma space32 : is_space 32%N = true. Proof. reflexivity. Qed.
Lemma space10 : is_space 10%N = true. Proof. reflexivity. Qed.

Section Entry.
Variable show : lp -> pystr.
Hypothesis plain : forall x, token (show x).

Definition history_fields (e : score_entry) : list pystr := (if se_cut e then [str "..."] else []) ++ concat (se_history e).
Definition info_fields (e : score_entry) : list pystr := map (fun wi => info_text (fst wi) (snd wi)) (combine (se_word e) (se_info e)).
Definition entry_fields (e : score_entry) : list pystr :=
  (match se_logprob e with
   | None => before (str "p(") (se_word e) ++ str "|" :: after (str ")") (history_fields e) ++ [str "is"; str "not"; str "predicted"]
   | Some x => before (str "log(p(") (se_word e) ++ str "|" :: after (str "))") (history_fields e) ++ [str "="; show x]
   end) ++ [] :: before (str "[") (after (str "]") (info_fields e)).

Record entry_ok (e : score_entry) : Prop := {
  eo_word : word (se_word e);
  eo_history : se_history e <> [] /\ Forall word (se_history e);
  eo_info : length (se_info e) = length (se_word e) }.

Section One.
Variable e : score_entry.
Hypothesis H : entry_ok e.
Lemma info_some : info_fields e <> [].
Proof.
  destruct H as [[W _] _ I]. unfold info_fields. destruct (se_word e); [contradiction|]. destruct (se_info e); [discriminate|]. discriminate.
Qed.
Lemma history_some : history_fields e <> [].
Proof.
  destruct H as [_ [N F] _]. unfold history_fields. destruct (se_history e) as [|h hs]; [contradiction|]. inversion_clear F as [|? ? [F1 _] _].
  destruct (se_cut e); [discriminate|]. destruct h; [contradiction|discriminate].
Qed.
Lemma history_join : join space ((if se_cut e then [str "..."] else []) ++ map (join space) (se_history e)) = join space (history_fields e).
Proof.
  destruct H as [_ [N F] _]. unfold history_fields.
  assert (F' : Forall (fun l => l <> []) (se_history e)) by (eapply Forall_impl; [|exact F]; intros ? []; assumption).
  destruct (se_cut e); [|cbn [app]; now apply join_joined]. destruct (se_history e) as [|h hs] eqn:E; [contradiction|].
  assert (C : concat (h :: hs) <> []). { inversion_clear F' as [|? ? F1 _]. destruct h; [contradiction|discriminate]. }
  rewrite (join_app [_] (map _ _)) by (cbn; discriminate). rewrite (join_app [_] (concat _)) by (cbn; auto; discriminate).
  now rewrite join_joined.
Qed.
Lemma entry_join : entry_text show e = join space (entry_fields e) ++ newline.
Proof.
  pose proof info_some as IS. pose proof history_some as HS. pose proof (proj1 (eo_word _ H)) as WS. unfold entry_text. f_equal. unfold entry_fields. rewrite history_join.
  assert (I : 32%N :: join space ([] :: before (str "[") (after (str "]") (info_fields e))) = str "  [" ++ join space (info_fields e) ++ str "]").
  { change ([] :: before (str "[") (after (str "]") (info_fields e))) with ([[]] ++ before (str "[") (after (str "]") (info_fields e))).
    rewrite join_app; [|discriminate|now apply before_some, after_some]. cbn [join app]. rewrite before_join by now apply after_some. now rewrite after_join. }
  destruct (se_logprob e) as [x|].
  - rewrite join_app; [|apply app_some; discriminate|discriminate]. rewrite I.
    rewrite join_app; [|now apply before_some|discriminate]. rewrite before_join by assumption.
    change (str "|" :: after (str "))") (history_fields e) ++ [str "="; show x]) with ([str "|"] ++ after (str "))") (history_fields e) ++ [str "="; show x]).
    rewrite (join_app [str "|"]); [|discriminate|apply app_some; discriminate]. rewrite join_app; [|now apply after_some|discriminate].
    rewrite after_join by assumption. unfold info_fields. rewrite <- !app_assoc. cbn [join app]. rewrite <- !app_assoc. cbn [app]. rewrite <- !app_assoc. reflexivity.
  - rewrite join_app; [|apply app_some; discriminate|discriminate]. rewrite I.
    rewrite join_app; [|now apply before_some|discriminate]. rewrite before_join by assumption.
    change (str "|" :: after (str ")") (history_fields e) ++ [str "is"; str "not"; str "predicted"]) with ([str "|"] ++ after (str ")") (history_fields e) ++ [str "is"; str "not"; str "predicted"]).
    rewrite (join_app [str "|"]); [|discriminate|apply app_some; discriminate]. rewrite join_app; [|now apply after_some|discriminate].
    rewrite after_join by assumption. unfold info_fields. rewrite <- !app_assoc. cbn [join app]. rewrite <- !app_assoc. cbn [app]. rewrite <- !app_assoc. reflexivity.
Qed.
End One.

Lemma app_same_length X (a b a' b' : list X) : length a = length a' -> a ++ b = a' ++ b' -> a = a' /\ b = b'.
Proof.
  revert a'. induction a as [|x a IH]; intros [|x' a'] L E; try discriminate; [auto|]. cbn [app] in E. injection E as -> E.
  injection L as L. destruct (IH a' L E) as [-> ->]. auto.
Qed.
Lemma info_inj w i i' : info_text w i = info_text w i' -> i = i'.
Proof. intro E. apply app_inv_head in E. destruct i, i'; try reflexivity; discriminate. Qed.
Lemma infos_inj w : forall l l', length l = length w -> length l' = length w ->
  map (fun wi => info_text (fst wi) (snd wi)) (combine w l) = map (fun wi => info_text (fst wi) (snd wi)) (combine w l') -> l = l'.
Proof.
  induction w as [|x w IH]; intros [|i l] [|i' l'] L L' E; try discriminate; [reflexivity|]. cbn [combine map fst snd] in E.
  injection E as E1 E2. apply info_inj in E1. injection L as L. injection L' as L'. rewrite (IH l l' L L' E2). now rewrite E1.
Qed.

(** The fields before the double space *)
Definition head_fields (e : score_entry) : list pystr :=
  match se_logprob e with
  | None => before (str "p(") (se_word e) ++ str "|" :: after (str ")") (history_fields e) ++ [str "is"; str "not"; str "predicted"]
  | Some x => before (str "log(p(") (se_word e) ++ str "|" :: after (str "))") (history_fields e) ++ [str "="; show x]
  end.
Lemma history_all (P : pystr -> Prop) e : entry_ok e -> P (str "...") -> (forall t, token t -> P t) -> Forall P (history_fields e).
Proof.
  intros [_ [_ F] _] D T. unfold history_fields. apply Forall_app. split; [destruct (se_cut e); auto|].
  apply Forall_concat. eapply Forall_impl; [|exact F]. intros w [_ Fw]. eapply Forall_impl; [|exact Fw]. exact T.
Qed.
Lemma head_some e : entry_ok e -> Forall (fun x => x <> []) (head_fields e).
Proof.
  intro H. assert (W : Forall (fun x => x <> []) (se_word e)). { eapply Forall_impl; [|exact (proj2 (eo_word _ H))]. now intros ? []. }
  assert (Hi : Forall (fun x : pystr => x <> []) (history_fields e)). { apply history_all; [exact H|discriminate|now intros ? []]. }
  unfold head_fields. destruct (se_logprob e).
  - apply Forall_app. split; [apply before_all; [exact W|discriminate]|]. constructor; [discriminate|]. apply Forall_app.
    split; [apply after_all; [exact Hi|]; intros [|] Hx; [contradiction|discriminate]|]. repeat constructor; [discriminate|]. apply plain.
  - apply Forall_app. split; [apply before_all; [exact W|discriminate]|]. constructor; [discriminate|]. apply Forall_app.
    split; [apply after_all; [exact Hi|]; intros [|] Hx; [contradiction|discriminate]|]. repeat constructor; discriminate.
Qed.
Ltac no_char := let C := fresh in intro C; repeat (destruct C as [C|C]; [discriminate|]); exact C.
Lemma fields_plain c e : is_space c = true -> (c = 10%N \/ c = 32%N) -> entry_ok e -> Forall (fun x => ~ In c x) (entry_fields e).
Proof.
  intros S C H. assert (T : forall t, token t -> ~ In c t) by (intros t Ht; now apply token_plain).
  assert (W : Forall (fun x => ~ In c x) (se_word e)). { eapply Forall_impl; [|exact (proj2 (eo_word _ H))]. exact T. }
  assert (Hi : Forall (fun x => ~ In c x) (history_fields e)). { apply history_all; [exact H|destruct C; subst c; no_char|exact T]. }
  assert (I : Forall (fun x => ~ In c x) (info_fields e)).
  { unfold info_fields. apply Forall_map. apply Forall_forall. intros [w i] Hw. apply in_combine_l in Hw. rewrite Forall_forall in W. cbn [fst snd]. unfold info_text.
    apply not_in_app. split; [now apply W|]. destruct C; subst c; destruct i; no_char. }
  assert (B : Forall (fun x => ~ In c x) ([] :: before (str "[") (after (str "]") (info_fields e)))).
  { constructor; [exact (fun x => x)|]. apply before_all; [apply after_all; [exact I|]|]; intros x Hx; apply not_in_app; (split; [|]); auto; destruct C; subst c; no_char. }
  unfold entry_fields. destruct (se_logprob e).
  - apply Forall_app. split; [|exact B]. apply Forall_app.
    split; [apply before_all; [exact W|]; intros x Hx; apply not_in_app; split; [destruct C; subst c; no_char|exact Hx]|].
    constructor; [destruct C; subst c; no_char|]. apply Forall_app.
    split; [apply after_all; [exact Hi|]; intros x Hx; apply not_in_app; split; [exact Hx|destruct C; subst c; no_char]|].
    constructor; [destruct C; subst c; no_char|]. constructor; [apply T, plain|constructor].
  - apply Forall_app. split; [|exact B]. apply Forall_app.
    split; [apply before_all; [exact W|]; intros x Hx; apply not_in_app; split; [destruct C; subst c; no_char|exact Hx]|].
    constructor; [destruct C; subst c; no_char|]. apply Forall_app.
    split; [apply after_all; [exact Hi|]; intros x Hx; apply not_in_app; split; [exact Hx|destruct C; subst c; no_char]|].
    repeat (constructor; [destruct C; subst c; no_char|]). constructor.
Qed.

Record same_entry (e e' : score_entry) : Prop := {
  se1 : se_word e = se_word e';
  se2 : option_map show (se_logprob e) = option_map show (se_logprob e');
  se3 : se_info e = se_info e';
  se4 : history_fields e = history_fields e' }.
Lemma entry_inj e e' : entry_ok e -> entry_ok e' -> join space (entry_fields e) = join space (entry_fields e') -> same_entry e e'.
Proof.
  intros H H' E. apply join_inj in E; try (apply fields_plain; auto); try (unfold entry_fields; apply app_some; discriminate).
  change (head_fields e ++ [] :: before (str "[") (after (str "]") (info_fields e)) =
          head_fields e' ++ [] :: before (str "[") (after (str "]") (info_fields e'))) in E.
  assert (S : ~ In [] (head_fields e)). { intro C. pose proof (head_some e H) as F. rewrite Forall_forall in F. exact (F _ C eq_refl). }
  assert (S' : ~ In [] (head_fields e')). { intro C. pose proof (head_some e' H') as F. rewrite Forall_forall in F. exact (F _ C eq_refl). }
  apply cut_at in E as [E I]; [|exact S|exact S']. apply before_inj, after_inj in I.
  assert (L : length (se_word e) = length (se_word e')).
  { apply (f_equal (@length _)) in I. unfold info_fields in I. rewrite !map_length, !combine_length in I. pose proof (eo_info _ H). pose proof (eo_info _ H'). lia. }
  assert (X : se_word e = se_word e' /\ option_map show (se_logprob e) = option_map show (se_logprob e') /\ history_fields e = history_fields e').
  { unfold head_fields in E. pose proof (proj1 (eo_word _ H)) as W. pose proof (proj1 (eo_word _ H')) as W'.
    destruct (se_logprob e) as [x|], (se_logprob e') as [x'|].
    - apply app_same_length in E as [E1 E2]; [|now rewrite !before_length]. apply before_inj in E1. apply (f_equal (@tl _)) in E2. cbn [tl] in E2.
      change [str "="; show x] with ([str "="] ++ [show x]) in E2. change [str "="; show x'] with ([str "="] ++ [show x']) in E2. rewrite !app_assoc in E2.
      apply app_inj_tail in E2 as [E2 E3]. apply app_inj_tail in E2 as [E2 _]. apply after_inj in E2. cbn [option_map]. rewrite E3. auto.
    - exfalso. destruct (se_word e), (se_word e'); try contradiction. cbn [before app] in E. discriminate.
    - exfalso. destruct (se_word e), (se_word e'); try contradiction. cbn [before app] in E. discriminate.
    - apply app_same_length in E as [E1 E2]; [|now rewrite !before_length]. apply before_inj in E1. apply (f_equal (@tl _)) in E2. cbn [tl] in E2.
      apply app_inv_tail, after_inj in E2. auto. }
  destruct X as (X1 & X2 & X3). constructor; auto. destruct H as [_ _ Hi], H' as [_ _ Hi']. unfold info_fields in I. rewrite <- X1 in *. exact (infos_inj _ _ _ Hi Hi' I).
Qed.
Lemma join_first c x l : exists t, join space ((c :: x) :: l) = c :: t.
Proof. destruct l; [eexists; reflexivity|]. rewrite join_cons. eexists. reflexivity. Qed.
Lemma entry_first e : entry_ok e -> exists t, join space (entry_fields e) = 112%N :: t \/ join space (entry_fields e) = 108%N :: t.
Proof.
  intro H. pose proof (proj1 (eo_word _ H)) as W. unfold entry_fields. destruct (se_word e) as [|w ws]; [contradiction|]. destruct (se_logprob e).
  - edestruct join_first as [t E]. exists t. right. exact E.
  - edestruct join_first as [t E]. exists t. left. exact E.
Qed.

(** ** The lines of the report *)
Variable pexp : lp -> lp.
Definition sentence_lines (number : nat) (r : report) : list pystr :=
  (str "# Sentence " ++ str_of_nat number) :: map (fun e => join space (entry_fields e)) (fst r)
  ++ [str "Sentence perplexity: " ++ show (pexp (snd r)); []].
Definition number_lines (s : text_stats) : list pystr :=
  [str "Number of sentences: " ++ str_of_nat (t_sentences s);
   str "Number of words: " ++ str_of_nat (t_words s);
   str "Number of tokens: " ++ str_of_nat (t_tokens s);
   str "Number of predicted probabilities: " ++ str_of_nat (t_probs s);
   str "Number of excluded (OOV) words: " ++ str_of_nat (t_unks s);
   str "Number of zero probabilities: " ++ str_of_nat (t_zeroprobs s)].
Definition entropy_lines (cross_entropy : option lp) (base : option (nat * Qc)) : list pystr :=
  match cross_entropy with
  | None => []
  | Some x => (str "Cross entropy (base e): " ++ show x) ::
      match base with None => [] | Some (b, scale) => [str "Cross entropy (base " ++ str_of_nat b ++ str "): " ++ show (ldiv x scale)] end
      ++ [str "Perplexity: " ++ show (pexp x)]
  end.
Definition report_lines (r : text_stats * list report * option lp) (base : option (nat * Qc)) : list pystr :=
  let '(stats, reports, cross_entropy) := r in
  concat (map (fun nr => sentence_lines (fst nr) (snd nr)) (combine (seq 1 (length reports)) reports)) ++ number_lines stats ++ entropy_lines cross_entropy base.

Lemma lines_app a b : lines_text (a ++ b) = lines_text a ++ lines_text b.
Proof. unfold lines_text. now rewrite map_app, concat_app. Qed.
Lemma lines_cons a b : lines_text (a :: b) = a ++ newline ++ lines_text b.
Proof. unfold lines_text. cbn [map concat]. now rewrite app_assoc. Qed.
Lemma sentence_join n r : Forall entry_ok (fst r) -> sentence_text show pexp n r = lines_text (sentence_lines n r).
Proof.
  intro F. unfold sentence_text, sentence_lines. rewrite lines_cons, lines_app, <- app_assoc. rewrite !lines_cons. do 3 apply (f_equal (app _)). apply (f_equal2 (@app _)).
  - induction F as [|e es He F IH]; [reflexivity|]. cbn [map concat]. rewrite IH, lines_cons, app_assoc. now rewrite entry_join.
  - rewrite <- !app_assoc. reflexivity.
Qed.
Lemma report_join r base : Forall (fun rep => Forall entry_ok (fst rep)) (snd (fst r)) -> report_text show pexp r base = lines_text (report_lines r base).
Proof.
  destruct r as [[stats reports] ce]. cbn [fst snd]. intro F. unfold report_text, report_lines. rewrite lines_app. f_equal.
  - generalize 1. induction F as [|rep reps Hr F IH]; intro k; [reflexivity|]. cbn [length seq combine map concat fst snd]. rewrite lines_app, <- IH. now rewrite sentence_join.
  - unfold stats_text, number_lines. cbn [app]. rewrite !lines_cons, <- !app_assoc. do 18 apply (f_equal (app _)).
    unfold entropy_lines. destruct ce as [x|]; [|reflexivity]. destruct base as [[b scale]|]; cbn [app]; rewrite ?lines_cons, <- ?app_assoc; reflexivity.
Qed.

(** Lists with a separating element *)
Lemma cut_where X (P : X -> Prop) a : forall c b a' c' b', Forall P a -> Forall P a' -> ~ P c -> ~ P c' -> a ++ c :: b = a' ++ c' :: b' ->
  a = a' /\ c = c' /\ b = b'.
Proof.
  induction a as [|x a IH]; intros c b [|y a'] c' b' F F' N N' E; cbn [app] in E.
  - injection E as -> E. auto.
  - injection E as -> _. inversion_clear F'. contradiction.
  - injection E as -> _. inversion_clear F. contradiction.
  - injection E as -> E. inversion_clear F. inversion_clear F'. destruct (IH c b a' c' b') as (-> & -> & ->); auto.
Qed.
Definition is_entry (l : pystr) : Prop := match l with c :: _ => c = 112%N \/ c = 108%N | [] => False end.
Lemma entry_is e : entry_ok e -> is_entry (join space (entry_fields e)).
Proof. intro H. destruct (entry_first e H) as [t [-> | ->]]; cbn; auto. Qed.
Lemma entries_inj es : forall es', Forall entry_ok es -> Forall entry_ok es' ->
  map (fun e => join space (entry_fields e)) es = map (fun e => join space (entry_fields e)) es' -> Forall2 same_entry es es'.
Proof.
  induction es as [|e es IH]; intros [|e' es'] F F' E; try discriminate; constructor; cbn [map] in E.
  - inversion_clear F. inversion_clear F'. apply entry_inj; auto. congruence.
  - inversion_clear F. inversion_clear F'. apply IH; auto. congruence.
Qed.
Lemma entry_lines_all es : Forall entry_ok es -> Forall is_entry (map (fun e => join space (entry_fields e)) es).
Proof. intro F. apply Forall_map. eapply Forall_impl; [|exact F]. exact entry_is. Qed.
Lemma sentence_lines_inj n r n' r' b b' : Forall entry_ok (fst r) -> Forall entry_ok (fst r') ->
  sentence_lines n r ++ b = sentence_lines n' r' ++ b' -> Forall2 same_entry (fst r) (fst r') /\ b = b'.
Proof.
  intros F F' E. unfold sentence_lines in E. apply (f_equal (@tl _)) in E. cbn [tl app] in E. rewrite <- !app_assoc in E. cbn [app] in E.
  apply (cut_where _ is_entry) in E as (E1 & _ & E2).
  - apply (f_equal (@tl _)) in E2. cbn [tl] in E2. split; [now apply entries_inj|exact E2].
  - now apply entry_lines_all.
  - now apply entry_lines_all.
  - cbn. intros [C|C]; discriminate.
  - cbn. intros [C|C]; discriminate.
Qed.
Lemma head_char (a b : pystr) (l l' : list pystr) : a :: l = b :: l' -> hd 0%N a = hd 0%N b.
Proof. congruence. Qed.
Lemma reports_inj reps : forall k k' reps' s s' b b',
  Forall (fun rep => Forall entry_ok (fst rep)) reps -> Forall (fun rep => Forall entry_ok (fst rep)) reps' ->
  concat (map (fun nr => sentence_lines (fst nr) (snd nr)) (combine (seq k (length reps)) reps)) ++ number_lines s ++ b =
  concat (map (fun nr => sentence_lines (fst nr) (snd nr)) (combine (seq k' (length reps')) reps')) ++ number_lines s' ++ b' ->
  Forall2 (fun r r' => Forall2 same_entry (fst r) (fst r')) reps reps' /\ counts s = counts s'.
Proof.
  induction reps as [|r reps IH]; intros k k' [|r' reps'] s s' b b' F F' E; cbn [length seq combine map concat fst snd] in E.
  - split; [constructor|]. cbn [app] in E. apply app_same_length in E as [E _]; [|reflexivity]. unfold number_lines in E. unfold counts.
    pose proof (f_equal (nth 0) E) as E0. apply (f_equal (fun h => h [])) in E0. cbn [nth] in E0. apply app_inv_head, str_of_nat_inj in E0.
    pose proof (f_equal (nth 1) E) as E1. apply (f_equal (fun h => h [])) in E1. cbn [nth] in E1. apply app_inv_head, str_of_nat_inj in E1.
    pose proof (f_equal (nth 2) E) as E2. apply (f_equal (fun h => h [])) in E2. cbn [nth] in E2. apply app_inv_head, str_of_nat_inj in E2.
    pose proof (f_equal (nth 3) E) as E3. apply (f_equal (fun h => h [])) in E3. cbn [nth] in E3. apply app_inv_head, str_of_nat_inj in E3.
    pose proof (f_equal (nth 4) E) as E4. apply (f_equal (fun h => h [])) in E4. cbn [nth] in E4. apply app_inv_head, str_of_nat_inj in E4.
    pose proof (f_equal (nth 5) E) as E5. apply (f_equal (fun h => h [])) in E5. cbn [nth] in E5. apply app_inv_head, str_of_nat_inj in E5.
    congruence.
  - exfalso. apply head_char in E. cbn in E. discriminate.
  - exfalso. apply head_char in E. cbn in E. discriminate.
  - inversion_clear F as [|? ? F1 F2]. inversion_clear F' as [|? ? F1' F2']. rewrite <- !app_assoc in E.
    apply sentence_lines_inj in E as [E1 E2]; auto. destruct (IH _ _ _ _ _ _ _ F2 F2' E2) as [I1 I2]. split; [constructor; assumption|exact I2].
Qed.

(** No line has a line feed in it *)
Lemma digits_plain u : ~ In 10%N (uint_chars u).
Proof. induction u; cbn [uint_chars]; intro C; repeat (destruct C as [C|C]; [discriminate|]); auto. Qed.
Lemma number_plain n : ~ In 10%N (str_of_nat n).
Proof. apply digits_plain. Qed.
Lemma show_plain x : ~ In 10%N (show x).
Proof. apply (token_plain _ 10%N (plain x)). reflexivity. Qed.
Ltac line := repeat (apply not_in_app; split); try apply number_plain; try apply show_plain; try no_char.
Lemma report_lines_plain r base : Forall (fun rep => Forall entry_ok (fst rep)) (snd (fst r)) -> Forall (fun l => ~ In 10%N l) (report_lines r base).
Proof.
  destruct r as [[stats reports] ce]. cbn [fst snd]. intro F. unfold report_lines. apply Forall_app. split; [|apply Forall_app; split].
  - generalize 1. induction F as [|rep reps Hr F IH]; intro k; [constructor|]. cbn [length seq combine map concat fst snd]. apply Forall_app. split; [|apply IH].
    unfold sentence_lines. constructor; [line|]. apply Forall_app. split.
    + apply Forall_map. eapply Forall_impl; [|exact Hr]. intros e He. pose proof (fields_plain 10%N e eq_refl (or_introl eq_refl) He) as P.
      induction P as [|x l Hx P IHP]; [intros []|]. destruct l as [|y l]; [exact Hx|]. rewrite join_cons. apply not_in_app. split; [exact Hx|].
      intros [C|C]; [discriminate|]. exact (IHP C).
    + constructor; [line|]. constructor; [intros []|constructor].
  - unfold number_lines. repeat (constructor; [line|]). constructor.
  - unfold entropy_lines. destruct ce as [x|]; [|constructor]. constructor; [line|]. apply Forall_app. split; [|constructor; [line|constructor]].
    destruct base as [[b scale]|]; [|constructor]. constructor; [line|constructor].
Qed.
Lemma report_inj r base r' base' :
  Forall (fun rep => Forall entry_ok (fst rep)) (snd (fst r)) -> Forall (fun rep => Forall entry_ok (fst rep)) (snd (fst r')) ->
  report_text show pexp r base = report_text show pexp r' base' ->
  Forall2 (fun x x' => Forall2 same_entry (fst x) (fst x')) (snd (fst r)) (snd (fst r')) /\ counts (fst (fst r)) = counts (fst (fst r')).
Proof.
  intros F F' E. rewrite !report_join in E by assumption. apply lines_inj in E; try now apply report_lines_plain.
  destruct r as [[s reps] ce], r' as [[s' reps'] ce']. cbn [fst snd] in *. unfold report_lines in E. eapply reports_inj; eauto.
Qed.

(** ** The words of the entries *)
Lemma reported_ok v scale words scores es : Forall word words -> reported v scale words scores es -> Forall entry_ok es.
Proof.
  intros W [L R]. apply Forall_forall. intros e He. apply In_nth_error in He as [i Hi]. destruct (R i e Hi) as (R1 & (pre & R2) & R3 & _ & _ & R6).
  rewrite Forall_forall in W. constructor.
  - apply W. now apply nth_error_In in R1.
  - split; [intro C; rewrite C in R3; cbn [length] in R3; lia|]. apply Forall_forall. intros h Hh. apply W.
    assert (Hf : In h (firstn (S i) words)) by (rewrite R2; apply in_or_app; now right).
    rewrite <- (firstn_skipn (S i) words). apply in_or_app. now left.
  - symmetry. exact (len2 _ _ _ _ _ R6).
Qed.
Lemma in_base_ok scale (x : option lp) (y : option lp) :
  match x with None => y = None | Some (Fin q) => y = Some (Fin (q / scale)%Qc) | Some z => y = Some z end -> y = option_map (in_base scale) x.
Proof. destruct x as [[q| |]|]; cbn; auto. Qed.
Lemma reported_entries v scale words scores es : length words = S (length scores) -> reported v scale words scores es ->
  tl words = map se_word es /\ map (option_map (in_base scale)) scores = map se_logprob es.
Proof.
  intros L [Le R]. split.
  - apply nth_error_ext. intro i. rewrite nth_error_map. destruct words as [|w words]; [discriminate|]. cbn [tl]. destruct (nth_error es i) as [e|] eqn:E.
    + destruct (R i e E) as (R1 & _). exact R1.
    + cbn [option_map]. apply nth_error_None in E. apply nth_error_None. cbn [length] in L. lia.
  - apply nth_error_ext. intro i. rewrite !nth_error_map. destruct (nth_error es i) as [e|] eqn:E.
    + destruct (R i e E) as (_ & _ & _ & _ & (x & R5 & R5') & _). rewrite R5. cbn [option_map]. now rewrite (in_base_ok _ _ _ R5').
    + apply nth_error_None in E. assert (N : nth_error scores i = None) by (apply nth_error_None; lia). now rewrite N.
Qed.
Lemma first_history v scale words scores e es : reported v scale words scores (e :: es) -> exists first rest, words = first :: rest /\ history_fields e = first.
Proof.
  intros [_ R]. destruct (R 0 e eq_refl) as (_ & (pre & R2) & R3 & R4 & _). destruct words as [|w words].
  - cbn in R2. symmetry in R2. apply app_eq_nil in R2 as [_ C]. rewrite C in R3. discriminate.
  - exists w, words. split; [reflexivity|]. cbn [firstn] in R2. destruct (se_history e) as [|h [|h' hs]] eqn:Eh; try discriminate.
    change [w] with ([] ++ [w]) in R2. apply app_inj_tail in R2 as [_ <-]. unfold history_fields. rewrite Eh. destruct (se_cut e); [exfalso; destruct R4 as [R4 _]; specialize (R4 eq_refl); lia|].
    cbn [app concat]. apply app_nil_r.
Qed.
Lemma found_info v part info :
  match word_to_id v part with
  | None => info = InOOV
  | Some id => id < num_shortlist_words v /\ info = InShortlist \/ num_shortlist_words v <= id /\ info = InOOS
  end -> forall status, found_in v part status <-> status = info.
Proof.
  intros H status. split.
  - intros F. destruct F as [E|id E Hid|id E Hid]; rewrite E in H; [auto| |]; destruct H as [[? ->]|[? ->]]; auto; lia.
  - intros ->. destruct (word_to_id v part) as [id|] eqn:E; [|subst info; now constructor]. destruct H as [[? ->]|[? ->]]; econstructor; eauto.
Qed.
Lemma reported_found v scale words scores es e part info i :
  reported v scale words scores es -> In e es -> nth_error (se_word e) i = Some part -> nth_error (se_info e) i = Some info ->
  forall status, found_in v part status <-> status = info.
Proof.
  intros [_ R] He Hp Hi. apply In_nth_error in He as [j Hj]. destruct (R j e Hj) as (_ & _ & _ & _ & _ & R6). apply found_info.
  revert i Hp Hi. induction R6 as [|p k ps ks H F IH]; intros [|i] Hp Hi; try discriminate; cbn [nth_error] in *.
  - injection Hp as ->. injection Hi as ->. exact H.
  - exact (IH i Hp Hi).
Qed.
Lemma map_word_same es es' : Forall2 same_entry es es' -> map se_word es = map se_word es' /\
  map (fun e => option_map show (se_logprob e)) es = map (fun e => option_map show (se_logprob e)) es'.
Proof. intro F. induction F as [|e e' es es' [H1 H2 _ _] F [IH1 IH2]]; [auto|]. cbn [map]. rewrite H1, H2, IH1, IH2. auto. Qed.

Lemma reported_same v v' scale scale' r r' es es' :
  Forall word (fst (snd r)) -> length (fst (snd r)) = S (length (snd (snd r))) -> length (fst (snd r')) = S (length (snd (snd r'))) -> es <> [] ->
  reported v scale (fst (snd r)) (snd (snd r)) es -> reported v' scale' (fst (snd r')) (snd (snd r')) es' ->
  Forall2 same_entry es es' -> same_sentence show v v' scale scale' r r'.
Proof.
  destruct r as [ids [words scores]], r' as [ids' [words' scores']]. cbn [fst snd]. intros W L L' N R R' F.
  destruct (reported_entries _ _ _ _ _ L R) as [T S]. destruct (reported_entries _ _ _ _ _ L' R') as [T' S'].
  destruct (map_word_same _ _ F) as [M1 M2]. constructor; cbn [fst snd].
  - destruct F as [|e e' es es' H F]; [contradiction|]. destruct (first_history _ _ _ _ _ _ R) as (w & ws & -> & E). destruct (first_history _ _ _ _ _ _ R') as (w' & ws' & -> & E').
    cbn [tl] in T, T'. rewrite T, T', M1. f_equal. rewrite <- E, <- E'. apply (se4 _ _ H).
  - transitivity (map (option_map show) (map (option_map (in_base scale)) scores)).
    { rewrite map_map. apply map_ext. intros [x|]; reflexivity. }
    transitivity (map (option_map show) (map (option_map (in_base scale')) scores')).
    { rewrite S, S', !map_map. exact M2. }
    rewrite map_map. apply map_ext. intros [x|]; reflexivity.
  - intros w part status Hw Hp. rewrite T in Hw. apply in_map_iff in Hw as (e & <- & He). apply In_nth_error in Hp as [i Hi].
    pose proof (reported_ok _ _ _ _ _ W R) as Ok_es. rewrite Forall_forall in Ok_es. specialize (Ok_es e He).
    assert (X : exists info, nth_error (se_info e) i = Some info).
    { destruct (nth_error (se_info e) i) eqn:Ei; [eauto|]. apply nth_error_None in Ei. rewrite (eo_info _ Ok_es) in Ei. apply nth_error_None in Ei. congruence. }
    destruct X as [info Hinfo]. rewrite (reported_found _ _ _ _ _ _ _ _ _ R He Hi Hinfo status).
    assert (X : exists e', In e' es' /\ same_entry e e').
    { clear -F He. induction F as [|x x' es es' H F IH]; [contradiction|]. destruct He as [<-|He]; [exists x'; split; [now left|exact H]|].
      destruct (IH He) as (e' & H1 & H2). exists e'. split; [now right|exact H2]. }
    destruct X as (e' & He' & [X1 _ X3 _]). rewrite X1 in Hi. rewrite X3 in Hinfo. now rewrite (reported_found _ _ _ _ _ _ _ _ _ R' He' Hi Hinfo status).
Qed.
End Entry.

(** ** The words of a text *)
Lemma special_token : token SOS /\ token EOS /\ token UNK.
Proof. repeat split; try discriminate; intros c Hc; repeat (destruct Hc as [<-|Hc]; [reflexivity|]); contradiction. Qed.
Lemma utterance_tokens line u : utterance_of line u -> Forall token u.
Proof.
  intros [l|l toks u' T N F]; [constructor|]. apply tokens_words in T. destruct F as [toks pre post P Q]. destruct special_token as (S1 & S2 & _).
  apply Forall_app. split; [destruct P as [[_ ->]|[_ ->]]; auto|]. apply Forall_app. split; [exact T|destruct Q as [[_ ->]|[_ ->]]; auto].
Qed.
Lemma sequences_tokens ls ss : lines_sequences None ls ss -> Forall (Forall token) (map (map fst) ss).
Proof.
  intro H. induction H as [|line k s lines rest H1 H IH]; [constructor|]. rewrite map_app. apply Forall_app. split; [|exact IH].
  destruct H1 as [line u pieces U ->]. apply utterance_tokens in U. cbn [filter]. destruct (2 <=? length u); cbn [map]; [|constructor].
  constructor; [|constructor]. rewrite map_map. cbn [fst]. now rewrite map_id.
Qed.
Lemma merged_words mark first toks words scores : token first -> Forall token (map fst toks) -> merged mark first toks words scores -> Forall word words.
Proof.
  intros F T M. destruct M as [first toks|first toks gs G|first toks gs kept G K].
  - constructor; [split; [discriminate|auto]|]. apply Forall_forall. intros w Hw. apply in_map_iff in Hw as (x & <- & Hx). rewrite Forall_forall in T. split; [discriminate|]. constructor; [|constructor]. apply T. now apply in_map.
  - constructor; [split; [discriminate|auto]|]. apply Forall_map, Forall_forall. intros g Hg. split.
    + pose proof (aw_nonempty _ _ G g Hg) as N. destruct g; [contradiction|discriminate].
    + rewrite <- (aw_concat _ _ G), concat_map in T. apply Forall_concat_inv in T. rewrite Forall_forall in T. apply T. now apply in_map.
  - constructor; [split; [discriminate|auto]|]. apply Forall_map, Forall_forall. intros g Hg. subst kept. apply filter_In in Hg as [Hg N]. unfold group_word.
    destruct (in_dec pystr_eq_dec UNK (content g)); [split; [discriminate|constructor; [apply special_token|constructor]]|].
    split; [destruct (content g); [discriminate|discriminate]|]. unfold content. apply incl_Forall with (l1 := map fst toks); [|exact T].
    intros t Ht. apply filter_In in Ht as [Ht _]. assert (C : toks = concat gs). { clear -G. induction G as [|g lp rest gs N G IH]; cbn [concat]; [now rewrite app_nil_r|]. rewrite IH, <- app_assoc. reflexivity. }
    rewrite C, concat_map. apply in_concat. exists (map fst g). split; [now apply in_map|exact Ht].
Qed.
Lemma result_words ln f v us eu mark ws r : Forall token ws -> sequence_result ln f v us eu mark ws r ->
  Forall word (fst (snd r)) /\ length (fst (snd r)) = S (length (snd (snd r))).
Proof.
  intros T H. revert T. destruct H as [first rest ids scores mwords mscores I S M]. intro T. cbn [fst snd]. apply Forall_cons_iff in T as [T1 T2]. split; [|now apply merged_lengths in M].
  eapply merged_words; [exact T1| |exact M]. apply Forall_forall. intros t Ht. apply in_map_iff in Ht as ([t' x] & <- & Ht). apply in_combine_l in Ht.
  rewrite Forall_forall in T2. now apply T2.
Qed.

(** ** Two runs *)
Section Runs.
Variable show : lp -> pystr.
Variable pexp : lp -> lp.
Hypothesis plain : forall x, token (show x).

Lemma reports_ok ln f v us eu mark scale wss rs reports : Forall (Forall token) wss ->
  Forall2 (sequence_result ln f v us eu mark) wss rs ->
  Forall2 (fun r rep => reported v scale (fst (snd r)) (snd (snd r)) (fst rep) /\
             snd rep = negative_mean (lsum (known_scores (snd (snd r)))) (number is_known (snd (snd r)))) rs reports ->
  Forall (fun rep => Forall entry_ok (fst rep)) reports /\
  Forall (fun r => Forall word (fst (snd r)) /\ length (fst (snd r)) = S (length (snd (snd r)))) rs.
Proof.
  intros T F. revert reports. induction F as [|ws r wss rs H F IH]; intros reports R; inversion R as [|? rep ? reps R1 R2]; subst; [auto|].
  inversion_clear T as [|? ? T1 T2]. destruct (IH T2 _ R2) as [I1 I2]. pose proof (result_words _ _ _ _ _ _ _ _ T1 H) as [W L].
  split; constructor; auto. eapply reported_ok; [exact W|apply R1].
Qed.

Lemma text_result_shape rs reps x : text_result rs reps = Ok x -> fst x = (totals rs, reps).
Proof. unfold text_result. destruct rs; [|destruct (t_probs _)]; intro E; try discriminate; injection E as <-; reflexivity. Qed.

Lemma report_text_determines
  ln net f v us eu mark base data ls ss ln' net' f' v' us' eu' mark' base' data' ls' ss' :
  reachable_vocab v -> batch_independent v net f -> mark <> Some OtherMarking -> tagged_lines 0 [data] ls -> lines_sequences None ls ss ->
  reachable_vocab v' -> batch_independent v' net' f' -> mark' <> Some OtherMarking -> tagged_lines 0 [data'] ls' -> lines_sequences None ls' ss' ->
  exists rs rs',
    Forall2 (sequence_result ln f v us eu mark) (map (map fst) ss) rs /\ Forall2 (sequence_result ln' f' v' us' eu' mark') (map (map fst) ss') rs' /\
    forall batch_size batch_size', 1 <= batch_size -> 1 <= batch_size' -> exists fuel0, forall fuel fuel' text, fuel0 <= fuel -> fuel0 <= fuel' ->
      score_text_output show pexp ln net v us eu mark true base batch_size fuel data = Ok text ->
      score_text_output show pexp ln' net' v' us' eu' mark' true base' batch_size' fuel' data' = Ok text ->
      Forall2 (same_sentence show v v' (log_scale_of base) (log_scale_of base')) rs rs' /\ counts (totals rs) = counts (totals rs').
Proof.
  intros Hv Hn Hm Hl Hs Hv' Hn' Hm' Hl' Hs'.
  destruct (score_text_reports ln net f v us eu Hv Hn mark (log_scale_of base) data ls ss Hm Hl Hs) as (rs & R & A & B).
  destruct (score_text_reports ln' net' f' v' us' eu' Hv' Hn' mark' (log_scale_of base') data' ls' ss' Hm' Hl' Hs') as (rs' & R' & A' & B').
  exists rs, rs'. split; [exact R|]. split; [exact R'|]. intros b b' Hb Hb'.
  assert (D : forall q : list (list nat * (list (list pystr) * list (option lp))), Forall (fun r => 0 < number is_known (snd (snd r))) q \/ Exists (fun r => number is_known (snd (snd r)) = 0) q).
  { induction q as [|x q [IH|IH]]; [left; constructor| |right; now right]. destruct (number is_known (snd (snd x))) eqn:E; [right; now left|left; constructor; [lia|exact IH]]. }
  destruct (D rs) as [K|Z].
  2:{ destruct (B Z b Hb) as (fuel0 & H). exists fuel0. intros fuel fuel' text Hf _ E. unfold score_text_output in E. rewrite (H fuel Hf) in E. discriminate. }
  destruct (D rs') as [K'|Z'].
  2:{ destruct (B' Z' b' Hb') as (fuel0 & H). exists fuel0. intros fuel fuel' text _ Hf _ E. unfold score_text_output in E. rewrite (H fuel' Hf) in E. discriminate. }
  destruct (A K) as (reps & Rep & Run). destruct (A' K') as (reps' & Rep' & Run'). destruct (Run b Hb) as (f0 & Run0). destruct (Run' b' Hb') as (f0' & Run0').
  exists (f0 + f0'). intros fuel fuel' text Hf Hf' E E'. unfold score_text_output in E, E'. rewrite Run0 in E by lia. rewrite Run0' in E' by lia.
  destruct (text_result rs reps) as [x|e] eqn:X; [|discriminate]. destruct (text_result rs' reps') as [x'|e] eqn:X'; [|discriminate].
  cbn [bind] in E, E'. apply text_result_shape in X. apply text_result_shape in X'.
  destruct x as [[s q] ce], x' as [[s' q'] ce']. cbn [fst] in X, X'. injection X as -> ->. injection X' as -> ->.
  assert (Same : report_text show pexp (totals rs, reps, ce) base = report_text show pexp (totals rs', reps', ce') base').
  { exact (f_equal (fun r : result pystr => match r with Ok y => y | Err _ => [] end) (eq_trans E (eq_sym E'))). }
  destruct (reports_ok _ _ _ _ _ _ _ _ _ _ (sequences_tokens _ _ Hs) R Rep) as [Ok1 Ok2].
  destruct (reports_ok _ _ _ _ _ _ _ _ _ _ (sequences_tokens _ _ Hs') R' Rep') as [Ok1' Ok2'].
  assert (V : Forall (fun rep => Forall entry_ok (fst rep)) (snd (fst (totals rs, reps, ce)))) by exact Ok1.
  assert (V' : Forall (fun rep => Forall entry_ok (fst rep)) (snd (fst (totals rs', reps', ce')))) by exact Ok1'.
  destruct (report_inj show plain pexp _ base _ base' V V' Same) as [S1 S2].
 cbn [fst snd] in S1, S2. split; [|exact S2]. clear -S1 K Ok2 Ok2' Rep Rep' plain.
  revert reps' rs' S1 Rep' Ok2'. induction Rep as [|r rep rs reps [H1 _] Rep IH]; intros reps' rs' S1 Rep' Ok2'.
  - inversion S1; subst. inversion Rep'; subst. constructor.
  - inversion S1 as [|? rep' ? reps2 S1a S1b]; subst. inversion Rep' as [|r' ? rs2 ? [H1' _] Rep2]; subst.
    inversion_clear K as [|? ? K1 K2]. inversion_clear Ok2 as [|? ? [W L] O2]. inversion_clear Ok2' as [|? ? [W' L'] O2'].
    constructor; [|now apply (IH K2 O2 reps2 rs2)]. eapply reported_same; eauto.
    intro C. destruct H1 as [H1 _]. rewrite C in H1. destruct (snd (snd r)); [cbn in K1; lia|discriminate].
Qed.
End Runs.
