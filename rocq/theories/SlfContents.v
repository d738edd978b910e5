(** Reading an SLF file gives the lattice that the file describes. *)
From Coq Require Import QArith Qcanon.
From Verif Require Import Base Strings ListLib BaseLib LatticeModel SlfModel LatticeSpec SlfSpec
     SortProofs GraphProofs SlfProofs.
Local Open Scope nat_scope.

(** ** Fields *)
Lemma pystr_eqb_true a b : pystr_eqb a b = true -> a = b.
Proof. unfold pystr_eqb. destruct (pystr_eq_dec a b); congruence. Qed.

Lemma split_equals_field f n v : split_equals f = Some (n, v) -> is_field f (n, v).
Proof.
  revert n v. induction f as [|c f IH]; intros n v; cbn [split_equals]; [discriminate|].
  destruct (N.eqb_spec c equals) as [->|N].
  - intros E. injection E as <- <-. split; [reflexivity|intros []].
  - destruct (split_equals f) as [[n' v']|]; [|discriminate]. intros E. injection E as <- <-.
    destruct (IH n' v' eq_refl) as [-> H]. split; [reflexivity|]. cbn [fst In] in *.
    intros [->|H']; [now apply N|now apply H].
Qed.

Lemma field_split f n v : is_field f (n, v) -> split_slf_field f = Ok (n, v).
Proof.
  intros [-> H]. cbn [fst snd] in *. unfold split_slf_field.
  replace (split_equals (n ++ str "=" ++ v)) with (Some (n, v)); [reflexivity|].
  induction n as [|c n IH]; [reflexivity|]. cbn [app split_equals].
  destruct (N.eqb_spec c equals) as [->|N]; [exfalso; apply H; now left|].
  rewrite <- IH; [reflexivity|]. intros X. apply H. now right.
Qed.

Lemma split_field f n v : split_slf_field f = Ok (n, v) -> is_field f (n, v).
Proof.
  unfold split_slf_field. destruct (split_equals f) as [[n' v']|] eqn:E; [|discriminate].
  intros X. injection X as <- <-. now apply split_equals_field.
Qed.

Lemma all_values_app names r r' : all_values names (r ++ r') = all_values names r ++ all_values names r'.
Proof. unfold all_values. now rewrite filter_app, map_app. Qed.
Lemma all_values_snoc names r n v :
  all_values names (r ++ [(n, v)]) = all_values names r ++ (if name_in names n then [v] else []).
Proof. rewrite all_values_app. f_equal. unfold all_values. cbn [filter fst]. now destruct (name_in names n). Qed.
Lemma last_value_snoc names r n v :
  last_value names (r ++ [(n, v)]) = if name_in names n then Some v else last_value names r.
Proof.
  unfold last_value. rewrite all_values_snoc. destruct (name_in names n); [now rewrite rev_unit|now rewrite app_nil_r].
Qed.

Lemma shown_word_model w : shown_word w = if is_null_word w then None else Some w.
Proof. destruct w as [|c w]; reflexivity. Qed.

Lemma py_position_spec n z i : py_position n z = Ok i <-> position n z i.
Proof.
  unfold py_position, position. destruct (Z.leb_spec 0 z) as [L|L].
  - destruct (Nat.ltb_spec (Z.to_nat z) n) as [L'|L']; split.
    + intros E. injection E as <-. split; [exact L'|left; lia].
    + intros [H1 H2]. f_equal. lia.
    + discriminate.
    + intros [H1 H2]. exfalso. lia.
  - destruct (Z.leb_spec 0 (z + Z.of_nat n)) as [L'|L']; split.
    + intros E. injection E as <-. split; [lia|right; lia].
    + intros [H1 H2]. f_equal. lia.
    + discriminate.
    + intros [H1 H2]. exfalso. lia.
Qed.

(** Case analysis of a chain of name tests *)
Lemma is_name_cases n a b : (is_name n a b = true /\ (n = a \/ n = b)) \/
  (is_name n a b = false /\ pystr_eqb n a = false /\ pystr_eqb n b = false).
Proof.
  unfold is_name. destruct (pystr_eqb n a) eqn:E1; [left; split; [reflexivity|left; now apply pystr_eqb_true]|].
  destruct (pystr_eqb n b) eqn:E2; [left; split; [reflexivity|right; now apply pystr_eqb_true]|]. now right.
Qed.
Lemma eqb_cases n a : (pystr_eqb n a = true /\ n = a) \/ pystr_eqb n a = false.
Proof. destruct (pystr_eqb n a) eqn:E1; [left; split; [reflexivity|now apply pystr_eqb_true]|now right]. Qed.

Ltac name_lit := repeat match goal with
  | |- context[name_in ?l ?n] => let b := eval vm_compute in (name_in l n) in
        match b with true => change (name_in l n) with true | false => change (name_in l n) with false end; cbv iota
  end.
Ltac name_test E :=
  match type of E with
  | (if is_name ?n ?a ?b then _ else _) = _ =>
      let H := fresh "T" in let H1 := fresh "T" in let H2 := fresh "T" in
      destruct (is_name_cases n a b) as [[H [H1|H1]]|(H & H1 & H2)]; rewrite H in E; [subst n; clear H|subst n; clear H|clear H]
  | (if pystr_eqb ?n ?a then _ else _) = _ =>
      let H := fresh "T" in let H1 := fresh "T" in
      destruct (eqb_cases n a) as [[H H1]|H]; rewrite H in E; [subst n; clear H|]
  end.
Ltac name_off := unfold name_in; cbn [existsb N_UTTERANCE N_SUBLAT N_BASE N_LMSCALE N_WDPENALTY N_INITIAL N_FINAL
  N_NODES N_LINKS N_TIME N_WORD N_START N_END N_AC N_LM];
  repeat match goal with H : pystr_eqb _ _ = false |- _ => rewrite H end; cbn [orb].

Section Contents.
Variable parse_int : pystr -> result Z.
Variable parse_float : pystr -> result Qc.
Variable nlog : Qc -> Qc.

(** ** The header *)
Definition scale_of (s : log_base) : option Qc :=
  match s with Natural => Some 1%Qc | Linear => None | Base b => Some (nlog b) end.

Record hinv (r : row) (h : slf_header) : Prop := {
  hi_utt : h_utterance h = last_value N_UTTERANCE r;
  hi_sub : all_values N_SUBLAT r = [];
  hi_base : exists s, base_of parse_float (last_value N_BASE r) s /\ h_log_scale h = scale_of s;
  hi_lm : means parse_float (last_value N_LMSCALE r) (h_lm_scale h);
  hi_wi : means parse_float (last_value N_WDPENALTY r) (h_wi_penalty h);
  hi_start : means parse_int (last_value N_INITIAL r) (h_start h);
  hi_end : Forall2 (fun v z => parse_int v = Ok z) (all_values N_FINAL r) (h_end h);
  hi_nodes : means parse_int (last_value N_NODES r) (h_num_nodes h);
  hi_links : means parse_int (last_value N_LINKS r) (h_num_links h)
}.

Lemma hinv_empty : hinv [] empty_header.
Proof. constructor; try reflexivity; try constructor. exists Natural. split; reflexivity. Qed.

Lemma header_field_inv r h f h' : hinv r h -> read_header_field parse_int parse_float nlog h f = Ok h' ->
  exists nv, is_field f nv /\ hinv (r ++ [nv]) h'.
Proof.
  intros [I1 I2 I3 I4 I5 I6 I7 I8 I9] E. unfold read_header_field in E.
  destruct (split_slf_field f) as [[n v]|] eqn:Ef; [|discriminate]. cbn [bind] in E.
  exists (n, v). split; [now apply split_field|].
  Ltac fin := split; rewrite ?last_value_snoc, ?all_values_snoc; name_lit;
    cbn [h_utterance h_log_scale h_lm_scale h_wi_penalty h_start h_end h_num_nodes h_num_links];
    rewrite ?app_nil_r; try assumption; try reflexivity.
  name_test E; [injection E as <-; fin|injection E as <-; fin|].
  name_test E; [discriminate|discriminate|].
  name_test E.
  { destruct (parse_float v) as [b|] eqn:Ev; [|discriminate]. cbn [bind] in E.
    destruct (Qc_eq_dec b 0%Qc) as [Hb|Hb]; injection E as <-; fin.
    - exists Linear. split; [|reflexivity]. exists b. auto.
    - exists (Base b). split; [|reflexivity]. exists b. auto. }
  name_test E; [destruct (parse_float v) as [b|] eqn:Ev; [|discriminate]; injection E as <-; fin|].
  name_test E; [destruct (parse_float v) as [b|] eqn:Ev; [|discriminate]; injection E as <-; fin|].
  name_test E; [destruct (parse_int v) as [b|] eqn:Ev; [|discriminate]; injection E as <-; fin|].
  name_test E; [destruct (parse_int v) as [b|] eqn:Ev; [|discriminate]; injection E as <-; fin|].
  { apply Forall2_app; [assumption|]. constructor; [assumption|constructor]. }
  name_test E; [destruct (parse_int v) as [b|] eqn:Ev; [|discriminate]; injection E as <-; fin
               |destruct (parse_int v) as [b|] eqn:Ev; [|discriminate]; injection E as <-; fin|].
  name_test E; [destruct (parse_int v) as [b|] eqn:Ev; [|discriminate]; injection E as <-; fin
               |destruct (parse_int v) as [b|] eqn:Ev; [|discriminate]; injection E as <-; fin|].
  injection E as <-. split; rewrite ?last_value_snoc, ?all_values_snoc; name_off; rewrite ?app_nil_r; assumption.
Qed.

Lemma header_fields_inv fields : forall r h h', hinv r h ->
  foldM (read_header_field parse_int parse_float nlog) fields h = Ok h' ->
  exists r', Forall2 is_field fields r' /\ hinv (r ++ r') h'.
Proof.
  induction fields as [|f fields IH]; intros r h h' I E; cbn [foldM] in E.
  - injection E as <-. exists []. rewrite app_nil_r. split; [constructor|exact I].
  - destruct (read_header_field parse_int parse_float nlog h f) as [h1|] eqn:E1; [|discriminate]. cbn [bind] in E.
    destruct (header_field_inv _ _ _ _ I E1) as (nv & F & I1).
    destruct (IH _ _ _ I1 E) as (r' & F' & I'). exists (nv :: r'). split; [now constructor|].
    now rewrite <- app_assoc in I'.
Qed.

Lemma hinv_size r h : hinv r h -> (has_size r <-> h_num_nodes h <> None /\ h_num_links h <> None).
Proof.
  intros [_ _ _ _ _ _ _ I8 I9]. unfold has_size. unfold means in I8, I9.
  destruct (last_value N_NODES r), (h_num_nodes h), (last_value N_LINKS r), (h_num_links h); intuition congruence.
Qed.

Lemma read_header_inv lines : forall hlines rows h0 h n l body,
  Forall2 line_row hlines rows -> hinv (concat rows) h0 ->
  (forall k, ~ has_size (concat (firstn k rows))) ->
  read_header parse_int parse_float nlog h0 lines = Ok (h, n, l, body) ->
  exists r, header_of (hlines ++ lines) r body /\ hinv r h /\ h_num_nodes h = Some n /\ h_num_links h = Some l.
Proof.
  induction lines as [|line lines IH]; intros hlines rows h0 h n l body F I M E; cbn [read_header] in E; [discriminate|].
  destruct (split_slf_line line) as [fields|] eqn:Ef; [|discriminate]. cbn [bind] in E.
  destruct (foldM (read_header_field parse_int parse_float nlog) fields h0) as [h1|] eqn:E1; [|discriminate]. cbn [bind] in E.
  destruct (header_fields_inv _ _ _ _ I E1) as (r' & F' & I').
  assert (LR : line_row line r') by (econstructor; eassumption).
  destruct (h_num_nodes h1) as [n1|] eqn:En; [destruct (h_num_links h1) as [l1|] eqn:El|].
  - injection E as <- <- <- <-. exists (concat rows ++ r'). split; [|auto]. split.
    + exists hlines, line, rows, r'. auto.
    + apply (hinv_size _ _ I'). rewrite En, El. split; discriminate.
  - destruct (IH (hlines ++ [line]) (rows ++ [r']) h1 h n l body) as (r & H1 & H2).
    + apply Forall2_app; [exact F|]. constructor; [exact LR|constructor].
    + rewrite concat_app. cbn [concat]. now rewrite app_nil_r.
    + intros k. rewrite firstn_app, concat_app. destruct (k - length rows) as [|k'] eqn:Ek.
      * cbn [firstn concat]. rewrite app_nil_r. apply M.
      * rewrite firstn_all2 by lia. replace (firstn (S k') [r']) with [r'] by (destruct k'; reflexivity).
        cbn [concat]. rewrite app_nil_r, (hinv_size _ _ I'), El. tauto.
    + exact E.
    + exists r. rewrite <- app_assoc in H1. auto.
  - destruct (IH (hlines ++ [line]) (rows ++ [r']) h1 h n l body) as (r & H1 & H2).
    + apply Forall2_app; [exact F|]. constructor; [exact LR|constructor].
    + rewrite concat_app. cbn [concat]. now rewrite app_nil_r.
    + intros k. rewrite firstn_app, concat_app. destruct (k - length rows) as [|k'] eqn:Ek.
      * cbn [firstn concat]. rewrite app_nil_r. apply M.
      * rewrite firstn_all2 by lia. replace (firstn (S k') [r']) with [r'] by (destruct k'; reflexivity).
        cbn [concat]. rewrite app_nil_r, (hinv_size _ _ I'), En. tauto.
    + exact E.
    + exists r. rewrite <- app_assoc in H1. auto.
Qed.

(** ** Nodes *)
Lemma last_value_app names r r' :
  last_value names (r ++ r') = match last_value names r' with Some v => Some v | None => last_value names r end.
Proof.
  unfold last_value. rewrite all_values_app, rev_app_distr. now destruct (rev (all_values names r')).
Qed.
Lemma last_value_nil names : last_value names [] = None.
Proof. reflexivity. Qed.

Lemma node_fields_inv R w0 fields : forall r x x', 
  means parse_float (last_value N_TIME (R ++ r)) (fst x) ->
  snd x = match last_value N_WORD r with Some v => Some (Some v) | None => w0 end ->
  foldM (read_node_field parse_float) fields x = Ok x' ->
  exists r', Forall2 is_field fields r' /\
    means parse_float (last_value N_TIME (R ++ r ++ r')) (fst x') /\
    snd x' = match last_value N_WORD (r ++ r') with Some v => Some (Some v) | None => w0 end.
Proof.
  induction fields as [|f fields IH]; intros r x x' I1 I2 E; cbn [foldM] in E.
  - injection E as <-. exists []. rewrite app_nil_r. split; [constructor|auto].
  - destruct (read_node_field parse_float x f) as [x1|] eqn:E1; [|discriminate]. cbn [bind] in E.
    assert (X : exists nv, is_field f nv /\ means parse_float (last_value N_TIME (R ++ r ++ [nv])) (fst x1) /\
              snd x1 = match last_value N_WORD (r ++ [nv]) with Some v => Some (Some v) | None => w0 end).
    { unfold read_node_field in E1. destruct (split_slf_field f) as [[n v]|] eqn:Ef; [|discriminate]. cbn [bind] in E1.
      exists (n, v). split; [now apply split_field|]. rewrite app_assoc, !last_value_snoc.
      name_test E1.
      1, 2: destruct (parse_float v) as [t|] eqn:Ev; [|discriminate]; injection E1 as <-; name_lit; cbn [fst snd]; auto.
      name_test E1.
      1, 2: injection E1 as <-; name_lit; cbn [fst snd]; auto.
      injection E1 as <-. name_off. auto. }
    destruct X as (nv & F & J1 & J2).
    destruct (IH _ _ _ J1 J2 E) as (r' & F' & K). rewrite <- app_assoc in K. exists (nv :: r'). split; [now constructor|exact K].
Qed.

(** ** Links *)
Definition linv (s : log_base) (n : nat) (r : row) (x : link_fields) : Prop :=
  match last_value N_START r with
  | Some v => exists z i, parse_int v = Ok z /\ position n z i /\ f_start x = Some i
  | None => f_start x = None
  end /\
  match last_value N_END r with
  | Some v => exists z i, parse_int v = Ok z /\ position n z i /\ f_end x = Some i
  | None => f_end x = None
  end /\
  f_word x = last_value N_WORD r /\
  score parse_float nlog s (last_value N_AC r) (f_ac x) /\
  score parse_float nlog s (last_value N_LM r) (f_lm x).

Lemma read_logprob_score s v p : read_logprob parse_float nlog (scale_of s) v = Ok p ->
  score parse_float nlog s (Some v) (Some p).
Proof.
  unfold read_logprob. destruct (parse_float v) as [x|] eqn:E; [|discriminate]. cbn [bind]. intros X. injection X as <-.
  exists (Some x). split; [exact E|]. cbn [option_map]. f_equal. destruct s; cbn [scale_of to_natural]; try reflexivity.
  now rewrite Qcmult_1_r.
Qed.

Lemma link_fields_inv s n fields : forall r x x', linv s n r x ->
  foldM (read_link_field parse_int parse_float nlog (scale_of s) n) fields x = Ok x' ->
  exists r', Forall2 is_field fields r' /\ linv s n (r ++ r') x'.
Proof.
  induction fields as [|f fields IH]; intros r x x' I E; cbn [foldM] in E.
  - injection E as <-. exists []. rewrite app_nil_r. split; [constructor|exact I].
  - destruct (read_link_field parse_int parse_float nlog (scale_of s) n x f) as [x1|] eqn:E1; [|discriminate]. cbn [bind] in E.
    assert (X : exists nv, is_field f nv /\ linv s n (r ++ [nv]) x1).
    { unfold read_link_field in E1. destruct (split_slf_field f) as [[nm v]|] eqn:Ef; [|discriminate]. cbn [bind] in E1.
      exists (nm, v). split; [now apply split_field|]. unfold linv in *. rewrite !last_value_snoc.
      destruct I as (I1 & I2 & I3 & I4 & I5).
      name_test E1.
      1, 2: destruct (parse_int v) as [z|] eqn:Ev; [|discriminate]; cbn [bind] in E1;
        destruct (py_position n z) as [i|] eqn:Ep; [|discriminate]; injection E1 as <-; name_lit;
        cbn [f_start f_end f_word f_ac f_lm]; apply py_position_spec in Ep; split; [exists z, i; auto|auto].
      name_test E1.
      1, 2: destruct (parse_int v) as [z|] eqn:Ev; [|discriminate]; cbn [bind] in E1;
        destruct (py_position n z) as [i|] eqn:Ep; [|discriminate]; injection E1 as <-; name_lit;
        cbn [f_start f_end f_word f_ac f_lm]; apply py_position_spec in Ep; split; [auto|split; [exists z, i; auto|auto]].
      name_test E1.
      1, 2: injection E1 as <-; name_lit; cbn [f_start f_end f_word f_ac f_lm]; auto.
      name_test E1.
      1, 2: destruct (read_logprob parse_float nlog (scale_of s) v) as [p|] eqn:Ev; [|discriminate];
        apply read_logprob_score in Ev; injection E1 as <-; name_lit; cbn [f_start f_end f_word f_ac f_lm]; auto.
      name_test E1.
      1, 2: destruct (read_logprob parse_float nlog (scale_of s) v) as [p|] eqn:Ev; [|discriminate];
        apply read_logprob_score in Ev; injection E1 as <-; name_lit; cbn [f_start f_end f_word f_ac f_lm]; auto.
      injection E1 as <-. name_off. auto. }
    destruct X as (nv & F & J).
    destruct (IH _ _ _ J E) as (r' & F' & K). rewrite <- app_assoc in K. exists (nv :: r'). split; [now constructor|exact K].
Qed.

Lemma linv_init s n : linv s n [] (mkFields None None None None None).
Proof. repeat split; exists None; split; reflexivity. Qed.

(** ** The body *)
Lemma node_row_snoc es e i :
  node_row (es ++ [e]) i = node_row es i ++ match e with ENode j r => if j =? i then r else [] | _ => [] end.
Proof. unfold node_row. rewrite map_app, concat_app. cbn [map concat]. now rewrite app_nil_r. Qed.
Lemma link_rows_snoc es e : link_rows (es ++ [e]) = link_rows es ++ match e with ELink r => [r] | _ => [] end.
Proof. unfold link_rows. rewrite map_app, concat_app. cbn [map concat]. now rewrite app_nil_r. Qed.

Record binv (s : log_base) (n : nat) (es : list entry) (st : slf_state) : Prop := {
  bi_ok : st_ok n st;
  bi_time : forall i nd, nth_error (g_nodes st) i = Some nd ->
            means parse_float (last_value N_TIME (node_row es i)) (n_time nd);
  bi_words : forall i, i < n -> nth_error (g_node_words st) i
                                = Some (option_map shown_word (last_value N_WORD (node_row es i)));
  bi_links : Forall2 (row_link parse_int parse_float nlog s n) (link_rows es) (g_links st)
}.

Lemma binv_init s n : binv s n [] (mkSlf (repeat new_node n) [] (repeat None n)).
Proof.
  split; cbn [g_nodes g_links g_node_words].
  - apply st_ok_init.
  - intros i nd H. apply nth_error_In, repeat_spec in H. subst nd. exact I.
  - intros i Hi. now apply nth_error_repeat.
  - constructor.
Qed.

Lemma binv_other s n es st : binv s n es st -> binv s n (es ++ [EOther]) st.
Proof.
  intros [H1 H2 H3 H4]. split; [exact H1|..].
  - intros i nd Hn. rewrite node_row_snoc, app_nil_r. now apply H2.
  - intros i Hi. rewrite node_row_snoc, app_nil_r. now apply H3.
  - rewrite link_rows_snoc, app_nil_r. exact H4.
Qed.

Lemma read_node_inv s n es st z fields st' : binv s n es st ->
  read_node parse_float st z fields = Ok st' ->
  exists i r, position n z i /\ Forall2 is_field fields r /\ binv s n (es ++ [ENode i r]) st'.
Proof.
  intros [H1 H2 H3 H4] E. pose proof (read_node_ok _ _ _ _ _ _ H1 E) as H1'.
  pose proof H1 as (G & L1 & L2 & F).
  unfold read_node in E.
  destruct (py_position (length (g_nodes st)) z) as [p|] eqn:Ep; [|discriminate]. cbn [bind] in E.
  rewrite L1 in Ep. apply py_position_spec in Ep. assert (Lp : p < n) by apply Ep.
  unfold py_index at 1 in E. destruct (nth_error (g_nodes st) p) as [nd|] eqn:En; [|discriminate]. cbn [bind] in E.
  unfold py_index in E. rewrite (H3 _ Lp) in E. cbn [bind] in E.
  destruct (foldM (read_node_field parse_float) fields _) as [[t w]|] eqn:Ef; [|discriminate]. cbn [bind] in E.
  destruct (node_fields_inv (node_row es p) (option_map shown_word (last_value N_WORD (node_row es p))) fields []
              (n_time nd, option_map shown_word (last_value N_WORD (node_row es p))) (t, w)
              ltac:(rewrite app_nil_r; cbn [fst]; exact (H2 _ _ En)) eq_refl Ef) as (r & Fr & K1 & K2).
  cbn [app fst snd] in K1, K2. exists p, r. split; [exact Ep|]. split; [exact Fr|].
  match type of E with (do w <- ?X; _) = _ => destruct X as [w2|] eqn:Ew end; [|discriminate]. cbn [bind] in E.
  injection E as <-. split; cbn [g_nodes g_links g_node_words].
  - exact H1'.
  - intros i x. rewrite nth_error_upd, node_row_snoc, L1. destruct (Nat.eqb_spec i p) as [->|Ne].
    + rewrite (proj2 (Nat.ltb_lt _ _) Lp), Nat.eqb_refl. intros X. injection X as <-. exact K1.
    + intros X. rewrite (proj2 (Nat.eqb_neq p i)) by congruence. rewrite app_nil_r. now apply H2.
  - intros i Hi. rewrite nth_error_upd, node_row_snoc, L2. destruct (Nat.eqb_spec i p) as [->|Ne].
    + rewrite (proj2 (Nat.ltb_lt _ _) Lp), Nat.eqb_refl, last_value_app. f_equal. subst w.
      destruct (last_value N_WORD r) as [v|].
      * injection Ew as <-. cbn [option_map]. now rewrite shown_word_model.
      * destruct (last_value N_WORD (node_row es p)) as [v|]; cbn [option_map] in *; [|now injection Ew as <-].
        destruct (shown_word v) as [v'|] eqn:Ev; [|discriminate]. injection Ew as <-.
        rewrite shown_word_model in Ev. destruct (is_null_word v) eqn:En'; [discriminate|]. injection Ev as <-. now rewrite En'.
    + rewrite (proj2 (Nat.eqb_neq p i)) by congruence. rewrite app_nil_r. now apply H3.
  - rewrite link_rows_snoc, app_nil_r. exact H4.
Qed.

Lemma read_link_inv s n es st fields st' : binv s n es st ->
  read_link parse_int parse_float nlog (scale_of s) st fields = Ok st' ->
  exists r, Forall2 is_field fields r /\ binv s n (es ++ [ELink r]) st'.
Proof.
  intros [H1 H2 H3 H4] E. pose proof (read_link_ok _ _ _ _ _ _ _ _ H1 E) as H1'.
  pose proof H1 as (G & L1 & L2 & F).
  unfold read_link in E. rewrite L1 in E.
  destruct (foldM _ fields _) as [x|] eqn:Ef; [|discriminate]. cbn [bind] in E.
  destruct (link_fields_inv _ _ _ _ _ _ (linv_init s n) Ef) as (r & Fr & I1 & I2 & I3 & I4 & I5). cbn [app] in *.
  exists r. split; [exact Fr|].
  destruct (f_start x) as [a|] eqn:Es; [|discriminate]. destruct (f_end x) as [b|] eqn:Ee; [|discriminate].
  match type of E with context[add_link _ ?l] => set (lk := l) in * end.
  pose proof (nth_add_link (g_nodes st) (g_links st) lk) as N'.
  assert (Els : snd (add_link (g_nodes st, g_links st) lk) = g_links st ++ [lk]) by reflexivity.
  destruct (add_link (g_nodes st, g_links st) lk) as [ns ls]. cbn [fst snd] in *. subst ls.
  injection E as <-. split; cbn [g_nodes g_links g_node_words].
  - exact H1'.
  - intros i nd Hn. rewrite node_row_snoc, app_nil_r. rewrite N' in Hn.
    destruct (nth_error (g_nodes st) i) as [nd'|] eqn:Ei; [|discriminate]. injection Hn as <-. cbn [n_time]. now apply H2.
  - intros i Hi. rewrite node_row_snoc, app_nil_r. now apply H3.
  - rewrite link_rows_snoc. apply Forall2_app; [exact H4|]. constructor; [|constructor]. unfold lk.
    split; cbn [k_start k_end k_word k_ac k_lm k_transitions].
    + destruct (last_value N_START r) as [v|]; [|discriminate]. destruct I1 as (z & i & P1 & P2 & P3). exists z.
      split; [exact P1|]. congruence.
    + destruct (last_value N_END r) as [v|]; [|discriminate]. destruct I2 as (z & i & P1 & P2 & P3). exists z.
      split; [exact P1|]. congruence.
    + rewrite I3. destruct (last_value N_WORD r) as [w|]; [now rewrite shown_word_model|reflexivity].
    + exact I4.
    + exact I5.
    + reflexivity.
Qed.

Lemma read_line_inv s n es st line st' : binv s n es st ->
  read_body_line parse_int parse_float nlog (scale_of s) st line = Ok st' ->
  exists e, line_entry parse_int n line e /\ binv s n (es ++ [e]) st'.
Proof.
  intros B E. unfold read_body_line in E. destruct (split_slf_line line) as [[|f fs]|] eqn:El; [..|discriminate]; cbn [bind] in E.
  { injection E as <-. exists EOther. split; [now constructor|now apply binv_other]. }
  destruct (split_slf_field f) as [[nm v]|] eqn:Ef; [|discriminate]. cbn [bind] in E. apply split_field in Ef.
  name_test E.
  { destruct (parse_int v) as [z|] eqn:Ev; [|discriminate]. cbn [bind] in E.
    destruct (read_node_inv _ _ _ _ _ _ _ B E) as (i & r & P & Fr & B'). exists (ENode i r).
    split; [now apply (le_node _ _ _ f fs v z)|exact B']. }
  name_test E.
  { destruct (parse_int v) as [z|] eqn:Ev; [|discriminate]. cbn [bind] in E.
    destruct (read_link_inv _ _ _ _ _ _ B E) as (r & Fr & B'). exists (ELink r).
    split; [now apply (le_link _ _ _ f fs v z)|exact B']. }
  injection E as <-. exists EOther. split; [|now apply binv_other].
  apply (le_other _ _ _ f fs _ El Ef). cbn [fst In]. intros [<-|[<-|[]]]; vm_compute in T, T0; discriminate.
Qed.

Lemma read_lines_inv s n lines : forall es st st', binv s n es st ->
  foldM (read_body_line parse_int parse_float nlog (scale_of s)) lines st = Ok st' ->
  exists es', Forall2 (line_entry parse_int n) lines es' /\ binv s n (es ++ es') st'.
Proof.
  induction lines as [|l lines IH]; intros es st st' B E; cbn [foldM] in E.
  - injection E as <-. exists []. rewrite app_nil_r. split; [constructor|exact B].
  - destruct (read_body_line parse_int parse_float nlog (scale_of s) st l) as [st1|] eqn:E1; [|discriminate]. cbn [bind] in E.
    destruct (read_line_inv _ _ _ _ _ _ B E1) as (e & Le & B1).
    destruct (IH _ _ _ B1 E) as (es' & F & B'). rewrite <- app_assoc in B'. exists (e :: es'). split; [now constructor|exact B'].
Qed.

(** ** The lattice *)
Lemma find_initial_first ns : forall i r, find_initial i ns = Ok r ->
  exists k n, r = i + k /\ nth_error ns k = Some n /\ n_in n = [] /\
    forall j m, j < k -> nth_error ns j = Some m -> n_in m <> [].
Proof.
  induction ns as [|n ns IH]; intros i r E; cbn [find_initial] in E; [discriminate|].
  destruct (n_in n) as [|x xs] eqn:En.
  - injection E as <-. exists 0, n. repeat split; [lia|exact En|lia].
  - destruct (IH _ _ E) as (k & m & -> & H1 & H2 & H3). exists (S k), m. repeat split; [lia|exact H1|exact H2|].
    intros [|j] m' Hj Hm; cbn [nth_error] in Hm; [injection Hm as <-; congruence|]. apply (H3 j); [lia|exact Hm].
Qed.

Lemma reachable_ext a b v : a_initial a = a_initial b -> (forall u w, edge a u w <-> edge b u w) ->
  (reachable_node a v <-> reachable_node b v).
Proof.
  intros Hi He. assert (W : forall x y u w, (forall u w, edge x u w -> edge y u w) -> walk x u w -> walk y u w).
  { intros x y u w H Hw. induction Hw as [u w H1|u w z H1 _ IH]; [exact (walk_edge _ _ _ (H _ _ H1))|exact (walk_step _ _ _ _ (H _ _ H1) IH)]. }
  unfold reachable_node. rewrite Hi. split; (intros [->|H]; [now left|right]); revert H; apply W; intros; now apply He.
Qed.

Theorem read_contents lines a :
  read_slf_lines parse_int parse_float nlog lines = Ok a -> slf_contents parse_int parse_float nlog lines a.
Proof.
  unfold read_slf_lines. intros E.
  destruct (read_header _ _ _ _ lines) as [ [ [ [h nn] nl] rest]|] eqn:Eh; cbn [bind] in E; [|discriminate].
  destruct (read_header_inv lines [] [] _ _ _ _ _ (Forall2_nil _) hinv_empty
              ltac:(intros k; rewrite firstn_nil; intros [X _]; now apply X) Eh)
    as (r & HO & HI & Hn & Hl). cbn [app] in HO.
  destruct (hi_base _ _ HI) as (s & Hs & Es). rewrite Es in E.
  destruct (foldM _ rest _) as [st|] eqn:Eb; cbn [bind] in E; [|discriminate].
  destruct (read_lines_inv s _ _ [] _ _ (binv_init s (Z.to_nat nn)) Eb) as (es & Fe & [B1 B2 B3 B4]). cbn [app] in *.
  pose proof B1 as (G & L1 & L2 & F).
  destruct (Z.eqb_spec (Z.of_nat (length (g_links st))) nl) as [El|]; [|discriminate].
  match type of E with (do initial <- ?r; _) = _ => destruct r as [ini|] eqn:Ei end; cbn [bind] in E; [|discriminate].
  assert (Hi : ini < length (g_nodes st)).
  { destruct (h_start h); [now apply py_position_range in Ei|]. apply find_initial_range in Ei. lia. }
  destruct (Nat.eqb_spec (length (filter n_final (mark_final (h_end h) (g_nodes st)))) 1) as [E1|]; [|discriminate].
  destruct (mark_final_maps (h_end h) (g_nodes st)) as [M1 M2].
  pose proof (mark_final_length (h_end h) (g_nodes st)) as ML.
  pose proof (mark_final_nth (h_end h) (g_nodes st)) as MN.
  set (ns := mark_final (h_end h) (g_nodes st)) in *.
  assert (G2 : graph_ok ns (g_links st)).
  { refine (graph_same (g_nodes st) _ _ _ _ _ eq_refl eq_refl G); now symmetry. }
  destruct (nth_error ns ini) as [nd|] eqn:En; [|apply nth_error_None in En; lia].
  unfold py_index at 1 in E. rewrite En in E. cbn [bind] in E.
  destruct (move_words_ok ns (g_links st) (g_node_words st) ini G2 ltac:(lia) ltac:(congruence) nd En)
    as [(ls' & Em & Ll & Hr & Hw)|[Em _]]; rewrite Em in E; cbn [bind] in E; [|discriminate].
  injection E as <-.
  assert (Ends : map k_start ls' = map k_start (g_links st) /\ map k_end ls' = map k_end (g_links st)).
  { split; apply nth_error_ext; intros k; rewrite !nth_error_map; destruct (nth_error (g_links st) k) as [l|] eqn:Ek.
    1, 3: destruct (Hw k l Ek) as [-> | ->]; [|reflexivity]; cbn; now rewrite ?(proj1 (moved_end _ l)), ?(proj2 (moved_end _ l)).
    1, 2: assert (X : nth_error ls' k = None) by (apply nth_error_None; apply nth_error_None in Ek; lia); now rewrite X. }
  destruct Ends as [Es1 Es2].
  assert (Edge : forall u w, edge (mkLattice ns ls' ini (h_utterance h) (h_lm_scale h)
       (match h_wi_penalty h with None => None
        | Some x => Some (match scale_of s with None => nlog x | Some s0 => (x * s0)%Qc end) end)) u w
      <-> edge (mkLattice ns (g_links st) ini None None None) u w).
  { intros u w. unfold edge. cbn [a_links]. split; intros (l & Hl1 & <- & <-); apply In_nth_error in Hl1; destruct Hl1 as [k Hk].
    - pose proof (f_equal (fun x => nth_error x k) Es1) as Y1. pose proof (f_equal (fun x => nth_error x k) Es2) as Y2. cbv beta in Y1, Y2.
      rewrite !nth_error_map, Hk in Y1, Y2. destruct (nth_error (g_links st) k) as [l2|] eqn:Ek; [|discriminate].
      cbn [option_map] in Y1, Y2. exists l2. split; [now apply nth_error_In in Ek|]. split; congruence.
    - pose proof (f_equal (fun x => nth_error x k) Es1) as Y1. pose proof (f_equal (fun x => nth_error x k) Es2) as Y2. cbv beta in Y1, Y2.
      rewrite !nth_error_map, Hk in Y1, Y2. destruct (nth_error ls' k) as [l2|] eqn:Ek; [|discriminate].
      cbn [option_map] in Y1, Y2. exists l2. split; [now apply nth_error_In in Ek|]. split; congruence. }
  exists r, rest, es, s, (g_links st). cbn [a_nodes a_links a_initial a_utterance a_lm_scale a_wi_penalty].
  rewrite ML, L1, Ll.
  split; [exact HO|]. split; [exact Hs|]. split; [exact (hi_sub _ _ HI)|].
  split; [exists nn; split; [rewrite <- Hn; exact (hi_nodes _ _ HI)|reflexivity]|].
  split; [rewrite El, <- Hl; exact (hi_links _ _ HI)|].
  split; [exact (hi_utt _ _ HI)|]. split; [exact (hi_lm _ _ HI)|].
  split.
  { exists (h_wi_penalty h). split; [exact (hi_wi _ _ HI)|]. destruct (h_wi_penalty h) as [x|]; [|reflexivity].
    cbn [option_map]. f_equal. destruct s; cbn [scale_of to_natural]; try reflexivity. now rewrite Qcmult_1_r. }
  split.
  { pose proof (hi_start _ _ HI) as HS. unfold means in HS.
    destruct (last_value N_INITIAL r) as [v|], (h_start h) as [z|]; try contradiction.
    - exists z. split; [exact HS|]. rewrite L1 in Ei. now apply py_position_spec.
    - destruct (find_initial_first _ _ _ Ei) as (k & m & -> & X1 & X2 & X3). cbn [plus].
      assert (Lt : forall i, links_to ls' i = links_to (g_links st) i) by (intros i; now apply links_to_same).
      split; [rewrite <- L1; exact Hi|]. rewrite Lt. split.
      + rewrite <- (go_in _ _ G _ _ X1). exact X2.
      + intros j Hj. rewrite Lt. destruct (nth_error (g_nodes st) j) as [m'|] eqn:Ej.
        * rewrite <- (go_in _ _ G _ _ Ej). now apply (X3 j).
        * apply nth_error_None in Ej. cbn [plus] in *. lia. }
  split.
  { intros i n Hi2. rewrite MN in Hi2. destruct (nth_error (g_nodes st) i) as [n0|] eqn:Eg; [|discriminate].
    injection Hi2 as <-. cbn [n_time n_final]. split; [now apply B2|].
    rewrite (F n0 (nth_error_In _ _ Eg)). cbn [orb]. unfold is_final.
    rewrite (links_from_same ls' (g_links st) i Es1), <- (go_out _ _ G _ _ Eg).
    rewrite orb_true_iff, Nat.eqb_eq, existsb_exists, length_zero_iff_nil.
    pose proof (hi_end _ _ HI) as HE. split.
    - intros [(z & Hz & Ez)|X]; [right|now left]. apply Z.eqb_eq in Ez. subst z.
      clear - HE Hz. induction HE as [|v z vs zs Hv _ IH]; [destruct Hz|]. destruct Hz as [->|Hz].
      + exists v. split; [now left|exact Hv].
      + destruct (IH Hz) as (v' & I1 & I2). exists v'. split; [now right|exact I2].
    - intros [X|(v & Hv & Ev)]; [now right|left]. exists (Z.of_nat i). split; [|apply Z.eqb_refl].
      clear - HE Hv Ev. induction HE as [|v' z vs zs Hv' _ IH]; [destruct Hv|]. destruct Hv as [->|Hv].
      + left. congruence.
      + right. now apply IH. }
  split; [exact Fe|]. split; [exact B4|].
  assert (Key : forall k l, nth_error (g_links st) k = Some l -> exists l', nth_error ls' k = Some l' /\
    (reachable_node (mkLattice ns (g_links st) ini None None None) (k_start l) ->
       node_word_link (last_value N_WORD (node_row es (k_end l))) l l') /\
    (~ reachable_node (mkLattice ns (g_links st) ini None None None) (k_start l) -> l' = l)).
  { intros k l Hk. destruct (nth_error ls' k) as [l'|] eqn:Ek; [|apply nth_error_None in Ek; assert (k < length (g_links st)) by (apply nth_error_Some; congruence); lia].
    exists l'. split; [reflexivity|]. destruct (Hr k l Hk) as [R1 R2].
    pose proof (nth_error_In _ _ Hk) as HIn. destruct (go_range _ _ G l HIn) as [_ Re]. rewrite L1 in Re.
    split; intros X.
    - destruct (R1 X) as [Y1 Y2]. rewrite Ek in Y1. injection Y1 as ->.
      unfold moved, clash in *. rewrite (B3 _ Re) in Y2 |- *. unfold node_word_link.
      destruct (last_value N_WORD (node_row es (k_end l))) as [w|]; cbn [option_map]; [|reflexivity].
      split; [|reflexivity]. destruct (k_word l) as [x|]; [|reflexivity]. exfalso. apply Y2. split; [discriminate|]. eexists. reflexivity.
    - pose proof (R2 X) as Y. rewrite Ek in Y. now injection Y as ->. }
  clear - Key Ll Edge.
  assert (RE : forall v, reachable_node (mkLattice ns ls' ini (h_utterance h) (h_lm_scale h)
       (match h_wi_penalty h with None => None
        | Some x => Some (match scale_of s with None => nlog x | Some s0 => (x * s0)%Qc end) end)) v
      <-> reachable_node (mkLattice ns (g_links st) ini None None None) v)
    by (intros v; apply reachable_ext; [reflexivity|exact Edge]).
  match goal with |- Forall2 ?P _ _ => enough (X : forall p q, length q = length p ->
     (forall k l, nth_error p k = Some l -> exists l', nth_error q k = Some l' /\ P l l') -> Forall2 P p q) end.
  - apply X; [exact Ll|]. intros k l Hk. destruct (Key k l Hk) as (l' & K1 & K2 & K3). exists l'. split; [exact K1|].
    rewrite RE. auto.
  - clear. intros p. induction p as [|x p IH]; intros [|y q] L H; cbn [length] in L; try lia; [constructor|].
    constructor.
    + destruct (H 0 x eq_refl) as (l' & H1 & H2). injection H1 as <-. exact H2.
    + apply IH; [lia|]. intros k l Hk. exact (H (S k) l Hk).
Qed.
End Contents.
