(** Proofs about reading and writing SLF lattices. *)
From Coq Require Import QArith Qcanon.
From Verif Require Import Base Strings ListLib BaseLib LatticeModel SlfModel LatticeSpec SortProofs GraphProofs.
Local Open Scope nat_scope.

(** ** Lexical analysis *)
Lemma plain_tests c : plain_char c ->
  lex_space c = false /\ N.eqb c hash = false /\ N.eqb c backslash = false /\ N.eqb c quote = false /\
  N.eqb c newline = false.
Proof.
  unfold plain_char. cbn [In]. intros H. unfold lex_space, hash, backslash, quote, newline. cbn [existsb].
  repeat (rewrite (proj2 (N.eqb_neq _ _)); [|intros ->; tauto]). tauto.
Qed.

Lemma lex_word s : forall token q rest, plain s ->
  lex (s ++ rest) LWord token q = lex rest LWord (rev s ++ token) q.
Proof.
  induction s as [|c s IH]; intros token q rest H; [reflexivity|].
  destruct (plain_tests c (H c (or_introl eq_refl))) as (E1 & E2 & E3 & E4 & _).
  cbn [app lex]. rewrite E1, E2, E3, E4. cbn [orb].
  rewrite IH by (intros x Hx; apply H; now right). cbn [rev]. now rewrite <- app_assoc.
Qed.

Lemma lex_start s rest : plain s -> s <> [] -> lex (s ++ rest) LSpace [] false = lex rest LWord (rev s) false.
Proof.
  destruct s as [|c s]; intros H Hn; [congruence|].
  destruct (plain_tests c (H c (or_introl eq_refl))) as (E1 & E2 & E3 & E4 & _).
  cbn [app lex]. rewrite E1, E2, E3, E4. rewrite lex_word by (intros x Hx; apply H; now right). reflexivity.
Qed.

Lemma lex_end_word c token q rest : lex_space c = true -> token <> [] ->
  lex (c :: rest) LWord token q = do r <- lex rest LSpace [] false; Ok (rev token :: r).
Proof.
  intros H Hn. cbn [lex]. rewrite H. cbn [orb]. destruct token; [congruence|reflexivity].
Qed.

Lemma lex_join fields : (forall f, In f fields -> plain f /\ f <> []) ->
  split_slf_line (join [tab] fields ++ [newline]) = Ok fields.
Proof.
  unfold split_slf_line. induction fields as [|f fields IH]; intros H; [reflexivity|].
  destruct (H f (or_introl eq_refl)) as [Hp Hn].
  destruct fields as [|g fields].
  - cbn [join]. rewrite lex_start by assumption. rewrite lex_end_word; [|reflexivity|].
    + cbn. now rewrite rev_involutive.
    + intros E. apply Hn. now rewrite <- (rev_involutive f), E.
  - change (join [tab] (f :: g :: fields)) with (f ++ [tab] ++ join [tab] (g :: fields)).
    rewrite <- !app_assoc. rewrite lex_start by assumption. cbn [app].
    rewrite lex_end_word; [|reflexivity|].
    + cbn [app] in IH. rewrite IH by (intros x Hx; apply H; now right). cbn [bind]. now rewrite rev_involutive.
    + intros E. apply Hn. now rewrite <- (rev_involutive f), E.
Qed.

Lemma lex_comment s : (forall c, In c s -> c <> newline) ->
  lex (s ++ [newline]) LComment [] false = Ok [].
Proof.
  induction s as [|c s IH]; intros H; [reflexivity|]. cbn [app lex].
  destruct (N.eqb_spec c newline) as [->|_]; [destruct (H newline); [now left|reflexivity]|].
  apply IH. intros x Hx. apply H. now right.
Qed.

Lemma lex_quoted u : forall token q, (forall c, In c u -> c <> quote /\ c <> backslash) ->
  (token ++ u <> [] \/ True) ->
  lex (u ++ [quote; newline]) LQuote token q = Ok [rev (rev u ++ token)].
Proof.
  induction u as [|c u IH]; intros token q H _.
  - cbn [app rev]. cbn [lex]. cbn [N.eqb quote Pos.eqb]. cbn [lex lex_space newline existsb N.eqb Pos.eqb orb].
    destruct token; reflexivity.
  - cbn [app lex]. destruct (H c (or_introl eq_refl)) as [H1 H2].
    apply N.eqb_neq in H1. apply N.eqb_neq in H2. rewrite H1, H2.
    rewrite IH; [|intros x Hx; apply H; now right|now right].
    cbn [rev]. now rewrite <- app_assoc.
Qed.

(** ** Lines of files *)
Lemma file_lines_line body rest : (forall c, In c body -> c <> newline) ->
  file_lines (body ++ [newline] ++ rest) = (body ++ [newline]) :: file_lines rest.
Proof.
  induction body as [|c body IH]; intros H; [reflexivity|]. cbn [app file_lines].
  destruct (N.eqb_spec c newline) as [->|_]; [destruct (H newline); [now left|reflexivity]|].
  cbn [app] in IH. rewrite IH by (intros x Hx; apply H; now right). reflexivity.
Qed.
Definition is_line (l : pystr) : Prop := exists b, l = b ++ [newline] /\ forall c, In c b -> c <> newline.
Lemma file_lines_concat ls : (forall l, In l ls -> is_line l) -> file_lines (concat ls) = ls.
Proof.
  induction ls as [|l ls IH]; intros H; [reflexivity|]. cbn [concat].
  destruct (H l (or_introl eq_refl)) as (b & -> & Hb). rewrite <- app_assoc, file_lines_line by exact Hb.
  f_equal. apply IH. intros x Hx. apply H. now right.
Qed.

Lemma plain_app s t : plain s -> plain t -> plain (s ++ t).
Proof. intros H1 H2 c Hc. apply in_app_or in Hc. destruct Hc; auto. Qed.
Ltac plain_lit := let c := fresh in let H := fresh in
  intros c H; vm_compute in H; unfold plain_char; cbn [In];
  repeat (destruct H as [<-|H]; [lia|]); destruct H.
Lemma plain_uint u : plain (show_uint u).
Proof.
  induction u; cbn [show_uint]; [intros c []|..]; intros c [<-|H]; try (now apply IHu);
    unfold plain_char; cbn [In]; lia.
Qed.
Lemma plain_int n : plain (show_int n).
Proof. apply plain_uint. Qed.
Lemma plain_newline s : plain s -> forall c, In c s -> c <> newline.
Proof. intros H c Hc ->. apply (H _ Hc). cbn. unfold newline. tauto. Qed.

Lemma line_join fields : (forall f, In f fields -> plain f) -> is_line (join [tab] fields ++ [newline]).
Proof.
  intros H. exists (join [tab] fields). split; [reflexivity|]. induction fields as [|f fields IH]; [intros c []|].
  destruct fields as [|g fields].
  - cbn [join]. intros c Hc. apply (plain_newline f); [apply H; now left|exact Hc].
  - change (join [tab] (f :: g :: fields)) with (f ++ [tab] ++ join [tab] (g :: fields)).
    intros c Hc. apply in_app_or in Hc. destruct Hc as [Hc|Hc].
    + apply (plain_newline f); [apply H; now left|exact Hc].
    + cbn [app In] in Hc. destruct Hc as [<-|Hc]; [discriminate|]. apply IH; [|exact Hc].
      intros x Hx. apply H. now right.
Qed.

(** ** Building *)
Lemma foldM_inv {S A} (P : S -> Prop) (f : S -> A -> result S) l : forall s s',
  (forall s a s', P s -> f s a = Ok s' -> P s') -> P s -> foldM f l s = Ok s' -> P s'.
Proof.
  induction l as [|x l IH]; intros s s' Hf Hs; cbn [foldM].
  - intros E. injection E as <-. exact Hs.
  - destruct (f s x) as [s1|] eqn:E; cbn [bind]; [|discriminate]. apply IH; [exact Hf|]. now apply (Hf s x).
Qed.

Section Reader.
Variable parse_int : pystr -> result Z.
Variable parse_float : pystr -> result Qc.
Variable nlog : Qc -> Qc.

Lemma py_position_range n z i : py_position n z = Ok i -> i < n.
Proof.
  unfold py_position. destruct (Z.leb_spec 0 z).
  - destruct (Nat.ltb_spec (Z.to_nat z) n); [|discriminate]. intros E. injection E as <-. assumption.
  - destruct (Z.leb_spec 0 (z + Z.of_nat n)); [|discriminate]. intros E. injection E as <-. lia.
Qed.
Lemma py_position_of_nat n i : i < n -> py_position n (Z.of_nat i) = Ok i.
Proof.
  intros H. unfold py_position. destruct (Z.leb_spec 0 (Z.of_nat i)); [|lia].
  rewrite Nat2Z.id. destruct (Nat.ltb_spec i n); [reflexivity|lia].
Qed.

Definition st_ok (n : nat) (st : slf_state) : Prop :=
  graph_ok (g_nodes st) (g_links st) /\ length (g_nodes st) = n /\ length (g_node_words st) = n /\
  forall nd, In nd (g_nodes st) -> n_final nd = false.

Lemma In_upd {A} (l : list A) i x y : In y (upd l i x) -> y = x \/ In y l.
Proof.
  revert i; induction l as [|a l IH]; intros [|i]; cbn; try tauto.
  - intros [<-|H]; auto.
  - intros [<-|H]; auto. destruct (IH _ H); auto.
Qed.

Lemma read_node_ok n st i fields st' :
  st_ok n st -> read_node parse_float st i fields = Ok st' -> st_ok n st'.
Proof.
  intros (G & L1 & L2 & F). unfold read_node.
  destruct (py_position _ i) as [p|] eqn:Ep; cbn [bind]; [|discriminate].
  unfold py_index at 1. destruct (nth_error (g_nodes st) p) as [nd|] eqn:En; cbn [bind]; [|discriminate].
  destruct (py_index (g_node_words st) p) as [w|]; cbn [bind]; [|discriminate].
  destruct (foldM (read_node_field parse_float) fields _) as [[t w']|]; cbn [bind]; [|discriminate].
  match goal with |- context[do w <- ?r; _] => destruct r as [w2|] end; cbn [bind]; [|discriminate].
  intros E. injection E as <-. unfold st_ok. cbn [g_nodes g_links g_node_words].
  refine (conj _ (conj _ (conj _ _))).
  - refine (graph_same (g_nodes st) _ (g_links st) (g_links st) _ _ eq_refl eq_refl G); symmetry; apply map_upd;
      intros y Hy; rewrite En in Hy; injection Hy as <-; reflexivity.
  - now rewrite upd_length.
  - now rewrite upd_length.
  - intros x Hx. apply In_upd in Hx. destruct Hx as [->|Hx]; [|now apply F]. cbn. apply F. now apply nth_error_In in En.
Qed.

Lemma read_link_ok n sc st fields st' :
  st_ok n st -> read_link parse_int parse_float nlog sc st fields = Ok st' -> st_ok n st'.
Proof.
  intros (G & L1 & L2 & F). unfold read_link.
  destruct (foldM _ fields _) as [x|] eqn:E; cbn [bind]; [|discriminate].
  assert (R : (forall i, f_start x = Some i -> i < length (g_nodes st)) /\
              (forall i, f_end x = Some i -> i < length (g_nodes st))).
  { revert E. apply (foldM_inv (fun x => (forall i, f_start x = Some i -> i < length (g_nodes st)) /\
                                (forall i, f_end x = Some i -> i < length (g_nodes st)))).
    - clear. intros s f s' [H1 H2]. unfold read_link_field.
      destruct (split_slf_field f) as [[nm v]|]; cbn [bind]; [|discriminate].
      destruct (is_name nm (str "START") (str "S")).
      { destruct (parse_int v) as [z|]; cbn [bind]; [|discriminate].
        destruct (py_position _ z) as [i|] eqn:Ei; cbn [bind]; [|discriminate].
        intros E. injection E as <-. cbn. split; [|exact H2]. intros j Hj. injection Hj as <-. now apply py_position_range in Ei. }
      destruct (is_name nm (str "END") (str "E")).
      { destruct (parse_int v) as [z|]; cbn [bind]; [|discriminate].
        destruct (py_position _ z) as [i|] eqn:Ei; cbn [bind]; [|discriminate].
        intros E. injection E as <-. cbn. split; [exact H1|]. intros j Hj. injection Hj as <-. now apply py_position_range in Ei. }
      destruct (is_name nm (str "WORD") (str "W")); [intros E; injection E as <-; auto|].
      destruct (is_name nm (str "acoustic") (str "a")).
      { destruct (read_logprob _ _ _ v); cbn [bind]; [|discriminate]. intros E; injection E as <-; auto. }
      destruct (is_name nm (str "language") (str "l")).
      { destruct (read_logprob _ _ _ v); cbn [bind]; [|discriminate]. intros E; injection E as <-; auto. }
      intros E; injection E as <-; auto.
    - split; discriminate. }
  destruct (f_start x) as [s|]; [|discriminate]. destruct (f_end x) as [e|]; [|discriminate].
  destruct R as [R1 R2].
  match goal with |- context[add_link _ ?l] => set (lk := l) end.
  pose proof (add_link_ok _ _ lk G (R1 s eq_refl) (R2 e eq_refl)) as G'.
  pose proof (add_link_length (g_nodes st) (g_links st) lk) as L'.
  pose proof (nth_add_link (g_nodes st) (g_links st) lk) as N'.
  destruct (add_link (g_nodes st, g_links st) lk) as [ns ls]. cbn [fst snd] in *.
  intros E'. injection E' as <-. unfold st_ok. cbn [g_nodes g_links g_node_words].
  refine (conj G' (conj _ (conj L2 _))); [congruence|].
  intros nd Hnd. apply In_nth_error in Hnd. destruct Hnd as [i Hi]. rewrite N' in Hi.
  destruct (nth_error (g_nodes st) i) as [nd'|] eqn:Ei; [|discriminate]. injection Hi as <-. cbn. apply F.
  now apply nth_error_In in Ei.
Qed.

Lemma read_body_ok n sc st line st' :
  st_ok n st -> read_body_line parse_int parse_float nlog sc st line = Ok st' -> st_ok n st'.
Proof.
  intros H. unfold read_body_line. destruct (split_slf_line line) as [[|f fs]|]; cbn [bind]; [|..|discriminate].
  { intros E. injection E as <-. exact H. }
  destruct (split_slf_field f) as [[nm v]|]; cbn [bind]; [|discriminate].
  destruct (pystr_eqb nm (str "I")).
  { destruct (parse_int v); cbn [bind]; [|discriminate]. now apply read_node_ok. }
  destruct (pystr_eqb nm (str "J")).
  { destruct (parse_int v); cbn [bind]; [|discriminate]. now apply read_link_ok. }
  intros E. injection E as <-. exact H.
Qed.

Lemma st_ok_init n : st_ok n (mkSlf (repeat new_node n) [] (repeat None n)).
Proof.
  unfold st_ok. cbn [g_nodes g_links g_node_words]. rewrite !repeat_length. refine (conj _ (conj eq_refl (conj eq_refl _))).
  - apply graph_empty. intros nd H. apply repeat_spec in H. subst nd. split; reflexivity.
  - intros nd H. apply repeat_spec in H. now subst nd.
Qed.

Lemma combine_seq_nth {A} (l : list A) : forall s i,
  nth_error (combine (seq s (length l)) l) i =
  match nth_error l i with Some x => Some (s + i, x) | None => None end.
Proof.
  induction l as [|x l IH]; intros s [|i]; cbn [length seq combine nth_error]; try reflexivity.
  - now rewrite Nat.add_0_r.
  - rewrite IH. now rewrite Nat.add_succ_r.
Qed.

Lemma mark_final_nth ids ns i :
  nth_error (mark_final ids ns) i =
  match nth_error ns i with
  | Some n => Some (mkNode (n_out n) (n_in n) (n_time n) (n_final n || is_final ids i n))
  | None => None
  end.
Proof.
  unfold mark_final. rewrite nth_error_map, combine_seq_nth. now destruct (nth_error ns i).
Qed.
Lemma mark_final_maps ids ns :
  map n_out (mark_final ids ns) = map n_out ns /\ map n_in (mark_final ids ns) = map n_in ns.
Proof.
  split; apply nth_error_ext; intros i; rewrite !nth_error_map, mark_final_nth; now destruct (nth_error ns i).
Qed.
Lemma mark_final_length ids ns : length (mark_final ids ns) = length ns.
Proof. rewrite <- (map_length n_out), (proj1 (mark_final_maps ids ns)). apply map_length. Qed.

Lemma find_initial_range ns : forall i r, find_initial i ns = Ok r -> i <= r < i + length ns.
Proof.
  induction ns as [|n ns IH]; intros i r; cbn [find_initial length]; [discriminate|].
  destruct (n_in n); [intros E; injection E as <-; lia|]. intros E. apply IH in E. lia.
Qed.

Lemma filter_one {A} (f : A -> bool) l :
  length (filter f l) = 1 ->
  exists p, p < length l /\ forall i x, nth_error l i = Some x -> (f x = true <-> i = p).
Proof.
  induction l as [|a l IH]; [discriminate|]. cbn [filter]. destruct (f a) eqn:E; cbn [length]; intros H.
  - exists 0. split; [lia|]. intros [|i] x Hx; cbn in Hx.
    + injection Hx as <-. tauto.
    + split; [|discriminate]. intros Hf. apply nth_error_In in Hx.
      assert (In x (filter f l)) by (apply filter_In; auto). destruct (filter f l); [contradiction|discriminate].
  - destruct (IH H) as (p & Hp & Hq). exists (S p). split; [lia|]. intros [|i] x Hx; cbn in Hx.
    + injection Hx as <-. split; [congruence|discriminate].
    + rewrite (Hq i x Hx). split; congruence.
Qed.
Lemma filter_one_conv {A} (f : A -> bool) l p : p < length l ->
  (forall i x, nth_error l i = Some x -> (f x = true <-> i = p)) -> length (filter f l) = 1.
Proof.
  revert p; induction l as [|a l IH]; cbn [length filter]; intros p Hp H; [lia|].
  destruct p as [|p].
  - rewrite (proj2 (H 0 a eq_refl) eq_refl). cbn [length]. rewrite filter_none; [reflexivity|].
    intros x Hx. apply In_nth_error in Hx. destruct Hx as [i Hi].
    destruct (f x) eqn:E; [|reflexivity]. apply (H (S i) x Hi) in E. discriminate.
  - destruct (f a) eqn:E; [apply (H 0 a eq_refl) in E; discriminate|].
    apply (IH p); [lia|]. intros i x Hx. rewrite (H (S i) x Hx). split; congruence.
Qed.

(** Whatever lattice is read is consistent, has one final node, and no other node
    is without outgoing links. *)
Lemma read_slf_ok lines a : read_slf_lines parse_int parse_float nlog lines = Ok a ->
  lattice_ok a /\
  exists f, f < length (a_nodes a) /\ forall i n, nth_error (a_nodes a) i = Some n ->
    (n_final n = true <-> i = f) /\ (n_out n = [] -> i = f).
Proof.
  unfold read_slf_lines.
  destruct (read_header _ _ _ _ lines) as [ [ [ [h nn] nl] rest]|]; cbn [bind]; [|discriminate].
  destruct (foldM _ rest _) as [st|] eqn:E; cbn [bind]; [|discriminate].
  assert (S : st_ok (Z.to_nat nn) st).
  { revert E. apply foldM_inv; [intros; now eapply read_body_ok; eassumption|apply st_ok_init]. }
  destruct S as (G & L1 & L2 & F).
  destruct (Z.eqb_spec (Z.of_nat (length (g_links st))) nl) as [El|]; [|discriminate].
  match goal with |- context[do initial <- ?r; _] => destruct r as [ini|] eqn:Ei end; cbn [bind]; [|discriminate].
  assert (Hi : ini < length (g_nodes st)).
  { destruct (h_start h); [now apply py_position_range in Ei|]. apply find_initial_range in Ei. lia. }
  destruct (Nat.eqb_spec (length (filter n_final (mark_final (h_end h) (g_nodes st)))) 1) as [E1|]; [|discriminate].
  destruct (mark_final_maps (h_end h) (g_nodes st)) as [M1 M2].
  pose proof (mark_final_length (h_end h) (g_nodes st)) as ML.
  pose proof (mark_final_nth (h_end h) (g_nodes st)) as MN.
  set (ns := mark_final (h_end h) (g_nodes st)) in *.
  assert (G2 : graph_ok ns (g_links st)).
  { refine (graph_same (g_nodes st) _ _ _ _ _ eq_refl eq_refl G); now symmetry. }
  destruct (nth_error ns ini) as [nd|] eqn:En; [|apply nth_error_None in En; lia].
  unfold py_index at 1. rewrite En. cbn [bind].
  destruct (move_words_ok ns (g_links st) (g_node_words st) ini G2 ltac:(lia) ltac:(congruence) nd En)
    as [(ls' & Em & Ll & _ & Hl)|[Em _]]; rewrite Em; cbn [bind]; [|discriminate].
  intros Ea. injection Ea as <-. split.
  - split; cbn [a_nodes a_links a_initial]; [|lia].
    apply (graph_same ns ns (g_links st) ls' eq_refl eq_refl); [..|exact G2].
    + apply nth_error_ext. intros k. rewrite !nth_error_map. destruct (nth_error (g_links st) k) as [l|] eqn:Ek.
      * destruct (Hl k l Ek) as [-> | ->]; [|reflexivity]. cbn. now rewrite (proj2 (moved_end _ l)).
      * assert (X : nth_error ls' k = None) by (apply nth_error_None; apply nth_error_None in Ek; lia). now rewrite X.
    + apply nth_error_ext. intros k. rewrite !nth_error_map. destruct (nth_error (g_links st) k) as [l|] eqn:Ek.
      * destruct (Hl k l Ek) as [-> | ->]; [|reflexivity]. cbn. now rewrite (proj1 (moved_end _ l)).
      * assert (X : nth_error ls' k = None) by (apply nth_error_None; apply nth_error_None in Ek; lia). now rewrite X.
  - cbn [a_nodes]. destruct (filter_one _ _ E1) as (f & Hf & Hu). exists f. split; [exact Hf|].
    intros i n Hn. split; [now apply Hu|]. intros Ho. apply (Hu i n Hn). rewrite MN in Hn.
    destruct (nth_error (g_nodes st) i) as [n0|]; [|discriminate]. injection Hn as <-. cbn [n_out n_final] in *.
    unfold is_final. rewrite Ho. cbn. now rewrite !orb_true_r.
Qed.
End Reader.

(** ** Round trip *)
Lemma foldM_steps {S A} (f : S -> A -> result S) (st : nat -> S) l :
  (forall m x, nth_error l m = Some x -> f (st m) x = Ok (st (Datatypes.S m))) ->
  foldM f l (st 0) = Ok (st (length l)).
Proof.
  intros H. assert (G : forall l s,
    (forall m x, nth_error l m = Some x -> f (st (s + m)) x = Ok (st (Datatypes.S (s + m)))) ->
    foldM f l (st s) = Ok (st (s + length l))).
  { clear. induction l as [|x l IH]; intros s H; cbn [foldM length]; [now rewrite Nat.add_0_r|].
    pose proof (H 0 x eq_refl) as H0. rewrite Nat.add_0_r in H0. rewrite H0. cbn [bind].
    rewrite IH; [now rewrite Nat.add_succ_r|].
    intros m y Hm. specialize (H (Datatypes.S m) y Hm). now rewrite Nat.add_succ_r in H. }
  now apply (G l 0).
Qed.

Section RoundTrip.
Variable parse_int : pystr -> result Z.
Variable parse_float : pystr -> result Qc.
Variable nlog : Qc -> Qc.
Variable show_num : Qc -> pystr.
Hypothesis NT : number_text parse_int parse_float show_num.

Lemma plain_num x : plain (show_num x).
Proof. intros c Hc. destruct (nt_plain _ _ _ NT x c Hc) as [H _]. unfold plain_char. cbn [In] in *. tauto. Qed.

Ltac names :=
  repeat match goal with
  | |- context[is_name ?a ?b ?c] => let v := eval vm_compute in (is_name a b c) in change (is_name a b c) with v
  | |- context[pystr_eqb ?a ?b] => let v := eval vm_compute in (pystr_eqb a b) in change (pystr_eqb a b) with v
  end; cbv iota.
Ltac fld n v :=
  let nm := eval vm_compute in (removelast n) in
  change (split_slf_field (n ++ v)) with (@Ok (pystr * pystr) (nm, v)); cbn [bind]; names.

Lemma hf_utterance h u :
  read_header_field parse_int parse_float nlog h (str "UTTERANCE=" ++ u)
  = Ok (mkHeader (Some u) (h_log_scale h) (h_lm_scale h) (h_wi_penalty h) (h_start h) (h_end h) (h_num_nodes h) (h_num_links h)).
Proof. unfold read_header_field. fld (str "UTTERANCE=") u. reflexivity. Qed.
Lemma hf_lmscale h x :
  read_header_field parse_int parse_float nlog h (str "lmscale=" ++ show_num x)
  = Ok (mkHeader (h_utterance h) (h_log_scale h) (Some x) (h_wi_penalty h) (h_start h) (h_end h) (h_num_nodes h) (h_num_links h)).
Proof. unfold read_header_field. fld (str "lmscale=") (show_num x). now rewrite (nt_num _ _ _ NT). Qed.
Lemma hf_wdpenalty h x :
  read_header_field parse_int parse_float nlog h (str "wdpenalty=" ++ show_num x)
  = Ok (mkHeader (h_utterance h) (h_log_scale h) (h_lm_scale h) (Some x) (h_start h) (h_end h) (h_num_nodes h) (h_num_links h)).
Proof. unfold read_header_field. fld (str "wdpenalty=") (show_num x). now rewrite (nt_num _ _ _ NT). Qed.
Lemma hf_start h n :
  read_header_field parse_int parse_float nlog h (str "start=" ++ show_int n)
  = Ok (mkHeader (h_utterance h) (h_log_scale h) (h_lm_scale h) (h_wi_penalty h) (Some (Z.of_nat n)) (h_end h) (h_num_nodes h) (h_num_links h)).
Proof. unfold read_header_field. fld (str "start=") (show_int n). now rewrite (nt_int _ _ _ NT). Qed.
Lemma hf_nodes h n :
  read_header_field parse_int parse_float nlog h (str "N=" ++ show_int n)
  = Ok (mkHeader (h_utterance h) (h_log_scale h) (h_lm_scale h) (h_wi_penalty h) (h_start h) (h_end h) (Some (Z.of_nat n)) (h_num_links h)).
Proof. unfold read_header_field. fld (str "N=") (show_int n). now rewrite (nt_int _ _ _ NT). Qed.
Lemma hf_links h n :
  read_header_field parse_int parse_float nlog h (str "L=" ++ show_int n)
  = Ok (mkHeader (h_utterance h) (h_log_scale h) (h_lm_scale h) (h_wi_penalty h) (h_start h) (h_end h) (h_num_nodes h) (Some (Z.of_nat n))).
Proof. unfold read_header_field. fld (str "L=") (show_int n). now rewrite (nt_int _ _ _ NT). Qed.

Lemma header_step h line ls fields h' :
  split_slf_line line = Ok fields ->
  foldM (read_header_field parse_int parse_float nlog) fields h = Ok h' ->
  h_num_nodes h' = None -> 
  read_header parse_int parse_float nlog h (line :: ls) = read_header parse_int parse_float nlog h' ls.
Proof. intros E1 E2 E3. cbn [read_header]. rewrite E1. cbn [bind]. rewrite E2. cbn [bind]. now rewrite E3. Qed.

Lemma not_nil_app {A} (x : A) l s : (x :: l) ++ s <> [].
Proof. discriminate. Qed.

Ltac pf := first [apply plain_app; [plain_lit|first [apply plain_int|apply plain_num]]|plain_lit].

Lemma line_fields_ok (fields : list pystr) :
  (forall f, In f fields -> plain f /\ f <> []) -> split_slf_line (join [tab] fields ++ [newline]) = Ok fields.
Proof. apply lex_join. Qed.

(** The header *)
Variable a : lattice.
Hypothesis W : slf_writable a.
Let n := length (a_nodes a).

Lemma read_header_written rest u : a_utterance a = Some u -> quotable u ->
  read_header parse_int parse_float nlog empty_header
    ([str "# Header (generated by TheanoLM)" ++ [newline];
   str "VERSION=1.1" ++ [newline];
   str "UTTERANCE=" ++ [quote] ++ u ++ [quote; newline]]
  ++ match optional (a_lm_scale a) (fun x => str "lmscale=" ++ show_num x)
           ++ optional (a_wi_penalty a) (fun x => str "wdpenalty=" ++ show_num x) with
     | [] => []
     | fields => [join [tab] fields ++ [newline]]
     end
  ++ [str "start=" ++ show_int (a_initial a) ++ [newline];
      str "N=" ++ show_int (length (a_nodes a)) ++ [tab]
        ++ str "L=" ++ show_int (length (a_links a)) ++ [newline]] ++ rest)
  = Ok (mkHeader (Some u) (Some 1%Qc) (a_lm_scale a) (a_wi_penalty a) (Some (Z.of_nat (a_initial a))) []
                 (Some (Z.of_nat (length (a_nodes a)))) (Some (Z.of_nat (length (a_links a)))),
        Z.of_nat (length (a_nodes a)), Z.of_nat (length (a_links a)), rest).
Proof.
  intros Hu Hq. cbn [app].
  erewrite header_step with (fields := []) (h' := empty_header); [|reflexivity|reflexivity|reflexivity].
  erewrite header_step with (fields := [str "VERSION=1.1"]) (h' := empty_header); [|reflexivity|reflexivity|reflexivity].
  erewrite header_step with (fields := [str "UTTERANCE=" ++ u]); [| |cbn [foldM]; rewrite hf_utterance; reflexivity|reflexivity].
  2: { unfold split_slf_line. change (str "UTTERANCE=" ++ quote :: u ++ [quote; newline])
         with (str "UTTERANCE=" ++ ([quote] ++ (u ++ [quote; newline]))).
       rewrite lex_start; [|plain_lit|discriminate].
       transitivity (lex (u ++ [quote; newline]) LQuote (rev (str "UTTERANCE=")) false); [reflexivity|].
       rewrite lex_quoted; [|intros c Hc; apply Hq in Hc; cbn [In] in Hc; split; intros ->; unfold quote, backslash in Hc; tauto|now right].
       now rewrite rev_app_distr, !rev_involutive. }
  cbn [h_utterance h_log_scale h_lm_scale h_wi_penalty h_start h_end h_num_nodes h_num_links empty_header].
  set (sc := match _ with [] => [] | _ => _ end).
  assert (Hsc : forall tail, read_header parse_int parse_float nlog (mkHeader (Some u) (Some 1%Qc) None None None [] None None) (sc ++ tail)
     = read_header parse_int parse_float nlog (mkHeader (Some u) (Some 1%Qc) (a_lm_scale a) (a_wi_penalty a) None [] None None) tail).
  { intros tail. unfold sc. destruct (a_lm_scale a) as [x|], (a_wi_penalty a) as [y|]; cbn [optional app].
    - eapply header_step; [apply lex_join|cbn [foldM]; rewrite hf_lmscale; cbn [bind]; rewrite hf_wdpenalty; reflexivity|reflexivity].
      intros f [<-|[<-|[]]]; (split; [pf|discriminate]).
    - eapply header_step; [apply lex_join|cbn [foldM]; rewrite hf_lmscale; reflexivity|reflexivity].
      intros f [<-|[]]; (split; [pf|discriminate]).
    - eapply header_step; [apply lex_join|cbn [foldM]; rewrite hf_wdpenalty; reflexivity|reflexivity].
      intros f [<-|[]]; (split; [pf|discriminate]).
    - reflexivity. }
  rewrite Hsc. clear Hsc sc.
  rewrite (header_step _ _ _ [str "start=" ++ show_int (a_initial a)]
             (mkHeader (Some u) (Some 1%Qc) (a_lm_scale a) (a_wi_penalty a) (Some (Z.of_nat (a_initial a))) [] None None)).
  2: { rewrite app_assoc. apply (lex_join [str "start=" ++ show_int (a_initial a)]).
       intros f [<-|[]]; (split; [pf|discriminate]). }
  2: { cbn [foldM]. rewrite hf_start. reflexivity. }
  2: { reflexivity. }
  cbn [read_header].
  assert (X : str "N=" ++ show_int (length (a_nodes a)) ++ [tab] ++ str "L=" ++ show_int (length (a_links a)) ++ [newline]
    = join [tab] [str "N=" ++ show_int (length (a_nodes a)); str "L=" ++ show_int (length (a_links a))] ++ [newline]).
  { cbn [join]. now rewrite <- !app_assoc. }
  cbn [app] in X. cbn [app]. rewrite X. rewrite lex_join.
  2: { intros f [<-|[<-|[]]]; (split; [pf|discriminate]). }
  cbn [bind foldM]. rewrite hf_nodes. cbn [bind]. rewrite hf_links. cbn [bind]. reflexivity.
Qed.

(** Lines of nodes *)
Let nodes_at (m : nat) : list node :=
  map (fun j => mkNode [] [] (if j <? m then time_of a j else None) false) (seq 0 n).
Let words0 : list (option (option pystr)) := repeat None n.

Lemma read_node_line m nd : nth_error (a_nodes a) m = Some nd ->
  read_body_line parse_int parse_float nlog (Some 1%Qc) (mkSlf (nodes_at m) [] words0) (slf_node_line show_num m nd)
  = Ok (mkSlf (nodes_at (S m)) [] words0).
Proof.
  intros Hn. assert (Hm : m < n) by (apply nth_error_Some; congruence).
  unfold read_body_line, slf_node_line. rewrite lex_join.
  2: { intros f [<-|Hf]; [split; [pf|discriminate]|]. destruct (n_time nd); [|destruct Hf].
       destruct Hf as [<-|[]]. split; [pf|discriminate]. }
  cbn [bind]. fld (str "I=") (show_int m). rewrite (nt_int _ _ _ NT). cbn [bind].
  unfold read_node. cbn [g_nodes g_links g_node_words].
  assert (L : length (nodes_at m) = n) by (unfold nodes_at; now rewrite map_length, seq_length).
  rewrite L, py_position_of_nat by exact Hm. cbn [bind].
  assert (N1 : py_index (nodes_at m) m = Ok (mkNode [] [] None false)).
  { unfold py_index, nodes_at. rewrite nth_error_map_seq. destruct (Nat.ltb_spec m n); [|lia].
    now rewrite Nat.ltb_irrefl. }
  rewrite N1. cbn [bind].
  assert (N2 : py_index words0 m = Ok None).
  { unfold py_index, words0. now rewrite nth_error_repeat. }
  rewrite N2. cbn [bind n_out n_in n_time n_final].
  assert (U : upd words0 m None = words0).
  { apply nth_error_ext. intros i. rewrite nth_error_upd. destruct (Nat.eqb_spec i m) as [->|]; [|reflexivity].
    unfold words0. rewrite repeat_length. destruct (Nat.ltb_spec m n); [|lia]. now rewrite nth_error_repeat. }
  assert (V : upd (nodes_at m) m (mkNode [] [] (n_time nd) false) = nodes_at (S m)).
  { apply upd_map_seq.
    - exact Hm.
    - destruct (Nat.ltb_spec m (S m)); [|lia]. unfold time_of. now rewrite Hn.
    - intros k Hk Hne. f_equal. destruct (Nat.ltb_spec k (S m)), (Nat.ltb_spec k m); (lia || reflexivity). }
  destruct (n_time nd) as [t|]; cbn [optional foldM bind].
  - unfold read_node_field at 1. fld (str "t=") (show_num t). rewrite (nt_num _ _ _ NT).
    cbn [bind fst snd]. now rewrite U, V.
  - now rewrite U, V.
Qed.

(** Lines of links *)
Let plain_link (l : link) : link := mkLink (k_start l) (k_end l) (k_word l) (k_ac l) (k_lm l) [].
Let ls := map plain_link (a_links a).
Let graph_at (m : nat) := fold_left add_link (firstn m ls) (nodes_at n, []).
Let state_at (m : nat) := mkSlf (fst (graph_at m)) (snd (graph_at m)) words0.

Lemma graph_at_S m l : nth_error ls m = Some l -> graph_at (S m) = add_link (graph_at m) l.
Proof.
  intros H. unfold graph_at.
  assert (X : firstn (S m) ls = firstn m ls ++ [l]).
  { clear -H. revert m H. induction ls as [|x r IH]; intros [|m] H; cbn in *; try discriminate.
    - injection H as <-. reflexivity.
    - now rewrite <- IH. }
  rewrite X, fold_left_app. reflexivity.
Qed.

Lemma ls_range l : In l ls -> k_start l < n /\ k_end l < n.
Proof.
  intros H. apply in_map_iff in H. destruct H as (l0 & <- & H). cbn.
  destruct W as [[[R _ _] _] _ _ _]. now apply R.
Qed.

Lemma graph_at_ok m : m <= length ls ->
  snd (graph_at m) = firstn m ls /\ graph_ok (fst (graph_at m)) (snd (graph_at m)) /\
  length (fst (graph_at m)) = n /\
  forall i nd, nth_error (fst (graph_at m)) i = Some nd -> n_time nd = time_of a i /\ n_final nd = false.
Proof.
  induction m as [|m IH]; intros Hm.
  - unfold graph_at. cbn [firstn fold_left fst snd]. split; [reflexivity|].
    assert (N : forall i nd, nth_error (nodes_at n) i = Some nd -> nd = mkNode [] [] (time_of a i) false).
    { intros i nd. unfold nodes_at. rewrite nth_error_map_seq. destruct (Nat.ltb_spec i n); [|discriminate].
      intros E. now injection E as <-. }
    split; [|split].
    + apply graph_empty. intros nd H. apply In_nth_error in H. destruct H as [i Hi]. apply N in Hi. now subst nd.
    + unfold nodes_at. now rewrite map_length, seq_length.
    + intros i nd H. apply N in H. now subst nd.
  - destruct (nth_error ls m) as [l|] eqn:El; [|apply nth_error_None in El; lia].
    rewrite (graph_at_S _ _ El). destruct (IH ltac:(lia)) as (I1 & I2 & I3 & I4).
    assert (Hl : In l ls) by now apply nth_error_In in El.
    destruct (ls_range l Hl) as [R1 R2].
    destruct (graph_at m) as [ns ks] eqn:Eg. cbn [fst snd] in *.
    split; [|split; [|split]].
    + cbn [add_link snd]. rewrite I1. clear -El. revert m El.
      induction ls as [|x r IHr]; intros [|m] H; cbn in *; try discriminate.
      * injection H as <-. reflexivity.
      * f_equal. now apply IHr.
    + apply add_link_ok; [exact I2|lia|lia].
    + now rewrite add_link_length.
    + intros i nd Hi. rewrite nth_add_link in Hi. destruct (nth_error ns i) as [nd0|] eqn:E0; [|discriminate].
      injection Hi as <-. cbn. now apply I4.
Qed.

Lemma read_link_line m l : nth_error (a_links a) m = Some l ->
  read_body_line parse_int parse_float nlog (Some 1%Qc) (state_at m) (slf_link_line show_num m l)
  = Ok (state_at (S m)).
Proof.
  intros Hn. assert (Hl : In l (a_links a)) by now apply nth_error_In in Hn.
  assert (Hls : nth_error ls m = Some (plain_link l)) by (unfold ls; now rewrite nth_error_map, Hn).
  assert (Hm : m < length ls) by (apply nth_error_Some; congruence).
  destruct (graph_at_ok m ltac:(lia)) as (I1 & I2 & I3 & I4).
  destruct (ls_range (plain_link l) (nth_error_In _ _ Hls)) as [R1 R2]. cbn [plain_link k_start k_end] in R1, R2.
  pose proof (sw_words _ W l) as Hw.
  unfold read_body_line, slf_link_line. rewrite lex_join.
  2: { intros f Hf. cbn [app In] in Hf. destruct Hf as [<-|[<-|[<-|[<-|Hf]]]]; try (split; [pf|discriminate]).
       - split; [|discriminate]. destruct (k_word l) as [w|]; [apply plain_app; [plain_lit|apply (Hw w Hl eq_refl)]|plain_lit].
       - apply in_app_or in Hf. destruct (k_ac l), (k_lm l), Hf as [Hf|Hf]; cbn [optional In] in Hf;
           try contradiction; destruct Hf as [<-|[]]; (split; [pf|discriminate]). }
  cbn [bind app]. fld (str "J=") (show_int m). rewrite (nt_int _ _ _ NT). cbn [bind].
  unfold read_link. cbn [foldM]. change (g_nodes (state_at m)) with (fst (graph_at m)). rewrite !I3.
  unfold read_link_field at 1. fld (str "S=") (show_int (k_start l)). rewrite (nt_int _ _ _ NT). cbn [bind].
  rewrite py_position_of_nat by exact R1. cbn [bind f_start f_end f_word f_ac f_lm].
  unfold read_link_field at 1. fld (str "E=") (show_int (k_end l)). rewrite (nt_int _ _ _ NT). cbn [bind].
  rewrite py_position_of_nat by exact R2. cbn [bind f_start f_end f_word f_ac f_lm].
  pose (wv := (match k_word l with Some w => w | None => str "!NULL" end) : pystr).
  unfold read_link_field at 1.
  match goal with |- context[split_slf_field ?x] =>
    change (split_slf_field x) with (@Ok (pystr * pystr) (str "W", wv)) end. cbn [bind]. names.
  cbn [bind f_start f_end f_word f_ac f_lm].
  assert (Hsc : foldM (read_link_field parse_int parse_float nlog (Some 1%Qc) n)
            (optional (k_ac l) (fun x => str "a=" ++ show_num x) ++ optional (k_lm l) (fun x => str "l=" ++ show_num x))
            (mkFields (Some (k_start l)) (Some (k_end l)) (Some wv) None None)
          = Ok (mkFields (Some (k_start l)) (Some (k_end l)) (Some wv) (k_ac l) (k_lm l))).
  { destruct (k_ac l) as [x|], (k_lm l) as [y|]; cbn [optional app foldM].
    - unfold read_link_field at 1. fld (str "a=") (show_num x). unfold read_logprob. rewrite (nt_num _ _ _ NT). cbn [bind f_start f_end f_word f_ac f_lm].
      unfold read_link_field at 1. fld (str "l=") (show_num y). unfold read_logprob. rewrite (nt_num _ _ _ NT). cbn [bind f_start f_end f_word f_ac f_lm].
      now rewrite !Qcmult_1_r.
    - unfold read_link_field at 1. fld (str "a=") (show_num x). unfold read_logprob. rewrite (nt_num _ _ _ NT). cbn [bind f_start f_end f_word f_ac f_lm].
      now rewrite !Qcmult_1_r.
    - unfold read_link_field at 1. fld (str "l=") (show_num y). unfold read_logprob. rewrite (nt_num _ _ _ NT). cbn [bind f_start f_end f_word f_ac f_lm].
      now rewrite !Qcmult_1_r.
    - reflexivity. }
  rewrite Hsc. cbn [bind f_start f_end f_word f_ac f_lm].
  assert (Hword : (if is_null_word wv then None else Some wv) = k_word l).
  { unfold wv. destruct (k_word l) as [w|] eqn:E; [|reflexivity]. now rewrite (proj2 (Hw w Hl eq_refl)). }
  rewrite Hword. unfold state_at. cbn [g_nodes g_links g_node_words].
  rewrite (graph_at_S _ _ Hls). rewrite <- surjective_pairing. unfold plain_link.
  now destruct (add_link (graph_at m) _).
Qed.

(** The lines of the file are lines. *)
Lemma slf_lines_lines l : In l (slf_lines show_num a) -> is_line l.
Proof.
  destruct (sw_utterance _ W) as (u & Hu & Hq).
  unfold slf_lines. rewrite Hu, !in_app_iff. cbn [In].
  intros [[<-|[<-|[<-|[]]]]|[H|[[<-|[<-|[<-|[]]]]|[H|[[<-|[]]|H]]]]].
  - eexists. split; [reflexivity|]. intros c Hc. vm_compute in Hc. 
    repeat (destruct Hc as [<-|Hc]; [discriminate|]). destruct Hc.
  - eexists. split; [reflexivity|]. apply plain_newline. plain_lit.
  - exists (str "UTTERANCE=" ++ [quote] ++ u ++ [quote]). split; [now rewrite <- !app_assoc|].
    intros c Hc. apply in_app_or in Hc. cbn [app In] in Hc. destruct Hc as [Hc|[<-|Hc]]; [revert Hc; apply plain_newline; plain_lit|discriminate|].
    apply in_app_or in Hc. destruct Hc as [Hc|[<-|[]]]; [|discriminate].
    intros ->. apply (Hq _ Hc). cbn. unfold newline. tauto.
  - set (fs := optional _ _ ++ optional _ _) in H.
    assert (Hp : forall f, In f fs -> plain f).
    { intros f Hf. unfold fs in Hf. apply in_app_or in Hf. destruct (a_lm_scale a), (a_wi_penalty a), Hf as [Hf|Hf];
        cbn [optional In] in Hf; try contradiction; destruct Hf as [<-|[]]; pf. }
    destruct fs as [|f fs]; [destruct H|]. destruct H as [<-|[]]. now apply line_join.
  - rewrite app_assoc. apply (line_join [str "start=" ++ show_int (a_initial a)]). intros f [<-|[]]. pf.
  - replace (str "N=" ++ show_int (length (a_nodes a)) ++ [tab] ++ str "L=" ++ show_int (length (a_links a)) ++ [newline])
      with (join [tab] [str "N=" ++ show_int (length (a_nodes a)); str "L=" ++ show_int (length (a_links a))] ++ [newline])
      by (cbn [join]; now rewrite <- !app_assoc).
    apply line_join. intros f [<-|[<-|[]]]; pf.
  - eexists. split; [reflexivity|]. intros c Hc. vm_compute in Hc. 
    repeat (destruct Hc as [<-|Hc]; [discriminate|]). destruct Hc.
  - apply in_map_iff in H. destruct H as ([i nd] & <- & H). cbn [fst snd]. apply line_join.
    intros f [<-|Hf]; [pf|]. destruct (n_time nd); [|destruct Hf]. destruct Hf as [<-|[]]; pf.
  - eexists. split; [reflexivity|]. intros c Hc. vm_compute in Hc. 
    repeat (destruct Hc as [<-|Hc]; [discriminate|]). destruct Hc.
  - apply in_map_iff in H. destruct H as ([k l0] & <- & H). cbn [fst snd]. apply line_join.
    apply in_combine_r in H. pose proof (sw_words _ W l0) as Hw.
    intros f Hf. cbn [app In] in Hf. destruct Hf as [<-|[<-|[<-|[<-|Hf]]]]; try pf.
    + destruct (k_word l0) as [w|]; [apply plain_app; [plain_lit|apply (Hw w H eq_refl)]|plain_lit].
    + apply in_app_or in Hf. destruct (k_ac l0), (k_lm l0), Hf as [Hf|Hf]; cbn [optional In] in Hf;
           try contradiction; destruct Hf as [<-|[]]; pf.
Qed.

Lemma comment_line sc st s : (forall c, In c s -> c <> newline) ->
  read_body_line parse_int parse_float nlog sc st (hash :: s ++ [newline]) = Ok st.
Proof.
  intros H. unfold read_body_line, split_slf_line. cbn [lex lex_space hash existsb N.eqb Pos.eqb orb].
  now rewrite lex_comment.
Qed.

Lemma slf_round_trip :
  read_slf parse_int parse_float nlog (write_slf show_num a) = Ok (without_transitions a).
Proof.
  unfold read_slf, write_slf. rewrite file_lines_concat by exact slf_lines_lines.
  destruct (sw_utterance _ W) as (u & Hu & Hq).
  unfold read_slf_lines, slf_lines. rewrite Hu.
  change [str "start=" ++ show_int (a_initial a) ++ [newline];
      str "N=" ++ show_int (length (a_nodes a)) ++ [tab]
        ++ str "L=" ++ show_int (length (a_links a)) ++ [newline];
      str "# Nodes" ++ [newline]] with
    ([str "start=" ++ show_int (a_initial a) ++ [newline];
      str "N=" ++ show_int (length (a_nodes a)) ++ [tab]
        ++ str "L=" ++ show_int (length (a_links a)) ++ [newline]] ++ [str "# Nodes" ++ [newline]]).
  rewrite <- !app_assoc.
  rewrite (read_header_written _ u Hu Hq). cbn [bind h_wi_penalty h_log_scale h_start h_end h_utterance h_lm_scale].
  rewrite Nat2Z.id. fold n. cbn [app foldM].
  change (str "# Nodes" ++ [newline]) with (hash :: str " Nodes" ++ [newline]).
  rewrite comment_line.
  2: { intros c Hc. vm_compute in Hc. repeat (destruct Hc as [<-|Hc]; [discriminate|]). destruct Hc. }
  cbn [bind]. rewrite foldM_app.
  assert (E0 : repeat new_node n = nodes_at 0).
  { unfold nodes_at.
    apply nth_error_ext. intros i. rewrite nth_error_map_seq.
    destruct (Nat.ltb_spec i n) as [L|L]; [now rewrite nth_error_repeat|].
    apply nth_error_None. now rewrite repeat_length. }
  fold words0. rewrite E0.
  rewrite (foldM_steps _ (fun m => mkSlf (nodes_at m) [] words0)).
  2: { intros m x Hx. unfold n in Hx. rewrite nth_error_map, combine_seq_nth in Hx.
       destruct (nth_error (a_nodes a) m) as [nd|] eqn:En; [|discriminate]. cbn in Hx. injection Hx as <-.
       now apply read_node_line. }
  rewrite map_length, combine_length, seq_length, Nat.min_id. fold n. cbn [bind foldM].
  change (str "# Links" ++ [newline]) with (hash :: str " Links" ++ [newline]).
  rewrite comment_line.
  2: { intros c Hc. vm_compute in Hc. repeat (destruct Hc as [<-|Hc]; [discriminate|]). destruct Hc. }
  cbn [bind]. change (mkSlf (nodes_at n) [] words0) with (state_at 0).
  rewrite (foldM_steps _ state_at).
  2: { intros m x Hx. rewrite nth_error_map, combine_seq_nth in Hx.
       destruct (nth_error (a_links a) m) as [l|] eqn:En; [|discriminate]. cbn in Hx. injection Hx as <-.
       now apply read_link_line. }
  rewrite map_length, combine_length, seq_length, Nat.min_id. cbn [bind].
  assert (Hlen : length (a_links a) = length ls) by (unfold ls; now rewrite map_length).
  destruct (graph_at_ok (length ls) (le_n _)) as (I1 & I2 & I3 & I4). rewrite firstn_all in I1.
  rewrite Hlen. unfold state_at. cbn [g_nodes g_links g_node_words].
  rewrite I1 in I2 |- *. rewrite I3, Z.eqb_refl.

  pose proof (proj2 (sw_ok _ W)) as Hini. fold n in Hini.
  rewrite py_position_of_nat by exact Hini. cbn [bind].
  assert (En : mark_final [] (fst (graph_at (length ls))) = a_nodes a).
  { apply nth_error_ext. intros i. rewrite mark_final_nth.
    destruct (nth_error (fst (graph_at (length ls))) i) as [nd|] eqn:E1.
    - destruct (nth_error (a_nodes a) i) as [nd'|] eqn:E2.
      + f_equal. destruct (I4 i nd E1) as [Ht Hf].
        destruct I2 as [_ O _]. pose proof (O _ _ E1) as O1.
        assert (M1 : map k_start ls = map k_start (a_links a)) by (unfold ls; rewrite map_map; reflexivity).
        assert (M2 : map k_end ls = map k_end (a_links a)) by (unfold ls; rewrite map_map; reflexivity).
        destruct (sw_ok _ W) as [[_ O' N'] _].
        pose proof (graph_at_ok (length ls) (le_n _)) as (_ & [_ _ N1] & _ & _).
        specialize (N1 _ _ E1). rewrite I1 in N1.
        rewrite (links_from_same _ _ i M1), <- (O' _ _ E2) in O1.
        rewrite (links_to_same _ _ i M2), <- (N' _ _ E2) in N1.
        unfold time_of in Ht. rewrite E2 in Ht.
        destruct (sw_final _ W) as (f & _ & Hff). destruct (Hff _ _ E2) as [F1 F2].
        unfold is_final. cbn [existsb orb]. rewrite Hf, O1, N1, Ht.
        assert (X : (length (n_out nd') =? 0) = n_final nd').
        { destruct (n_final nd').
          - rewrite (proj2 F2); [reflexivity|]. now apply F1.
          - destruct (n_out nd') eqn:Eo; [|reflexivity]. exfalso. assert (false = true) by (apply F1, F2; reflexivity). discriminate. }
        rewrite X. destruct nd'; reflexivity.
      + exfalso. apply nth_error_None in E2. assert (i < length (fst (graph_at (length ls)))) by (apply nth_error_Some; congruence).
        fold n in E2. lia.
    - apply nth_error_None in E1. symmetry. apply nth_error_None. fold n. lia. }
  rewrite En.
  destruct (sw_final _ W) as (f & Hf & Hff).
  rewrite (filter_one_conv n_final (a_nodes a) f Hf) by (intros i x Hx; now apply Hff). cbn [Nat.eqb].
  destruct (nth_error (a_nodes a) (a_initial a)) as [nd|] eqn:Ei; [|apply nth_error_None in Ei; fold n in Ei; lia].
  unfold py_index at 1. rewrite Ei. cbn [bind].
  assert (G2 : graph_ok (a_nodes a) ls).
  { apply (graph_same (a_nodes a) _ (a_links a) ls eq_refl eq_refl); [unfold ls; now rewrite map_map|unfold ls; now rewrite map_map|].
    apply (sw_ok _ W). }
  assert (Hmv : forall l, moved words0 l = l).
  { intros l. unfold moved. destruct (nth_error words0 (k_end l)) as [w|] eqn:Ew; [|reflexivity].
    apply nth_error_In in Ew. apply repeat_spec in Ew. now subst w. }
  destruct (move_words_ok (a_nodes a) ls words0 (a_initial a) G2 Hini (repeat_length _ _) nd Ei)
    as [(ls' & Em & Ll & _ & Hl)|[_ (l & _ & _ & (_ & w & Hc))]].
  2: { apply nth_error_In in Hc. apply repeat_spec in Hc. discriminate. }
  rewrite Em. cbn [bind].
  assert (El : ls' = ls).
  { apply nth_error_ext. intros k. destruct (nth_error ls k) as [l|] eqn:Ek.
    - destruct (Hl k l Ek) as [-> | ->]; [now rewrite Hmv|reflexivity].
    - apply nth_error_None. apply nth_error_None in Ek. lia. }
  rewrite El. unfold without_transitions. rewrite Hu.
  destruct (a_wi_penalty a) as [x|]; [now rewrite Qcmult_1_r|reflexivity].
Qed.
End RoundTrip.
