(** Independent specification of Kaldi lattices in text format and of Kaldi word
    lists. The parts of a line are separated by whitespace (Strings.split). *)
From Coq Require Import QArith Qcanon.
From Verif Require Import Base Strings LatticeModel LatticeSpec SlfSpec.
Local Open Scope nat_scope.

(** An arc: the state it leaves; the state it enters and its word, or nothing for a
    final weight; the negated graph and acoustic costs, and the transitions *)
Record arc := mkArc {
  r_from : nat;
  r_to : option (nat * option pystr);
  r_lm : Qc;
  r_ac : Qc;
  r_transitions : pystr
}.

Section Kaldi.
Variable parse_int : pystr -> result Z.
Variable parse_float : pystr -> result Qc.

(** The parts of a string that is separated by commas *)
Definition comma_parts (s : pystr) (parts : list pystr) : Prop :=
  parts <> [] /\ s = join (str ",") parts /\ forall p, In p parts -> ~ In 44%N p.

(** A cost is negated; a missing or empty cost is zero. *)
Definition cost_logprob (part : option pystr) (x : Qc) : Prop :=
  match part with
  | None | Some [] => x = 0%Qc
  | Some s => parse_float s = Ok (- x)%Qc
  end.
(** "graph cost,acoustic cost,transitions" *)
Definition weight_of (weight : pystr) (lm ac : Qc) (transitions : pystr) : Prop :=
  exists parts, comma_parts weight parts /\
    cost_logprob (nth_error parts 0) lm /\ cost_logprob (nth_error parts 1) ac /\
    transitions = nth 2 parts [].

(** The word that an ID means: <eps> and IDs that are not in use mean no word. *)
Definition word_of (id_to_word : list (option pystr)) (z : Z) (word : option pystr) : Prop :=
  exists i entry, position (length id_to_word) z i /\ nth_error id_to_word i = Some entry /\
    match entry with
    | None => word = None
    | Some w => (w = str "<eps>" /\ word = None) \/
                (~ In w [str "<eps>"; str "#0"; SOS; EOS] /\ word = Some w)
    end.

Inductive line_arc (id_to_word : list (option pystr)) (line : pystr) : arc -> Prop :=
| la_final s from : split line = [s] -> parse_int s = Ok (Z.of_nat from) ->
    line_arc id_to_word line (mkArc from None 0%Qc 0%Qc [])
| la_weight s weight from lm ac transitions :
    split line = [s; weight] -> parse_int s = Ok (Z.of_nat from) ->
    weight_of weight lm ac transitions ->
    line_arc id_to_word line (mkArc from None lm ac transitions)
| la_link s t w weight from to z word lm ac transitions :
    split line = [s; t; w; weight] -> parse_int s = Ok (Z.of_nat from) ->
    parse_int t = Ok (Z.of_nat to) -> parse_int w = Ok z -> word_of id_to_word z word ->
    weight_of weight lm ac transitions ->
    line_arc id_to_word line (mkArc from (Some (to, word)) lm ac transitions).

(** The number of states: one more than the greatest state number *)
Definition arc_states (r : arc) : list nat :=
  r_from r :: match r_to r with Some (t, _) => [t] | None => [] end.
Definition num_states (rs : list arc) : nat :=
  fold_right Nat.max 0 (map S (concat (map arc_states rs))).

(** The link of an arc; final weights are on links to the final node [f]. *)
Definition arc_link (f : nat) (r : arc) : link :=
  match r_to r with
  | Some (t, w) => mkLink (r_from r) t w (Some (r_ac r)) (Some (r_lm r)) (r_transitions r)
  | None => mkLink (r_from r) f None (Some (r_ac r)) (Some (r_lm r)) (r_transitions r)
  end.

(** The lattice that the lines of a file describe: the arcs on the nonblank lines
    after the first one, in order, starting from the state that the first of them
    leaves, and a final node after all states. *)
Definition kaldi_contents (lines : list pystr) (id_to_word : list (option pystr)) (a : lattice) : Prop :=
  exists first rest arcs r0,
    lines = first :: rest /\
    Forall2 (line_arc id_to_word) (filter (fun l => negb (pystr_eqb (strip l) [])) rest) arcs /\
    nth_error arcs 0 = Some r0 /\
    a_initial a = r_from r0 /\
    a_utterance a = Some (strip first) /\ a_lm_scale a = None /\ a_wi_penalty a = None /\
    length (a_nodes a) = S (num_states arcs) /\
    (forall i n, nth_error (a_nodes a) i = Some n ->
       n_time n = None /\ (n_final n = true <-> i = num_states arcs)) /\
    a_links a = map (arc_link (num_states arcs)) arcs /\
    lattice_ok a.

(** No state number in the file is negative. *)
Definition no_negative_states (lines : list pystr) : Prop :=
  forall line z, In line lines ->
    (exists s rest, split line = s :: rest /\ parse_int s = Ok z) \/
    (exists s t w x, split line = [s; t; w; x] /\ parse_int t = Ok z) -> (0 <= z)%Z.

(** ** Word lists: "word ID" on each line *)
Definition word_line (line : pystr) (w : pystr) (z : Z) : Prop :=
  exists s, split line = [w; s] /\ parse_int s = Ok z.
Definition word_list_ok (lines : list pystr) : Prop :=
  forall line, In line lines -> strip line = [] \/ exists w z, word_line line w z.
(** The ID of a word is on the last line that has the word. *)
Definition word_list_id (lines : list pystr) (w : pystr) (z : Z) : Prop :=
  exists before line after, lines = before ++ line :: after /\ word_line line w z /\
    forall line' z', In line' after -> ~ word_line line' w z'.
End Kaldi.
