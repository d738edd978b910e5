(** Independent specification of lattices: well-formedness, edges, paths, cycles
    and orders of nodes. *)
From Coq Require Import QArith Qcanon.
From Verif Require Import Base Strings LatticeModel SlfModel.
Local Open Scope nat_scope.

(** Positions of the links that leave and enter a node, in order of creation *)
Definition links_from (ls : list link) (i : nat) : list nat :=
  filter (fun k => match nth_error ls k with Some l => k_start l =? i | None => false end)
         (seq 0 (length ls)).
Definition links_to (ls : list link) (i : nat) : list nat :=
  filter (fun k => match nth_error ls k with Some l => k_end l =? i | None => false end)
         (seq 0 (length ls)).

(** A consistent graph: the links connect existing nodes and every node knows
    exactly the links that leave it and the links that enter it. *)
Record graph_ok (nodes : list node) (ls : list link) : Prop := {
  go_range : forall l, In l ls -> k_start l < length nodes /\ k_end l < length nodes;
  go_out : forall i n, nth_error nodes i = Some n -> n_out n = links_from ls i;
  go_in : forall i n, nth_error nodes i = Some n -> n_in n = links_to ls i
}.
Definition lattice_ok (a : lattice) : Prop :=
  graph_ok (a_nodes a) (a_links a) /\ a_initial a < length (a_nodes a).

Definition edge (a : lattice) (u v : nat) : Prop :=
  exists l, In l (a_links a) /\ k_start l = u /\ k_end l = v.
(** A path with at least one link *)
Inductive walk (a : lattice) : nat -> nat -> Prop :=
| walk_edge u v : edge a u v -> walk a u v
| walk_step u v w : edge a u v -> walk a v w -> walk a u w.
Definition cyclic (a : lattice) : Prop := exists v, walk a v v.
Definition reachable_node (a : lattice) (v : nat) : Prop :=
  v = a_initial a \/ walk a (a_initial a) v.

(** The nodes that a topological order from the initial node can reach: those
    whose predecessors can all be reached before them. *)
Inductive orderable (a : lattice) : nat -> Prop :=
| ord_initial : orderable a (a_initial a)
| ord_step v : (exists u, edge a u v) -> (forall u, edge a u v -> orderable a u) ->
               orderable a v.

(** The node [v] can come next after the nodes [p]. *)
Definition ready (a : lattice) (p : list nat) (v : nat) : Prop :=
  ~ In v p /\ (exists u, edge a u v) /\ forall u, edge a u v -> In u p.

(** No time stamp counts as later than any time stamp. *)
Definition not_later (a b : option Qc) : Prop :=
  match a, b with
  | _, None => True
  | Some x, Some y => (x <= y)%Qc
  | None, Some _ => False
  end.
Definition time_of (a : lattice) (i : nat) : option Qc :=
  match nth_error (a_nodes a) i with Some n => n_time n | None => None end.

(** The lattice files that are processed in all the jobs together: those on the
    command line followed by those in the list, blank lines left out; the standard
    input if there are none. *)
Definition lattice_paths (lattices list_lines : list pystr) : list pystr :=
  let paths := filter (fun p => negb (pystr_eqb p [])) (map strip (lattices ++ list_lines)) in
  match paths with [] => [str "-"] | _ => paths end.

(** Lines of an archive and its blocks: maximal runs of lines that are not blank. *)
Inductive archive : list pystr -> list (list pystr) -> Prop :=
| ar_end : archive [] []
| ar_blank l ls bs : strip l = [] -> archive ls bs -> archive (l :: ls) bs
| ar_last b : b <> [] -> (forall l, In l b -> strip l <> []) -> archive b [map strip b]
| ar_block b l ls bs : b <> [] -> (forall x, In x b -> strip x <> []) -> strip l = [] ->
    archive ls bs -> archive (b ++ l :: ls) (map strip b :: bs).

(** ** Words on nodes. [node_words] gives for each node the word in the file, if
    there is one; [Some None] is a null word. *)

(** The link with the word of its end node *)
Definition moved (node_words : list (option (option pystr))) (l : link) : link :=
  match nth_error node_words (k_end l) with
  | Some (Some w) => mkLink (k_start l) (k_end l) w (k_ac l) (k_lm l) (k_transitions l)
  | _ => l
  end.
(** Both the link and its end node have a word. *)
Definition clash (node_words : list (option (option pystr))) (l : link) : Prop :=
  k_word l <> None /\ exists w, nth_error node_words (k_end l) = Some (Some w).

(** ** Round trips *)

(** Characters that have no special meaning in SLF fields *)
Definition plain_char (c : char) : Prop :=
  ~ In c [32; 9; 13; 10; 34; 92; 35]%N.     (* whitespace, quote, backslash, hash *)
Definition plain (s : pystr) : Prop := forall c, In c s -> plain_char c.
(** Characters that can appear in a quoted SLF value on one line *)
Definition quotable (s : pystr) : Prop := forall c, In c s -> ~ In c [13; 10; 34; 92]%N.

(** A lattice whose words are plain, and whose final node is the only node that no
    link leaves. *)
Record slf_writable (a : lattice) : Prop := {
  sw_ok : lattice_ok a;
  sw_utterance : exists u, a_utterance a = Some u /\ quotable u;
  sw_words : forall l w, In l (a_links a) -> k_word l = Some w -> plain w /\ is_null_word w = false;
  sw_final : exists f, f < length (a_nodes a) /\ forall i n, nth_error (a_nodes a) i = Some n ->
               (n_final n = true <-> i = f) /\ (n_out n = [] <-> i = f)
}.
(** The same lattice without FST transitions *)
Definition without_transitions (a : lattice) : lattice :=
  mkLattice (a_nodes a)
            (map (fun l => mkLink (k_start l) (k_end l) (k_word l) (k_ac l) (k_lm l) []) (a_links a))
            (a_initial a) (a_utterance a) (a_lm_scale a) (a_wi_penalty a).

(** int() and float() read back what str() shows of an integer or a number. *)
Record number_text (parse_int : pystr -> result Z) (parse_float : pystr -> result Qc)
       (show_num : Qc -> pystr) : Prop := {
  nt_int : forall n, parse_int (show_int n) = Ok (Z.of_nat n);
  nt_num : forall x, parse_float (show_num x) = Ok x;
  nt_nonempty : forall x, show_num x <> [];
  nt_plain : forall x c, In c (show_num x) -> ~ In c [32; 9; 13; 10; 34; 92; 35; 44]%N /\ is_space c = false
}.

(** str() of the word IDs of a Kaldi vocabulary *)
Record id_text (parse_int : pystr -> result Z) (show_z : Z -> pystr) : Prop := {
  it_int : forall z, parse_int (show_z z) = Ok z;
  it_nonempty : forall z, show_z z <> [];
  it_nospace : forall z c, In c (show_z z) -> is_space c = false
}.

(** What the links that leave a node say, in order *)
Definition out_links (a : lattice) (i : nat) : list link :=
  filter (fun l => k_start l =? i) (a_links a).
Definition is_final_node (a : lattice) (i : nat) : bool :=
  match nth_error (a_nodes a) i with Some n => n_final n | None => false end.

(** The sequences of labels on the paths from a node to a final node *)
Definition label := (option pystr * option Qc * option Qc * pystr)%type.
Definition link_label (l : link) : label := (k_word l, k_ac l, k_lm l, k_transitions l).
Inductive accepts (a : lattice) : nat -> list label -> Prop :=
| acc_final i : is_final_node a i = true -> accepts a i []
| acc_link l ls : In l (a_links a) -> accepts a (k_end l) ls ->
                  accepts a (k_start l) (link_label l :: ls).

(** A Kaldi vocabulary whose words have different IDs *)
Definition kaldi_vocabulary_ok (word_to_id : list (pystr * Z)) : Prop :=
  NoDup (map fst word_to_id) /\ NoDup (map snd word_to_id) /\
  forall w z, In (w, z) word_to_id -> (0 <= z < Z.of_nat (length word_to_id))%Z.

(** A lattice that can be written in the Kaldi text format: it starts from the
    first node that has outgoing links, nothing leaves the final nodes, every link
    has scores, the links to a final node have no words, and the words of the other
    links are ordinary words of the vocabulary. *)
Record kaldi_writable (word_to_id : list (pystr * Z)) (a : lattice) : Prop := {
  kw_ok : lattice_ok a;
  kw_utterance : exists u, a_utterance a = Some u /\ u <> [] /\ forall c, In c u -> is_space c = false;
  kw_initial : out_links a (a_initial a) <> [] /\
               forall i, i < a_initial a -> out_links a i = [];
  kw_final : forall i, is_final_node a i = true -> out_links a i = [];
  kw_scores : forall l, In l (a_links a) -> k_ac l <> None /\ k_lm l <> None;
  kw_final_words : forall l, In l (a_links a) -> is_final_node a (k_end l) = true -> k_word l = None;
  kw_words : forall l, In l (a_links a) -> is_final_node a (k_end l) = false ->
             match k_word l with
             | None => In (str "<eps>") (map fst word_to_id)
             | Some w => In w (map fst word_to_id) /\ ~ In w [str "<eps>"; str "#0"; SOS; EOS]
             end;
  kw_transitions : forall l c, In l (a_links a) -> In c (k_transitions l) ->
                   is_space c = false /\ c <> 44%N
}.

(** [a'] is [a] with one final node, [f], to which the links to the final nodes of
    [a] lead; times and scales are not kept. *)
Definition retarget (a : lattice) (f : nat) (l : link) : link :=
  mkLink (k_start l) (if is_final_node a (k_end l) then f else k_end l)
         (k_word l) (k_ac l) (k_lm l) (k_transitions l).
Definition same_links (a a' : lattice) : Prop :=
  a_initial a' = a_initial a /\ a_utterance a' = a_utterance a /\
  exists f, (forall i, is_final_node a' i = true <-> i = f) /\
            (forall l, In l (a_links a) -> k_start l <> f /\ (k_end l = f -> is_final_node a f = true)) /\
            forall i, out_links a' i = map (retarget a f) (out_links a i).
