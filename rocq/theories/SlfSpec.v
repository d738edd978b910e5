(** Independent specification of the contents of SLF files: rows of fields, what a
    header, a node line and a link line say, and the lattice that a file describes.
    The tokens of a line are those of Python's shlex (SlfModel.split_slf_line). *)
From Coq Require Import QArith Qcanon.
From Verif Require Import Base Strings LatticeModel SlfModel LatticeSpec.
Local Open Scope nat_scope.

(** A field is "name=value", where the name contains no equals sign. *)
Definition is_field (f : pystr) (nv : pystr * pystr) : Prop :=
  f = fst nv ++ str "=" ++ snd nv /\ ~ In 61%N (fst nv).
Notation row := (list (pystr * pystr)).

(** The value of the last of the fields that have one of the names; all values *)
Definition name_in (names : list pystr) (n : pystr) : bool := existsb (pystr_eqb n) names.
Definition all_values (names : list pystr) (r : row) : list pystr :=
  map snd (filter (fun nv => name_in names (fst nv)) r).
Definition last_value (names : list pystr) (r : row) : option pystr :=
  match rev (all_values names r) with v :: _ => Some v | [] => None end.

Definition N_UTTERANCE := [str "UTTERANCE"; str "U"].
Definition N_SUBLAT := [str "SUBLAT"; str "S"].
Definition N_BASE := [str "base"].
Definition N_LMSCALE := [str "lmscale"].
Definition N_WDPENALTY := [str "wdpenalty"].
Definition N_INITIAL := [str "start"].
Definition N_FINAL := [str "end"].
Definition N_NODES := [str "NODES"; str "N"].
Definition N_LINKS := [str "LINKS"; str "L"].
Definition N_TIME := [str "time"; str "t"].
Definition N_WORD := [str "WORD"; str "W"].
Definition N_START := [str "START"; str "S"].
Definition N_END := [str "END"; str "E"].
Definition N_AC := [str "acoustic"; str "a"].
Definition N_LM := [str "language"; str "l"].

(** Position [i] of a list of length [n] when indexed by the integer [z]; negative
    integers count from the end. *)
Definition position (n : nat) (z : Z) (i : nat) : Prop :=
  i < n /\ ((0 <= z)%Z /\ Z.of_nat i = z \/ (z < 0)%Z /\ Z.of_nat i = (z + Z.of_nat n)%Z).

(** A word that starts with ! or # is a null word. *)
Definition shown_word (w : pystr) : option pystr :=
  match w with
  | c :: _ => if N.eqb c 33 || N.eqb c 35 then None else Some w
  | [] => Some w
  end.

Section Contents.
Variable parse_int : pystr -> result Z.
Variable parse_float : pystr -> result Qc.
Variable nlog : Qc -> Qc.

(** An optional value and the number that it means *)
Definition means {A} (parse : pystr -> result A) (v : option pystr) (x : option A) : Prop :=
  match v, x with
  | None, None => True
  | Some v, Some x => parse v = Ok x
  | _, _ => False
  end.

(** How numbers are changed to natural logarithms: the base in the header is the
    base of the logarithms in the file, and zero means that the numbers are not
    logarithms. Without a base they are natural logarithms. *)
Inductive log_base := Natural | Linear | Base (b : Qc).
Definition base_of (v : option pystr) (s : log_base) : Prop :=
  match v with
  | None => s = Natural
  | Some v => exists b, parse_float v = Ok b /\
                        (b = 0%Qc /\ s = Linear \/ b <> 0%Qc /\ s = Base b)
  end.
Definition to_natural (s : log_base) (x : Qc) : Qc :=
  match s with
  | Natural => x
  | Linear => nlog x
  | Base b => (x * nlog b)%Qc
  end.
Definition score (s : log_base) (v : option pystr) (y : option Qc) : Prop :=
  exists x, means parse_float v x /\ y = option_map (to_natural s) x.

(** ** The header: the lines up to the one where both numbers are known *)
Definition has_size (r : row) : Prop :=
  last_value N_NODES r <> None /\ last_value N_LINKS r <> None.
Inductive line_row (line : pystr) : row -> Prop :=
| lr fields r : split_slf_line line = Ok fields -> Forall2 is_field fields r -> line_row line r.
Record header_of (lines : list pystr) (h : row) (body : list pystr) : Prop := {
  ho_rows : exists hlines line rows last, lines = hlines ++ line :: body /\
            Forall2 line_row hlines rows /\ line_row line last /\
            h = concat rows ++ last /\
            forall k, ~ has_size (concat (firstn k rows));
  ho_size : has_size h
}.

(** ** The other lines *)
Inductive entry := ENode (i : nat) (r : row) | ELink (r : row) | EOther.
Inductive line_entry (n : nat) (line : pystr) : entry -> Prop :=
| le_blank : split_slf_line line = Ok [] -> line_entry n line EOther
| le_other f fs nv : split_slf_line line = Ok (f :: fs) -> is_field f nv ->
    ~ In (fst nv) [str "I"; str "J"] -> line_entry n line EOther
| le_node f fs v z i r : split_slf_line line = Ok (f :: fs) -> is_field f (str "I", v) ->
    parse_int v = Ok z -> position n z i -> Forall2 is_field fs r -> line_entry n line (ENode i r)
| le_link f fs v z r : split_slf_line line = Ok (f :: fs) -> is_field f (str "J", v) ->
    parse_int v = Ok z -> Forall2 is_field fs r -> line_entry n line (ELink r).

(** All fields that are given to a node, and the rows of the links *)
Definition node_row (es : list entry) (i : nat) : row :=
  concat (map (fun e => match e with ENode j r => if j =? i then r else [] | _ => [] end) es).
Definition link_rows (es : list entry) : list row :=
  concat (map (fun e => match e with ELink r => [r] | _ => [] end) es).

(** The link that a row describes, with the word that is on the link *)
Record row_link (s : log_base) (n : nat) (r : row) (l : link) : Prop := {
  rl_start : exists z, means parse_int (last_value N_START r) (Some z) /\ position n z (k_start l);
  rl_end : exists z, means parse_int (last_value N_END r) (Some z) /\ position n z (k_end l);
  rl_word : k_word l = match last_value N_WORD r with Some w => shown_word w | None => None end;
  rl_ac : score s (last_value N_AC r) (k_ac l);
  rl_lm : score s (last_value N_LM r) (k_lm l);
  rl_transitions : k_transitions l = []
}.

(** The word of a link when the word [w] is given to its end node *)
Definition node_word_link (w : option pystr) (l l' : link) : Prop :=
  match w with
  | None => l' = l
  | Some w => k_word l = None /\
              l' = mkLink (k_start l) (k_end l) (shown_word w) (k_ac l) (k_lm l) (k_transitions l)
  end.

(** The lattice [a] that a file describes *)
Definition slf_contents (lines : list pystr) (a : lattice) : Prop :=
  exists h body es s ls,
    header_of lines h body /\
    base_of (last_value N_BASE h) s /\
    all_values N_SUBLAT h = [] /\
    (exists z, means parse_int (last_value N_NODES h) (Some z) /\ length (a_nodes a) = Z.to_nat z) /\
    means parse_int (last_value N_LINKS h) (Some (Z.of_nat (length (a_links a)))) /\
    a_utterance a = last_value N_UTTERANCE h /\
    means parse_float (last_value N_LMSCALE h) (a_lm_scale a) /\
    score s (last_value N_WDPENALTY h) (a_wi_penalty a) /\
    match last_value N_INITIAL h with
    | Some v => exists z, parse_int v = Ok z /\ position (length (a_nodes a)) z (a_initial a)
    | None => a_initial a < length (a_nodes a) /\ links_to (a_links a) (a_initial a) = [] /\
              forall i, i < a_initial a -> links_to (a_links a) i <> []
    end /\
    (forall i n, nth_error (a_nodes a) i = Some n ->
       means parse_float (last_value N_TIME (node_row es i)) (n_time n) /\
       (n_final n = true <->
        links_from (a_links a) i = [] \/
        exists v, In v (all_values N_FINAL h) /\ parse_int v = Ok (Z.of_nat i))) /\
    Forall2 (line_entry (length (a_nodes a))) body es /\
    Forall2 (row_link s (length (a_nodes a))) (link_rows es) ls /\
    Forall2 (fun l l' =>
               (reachable_node a (k_start l) ->
                node_word_link (last_value N_WORD (node_row es (k_end l))) l l') /\
               (~ reachable_node a (k_start l) -> l' = l)) ls (a_links a).
End Contents.
