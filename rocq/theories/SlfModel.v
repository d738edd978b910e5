(** Model of theanolm/scoring/slflattice.py and of Lattice.write_slf(). *)
From Coq Require Import QArith Qcanon.
From Coq Require Decimal DecimalNat.
From Verif Require Import Base Strings LatticeModel.
Local Open Scope nat_scope.

(** ** shlex *)

Definition quote : char := 34%N.
Definition backslash : char := 92%N.
Definition hash : char := 35%N.
Definition equals : char := 61%N.
Definition tab : char := 9%N.
(** shlex.whitespace = ' \t\r\n' *)
Definition lex_space (c : char) : bool := existsb (N.eqb c) [32; 9; 13; 10]%N.

(** States of the lexical analyzer: between tokens, in a word, in quotes, after a
    backslash (the flag tells if it is in quotes), and in a comment. *)
Inductive lex_state := LSpace | LWord | LQuote | LEscape (in_quotes : bool) | LComment.

(** slflattice.py 15-35, _split_slf_line(): the token list of Python's
    shlex(line, posix=True) where only double quotes quote and whitespace_split=True.  [token] is
    the current token in reverse order, [quoted] is true when it has been quoted. *)
Fixpoint lex (s : pystr) (st : lex_state) (token : pystr) (quoted : bool)
  : result (list pystr) :=
  match s with
  | [] =>
    match st with
    | LQuote | LEscape _ => Err ValueError
    | LWord => match token, quoted with
               | [], false => Ok []
               | _, _ => Ok [rev token]
               end
    | LSpace | LComment => Ok []
    end
  | c :: s' =>
    match st with
    | LSpace =>
      if lex_space c then lex s' LSpace [] false
      else if N.eqb c hash then lex s' LComment [] false
      else if N.eqb c backslash then lex s' (LEscape false) [] false
      else if N.eqb c quote then lex s' LQuote [] false
      else lex s' LWord [c] false
    | LComment => lex s' (if N.eqb c newline then LSpace else LComment) [] false
    | LQuote =>
      if N.eqb c quote then lex s' LWord token true
      else if N.eqb c backslash then lex s' (LEscape true) token true
      else lex s' LQuote (c :: token) true
    | LEscape q =>
      let token := if q && negb (N.eqb c backslash) && negb (N.eqb c quote)
                   then backslash :: token else token in
      lex s' (if q then LQuote else LWord) (c :: token) quoted
    | LWord =>
      if lex_space c || N.eqb c hash
      then
        let st := if lex_space c then LSpace else LComment in
        match token, quoted with
        | [], false => lex s' st [] false
        | _, _ => do rest <- lex s' st [] false; Ok (rev token :: rest)
        end
      else if N.eqb c quote then lex s' LQuote token quoted
      else if N.eqb c backslash then lex s' (LEscape false) token quoted
      else lex s' LWord (c :: token) quoted
    end
  end.
Definition split_slf_line (line : pystr) : result (list pystr) := lex line LSpace [] false.

(** field.split('=', 1) *)
Fixpoint split_equals (s : pystr) : option (pystr * pystr) :=
  match s with
  | [] => None
  | c :: s' =>
    if N.eqb c equals then Some ([], s')
    else match split_equals s' with
         | Some (name, value) => Some (c :: name, value)
         | None => None
         end
  end.

(** slflattice.py 37-53, _split_slf_field() *)
Definition split_slf_field (field : pystr) : result (pystr * pystr) :=
  match split_equals field with
  | Some nv => Ok nv
  | None => Err InputError
  end.

Definition is_name (name : pystr) (a b : pystr) : bool :=
  pystr_eqb name a || pystr_eqb name b.

(** Python list indexing with any integer: the position that is meant *)
Definition py_position (len : nat) (z : Z) : result nat :=
  if (0 <=? z)%Z
  then if Z.to_nat z <? len then Ok (Z.to_nat z) else Err IndexError
  else if (0 <=? z + Z.of_nat len)%Z then Ok (Z.to_nat (z + Z.of_nat len)) else Err IndexError.

(** word.startswith('!') or word.startswith('#') *)
Definition is_null_word (w : pystr) : bool :=
  match w with c :: _ => N.eqb c 33 || N.eqb c hash | [] => false end.

(** Iterating over a file: the lines with their newlines *)
Fixpoint file_lines (data : pystr) : list pystr :=
  match data with
  | [] => []
  | c :: data' =>
    if N.eqb c newline then [c] :: file_lines data'
    else match file_lines data' with
         | [] => [[c]]
         | l :: ls => (c :: l) :: ls
         end
  end.

Section Slf.
(** int() and float() of a string; the natural logarithm. *)
Variable parse_int : pystr -> result Z.
Variable parse_float : pystr -> result Qc.
Variable nlog : Qc -> Qc.

(** Attributes that the header sets. [h_log_scale] is None for linear
    probabilities. *)
Record slf_header := mkHeader {
  h_utterance : option pystr;
  h_log_scale : option Qc;
  h_lm_scale : option Qc;
  h_wi_penalty : option Qc;
  h_start : option Z;
  h_end : list Z;
  h_num_nodes : option Z;
  h_num_links : option Z
}.
(** slflattice.py 72-87 *)
Definition empty_header : slf_header := mkHeader None (Some 1%Qc) None None None [] None None.

(** slflattice.py 155-178, one field of _read_slf_header() *)
Definition read_header_field (h : slf_header) (field : pystr) : result slf_header :=
  do '(name, value) <- split_slf_field field;
  if is_name name (str "UTTERANCE") (str "U") then                     (* 157-158 *)
    Ok (mkHeader (Some value) (h_log_scale h) (h_lm_scale h) (h_wi_penalty h) (h_start h)
                 (h_end h) (h_num_nodes h) (h_num_links h))
  else if is_name name (str "SUBLAT") (str "S") then Err InputError    (* 159-160 *)
  else if pystr_eqb name (str "base") then                             (* 161-166 *)
    do base <- parse_float value;
    let scale := if Qc_eq_dec base 0%Qc then None else Some (nlog base) in
    Ok (mkHeader (h_utterance h) scale (h_lm_scale h) (h_wi_penalty h) (h_start h)
                 (h_end h) (h_num_nodes h) (h_num_links h))
  else if pystr_eqb name (str "lmscale") then                          (* 167-168 *)
    do x <- parse_float value;
    Ok (mkHeader (h_utterance h) (h_log_scale h) (Some x) (h_wi_penalty h) (h_start h)
                 (h_end h) (h_num_nodes h) (h_num_links h))
  else if pystr_eqb name (str "wdpenalty") then                        (* 169-170 *)
    do x <- parse_float value;
    Ok (mkHeader (h_utterance h) (h_log_scale h) (h_lm_scale h) (Some x) (h_start h)
                 (h_end h) (h_num_nodes h) (h_num_links h))
  else if pystr_eqb name (str "start") then                            (* 171-172 *)
    do i <- parse_int value;
    Ok (mkHeader (h_utterance h) (h_log_scale h) (h_lm_scale h) (h_wi_penalty h) (Some i)
                 (h_end h) (h_num_nodes h) (h_num_links h))
  else if pystr_eqb name (str "end") then                              (* 173-174 *)
    do i <- parse_int value;
    Ok (mkHeader (h_utterance h) (h_log_scale h) (h_lm_scale h) (h_wi_penalty h) (h_start h)
                 (h_end h ++ [i]) (h_num_nodes h) (h_num_links h))
  else if is_name name (str "NODES") (str "N") then                    (* 175-176 *)
    do i <- parse_int value;
    Ok (mkHeader (h_utterance h) (h_log_scale h) (h_lm_scale h) (h_wi_penalty h) (h_start h)
                 (h_end h) (Some i) (h_num_links h))
  else if is_name name (str "LINKS") (str "L") then                    (* 177-178 *)
    do i <- parse_int value;
    Ok (mkHeader (h_utterance h) (h_log_scale h) (h_lm_scale h) (h_wi_penalty h) (h_start h)
                 (h_end h) (h_num_nodes h) (Some i))
  else Ok h.

(** slflattice.py 88-95: the header, the numbers of nodes and links, and the lines
    that have not been read *)
Fixpoint read_header (h : slf_header) (lines : list pystr)
  : result (slf_header * Z * Z * list pystr) :=
  match lines with
  | [] => Err InputError                                               (* 93-95 *)
  | line :: lines' =>
    do fields <- split_slf_line line;                                  (* 89 *)
    do h <- foldM read_header_field fields h;                          (* 90 *)
    match h_num_nodes h, h_num_links h with
    | Some n, Some l => Ok (h, n, l, lines')                           (* 91-92 *)
    | _, _ => read_header h lines'
    end
  end.

(** State of reading: nodes, links, and the attribute "word" of the nodes, which
    may be missing, None or a string. *)
Record slf_state := mkSlf {
  g_nodes : list node;
  g_links : list link;
  g_node_words : list (option (option pystr))
}.

(** slflattice.py 195-200, one field of a node *)
Definition read_node_field (x : option Qc * option (option pystr)) (field : pystr)
  : result (option Qc * option (option pystr)) :=
  do '(name, value) <- split_slf_field field;
  if is_name name (str "time") (str "t") then
    do t <- parse_float value; Ok (Some t, snd x)
  else if is_name name (str "WORD") (str "W") then Ok (fst x, Some (Some value))
  else Ok x.

(** slflattice.py 180-204, _read_slf_node() *)
Definition read_node (st : slf_state) (node_id : Z) (fields : list pystr) : result slf_state :=
  do i <- py_position (length (g_nodes st)) node_id;                   (* 194 *)
  do nd <- py_index (g_nodes st) i;
  do w <- py_index (g_node_words st) i;
  do '(time, w) <- foldM read_node_field fields (n_time nd, w);
  do w <- match w with
          | None => Ok None
          | Some None => Err AttributeError                            (* 203: None.startswith *)
          | Some (Some x) => Ok (Some (if is_null_word x then None else Some x)) (* 202-204 *)
          end;
  Ok (mkSlf (upd (g_nodes st) i (mkNode (n_out nd) (n_in nd) time (n_final nd)))
            (g_links st) (upd (g_node_words st) i w)).

(** Local variables of _read_slf_link(). *)
Record link_fields := mkFields {
  f_start : option nat;
  f_end : option nat;
  f_word : option pystr;
  f_ac : option Qc;
  f_lm : option Qc
}.

(** slflattice.py 231-234, 236-239 *)
Definition read_logprob (log_scale : option Qc) (value : pystr) : result Qc :=
  do x <- parse_float value;
  Ok (match log_scale with None => nlog x | Some s => (x * s)%Qc end).

(** slflattice.py 222-239, one field of a link *)
Definition read_link_field (log_scale : option Qc) (num_nodes : nat) (x : link_fields) (field : pystr)
  : result link_fields :=
  do '(name, value) <- split_slf_field field;
  if is_name name (str "START") (str "S") then
    do i <- parse_int value; do i <- py_position num_nodes i;
    Ok (mkFields (Some i) (f_end x) (f_word x) (f_ac x) (f_lm x))
  else if is_name name (str "END") (str "E") then
    do i <- parse_int value; do i <- py_position num_nodes i;
    Ok (mkFields (f_start x) (Some i) (f_word x) (f_ac x) (f_lm x))
  else if is_name name (str "WORD") (str "W") then
    Ok (mkFields (f_start x) (f_end x) (Some value) (f_ac x) (f_lm x))
  else if is_name name (str "acoustic") (str "a") then
    do p <- read_logprob log_scale value;
    Ok (mkFields (f_start x) (f_end x) (f_word x) (Some p) (f_lm x))
  else if is_name name (str "language") (str "l") then
    do p <- read_logprob log_scale value;
    Ok (mkFields (f_start x) (f_end x) (f_word x) (f_ac x) (Some p))
  else Ok x.

(** slflattice.py 206-254, _read_slf_link() *)
Definition read_link (log_scale : option Qc) (st : slf_state) (fields : list pystr)
  : result slf_state :=
  do x <- foldM (read_link_field log_scale (length (g_nodes st))) fields
                (mkFields None None None None None);
  match f_start x, f_end x with
  | Some s, Some e =>
    let word := match f_word x with
                | Some w => if is_null_word w then None else Some w    (* 252-254 *)
                | None => None
                end in
    let (nodes, links) := add_link (g_nodes st, g_links st)
                                   (mkLink s e word (f_ac x) (f_lm x) []) in (* 247-250 *)
    Ok (mkSlf nodes links (g_node_words st))
  | _, _ => Err InputError                                             (* 241-246 *)
  end.

(** slflattice.py 105-113, one line after the header *)
Definition read_body_line (log_scale : option Qc) (st : slf_state) (line : pystr)
  : result slf_state :=
  do fields <- split_slf_line line;
  match fields with
  | [] => Ok st                                                        (* 107-108 *)
  | first :: rest =>
    do '(name, value) <- split_slf_field first;
    if pystr_eqb name (str "I") then                                   (* 110-111 *)
      do i <- parse_int value; read_node st i rest
    else if pystr_eqb name (str "J") then                              (* 112-113 *)
      do _ <- parse_int value; read_link log_scale st rest
    else Ok st
  end.

(** slflattice.py 123-129: the first node without incoming links *)
Fixpoint find_initial (i : nat) (nodes : list node) : result nat :=
  match nodes with
  | [] => Err InputError
  | n :: nodes' => match n_in n with [] => Ok i | _ => find_initial (S i) nodes' end
  end.

(** slflattice.py 132-135 *)
Definition is_final (final_ids : list Z) (i : nat) (n : node) : bool :=
  existsb (Z.eqb (Z.of_nat i)) final_ids || (length (n_out n) =? 0).
Definition mark_final (final_ids : list Z) (nodes : list node) : list node :=
  map (fun xn => mkNode (n_out (snd xn)) (n_in (snd xn)) (n_time (snd xn))
                        (n_final (snd xn) || is_final final_ids (fst xn) (snd xn)))
      (combine (seq 0 (length nodes)) nodes).

(** slflattice.py 256-285, _move_words_to_links(). The recursive calls are made in
    the order of a stack of links; the depth of Python's recursion is not modelled. *)
Fixpoint move_words (fuel : nat) (nodes : list node) (node_words : list (option (option pystr)))
         (links : list link) (visited : list nat) (stack : list nat) : result (list link) :=
  match stack with
  | [] => Ok links
  | k :: stack =>
    match fuel with
    | 0 => Err OutOfFuel
    | S fuel' =>
      do l <- py_index links k;
      do n <- py_index nodes (k_end l);
      do w <- py_index node_words (k_end l);
      do links <- match w with
                  | None => Ok links
                  | Some word =>                                       (* 273 *)
                    match k_word l with
                    | None => Ok (upd links k (mkLink (k_start l) (k_end l) word (k_ac l) (k_lm l)
                                                      (k_transitions l))) (* 274-275 *)
                    | Some _ => Err InputError                         (* 276-278 *)
                    end
                  end;
      if existsb (Nat.eqb (k_end l)) visited                           (* 279 *)
      then move_words fuel' nodes node_words links visited stack
      else move_words fuel' nodes node_words links (k_end l :: visited) (n_out n ++ stack)
                                                                       (* 280-282 *)
    end
  end.

(** slflattice.py 62-146, __init__() *)
Definition read_slf_lines (lines : list pystr) : result lattice :=
  do '(h, num_nodes, num_links, rest) <- read_header empty_header lines; (* 88-95 *)
  let wi_penalty := match h_wi_penalty h with
                    | None => None
                    | Some x => Some (match h_log_scale h with
                                      | None => nlog x
                                      | Some s => (x * s)%Qc
                                      end)
                    end in                                             (* 97-101 *)
  let num_nodes := Z.to_nat num_nodes in
  do st <- foldM (read_body_line (h_log_scale h)) rest
                 (mkSlf (repeat new_node num_nodes) [] (repeat None num_nodes)); (* 103-113 *)
  if (Z.of_nat (length (g_links st)) =? num_links)%Z then              (* 115 *)
    do initial <- match h_start h with
                  | Some i => py_position (length (g_nodes st)) i      (* 119-120 *)
                  | None => find_initial 0 (g_nodes st)                (* 122-129 *)
                  end;
    let nodes := mark_final (h_end h) (g_nodes st) in                  (* 131-135 *)
    if length (filter n_final nodes) =? 1 then                         (* 137-142 *)
      do n <- py_index nodes initial;
      do links <- move_words (S (length (g_links st))) nodes (g_node_words st) (g_links st)
                             [initial] (n_out n);                      (* 146 *)
      Ok (mkLattice nodes links initial (h_utterance h) (h_lm_scale h) wi_penalty)
    else Err InputError
  else Err InputError.                                                 (* 115-117 *)
Definition read_slf (data : pystr) : result lattice := read_slf_lines (file_lines data).

(** ** lattice.py 93-134, write_slf() *)

(** str() of a number *)
Variable show_num : Qc -> pystr.

(** str() of a nonnegative integer *)
Fixpoint show_uint (u : Decimal.uint) : pystr :=
  match u with
  | Decimal.Nil => []
  | Decimal.D0 u => 48%N :: show_uint u
  | Decimal.D1 u => 49%N :: show_uint u
  | Decimal.D2 u => 50%N :: show_uint u
  | Decimal.D3 u => 51%N :: show_uint u
  | Decimal.D4 u => 52%N :: show_uint u
  | Decimal.D5 u => 53%N :: show_uint u
  | Decimal.D6 u => 54%N :: show_uint u
  | Decimal.D7 u => 55%N :: show_uint u
  | Decimal.D8 u => 56%N :: show_uint u
  | Decimal.D9 u => 57%N :: show_uint u
  end.
Definition show_int (n : nat) : pystr := show_uint (Nat.to_uint n).

Definition optional {A} (o : option A) (f : A -> pystr) : list pystr :=
  match o with Some x => [f x] | None => [] end.

(** lattice.py 115-119, one node *)
Definition slf_node_line (i : nat) (n : node) : pystr :=
  join [tab] ((str "I=" ++ show_int i) :: optional (n_time n) (fun t => str "t=" ++ show_num t))
  ++ [newline].
(** lattice.py 122-134, one link *)
Definition slf_link_line (k : nat) (l : link) : pystr :=
  join [tab] ([str "J=" ++ show_int k; str "S=" ++ show_int (k_start l);
               str "E=" ++ show_int (k_end l);
               str "W=" ++ match k_word l with Some w => w | None => str "!NULL" end]
              ++ optional (k_ac l) (fun x => str "a=" ++ show_num x)
              ++ optional (k_lm l) (fun x => str "l=" ++ show_num x))
  ++ [newline].
(** lattice.py 100-134, the lines of the file. The empty list of fields (108)
    writes nothing. *)
Definition slf_lines (a : lattice) : list pystr :=
  [str "# Header (generated by TheanoLM)" ++ [newline];
   str "VERSION=1.1" ++ [newline];
   str "UTTERANCE=" ++ [quote]
     ++ match a_utterance a with Some u => u | None => str "None" end ++ [quote; newline]]
  ++ match optional (a_lm_scale a) (fun x => str "lmscale=" ++ show_num x)
           ++ optional (a_wi_penalty a) (fun x => str "wdpenalty=" ++ show_num x) with
     | [] => []
     | fields => [join [tab] fields ++ [newline]]
     end
  ++ [str "start=" ++ show_int (a_initial a) ++ [newline];
      str "N=" ++ show_int (length (a_nodes a)) ++ [tab]
        ++ str "L=" ++ show_int (length (a_links a)) ++ [newline];
      str "# Nodes" ++ [newline]]
  ++ map (fun x => slf_node_line (fst x) (snd x)) (combine (seq 0 (length (a_nodes a))) (a_nodes a))
  ++ [str "# Links" ++ [newline]]
  ++ map (fun x => slf_link_line (fst x) (snd x)) (combine (seq 0 (length (a_links a))) (a_links a)).
Definition write_slf (a : lattice) : pystr := concat (slf_lines a).

End Slf.
