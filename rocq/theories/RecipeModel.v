(** Model of the recipe scripts: n-gram counts, class definitions, and the correction of class
    membership probabilities. Floating point numbers are rational numbers. *)
From Coq Require Import QArith Qcanon String.
From Verif Require Import Base Strings Dict QcLib.
Local Open Scope nat_scope.
Local Open Scope list_scope.

Section Recipes.
Variable parse_int : pystr -> result Z.        (* int() of a string *)
Variable parse_float : pystr -> result Qc.     (* float() of a string *)
Variable show_float : Qc -> pystr.             (* str() of a float *)
Variable show_int : Z -> pystr.                (* str() of an int *)

(** ** recipes/common/ngramcounts.py *)
Definition ngram := list pystr.
Definition ngram_dec : forall a b : ngram, {a = b} + {a <> b} := list_eq_dec pystr_eq_dec.
Definition counts := list (ngram * Z).

(** ngramcounts.py 49-54, increment() *)
Definition increment (c : counts) (g : ngram) : counts :=
  match dict_get ngram_dec c g with
  | Some n => dict_set ngram_dec c g (n + 1)%Z
  | None => dict_set ngram_dec c g 1%Z
  end.

(** ngramcounts.py 24-25 and 28: [line[:tab_pos]] and [line[tab_pos+1:]], where [tab_pos] is -1 if
    there is no tab *)
Definition tab : char := 9%N.
Fixpoint at_tab (line : pystr) : option (pystr * pystr) :=
  match line with
  | [] => None
  | c :: s => if N.eqb c tab then Some ([], s) else option_map (fun x => (c :: fst x, snd x)) (at_tab s)
  end.
(** ngramcounts.py 18-31, read(): one line, and the loop *)
Definition read_count (max_order : option nat) (min_count : option Z) (c : counts) (line : pystr) : result counts :=
  let '(before, after) := match at_tab line with Some x => x | None => (removelast line, line) end in
  let g := split before in
  if match max_order with Some m => m <? length g | None => false end then Ok c
  else
    do n <- parse_int after;
    if match min_count with Some m => (n <? m)%Z | None => false end then Ok c
    else Ok (dict_set ngram_dec c g n).
Definition read_counts (max_order : option nat) (min_count : option Z) (lines : list pystr) : result counts :=
  foldM (read_count max_order min_count) lines [].

(** ngramcounts.py 33-43, from_text(): [history[-i-1:]], one word, and the loops over the
    lines and the words. The text is given as a list of lines. *)
Definition last_words (n : nat) (history : list pystr) : ngram := skipn (length history - n) history.
Definition count_word (max_order : nat) (st : list pystr * counts) (word : pystr) : list pystr * counts :=
  let history := fst st ++ [word] in
  let history := if max_order <? length history then tl history else history in
  (history, fold_left (fun c i => increment c (last_words (i + 1) history)) (seq 0 (min max_order (length history))) (snd st)).
Definition from_text (max_order : nat) (lines : list pystr) : counts :=
  snd (fold_left (fun st line => fold_left (count_word max_order) (split line) st) lines ([], [])).

(** ngramcounts.py 45-47, write(): the lines *)
Definition count_line (gn : ngram * Z) : pystr := join (str " ") (fst gn) ++ [tab] ++ show_int (snd gn) ++ [newline].
Definition write_counts (c : counts) : list pystr := map count_line c.

(** ** recipes/common/wordclasses.py *)

(** The words of a class with their probabilities, and the classes by name *)
Definition word_class := list (pystr * Qc).
Definition classes := list (pystr * word_class).

(** str.zfill(5) *)
Definition zfill5 (s : pystr) : pystr :=
  let zeros := repeat 48%N (5 - length s) in
  match s with
  | c :: s' => if (N.eqb c 43 || N.eqb c 45)%bool then c :: zeros ++ s' else zeros ++ s
  | [] => zeros
  end.
(** wordclasses.py 22-23 add(), and 76-78 of read() *)
Definition add_word (cl : classes) (name word : pystr) (prob : Qc) : classes :=
  let c := match dict_get pystr_eq_dec cl name with Some c => c | None => [] end in
  dict_set pystr_eq_dec cl name (dict_set pystr_eq_dec c word prob).
(** wordclasses.py 59-78, read(): one line, and the loop. The exception for other lines is
    of type Exception. *)
Definition read_class (cl : classes) (line : pystr) : result classes :=
  match split line with
  | [] => Ok cl
  | [word; number] => Ok (add_word cl (str "CLASS-" ++ zfill5 number) word 0%Qc)
  | [name; prob; word] => do p <- parse_float prob; Ok (add_word cl name word p)
  | _ => Err InputError
  end.
Definition read_classes (lines : list pystr) : result classes := foldM read_class lines [].

(** wordclasses.py 28-31, set_probability() *)
Definition set_probability (c : word_class) (word : pystr) (prob : Qc) : result word_class :=
  match dict_get pystr_eq_dec c word with
  | None => Err ValueError
  | Some _ => Ok (dict_set pystr_eq_dec c word prob)
  end.
(** wordclasses.py 33-40, normalize() *)
Definition normalize (c : word_class) : word_class :=
  let total_prob := qsum (dict_values c) in
  let factor := if Qclt_le_dec 0 total_prob then (1 / total_prob)%Qc else 0%Qc in
  fold_left (fun c' wp => dict_set pystr_eq_dec c' (fst wp) (snd wp * factor)%Qc) c c.
(** wordclasses.py 42-49 and 80-83, write(): the lines *)
Definition class_line (name word : pystr) (prob : Qc) : pystr :=
  name ++ str " " ++ show_float prob ++ str " " ++ word ++ [newline].
Definition write_classes (cl : classes) : list pystr :=
  flat_map (fun nc => map (fun wp => class_line (fst nc) (fst wp) (snd wp)) (normalize (snd nc))) cl.

(** ** recipes/common/fix-class-probabilities.py *)

(** Lines 25-31 *)
Definition word_count (c : counts) (word : pystr) : Z :=
  match dict_get ngram_dec c [word] with Some n => n | None => 0%Z end.
Definition words_counts (c : counts) (cls : word_class) : list (pystr * Z) :=
  fold_left (fun cs wp => dict_set pystr_eq_dec cs (fst wp) (word_count c (fst wp))) cls [].
(** Lines 32-35 *)
Definition qz (z : Z) : Qc := Q2Qc (inject_Z z).
Definition fix_class (c : counts) (cls : word_class) : result word_class :=
  let cs := words_counts c cls in
  let total_count := fold_right Z.add 0%Z (dict_values cs) in
  if (total_count =? 0)%Z then Ok cls
  else foldM (fun cls wn => set_probability cls (fst wn) (qz (snd wn) / qz total_count)%Qc) cs cls.
(** Lines 18-37: the lines of the output *)
Definition fix_class_probabilities (class_lines count_lines : list pystr) : result (list pystr) :=
  do cl <- read_classes class_lines;
  do c <- read_counts None None count_lines;
  do cl <- mapM (fun nc => do cls <- fix_class c (snd nc); Ok (fst nc, cls)) cl;
  Ok (write_classes cl).
End Recipes.
