(** Specification of the recipe scripts. *)
From Coq Require Import QArith Qcanon String.
From Verif Require Import Base Strings TextSpec QcLib.
Local Open Scope nat_scope.
Local Open Scope list_scope.

(** How many times the words [g] are found in [ws] one after another *)
Definition occurrences (g ws : list pystr) : nat :=
  length (filter (fun i => if list_eq_dec pystr_eq_dec (firstn (length g) (skipn i ws)) g then true else false) (seq 0 (length ws))).

(** What the last line that says something says *)
Definition last_says {L V} (says : L -> V -> Prop) (lines : list L) (v : V) : Prop :=
  exists before line after, lines = before ++ line :: after /\ says line v /\ forall l v', In l after -> ~ says l v'.

Section Lines.
Variable parse_int : pystr -> result Z.
Variable parse_float : pystr -> result Qc.
(** A line of a file of counts: the n-gram, a tab and the count *)
Definition has_tab (line : pystr) : Prop := In 9%N line.
Definition says_count (g : list pystr) (line : pystr) (n : Z) : Prop :=
  exists before after, line = before ++ 9%N :: after /\ ~ In 9%N before /\ tokens before g /\ parse_int after = Ok n.

(** A number with at least five characters, with zeros after the sign *)
Definition filled (number s : pystr) : Prop :=
  exists sign digits, number = sign ++ digits /\ s = sign ++ repeat 48%N (5 - length number) ++ digits /\
    (sign = str "+" \/ sign = str "-" \/ sign = [] /\ forall c rest, digits = c :: rest -> c <> 43%N /\ c <> 45%N).
(** A line of a class file: the word and the number of the class, or the name of the class,
    the probability and the word *)
Definition says_class (name word : pystr) (line : pystr) (p : Qc) : Prop :=
  (exists number s, tokens line [word; number] /\ filled number s /\ name = str "CLASS-" ++ s /\ p = 0%Qc) \/
  (exists text, tokens line [name; text; word] /\ parse_float text = Ok p).
End Lines.

(** The words of a class, with their probabilities *)
Definition members (name : pystr) (entries : list (pystr * pystr * Qc)) : list (pystr * pystr * Qc) :=
  filter (fun e => if pystr_eq_dec (fst (fst e)) name then true else false) entries.
(** The sum of the counts of the words of a class, and of their probabilities in the input *)
Definition class_count (count : pystr -> Z) (name : pystr) (entries : list (pystr * pystr * Qc)) : Z :=
  fold_right Z.add 0%Z (map (fun e => count (snd (fst e))) (members name entries)).
Definition class_given (given : pystr -> pystr -> Qc) (name : pystr) (entries : list (pystr * pystr * Qc)) : Qc :=
  qsum (map (fun e => given name (snd (fst e))) (members name entries)).
