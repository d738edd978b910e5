(** String literals and the whitespace handling of Python's str type. *)
From Coq Require Import Ascii String.
Export StringSyntax.
From Verif Require Import Base.

(** A Coq string literal as a list of code points. *)
Fixpoint str (s : string) : pystr :=
  match s with
  | EmptyString => []
  | String c s' => N_of_ascii c :: str s'
  end.
Arguments str s%string.

Definition newline : char := 10%N.
Definition space : char := 32%N.

(** The special tokens of the toolkit. *)
Definition SOS : pystr := str "<s>".
Definition EOS : pystr := str "</s>".
Definition UNK : pystr := str "<unk>".

(** The code points for which Python's str.isspace() is true; str.split() and
    str.rstrip() without arguments use the same set. *)
Definition space_chars : list N :=
  [9; 10; 11; 12; 13; 28; 29; 30; 31; 32; 133; 160; 5760;
   8192; 8193; 8194; 8195; 8196; 8197; 8198; 8199; 8200; 8201; 8202;
   8232; 8233; 8239; 8287; 12288]%N.
Definition is_space (c : char) : bool := existsb (N.eqb c) space_chars.
Arguments is_space : simpl never.

(** str.lstrip() *)
Fixpoint lstrip (s : pystr) : pystr :=
  match s with
  | [] => []
  | c :: s' => if is_space c then lstrip s' else s
  end.

(** str.rstrip() *)
Definition rstrip (s : pystr) : pystr := rev (lstrip (rev s)).

(** str.strip() *)
Definition strip (s : pystr) : pystr := rstrip (lstrip s).

(** str.split() without arguments.  [cur] holds the characters of the token that
    is being read, in reverse order. *)
Fixpoint split_aux (cur : pystr) (s : pystr) : list pystr :=
  match s with
  | [] => match cur with [] => [] | _ => [rev cur] end
  | c :: s' =>
    if is_space c
    then match cur with
         | [] => split_aux [] s'
         | _ => rev cur :: split_aux [] s'
         end
    else split_aux (c :: cur) s'
  end.
Definition split (s : pystr) : list pystr := split_aux [] s.

(** sep.join(parts) *)
Fixpoint join (sep : pystr) (parts : list pystr) : pystr :=
  match parts with
  | [] => []
  | [p] => p
  | p :: ps => p ++ sep ++ join sep ps
  end.
