(** Model of theanolm/parsing/functions.py. *)
From Verif Require Import Base Strings.

(** functions.py 6-34, utterance_from_line().  Simplification: a bytes argument
    is taken to have been decoded already (lines 21-22). *)
Definition utterance_from_line (line : pystr) : result (list pystr) :=
  let line := rstrip line in                               (* 23 *)
  match line with
  | [] => Ok []                                            (* 24-26 *)
  | _ =>
    let result := split line in                            (* 28 *)
    do first <- py_index result 0;                         (* 29 *)
    let result := if pystr_eq_dec first SOS then result else SOS :: result in
    do last <- py_index result (length result - 1);        (* 31 *)
    let result := if pystr_eq_dec last EOS then result else result ++ [EOS] in
    Ok result
  end.

(** data.find(b'\n', pos): the smallest offset of a newline at or after pos. *)
Fixpoint find_newline_from (data : pystr) (offset : nat) : option nat :=
  match data with
  | [] => None
  | c :: data' =>
    if N.eq_dec c newline then Some offset
    else find_newline_from data' (S offset)
  end.
Definition find_newline (data : pystr) (pos : nat) : option nat :=
  find_newline_from (skipn pos data) pos.

(** functions.py 54-60, the loop of find_sentence_starts(). *)
Fixpoint find_sentence_starts_loop (fuel : nat) (data : pystr) (pos : nat)
         (result : list nat) : Base.result (list nat) :=
  match fuel with
  | 0 => Err OutOfFuel
  | S fuel' =>
    match find_newline data pos with                       (* 55 *)
    | None => Ok result                                    (* 56-57 *)
    | Some pos =>
      let pos := S pos in                                  (* 58 *)
      let result := if pos <? length data
                    then result ++ [pos] else result in    (* 59-60 *)
      find_sentence_starts_loop fuel' data pos result
    end
  end.

(** functions.py 36-62, find_sentence_starts(). *)
Definition find_sentence_starts (data : pystr) : Base.result (list nat) :=
  find_sentence_starts_loop (S (length data)) data 0 [0].

(** file.readline() on the unread part of a file: the characters up to and
    including the next newline, or all of them, and what is left. *)
Fixpoint readline (rest : pystr) : pystr * pystr :=
  match rest with
  | [] => ([], [])
  | c :: rest' =>
    if N.eq_dec c newline then ([c], rest')
    else let (line, rest'') := readline rest' in (c :: line, rest'')
  end.

(** input_file.seek(position); input_file.readline() *)
Definition readline_at (data : pystr) (pos : nat) : pystr :=
  fst (readline (skipn pos data)).
