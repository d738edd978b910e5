(** Specification of text parsing, independent of TextModel. *)
From Verif Require Import Base Strings.

Definition all_space (s : pystr) : Prop := forall c, In c s -> is_space c = true.
Definition no_space (s : pystr) : Prop := forall c, In c s -> is_space c = false.

(** [tokens line toks]: [toks] are the whitespace separated tokens of [line]. *)
Inductive tokens : pystr -> list pystr -> Prop :=
| tokens_blank s :
    all_space s -> tokens s []
| tokens_last sep t :
    all_space sep -> t <> [] -> no_space t ->
    tokens (sep ++ t) [t]
| tokens_cons sep t c rest toks :
    all_space sep -> t <> [] -> no_space t -> is_space c = true ->
    tokens rest toks ->
    tokens (sep ++ t ++ c :: rest) (t :: toks).

(** Framing of a non-empty token list by sentence markers. *)
Definition starts_with (t : pystr) (l : list pystr) : Prop := exists r, l = t :: r.
Definition ends_with (t : pystr) (l : list pystr) : Prop := exists r, l = r ++ [t].

Inductive framed : list pystr -> list pystr -> Prop :=
| framed_intro toks pre post :
    (starts_with SOS toks /\ pre = [] \/ ~ starts_with SOS toks /\ pre = [SOS]) ->
    (ends_with EOS toks /\ post = [] \/ ~ ends_with EOS toks /\ post = [EOS]) ->
    framed toks (pre ++ toks ++ post).

(** [utterance_of line u]: [u] is the utterance on [line]. *)
Inductive utterance_of : pystr -> list pystr -> Prop :=
| utterance_blank_line line : all_space line -> utterance_of line []
| utterance_text_line line toks u :
    tokens line toks -> toks <> [] -> framed toks u -> utterance_of line u.

(** [lines_of data ls]: [ls] are the lines of [data], each with its newline. *)
Definition is_line (l : pystr) : Prop :=
  exists body, ~ In newline body /\ l = body ++ [newline].
Inductive lines_of : pystr -> list pystr -> Prop :=
| lines_nil : lines_of [] []
| lines_last l : l <> [] -> ~ In newline l -> lines_of l [l]
| lines_cons l rest ls : is_line l -> lines_of rest ls -> lines_of (l ++ rest) (l :: ls).

(** A line begins at offset [p] of [data]. *)
Definition line_start (data : pystr) (p : nat) : Prop :=
  p = 0 \/ (0 < p < length data /\ nth_error data (p - 1) = Some newline).
