(** Specification of the mini-batch iterators. *)
From Coq Require Import QArith Qabs Permutation.
From Verif Require Import Base Strings TextSpec.
Local Open Scope nat_scope.

(** [cut_into m l ps]: cutting [l] from the left into consecutive pieces of [m]
    elements, the last of which may be shorter but not empty. *)
Inductive cut_into {A} (m : nat) : list A -> list (list A) -> Prop :=
| cut_nil : cut_into m [] []
| cut_last l : l <> [] -> length l <= m -> cut_into m l [l]
| cut_more a l ps : length a = m -> l <> [] -> cut_into m l ps ->
                    cut_into m (a ++ l) (a :: ps).

(** The sequences that a line of file [file_id] contributes to an epoch: its
    utterance, whole or cut, every word tagged with the file, pieces of fewer
    than two words left out. *)
Inductive line_sequences (max_len : option nat) (file_id : nat)
  : pystr -> list (list (pystr * nat)) -> Prop :=
| line_sequences_intro line utterance pieces :
    utterance_of line utterance ->
    (match max_len with
     | None => pieces = [utterance]
     | Some m => cut_into m utterance pieces
     end) ->
    line_sequences max_len file_id line
      (map (map (fun w => (w, file_id)))
           (filter (fun p => 2 <=? length p) pieces)).

(** The sequences of a list of (line, file_id) pairs, in order. *)
Inductive lines_sequences (max_len : option nat)
  : list (pystr * nat) -> list (list (pystr * nat)) -> Prop :=
| lines_sequences_nil : lines_sequences max_len [] []
| lines_sequences_cons line file_id ss lines rest :
    line_sequences max_len file_id line ss ->
    lines_sequences max_len lines rest ->
    lines_sequences max_len ((line, file_id) :: lines) (ss ++ rest).

(** The lines of the files, from file index [file_id] on, with their indices. *)
Inductive tagged_lines : nat -> list pystr -> list (pystr * nat) -> Prop :=
| tagged_lines_nil k : tagged_lines k [] []
| tagged_lines_cons k data files ls rest :
    lines_of data ls ->
    tagged_lines (S k) files rest ->
    tagged_lines k (data :: files) (map (fun l => (l, k)) ls ++ rest).

(** The maximum sequence length is either absent or positive. *)
Definition valid_max (max_len : option nat) : Prop :=
  match max_len with None => True | Some m => 1 <= m end.

(** The lines of each file. *)
Definition file_lines (files : list pystr) (lss : list (list pystr)) : Prop :=
  Forall2 lines_of files lss.

(** [size] is [fraction * count] rounded to the nearest integer, and to an even one
    when there are two. *)
Definition rounded (fraction : Q) (count size : nat) : Prop :=
  let d := Qabs (inject_Z (Z.of_nat size) - fraction * inject_Z (Z.of_nat count)) in
  (d <= 1 # 2)%Q /\ ((d == 1 # 2)%Q -> Nat.Even size).

(** Sample size of each file; files beyond the list of fractions have fraction 1. *)
Inductive sizes_for : list (list pystr) -> list Q -> list nat -> Prop :=
| sizes_for_nil fractions : sizes_for [] fractions []
| sizes_for_default lines lss sizes :
    sizes_for lss [] sizes -> sizes_for (lines :: lss) [] (length lines :: sizes)
| sizes_for_fraction lines lss fraction fractions size sizes :
    rounded fraction (length lines) size ->
    sizes_for lss fractions sizes ->
    sizes_for (lines :: lss) (fraction :: fractions) (size :: sizes).

(** [sampled k lss sizes sample]: [sample] consists of [size] lines of each file,
    tagged with the file index; a line of the file is used at most once unless
    more lines are wanted than there are. *)
Inductive sampled : nat -> list (list pystr) -> list nat -> list (pystr * nat) -> Prop :=
| sampled_nil k : sampled k [] [] []
| sampled_cons k lines lss size sizes idx rest :
    length idx = size ->
    Forall (fun j => j < length lines) idx ->
    (size <= length lines -> NoDup idx) ->
    sampled (S k) lss sizes rest ->
    sampled k (lines :: lss) (size :: sizes)
            (map (fun j => (nth j lines [], k)) idx ++ rest).

(** Contracts of numpy.random: choice() returns [size] members of the population,
    without repetition unless replacement is asked for; shuffle() permutes. *)
Definition choice_contract (choice : nat -> nat -> list nat -> nat -> bool -> list nat) : Prop :=
  forall draw file pop size replace,
    pop <> [] -> NoDup pop -> (replace = false -> size <= length pop) ->
    length (choice draw file pop size replace) = size /\
    incl (choice draw file pop size replace) pop /\
    (replace = false -> NoDup (choice draw file pop size replace)).
Definition shuffle_contract (shuffle : nat -> list nat -> list nat) : Prop :=
  forall draw l, Permutation l (shuffle draw l).

(** Cell of a matrix given as a list of rows. *)
Definition cell {A} (m : list (list A)) (t j : nat) : option A :=
  match nth_error m t with Some row => nth_error row j | None => None end.
Definition is_matrix {A} (rows cols : nat) (m : list (list A)) : Prop :=
  length m = rows /\ Forall (fun row => length row = cols) m.
Definition longest {A} (rows : nat) (seqs : list (list A)) : Prop :=
  (forall s, In s seqs -> length s <= rows) /\ (exists s, In s seqs /\ length s = rows).

(** [word_code lookup shortlist unk oos word code]: the ID that represents the
    word: its own if it has one (and, with [oos], that is in the shortlist), or
    else the one of <unk>. *)
Inductive word_code (lookup : pystr -> option nat) (shortlist : nat -> bool) (unk : nat)
          (oos : bool) (word : pystr) : nat -> Prop :=
| code_known id :
    lookup word = Some id -> (oos = true -> shortlist id = true) ->
    word_code lookup shortlist unk oos word id
| code_oos id :
    lookup word = Some id -> oos = true -> shortlist id = false ->
    word_code lookup shortlist unk oos word unk
| code_oov :
    lookup word = None -> word_code lookup shortlist unk oos word unk.
