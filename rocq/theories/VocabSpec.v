(** Specification of vocabularies: what a vocabulary file says, occurrences of
    words and pairs, distributions.  Independent of the functions of VocabModel
    except for the data types. *)
From Coq Require Import QArith Qcanon.
From Verif Require Import Base QcLib Strings Dict TextSpec VocabModel.
Local Open Scope nat_scope.

(** A vocabulary entry: the word, the class named in the file and the weight. *)
Record entry := mkEntry { e_word : pystr; e_key : option class_key; e_weight : Qc }.

Section Entries.
Variable parse_int : pystr -> result Z.
Variable parse_float : pystr -> result Qc.

(** [entry_on format line e]: the line defines the entry [e]. *)
Inductive entry_on : vocab_format -> pystr -> entry -> Prop :=
| entry_words line word :
    tokens line [word] -> entry_on Words line (mkEntry word None 1%Qc)
| entry_classes line word id z :
    tokens line [word; id] -> parse_int id = Ok z ->
    entry_on Classes line (mkEntry word (Some (KInt z)) 1%Qc)
| entry_srilm line id prob word p :
    tokens line [id; prob; word] -> parse_float prob = Ok p ->
    entry_on SrilmClasses line (mkEntry word (Some (KStr id)) p).

(** The entries of a file: blank lines are skipped. *)
Inductive entries (format : vocab_format) : list pystr -> list entry -> Prop :=
| entries_nil : entries format [] []
| entries_blank line lines es :
    all_space line -> entries format lines es -> entries format (line :: lines) es
| entries_cons line lines e es :
    entry_on format line e -> entries format lines es ->
    entries format (line :: lines) (e :: es).
End Entries.

(** Two entries of one file are in the same class. *)
Definition same_class (es : list entry) (i j : nat) : Prop :=
  i = j \/
  exists ei ej k, nth_error es i = Some ei /\ nth_error es j = Some ej /\
                  e_key ei = Some k /\ e_key ej = Some k.

Definition specials : list pystr := [SOS; EOS; UNK].
Definition is_special (w : pystr) : Prop := In w specials.

(** Probability distribution given by a list of values. *)
Definition distribution (l : list Qc) : Prop :=
  (forall p, In p l -> (0 <= p)%Qc) /\ qsum l = 1%Qc.

(** Number of occurrences of a word in a list. *)
Fixpoint occurrences (w : pystr) (l : list pystr) : nat :=
  match l with
  | [] => 0
  | x :: l' => (if pystr_eq_dec w x then 1 else 0) + occurrences w l'
  end.

(** [utterances files us]: the utterances on all the lines of all the files. *)
Definition utterances (files : list (list pystr)) (us : list (list pystr)) : Prop :=
  Forall2 utterance_of (concat files) us.

(** Number of positions at which [i] is followed by [j]. *)
Fixpoint adjacent (i j : nat) (l : list nat) : nat :=
  match l with
  | a :: ((b :: _) as l') => (if (a =? i) && (b =? j) then 1 else 0) + adjacent i j l'
  | _ => 0
  end.
Definition total (f : list nat -> nat) (ls : list (list nat)) : nat := list_sum (map f ls).

(** Sum of [f] over 0..n-1. *)
Definition sum_upto (n : nat) (f : nat -> nat) : nat := list_sum (map f (seq 0 n)).
Definition qsum_upto (n : nat) (f : nat -> Qc) : Qc := qsum (map f (seq 0 n)).

(** Every vocabulary that a program can hold: read from a file or built from word
    counts, then any number of probability updates and of saving and loading. *)
Inductive reachable_vocab : vocabulary -> Prop :=
| rv_file parse_int parse_float format lines oos v :
    from_file parse_int parse_float format lines oos = Ok v -> reachable_vocab v
| rv_counts word_counts n v :
    NoDup (map fst word_counts) ->
    from_word_counts word_counts n = Ok v -> reachable_vocab v
| rv_probs v word_counts update v' :
    reachable_vocab v -> compute_probs v word_counts update = Ok v' -> reachable_vocab v'
| rv_load v state v' :
    reachable_vocab v -> vocab_get_state v empty_vocab_state = Ok state ->
    vocab_from_state (Some state) = Ok v' -> reachable_vocab v'.

(** The weight of a class in a file: the sum over the entries in the class of
    entry [i]. *)
Definition same_key (a b : option class_key) : bool :=
  match a, b with
  | Some x, Some y => if class_key_eq_dec x y then true else false
  | _, _ => false
  end.
Definition class_weight (es : list entry) (i : nat) : Qc :=
  match nth_error es i with
  | None => 0%Qc
  | Some e =>
    qsum (map (fun j => match nth_error es j with
                        | Some e' => if (j =? i) || same_key (e_key e) (e_key e')
                                     then e_weight e' else 0%Qc
                        | None => 0%Qc
                        end) (seq 0 (length es)))
  end.

(** Count of a word in a table, zero if it is missing; special tokens count at
    least once when membership probabilities are computed. *)
Definition count_of (wc : dict pystr nat) (w : pystr) : nat :=
  match dict_get pystr_eq_dec wc w with Some n => n | None => 0 end.
Definition member_count (wc : dict pystr nat) (w : pystr) : nat :=
  if in_dec pystr_eq_dec w specials then Nat.max (count_of wc w) 1 else count_of wc w.

(** The sentence ID lists of a corpus. *)
Definition id_lists (v : vocabulary) (us : list (list pystr)) (ids : list (list nat)) : Prop :=
  Forall2 (fun u l => words_to_ids v u = Ok l) us ids.
Definition ends_in (i : nat) (l : list nat) : nat :=
  match rev l with x :: _ => if x =? i then 1 else 0 | [] => 0 end.
Definition begins_with (i : nat) (l : list nat) : nat :=
  match l with x :: _ => if x =? i then 1 else 0 | [] => 0 end.
Definition occurs (i : nat) (l : list nat) : nat := count_occ Nat.eq_dec l i.
