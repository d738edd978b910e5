(** Model of the mini-batch iterators:
    theanolm/parsing/batchiterator.py, linearbatchiterator.py,
    shufflingbatchiterator.py and scoringbatchiterator.py. *)
From Coq Require Import QArith.
From Verif Require Import Base Strings TextModel.
Local Open Scope nat_scope.

(** A sequence is a list of (word, file_id) tuples. *)
Definition sequence := list (pystr * nat).

(** ** batchiterator.py *)
Section BatchIterator.

(** The subclass: its state, _readline() and _reset(shuffle). *)
Variable src : Type.
Variable src_readline : src -> result (option (pystr * nat) * src).
Variable src_reset : bool -> src -> src.

(** batchiterator.py 45-50: constructor arguments and attributes. *)
Variable batch_size : nat.
Variable max_sequence_length : option nat.

Record bstate := mkB {
  b_src : src;
  b_buffer : sequence;           (* self._buffer *)
  b_eof : bool                   (* self._end_of_file *)
}.

(** batchiterator.py 49-50 *)
Definition batch_init (s : src) : bstate := mkB s [] false.

(** batchiterator.py 132-166, _read_sequence() *)
Definition take_from_buffer (s : src) (buffer : sequence) (eof : bool)
  : sequence * bstate :=
  match max_sequence_length with
  | None => (buffer, mkB s [] eof)                             (* 160-162 *)
  | Some m => (firstn m buffer, mkB s (skipn m buffer) eof)    (* 163-165 *)
  end.

Definition read_sequence (st : bstate) : result (option sequence * bstate) :=
  match b_buffer st with
  | [] =>                                                      (* 150 *)
    do '(r, s') <- src_readline (b_src st);                    (* 151 *)
    match r with
    | None => Ok (None, mkB s' [] (b_eof st))                  (* 152-154 *)
    | Some (line, file_id) =>
      do words <- utterance_from_line line;                    (* 155-158 *)
      let buffer := map (fun word => (word, file_id)) words in
      let (sequence, st') := take_from_buffer s' buffer (b_eof st) in
      Ok (Some sequence, st')
    end
  | _ =>
    let (sequence, st') := take_from_buffer (b_src st) (b_buffer st) (b_eof st) in
    Ok (Some sequence, st')
  end.

(** batchiterator.py 80-98, the loop of __next__() and what follows it.  [None]
    stands for StopIteration. The call of _prepare_batch() is made by the caller
    ([next_batch] below). *)
Fixpoint next_loop (fuel : nat) (st : bstate) (sequences : list sequence)
  : result (option (list sequence) * bstate) :=
  match fuel with
  | 0 => Err OutOfFuel
  | S fuel' =>
    do '(r, st') <- read_sequence st;                          (* 81 *)
    match r with
    | None =>                                                  (* 82-83 *)
      match sequences with
      | [] => Ok (None, mkB (src_reset true (b_src st')) (b_buffer st') (b_eof st'))
                                                               (* 93-95 *)
      | _ => Ok (Some sequences, mkB (b_src st') (b_buffer st') true)
                                                               (* 96-98 *)
      end
    | Some sequence =>
      if length sequence <? 2 then next_loop fuel' st' sequences   (* 84-85 *)
      else
        let sequences := sequences ++ [sequence] in            (* 86 *)
        if batch_size <=? length sequences                     (* 87 *)
        then Ok (Some sequences, st')                          (* 88 *)
        else next_loop fuel' st' sequences
    end
  end.

(** batchiterator.py 55-98, __next__() *)
Definition next_sequences (fuel : nat) (st : bstate)
  : result (option (list sequence) * bstate) :=
  if b_eof st                                                  (* 74 *)
  then Ok (None, mkB (src_reset true (b_src st)) (b_buffer st) false)  (* 75-77 *)
  else next_loop fuel st [].

(** batchiterator.py 111-117, the counting loop of __len__() *)
Fixpoint count_loop (fuel : nat) (st : bstate) (num_sequences : nat)
  : result (nat * bstate) :=
  match fuel with
  | 0 => Err OutOfFuel
  | S fuel' =>
    do '(r, st') <- read_sequence st;
    match r with
    | None => Ok (num_sequences, st')
    | Some sequence =>
      if length sequence <? 2 then count_loop fuel' st' num_sequences
      else count_loop fuel' st' (S num_sequences)
    end
  end.

(** batchiterator.py 100-120, __len__() *)
Definition iter_len (fuel : nat) (st : bstate) : result (nat * bstate) :=
  let st := mkB (src_reset false (b_src st)) (b_buffer st) (b_eof st) in  (* 108 *)
  do '(n, st') <- count_loop fuel st 0;
  let st' := mkB (src_reset false (b_src st')) (b_buffer st') (b_eof st') in (* 119 *)
  match batch_size with
  | 0 => Err ZeroDivisionError
  | _ => Ok ((n + batch_size - 1) / batch_size, st')           (* 120 *)
  end.

(** [for batch in iterator]: call __next__() until it raises StopIteration. *)
Fixpoint epoch (fuel : nat) (st : bstate) : result (list (list sequence) * bstate) :=
  match fuel with
  | 0 => Err OutOfFuel
  | S fuel' =>
    do '(r, st') <- next_sequences fuel st;
    match r with
    | None => Ok ([], st')
    | Some sequences =>
      do '(batches, st'') <- epoch fuel' st';
      Ok (sequences :: batches, st'')
    end
  end.

(** The next [n] calls of __next__(), up to StopIteration. *)
Fixpoint take_batches (fuel n : nat) (st : bstate)
  : result (list (list sequence) * bstate) :=
  match n with
  | 0 => Ok ([], st)
  | S n' =>
    do '(r, st') <- next_sequences fuel st;
    match r with
    | None => Ok ([], st')
    | Some sequences =>
      do '(batches, st'') <- take_batches fuel n' st';
      Ok (sequences :: batches, st'')
    end
  end.

(** [n] complete passes over the data, as the epochs of training. *)
Fixpoint epochs (fuel n : nat) (st : bstate)
  : result (list (list (list sequence)) * bstate) :=
  match n with
  | 0 => Ok ([], st)
  | S n' =>
    do '(batches, st') <- epoch fuel st;
    do '(rest, st'') <- epochs fuel n' st';
    Ok (batches :: rest, st'')
  end.

(** States an iterator can be in: created, then advanced by __next__() and
    measured by __len__(). The latter is not called between the last mini-batch
    of an epoch and the StopIteration that follows it. *)
Inductive iter_reachable (init : src) : bstate -> Prop :=
| reach_init : iter_reachable init (batch_init init)
| reach_next fuel st r st' :
    iter_reachable init st -> next_sequences fuel st = Ok (r, st') ->
    iter_reachable init st'
| reach_len fuel st n st' :
    iter_reachable init st -> b_eof st = false -> iter_len fuel st = Ok (n, st') ->
    iter_reachable init st'.

End BatchIterator.

Arguments mkB {src}.
Arguments b_src {src}.
Arguments b_buffer {src}.
Arguments b_eof {src}.
Arguments batch_init {src}.

(** ** linearbatchiterator.py *)

Record linear := mkLinear {
  l_files : list pystr;      (* contents of self._input_files *)
  l_file_id : nat;           (* self._file_id *)
  l_rest : pystr             (* unread part of self._input_file *)
}.

(** linearbatchiterator.py 57-67, _reset(): open the first file at its start.
    The constructor (47-49) refuses an empty list of files. *)
Definition linear_reset (shuffle : bool) (s : linear) : linear :=
  mkLinear (l_files s) 0
    (match l_files s with [] => [] | f :: _ => f end).

(** linearbatchiterator.py 45-55, constructor *)
Definition linear_init (files : list pystr) : result linear :=
  match files with
  | [] => Err ValueError
  | f :: _ => Ok (mkLinear files 0 f)
  end.

(** linearbatchiterator.py 79-85: skip to the next file while no line can be
    read. [fuel] bounds the number of files. *)
Fixpoint linear_readline_loop (fuel : nat) (files : list pystr) (file_id : nat)
         (rest : pystr) : result (option (pystr * nat) * linear) :=
  match fuel with
  | 0 => Err OutOfFuel
  | S fuel' =>
    let (line, rest') := readline rest in
    match line with
    | [] =>                                                    (* 79 *)
      let file_id := S file_id in                              (* 80 *)
      if length files <=? file_id                              (* 81 *)
      then Ok (None, mkLinear files file_id rest')             (* 82 *)
      else do file <- py_index files file_id;                  (* 83-84 *)
           linear_readline_loop fuel' files file_id file       (* 85 *)
    | _ => Ok (Some (line, file_id), mkLinear files file_id rest')  (* 86 *)
    end
  end.

(** linearbatchiterator.py 69-86, _readline() *)
Definition linear_readline (s : linear) : result (option (pystr * nat) * linear) :=
  linear_readline_loop (S (length (l_files s))) (l_files s) (l_file_id s) (l_rest s).

(** ** shufflingbatchiterator.py *)

(** shufflingbatchiterator.py 18-82, SentencePointers: files, pointers as
    (file index, position), and the range of pointers of each file. *)
Record sentence_pointers := mkPointers {
  sp_files : list pystr;
  sp_pointers : list (nat * nat);
  sp_ranges : list (nat * nat)
}.

(** shufflingbatchiterator.py 43-58, one iteration of the loop over files.
    Simplification: an empty file makes mmap.mmap() raise ValueError. *)
Definition add_file (sp : sentence_pointers) (data : pystr)
  : result sentence_pointers :=
  match data with
  | [] => Err ValueError
  | _ =>
    let subset_index := length (sp_files sp) in                (* 44 *)
    do starts <- find_sentence_starts data;                    (* 53-54 *)
    let pointers := map (fun x => (subset_index, x)) starts in
    let pointers_start := length (sp_pointers sp) in           (* 55 *)
    let all := sp_pointers sp ++ pointers in                   (* 56 *)
    Ok (mkPointers (sp_files sp ++ [data]) all
                   (sp_ranges sp ++ [(pointers_start, length all)])) (* 57-58 *)
  end.

(** shufflingbatchiterator.py 39-58, SentencePointers.__init__() *)
Definition make_pointers (files : list pystr) : result sentence_pointers :=
  foldM add_file files (mkPointers [] [] []).

(** Python's round(): to the nearest integer, ties to even. The argument is the
    exact rational value of the fraction times the number of lines. *)
Definition py_round (q : Q) : Z :=
  let n := Qnum q in
  let d := Z.pos (Qden q) in
  let f := (n / d)%Z in
  let r := (n mod d)%Z in
  if (2 * r <? d)%Z then f
  else if (d <? 2 * r)%Z then (f + 1)%Z
  else if Z.even f then f else (f + 1)%Z.

(** shufflingbatchiterator.py 122-127, sizes of the per-file samples. *)
Fixpoint sample_sizes (ranges : list (nat * nat)) (sampling : list Q) : list Z :=
  match ranges with
  | [] => []
  | (start, stop) :: ranges' =>
    let fraction := match sampling with [] => 1%Q | f :: _ => f end in   (* 125 *)
    py_round (fraction * (Z.of_nat (stop - start) # 1))        (* 126 *)
      :: sample_sizes ranges' (tl sampling)
  end.

Record shuffling := mkShuffling {
  s_pointers : sentence_pointers;   (* self._sentence_pointers *)
  s_sizes : list nat;               (* self._sample_sizes *)
  s_next_line : nat;                (* self._next_line *)
  s_order : list nat;               (* self._order *)
  s_draws : nat                     (* number of orders generated so far *)
}.

Section Shuffling.

(** numpy's random generator: the result of random.choice(population, size,
    replace) for the given file at the given draw, and of the ten calls of
    random.shuffle() at the given draw. *)
Variable choice : nat -> nat -> list nat -> nat -> bool -> list nat.
Variable shuffle10 : nat -> list nat -> list nat.

(** shufflingbatchiterator.py 204-213, the samples of the files from index
    [file_id] on. *)
Fixpoint draw_samples (draw file_id : nat) (ranges : list (nat * nat))
         (sizes : list nat) : list (list nat) :=
  match ranges, sizes with
  | (start, stop) :: ranges', size :: sizes' =>
    let population := seq start (stop - start) in              (* 208 *)
    let replace := length population <? size in                (* 211 *)
    choice draw file_id population size replace                (* 212 *)
      :: draw_samples draw (S file_id) ranges' sizes'
  | _, _ => []
  end.

(** shufflingbatchiterator.py 191-216, _reset() *)
Definition shuffling_reset (shuffle : bool) (s : shuffling) : shuffling :=
  if shuffle
  then mkShuffling (s_pointers s) (s_sizes s) 0
         (shuffle10 (s_draws s)
            (concat (draw_samples (s_draws s) 0 (sp_ranges (s_pointers s)) (s_sizes s))))
         (S (s_draws s))
  else mkShuffling (s_pointers s) (s_sizes s) 0 (s_order s) (s_draws s).

(** shufflingbatchiterator.py 120-134, constructor. A negative sample size makes
    random.choice() raise ValueError. *)
Definition shuffling_init (files : list pystr) (sampling : list Q)
  : result shuffling :=
  do sp <- make_pointers files;                                (* 120 *)
  let sizes := sample_sizes (sp_ranges sp) sampling in         (* 122-127 *)
  if forallb (Z.leb 0) sizes
  then
    let sizes := map Z.to_nat sizes in
    Ok (shuffling_reset true
          (mkShuffling sp sizes 0 (seq 0 (list_sum sizes)) 0)) (* 129-131 *)
  else Err ValueError.

End Shuffling.

(** shufflingbatchiterator.py 218-236, _readline() *)
Definition shuffling_readline (s : shuffling)
  : result (option (pystr * nat) * shuffling) :=
  if length (s_order s) <=? s_next_line s then Ok (None, s)    (* 227-228 *)
  else
    do sentence_index <- py_index (s_order s) (s_next_line s); (* 230 *)
    do '(subset_index, position) <- py_index (sp_pointers (s_pointers s)) sentence_index;
                                                               (* 231-232, 80 *)
    do data <- py_index (sp_files (s_pointers s)) subset_index;   (* 81 *)
    let line := readline_at data position in                   (* 233-234 *)
    Ok (Some (line, subset_index),
        mkShuffling (s_pointers s) (s_sizes s) (S (s_next_line s)) (s_order s)
                    (s_draws s)).                              (* 235-236 *)

(** The part of the HDF5 state that the iterator writes: iterator/order and
    iterator/next_line, either of which may be absent. *)
Record iter_state := mkIterState {
  is_order : option (list nat);
  is_next_line : option nat
}.

(** shufflingbatchiterator.py 136-157, get_state(). Assigning into an existing
    dataset (152-153) needs the same number of elements and then replaces it, so
    the written state does not depend on the previous contents. *)
Definition shuffling_get_state (s : shuffling) : iter_state :=
  mkIterState (Some (s_order s)) (Some (s_next_line s)).

(** shufflingbatchiterator.py 159-189, set_state() *)
Definition shuffling_set_state (state : option iter_state) (s : shuffling)
  : result shuffling :=
  match state with
  | None => Err IncompatibleStateError                         (* 171-172 *)
  | Some h5 =>
    match is_order h5 with
    | None => Err IncompatibleStateError                       (* 175-177 *)
    | Some [] => Err IncompatibleStateError                    (* 179-181 *)
    | Some order =>
      match is_next_line h5 with
      | None => Err IncompatibleStateError                     (* 183-185 *)
      | Some n => Ok (mkShuffling (s_pointers s) (s_sizes s) n order (s_draws s))
      end
    end
  end.

(** set_state() and get_state() as methods of the whole iterator: the buffer and
    the end-of-file flag of the base class are neither saved nor touched. *)
Definition shuffling_iter_get_state (st : bstate shuffling) : iter_state :=
  shuffling_get_state (b_src st).
Definition shuffling_iter_set_state (state : option iter_state) (st : bstate shuffling)
  : result (bstate shuffling) :=
  do s <- shuffling_set_state state (b_src st);
  Ok (mkB s (b_buffer st) (b_eof st)).

(** ** _prepare_batch() *)

(** What _prepare_batch() uses of the vocabulary. *)
Record vocab_view := mkView {
  vv_word_to_id : pystr -> option nat;  (* word_to_id, None if not in it *)
  vv_in_shortlist : nat -> bool;        (* in_shortlist() *)
  vv_unk_id : nat                       (* word_to_id['<unk>'] *)
}.

(** batchiterator.py 219-224: the ID of one word *)
Definition batch_word_id (v : vocab_view) (map_oos_to_unk : bool) (word : pystr) : nat :=
  match vv_word_to_id v word with
  | Some word_id =>
    if negb map_oos_to_unk || vv_in_shortlist v word_id then word_id else vv_unk_id v
  | None => vv_unk_id v
  end.

(** [column[:length, i] = values]: the new column *)
Definition fill_column {A} (values : list A) (default : A) (rows : nat) : list A :=
  map (fun t => nth t values default) (seq 0 rows).

Definition transpose {A} (rows : nat) (columns : list (list A)) : list (list A) :=
  map (fun t => concat (map (fun col => match nth_error col t with
                                        | Some a => [a] | None => [] end) columns))
      (seq 0 rows).

(** batchiterator.py 180-231, _prepare_batch(): word ID, file ID and mask matrices
    as lists of rows. numpy.max() of an empty list raises ValueError. File IDs are
    stored as int8; wrapping is modelled by [int8]. *)
Definition int8 (n : nat) : Z :=
  let m := (Z.of_nat n mod 256)%Z in
  if (m <? 128)%Z then m else (m - 256)%Z.

Definition prepare_batch (v : vocab_view) (map_oos_to_unk : bool)
           (sequences : list sequence)
  : result (list (list nat) * list (list Z) * list (list nat)) :=
  match sequences with
  | [] => Err ValueError
  | _ =>
    let batch_length := list_max (map (@length _) sequences) in          (* 206 *)
    let unk_id := vv_unk_id v in
    let word_id_columns :=
      map (fun s => fill_column (map (fun wf => batch_word_id v map_oos_to_unk (fst wf)) s)
                                unk_id batch_length) sequences in
    let file_id_columns :=
      map (fun s => fill_column (map (fun wf => int8 (snd wf)) s) 0%Z batch_length)
          sequences in
    let mask_columns :=
      map (fun s => fill_column (repeat 1 (length s)) 0 batch_length) sequences in
    Ok (transpose batch_length word_id_columns,
        transpose batch_length file_id_columns,
        transpose batch_length mask_columns)
  end.

(** scoringbatchiterator.py 24-77, _prepare_batch(): word IDs, words and mask *)
Definition prepare_scoring_batch (v : vocab_view) (map_oos_to_unk : bool)
           (sequences : list sequence)
  : result (list (list nat) * list (list pystr) * list (list nat)) :=
  do '(word_ids, _, mask) <- prepare_batch v map_oos_to_unk sequences;
  Ok (word_ids, map (map fst) sequences, mask).

(** __next__() of the three iterators returns the prepared mini-batch. *)
Definition next_batch {src A} (readline : src -> result (option (pystr * nat) * src))
           (reset : bool -> src -> src) (batch_size : nat) (max_len : option nat)
           (prepare : list sequence -> result A) (fuel : nat) (st : bstate src)
  : result (option A * bstate src) :=
  do '(r, st') <- next_sequences src readline reset batch_size max_len fuel st;
  match r with
  | None => Ok (None, st')
  | Some sequences => do b <- prepare sequences; Ok (Some b, st')
  end.
